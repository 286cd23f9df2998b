(* HistFacts.v: what one poll can be, and facts about whole histories of Panel (for PropState.v). *)
From Verif Require Import Base BaseFacts Pkt SpecPkt PktFacts DecodeFacts Msg SpecMsg DecFacts MsgFacts WireFacts IsoFacts
  Tokio SpecConn ConnFacts State SpecState StateFacts RunFacts.
From Coq Require Import ZifyBool ZifyNat ZifyN.
Ltac Zify.zify_post_hook ::= Z.div_mod_to_equations.

(* ---- lists of observations ---- *)
Lemma catMaybes_app {A} (l l' : list (option A)) : catMaybes (l ++ l') = catMaybes l ++ catMaybes l'.
Proof. induction l as [|[x|] l IH]; cbn; congruence. Qed.
Lemma events_app a b : events (a ++ b) = events a ++ events b.
Proof. unfold events. rewrite map_app. apply catMaybes_app. Qed.
Lemma packets_app a b : packets (a ++ b) = packets a ++ packets b.
Proof. unfold packets. rewrite map_app. apply catMaybes_app. Qed.
Lemma messages_in_app a b : messages_in (a ++ b) = messages_in a ++ messages_in b.
Proof. unfold messages_in. rewrite map_app. apply catMaybes_app. Qed.
Lemma reports_in_app a b : reports_in (a ++ b) = reports_in a ++ reports_in b.
Proof. unfold reports_in. rewrite messages_in_app, map_app. apply catMaybes_app. Qed.
Lemma messages_app a b : messages (a ++ b) = messages a ++ messages b.
Proof. unfold messages. rewrite events_app, packets_app. apply messages_in_app. Qed.
Lemma as_reports_app a b : as_reports (a ++ b) = as_reports a ++ as_reports b.
Proof. unfold as_reports. rewrite events_app, packets_app. apply reports_in_app. Qed.
Lemma completions_app a b : completions (a ++ b) = completions a ++ completions b.
Proof. unfold completions. rewrite events_app, map_app. apply catMaybes_app. Qed.
Lemma accepted_app a b : accepted (a ++ b) = accepted a ++ accepted b.
Proof. unfold accepted. rewrite map_app. apply catMaybes_app. Qed.
Lemma arrived_app a b : arrived (a ++ b) = arrived a ++ arrived b.
Proof. unfold arrived. rewrite map_app. apply concat_app. Qed.
Lemma arrived_u8 h : Forall op_ok h -> u8s (arrived h).
Proof.
  induction 1 as [|o h H HH IH]; [constructor|]. change (o :: h) with ([o] ++ h). rewrite arrived_app. apply u8s_app. split; [|exact IH].
  destruct o as [a|now|w ws|c|ws|ws]; try constructor. unfold arrived. cbn [map concat]. rewrite app_nil_r. destruct a; [exact H | constructor | constructor].
Qed.

(* ---- decoding packets one after the other ---- *)
Inductive takes : bytes -> list packet -> bytes -> Prop :=
| takes_nil b : takes b [] b
| takes_snoc b ps b' p b'' : takes b ps b' -> decode b' = Ok (Some p, b'') -> takes b (ps ++ [p]) b''.
Lemma takes_u8 b ps b' : takes b ps b' -> u8s b -> u8s b'.
Proof.
  induction 1 as [|b ps b' p b'' T IH D]; auto. intros U. specialize (IH U).
  destruct (decode_some_inv _ _ _ IH D) as (raw & E & _). rewrite E in IH. apply u8s_app in IH. tauto.
Qed.
Lemma takes_more b ps b' s : takes b ps b' -> u8s b -> u8s s -> takes (b ++ s) ps (b' ++ s).
Proof.
  intros T U Us. induction T as [|b ps b' p b'' T IH D]; [constructor|]. econstructor; [apply IH; exact U|].
  apply decode_mono; auto. eapply takes_u8; eauto.
Qed.
Lemma takes_drains b ps b' : takes b ps b' -> forall qs left, drains b' qs left -> drains b (ps ++ qs) left.
Proof.
  induction 1 as [|b ps b' p b'' T IH D]; intros qs left Q; [exact Q|]. rewrite <- app_assoc. apply IH. econstructor; eauto.
Qed.
Lemma takes_app b ps b' : takes b ps b' -> forall qs b'', takes b' qs b'' -> takes b (ps ++ qs) b''.
Proof.
  intros T qs b'' T2. induction T2 as [|b' qs b2 p b'' T2 IH D]; [rewrite app_nil_r; exact T|]. rewrite app_assoc. econstructor; eauto.
Qed.

(* ---- the four things a poll can be ---- *)
Definition ev (e : Event) : poll (option (io Event)) := Ready (Some (IoOk e)).
Inductive poll_case (now : N) (p p' : Panel) : poll (option (io Event)) -> option nat -> Prop :=
| PC_msg pkt m e w : decode (unread (p_conn p)) = Ok (Some pkt, unread (p_conn p')) ->
    pkt_ok pkt -> e_pkt e = Some pkt -> parse pkt = Ok (Some m) -> e_msg e = Some (inl m) ->
    same_names p p' -> msg_effect now p p' (e_change e) m -> reply_effect p p' m (e_completes e) w ->
    poll_case now p p' (ev e) w
| PC_inert pkt e : decode (unread (p_conn p)) = Ok (Some pkt, unread (p_conn p')) ->
    pkt_ok pkt -> e_pkt e = Some pkt -> message_of pkt = None ->
    e_msg e = (match parse pkt with Err er => Some (inr er) | _ => None end) ->
    p' = with_conn p (p_conn p') -> e_change e = None -> e_completes e = None -> poll_case now p p' (ev e) None
| PC_deferred d m prior : decode (unread (p_conn p)) = Ok (None, unread (p_conn p)) -> unread (p_conn p') = unread (p_conn p) ->
    nexts (p_conn p) (p_conn p') Pending ->
    pending_arm p = Some (d, m) -> d <= now -> s_arming (p_state p) = Some prior ->
    p' = with_pending (with_arming (with_conn p (p_conn p')) m) None -> poll_case now p p' (ev (deferred_event prior)) None
| PC_quiet r : (forall e, r <> ev e) -> unread (p_conn p') = unread (p_conn p) ->
    (r = Pending -> nexts (p_conn p) (p_conn p') Pending /\ decode (unread (p_conn p)) = Ok (None, unread (p_conn p)) /\
       match pending_arm p with Some (d, _) => now < d | None => True end) ->
    p' = with_conn p (p_conn p') -> poll_case now p p' r None.
Lemma polled_case now p p' r w : polled now p p' r w -> pinv p -> poll_case now p p' r w.
Proof.
  intros (rc & X & H) I. pose proof I as (CI & _). pose proof (nexts_unread _ _ _ X CI) as U.
  destruct rc as [|[[pkt|er]|]]; cbv beta iota in U.
  - destruct U as (U1 & U2 & U3). destruct H as [-> [(d & m & prior & H1 & H2 & H3 & -> & H5)|(H1 & -> & H3)]].
    + eapply PC_deferred; eauto.
    + apply PC_quiet; auto. discriminate.
  - destruct H as (e & -> & HP & H1 & H2). destruct (parse pkt) as [[m|]|er|why] eqn:EP; [| | |destruct H2].
    + destruct H2 as (A & B & C & D). eapply PC_msg; eauto.
    + destruct H2 as (A & B & C & D & ->). eapply PC_inert; eauto; [unfold message_of|]; rewrite EP; auto.
    + destruct H2 as (A & B & C & D & ->). eapply PC_inert; eauto; [unfold message_of|]; rewrite EP; auto.
  - destruct H as (-> & H2 & ->). apply PC_quiet; eauto; try discriminate.
  - destruct H as (-> & H2 & ->). apply PC_quiet; eauto; try discriminate.
Qed.
Lemma poll_next_case now p p' r w : pinv p -> poll_next now p = Ok (p', r, w) -> poll_case now p p' r w.
Proof. intros I E. destruct (poll_next_inv _ _ _ _ _ I E) as [_ P]. apply polled_case; auto. Qed.

(* Reachable panels satisfy the invariant, and have statuses. *)
Lemma up_step p o p' b : stepped p o p' b -> pinv p -> up p -> up p'.
Proof.
  intros S I [(r0 & U1) (z0 & U2)].
  assert (K : p_state p' = p_state p -> up p') by (intros E; unfold up; rewrite E; split; eauto).
  destruct o as [a|now|w ws|c|ws|ws]; cbn [stepped] in S.
  - destruct S as [_ ->]. apply K. reflexivity.
  - destruct S as (r & w & _ & P). destruct (polled_case _ _ _ _ _ P I) as [pkt m e w' _ _ _ _ _ _ M _|pkt e _ _ _ _ _ EQ _ _|d m prior _ _ _ _ _ _ EQ|r' _ _ _ EQ].
    + destruct m; cbn [msg_effect] in M;
      try (destruct M as (M1 & _ & M2 & _); split; [exists r0 | exists z0]; congruence).
      * destruct M as (M1 & M2). split; [|exists z0; congruence]. unfold arming_effect in M1. rewrite U1 in M1.
        destruct M1 as [(_ & _ & M1 & _)|(_ & M1 & _)]; eauto.
      * destruct M as (M1 & M2 & _). split; [exists r0; congruence|]. unfold zone_effect in M1. rewrite U2 in M1.
        destruct M1 as (zs' & s & M1 & _). eauto.
      * destruct M as (M1 & _ & M2 & _). split; [exists r0; congruence | eauto].
    + apply K. rewrite EQ. reflexivity.
    + rewrite EQ. split; cbn; eauto.
    + apply K. rewrite EQ. reflexivity.
  - destruct S as (r & _ & (S & _) & _). auto.
  - destruct S as (_ & _ & (S & _) & _). auto.
  - destruct S as (r & _ & (S & _) & _). auto.
  - destruct S as (r & _ & (S & _) & _). auto.
Qed.
Lemma run_up p0 h p bs : pinv p0 -> up p0 -> Forall op_ok h -> run p0 h = Ok (p, bs) -> pinv p /\ up p.
Proof.
  intros I U HO E. refine (run_ind (fun _ _ p => up p) p0 I U _ h bs p HO E).
  intros h1 bs1 q o q' b _ _ Iq Uq _ _ _ S. eapply up_step; eauto.
Qed.
Lemma reachable_inv p : reachable p -> pinv p /\ up p.
Proof.
  intros (p0 & h & bs & C & HO & E). destruct (connected_inv _ C) as (I & _ & U & _). eapply run_up; eauto.
Qed.
Lemma reachable_run p h p' bs : reachable p -> Forall op_ok h -> run p h = Ok (p', bs) -> reachable p'.
Proof.
  intros (p0 & h0 & bs0 & C & HO & E) HO' E'. exists p0, (h0 ++ h), (bs0 ++ bs). split; [exact C|]. split; [apply Forall_app; auto|].
  rewrite run_app, E. cbn [bind]. rewrite E'. reflexivity.
Qed.
Lemma connected_reachable p : connected p -> reachable p.
Proof. intros C. exists p, [], []. repeat split; auto. Qed.
Lemma step_run p o p' b : step p o = Ok (p', b) -> run p [o] = Ok (p', [b]).
Proof. intros E. cbn [run]. rewrite E. reflexivity. Qed.
Lemma reachable_step p o p' b : reachable p -> op_ok o -> step p o = Ok (p', b) -> reachable p'.
Proof. intros R O E. eapply reachable_run; [exact R| |apply step_run; exact E]. constructor; auto. Qed.
Lemma reachable_poll p now p' r w : reachable p -> poll_next now p = Ok (p', r, w) -> reachable p'.
Proof. intros R E. eapply (reachable_step p (PollNext now)); [exact R | exact I |]. cbn [step]. rewrite E. reflexivity. Qed.

(* ---- the received packets ---- *)
Lemma sink_unread p p' : sink_only p p' -> unread (p_conn p') = unread (p_conn p).
Proof. intros (_ & _ & (A & _ & _ & _ & B & _) & _). unfold unread. congruence. Qed.
Lemma run_takes p0 h p bs : pinv p0 -> Forall op_ok h -> run p0 h = Ok (p, bs) ->
  takes (unread (p_conn p0) ++ arrived h) (packets (events bs)) (unread (p_conn p)).
Proof.
  intros I HO E. refine (proj2 (run_ind (fun h bs p => takes (unread (p_conn p0) ++ arrived h) (packets (events bs)) (unread (p_conn p))) p0 I _ _ h bs p HO E)).
  { cbn. rewrite app_nil_r. constructor. }
  clear h bs p HO E. intros h bs p o p' b E HO Ip T Oo Es Ip' S.
  rewrite arrived_app, events_app, packets_app.
  pose proof (unread_u8 _ (proj1 I)) as U0. pose proof (arrived_u8 _ HO) as Uh.
  destruct o as [a|now|w ws|c|ws|ws]; cbn [stepped] in S.
  - destruct S as [-> ->]. change (events [ONone]) with (@nil Event). cbn [packets map catMaybes].
    replace (arrived [Arrive a]) with (arrival_data a) by (unfold arrived; cbn [map concat]; rewrite app_nil_r; reflexivity).
    rewrite app_nil_r. cbn [with_conn p_conn]. rewrite arrive_unread, app_assoc.
    apply takes_more; auto. { apply u8s_app; auto. } destruct a; [exact Oo | constructor | constructor].
  - change (arrived [PollNext now]) with (@nil N). rewrite app_nil_r.
    destruct S as (r & w & -> & P). destruct (polled_case _ _ _ _ _ P Ip) as [pkt m e w' D _ EP _ _ _ _ _|pkt e D _ EP _ _ _ _ _|d m prior _ U _ _ _ _ _|r' NE U _ _].
    + match goal with |- context [events [?o]] => change (events [o]) with [e] end. change (packets [e]) with (catMaybes [e_pkt e]). rewrite EP. econstructor; eauto.
    + match goal with |- context [events [?o]] => change (events [o]) with [e] end. change (packets [e]) with (catMaybes [e_pkt e]). rewrite EP. econstructor; eauto.
    + unfold events at 2. cbn. rewrite app_nil_r, U. exact T.
    + assert (EN : events [ONext r' None] = []).
      { unfold events. cbn. destruct r' as [|[[e|]|]]; try reflexivity. elim (NE e eq_refl). }
      rewrite EN. cbn. rewrite app_nil_r, U. exact T.
  - destruct S as (r & -> & S & _). change (arrived [PollReady w ws]) with (@nil N). cbn. rewrite !app_nil_r. rewrite (sink_unread _ _ S). exact T.
  - destruct S as (-> & _ & S & _). change (arrived [StartSend c]) with (@nil N). cbn. rewrite !app_nil_r. rewrite (sink_unread _ _ S). exact T.
  - destruct S as (r & -> & S & _). change (arrived [PollFlush ws]) with (@nil N). cbn. rewrite !app_nil_r. rewrite (sink_unread _ _ S). exact T.
  - destruct S as (r & -> & S & _). change (arrived [PollClose ws]) with (@nil N). cbn. rewrite !app_nil_r. rewrite (sink_unread _ _ S). exact T.
Qed.
