(* PropDeaf.v: C111: when a client goes deaf. *)
From Verif Require Import Base BaseFacts Pkt SpecPkt PktFacts DecodeFacts Msg SpecMsg DecFacts MsgFacts WireFacts IsoFacts
  PropMsg Tokio SpecConn ConnFacts State SpecState StateFacts RunFacts HistFacts ViewFacts ExState PropState PropSink SpecInit
  Mqtt SpecMqtt MqttFacts PropMqtt Cli SpecCli PropCli SpecBuffer SpecDeaf.
From Coq Require Import ZifyBool ZifyNat ZifyN.
Ltac Zify.zify_post_hook ::= Z.div_mod_to_equations.

(* ---- the decoder ---- *)
Lemma stalled_more b more : stalled b -> stalled (b ++ more).
Proof. intros (d & tail & -> & L). exists d, (tail ++ more). rewrite <- !app_assoc. auto. Qed.
Lemma stalled_waits b : u8s b -> stalled b -> decode b = Ok (None, b).
Proof.
  intros U S. destruct (decode_total b U) as ([p|] & rest & E); [exfalso | rewrite (decode_none_inv _ _ U E) in E; exact E].
  set (z := repeat 0 (N.to_nat 1025)). assert (UZ : u8s z) by (apply Forall_forall; intros x H; apply repeat_spec in H; lia).
  assert (LS : (0 < length b)%nat) by (destruct S as (d & tail & -> & _); cbn; lia).
  pose proof (decode_mono _ _ _ z U UZ E) as E2. assert (UB : u8s (b ++ z)) by (apply u8s_app; auto).
  assert (X : decode (b ++ z) = Ok (None, b ++ z)) by (apply decode_waits_exactly; [exact UB | unfold z; rewrite app_length, repeat_length; lia | apply stalled_more; exact S]). congruence.
Qed.
(* an odd DLE in front of an ETX stands in b already *)
Lemma stalled_less b : stalled (b ++ repeat 0 (N.to_nat 1100)) -> stalled b.
Proof.
  intros (d & tail & E & L). set (f := [16; 2] ++ dle_double d ++ [16; 3]). assert (E' : b ++ repeat 0 (N.to_nat 1100) = f ++ tail) by (unfold f; rewrite E, <- !app_assoc; reflexivity).
  destruct (Nat.le_gt_cases (length f) (length b)) as [LE|GT].
  - exists d, (skipn (length f) b). split; [|exact L]. pose proof (f_equal (skipn (length f)) E') as ES. rewrite skipn_app_l in ES by lia. rewrite (skipn_app_l f tail), skipn_all in ES by lia.
    pose proof (f_equal (firstn (length f)) E') as EF. rewrite firstn_app_l in EF by lia. rewrite firstn_app_l, firstn_all in EF by lia.
    rewrite <- (firstn_skipn (length f) b) at 1. rewrite EF. unfold f. rewrite <- !app_assoc. reflexivity.
  - exfalso. assert (N3 : nth_error (f ++ tail) (length f - 1) = Some 3).
    { set (g := [16; 2] ++ dle_double d ++ [16]). assert (EF : f = g ++ [3]) by (unfold f, g; rewrite <- !app_assoc; reflexivity). rewrite EF, app_length. cbn [length].
      rewrite <- app_assoc. replace (length g + 1 - 1)%nat with (length g) by lia. rewrite nth_error_app2, Nat.sub_diag by lia. reflexivity. }
    rewrite <- E', nth_error_app2 in N3 by lia. apply nth_error_In, repeat_spec in N3. discriminate.
Qed.
Theorem C111_decoder_waits_forever : forall b, u8s b ->
  ((forall more, u8s more -> decode (b ++ more) = Ok (None, b ++ more)) <-> stalled b).
Proof.
  intros b U. split.
  - intros H. apply stalled_less. set (z := repeat 0 (N.to_nat 1100)). assert (UZ : u8s z) by (apply Forall_forall; intros x K; apply repeat_spec in K; lia).
    apply decode_waits_exactly; [apply u8s_app; auto | unfold z; rewrite app_length, repeat_length; lia | apply H; exact UZ].
  - intros S more UM. apply stalled_waits; [apply u8s_app; auto | apply stalled_more; exact S].
Qed.

(* ---- the panel ---- *)
Lemma stalled_poll now p p' r w : pinv p -> stalled (unread (p_conn p)) -> poll_next now p = Ok (p', r, w) ->
  unread (p_conn p') = unread (p_conn p) /\ cmd_state p' = cmd_state p /\ s_zones (p_state p') = s_zones (p_state p) /\
  ((forall e, r <> ev e) /\ p' = with_conn p (p_conn p') \/
   exists d m prior, r = ev (at_last prior) /\ pending_arm p = Some (d, m) /\ s_arming (p_state p) = Some prior /\ p' = with_pending (with_arming (with_conn p (p_conn p')) m) None).
Proof.
  intros I S E. pose proof I as (CI & _). pose proof (stalled_waits _ (unread_u8 _ CI) S) as W. pose proof (poll_next_case _ _ _ _ _ I E) as PC.
  inversion PC as [pkt m e k D|pkt e D|d m prior D UU X EP L EA EP'|r' NE UU F EP']; subst; [congruence | congruence | |].
  - split; [exact UU|]. rewrite EP'. split; [reflexivity|]. split; [reflexivity|]. right. exists d, m, prior. auto.
  - split; [exact UU|]. rewrite EP'. split; [reflexivity|]. split; [reflexivity|]. left. auto.
Qed.

Lemma stalled_run p h p' bs : pinv p -> stalled (unread (p_conn p)) -> Forall op_ok h -> run p h = Ok (p', bs) ->
  stalled (unread (p_conn p')) /\ completions bs = [] /\ outstanding p' = outstanding p ++ map into_msg (accepted h) /\ no_news p p' (events bs).
Proof.
  intros I S HO E. refine (proj2 (run_ind (fun h bs p' => stalled (unread (p_conn p')) /\ completions bs = [] /\ outstanding p' = outstanding p ++ map into_msg (accepted h) /\ no_news p p' (events bs)) p I _ _ h bs p' HO E)).
  { split; [exact S|]. split; [reflexivity|]. split; [rewrite app_nil_r; reflexivity|]. split; [reflexivity|]. left. auto. }
  clear h bs p' HO E. intros h bs p1 o p2 b E HO I1 (S1 & C1 & O1 & N1) Oo Es I2 ST. rewrite completions_app, events_app, accepted_app, C1, map_app. cbn [app].
  assert (SINK : sink_only p1 p2 -> events [b] = [] -> stalled (unread (p_conn p2)) /\ completions [b] = [] /\ no_news p p2 (events bs ++ events [b])).
  { intros SO EB. split; [rewrite (sink_unread _ _ SO); exact S1|]. split; [unfold completions; rewrite EB; reflexivity|]. rewrite EB, app_nil_r. destruct SO as (A & B & _). unfold no_news, panel_zone_statuses, status_is, panel_arming_status, held in *. rewrite A, B. exact N1. }
  destruct o as [a|now|w ws|c|ws|ws]; cbn [stepped] in ST; try change (map into_msg (accepted _)) with (@nil message); rewrite ?app_nil_r.
  - destruct ST as [-> ->]. cbn [with_conn p_conn]. rewrite arrive_unread. split; [apply stalled_more; exact S1|]. split; [reflexivity|]. split; [exact O1|]. rewrite app_nil_r. exact N1.
  - destruct ST as (r & w & -> & P). cbn [step] in Es. apply bind_inv in Es as ([[p3 r3] w3] & EP & [= <- <- <-]).
    destruct (stalled_poll _ _ _ _ _ I1 S1 EP) as (U & K & Z & [[NE EQ]|(d & m & prior & -> & EA & EB & EQ)]).
    + assert (EN : events [ONext r3 w3] = []). { unfold events. cbn. destruct r3 as [|[[e|]|]]; try reflexivity. elim (NE e eq_refl). }
      split; [rewrite U; exact S1|]. split; [unfold completions; rewrite EN; reflexivity|]. split; [unfold outstanding in *; rewrite K; exact O1|]. rewrite EN, app_nil_r. rewrite EQ. exact N1.
    + split; [rewrite U; exact S1|]. split; [reflexivity|]. split; [unfold outstanding in *; rewrite K; exact O1|]. destruct N1 as [NZ N1]. split; [unfold panel_zone_statuses in *; rewrite Z; exact NZ|]. right.
      destruct N1 as [(EE & A1 & A2)|(pr & r & EE & A1 & A2 & A3 & A4)]; [|unfold held in A4; rewrite EA in A4; discriminate A4].
      exists prior, m. rewrite EE. split; [reflexivity|]. split; [unfold status_is; rewrite <- A1; unfold panel_arming_status; rewrite EB; reflexivity|]. split; [rewrite <- A2; unfold held; rewrite EA; reflexivity|].
      rewrite EQ. split; reflexivity.
  - destruct ST as (r & -> & SO & _ & K). destruct (SINK SO eq_refl) as (X1 & X2 & X3). split; [exact X1|]. split; [exact X2|]. split; [|exact X3].
    rewrite <- O1. unfold outstanding. destruct (cmd_state p1) as [|q f k] eqn:EC; [destruct K as [-> _]; rewrite EC; reflexivity | destruct K as (_ & f' & k' & -> & _); reflexivity].
  - destruct ST as (-> & K1 & SO & K2 & _). destruct (SINK SO eq_refl) as (X1 & X2 & X3). split; [exact X1|]. split; [exact X2|]. split; [|exact X3].
    rewrite app_assoc, <- O1. unfold outstanding. rewrite K1, K2. reflexivity.
  - destruct ST as (r & -> & SO & _ & K). destruct (SINK SO eq_refl) as (X1 & X2 & X3). split; [exact X1|]. split; [exact X2|]. split; [|exact X3].
    rewrite <- O1. unfold outstanding. destruct (cmd_state p1) as [|q f k] eqn:EC; [destruct K as [-> _]; rewrite EC; reflexivity | destruct K as (f' & -> & _); reflexivity].
  - destruct ST as (r & -> & SO & _ & _ & K). destruct (SINK SO eq_refl) as (X1 & X2 & X3). split; [exact X1|]. split; [exact X2|]. split; [|exact X3].
    rewrite <- O1. unfold outstanding. destruct (cmd_state p1) as [|q f k] eqn:EC; [rewrite K; reflexivity | destruct K as (f' & ->); reflexivity].
Qed.
(* Once the bytes received end with such a frame, nothing that arrives and no call brings anything new: no packet, no completed command, no change but that a report
   already held takes effect.  At most one more command is accepted, and no command is ever completed. *)
Theorem C111_nothing_more : forall p h p' bs, reachable p -> stalled (unread (p_conn p)) -> Forall op_ok h -> run p h = Ok (p', bs) ->
  no_news p p' (events bs) /\ completions bs = [] /\ outstanding p' = outstanding p ++ map into_msg (accepted h) /\ (length (outstanding p') <= 1)%nat /\
  (outstanding p' <> [] -> forall w ws p2 r, poll_ready w ws p' = (p2, r) -> r <> Ready (IoOk tt)).
Proof.
  intros p h p' bs R S HO E. destruct (reachable_inv _ R) as [I _]. destruct (stalled_run p h p' bs I S HO E) as (_ & C & O & N). do 3 (split; [assumption|]). pose proof (run_pinv _ _ _ _ I HO E) as I'.
  unfold outstanding. split; [destruct (cmd_state p'); cbn; lia|]. intros NE w ws p2 r ER. destruct (poll_ready_spec _ _ _ _ _ ER I') as (_ & _ & _ & K). destruct (cmd_state p'); [congruence | apply K].
Qed.
Lemma pending_state c c' r : nexts c c' r -> r = Pending -> has_errored c' = false /\ is_readable c' = false /\ rq c' = [].
Proof. induction 1; intros EQ; try discriminate; auto. Qed.
Lemma reads_packet c x more pkt rest : has_errored c = false -> is_readable c = false -> rq c = [] -> decode (rbuf c ++ x :: more) = Ok (Some pkt, rest) ->
  exists c', conn_poll_next (arrive c (Bytes (x :: more))) = Ok (c', Ready (Some (IoOk pkt))).
Proof.
  intros HE HR HQ D. unfold conn_poll_next, arrive. cbn [rq]. rewrite HQ. cbn [app length plus framed_loop has_errored is_readable rq rbuf]. rewrite HE, HR. cbn [set_read has_errored is_readable c_eof rbuf rq].
  unfold codec_decode. rewrite D. cbn [bind]. eexists. reflexivity.
Qed.
(* A panel that has answered Pending is deaf exactly then. *)
Theorem C111_when_deaf : forall p0 now p w, reachable p0 -> poll_next now p0 = Ok (p, Pending, w) -> (deaf p <-> stalled (unread (p_conn p))).
Proof.
  intros p0 now p w R E. pose proof (reachable_poll _ _ _ _ _ R E) as R'. destruct (reachable_inv _ R) as [I0 _]. destruct (reachable_inv _ R') as [I _]. pose proof I as (CI & _). split.
  - intros D. apply (C111_decoder_waits_forever _ (unread_u8 _ CI)). intros more UM. assert (UA : u8s (unread (p_conn p) ++ more)) by (apply u8s_app; auto using unread_u8).
    pose proof (poll_next_case _ _ _ _ _ I0 E) as PC. inversion PC as [| | |r' NE UU F EP' HR]; subst. destruct (F eq_refl) as (X & DN & _). clear F NE PC.
    destruct more as [|x more]; [rewrite app_nil_r, UU; exact DN|].
    destruct (decode_total _ UA) as ([pkt|] & rest & ED); [exfalso | rewrite (decode_none_inv _ _ UA ED) in ED; exact ED].
    destruct (pending_state _ _ _ X eq_refl) as (HE & HR & HQ). assert (EU : unread (p_conn p) = rbuf (p_conn p)) by (unfold unread; rewrite HQ; apply app_nil_r). rewrite EU in ED.
    destruct (reads_packet _ _ _ _ _ HE HR HQ ED) as (c' & EC). set (p1 := with_conn p (arrive (p_conn p) (Bytes (x :: more)))).
    destruct (step_inv p (Arrive (Bytes (x :: more))) p1 ONone I UM eq_refl) as [I1 _]. destruct (poll_next_spec now p1 I1) as (p2 & r & k & E2 & I2 & P2).
    assert (RE : exists e, r = ev e). { revert E2. unfold poll_next. unfold p1 at 1. cbn [p_conn with_conn]. rewrite EC. cbn [bind]. destruct (interpret _ _ _) as [[[p3 e] k3]|er|y]; cbn [bind]; intros [= _ <- _]. eexists. reflexivity. }
    destruct RE as (e & ->). assert (ER : run p [Arrive (Bytes (x :: more)); PollNext now] = Ok (p2, [ONone; ONext (ev e) k])).
    { cbn [run step bind]. fold p1. rewrite E2. reflexivity. }
    specialize (D _ _ _ (Forall_cons _ (UM : op_ok (Arrive (Bytes (x :: more)))) (Forall_cons _ (Logic.I : op_ok (PollNext now)) (Forall_nil _))) ER). change (packets [e] = []) in D.
    pose proof (poll_next_case _ _ _ _ _ I1 E2) as PC. inversion PC as [q m e0 k0 D2 K0 EPK|q e0 D2 K0 EPK|d m prior D2|r' NE]; subst.
    + unfold packets in D. cbn in D. rewrite EPK in D. discriminate D.
    + unfold packets in D. cbn in D. rewrite EPK in D. discriminate D.
    + unfold p1 in D2. cbn [p_conn with_conn] in D2. rewrite arrive_unread, EU in D2. cbn [arrival_data] in D2. congruence.
    + elim (NE e eq_refl).
  - intros S h p' bs HO ER. destruct (C111_nothing_more p h p' bs R' S HO ER) as ((_ & [(-> & _)|(pr & r & -> & _)]) & _); reflexivity.
Qed.

(* ---- the bridge ---- *)
Section Bridge.
Variables (cl : client) (cfg : Cfg).
(* From u on the bridge has published l: nothing, or what is to be published for the report that was held. *)
Definition told_since (u : up) (p' : Panel) (l : list action) : Prop :=
  exists h bs, Forall op_ok h /\ run (u_panel u) h = Ok (p', bs) /\
    (events bs = [] /\ l = [] \/ exists prior r p2, events bs = [at_last prior] /\ status_is (u_panel u) prior /\ held (u_panel u) = Some r /\ status_is p2 r /\ handle_event cl cfg p2 (at_last prior) = (l, Ok tt)).
Lemma told_words u p' l : told_since u p' l -> last_words cl cfg (u_panel u) l.
Proof. intros (h & bs & _ & _ & [(_ & ->)|(prior & r & p2 & _ & A & B & C & D)]); [left; reflexivity | right; exists prior, r, p2, (Ok tt); auto]. Qed.
Lemma told_step u u1 l i u2 : binv cl cfg u -> stalled (unread (p_conn (u_panel u))) -> told_since u (u_panel u1) l -> u_log u1 = u_log u ++ l -> moved cl cfg u1 i u2 ->
  exists l2, told_since u (u_panel u2) l2 /\ u_log u2 = u_log u ++ l2.
Proof.
  intros (R & _) S (h & bs & HO & E & T) EL (ops & bs2 & hd & os & O2 & E2 & _ & _ & _ & _ & _ & _ & M). destruct (reachable_inv _ R) as [I _].
  assert (EA : run (u_panel u) (h ++ ops) = Ok (u_panel u2, bs ++ bs2)) by (rewrite run_app, E; cbn [bind]; rewrite E2; reflexivity).
  assert (OA : Forall op_ok (h ++ ops)) by (apply Forall_app; auto). destruct (stalled_run _ _ _ _ I S OA EA) as (_ & _ & _ & [_ N]). rewrite events_app in N.
  destruct M as [[EV EL2]|(now & r & w & e & l' & EP & Y & -> & HE & EL2)].
  - exists l. split; [|congruence]. exists (h ++ ops), (bs ++ bs2). split; [exact OA|]. split; [exact EA|]. rewrite events_app, EV, app_nil_r. exact T.
  - unfold yields in Y. subst r. change (events [ONext (Ready (Some (IoOk e))) w]) with [e] in N. destruct N as [(N & _)|(prior & r & N & A & B & C & _)]; [destruct (events bs); discriminate N|].
    destruct (events bs) as [|e0 es] eqn:EB; [|destruct es; discriminate N]. cbn [app] in N. injection N as ->. destruct T as [[_ ->]|(? & ? & ? & T & _)]; [|discriminate T].
    exists l'. split; [|rewrite EL2, EL, app_nil_r; reflexivity]. eexists (h ++ ops), _. split; [exact OA|]. split; [exact EA|]. right. exists prior, r, (u_panel u2). rewrite events_app, EB. auto.
Qed.
Lemma told_end u u1 l i log why : binv cl cfg u -> binv cl cfg u1 -> stalled (unread (p_conn (u_panel u))) -> told_since u (u_panel u1) l -> u_log u1 = u_log u ++ l -> bstep cl cfg (Up u1) i = Dead log why ->
  exists l2, last_words cl cfg (u_panel u) l2 /\ log = u_log u ++ l2.
Proof.
  intros (R & _) (R1 & _) S T EL E. pose proof (told_words _ _ _ T) as LW. destruct T as (h & bs & HO & ER & T). destruct (reachable_inv _ R) as [I _]. destruct (reachable_inv _ R1) as [I1 _].
  assert (SAME : Dead (u_log u1) why = Dead log why -> exists l2, last_words cl cfg (u_panel u) l2 /\ log = u_log u ++ l2) by (intros [= <-]; eauto).
  assert (SF : forall ws v, u_log v = u_log u1 -> poll_send_flush ws v = Dead log why -> exists l2, last_words cl cfg (u_panel u) l2 /\ log = u_log u ++ l2).
  { intros ws v EV EF. unfold poll_send_flush in EF. destruct (poll_flush ws (u_panel v)) as [p [|[[]|e]]]; try discriminate. injection EF as EF1 EF2. apply SAME. congruence. }
  destruct i as [a|t pl| |now ws|now| |ws]; cbn [bstep] in E; try discriminate E.
  - apply SAME. congruence.
  - destruct (u_mode u1); try discriminate E. destruct (poll_next_spec now (u_panel u1) I1) as (p & r & w & EP & _). rewrite EP in E. destruct r as [|[[e|e]|]]; try (injection E as E1 E2; apply SAME; congruence); try discriminate E.
    assert (EA : run (u_panel u) (h ++ [PollNext now]) = Ok (p, bs ++ [ONext (Ready (Some (IoOk e))) w])) by (rewrite run_app, ER; cbn [bind run step]; rewrite EP; reflexivity).
    assert (OA : Forall op_ok (h ++ [PollNext now])) by (apply Forall_app; split; [exact HO | repeat constructor]). destruct (stalled_run _ _ _ _ I S OA EA) as (_ & _ & _ & [_ N]). rewrite events_app in N.
    change (events [ONext (Ready (Some (IoOk e))) w]) with [e] in N. destruct N as [(N & _)|(prior & r & N & A & B & C & _)]; [destruct (events bs); discriminate N|].
    destruct (events bs) as [|e0 es] eqn:EB; [|destruct es; discriminate N]. cbn [app] in N. injection N as ->. destruct T as [[_ ->]|(? & ? & ? & T & _)]; [|discriminate T]. rewrite app_nil_r in EL.
    unfold settle in E. destruct (handle_event cl cfg p (at_last prior)) as [l2 o] eqn:EH. exists l2. split; [right; exists prior, r, p, o; auto|]. destruct o; try discriminate E; injection E as <- _; rewrite EL; reflexivity.
  - destruct (u_mode u1); try discriminate E. destruct (u_rx u1) as [|[t pl] rx]; try discriminate E. destruct (requested _ _ _ _ _) as [[c|]|e|y]; try discriminate E; apply SAME; congruence.
  - destruct (u_mode u1) as [|c|]; try discriminate E; [|exact (SF _ _ eq_refl E)]. destruct (poll_ready TASK ws (u_panel u1)) as [p [|[[]|e]]]; try discriminate E; [|apply SAME; congruence].
    destruct (start_send c p) as [p2|e|y]; [|apply SAME; congruence..]. eapply SF; [|exact E]. reflexivity.
Qed.
End Bridge.
(* The bridge publishes nothing more, as long as it runs and when it ends, but for a report already held. *)
Theorem C111_bridge : forall cl cfg is u is' b, bridge_after cl cfg is (Up u) -> stalled (unread (p_conn (u_panel u))) -> bridge_after cl cfg (is ++ is') b ->
  exists l, last_words cl cfg (u_panel u) l /\ match b with Up u' => u_log u' = u_log u ++ l | Dead log _ => log = u_log u ++ l | Connecting _ _ => False end.
Proof.
  intros cl cfg is u is' b A S [F <-]. pose proof (bridge_binv _ _ _ _ A) as B. destruct A as [_ E]. apply Forall_app in F as [F0 F].
  enough (X : match brun cl cfg (is ++ is') with
              | Up u' => binv cl cfg u' /\ exists l, told_since cl cfg u (u_panel u') l /\ u_log u' = u_log u ++ l
              | Dead log _ => exists l, last_words cl cfg (u_panel u) l /\ log = u_log u ++ l | Connecting _ _ => False end).
  { destruct (brun cl cfg (is ++ is')) as [s rx|u'|log why]; [contradiction | | exact X]. destruct X as (_ & l & T & EL). exists l. split; [eapply told_words; eauto | exact EL]. }
  induction is' as [|i is' IH] using rev_ind.
  - rewrite app_nil_r, E. split; [exact B|]. exists []. split; [|rewrite app_nil_r; reflexivity]. exists [], []. split; [constructor|]. split; [reflexivity|]. left. auto.
  - apply Forall_app in F as [F Fi]. inversion Fi as [|? ? Fi' _]; subst. specialize (IH F). rewrite app_assoc, brun_snoc. destruct (brun cl cfg (is ++ is')) as [s rx|u1|log why]; [contradiction | | exact IH].
    destruct IH as (B1 & l & T & EL). destruct (bstep cl cfg (Up u1) i) as [s rx|u2|log why] eqn:ES.
    + elim (up_stays _ _ _ _ _ _ ES).
    + pose proof (bstep_up _ _ _ _ _ B1 Fi' ES) as M. split; [eapply moved_binv; eauto|]. eapply told_step; eauto.
    + eapply told_end; eauto.
Qed.

(* ---- watch ---- *)
Theorem C111_watch : forall h p log h', Forall iop_ok (h ++ h') -> watch h = WLoop p log -> stalled (unread (p_conn p)) ->
  exists l, last_lines p l /\ lines_of (watch (h ++ h')) = Some (log ++ l).
Proof.
  intros h p log h' F E S. apply Forall_app in F as [F0 F]. pose proof (watch_up h F0) as R. rewrite E in R. destruct (reachable_inv _ R) as [I U].
  enough (X : match watch (h ++ h') with
              | WLoop p' log' => exists ops bs l, Forall op_ok ops /\ run p ops = Ok (p', bs) /\ log' = log ++ l /\ last_lines p l /\ (events bs = [] -> l = [])
              | w => exists l, last_lines p l /\ lines_of w = Some (log ++ l) end).
  { destruct (watch (h ++ h')) as [i|p' log'|log'|log' why]; [exact X | | exact X | exact X]. destruct X as (ops & bs & l & _ & _ & -> & L & _). exists l. auto. }
  induction h' as [|o h' IH] using rev_ind.
  - rewrite app_nil_r, E. exists [], [], []. split; [constructor|]. split; [reflexivity|]. split; [rewrite app_nil_r; reflexivity|]. split; [left|]; reflexivity.
  - apply Forall_app in F as [F Fo]. inversion Fo as [|? ? Fo' _]; subst. specialize (IH F). rewrite app_assoc. assert (SN : watch ((h ++ h') ++ [o]) = wstep (watch (h ++ h')) o) by (unfold watch; apply fold_left_app). rewrite SN.
    destruct (watch (h ++ h')) as [i|p' log'|log'|log' why].
    + destruct IH as (l & _ & IH). discriminate IH.
    + destruct IH as (ops & bs & l & HO & ER & -> & L & EV). pose proof (run_up _ _ _ _ I U HO ER) as [I' U']. destruct o as [a|now ws]; cbn [wstep].
      * exists (ops ++ [Arrive a]), (bs ++ [ONone]), l. split; [apply Forall_app; split; [exact HO | constructor; [exact Fo' | constructor]]|].
        split; [rewrite run_app, ER; reflexivity|]. split; [reflexivity|]. split; [exact L|]. rewrite events_app, app_nil_r. exact EV.
      * destruct (poll_next_spec now p' I') as (p2 & r & w & EP & I2 & _). rewrite EP. pose proof (poll_next_case _ _ _ _ _ I' EP) as PC.
        assert (EA : run p (ops ++ [PollNext now]) = Ok (p2, bs ++ [ONext r w])) by (rewrite run_app, ER; cbn [bind run step]; rewrite EP; reflexivity).
        assert (OA : Forall op_ok (ops ++ [PollNext now])) by (apply Forall_app; split; [exact HO | repeat constructor]). destruct (stalled_run _ _ _ _ I S OA EA) as (_ & _ & _ & [_ N]). rewrite events_app in N.
        destruct r as [|[[e|e]|]]; [|destruct (watch_event_spec _ _ _ _ _ e PC eq_refl I' I2 U') as (ls & EW & _); rewrite EW| |].
        -- exists (ops ++ [PollNext now]), (bs ++ [ONext Pending w]), l. do 4 (split; [auto|]). rewrite events_app, app_nil_r. exact EV.
        -- change (events [ONext (Ready (Some (IoOk e))) w]) with [e] in N. destruct N as [(N & _)|(prior & r & N & A & B & C & _)]; [destruct (events bs); discriminate N|].
           destruct (events bs) as [|e0 es] eqn:EB; [|destruct es; discriminate N]. cbn [app] in N. injection N as ->. rewrite (EV eq_refl), app_nil_r.
           eexists _, _, ls. split; [exact OA|]. split; [exact EA|]. split; [reflexivity|]. split; [right; exists prior, r, p2; auto|]. rewrite events_app, EB. discriminate.
        -- exists l. auto.
        -- exists l. auto.
    + destruct o; exact IH.
    + destruct o; exact IH.
Qed.

(* ---- examples ---- *)
(* An RP frame of 1024 bytes without checksum; then the panel reports a violated zone, over and over. *)
Definition ex_stall : bytes := [16; 2] ++ repeat 0 1020 ++ [16; 3].
Lemma ex_stall_u8 : u8s ex_stall.
Proof. apply Forall_forall. intros x Hx. unfold ex_stall in Hx. repeat (apply in_app_or in Hx as [Hx|Hx]); try apply repeat_spec in Hx; cbn in Hx; lia. Qed.
Lemma ex_stall_stalled : stalled ex_stall.
Proof. exists (repeat 0 1020), []. split; [reflexivity|]. right. vm_compute. reflexivity. Qed.
Definition ex_deaf_ops : list op := [Arrive (Bytes ex_stall); PollNext 0].
Definition ex_deaf_panel : Panel := match run ex_panel ex_deaf_ops with Ok (p, _) => p | _ => ex_panel end.
Definition ex_zone_bytes : bytes := bytes_of (MZoneChange (mkZC 2 2)).
Lemma ex_deaf_unread : unread (p_conn ex_deaf_panel) = ex_stall.
Proof. vm_compute. reflexivity. Qed.
Example C111_deaf_example : exists p0 w, reachable p0 /\ poll_next 0 p0 = Ok (ex_deaf_panel, Pending, w) /\ deaf ex_deaf_panel /\
  events (match run ex_panel [Arrive (Bytes ex_zone_bytes); PollNext 1] with Ok (_, bs) => bs | _ => [] end) <> [] /\
  events (match run ex_deaf_panel [Arrive (Bytes ex_zone_bytes); PollNext 1; Arrive (Bytes ex_zone_bytes); PollNext 99999] with Ok (_, bs) => bs | _ => [] end) = [].
Proof.
  assert (R : reachable (with_conn ex_panel (arrive (p_conn ex_panel) (Bytes ex_stall)))).
  { eapply (reachable_step ex_panel (Arrive (Bytes ex_stall))); [apply connected_reachable; exact ex_connected | exact ex_stall_u8 | reflexivity]. }
  assert (E : poll_next 0 (with_conn ex_panel (arrive (p_conn ex_panel) (Bytes ex_stall))) = Ok (ex_deaf_panel, Pending, None)) by (vm_compute; reflexivity).
  eexists _, None. split; [exact R|]. split; [exact E|]. split; [apply (C111_when_deaf _ _ _ _ R E); rewrite ex_deaf_unread; exact ex_stall_stalled|].
  split; [vm_compute; discriminate | vm_compute; reflexivity].
Qed.
(* The bridge after that frame holds nothing back and so publishes nothing any more, though the panel reports a change of a zone that it shows. *)
Definition ex_deaf_in : list input := ex_start ++ [NetArrive (Bytes ex_stall); PollPanel 0].
Definition ex_later_in : list input := [NetArrive (Bytes ex_zone_bytes); PollPanel 1; MqttArrive (B "elkm1/0001/area/house/ha_command") (B "ARM_AWAY"); PollRx; PollSend [WAccept 100]; PollPanel 2].
Example C111_bridge_example : exists u, bridge_after ex_cl ex_cfg ex_deaf_in (Up u) /\ stalled (unread (p_conn (u_panel u))) /\ held (u_panel u) = None /\
  (exists u', bridge_after ex_cl ex_cfg (ex_deaf_in ++ ex_later_in) (Up u') /\ u_log u' = u_log u) /\
  (length (u_log u) < length (match brun ex_cl ex_cfg (ex_start ++ ex_later_in) with Up u1 => u_log u1 | _ => [] end))%nat.
Proof.
  set (u := match brun ex_cl ex_cfg ex_deaf_in with Up u => u | _ => ex_up end).
  assert (F1 : Forall input_ok ex_deaf_in) by (apply Forall_app; split; [exact ex_start_ok | constructor; [exact ex_stall_u8 | repeat constructor]]).
  assert (A : bridge_after ex_cl ex_cfg ex_deaf_in (Up u)) by (split; [exact F1 | vm_compute; reflexivity]).
  assert (S : unread (p_conn (u_panel u)) = ex_stall) by (vm_compute; reflexivity).
  assert (H : held (u_panel u) = None) by (vm_compute; reflexivity).
  exists u. split; [exact A|]. split; [rewrite S; exact ex_stall_stalled|]. split; [exact H|]. split; [|vm_compute; lia].
  set (u' := match brun ex_cl ex_cfg (ex_deaf_in ++ ex_later_in) with Up u => u | _ => ex_up end). exists u'.
  assert (A' : bridge_after ex_cl ex_cfg (ex_deaf_in ++ ex_later_in) (Up u')).
  { split; [apply Forall_app; split; [exact F1 | repeat constructor; vm_compute; discriminate] | vm_compute; reflexivity]. }
  split; [exact A'|]. destruct (C111_bridge _ _ _ _ _ _ A ltac:(rewrite S; exact ex_stall_stalled) A') as (l & [->|(pr & r & p' & o & _ & X & _)] & EL); [rewrite EL, app_nil_r; reflexivity | congruence].
Qed.

(* watch with a report held when the frame comes: it is told after five seconds, and then nothing more. *)
Definition ex_deaf_watch : list iop := ex_init ++ [IArrive (Bytes (bytes_of (MArmingStatusReport ex_armed) ++ ex_stall)); IStep 1 []; IStep 1 []].
Definition ex_later_watch : list iop := [IArrive (Bytes ex_zone_bytes); IStep 2 []; IStep 6000 []; IArrive (Bytes ex_zone_bytes); IStep 99999 []].
Example C111_watch_example : match watch ex_deaf_watch with WLoop p log => unread (p_conn p) = ex_stall /\ held p = Some ex_armed /\ log = [] | _ => False end /\
  lines_of (watch (ex_deaf_watch ++ ex_later_watch)) = Some [LArea (B "House") AST_Disarmed AU_ReadyToArm AA_NoAlarmActive AST_ArmedAway AU_ArmedFully AA_NoAlarmActive].
Proof. split; vm_compute; auto. Qed.

Print Assumptions C111_decoder_waits_forever.
Print Assumptions C111_nothing_more.
Print Assumptions C111_when_deaf.
Print Assumptions C111_bridge.
Print Assumptions C111_watch.
