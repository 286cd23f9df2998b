(* PropAgree.v: C126, clients of one panel come to agree (state.rs, elkm1-mqtt/src/main.rs). *)
From Verif Require Import Base BaseFacts Pkt SpecPkt PktFacts DecodeFacts Msg SpecMsg DecFacts MsgFacts WireFacts IsoFacts
  Tokio SpecConn ConnFacts State SpecState StateFacts RunFacts HistFacts ViewFacts ExState PropState PropMsg Serde SerdeFacts PropSerde
  Mqtt MqttFacts Config SpecMqtt SpecConfig PropMqtt SpecFollow PropFollow SpecAgree.
From Coq Require Import ZifyBool ZifyNat ZifyN.
Ltac Zify.zify_post_hook ::= Z.div_mod_to_equations.

(* ---- what is read ---- *)
Lemma all_read_nothing p : pinv p -> all_read p -> decode (unread (p_conn p)) = Ok (None, unread (p_conn p)).
Proof.
  intros I (c & E). destruct (conn_next_total _ (proj1 I)) as (c' & r & E' & X). rewrite E in E'. injection E' as <- <-.
  destruct (nexts_unread _ _ _ X (proj1 I)) as (A & B & C). congruence || exact B.
Qed.
Lemma read_packets p0 h p bs : reachable p0 -> Forall op_ok h -> run p0 h = Ok (p, bs) -> all_read p ->
  drain (unread (p_conn p0) ++ arrived h) = Ok (packets (events bs), unread (p_conn p)).
Proof.
  intros R HO E AR. destruct (reachable_inv _ R) as [I0 _]. pose proof (run_pinv _ _ _ _ I0 HO E) as I.
  assert (U0 : u8s (unread (p_conn p0) ++ arrived h)) by (apply u8s_app; split; [apply unread_u8, I0 | apply arrived_u8; auto]).
  apply drain_iff; [exact U0|]. rewrite <- (app_nil_r (packets (events bs))). eapply takes_drains; [eapply run_takes; eauto|]. constructor. apply all_read_nothing; auto.
Qed.
Lemma same_packets p0 q0 p q h g bs cs : reachable p0 -> reachable q0 -> Forall op_ok h -> Forall op_ok g -> run p0 h = Ok (p, bs) -> run q0 g = Ok (q, cs) ->
  unread (p_conn p0) ++ arrived h = unread (p_conn q0) ++ arrived g -> all_read p -> all_read q -> packets (events cs) = packets (events bs).
Proof.
  intros R R' HO HO' E E' EQ A A'. pose proof (read_packets _ _ _ _ R HO E A) as D. pose proof (read_packets _ _ _ _ R' HO' E' A') as D'.
  rewrite EQ, D' in D. injection D as D _. exact D.
Qed.

(* ---- the newest report ---- *)
Lemma newest_fun p x y : newest p x -> newest p y -> x = y.
Proof. unfold newest, status_is. intros [H|[H1 H2]] [H'|[H1' H2']]; congruence. Qed.
Lemma newest_ex p : StateFacts.up p -> exists x, newest p x.
Proof.
  intros [(a & A) _]. destruct (held p) as [x|] eqn:E; [exists x; left; exact E | exists a; right; split; [exact E | apply status_s; exact A]].
Qed.
Lemma newest_poll now p p' e w : pinv p -> StateFacts.up p -> poll_case now p p' (ev e) w ->
  forall x, newest p x -> newest p' (match the_report e with Some r => r | None => x end).
Proof.
  intros I [(a0 & UA) _] C x N.
  assert (Same : s_arming (p_state p') = s_arming (p_state p) -> pending_arm p' = pending_arm p -> newest p' x).
  { intros E1 E2. unfold newest, held in *. rewrite E2, status_s, E1, <- status_s. exact N. }
  inversion C as [pkt m e' w' D PK EP PA EM SN ME RE EQ1 EQ2|pkt e' D PK EP MN EM EQ EC EK EQ1 EQ2|d m prior D U X PD LE SA EQ EQ1 EQ2|r NE U PQ EQ EQ1 EQ2]; subst; clear C.
  - assert (K : the_report e = match m with MArmingStatusReport x => Some x | _ => None end) by (unfold the_report; rewrite EM; reflexivity).
    rewrite K. destruct m; cbn [msg_effect] in ME; try (destruct ME as (_ & _ & M3 & M4); apply Same; assumption).
    + destruct ME as (M1 & _). unfold arming_effect in M1. rewrite UA in M1. destruct M1 as [(_ & _ & _ & A1 & _)|(_ & A1 & A2 & _)].
      * left. apply held_s. eauto.
      * right. split; [apply held_none; exact A2 | apply status_s; exact A1].
    + destruct ME as (_ & M3 & M4). apply Same; assumption.
  - assert (K : the_report e = None) by (unfold the_report; rewrite EM; destruct (parse pkt); reflexivity). rewrite K. apply Same; rewrite EQ; reflexivity.
  - cbn [the_report deferred_event e_msg]. set (c' := p_conn p') in *. clearbody c'. subst p'. right. split; [reflexivity|]. apply status_s. cbn. f_equal.
    assert (H : held p = Some m) by (apply held_s; eauto). destruct N as [N|[N _]]; congruence.
  - elim (NE e). reflexivity.
Qed.
Lemma the_report_in now p p' e w : poll_case now p p' (ev e) w -> reports_in (packets [e]) = match the_report e with Some r => [r] | None => [] end.
Proof.
  intros C. unfold packets. cbn [map].
  inversion C as [pkt m e' w' D PK EP PA EM SN ME RE EQ1 EQ2|pkt e' D PK EP MN EM EQ EC EK EQ1 EQ2|d m prior D U X PD LE SA EQ EQ1 EQ2|r NE U PQ EQ EQ1 EQ2]; subst; clear C.
  - rewrite EP. cbn [catMaybes]. rewrite (reports_msg _ _ PA). unfold the_report. rewrite EM. destruct m; reflexivity.
  - rewrite EP. cbn [catMaybes]. rewrite (reports_not _ MN). unfold the_report. rewrite EM. destruct (parse pkt); reflexivity.
  - reflexivity.
  - elim (NE e). reflexivity.
Qed.
Lemma newest_run p0 h p bs x : reachable p0 -> Forall op_ok h -> run p0 h = Ok (p, bs) -> newest p0 x -> newest p (last (as_reports bs) x).
Proof.
  intros R HO E N. destruct (reachable_inv _ R) as [I0 U0].
  refine (proj2 (proj2 (run_ind (fun _ bs p => StateFacts.up p /\ newest p (last (as_reports bs) x)) p0 I0 (conj U0 N) _ h bs p HO E))).
  intros h1 bs1 q o q' b _ _ Iq (Uq & IH) _ _ _ S. split; [eapply up_step; eauto|]. rewrite as_reports_app.
  destruct (step_view _ _ _ _ S Iq) as [(EB & E1 & E2)|(now & r & w & e & -> & -> & Y & EB & C)].
  - rewrite (reports_none _ EB), app_nil_r. unfold newest, held, status_is, panel_arming_status in *. rewrite E1, E2. exact IH.
  - unfold yields in Y. subst r. unfold as_reports at 2. rewrite EB, (the_report_in _ _ _ _ _ C). pose proof (newest_poll _ _ _ _ _ Iq Uq C _ IH) as H.
    destruct (the_report e); [rewrite last_last; exact H | rewrite app_nil_r; exact H].
Qed.
Lemma last_indep {A} (l : list A) x y : l <> [] -> last l x = last l y.
Proof. induction l as [|a [|b l] IH]; intros H; [congruence | reflexivity|]. cbn [last] in *. apply IH. discriminate. Qed.

(* ---- zones ---- *)
Lemma zone_after_about z ms : Forall (fun m => forall zs, m = MZoneStatusReport zs -> length zs = NUM_ZONES) ms -> 1 <= z <= 208 ->
  ((exists m, In m ms /\ about z m) -> forall s s', zone_after z s ms = zone_after z s' ms) /\
  ((forall m, In m ms -> ~ about z m) -> forall s, zone_after z s ms = s).
Proof.
  induction ms as [|m ms IH] using rev_ind; intros F Hz.
  - split; [intros (m & [] & _) | reflexivity].
  - apply Forall_app in F as [F1 F2]. inversion F2 as [|? ? F3 _]; subst. destruct (IH F1 Hz) as [IH1 IH2]. split.
    + intros (m' & I & A) s s'. rewrite !zone_after_app. apply in_app_iff in I as [I|[->|[]]].
      * rewrite (IH1 (ex_intro _ m' (conj I A)) s s'). reflexivity.
      * destruct m'; cbn in A; try tauto; cbn [zone_after fold_left].
        -- rewrite A, N.eqb_refl. reflexivity.
        -- apply nth_indep. rewrite (F3 _ eq_refl). unfold NUM_ZONES. lia.
    + intros H s. rewrite zone_after_app, IH2 by (intros m' I; apply H, in_app_iff; auto).
      assert (A : ~ about z m) by (apply H, in_app_iff; right; left; reflexivity).
      destruct m; try reflexivity; cbn in A; cbn [zone_after fold_left]; [|elim A; exact Logic.I].
      destruct (N.eqb_spec (zc_zone m) z); [elim A; assumption | reflexivity].
Qed.
Lemma messages_zs p0 h p bs : reachable p0 -> Forall op_ok h -> run p0 h = Ok (p, bs) ->
  Forall (fun m => forall zs, m = MZoneStatusReport zs -> length zs = NUM_ZONES) (messages bs).
Proof.
  intros R HO E. destruct (reachable_inv _ R) as [I0 U0].
  refine (proj2 (run_ind (fun _ bs p => Forall (fun m => forall zs, m = MZoneStatusReport zs -> length zs = NUM_ZONES) (messages bs)) p0 I0 _ _ h bs p HO E)); [constructor|].
  intros h1 bs1 q o q' b _ _ Iq IH _ _ _ S. rewrite messages_app. apply Forall_app. split; [exact IH|]. unfold messages.
  destruct (step_view _ _ _ _ S Iq) as [(EB & _ & _)|(now & r & w & e & -> & -> & Y & EB & C)]; rewrite EB; [constructor|].
  unfold yields in Y. subst r. unfold packets. cbn [map].
  inversion C as [pkt m e' w' D PK EP PA EM SN ME RE EQ1 EQ2|pkt e' D PK EP MN EM EQ EC EK EQ1 EQ2|d m prior D U X PD LE SA EQ EQ1 EQ2|r NE U PQ EQ EQ1 EQ2]; subst.
  - rewrite EP. cbn [catMaybes]. unfold messages_in. cbn [map]. unfold message_of. rewrite PA. cbn. constructor; [|constructor]. intros zs ->.
    pose proof (parsed_wf _ _ PK PA) as [W _]. exact W.
  - rewrite EP. cbn [catMaybes]. unfold messages_in. cbn [map]. rewrite MN. constructor.
  - constructor.
  - elim (NE e). reflexivity.
Qed.
Lemma zone_ex p z : pinv p -> StateFacts.up p -> 1 <= z <= 208 -> exists s, zone_status_is p z s.
Proof.
  intros (_ & _ & ZI & _) [_ (zs & UZ)] Hz. destruct (ZI _ UZ) as [L _]. destruct (nth_error zs (N.to_nat (z - 1))) as [s|] eqn:EN.
  - exists s. apply zone_s. eauto.
  - apply nth_error_None in EN. unfold NUM_ZONES in L. lia.
Qed.
Lemma zone_det p z s s' : zone_status_is p z s -> zone_status_is p z s' -> s = s'.
Proof. intros (zs & H1 & H2) (zs' & H3 & H4). congruence. Qed.

(* ------------------------------------------------------------------ C126 *)
(* Two clients that got the same bytes have got the same packets, however they were used. *)
Theorem C126_same_packets : forall p0 q0 p q ps, same_news p0 q0 p q ps -> same_news q0 p0 q p ps.
Proof.
  intros p0 q0 p q ps (h & g & bs & cs & R & R' & HO & HO' & E & E' & EQ & A & A' & ->).
  exists g, h, cs, bs. repeat (split; [auto|]). symmetry. exact (same_packets _ _ _ _ _ _ _ _ R R' HO HO' E E' EQ A A').
Qed.

(* They agree about the newest arming report exactly if there was one, or they did before; and once neither holds a report back, about the
   arming status.  They agree about a zone exactly if there was a message about it, or they did before. *)
Theorem C126_agree : forall p0 q0 p q ps, same_news p0 q0 p q ps ->
  (same_newest p q <-> reports_in ps <> [] \/ same_newest p0 q0) /\
  (held p = None -> held q = None -> (same_status p q <-> reports_in ps <> [] \/ same_newest p0 q0)) /\
  (forall z, 1 <= z <= 208 -> (same_zone p q z <-> (exists m, In m (messages_in ps) /\ about z m) \/ same_zone p0 q0 z)).
Proof.
  intros p0 q0 p q ps (h & g & bs & cs & R & R' & HO & HO' & E & E' & EQ & A & A' & ->).
  pose proof (same_packets _ _ _ _ _ _ _ _ R R' HO HO' E E' EQ A A') as PK.
  destruct (reachable_inv _ R) as [I0 U0], (reachable_inv _ R') as [J0 V0].
  destruct (newest_ex _ U0) as (x & NX), (newest_ex _ V0) as (y & NY).
  pose proof (newest_run _ _ _ _ _ R HO E NX) as NP. pose proof (newest_run _ _ _ _ _ R' HO' E' NY) as NQ.
  unfold as_reports in NP, NQ. rewrite PK in NQ. set (rs := reports_in (packets (events bs))) in *.
  assert (S0 : same_newest p0 q0 <-> x = y).
  { split; [intros S; apply S in NX; eapply newest_fun; eauto|]. intros <- z. split; intros H; [rewrite (newest_fun _ _ _ H NX); exact NY | rewrite (newest_fun _ _ _ H NY); exact NX]. }
  assert (S1 : same_newest p q <-> last rs x = last rs y).
  { split; [intros S; apply S in NP; eapply newest_fun; eauto|]. intros HE z. rewrite HE in NP. split; intros H; [rewrite (newest_fun _ _ _ H NP); exact NQ | rewrite (newest_fun _ _ _ H NQ); exact NP]. }
  assert (S2 : same_newest p q <-> rs <> [] \/ same_newest p0 q0).
  { rewrite S1, S0. split.
    - intros HE. destruct rs as [|r rs']; [right; exact HE | left; discriminate].
    - intros [H|H]; [apply last_indep; exact H | rewrite H; reflexivity]. }
  split; [exact S2|]. split.
  - intros HP HQ. rewrite <- S2. unfold same_status, same_newest, newest. rewrite HP, HQ. split; intros H z; specialize (H z).
    + split; (intros [F|[_ F]]; [discriminate F|]); right; (split; [reflexivity|]); apply H; exact F.
    + split; intros F; destruct H as [H1 H2]; [destruct (H1 (or_intror (conj eq_refl F))) as [F'|[_ F']] | destruct (H2 (or_intror (conj eq_refl F))) as [F'|[_ F']]]; try discriminate F'; exact F'.
  - intros z Hz. destruct (zone_ex _ z I0 U0 Hz) as (s & ZS), (zone_ex _ z J0 V0 Hz) as (s' & ZS').
    pose proof (zone_run _ _ _ _ _ _ I0 HO E Hz ZS) as ZP. pose proof (zone_run _ _ _ _ _ _ J0 HO' E' Hz ZS') as ZQ.
    destruct (zone_after_about z (messages bs) (messages_zs _ _ _ _ R HO E) Hz) as [B1 B2].
    unfold messages in *. rewrite PK in ZQ. set (ms := messages_in (packets (events bs))) in *.
    assert (T0 : same_zone p0 q0 z <-> s = s').
    { split; [intros H; apply H in ZS; eapply zone_det; eauto|]. intros <- a. split; intros H; [rewrite (zone_det _ _ _ _ H ZS); exact ZS' | rewrite (zone_det _ _ _ _ H ZS'); exact ZS]. }
    assert (T1 : same_zone p q z <-> zone_after z s ms = zone_after z s' ms).
    { split; [intros H; apply H in ZP; eapply zone_det; eauto|]. intros HE a. rewrite HE in ZP. split; intros H; [rewrite (zone_det _ _ _ _ H ZP); exact ZQ | rewrite (zone_det _ _ _ _ H ZQ); exact ZP]. }
    rewrite T1, T0. split.
    + intros HE. assert (DE : (exists m, In m ms /\ about z m) \/ (forall m, In m ms -> ~ about z m)).
      { clear. induction ms as [|m ms [(m' & I & A)|H]]; [right; intros m []|left; exists m'; split; [right; exact I | exact A]|].
        assert (D : about z m \/ ~ about z m) by (destruct m; cbn; try tauto; destruct (N.eq_dec (zc_zone m) z); tauto).
        destruct D as [D|D]; [left; exists m; split; [left; reflexivity | exact D]|]. right. intros m' [<-|I]; auto. }
      destruct DE as [DE|DE]; [left; exact DE|]. right. rewrite (B2 DE s), (B2 DE s') in HE. exact HE.
    + intros [H|H]; [apply B1; exact H | rewrite H; reflexivity].
Qed.

(* Two bridges on one panel, with whatever configurations and MQTT clients, show the same for the areas and zones both have. *)
Theorem C126_bridges_agree : forall cl cfg is1 u1 is2 u2 cl' cfg' js1 v1 js2 v2,
  bridge_after cl cfg is1 (Up u1) -> bridge_after cl cfg (is1 ++ is2) (Up u2) ->
  bridge_after cl' cfg' js1 (Up v1) -> bridge_after cl' cfg' (js1 ++ js2) (Up v2) ->
  unread (p_conn (u_panel u1)) ++ net_in is2 = unread (p_conn (u_panel v1)) ++ net_in js2 ->
  all_read (u_panel u2) -> all_read (u_panel v2) ->
  exists ps, same_news (u_panel u1) (u_panel v1) (u_panel u2) (u_panel v2) ps /\
    (held (u_panel u2) = None -> held (u_panel v2) = None -> reports_in ps <> [] \/ same_newest (u_panel u1) (u_panel v1) ->
     forall area name name', distinct_area_names cfg -> distinct_area_names cfg' -> In (area, name) (areas cfg) -> In (area, name') (areas cfg') ->
       exists t, holds (u_log u2) (topic_prefix cfg ++ B "/area/" ++ name ++ B "/ha_state") (PText t) /\
                 holds (u_log v2) (topic_prefix cfg' ++ B "/area/" ++ name' ++ B "/ha_state") (PText t)) /\
    (forall zone z z', cfg_ok cfg -> cfg_ok cfg' -> distinct_zone_names cfg -> distinct_zone_names cfg' -> In (zone, z) (zones cfg) -> In (zone, z') (zones cfg') ->
       (exists m, In m (messages_in ps) /\ about zone m) \/ same_zone (u_panel u1) (u_panel v1) zone ->
       exists t, holds (u_log u2) (topic_prefix cfg ++ B "/zone/" ++ z_name z ++ B "/ha_state") (PText t) /\
                 holds (u_log v2) (topic_prefix cfg' ++ B "/zone/" ++ z_name z' ++ B "/ha_state") (PText t)).
Proof.
  intros cl cfg is1 u1 is2 u2 cl' cfg' js1 v1 js2 v2 B1 B2 D1 D2 EQ A A'.
  assert (Re : forall cl cfg is u, bridge_after cl cfg is (Up u) -> reachable (u_panel u) /\ in_range cfg).
  { clear. intros cl cfg is u B1. pose proof B1 as B1'. rewrite <- (app_nil_r is) in B1'. destruct (bridge_between cl cfg is u [] u B1 B1') as [(R & IR & _) _]. auto. }
  destruct (C58_events_published cl cfg is1 u1 is2 u2 B1 B2) as (ops & bs & log & OO & ER & EN & _).
  destruct (C58_events_published cl' cfg' js1 v1 js2 v2 D1 D2) as (ops' & bs' & log' & OO' & ER' & EN' & _).
  assert (SN : same_news (u_panel u1) (u_panel v1) (u_panel u2) (u_panel v2) (packets (events bs))).
  { exists ops, ops', bs, bs'. rewrite EN, EN'. repeat (split; [try (apply (Re _ _ _ _ B1)); try (apply (Re _ _ _ _ D1)); try assumption|]). reflexivity. }
  exists (packets (events bs)). split; [exact SN|]. destruct (C126_agree _ _ _ _ _ SN) as (_ & AG & AZ). split.
  - intros HP HQ NEW area name name' DN DN' I I'. pose proof (proj2 (AG HP HQ) NEW) as SS.
    destruct (C48_area_topics_match cl cfg _ u2 area name B2 DN I) as (t & (r & s & u & al & S1 & S2 & S3) & H).
    destruct (C48_area_topics_match cl' cfg' _ v2 area name' D2 DN' I') as (t' & (r' & s' & u' & al' & S1' & S2' & S3') & H').
    apply SS in S1. unfold status_is in S1, S1'. assert (r' = r) as -> by congruence. destruct S2 as (Q1 & Q2 & Q3), S2' as (Q1' & Q2' & Q3').
    assert (s' = s) as -> by congruence. assert (u' = u) as -> by congruence. assert (al' = al) as -> by congruence.
    rewrite (shows_area_fun _ _ _ _ _ S3' S3) in H'. exists t. auto.
  - intros zone z z' CO CO' DN DN' I I' NEW.
    assert (Hz : 1 <= zone <= 208).
    { destruct (Re _ _ _ _ B1) as [_ (_ & IR & _)]. rewrite Forall_forall in IR. exact (IR _ I). }
    pose proof (proj2 (AZ zone Hz) NEW) as SZ.
    destruct (C49_zone_topics_match cl cfg _ u2 zone z B2 CO DN I) as (t & (s & S1 & S2) & H).
    destruct (C49_zone_topics_match cl' cfg' _ v2 zone z' D2 CO' DN' I') as (t' & (s' & S1' & S2') & H').
    apply SZ in S1. rewrite (zone_det _ _ _ _ S1' S1) in S2'. rewrite (shows_zone_fun _ _ _ S2' S2) in H'. exists t. auto.
Qed.

(* ---- examples ---- *)
(* The other client saw area 1 arming and zones 1 and 2 otherwise when it connected, and sends a command in between. *)
Definition ex_zones2 : list N := 9 :: 2 :: repeat 0 206.
Definition ex_other_init : list iop :=
  map (fun m => IArrive (Bytes (bytes_of m))) (MArmingStatusReport ex_arming :: MZoneStatusReport ex_zones2 :: tl (tl (tl ex_replies))) ++
  repeat (IStep 0 [WAccept 100]) 22.
Definition ex_other : Panel := Eval vm_compute in connected_by ex_other_init.
Lemma ex_other_connected : connected ex_other.
Proof. exists ex_other_init. split; [apply arrivals_ok; vm_compute; reflexivity | vm_compute; reflexivity]. Qed.
Definition ex_news : bytes := bytes_of (MZoneChange (mkZC 2 1)) ++ bytes_of (MArmingStatusReport ex_disarmed).
Definition ex_h : list op := [Arrive (Bytes ex_news); PollNext 0; PollNext 1].
Definition ex_g : list op :=
  [Arrive (Bytes (firstn 9 ex_news)); PollNext 7; StartSend (CmdArm (mkArmRequest 1 AL_Disarm (B "001234"))); PollFlush [WAccept 100];
   Arrive (Bytes (skipn 9 ex_news)); PollNext 8; PollNext 9; PollNext 10].
Definition after (p : Panel) (h : list op) : Panel := match run p h with Ok (p', _) => p' | _ => p end.
Definition seen_by (p : Panel) (h : list op) : list obs := match run p h with Ok (_, bs) => bs | _ => [] end.
Lemma all_read_by p c r : conn_poll_next (p_conn p) = Ok (c, r) -> (match r with Pending => true | _ => false end = true) -> all_read p.
Proof. intros E H. exists c. rewrite E. destruct r; [reflexivity | discriminate]. Qed.
Example C126_example_hyp : same_news ex_panel ex_other (after ex_panel ex_h) (after ex_other ex_g) (packets (events (seen_by ex_panel ex_h))).
Proof.
  assert (U : forall b, forallb (fun x => x <? 256) b = true -> u8s b) by (intros b H; apply Forall_forall; intros x Hx; rewrite forallb_forall in H; apply N.ltb_lt; auto).
  exists ex_h, ex_g, (seen_by ex_panel ex_h), (seen_by ex_other ex_g).
  split; [apply connected_reachable; exact ex_connected|]. split; [apply connected_reachable; exact ex_other_connected|].
  split; [apply Forall_cons; [apply U; vm_compute; reflexivity | repeat (apply Forall_cons; [exact Logic.I|]); constructor]|].
  split; [apply Forall_cons; [apply U; vm_compute; reflexivity|]; apply Forall_cons; [exact Logic.I|]; apply Forall_cons; [cbn; repeat split; cbv; (discriminate || reflexivity || (repeat constructor; cbv; discriminate))|];
    apply Forall_cons; [exact Logic.I|]; apply Forall_cons; [apply U; vm_compute; reflexivity|]; repeat (apply Forall_cons; [exact Logic.I|]); constructor|].
  split; [vm_compute; reflexivity|]. split; [vm_compute; reflexivity|]. split; [vm_compute; reflexivity|].
  split; [eexists; vm_compute; reflexivity|]. split; [eexists; vm_compute; reflexivity|]. reflexivity.
Qed.
Example C126_example :
  let p := after ex_panel ex_h in let q := after ex_other ex_g in
  (panel_arming_status ex_panel, panel_arming_status ex_other) = (Ok ex_disarmed, Ok ex_arming) /\
  panel_arming_status p = Ok ex_disarmed /\ panel_arming_status q = Ok ex_disarmed /\
  match panel_zone_statuses p, panel_zone_statuses q with Ok zs, Ok zs' => (firstn 3 zs, firstn 3 zs') | _, _ => ([], []) end = ([2; 1; 0], [9; 1; 0]).
Proof. vm_compute. repeat split. Qed.
(* A second bridge under another prefix, whose names differ. *)
Definition ex_cfg2 : Cfg := mkCfg (B "0001") 42 [(1, B "home")] [(2, mkZoneCfg (B "door") (B "door"))] (Some (B "second")) None.
Example C126_bridges_example :
  let u := up_of (brun ex_cl ex_cfg (ex_start ++ ex_reports)) in let v := up_of (brun ex_cl ex_cfg2 (ex_start ++ ex_reports)) in
  bridge_after ex_cl ex_cfg2 ex_start (Up (up_of (brun ex_cl ex_cfg2 ex_start))) /\ bridge_after ex_cl ex_cfg2 (ex_start ++ ex_reports) (Up v) /\
  all_read (u_panel u) /\ all_read (u_panel v) /\ held (u_panel u) = None /\ held (u_panel v) = None /\
  retained (u_log u) (B "elkm1/0001/area/house/ha_state") = Some (PText (B "arming")) /\ retained (u_log v) (B "second/area/home/ha_state") = Some (PText (B "arming")) /\
  retained (u_log u) (B "elkm1/0001/zone/front/ha_state") = Some (PText (B "off")) /\ retained (u_log v) (B "second/zone/door/ha_state") = Some (PText (B "off")).
Proof.
  cbv zeta. assert (OR : Forall input_ok ex_reports).
  { apply Forall_cons; [apply Forall_forall; intros b Hb; apply N.ltb_lt; revert b Hb; apply forallb_forall; vm_compute; reflexivity|].
    repeat (apply Forall_cons; [exact Logic.I|]); constructor. }
  split; [split; [exact ex_start_ok | vm_compute; reflexivity]|].
  split; [split; [apply Forall_app; split; [exact ex_start_ok | exact OR] | vm_compute; reflexivity]|].
  split; [eexists; vm_compute; reflexivity|]. split; [eexists; vm_compute; reflexivity|]. vm_compute. repeat split.
Qed.

Print Assumptions C126_same_packets.
Print Assumptions C126_agree.
Print Assumptions C126_bridges_agree.
