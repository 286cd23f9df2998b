(* PropTrace.v: C86, C87: what is logged. *)
From Verif Require Import Base BaseFacts Pkt SpecPkt PktFacts DecodeFacts Msg SpecMsg DecFacts MsgFacts WireFacts IsoFacts
  PropMsg Tokio SpecConn ConnFacts State SpecState StateFacts RunFacts HistFacts ViewFacts ExState PropState PropSink
  Serde SerdeFacts PropSerde Mqtt SpecMqtt MqttFacts PropMqtt Fmt PropFmt Log SpecTrace.
From Coq Require Import ZifyBool ZifyNat ZifyN.
Ltac Zify.zify_post_hook ::= Z.div_mod_to_equations.

(* ---- a poll ---- *)
Lemma poll_log now p p' r w : pinv p -> poll_next now p = Ok (p', r, w) ->
  (exists pkt e, r = Ready (Some (IoOk e)) /\ e_pkt e = Some pkt /\ log_poll_next now p = Ok (line_received pkt :: log_interpret p pkt)) \/
  (exists d m prior, r = Ready (Some (IoOk (deferred_event prior))) /\ pending_arm p = Some (d, m) /\ d <= now /\ s_arming (p_state p) = Some prior /\
     log_poll_next now p = Ok [line_deferred prior m]) \/
  (forall e, r <> Ready (Some (IoOk e))) /\ log_poll_next now p = Ok [].
Proof.
  intros I E. unfold poll_next, log_poll_next in *. destruct (conn_next_total _ (proj1 I)) as (c & rc & EC & X). rewrite EC in *. cbn [bind] in *.
  destruct rc as [|[[pkt|er]|]].
  - cbn [pending_arm with_conn p_state] in E. destruct (pending_arm p) as [[d m]|]; [|injection E as <- <- <-; right; right; split; [discriminate | reflexivity]].
    destruct (N.leb_spec d now); [|injection E as <- <- <-; right; right; split; [discriminate | reflexivity]].
    destruct (s_arming (p_state p)) as [prior|]; [|discriminate]. injection E as <- <- <-. right; left. exists d, m, prior. auto 6.
  - destruct (interpret now (with_conn p c) pkt) as [[[q e] w']|e|why] eqn:EI; try discriminate. cbn [bind] in E. injection E as <- <- <-. left. exists pkt, e. split; [reflexivity|]. split; [|reflexivity].
    unfold interpret in EI. destruct (parse pkt) as [[m|]|er|why]; try discriminate; try (injection EI as <- <- <-; reflexivity).
    apply bind_inv in EI as ([q1 ch] & _ & EI). destruct (interpret_reply q1 m) as [[q2 rep] wk]. injection EI as <- <- <-. reflexivity.
  - injection E as <- <- <-. right; right. split; [discriminate | reflexivity].
  - injection E as <- <- <-. right; right. split; [discriminate | reflexivity].
Qed.

(* ================= C87 ================= *)
Theorem C87_poll_logs_exactly : forall p now p' r w, reachable p -> poll_next now p = Ok (p', r, w) ->
  exists ls, log_poll_next now p = Ok ls /\ poll_says p p' r ls.
Proof.
  intros p now p' r w R E. destruct (reachable_inv _ R) as [I U]. pose proof U as [(a & EA) _].
  assert (A : status_is p a) by (unfold status_is, panel_arming_status; rewrite EA; reflexivity).
  destruct (poll_log _ _ _ _ _ I E) as [(pkt & e & -> & EP & EL)|[(d & m & prior & -> & EM & L & ES & EL)|[N EL]]]; rewrite EL; (eexists; split; [reflexivity|]).
  - pose proof (C30_no_report_lost _ _ _ _ _ _ _ R E eq_refl A) as NR. rewrite EP in NR.
    assert (PM : match message_of pkt with Some m => e_msg e = Some (inl m) | None => forall m, e_msg e <> Some (inl m) end).
    { pose proof (poll_next_case _ _ _ _ _ I E) as PC. inversion PC as [pkt' m e' w' D K EP' E1 E2 N' M R'|pkt' e' D K EP' E1 E2 E3 E4 E5|d m prior D UU X E1 E2 E3 E4|r' NE UU F E0]; subst.
      - assert (pkt' = pkt) as -> by congruence. unfold message_of. rewrite E1. exact E2.
      - assert (pkt' = pkt) as -> by congruence. rewrite E1. intros m. rewrite E2. destruct (parse pkt); discriminate.
      - discriminate EP.
      - elim (NE e). reflexivity. }
    unfold log_interpret. unfold message_of in PM.
    destruct (parse pkt) as [[m|]|er|why]; [|apply Says_received with (e := e) (pkt := pkt); [reflexivity | exact EP | intros ? x Br; elim (PM _ Br) | reflexivity]..].
    destruct m; try (apply Says_received with (e := e) (pkt := pkt); [reflexivity | exact EP | unfold brings; congruence | reflexivity]).
    rewrite PM in NR. unfold log_arming. rewrite EA. pose proof (suspicious_spec a m) as SS. unfold held in *.
    destruct (is_transition_suspicious a m).
    + assert (BF : became_fully_armed a m) by (apply SS; reflexivity). destruct (pending_arm p) as [[d x]|] eqn:EH; cbn [option_map snd] in NR.
      * destruct NR as [(N1 & N2 & _)|(_ & _ & N & _)]; [|discriminate]. eapply Says_again with (e := e) (pkt := pkt) (m := x); eauto; try reflexivity; [unfold held; rewrite EH; reflexivity | repeat eexists].
      * destruct NR as [(_ & _ & [N|N])|(N1 & N2 & _)]; [congruence | contradiction|]. eapply Says_delaying with (e := e) (pkt := pkt); eauto; try reflexivity; [unfold held; rewrite EH; reflexivity | repeat eexists].
    + assert (NB : ~ became_fully_armed a m) by (intros X; apply SS in X; discriminate).
      replace (match pending_arm p with Some (_, pending) => [] | None => [] end) with (@nil entry) by (destruct (pending_arm p) as [[]|]; reflexivity).
      apply Says_received with (e := e) (pkt := pkt); [reflexivity | exact EP | | reflexivity]. intros a' x Br A'. unfold brings in Br. unfold status_is in *. congruence.
  - pose proof (C30_no_report_lost _ _ _ _ _ _ _ R E eq_refl A) as NR. cbn [e_msg e_pkt deferred_event] in NR. destruct NR as (x & H1 & H2 & H3).
    assert (x = m) as -> by (unfold held in H1; rewrite EM in H1; cbn in H1; congruence). assert (prior = a) as -> by congruence.
    eapply Says_deferred with (e := deferred_event a); eauto; try reflexivity; repeat eexists.
  - apply Says_nothing. intros e Y. exact (N e Y).
Qed.

(* ================= C86 ================= *)
Definition took (ls : list entry) (data : bytes) (ps : list packet) (c c' : conn) : Prop :=
  exists os fs, Forall2 says_received ps (about "received packet" ls) /\ Forall2 says_sending os (about "sending packet" ls) /\
    Forall2 framed os fs /\ takes (unread c ++ data) ps (unread c') /\ written c' = written c ++ concat fs.
Lemma about_app t a b : about t (a ++ b) = about t a ++ about t b.
Proof. apply filter_app. Qed.
Lemma took_nil ls data c c' : about "received packet" ls = [] -> about "sending packet" ls = [] -> unread c' = unread c ++ data -> written c' = written c ->
  took ls data [] c c'.
Proof.
  intros A B U W. exists [], []. rewrite A, B, U, W. cbn [concat]. rewrite app_nil_r.
  do 3 (split; [constructor|]). split; [constructor | reflexivity].
Qed.
Lemma took_one ls pkt c c' : about "received packet" ls = [line_received pkt] -> about "sending packet" ls = [] -> decode (unread c) = Ok (Some pkt, unread c') ->
  written c' = written c -> took ls [] [pkt] c c'.
Proof.
  intros A B D W. exists [], []. rewrite A, B, W. cbn [concat]. rewrite !app_nil_r. split; [repeat constructor|].
  do 2 (split; [constructor|]). split; [|reflexivity]. eapply (takes_snoc (unread c) [] (unread c) pkt); [constructor | exact D].
Qed.
Lemma took_out ls pkt f c c' : about "received packet" ls = [] -> about "sending packet" ls = [line_sending pkt] -> framed pkt f -> unread c' = unread c ->
  written c' = written c ++ f -> took ls [] [] c c'.
Proof.
  intros A B F U W. exists [pkt], [f]. rewrite A, B, W, U. cbn [concat]. rewrite !app_nil_r.
  split; [constructor|]. split; [repeat constructor|]. split; [repeat constructor; exact F|]. split; [constructor | reflexivity].
Qed.
Lemma took_trans l1 l2 d1 d2 ps ps' c c1 c2 : took l1 d1 ps c c1 -> took l2 d2 ps' c1 c2 -> u8s (unread c ++ d1) -> u8s d2 ->
  took (l1 ++ l2) (d1 ++ d2) (ps ++ ps') c c2.
Proof.
  intros (os & fs & A & B & F & T & W) (os' & fs' & A' & B' & F' & T' & W') U U'. exists (os ++ os'), (fs ++ fs').
  rewrite !about_app, W', W, concat_app, <- app_assoc. do 3 (split; [apply Forall2_app; assumption|]). split; [|reflexivity].
  rewrite app_assoc. eapply takes_app; [apply takes_more; eassumption | exact T'].
Qed.
Lemma tame_quiet l : loud l = false -> tame l.
Proof. intros E F. congruence. Qed.
Lemma about_interpret t p pkt : (t = "received packet" \/ t = "sending packet" \/ t = "sending message")%string -> about t (log_interpret p pkt) = [].
Proof.
  intros H. unfold log_interpret, log_arming. destruct (parse pkt) as [[[]|]| |]; try reflexivity.
  destruct (s_arming (p_state p)); [|reflexivity]. destruct (pending_arm p) as [[]|]; destruct (is_transition_suspicious _ _); try reflexivity;
  destruct H as [->|[->| ->]]; reflexivity.
Qed.
Lemma tame_interpret p pkt : Forall tame (log_interpret p pkt).
Proof.
  unfold log_interpret, log_arming. destruct (parse pkt) as [[[]|]| |]; try constructor.
  destruct (s_arming (p_state p)) as [a|]; [|constructor]. destruct (pending_arm p) as [[]|]; destruct (is_transition_suspicious _ _); repeat constructor.
  - intros _. eexists a, _. right. eexists. repeat eexists.
  - apply tame_quiet. reflexivity.
Qed.
Lemma poll_took now p p' r w : pinv p -> poll_next now p = Ok (p', r, w) ->
  exists ls, log_poll_next now p = Ok ls /\ took ls [] (packets (events [ONext r w])) (p_conn p) (p_conn p') /\ about "sending message" ls = [] /\ Forall tame ls.
Proof.
  intros I E. destruct (poll_next_inv _ _ _ _ _ I E) as [_ P]. pose proof (poll_next_case _ _ _ _ _ I E) as PC.
  assert (W : written (p_conn p') = written (p_conn p)).
  { destruct P as (rc & X & H). destruct (nexts_same_write _ _ _ X) as (E1 & E2 & _). unfold written. congruence. }
  destruct (poll_log _ _ _ _ _ I E) as [(pkt & e & -> & EP & EL)|[(d & m & prior & -> & EM & L & ES & EL)|[N EL]]]; rewrite EL; (eexists; split; [reflexivity|]).
  - split.
    + replace (packets (events [ONext (Ready (Some (IoOk e))) w])) with [pkt] by (unfold packets, events; cbn; rewrite EP; reflexivity). apply (took_one _ pkt); auto.
      * change (line_received pkt :: about "received packet" (log_interpret p pkt) = [line_received pkt]). rewrite about_interpret by auto. reflexivity.
      * apply (about_interpret "sending packet"); auto.
      * inversion PC as [pkt' m e' w' D K EP' E1 E2 N' M R'|pkt' e' D K EP' E1 E2 E3 E4 E5|d m prior D UU X E1 E2 E3 E4|r' NE UU F E0]; subst.
        -- assert (pkt' = pkt) as -> by congruence. exact D.
        -- assert (pkt' = pkt) as -> by congruence. exact D.
        -- discriminate EP.
        -- elim (NE e). reflexivity.
    + split; [apply (about_interpret "sending message"); auto|]. constructor; [apply tame_quiet; reflexivity | apply tame_interpret].
  - split; [apply took_nil; auto|].
    + rewrite app_nil_r. inversion PC as [pkt' m' e' w' D K EP' E1 E2 N' M R'|pkt' e' D K EP' E1 E2 E3 E4 E5|d' m' prior' D UU X E1 E2 E3 E4|r' NE UU F E0]; subst.
      * discriminate EP'. * discriminate EP'. * exact UU. * elim (NE (deferred_event prior)). reflexivity.
    + split; [reflexivity|]. repeat constructor. intros _. exists prior, m. left. repeat eexists.
  - replace (packets (events [ONext r w])) with (@nil packet) by (destruct r as [|[[e|er]|]]; try reflexivity; elim (N e); reflexivity).
    split; [apply took_nil; auto|].
    + rewrite app_nil_r. inversion PC as [pkt' m' e' w' D K EP' E1 E2 N' M R'|pkt' e' D K EP' E1 E2 E3 E4 E5|d' m' prior' D UU X E1 E2 E3 E4|r' NE UU F E0]; subst.
      * elim (N e'). reflexivity. * elim (N e'). reflexivity. * elim (N (deferred_event prior')). reflexivity. * exact UU.
    + split; [reflexivity | constructor].
Qed.
Lemma step_took p o p' b : pinv p -> op_ok o -> step p o = Ok (p', b) ->
  exists ls, log_step p o = Ok ls /\ took ls (arrived [o]) (packets (events [b])) (p_conn p) (p_conn p') /\ Forall2 says_command (accepted [o]) (about "sending message" ls) /\ Forall tame ls.
Proof.
  intros I HO E. destruct (step_inv _ _ _ _ I HO E) as [_ S]. destruct o as [a|now|w ws|c|ws|ws]; cbn [stepped log_step] in *.
  - destruct S as [-> ->]. eexists. split; [reflexivity|]. split; [|split; constructor]. replace (arrived [Arrive a]) with (arrival_data a) by (unfold arrived; cbn [map concat]; rewrite app_nil_r; reflexivity).
    apply took_nil; [reflexivity | reflexivity | apply arrive_unread | destruct a; reflexivity].
  - cbn [step] in E. apply bind_inv in E as ([[q r] w] & E & [= <- <-]). destruct (poll_took _ _ _ _ _ I E) as (ls & -> & T & A & F).
    exists ls. split; [reflexivity|]. split; [exact T|]. rewrite A. split; [constructor | exact F].
  - destruct S as (r & -> & S & W & _). exists []. split; [reflexivity|]. split; [|split; constructor]. apply took_nil; auto. cbn. rewrite app_nil_r. apply sink_unread, S.
  - destruct S as (-> & C & S & _ & _). unfold log_start_send. rewrite C. cbn [op_ok] in HO.
    cbn [step] in E. apply bind_inv in E as (q & E & [= ->]). unfold start_send in E. rewrite C in E.
    destruct (to_pkt_spec _ HO) as (body & ET & _ & AB & _). rewrite ET in E. cbn [bind] in E. unfold conn_start_send in E.
    destruct (encode_valid (PAscii body) AB) as (f & FF & HE). rewrite HE in E. cbn [bind] in E. injection E as <-.
    rewrite (message_dbg_tree _ (wf_prints _ HO)), ET. cbn [bind]. eexists. split; [reflexivity|]. split; [|split].
    + apply (took_out _ (PAscii body) f); try reflexivity; [exists body; auto|]. unfold written. cbn. apply app_assoc.
    + constructor; [|constructor]. eexists. split; [apply message_dbg_tree, wf_prints; exact HO | reflexivity].
    + repeat constructor; apply tame_quiet; reflexivity.
  - destruct S as (r & -> & S & W & _). exists []. split; [reflexivity|]. split; [|split; constructor]. apply took_nil; auto. cbn. rewrite app_nil_r. apply sink_unread, S.
  - destruct S as (r & -> & S & W & _). exists []. split; [reflexivity|]. split; [|split; constructor]. apply took_nil; auto. cbn. rewrite app_nil_r. apply sink_unread, S.
Qed.
Lemma run_took h : forall p p' bs, pinv p -> Forall op_ok h -> run p h = Ok (p', bs) ->
  exists ls, log_run p h = Ok ls /\ took ls (arrived h) (packets (events bs)) (p_conn p) (p_conn p') /\ Forall2 says_command (accepted h) (about "sending message" ls) /\ Forall tame ls.
Proof.
  induction h as [|o h IH]; intros p p' bs I HO E; cbn [run log_run] in *.
  - injection E as <- <-. exists []. split; [reflexivity|]. split; [|split; constructor]. apply took_nil; auto. symmetry. apply app_nil_r.
  - inversion HO as [|? ? O1 O2]; subst. apply bind_inv in E as ([p1 b] & E1 & E). apply bind_inv in E as ([p2 bs2] & E2 & [= <- <-]).
    destruct (step_inv _ _ _ _ I O1 E1) as [I1 _]. destruct (step_took _ _ _ _ I O1 E1) as (l & -> & T & C & F). destruct (IH _ _ _ I1 O2 E2) as (ls & EL & T2 & C2 & F2).
    cbn [bind]. rewrite E1. cbn [bind]. rewrite EL. exists (l ++ ls). split; [reflexivity|]. change (o :: h) with ([o] ++ h). change (b :: bs2) with ([b] ++ bs2). rewrite arrived_app, accepted_app, about_app, events_app, packets_app.
    split; [|split; [apply Forall2_app; assumption | apply Forall_app; auto]]. eapply took_trans; eauto; [|apply arrived_u8; auto].
    apply u8s_app. split; [apply unread_u8, I | apply arrived_u8; auto].
Qed.
(* connecting *)
Definition panel_of (i : istate) : option Panel := match i with IRun _ _ p => Some p | IDone p => Some p | _ => None end.
Lemma stage_line s : exists l, log_init_req s = Ok [l] /\ en_text l = "sending initialization message"%string /\ loud l = false.
Proof. destruct s; eexists; repeat split. Qed.
Lemma after_reply_conn s p m p' : panel_of (after_reply s p m) = Some p' -> p_conn p' = p_conn p.
Proof.
  assert (AS : forall ty q, panel_of (after_sds ty q) = Some p' -> p_conn p' = p_conn q) by (intros ty q; destruct ty; cbn; congruence).
  destruct s as [| |ty max i]; cbn [after_reply panel_of]; try congruence. unfold sds_reply. destruct m; try discriminate. destruct (negb _); [discriminate|].
  destruct (names_of (p_state p) ty); [|discriminate]. destruct (sd_num m =? 0); [apply AS|].
  destruct (_ <? _)%nat; [discriminate|]. destruct (set_nth l _ _) as [l'|?|?]; try discriminate.
  destruct (_ <? _)%nat; [cbn [panel_of]; intros [= <-]; destruct ty; reflexivity|]. intros H. rewrite (AS _ _ H). destruct ty; reflexivity.
Qed.
Lemma istep_took now ws i : iinv i -> exists ls, log_istep now ws i = Ok ls /\ Forall tame ls /\
  forall p', panel_of (istep now ws i) = Some p' -> exists p ps, panel_of i = Some p /\ took ls [] ps (p_conn p) (p_conn p').
Proof.
  destruct i as [s ph p|p|e|w]; intros I.
  2-4: exists []; split; [reflexivity|]; split; [constructor|].
  3,4: discriminate.
  2: intros p' H; exists p, []; split; [reflexivity|]; cbn in H; injection H as <-; apply took_nil; auto; symmetry; apply app_nil_r.
  destruct I as (I & C & S & W). destruct ph; cbn [istep log_istep].
  - unfold conn_poll_ready. rewrite W by discriminate. cbn [length]. change (BACKPRESSURE <=? N.of_nat 0) with false. cbv beta iota.
    destruct (to_pkt_spec _ (stage_msg_wf s p S)) as (b & -> & _ & Hb & _). cbn [bind].
    destruct (encode_valid (PAscii b) Hb) as (f & HF & HE). unfold conn_start_send. rewrite HE. cbn [bind panel_of].
    eexists. split; [reflexivity|]. split; [repeat constructor; apply tame_quiet; reflexivity|]. intros p' [= <-]. exists p, []. split; [reflexivity|].
    apply (took_out _ (PAscii b) f); try reflexivity; [exists b; auto|]. unfold written. cbn. apply app_assoc.
  - destruct (conn_poll_flush (p_conn p) ws) as [[c ws'] r] eqn:EF.
    destruct (conn_flush_spec _ _ _ _ _ EF) as ((R1 & _ & _ & _ & R2 & _) & _ & WW & _).
    exists []. split; [reflexivity|]. split; [constructor|]. intros p' H. exists p, []. split; [reflexivity|].
    assert (p_conn p' = c) as -> by (destruct r as [|[[]|e]]; cbn in H; try discriminate; injection H as <-; reflexivity).
    apply took_nil; auto. unfold unread. rewrite app_nil_r. congruence.
  - pose proof I as (CI & _). destruct (conn_next_total _ CI) as (c & r & E & X). rewrite E. cbn [bind].
    pose proof (nexts_unread _ _ _ X CI) as U. destruct (await_eof_fails s) as (eof & ->). destruct (nexts_same_write _ _ _ X) as (E1 & E2 & _).
    assert (WW : written c = written (p_conn p)) by (unfold written; congruence).
    destruct r as [|[[pkt|e]|]]; cbv beta iota in U.
    1,3,4: exists []; split; [reflexivity|]; split; [constructor|]; try discriminate.
    + intros p' [= <-]. exists p, []. split; [reflexivity|]. apply took_nil; auto. rewrite app_nil_r. apply U.
    + pose proof (with_conn_inv p c I (nexts_inv _ _ _ X CI) E1) as I'.
      destruct (interpret_spec now (with_conn p c) pkt I' (nexts_pkt_ok _ _ _ X CI)) as (p' & e & w & EI & I2 & C2 & Y). rewrite EI. cbn [bind].
      assert (OK : event_ok e).
      { eapply (emitted_ok now p p' (Ready (Some (IoOk e))) w); [exact I | | reflexivity]. unfold poll_next. rewrite E. cbn [bind]. rewrite EI. reflexivity. }
      rewrite (event_dbg_tree e OK). cbn [bind].
      assert (T : forall l p2, about "received packet" l = [] -> about "sending packet" l = [] -> p_conn p2 = p_conn p' ->
        took ((line_received pkt :: log_interpret p pkt) ++ l) [] [pkt] (p_conn p) (p_conn p2)).
      { intros l p2 A B EC. rewrite EC, C2. cbn [p_conn with_conn]. apply (took_one _ pkt); auto.
        - change (line_received pkt :: about "received packet" (log_interpret p pkt ++ l) = [line_received pkt]). rewrite about_app, about_interpret, A by auto. reflexivity.
        - change (about "sending packet" (log_interpret p pkt ++ l) = []). rewrite about_app, about_interpret, B by auto. reflexivity. }
      assert (TT : forall l, Forall tame l -> Forall tame ((line_received pkt :: log_interpret p pkt) ++ l)).
      { intros l F. apply Forall_app. split; [|exact F]. constructor; [apply tame_quiet; reflexivity | apply tame_interpret]. }
      assert (T0 : took (line_received pkt :: log_interpret p pkt) [] [pkt] (p_conn p) (p_conn p')) by (rewrite <- app_nil_r with (l := line_received pkt :: log_interpret p pkt); apply T; reflexivity).
      assert (TT0 : Forall tame (line_received pkt :: log_interpret p pkt)) by (rewrite <- app_nil_r with (l := line_received pkt :: log_interpret p pkt); apply TT; constructor).
      destruct (e_msg e) as [[m|er]|].
      2,3: eexists; split; [reflexivity|]; split; [exact TT0|]; intros p2 [= <-]; exists p, [pkt]; split; [reflexivity | exact T0].
      destruct (is_response_to m (stage_msg s)).
      * pose proof (after_reply_conn s p' m) as AC. destruct (after_reply s p' m) as [s' ph' p3|p3|e3|w3] eqn:EA.
        -- destruct (stage_line s') as (l & -> & EL & ELd). cbn [bind]. rewrite <- app_assoc. eexists. split; [reflexivity|]. split.
           ++ apply TT. repeat constructor; apply tame_quiet; [reflexivity | exact ELd].
           ++ intros p2 H. exists p, [pkt]. split; [reflexivity|]. apply T; [unfold about; cbn; rewrite EL; reflexivity .. |]. apply AC. exact H.
        -- eexists. split; [reflexivity|]. split; [apply TT; repeat constructor; apply tame_quiet; reflexivity|].
           intros p2 H. exists p, [pkt]. split; [reflexivity|]. apply T; [reflexivity | reflexivity|]. apply AC. exact H.
        -- eexists. split; [reflexivity|]. split; [apply TT; repeat constructor; apply tame_quiet; reflexivity | discriminate].
        -- eexists. split; [reflexivity|]. split; [apply TT; repeat constructor; apply tame_quiet; reflexivity | discriminate].
      * eexists. split; [reflexivity|]. split; [apply TT; repeat constructor; apply tame_quiet; reflexivity|].
        intros p2 [= <-]. exists p, [pkt]. split; [reflexivity|]. apply T; reflexivity.
Qed.
Lemma iops_took h : forall i, iinv i -> Forall iop_ok h -> exists ls, log_iops i h = Ok ls /\ Forall tame ls /\
  forall p', panel_of (fold_left iop_step h i) = Some p' -> exists p ps, panel_of i = Some p /\ took ls (iarrived h) ps (p_conn p) (p_conn p').
Proof.
  induction h as [|o h IH]; intros i I HO; cbn [log_iops fold_left].
  - exists []. split; [reflexivity|]. split; [constructor|]. intros p' H. exists p', []. split; [exact H|]. apply took_nil; auto. symmetry. apply app_nil_r.
  - inversion HO as [|? ? O1 O2]; subst.
    assert (X : exists l, log_iop i o = Ok l /\ Forall tame l /\ iinv (iop_step i o) /\
      forall p', panel_of (iop_step i o) = Some p' -> exists p ps, panel_of i = Some p /\ took l (iarrived [o]) ps (p_conn p) (p_conn p')).
    { destruct o as [a|now ws]; cbn [log_iop iop_step].
      - exists []. split; [reflexivity|]. split; [constructor|]. split; [apply iarrive_inv; auto|].
        intros p' H. replace (iarrived [IArrive a]) with (arrival_data a) by (unfold iarrived; cbn [map concat]; rewrite app_nil_r; reflexivity).
        destruct i as [s ph p|p|e|w]; try discriminate H; cbn [iarrive panel_of] in H; injection H as <-; exists p, []; (split; [reflexivity|]);
        apply took_nil; [reflexivity | reflexivity | apply arrive_unread | destruct a; reflexivity | reflexivity | reflexivity | apply arrive_unread | destruct a; reflexivity].
      - destruct (istep_took now ws i I) as (l & EL & T & F). exists l. split; [exact EL|]. split; [exact T|]. split; [apply istep_inv; exact I | exact F]. }
    destruct X as (l & -> & T & I1 & F). destruct (IH _ I1 O2) as (ls & -> & T2 & F2). cbn [bind]. exists (l ++ ls). split; [reflexivity|].
    split; [apply Forall_app; auto|]. intros p' H. destruct (F2 _ H) as (p1 & ps2 & E1 & K2). destruct (F _ E1) as (p & ps & E & K). exists p, (ps ++ ps2).
    split; [exact E|]. change (o :: h) with ([o] ++ h). rewrite iarrived_app. eapply took_trans; eauto; [|apply iarrived_u8; auto].
    apply u8s_app. split; [|apply iarrived_u8; auto]. apply unread_u8. destruct i as [s ph q|q|e|w]; try discriminate E; injection E as <-; apply I.
Qed.
Lemma took_records ls data ps c' : u8s data -> cinv c' -> took ls data ps conn_new c' -> records ls data ps (sent c' ++ wbuf c').
Proof.
  intros U I (os & fs & A & B & F & T & W). split; [exact A|]. cbn [unread conn_new rbuf rq qdata map concat app] in T. split; [|exists os, fs; auto].
  destruct (drain_total _ (unread_u8 _ I)) as (qs & left & _ & D). exists qs, left. apply drain_iff; [exact U|]. eapply takes_drains; [exact T | exact D].
Qed.
Lemma irun_took h : Forall iop_ok h -> exists ls, log_irun h = Ok ls /\ Forall tame ls /\
  forall p, panel_of (irun conn_new h) = Some p -> exists ps, took ls (iarrived h) ps conn_new (p_conn p).
Proof.
  intros HO. destruct (iops_took h (init_start conn_new)) as (ls & EL & T & F); [apply (irun_inv [] (Forall_nil _)) | exact HO|].
  unfold log_irun. destruct (stage_line St_as) as (l & -> & El & Ll). cbn [bind]. rewrite EL. exists ([l] ++ ls). split; [reflexivity|].
  split; [constructor; [apply tame_quiet; exact Ll | exact T]|]. intros p H. destruct (F p H) as (p1 & ps & [= <-] & K). exists ps.
  change (iarrived h) with ([] ++ iarrived h). change ps with ([] ++ ps). eapply took_trans; [|exact K | constructor | apply iarrived_u8; auto].
  apply took_nil; try reflexivity; unfold about; cbn; rewrite El; reflexivity.
Qed.

(* which texts there are *)
Lemma about_none ts t ls : Forall (fun l => In (en_text l) ts) ls -> ~ In t ts -> about t ls = [].
Proof.
  intros F N. induction F as [|l ls H F IH]; [reflexivity|]. unfold about in *. cbn [filter]. destruct (String.eqb_spec (en_text l) t) as [X|X]; [|exact IH].
  rewrite X in H. contradiction.
Qed.
Definition arming_texts : list string := ["next arming report after suspicious transition is also suspicious; applying anyway";
  "delaying arming status transition suspected to be spurious"; "deferred arming status taking effect"]%string.
Definition run_texts : list string := ["received packet"; "sending packet"; "sending message"]%string ++ arming_texts.
Definition irun_texts : list string := ["received packet"; "sending packet"; "sending initialization message"; "received reply";
  "received unrelated message while awaiting reply"]%string ++ arming_texts.
Ltac text := cbn; tauto.
Ltac texts := repeat (apply Forall_cons; [text|]); apply Forall_nil.
Lemma texts_interpret p pkt : Forall (fun l => In (en_text l) arming_texts) (log_interpret p pkt).
Proof.
  unfold log_interpret, log_arming. destruct (parse pkt) as [[[]|]| |]; try constructor.
  destruct (s_arming (p_state p)) as [a|]; [|constructor]. destruct (pending_arm p) as [[]|]; destruct (is_transition_suspicious _ _); texts.
Qed.
Lemma texts_sub ts l : incl arming_texts ts -> Forall (fun l => In (en_text l) arming_texts) l -> Forall (fun l => In (en_text l) ts) l.
Proof. intros S. apply Forall_impl. intros e. apply S. Qed.
Lemma texts_step p o ls : log_step p o = Ok ls -> Forall (fun l => In (en_text l) run_texts) ls.
Proof.
  assert (S : incl arming_texts run_texts) by (intros x; unfold run_texts; rewrite in_app_iff; auto).
  destruct o as [a|now|w ws|c|ws|ws]; cbn [log_step]; try (intros [= <-]; constructor).
  - unfold log_poll_next. intros E. apply bind_inv in E as ([c r] & _ & E). destruct r as [|[[pkt|e]|]]; try (injection E as <-; constructor).
    + destruct (pending_arm p) as [[d m]|]; [|injection E as <-; constructor]. destruct (d <=? now); [|injection E as <-; constructor].
      destruct (s_arming (p_state p)); [|discriminate]. injection E as <-. texts.
    + text.
    + eapply texts_sub; [exact S | apply texts_interpret].
  - unfold log_start_send. destruct (cmd_state p); [|discriminate]. intros E. apply bind_inv in E as (d & _ & E). apply bind_inv in E as (pkt & _ & [= <-]).
    texts.
Qed.
Lemma texts_run h : forall p ls, log_run p h = Ok ls -> Forall (fun l => In (en_text l) run_texts) ls.
Proof.
  induction h as [|o h IH]; intros p ls E; cbn [log_run] in E; [injection E as <-; constructor|].
  apply bind_inv in E as (l & E1 & E). apply bind_inv in E as ([p1 b] & _ & E). apply bind_inv in E as (l2 & E2 & [= <-]).
  apply Forall_app. split; [eapply texts_step; eauto | eapply IH; eauto].
Qed.
Lemma texts_init s ls : log_init_req s = Ok ls -> Forall (fun l => In (en_text l) irun_texts) ls.
Proof. unfold log_init_req. intros E. apply bind_inv in E as (d & _ & [= <-]). texts. Qed.
Lemma texts_istep now ws i ls : log_istep now ws i = Ok ls -> Forall (fun l => In (en_text l) irun_texts) ls.
Proof.
  assert (S : incl arming_texts irun_texts) by (intros x; unfold irun_texts; rewrite in_app_iff; auto).
  destruct i as [s ph p|p|e|w]; try (intros [= <-]; constructor). destruct ph; cbn [log_istep].
  - destruct (conn_poll_ready (p_conn p) ws) as [[c ws'] [|[[]|e]]]; try (intros [= <-]; constructor).
    intros E. apply bind_inv in E as (pkt & _ & [= <-]). texts.
  - intros [= <-]. constructor.
  - intros E. apply bind_inv in E as ([c r] & _ & E). destruct r as [|[[pkt|e]|]]; try (injection E as <-; constructor).
    apply bind_inv in E as ([[p' e] w] & _ & E). cbv beta zeta in E.
    assert (L : Forall (fun l => In (en_text l) irun_texts) (line_received pkt :: log_interpret p pkt)) by (constructor; [text | eapply texts_sub; [exact S | apply texts_interpret]]).
    destruct (e_msg e) as [[m|er]|]; try (injection E as <-; exact L). apply bind_inv in E as (d & _ & E). destruct (is_response_to m (stage_msg s)).
    + destruct (after_reply s p' m) as [s' ph' p3|p3|e3|w3]; try (injection E as <-; constructor; [apply (Forall_inv L)|]; apply Forall_app; split; [apply (Forall_inv_tail L) | texts]).
      apply bind_inv in E as (l' & E & [= <-]). rewrite !app_comm_cons. apply Forall_app. split; [apply Forall_app; split; [exact L | texts]|]. eapply texts_init; eauto.
    + injection E as <-. rewrite app_comm_cons. apply Forall_app; split; [exact L | texts].
Qed.
Lemma texts_iops h : forall i ls, log_iops i h = Ok ls -> Forall (fun l => In (en_text l) irun_texts) ls.
Proof.
  induction h as [|o h IH]; intros i ls E; cbn [log_iops] in E; [injection E as <-; constructor|].
  apply bind_inv in E as (l & E1 & E). apply bind_inv in E as (l2 & E2 & [= <-]). apply Forall_app. split; [|eapply IH; eauto].
  destruct o as [a|now ws]; [injection E1 as <-; constructor | eapply texts_istep; exact E1].
Qed.
Lemma texts_irun h ls : log_irun h = Ok ls -> Forall (fun l => In (en_text l) irun_texts) ls.
Proof.
  unfold log_irun. intros E. apply bind_inv in E as (l & E1 & E). apply bind_inv in E as (l2 & E2 & [= <-]). apply Forall_app.
  split; [eapply texts_init; eauto | eapply texts_iops; eauto].
Qed.

(* Nothing that is logged while connecting panics; at any moment the log shows the packets taken from the stream, in order, and what has
   been written is the frames of those shown as sent, in order.  Only the lines about arming are ever above DEBUG. *)
Theorem C86_connecting_recorded : forall h, Forall iop_ok h -> exists ls, log_irun h = Ok ls /\ Forall tame ls /\
  forall p, (irun conn_new h = IDone p \/ exists s ph, irun conn_new h = IRun s ph p) ->
    exists ps, records ls (iarrived h) ps (sent (p_conn p) ++ wbuf (p_conn p)).
Proof.
  intros h HO. destruct (irun_took h HO) as (ls & EL & T & F). exists ls. split; [exact EL|]. split; [exact T|]. intros p H.
  assert (EP : panel_of (irun conn_new h) = Some p) by (destruct H as [->|(s & ph & ->)]; reflexivity).
  destruct (F p EP) as (ps & K). exists ps. apply took_records; [apply iarrived_u8; auto | | exact K].
  pose proof (irun_inv h HO) as I. destruct H as [E|(s & ph & E)]; rewrite E in I; apply I.
Qed.
(* The same for a session, with the events and the commands. *)
Theorem C86_session_recorded : forall h0 p0 h p bs, Forall iop_ok h0 -> irun conn_new h0 = IDone p0 -> Forall op_ok h -> run p0 h = Ok (p, bs) ->
  exists l0 l1 ps, log_irun h0 = Ok l0 /\ log_run p0 h = Ok l1 /\
    records (l0 ++ l1) (iarrived h0 ++ arrived h) (ps ++ packets (events bs)) (sent (p_conn p) ++ wbuf (p_conn p)) /\
    Forall2 says_command (accepted h) (about "sending message" (l0 ++ l1)) /\ Forall tame (l0 ++ l1).
Proof.
  intros h0 p0 h p bs HO0 E0 HO E. destruct (irun_took h0 HO0) as (l0 & EL0 & T0 & F0).
  assert (C : connected p0) by (exists h0; auto). destruct (connected_inv _ C) as (I0 & _).
  destruct (run_took h p0 p bs I0 HO E) as (l1 & EL1 & K1 & C1 & T1). destruct (F0 p0) as (ps & K0); [rewrite E0; reflexivity|].
  exists l0, l1, ps. split; [exact EL0|]. split; [exact EL1|]. split; [|split].
  - apply took_records; [apply u8s_app; split; [apply iarrived_u8 | apply arrived_u8]; auto | apply (run_up _ _ _ _ I0 (proj1 (proj2 (proj2 (connected_inv _ C)))) HO E) |].
    eapply took_trans; [exact K0 | exact K1 | | apply arrived_u8; auto]. apply iarrived_u8; auto.
  - rewrite about_app. replace (about "sending message" l0) with (@nil entry); [exact C1|]. symmetry.
    eapply about_none; [eapply texts_irun; exact EL0|]. cbn. intuition discriminate.
  - apply Forall_app; auto.
Qed.

(* ---- C87: the lines about arming over a session ---- *)
Definition pend (p : Panel) : option (ArmingStatusReport * ArmingStatusReport) :=
  match s_arming (p_state p), pending_arm p with Some a, Some (_, x) => Some (a, x) | _, _ => None end.
Lemma pend_same p p' : s_arming (p_state p') = s_arming (p_state p) -> pending_arm p' = pending_arm p -> pend p' = pend p.
Proof. unfold pend. intros -> ->. reflexivity. Qed.
Lemma story_others o ls l : story o ls -> Forall (fun l => ~ arming_text (en_text l)) l -> story o (ls ++ l).
Proof.
  intros S F. revert ls S. induction F as [|x l H F IH]; intros ls S; [rewrite app_nil_r; exact S|].
  change (x :: l) with ([x] ++ l). rewrite app_assoc. apply IH. apply Story_other; assumption.
Qed.
Ltac plain := let H := fresh in intros [H|[H|H]]; discriminate H.
Lemma story_effect now p p' ch m ls : arming_ok p -> arming_effect now p p' ch m -> story (pend p) ls -> story (pend p') (ls ++ log_arming p m).
Proof.
  unfold pend, arming_effect, log_arming, arming_ok. intros A M S. destruct (s_arming (p_state p)) as [a|].
  - destruct (pending_arm p) as [[d x]|].
    + destruct M as [(M & _)|(_ & -> & -> & _)]; [discriminate|]. destruct (is_transition_suspicious a m).
      * eapply Story_again; [exact S | repeat eexists].
      * rewrite app_nil_r. eapply Story_dropped. exact S.
    + destruct M as [(_ & -> & -> & -> & _)|([X| ->] & -> & -> & _)]; [|congruence|].
      * apply Story_delaying; [exact S | repeat eexists].
      * rewrite app_nil_r. exact S.
  - destruct M as (-> & -> & _). rewrite app_nil_r. exact S.
Qed.
Lemma story_interpret now p p' pkt e w ls : arming_ok p -> interpreted now p p' pkt e w -> story (pend p) ls -> story (pend p') (ls ++ log_interpret p pkt).
Proof.
  intros A [_ Y] S. unfold log_interpret. destruct (parse pkt) as [[m|]|er|why]; [| | |destruct Y]; try (destruct Y as (-> & _); rewrite app_nil_r; exact S).
  destruct Y as (_ & _ & M & _).
  assert (K : same_arming p p' -> story (pend p') (ls ++ [])) by (intros [E1 E2]; rewrite app_nil_r, (pend_same _ _ E1 E2); exact S).
  destruct m; cbn [msg_effect] in M; try (apply K; tauto).
  eapply story_effect; [exact A | apply M | exact S].
Qed.
Lemma poll_story now p p' r w ls l : pinv p -> poll_next now p = Ok (p', r, w) -> log_poll_next now p = Ok l -> story (pend p) ls -> story (pend p') (ls ++ l).
Proof.
  intros I E EL S. pose proof I as (CI & _ & _ & AI & _). unfold poll_next, log_poll_next in *.
  destruct (conn_next_total _ CI) as (c & rc & EC & X). rewrite EC in *. cbn [bind] in *.
  destruct rc as [|[[pkt|er]|]].
  - cbn [pending_arm with_conn p_state] in E.
    assert (K : Ok (with_conn p c, Pending, None) = Ok (p', r, w) -> Ok [] = Ok l -> story (pend p') (ls ++ l)) by (intros [= <- <- <-] [= <-]; rewrite app_nil_r; exact S).
    destruct (pending_arm p) as [[d m]|] eqn:EP; [|apply K; assumption]. destruct (d <=? now); [|apply K; assumption].
    destruct (s_arming (p_state p)) as [prior|] eqn:EA; [|discriminate]. injection E as <- <- <-. injection EL as <-.
    unfold pend in S. rewrite EA, EP in S. eapply Story_deferred; [exact S | repeat eexists].
  - apply bind_inv in E as ([[q e] w'] & EI & [= <- <- <-]). injection EL as <-. change (line_received pkt :: log_interpret p pkt) with ([line_received pkt] ++ log_interpret p pkt).
    rewrite app_assoc. destruct (nexts_same_write _ _ _ X) as (Ew & _). pose proof (with_conn_inv p c I (nexts_inv _ _ _ X CI) Ew) as I'.
    destruct (interpret_spec now (with_conn p c) pkt I' (nexts_pkt_ok _ _ _ X CI)) as (p2 & e2 & w2 & EI' & _ & _ & Y). rewrite EI in EI'. injection EI' as <- <- <-.
    apply (story_interpret _ (with_conn p c) _ _ _ _ _ AI Y). apply Story_other; [exact S | plain].
  - injection E as <- <- <-. injection EL as <-. rewrite app_nil_r. exact S.
  - injection E as <- <- <-. injection EL as <-. rewrite app_nil_r. exact S.
Qed.
Lemma step_story p o p' b ls l : pinv p -> op_ok o -> step p o = Ok (p', b) -> log_step p o = Ok l -> story (pend p) ls -> story (pend p') (ls ++ l).
Proof.
  intros I HO E EL S. destruct (step_inv _ _ _ _ I HO E) as [_ SP].
  assert (K : sink_only p p' -> Forall (fun l => ~ arming_text (en_text l)) l -> story (pend p') (ls ++ l)).
  { intros (E1 & E2 & _) F. rewrite (pend_same p p') by congruence. apply story_others; assumption. }
  destruct o as [a|now|w ws|c|ws|ws]; cbn [stepped log_step] in *.
  - destruct SP as [_ ->]. injection EL as <-. rewrite app_nil_r. exact S.
  - cbn [step] in E. apply bind_inv in E as ([[q r] w] & E & [= <- <-]). eapply poll_story; eauto.
  - injection EL as <-. destruct SP as (r & _ & SP & _). apply K; [exact SP | constructor].
  - destruct SP as (_ & C & SP & _). apply K; [exact SP|]. unfold log_start_send in EL. rewrite C in EL.
    apply bind_inv in EL as (d & _ & EL). apply bind_inv in EL as (pkt & _ & [= <-]). repeat (apply Forall_cons; [plain|]). apply Forall_nil.
  - injection EL as <-. destruct SP as (r & _ & SP & _). apply K; [exact SP | constructor].
  - injection EL as <-. destruct SP as (r & _ & SP & _). apply K; [exact SP | constructor].
Qed.
Lemma run_story h : forall p p' bs ls l, pinv p -> Forall op_ok h -> run p h = Ok (p', bs) -> log_run p h = Ok l -> story (pend p) ls -> story (pend p') (ls ++ l).
Proof.
  induction h as [|o h IH]; intros p p' bs ls l I HO E EL S; cbn [run log_run] in *.
  - injection E as <- <-. injection EL as <-. rewrite app_nil_r. exact S.
  - inversion HO as [|? ? O1 O2]; subst. apply bind_inv in E as ([p1 b] & E1 & E). apply bind_inv in E as ([p2 bs2] & E2 & [= <- <-]).
    apply bind_inv in EL as (l1 & L1 & EL). rewrite E1 in EL. cbn [bind] in EL. apply bind_inv in EL as (l2 & L2 & [= <-]).
    destruct (step_inv _ _ _ _ I O1 E1) as [I1 _]. rewrite app_assoc. eapply (IH p1 p2 bs2); [exact I1 | exact O2 | exact E2 | exact L2 |]. eapply (step_story p o p1 b); eassumption.
Qed.
Lemma after_reply_pend s p m p' : panel_of (after_reply s p m) = Some p' -> pend p' = pend p.
Proof.
  assert (AS : forall ty q, panel_of (after_sds ty q) = Some p' -> pend p' = pend q) by (intros ty q; destruct ty; cbn; congruence).
  destruct s as [| |ty max i]; cbn [after_reply panel_of]; try congruence. unfold sds_reply. destruct m; try discriminate. destruct (negb _); [discriminate|].
  destruct (names_of (p_state p) ty); [|discriminate]. destruct (sd_num m =? 0); [apply AS|].
  destruct (_ <? _)%nat; [discriminate|]. destruct (set_nth l _ _) as [l'|?|?]; try discriminate.
  destruct (_ <? _)%nat; [cbn [panel_of]; intros [= <-]; destruct ty; reflexivity|]. intros H. rewrite (AS _ _ H). destruct ty; reflexivity.
Qed.
Lemma istep_story now ws i p p' ls l : iinv i -> panel_of i = Some p -> panel_of (istep now ws i) = Some p' -> log_istep now ws i = Ok l -> story (pend p) ls -> story (pend p') (ls ++ l).
Proof.
  destruct i as [s ph q|q|e|w]; intros I EP EP' EL S; try discriminate EP; injection EP as ->.
  2: injection EP' as <-; injection EL as <-; rewrite app_nil_r; exact S.
  destruct I as (I & C & SS & W). destruct ph; cbn [istep log_istep] in *.
  - unfold conn_poll_ready in *. rewrite W in * by discriminate. cbn [length] in *. change (BACKPRESSURE <=? N.of_nat 0) with false in *. cbv beta iota in EP', EL.
    destruct (to_pkt_spec _ (stage_msg_wf s p SS)) as (b & ET & _ & Hb & _). rewrite ET in *. cbn [bind] in *.
    destruct (encode_valid (PAscii b) Hb) as (f & HF & HE). unfold conn_start_send in EP'. rewrite HE in EP'. cbn [bind panel_of] in EP'. injection EP' as <-. injection EL as <-.
    change (pend (with_conn (with_conn p (p_conn p)) (set_write (p_conn p) (wbuf (p_conn p) ++ f) (sent (p_conn p))))) with (pend p). apply Story_other; [exact S | plain].
  - injection EL as <-. rewrite app_nil_r. destruct (conn_poll_flush (p_conn p) ws) as [[c ws'] [|[[]|e]]]; cbn in EP'; try discriminate; injection EP' as <-; exact S.
  - pose proof I as (CI & _ & _ & AI & _). destruct (conn_next_total _ CI) as (c & r & E & X). rewrite E in *. cbn [bind] in EL.
    destruct (await_eof_fails s) as (eof & EF). rewrite EF in EP'. destruct (nexts_same_write _ _ _ X) as (E1 & _).
    destruct r as [|[[pkt|e]|]]; try discriminate EP'.
    + injection EP' as <-. injection EL as <-. rewrite app_nil_r. exact S.
    + pose proof (with_conn_inv p c I (nexts_inv _ _ _ X CI) E1) as I'.
      destruct (interpret_spec now (with_conn p c) pkt I' (nexts_pkt_ok _ _ _ X CI)) as (p1 & e & w & EI & I2 & C2 & Y). rewrite EI in *. cbn [bind] in EL.
      assert (S1 : story (pend p1) (ls ++ line_received pkt :: log_interpret p pkt)).
      { change (line_received pkt :: log_interpret p pkt) with ([line_received pkt] ++ log_interpret p pkt). rewrite app_assoc.
        apply (story_interpret _ (with_conn p c) _ _ _ _ _ AI Y). apply Story_other; [exact S | plain]. }
      assert (S2 : forall l2, Forall (fun l => ~ arming_text (en_text l)) l2 -> story (pend p1) (ls ++ (line_received pkt :: log_interpret p pkt) ++ l2)).
      { intros l2 F. rewrite app_assoc. apply story_others; assumption. }
      destruct (e_msg e) as [[m|er]|].
      2,3: injection EP' as <-; injection EL as <-; exact S1.
      apply bind_inv in EL as (d & _ & EL). destruct (is_response_to m (stage_msg s)).
      * pose proof (after_reply_pend s p1 m p' EP') as ->. destruct (after_reply s p1 m) as [s' ph' p3|p3|e3|w3]; try discriminate EP'.
        -- destruct (stage_line s') as (l3 & EL3 & T3 & _). rewrite EL3 in EL. cbn [bind] in EL. injection EL as <-. cbn [app]. rewrite <- app_assoc. refine (S2 [_; l3] _).
           apply Forall_cons; [plain|]. apply Forall_cons; [rewrite T3; plain|]. apply Forall_nil.
        -- injection EL as <-. apply (S2 [_]). apply Forall_cons; [plain | apply Forall_nil].
      * injection EP' as <-. injection EL as <-. apply (S2 [_]). apply Forall_cons; [plain | apply Forall_nil].
Qed.
Lemma iops_story h : forall i p' ls l, iinv i -> Forall iop_ok h -> panel_of (fold_left iop_step h i) = Some p' -> log_iops i h = Ok l ->
  (forall p, panel_of i = Some p -> story (pend p) ls) -> story (pend p') (ls ++ l).
Proof.
  induction h as [|o h IH]; intros i p' ls l I HO EP EL S; cbn [log_iops fold_left] in *.
  - injection EL as <-. rewrite app_nil_r. auto.
  - inversion HO as [|? ? O1 O2]; subst. apply bind_inv in EL as (l1 & L1 & EL). apply bind_inv in EL as (l2 & L2 & [= <-]). rewrite app_assoc.
    eapply IH; [|exact O2 | exact EP | exact L2 |].
    + destruct o; [apply iarrive_inv; auto | apply istep_inv; exact I].
    + intros p H. destruct o as [a|now ws]; cbn [iop_step log_iop] in *.
      * injection L1 as <-. rewrite app_nil_r. destruct i as [s ph q|q|e|w]; try discriminate H; injection H as <-; apply (S _ eq_refl).
      * destruct (istep_took now ws i I) as (lx & EX & _ & F). destruct (F p H) as (p0 & ps & E0 & _). eapply istep_story; eauto.
Qed.
(* The lines about arming tell a consistent story from the first request on: a deferred report takes effect, or gives way to another
   suspicious one, only right after the line that announced the delay, with the same two reports; and a report is on hold exactly if the
   last of these lines announced it and nothing has come since. *)
Theorem C87_arming_lines_in_order : forall h0 p0 h p bs, Forall iop_ok h0 -> irun conn_new h0 = IDone p0 -> Forall op_ok h -> run p0 h = Ok (p, bs) ->
  exists l0 l1 o, log_irun h0 = Ok l0 /\ log_run p0 h = Ok l1 /\ story o (l0 ++ l1) /\ forall a x, o = Some (a, x) <-> status_is p a /\ held p = Some x.
Proof.
  intros h0 p0 h p bs HO0 E0 HO E. destruct (irun_took h0 HO0) as (l0 & EL0 & _ & _).
  assert (C : connected p0) by (exists h0; auto). destruct (connected_inv _ C) as (I0 & _ & U0 & _).
  destruct (run_took h p0 p bs I0 HO E) as (l1 & EL1 & _). exists l0, l1, (pend p). split; [exact EL0|]. split; [exact EL1|]. split.
  - eapply run_story; eauto. unfold log_irun in EL0. destruct (stage_line St_as) as (l & ES & El & _). rewrite ES in EL0. cbn [bind] in EL0.
    apply bind_inv in EL0 as (ls & L & [= <-]). apply (iops_story h0 (init_start conn_new) p0 [l] ls (irun_inv [] (Forall_nil _)) HO0); [|exact L|].
    + unfold irun in E0. rewrite E0. reflexivity.
    + intros q [= <-]. apply (Story_other None []); [constructor|]. rewrite El. plain.
  - destruct (run_up _ _ _ _ I0 U0 HO E) as [_ [(a0 & EA) _]]. intros a x. unfold pend, status_is, panel_arming_status, held. rewrite EA.
    destruct (pending_arm p) as [[d m]|]; cbn; split; try (intros [H1 H2]; congruence); intros H; inversion H; auto.
Qed.
Lemma story_split o ls : story o ls -> forall pre l post, ls = pre ++ l :: post -> exists o', story o' (pre ++ [l]).
Proof.
  assert (L : forall (ls : list entry) l1 pre l post, ls ++ [l1] = pre ++ l :: post -> pre ++ [l] = ls ++ [l1] \/ exists post', ls = pre ++ l :: post').
  { intros ls0 l1 pre l post E. destruct post as [|y post] using rev_ind; [left; congruence|]. clear IHpost.
    rewrite app_comm_cons, app_assoc in E. apply app_inj_tail in E as [-> ->]. right. eauto. }
  induction 1 as [|o ls l1 S IH N|ls a x l1 S IH D|ls a x l1 S IH D|ls a m x l1 S IH D|o ls S IH]; intros pre l post E.
  { destruct pre; discriminate. }
  5: eapply IH; eauto.
  all: destruct (L _ _ _ _ _ E) as [->|(post' & E')]; [|eapply IH; eauto].
  - eexists. eapply Story_other; eassumption.
  - eexists. eapply Story_delaying; eassumption.
  - eexists. eapply Story_deferred; eassumption.
  - eexists. eapply Story_again; eassumption.
Qed.
Lemma story_some o ls : story o ls -> forall a x, o = Some (a, x) -> announced a x ls.
Proof.
  induction 1 as [|o ls l1 S IH N|ls a x l1 S IH D|ls a x l1 S IH D|ls a m x l1 S IH D|o ls S IH]; intros a' x' E; try discriminate.
  - destruct (IH _ _ E) as (p1 & l & p2 & -> & H1 & H2). exists p1, l, (p2 ++ [l1]). split; [rewrite <- app_assoc; reflexivity|]. split; [exact H1|]. apply Forall_app; auto.
  - injection E as -> ->. exists ls, l1, []. auto.
Qed.
Lemma story_last o ls : story o ls -> forall pre l, ls = pre ++ [l] -> 
  (forall a x, says_deferred a x l -> announced a x pre) /\ (forall a m x, says_again a m x l -> announced a m pre).
Proof.
  assert (X1 : forall a x a' x' l, says_deferred a x l -> says_deferred a' x' l -> a = a' /\ x = x').
  { intros a x a' x' l (f & g & -> & -> & ->) (f' & g' & -> & -> & E). split; apply as_dbg_inj; congruence. }
  assert (X2 : forall a m x a' m' x' l, says_again a m x l -> says_again a' m' x' l -> a = a' /\ m = m').
  { intros a m x a' m' x' l (f & g & h & -> & -> & -> & ->) (f' & g' & h' & -> & -> & -> & E). split; apply as_dbg_inj; congruence. }
  induction 1 as [|o ls l1 S IH N|ls a x l1 S IH D|ls a x l1 S IH D|ls a m x l1 S IH D|o ls S IH]; intros pre l E.
  { destruct pre; discriminate. }
  5: apply IH; exact E.
  all: apply app_inj_tail in E as [-> ->].
  - split; [intros a x (f & g & _ & _ & ->) | intros a m x (f & g & h & _ & _ & _ & ->)]; elim N; cbn; unfold arming_text; tauto.
  - split; [intros a' x' (f & g & _ & _ & ->) | intros a' m x' (f & g & h & _ & _ & _ & ->)]; destruct D as (? & ? & _ & _ & D); discriminate D.
  - split; [intros a' x' D' | intros a' m x' (f & g & h & _ & _ & _ & ->)].
    + destruct (X1 _ _ _ _ _ D D') as [<- <-]. eapply story_some; [exact S | reflexivity].
    + destruct D as (? & ? & _ & _ & D); discriminate D.
  - split; [intros a' x' (f & g & _ & _ & ->) | intros a' m' x' D'].
    + destruct D as (? & ? & ? & _ & _ & _ & D); discriminate D.
    + destruct (X2 _ _ _ _ _ _ _ D D') as [<- <-]. eapply story_some; [exact S | reflexivity].
Qed.
(* A report said to take effect late, or to be dropped for another suspicious one, was announced as delayed; in between there is no line about arming. *)
Theorem C87_deferred_was_announced : forall h0 p0 h p bs l0 l1 pre l post,
  Forall iop_ok h0 -> irun conn_new h0 = IDone p0 -> Forall op_ok h -> run p0 h = Ok (p, bs) ->
  log_irun h0 = Ok l0 -> log_run p0 h = Ok l1 -> l0 ++ l1 = pre ++ l :: post ->
  (forall a x, says_deferred a x l -> announced a x pre) /\ (forall a m x, says_again a m x l -> announced a m pre).
Proof.
  intros h0 p0 h p bs l0 l1 pre l post HO0 E0 HO E L0 L1 EL. destruct (C87_arming_lines_in_order _ _ _ _ _ HO0 E0 HO E) as (l0' & l1' & o & L0' & L1' & S & _).
  assert (l0' = l0) as -> by congruence. assert (l1' = l1) as -> by congruence. destruct (story_split _ _ S _ _ _ EL) as (o' & S'). eapply story_last; [exact S' | reflexivity].
Qed.

(* ---- examples ---- *)
(* A report that area 1 is armed is put on hold and takes effect 5 s later; then a command is sent. *)
Definition ex_said : list op :=
  [got (MArmingStatusReport ex_armed); PollNext 100; PollNext 5100; StartSend (CmdArm (mkArmRequest 1 AL_Disarm (B "001234")))].
Lemma ex_said_ok : Forall op_ok ex_said.
Proof.
  assert (X : forallb (fun b => b <? 256) (bytes_of (MArmingStatusReport ex_armed)) = true) by (vm_compute; reflexivity).
  constructor; [|constructor; [exact Logic.I|]; constructor; [exact Logic.I|]; constructor; [|constructor]].
  - cbn [op_ok got]. apply Forall_forall. intros b Hb. rewrite forallb_forall in X. apply N.ltb_lt. auto.
  - split; [vm_compute; split; discriminate|]. vm_compute. repeat split; repeat constructor; discriminate.
Qed.
Example C86_C87_example : Forall iop_ok ex_init /\ irun conn_new ex_init = IDone ex_panel /\ Forall op_ok ex_said /\
  brief (log_run ex_panel ex_said) = [(Trace, "received packet"%string); (Debug, "delaying arming status transition suspected to be spurious"%string);
    (Warn, "deferred arming status taking effect"%string); (Debug, "sending message"%string); (Trace, "sending packet"%string)] /\
  match run ex_panel ex_said with Ok (p, _) => written (p_conn p) <> [] | _ => False end.
Proof.
  split; [exact ex_init_ok|]. split; [vm_compute; reflexivity|]. split; [exact ex_said_ok|]. split; [vm_compute; reflexivity|]. vm_compute. discriminate.
Qed.

Print Assumptions C86_connecting_recorded.
Print Assumptions C86_session_recorded.
Print Assumptions C87_poll_logs_exactly.
Print Assumptions C87_arming_lines_in_order.
Print Assumptions C87_deferred_was_announced.
