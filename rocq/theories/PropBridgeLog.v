(* PropBridgeLog.v: C88: what the bridge logs. *)
From Verif Require Import Base BaseFacts Pkt SpecPkt PktFacts DecodeFacts Msg SpecMsg DecFacts MsgFacts WireFacts IsoFacts
  PropMsg Tokio SpecConn ConnFacts State SpecState StateFacts RunFacts HistFacts ViewFacts ExState PropState PropSink
  Serde SerdeFacts PropSerde Mqtt SpecMqtt MqttFacts PropMqtt Fmt PropFmt Log SpecTrace PropTrace.
From Coq Require Import ZifyBool ZifyNat ZifyN.
Ltac Zify.zify_post_hook ::= Z.div_mod_to_equations.

(* ---- a message from MQTT ---- *)
Lemma matching_says f cfg t pl l : says_publish f (t, pl) l -> publish_says f cfg (t, pl) (l :: log_matching (topic_prefix cfg) (areas cfg) t pl).
Proof.
  intros SP.
  assert (G : forall as_ done, areas cfg = done ++ as_ -> (forall a n, In (a, n) done -> t <> area_command_topic (topic_prefix cfg) n) ->
    publish_says f cfg (t, pl) (l :: log_matching (topic_prefix cfg) as_ t pl)).
  { induction as_ as [|[a n] as_ IH]; intros done E D; cbn [log_matching].
    - apply Publish_unknown; [|exact SP]. intros n ((a & H) & ET). rewrite E, app_nil_r in H. exact (D a n H ET).
    - destruct (beq t (area_command_topic (topic_prefix cfg) n)) eqn:EB; cbn [negb].
      + apply beq_eq in EB. assert (NA : names_area cfg (t, pl) n) by (split; [exists a; rewrite E; apply in_elt | exact EB]).
        destruct (utf8_valid pl) eqn:EU; cbn [negb]; [|eapply Publish_not_text; [exact NA | exact EU | exact SP | reflexivity]].
        destruct (beq pl (B "DISARM") || beq pl (B "ARM_AWAY") || beq pl (B "ARM_HOME")) eqn:EL.
        * assert (exists level, In (pl, level) payload_levels) as (level & IN).
          { apply orb_true_iff in EL as [EL|EL]; [apply orb_true_iff in EL as [EL|EL]|]; apply beq_eq in EL; subst pl; eexists; cbn; eauto. }
          eapply Publish_command; [exact NA | exact IN | exact SP | reflexivity].
        * eapply Publish_other; [exact NA | exact EU | | exact SP | reflexivity].
          intros level [H|[H|[H|[]]]]; injection H as H _; cbn [snd] in H; subst pl; rewrite ?orb_true_r in EL; discriminate EL.
      + apply (IH (done ++ [(a, n)])); [rewrite E, <- app_assoc; reflexivity|]. intros a' n' H. apply in_app_iff in H as [H|[H|[]]]; [eapply D; eauto|].
        injection H as <- <-. intros X. apply beq_eq in X. congruence. }
  apply (G _ []); [reflexivity | intros ? ? []].
Qed.
Lemma handle_says f cfg t pl : publish_says f cfg (t, pl) (log_handle_publish f (topic_prefix cfg) (areas cfg) t pl).
Proof. apply matching_says. reflexivity. Qed.

(* ---- one step ---- *)
Lemma log_bsteps_snoc f cl cfg is i : forall b ls l, log_bsteps f cl cfg b is = Ok ls -> log_bstep f cfg (fold_left (bstep cl cfg) is b) i = Ok l ->
  log_bsteps f cl cfg b (is ++ [i]) = Ok (ls ++ l).
Proof.
  induction is as [|j is IH]; intros b ls l E1 E2; cbn [log_bsteps app fold_left] in *.
  - injection E1 as <-. rewrite E2. cbn [bind app]. rewrite app_nil_r. reflexivity.
  - apply bind_inv in E1 as (l1 & -> & E1). apply bind_inv in E1 as (l2 & E1 & [= <-]). rewrite (IH _ _ _ E1 E2). cbn [bind]. rewrite app_assoc. reflexivity.
Qed.
Lemma log_brun_snoc f cl cfg is i ls l : log_brun f cl cfg is = Ok ls -> log_bstep f cfg (brun cl cfg is) i = Ok l -> log_brun f cl cfg (is ++ [i]) = Ok (ls ++ l).
Proof.
  unfold log_brun. intros E1 E2. apply bind_inv in E1 as (l1 & -> & E1). apply bind_inv in E1 as (l2 & E1 & [= <-]). cbn [bind].
  rewrite (log_bsteps_snoc _ _ _ _ _ _ _ _ E1 E2). cbn [bind]. rewrite app_assoc. reflexivity.
Qed.
Lemma log_iops_snoc h o : forall i ls l, log_iops i h = Ok ls -> log_iop (fold_left iop_step h i) o = Ok l -> log_iops i (h ++ [o]) = Ok (ls ++ l).
Proof.
  induction h as [|j h IH]; intros i ls l E1 E2; cbn [log_iops app fold_left] in *.
  - injection E1 as <-. rewrite E2. cbn [bind app]. rewrite app_nil_r. reflexivity.
  - apply bind_inv in E1 as (l1 & -> & E1). apply bind_inv in E1 as (l2 & E1 & [= <-]). rewrite (IH _ _ _ E1 E2). cbn [bind]. rewrite app_assoc. reflexivity.
Qed.
Lemma log_irun_snoc h o ls l : log_irun h = Ok ls -> log_iop (irun conn_new h) o = Ok l -> log_irun (h ++ [o]) = Ok (ls ++ l).
Proof.
  unfold log_irun. intros E1 E2. apply bind_inv in E1 as (l1 & -> & E1). apply bind_inv in E1 as (l2 & E1 & [= <-]). cbn [bind].
  rewrite (log_iops_snoc _ _ _ _ _ E1 E2). cbn [bind]. rewrite app_assoc. reflexivity.
Qed.
Lemma log_run_app h1 h2 : forall p p1 bs l1 l2, run p h1 = Ok (p1, bs) -> log_run p h1 = Ok l1 -> log_run p1 h2 = Ok l2 -> log_run p (h1 ++ h2) = Ok (l1 ++ l2).
Proof.
  induction h1 as [|o h1 IH]; intros p p1 bs l1 l2 E L1 L2; cbn [run log_run app] in *.
  - injection E as <- <-. injection L1 as <-. exact L2.
  - apply bind_inv in E as ([q b] & E1 & E). apply bind_inv in E as ([q2 bs2] & E2 & [= <- <-]). apply bind_inv in L1 as (l & La & L1). rewrite E1 in L1. cbn [bind] in L1.
    apply bind_inv in L1 as (l3 & Lb & [= <-]). rewrite La. cbn [bind]. rewrite E1. cbn [bind]. rewrite (IH _ _ _ _ _ E2 Lb L2). cbn [bind]. rewrite app_assoc. reflexivity.
Qed.
Lemma library_app a b : by_library (a ++ b) = by_library a ++ by_library b.
Proof. apply filter_app. Qed.
Lemma library_all ts ls : Forall (fun l => In (en_text l) ts) ls -> (forall t, In t ts -> ~ In t bridge_texts) -> by_library ls = ls.
Proof.
  intros F N. induction F as [|l ls H F IH]; [reflexivity|]. unfold by_library in *. cbn [filter].
  destruct (existsb (String.eqb (en_text l)) bridge_texts) eqn:E; cbn [negb]; [|rewrite IH; reflexivity].
  apply existsb_exists in E as (t & IT & E). apply String.eqb_eq in E. subst t. elim (N _ H IT).
Qed.
Lemma disjoint_texts ts : ts = run_texts \/ ts = irun_texts -> forall t, In t ts -> ~ In t bridge_texts.
Proof.
  intros H t. assert (X : forallb (fun t => negb (existsb (String.eqb t) bridge_texts)) ts = true) by (destruct H as [->| ->]; reflexivity).
  rewrite forallb_forall in X. intros I J. specialize (X t I). apply negb_true_iff in X.
  assert (Y : existsb (String.eqb t) bridge_texts = true) by (apply existsb_exists; exists t; split; [exact J | apply String.eqb_refl]). congruence.
Qed.
Lemma publish_own f cfg m ls : publish_says f cfg m ls -> by_library ls = [] /\ about "panel event" ls = [] /\ about "panel initialized" ls = [] /\
  Forall2 (says_publish f) [m] (about "received mqtt publish" ls).
Proof.
  intros H. inversion H as [l N SP E|l l' n lv N L SP SM E|l l' n N U SP SM E|l l' n N U L SP SM E]; subst ls; rewrite ?SP, ?SM; repeat split; constructor; constructor.
Qed.

Lemma ready_is_idle w ws p q x : poll_ready w ws p = (q, Ready (IoOk x)) -> q = p /\ cmd_state p = Idle.
Proof.
  unfold poll_ready. destruct (cmd_state p) as [|m [] a]; [intros E; injection E as <- _; auto | discriminate |].
  destruct (conn_poll_flush _ _) as [[c y] [|[u|e]]]; discriminate.
Qed.
(* What the panel does in this step, what is taken from MQTT, and the lines. *)
Definition step_logged (f : foreign) (u : up) (i : input) (u' : up) (ls : list entry) : Prop :=
  exists ops bs lr hd, Forall op_ok ops /\ run (u_panel u) ops = Ok (u_panel u', bs) /\ arrived ops = net_in [i] /\ log_run (u_panel u) ops = Ok lr /\
    u_rx u ++ mqtt_in [i] = hd ++ u_rx u' /\ by_library ls = lr /\ Forall2 says_event (events bs) (about "panel event" ls) /\
    Forall2 (says_publish f) hd (about "received mqtt publish" ls) /\ about "panel initialized" ls = [].
Lemma quiet_logged f u i u' ops bs ls : Forall op_ok ops -> run (u_panel u) ops = Ok (u_panel u', bs) -> arrived ops = net_in [i] -> log_run (u_panel u) ops = Ok ls ->
  u_rx u' = u_rx u ++ mqtt_in [i] -> events bs = [] -> step_logged f u i u' ls.
Proof.
  intros HO E EA EL ER EV. exists ops, bs, ls, []. rewrite EV, ER. pose proof (texts_run _ _ _ EL) as T.
  do 4 (split; [assumption|]). split; [reflexivity|]. split; [eapply library_all; [exact T | apply disjoint_texts; auto]|].
  rewrite !(about_none _ _ _ T) by (cbn; intuition discriminate). split; [constructor|]. split; [constructor | reflexivity].
Qed.
Lemma bstep_logs f cl cfg u i : binv cl cfg u -> input_ok i -> exists ls, log_bstep f cfg (Up u) i = Ok ls /\
  forall u', bstep cl cfg (Up u) i = Up u' -> step_logged f u i u' ls.
Proof.
  intros (R & RG & DC & AC & WF) HI. destruct (reachable_inv _ R) as [I U].
  assert (NIL : log_bstep f cfg (Up u) i = Ok [] -> (forall u', bstep cl cfg (Up u) i = Up u' -> u_rx u' = u_rx u ++ mqtt_in [i] /\
      exists ops bs, Forall op_ok ops /\ run (u_panel u) ops = Ok (u_panel u', bs) /\ arrived ops = net_in [i] /\ log_run (u_panel u) ops = Ok [] /\ events bs = []) ->
    exists ls, log_bstep f cfg (Up u) i = Ok ls /\ forall u', bstep cl cfg (Up u) i = Up u' -> step_logged f u i u' ls).
  { intros E H. exists []. split; [exact E|]. intros u' EU. destruct (H u' EU) as (ER & ops & bs & A1 & A2 & A3 & A4 & A5). eapply quiet_logged; eauto. }
  assert (SAME : mqtt_in [i] = [] -> net_in [i] = [] -> log_bstep f cfg (Up u) i = Ok [] -> bstep cl cfg (Up u) i = Up u ->
    exists ls, log_bstep f cfg (Up u) i = Ok ls /\ forall u', bstep cl cfg (Up u) i = Up u' -> step_logged f u i u' ls).
  { intros E1 E2 EL EB. apply NIL; [exact EL|]. intros u' EU. rewrite EB in EU. injection EU as <-. rewrite E1, app_nil_r. split; [reflexivity|]. exists [], []. rewrite E2. repeat split; constructor. }
  destruct i as [a|t pl| |now ws|now| |ws].
  - apply NIL; [reflexivity|]. cbn [bstep]. intros u' [= <-]. split; [symmetry; apply app_nil_r|]. exists [Arrive a], [ONone]. repeat split; auto.
  - apply NIL; [reflexivity|]. cbn [bstep]. intros u' [= <-]. split; [reflexivity|]. exists [], []. repeat split; constructor.
  - apply NIL; [reflexivity|]. discriminate.
  - apply SAME; reflexivity.
  - destruct (u_mode u) as [|c|] eqn:EM; [|apply SAME; cbn; rewrite ?EM; reflexivity ..]. clear SAME NIL.
    destruct (poll_next_spec now (u_panel u) I) as (p' & r & w & EP & _ & _). destruct (poll_took _ _ _ _ _ I EP) as (ls & EL & _).
    cbn [log_bstep bstep]. rewrite EM, EL, EP. cbn [bind].
    assert (ST : forall b, b = ONext r w -> run (u_panel u) [PollNext now] = Ok (p', [b]) /\ log_run (u_panel u) [PollNext now] = Ok ls).
    { intros b ->. cbn [run step log_run log_step]. rewrite EP, EL. cbn [bind]. rewrite app_nil_r. auto. }
    destruct (ST _ eq_refl) as [ST1 ST2]. pose proof (texts_run _ _ _ ST2) as TR.
    destruct r as [|[[e|er]|]].
    2: { rewrite (event_dbg_tree e) by (eapply emitted_ok; [exact I | exact EP | reflexivity]). cbn [bind]. eexists. split; [reflexivity|]. intros u' EU.
      unfold settle in EU. destruct (handle_event cl cfg p' e) as [l [[]|er|why]]; try discriminate. injection EU as <-.
      exists [PollNext now], [ONext (Ready (Some (IoOk e))) w], ls, []. split; [repeat constructor|]. split; [exact ST1|]. split; [reflexivity|]. split; [exact ST2|].
      split; [cbn; apply app_nil_r|]. rewrite library_app, !about_app, !(about_none _ _ _ TR) by (cbn; intuition discriminate).
      rewrite (library_all _ _ TR) by (apply disjoint_texts; auto). split; [apply app_nil_r|]. split; [|split; [constructor | reflexivity]].
      constructor; [|constructor]. eexists. split; [apply event_dbg_tree; eapply emitted_ok; [exact I | exact EP | reflexivity] | reflexivity]. }
    all: exists ls; (split; [reflexivity|]); intros u' EU; try discriminate. injection EU as <-.
    eapply (quiet_logged _ _ _ _ [PollNext now]); [repeat constructor | exact ST1 | reflexivity | exact ST2 | cbn; symmetry; apply app_nil_r | reflexivity].
  - destruct (u_mode u) as [|c|] eqn:EM; [|apply SAME; cbn; rewrite ?EM; reflexivity ..]. destruct (u_rx u) as [|[t pl] rx] eqn:ER; [apply SAME; cbn; rewrite ?EM, ?ER; reflexivity|].
    cbn [log_bstep bstep]. rewrite EM, ER. eexists. split; [reflexivity|]. intros u' EU.
    assert (E' : u_panel u' = u_panel u /\ u_rx u' = rx) by (destruct (requested _ _ _ t pl) as [[c|]|er|why]; try discriminate; injection EU as <-; auto).
    destruct E' as [E1 E2]. destruct (publish_own _ _ _ _ (handle_says f cfg t pl)) as (P1 & P2 & P3 & P4). exists [], [], [], [(t, pl)]. rewrite E1, E2, ER.
    split; [constructor|]. split; [reflexivity|]. split; [reflexivity|]. split; [reflexivity|]. split; [cbn; rewrite app_nil_r; reflexivity|]. split; [exact P1|].
    rewrite P2. split; [constructor|]. split; [exact P4 | exact P3].
  - destruct (u_mode u) as [|c|] eqn:EM; [apply SAME; cbn; rewrite ?EM; reflexivity| |].
    + destruct (poll_ready TASK ws (u_panel u)) as [p r] eqn:EPR. destruct r as [|[[]|er]].
      * apply NIL; [cbn; rewrite EM, EPR; reflexivity|]. cbn [bstep]. rewrite EM, EPR. intros u' [= <-]. split; [symmetry; apply app_nil_r|].
        exists [PollReady TASK ws], [OSink Pending]. split; [repeat constructor|]. split; [cbn [run step]; rewrite EPR; reflexivity|]. split; [reflexivity|]. split; [|reflexivity].
        cbn [log_run log_step step]. rewrite EPR. reflexivity.
      * destruct (ready_is_idle _ _ _ _ _ EPR) as [-> IDLE]. cbn [log_bstep bstep]. rewrite EM, EPR.
        pose proof (start_send_spec c (u_panel u) I (WF c eq_refl)) as SS. rewrite IDLE in SS. destruct SS as (p' & fr & ES & _).
        assert (SS : step (u_panel u) (StartSend c) = Ok (p', ONone)) by (cbn [step]; rewrite ES; reflexivity).
        destruct (step_took _ (StartSend c) _ _ I (WF c eq_refl) SS) as (ls & EL & _). cbn [log_step] in EL. rewrite EL, ES. exists ls. split; [reflexivity|].
        intros u' EU. destruct (send_flush_moves _ _ _ EU) as [(er & Hb)|(u2 & r & Hb & H1 & H2 & H3 & H4 & H5)]; [discriminate|]. injection Hb as ->. cbn [set_panel u_panel u_code u_rx u_log] in *.
        apply (quiet_logged _ _ _ _ [PollReady TASK ws; StartSend c; PollFlush ws] [OSink (Ready (IoOk tt)); ONone; OSink r]).
        -- repeat constructor. cbn. apply WF. reflexivity.
        -- cbn [run step]. rewrite EPR. cbn [bind]. rewrite ES. cbn [bind]. cbn [run step] in H1. destruct (poll_flush ws p') as [p2 r2].
           cbn [bind] in *. injection H1 as -> ->. reflexivity.
        -- reflexivity.
        -- cbn [log_run log_step step bind app]. rewrite EPR. cbn [bind]. rewrite EL. cbn [bind]. rewrite ES. cbn [bind]. cbn [run step] in H1. destruct (poll_flush ws p') as [p2 r2].
           cbn [bind]. rewrite app_nil_r. reflexivity.
        -- rewrite H3. symmetry. apply app_nil_r.
        -- reflexivity.
      * apply NIL; [cbn; rewrite EM, EPR; reflexivity|]. cbn [bstep]. rewrite EM, EPR. discriminate.
    + apply NIL; [cbn; rewrite EM; reflexivity|]. cbn [bstep]. rewrite EM. intros u' EU.
      destruct (send_flush_moves _ _ _ EU) as [(er & Hb)|(u2 & r & Hb & H1 & H2 & H3 & H4 & H5)]; [discriminate|]. injection Hb as ->.
      split; [rewrite H3; symmetry; apply app_nil_r|]. exists [PollFlush ws], [OSink r]. split; [repeat constructor|]. split; [exact H1|]. split; [reflexivity|]. split; [|reflexivity].
      cbn [log_run log_step step bind app]. destruct (poll_flush ws (u_panel u)). reflexivity.
Qed.

(* ---- the whole log ---- *)
Lemma net_in_app a b : net_in (a ++ b) = net_in a ++ net_in b.
Proof. unfold net_in. rewrite map_app. apply concat_app. Qed.
(* Whatever happens, no line panics.  While the bridge runs, its log is that of connecting, "panel initialized", and then the lines of the
   library (so C86 and C87 apply to them), a line for each event of the panel and one for each message taken from MQTT, in order. *)
Theorem C88_bridge_log : forall f cl cfg is, Forall input_ok is -> exists ls, log_brun f cl cfg is = Ok ls /\
  match brun cl cfg is with
  | Connecting i rx => exists h, Forall iop_ok h /\ i = irun conn_new h /\ iarrived h = net_in is /\ log_irun h = Ok ls
  | Up u => exists h p0 ops bs l0 l1 hd rest, Forall iop_ok h /\ irun conn_new h = IDone p0 /\ Forall op_ok ops /\ run p0 ops = Ok (u_panel u, bs) /\
      iarrived h ++ arrived ops = net_in is /\ hd ++ u_rx u = mqtt_in is /\ log_irun h = Ok l0 /\ log_run p0 ops = Ok l1 /\
      ls = l0 ++ mkEntry Info "panel initialized" [] :: rest /\ by_library rest = l1 /\ about "panel initialized" rest = [] /\
      Forall2 says_event (events bs) (about "panel event" rest) /\ Forall2 (says_publish f) hd (about "received mqtt publish" rest)
  | Dead _ _ => True
  end.
Proof.
  intros f cl cfg is. induction is as [|i is IH] using rev_ind; intros HI.
  - destruct (stage_line St_as) as (l & E & _). exists [l]. split; [unfold log_brun; rewrite E; reflexivity|]. exists []. split; [constructor|]. split; [reflexivity|].
    split; [reflexivity|]. unfold log_irun. rewrite E. reflexivity.
  - apply Forall_app in HI as [HI Hi]. inversion Hi as [|? ? Hi' _]; subst. destruct (IH HI) as (ls & EL & ST). rewrite brun_snoc.
    destruct (brun cl cfg is) as [s rx|u|l w] eqn:EB.
    + destruct ST as (h & HO & -> & EA & EI). pose proof (irun_inv h HO) as II.
      assert (NIL : log_bstep f cfg (Connecting (irun conn_new h) rx) i = Ok [] -> exists ls', log_brun f cl cfg (is ++ [i]) = Ok ls' /\ ls' = ls).
      { intros E. exists (ls ++ []). split; [|apply app_nil_r]. apply log_brun_snoc; [exact EL | rewrite EB; exact E]. }
      destruct i as [a|t pl| |now ws|now| |ws].
      4: { destruct (istep_took now ws (irun conn_new h) II) as (l & L & _).
        assert (LI : log_irun (h ++ [IStep now ws]) = Ok (ls ++ l)) by (apply log_irun_snoc; [exact EI | exact L]).
        assert (HO' : Forall iop_ok (h ++ [IStep now ws])) by (apply Forall_app; split; [exact HO | repeat constructor]).
        assert (EA' : iarrived (h ++ [IStep now ws]) = net_in (is ++ [PollConnect now ws])) by (rewrite iarrived_app, net_in_app, EA; reflexivity).
        assert (EI' : istep now ws (irun conn_new h) = irun conn_new (h ++ [IStep now ws])) by (rewrite irun_step; reflexivity).
        pose proof (brun_cases cl cfg is HI) as BC. rewrite EB in BC. destruct BC as (ERX & _ & _ & _ & (s0 & ph0 & q0 & ER)).
        eexists. split; [apply log_brun_snoc; [exact EL | rewrite EB; cbn [log_bstep]; rewrite L; cbn [bind]; reflexivity]|].
        cbn [bstep]. unfold after_connect. rewrite ER in EI' |- *. rewrite !EI'. cbv iota. destruct (irun conn_new (h ++ [IStep now ws])) as [s1 ph1 p1|p1|e1|w1] eqn:E1; cbv iota; [| |exact Logic.I |exact Logic.I].
        - rewrite app_nil_r. exists (h ++ [IStep now ws]). auto.
        - unfold settle. destruct (start_up cl cfg p1) as [l1 [c|e|w]]; try exact Logic.I.
          exists (h ++ [IStep now ws]), p1, [], [], (ls ++ l), [], [], []. split; [exact HO'|]. split; [exact E1|]. split; [constructor|]. split; [reflexivity|].
          split; [cbn; rewrite app_nil_r; exact EA'|]. split; [cbn; rewrite mqtt_in_app, app_nil_r; exact ERX|]. split; [exact LI|]. split; [reflexivity|].
          split; [rewrite app_assoc; reflexivity|]. split; [reflexivity|]. split; [reflexivity|]. split; constructor. }
      all: destruct NIL as (ls' & EL' & ->); [reflexivity|]; exists ls; (split; [exact EL'|]); cbn [bstep]; rewrite ?net_in_app; cbn [net_in map concat]; rewrite ?app_nil_r.
      all: try exact Logic.I. all: try (exists h; auto; fail).
      exists (h ++ [IArrive a]). split; [apply Forall_app; auto|]. rewrite irun_step. split; [reflexivity|]. split; [rewrite iarrived_app, EA; unfold iarrived; cbn; rewrite app_nil_r; reflexivity|].
      rewrite <- (app_nil_r ls). apply log_irun_snoc; [exact EI | reflexivity].
    + assert (BA : bridge_after cl cfg is (Up u)) by (split; assumption). destruct (bstep_logs f cl cfg u i (bridge_binv _ _ _ _ BA) Hi') as (l & L & F).
      exists (ls ++ l). split; [apply log_brun_snoc; [exact EL | rewrite EB; exact L]|].
      destruct (bstep cl cfg (Up u) i) as [s rx|u'|? ?] eqn:ES; [elim (up_stays _ _ _ _ _ _ ES) | | exact Logic.I].
      destruct (F u' eq_refl) as (ops2 & bs2 & lr & hd2 & A1 & A2 & A3 & A4 & A5 & A6 & A7 & A8 & A9).
      destruct ST as (h & p0 & ops & bs & l0 & l1 & hd & rest & B1 & B2 & B3 & B4 & B5 & B6 & B7 & B8 & B9 & B10 & B11 & B12 & B13).
      exists h, p0, (ops ++ ops2), (bs ++ bs2), l0, (l1 ++ lr), (hd ++ hd2), (rest ++ l). split; [exact B1|]. split; [exact B2|]. split; [apply Forall_app; auto|].
      split; [rewrite run_app, B4; cbn [bind]; rewrite A2; reflexivity|]. split; [rewrite arrived_app, net_in_app, app_assoc, B5, A3; reflexivity|].
      split; [rewrite mqtt_in_app, <- B6, <- !app_assoc, A5; reflexivity|]. split; [exact B7|]. split; [eapply log_run_app; eauto|].
      split; [rewrite B9, <- app_assoc; reflexivity|]. rewrite library_app, !about_app, B10, A6, B11, A9, events_app.
      split; [reflexivity|]. split; [reflexivity|]. split; apply Forall2_app; assumption.
    + exists (ls ++ []). split; [apply log_brun_snoc; [exact EL | rewrite EB; reflexivity]|]. exact Logic.I.
Qed.
(* Handling a message from MQTT logs exactly these lines. *)
Theorem C88_message_lines : forall f cl cfg is u m rest, bridge_after cl cfg is (Up u) -> u_mode u = Selecting -> u_rx u = m :: rest ->
  exists ls, log_bstep f cfg (Up u) PollRx = Ok ls /\ publish_says f cfg m ls.
Proof. intros f cl cfg is u [t pl] rest _ EM ER. cbn [log_bstep]. rewrite EM, ER. eexists. split; [reflexivity | apply handle_says]. Qed.

(* ---- examples ---- *)
Definition ex_foreign : foreign := mkForeign (fun t _ => DStr t) DStr.
(* the bridge connects, is told to arm, and the panel answers *)
Example C88_example : Forall input_ok (ex_start ++ ex_leak_in) /\
  skipn 30 (brief (log_brun ex_foreign ex_cl ex_cfg (ex_start ++ ex_leak_in))) =
    [(Info, "panel initialized"); (Info, "received mqtt publish"); (Info, "matched to known area"); (Debug, "sending message"); (Trace, "sending packet");
     (Trace, "received packet"); (Info, "panel event")]%string /\
  match brun ex_cl ex_cfg (ex_start ++ firstn 1 ex_leak_in) with
  | Up u => u_mode u = Selecting /\ u_rx u = [(B "elkm1/0001/area/house/ha_command", B "ARM_AWAY")]
  | _ => False
  end.
Proof. split; [exact ex_leak_ok|]. split; [vm_compute; reflexivity|]. vm_compute. split; reflexivity. Qed.

Print Assumptions C88_bridge_log.
Print Assumptions C88_message_lines.
