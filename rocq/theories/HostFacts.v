(* HostFacts.v: for C100: the bridge run only when woken is the bridge of Mqtt.v, and when it is not due it can do nothing. *)
From Verif Require Import Base BaseFacts Pkt SpecPkt PktFacts DecodeFacts Msg SpecMsg DecFacts MsgFacts WireFacts IsoFacts
  Tokio SpecConn ConnFacts State SpecState StateFacts RunFacts HistFacts ViewFacts PropState PropSink PropLive Serde Mqtt SpecMqtt MqttFacts PropMqtt SpecServe.
From Verif Require SpecWakeInit PropWakeInit.
From Verif Require Import Wake PropWake WakeBridge SpecHost.
From Coq Require Import ZifyBool ZifyNat ZifyN.
Ltac Zify.zify_post_hook ::= Z.div_mod_to_equations.

(* ---- calls that change nothing ---- *)
Lemma set_reader_same g t : g_read g = Some t -> set_reader g t = g.
Proof. destruct g. cbn. intros ->. reflexivity. Qed.
Lemma set_writer_same g t : g_write g = Some t -> set_writer g t = g.
Proof. destruct g. cbn. intros ->. reflexivity. Qed.
Lemma set_timer_same g t : g_timer g = Some t -> set_timer g (Some t) = g.
Proof. destruct g. cbn. intros ->. reflexivity. Qed.
Lemma next_same t w : pinv (w_panel w) -> asleep t w -> wstep w (WNext t) = Ok (w, ONext Pending None, []).
Proof.
  intros I (A1 & (Q1 & Q2 & Q3 & Q4) & A3). cbn [wstep]. unfold poll_next_cx, conn_poll_next_cx.
  destruct (conn_next_total _ (proj1 I)) as (c & r & EC & X). rewrite EC. destruct (PropWakeInit.idle_next _ _ _ (proj1 I) Q1 Q2 Q3 Q4 EC) as [-> ->].
  cbn [bind]. rewrite PropWakeInit.with_conn_same, set_reader_same by exact A1. destruct w as [p g now room br]. cbn [w_panel w_regs w_now w_room w_broken] in *.
  destruct (pending_arm p) as [[d m]|]; [|reflexivity]. destruct A3 as [A3 A4]. destruct (d <=? now) eqn:ED; [lia|]. rewrite set_timer_same by exact A4. reflexivity.
Qed.
Lemma sunk_same w : sunk w (w_panel w) (w_regs w) = w.
Proof. destruct w. unfold sunk. cbn. rewrite Nat.sub_diag, Nat.sub_0_r. reflexivity. Qed.
(* a flush that has begun and has to wait for room *)
Definition jammed (t : nat) (w : world) : Prop := blocked t w /\ exists q k, cmd_state (w_panel w) = Busy q false k.
Lemma conn_flush_same t w : blocked t w -> conn_poll_flush_cx t (p_conn (w_panel w)) (writes w) (w_regs w) = (p_conn (w_panel w), [], Pending, w_regs w).
Proof.
  intros (B1 & B2 & B3 & B4). unfold conn_poll_flush_cx, conn_poll_flush, writes. rewrite B2, B3. destruct (wbuf (p_conn (w_panel w))) as [|b buf] eqn:EB; [congruence|].
  cbn [framed_flush]. rewrite <- EB, PropWakeInit.set_write_same, set_writer_same by exact B1. reflexivity.
Qed.
Lemma flush_same t w : jammed t w -> wstep w (WFlush t) = Ok (w, OSink Pending, []).
Proof.
  intros (B & q & k & E). cbn [wstep]. unfold poll_flush_cx, panel_flush_cx. rewrite E, (conn_flush_same t w B), PropWakeInit.with_conn_same. rewrite sunk_same. reflexivity.
Qed.
Lemma ready_same t w : jammed t w \/ parked t w -> wstep w (WReady t) = Ok (w, OSink Pending, []).
Proof.
  intros [(B & q & k & E)|(q & E)]; cbn [wstep]; unfold poll_ready_cx; rewrite E.
  - rewrite (conn_flush_same t w B), PropWakeInit.with_conn_same, sunk_same. reflexivity.
  - replace (with_cmd (w_panel w) (Busy q true (Some t))) with (w_panel w); [rewrite sunk_same; reflexivity|]. rewrite <- E. destruct (w_panel w). reflexivity.
Qed.
Lemma flush_jammed t w w' ks : pinv (w_panel w) -> wstep w (WFlush t) = Ok (w', OSink Pending, ks) -> jammed t w'.
Proof.
  intros I E. destruct (sink_pending t (WFlush t) w w' ks ltac:(right; left; reflexivity) I E) as [[B|[B _]] _]; [|discriminate B]. split; [exact B|].
  cbn [wstep] in E. unfold poll_flush_cx, panel_flush_cx in E. destruct (cmd_state (w_panel w)) as [|q [] k] eqn:EC; try discriminate E.
  destruct (conn_poll_flush_cx t (p_conn (w_panel w)) (writes w) (w_regs w)) as [[[c ws] [|[[]|e]]] g]; try discriminate E. injection E as <- _. exists q, k. exact EC.
Qed.
Lemma ready_jammed t w w' ks : pinv (w_panel w) -> wstep w (WReady t) = Ok (w', OSink Pending, ks) -> jammed t w' \/ parked t w'.
Proof.
  intros I E. destruct (sink_pending t (WReady t) w w' ks ltac:(left; reflexivity) I E) as [[B|[_ B]] _]; [|auto].
  cbn [wstep] in E. unfold poll_ready_cx in E. destruct (cmd_state (w_panel w)) as [|q [] k] eqn:EC; try discriminate E.
  - injection E as <- _. right. exists q. reflexivity.
  - destruct (conn_poll_flush_cx t (p_conn (w_panel w)) (writes w) (w_regs w)) as [[[c ws] [|[[]|e]]] g]; try discriminate E; injection E as <- _.
    + left. split; [exact B|]. exists q, k. exact EC.
    + right. exists q. reflexivity.
Qed.
(* the network and the clock do not change the state of a command *)
Definition from_outside (a : act) : Prop := match a with WArrive _ | WRoom _ | WBreak _ | WWait _ => True | _ => False end.
Lemma outside_cmd w a w' b ks : from_outside a -> wstep w a = Ok (w', b, ks) -> cmd_state (w_panel w') = cmd_state (w_panel w).
Proof.
  intros F E. pose proof (wstep_inv _ _ _ _ _ E) as S. destruct a; try contradiction; cbn [call_of] in S; [|destruct S as [_ ->]; reflexivity..].
  cbn [wstep] in E. injection E as <- _ _. reflexivity.
Qed.
Lemma jammed_step t w a w' b ks : pinv (w_panel w) -> jammed t w -> act_ok a -> from_outside a -> wstep w a = Ok (w', b, ks) -> ~ In t ks -> jammed t w'.
Proof.
  intros I (B & q & k & C) O F E N. split; [eapply blocked_step; eauto; destruct a; try contradiction; reflexivity|].
  rewrite (outside_cmd _ _ _ _ _ F E), C. eauto.
Qed.

(* ---- the task is the bridge of Mqtt.v ---- *)
Section Task.
Variables (cl : client) (cfg : Cfg).
Definition sound (h : host) : Prop := exists is, bridge_after cl cfg is (h_bridge h).
Lemma sound_new : sound host_new.
Proof. exists []. split; [constructor | reflexivity]. Qed.
Lemma sound_on h h' is : sound h -> Forall input_ok is -> h_bridge h' = fold_left (bstep cl cfg) is (h_bridge h) -> sound h'.
Proof.
  intros (is0 & F & E) F' E'. exists (is0 ++ is). split; [apply Forall_app; auto|]. unfold brun in *. rewrite fold_left_app, E, E'. reflexivity.
Qed.
Lemma sound_connecting h i rx : sound h -> h_bridge h = Connecting i rx -> iinv i /\ exists s ph p, i = IRun s ph p.
Proof.
  intros (is & F & E) EB. pose proof (brun_cases cl cfg is F) as C. rewrite E, EB in C. destruct C as (_ & os & FO & -> & R). split; [apply irun_inv, FO | exact R].
Qed.
Lemma sound_up h u : sound h -> h_bridge h = Up u -> pinv (u_panel u) /\ forall c, u_mode u = Feeding c -> wf_message (into_msg c).
Proof.
  intros (is & A) EB. rewrite EB in A. destruct (bridge_binv _ _ _ _ A) as (R & _ & _ & _ & W). split; [apply reachable_inv, R | exact W].
Qed.
Lemma set_panel_same u : set_panel u (u_panel u) = u.
Proof. destruct u. reflexivity. Qed.

(* a poll of the panel *)
Lemma select_panel_bridge h u : h_bridge (fst (select_panel cl cfg h u)) = bstep cl cfg (Up u) (PollPanel (h_now h)).
Proof. unfold select_panel. destruct (wstep _ _) as [[[w [|[|[[e|e]|]] k|o]] ks]|e|y]; reflexivity. Qed.
Lemma select_rx_bridge h u : u_mode u = Selecting -> h_bridge (fst (select_rx cl cfg h u)) = bstep cl cfg (Up u) PollRx.
Proof. intros M. unfold select_rx. destruct (u_rx u) as [|m rx] eqn:E; [cbn [fst put h_bridge bstep]; rewrite M, E; reflexivity | reflexivity]. Qed.
Lemma put_world b w c d u : b = Up u -> u_panel u = w_panel w -> world_of (put b w c d) u = w.
Proof. intros -> E. unfold world_of, put. cbn. rewrite E. destruct w. reflexivity. Qed.
Lemma select_panel_pending h u h1 : u_mode u = Selecting -> select_panel cl cfg h u = (h1, false) ->
  exists w k ks, wstep (world_of h u) (WNext TASK) = Ok (w, ONext Pending k, ks) /\ h1 = put (Up (set_panel u (w_panel w))) w (h_chan h) false.
Proof.
  intros M. unfold select_panel. destruct (wstep (world_of h u) (WNext TASK)) as [[[w [|[|[[e|e]|]] k|o]] ks]|e|y] eqn:E; intros [= <-].
  exists w, k, ks. split; [reflexivity|]. f_equal. cbn [bstep]. rewrite M. pose proof (wstep_inv _ _ _ _ _ E) as S. cbn [call_of step world_of w_panel w_now] in S.
  apply bind_inv in S as ([[p r] k'] & S & S'). injection S' as -> -> ->. rewrite S. reflexivity.
Qed.
Lemma select_panel_ready h u h1 : select_panel cl cfg h u = (h1, true) -> h_due h1 = true.
Proof. unfold select_panel. destruct (wstep _ _) as [[[w [|[|[[e|e]|]] k|o]] ks]|e|y]; intros [= <-]; reflexivity. Qed.
(* what select! does *)
Lemma select_inputs first h u : u_mode u = Selecting ->
  h_bridge (select cl cfg first h u) = fold_left (bstep cl cfg) (
    if first then if snd (select_panel cl cfg h u) then [PollPanel (h_now h)] else [PollPanel (h_now h); PollRx]
    else match u_rx u with [] => [PollPanel (h_now h)] | _ => [PollRx] end) (Up u).
Proof.
  intros M. unfold select. destruct first.
  - pose proof (select_panel_bridge h u) as EB. destruct (select_panel cl cfg h u) as [h1 r] eqn:E. cbn [fst snd] in *. destruct r; [exact EB|].
    destruct (select_panel_pending _ _ _ M E) as (w & k & ks & _ & ->). cbn [put h_bridge fold_left] in *. rewrite <- EB, select_rx_bridge by exact M. reflexivity.
  - pose proof (select_rx_bridge h u M) as EB. unfold select_rx in *. destruct (u_rx u) as [|m rx]; [|reflexivity]. cbn [fst put h_bridge] in *.
    rewrite select_panel_bridge. reflexivity.
Qed.
Lemma connect_inputs h i rx a : (exists s ph p, i = IRun s ph p) -> SpecWakeInit.cact_ok a ->
  exists is, Forall input_ok is /\ h_bridge (connect_step cl cfg h i rx a) = fold_left (bstep cl cfg) is (Connecting i rx) /\
    mqtt_in is = [] /\ net_in is = match a with WakeInit.CArrive x => arrival_data x | _ => [] end /\
    (a = WakeInit.CRun -> is = if h_due h then [PollConnect (h_now h) (WakeInit.cwrites (client_of h i))] else []).
Proof.
  intros (s & ph & p & ->) O. destruct a as [x|[|n]|e|d| |]; try (exists []; split; [constructor|]; split; [reflexivity|]; split; [reflexivity|]; split; [reflexivity | discriminate]).
  - exists [NetArrive x]. split; [repeat constructor; exact O|]. split; [reflexivity|]. split; [reflexivity|]. split; [apply app_nil_r | discriminate].
  - destruct (h_due h) eqn:ED; [exists [PollConnect (h_now h) (WakeInit.cwrites (client_of h (IRun s ph p)))] | exists []]; (split; [repeat constructor|]); (split; [|split; [reflexivity | split; reflexivity]]);
      unfold connect_step, client_of; cbn [WakeInit.cstep]; rewrite ED; [|reflexivity].
    destruct (WakeInit.iwaits _ _) as [[]|]; reflexivity.
Qed.
Lemma outside_inputs h u a : h_bridge h = Up u -> from_outside a -> act_ok a ->
  exists is, Forall input_ok is /\ h_bridge (outside h u a) = fold_left (bstep cl cfg) is (Up u) /\
    mqtt_in is = [] /\ net_in is = match a with WArrive x => arrival_data x | _ => [] end.
Proof.
  intros EB F O. unfold outside. pose proof (wstep_call (world_of h u) a) as C. destruct a as [x|n|e|d| | | | |]; try contradiction; cbn [call_of step] in C; destruct C as (w & ks & E & S); rewrite E; cbn [put h_bridge].
  - exists [NetArrive x]. split; [repeat constructor; exact O|]. split; [rewrite S; reflexivity|]. split; [reflexivity | apply app_nil_r].
  - exists []. split; [constructor|]. rewrite S. cbn [world_of w_panel fold_left]. rewrite set_panel_same. repeat split; reflexivity.
  - exists []. split; [constructor|]. rewrite S. cbn [world_of w_panel fold_left]. rewrite set_panel_same. repeat split; reflexivity.
  - exists []. split; [constructor|]. rewrite S. cbn [world_of w_panel fold_left]. rewrite set_panel_same. repeat split; reflexivity.
Qed.

(* ---- when it is not due ---- *)
Definition quiet (h : host) : Prop :=
  match h_bridge h with
  | Connecting i _ => PropWakeInit.rests (client_of h i)
  | Up u =>
      match u_mode u with
      | Selecting => u_rx u = [] /\ h_chan h = true /\ asleep TASK (world_of h u)
      | Feeding _ => jammed TASK (world_of h u) \/ parked TASK (world_of h u)
      | Flushing => jammed TASK (world_of h u)
      end
  | Dead _ _ => False
  end.
Definition hinv (h : host) : Prop := sound h /\ (h_due h = false -> quiet h).
Lemma hinv_new : hinv host_new.
Proof. split; [apply sound_new | discriminate]. Qed.

Lemma start_send_sent c p p' : start_send c p = Ok p' -> sent (p_conn p') = sent (p_conn p).
Proof.
  unfold start_send. destruct (cmd_state p); [|discriminate]. intros E. apply bind_inv in E as (pkt & _ & E). apply bind_inv in E as (c2 & E2 & [= <-]).
  apply conn_start_send_spec in E2 as (buf & _ & ->). reflexivity.
Qed.
Lemma sunk_writes w p g : sent (p_conn p) = sent (p_conn (w_panel w)) -> writes (sunk w p g) = writes w.
Proof. intros E. unfold writes, sunk. cbn [w_broken w_room]. rewrite E, Nat.sub_diag, Nat.sub_0_r. reflexivity. Qed.
Lemma flush_waits u w ws : pinv (w_panel w) -> u_panel u = w_panel w -> ws = writes w -> forall w', run_flush w = (w', false) ->
  jammed TASK w' /\ exists u', poll_send_flush ws u = Up u' /\ u_panel u' = w_panel w' /\ u_rx u' = u_rx u /\ u_mode u' = Flushing.
Proof.
  intros I EP -> w'. unfold run_flush. destruct (wstep w (WFlush TASK)) as [[[w1 [|r k|[|r]]] ks]|e|y] eqn:E; intros [= <-].
  split; [eapply flush_jammed; eauto|]. pose proof (wstep_inv _ _ _ _ _ E) as S. cbn [call_of step] in S. unfold poll_send_flush. rewrite EP.
  destruct (poll_flush (writes w) (w_panel w)) as [p r]. injection S as -> ->. eexists. split; [reflexivity|]. auto.
Qed.
Lemma send_waits h u w : sound h -> h_bridge h = Up u -> u_mode u <> Selecting -> run_send (world_of h u) (u_mode u) = (w, false) ->
  exists u', bstep cl cfg (Up u) (PollSend (writes (world_of h u))) = Up u' /\ u_panel u' = w_panel w /\ u_rx u' = u_rx u /\
    (u_mode u' = Flushing /\ jammed TASK w \/ exists c, u_mode u' = Feeding c /\ (jammed TASK w \/ parked TASK w)).
Proof.
  intros SO EB NS. destruct (sound_up _ _ SO EB) as [I W]. cbn [bstep]. destruct (u_mode u) as [|c|] eqn:EM; [congruence| |]; cbn [run_send].
  - destruct (wstep (world_of h u) (WReady TASK)) as [[[w1 [|r k|[|[[]|e]]]] ks]|e|y] eqn:E; try discriminate.
    + intros [= <-]. pose proof (wstep_inv _ _ _ _ _ E) as S. cbn [call_of step world_of w_panel] in S. change (mkWorld (u_panel u) (h_regs h) (h_now h) (h_room h) (h_broken h)) with (world_of h u) in S.
      destruct (poll_ready TASK (writes (world_of h u)) (u_panel u)) as [p r]. injection S as -> ->. eexists. split; [reflexivity|]. split; [reflexivity|]. split; [reflexivity|].
      right. exists c. split; [exact EM|]. eapply ready_jammed; eauto. exact I.
    + assert (E1 : w1 = world_of h u /\ poll_ready TASK (writes (world_of h u)) (u_panel u) = (u_panel u, Ready (IoOk tt))).
      { pose proof (wstep_inv _ _ _ _ _ E) as S. cbn [call_of step world_of w_panel] in S. change (mkWorld (u_panel u) (h_regs h) (h_now h) (h_room h) (h_broken h)) with (world_of h u) in S.
        cbn [wstep] in E. unfold poll_ready_cx in E. cbn [world_of w_panel] in E. unfold poll_ready in *. destruct (cmd_state (u_panel u)) as [|q [] k]; try discriminate E.
        - injection E as <- _. split; [|reflexivity]. apply (sunk_same (world_of h u)).
        - change (mkWorld (u_panel u) (h_regs h) (h_now h) (h_room h) (h_broken h)) with (world_of h u) in E.
          destruct (conn_poll_flush_cx TASK (p_conn (u_panel u)) (writes (world_of h u)) (w_regs (world_of h u))) as [[[? ?] [|[[]|?]]] ?]; discriminate E. }
      destruct E1 as [-> ->]. clear E. destruct (wstep (world_of h u) (WSend c)) as [[[w2 b2] k2]|e|y] eqn:E2; try discriminate. intros EF.
      assert (I2 : pinv (w_panel w2)) by (eapply wstep_pinv; [exact E2 | exact (W c eq_refl) | exact I]).
      cbn [wstep world_of w_panel] in E2. apply bind_inv in E2 as (p2 & E2 & E3). injection E3 as <- _ _. rewrite E2.
      destruct (flush_waits (set_panel u p2) (sunk (world_of h u) p2 (h_regs h)) (writes (world_of h u)) I2 eq_refl) with (w' := w) as (J & u' & P1 & P2 & P3 & P4); [|exact EF|].
      * symmetry. apply sunk_writes. exact (start_send_sent _ _ _ E2).
      * exists u'. auto 10.
  - intros EF. destruct (flush_waits u (world_of h u) (writes (world_of h u)) I eq_refl eq_refl w EF) as (J & u' & P1 & P2 & P3 & P4). exists u'. auto 10.
Qed.
Lemma put_same h u : h_bridge h = Up u -> put (Up u) (world_of h u) (h_chan h) (h_due h) = h.
Proof. destruct h. cbn. intros ->. reflexivity. Qed.

Lemma hstep_inputs h a : hact_ok a -> sound h -> exists is, Forall input_ok is /\ h_bridge (hstep cl cfg h a) = fold_left (bstep cl cfg) is (h_bridge h) /\
  mqtt_in is = h_mail [a] /\ net_in is = h_bytes [a].
Proof.
  intros O SO. unfold hstep. destruct (h_bridge h) as [i rx|u|log why] eqn:EB.
  - destruct (sound_connecting _ _ _ SO EB) as [_ R].
    assert (C : forall c, SpecWakeInit.cact_ok c -> exists is, Forall input_ok is /\ h_bridge (connect_step cl cfg h i rx c) = fold_left (bstep cl cfg) is (Connecting i rx) /\
      mqtt_in is = [] /\ net_in is = match c with WakeInit.CArrive x => arrival_data x | _ => [] end).
    { intros c Hc. destruct (connect_inputs h i rx c R Hc) as (is & H1 & H2 & H3 & H4 & _). eauto. }
    destruct a as [x|n|e|d|t pl| | |first].
    + destruct (C (WakeInit.CArrive x) O) as (is & H1 & H2 & H3 & H4). exists is. unfold h_bytes. cbn. rewrite app_nil_r. auto.
    + apply (C (WakeInit.CRoom n) Logic.I).
    + apply (C (WakeInit.CBreak e) Logic.I).
    + apply (C (WakeInit.CWait d) Logic.I).
    + exists [MqttArrive t pl]. split; [repeat constructor|]. repeat split; reflexivity.
    + exists [MqttFail]. split; [repeat constructor|]. repeat split; reflexivity.
    + exists []. split; [constructor|]. repeat split; reflexivity.
    + apply (C WakeInit.CRun Logic.I).
  - destruct a as [x|n|e|d|t pl| | |first].
    + destruct (outside_inputs h u (WArrive x) EB Logic.I O) as (is & H1 & H2 & H3 & H4). exists is. unfold h_bytes. cbn. rewrite app_nil_r. auto.
    + apply (outside_inputs h u (WRoom n) EB Logic.I Logic.I).
    + apply (outside_inputs h u (WBreak e) EB Logic.I Logic.I).
    + apply (outside_inputs h u (WWait d) EB Logic.I Logic.I).
    + exists [MqttArrive t pl]. split; [repeat constructor|]. repeat split; reflexivity.
    + exists [MqttFail]. split; [repeat constructor|]. repeat split; reflexivity.
    + exists []. split; [constructor|]. repeat split; reflexivity.
    + destruct (h_due h); [|exists []; split; [constructor|]; split; [exact EB|]; split; reflexivity]. destruct (u_mode u) eqn:EM.
      * eexists. split; [|split; [apply select_inputs; exact EM|]]; [destruct first; [destruct (snd _) | destruct (u_rx u)]; repeat constructor|].
        destruct first; [destruct (snd _) | destruct (u_rx u)]; split; reflexivity.
      * destruct (run_send (world_of h u) (Feeding c)) as [w r]. exists [PollSend (writes (world_of h u))]. split; [repeat constructor|]. repeat split; reflexivity.
      * destruct (run_send (world_of h u) Flushing) as [w r]. exists [PollSend (writes (world_of h u))]. split; [repeat constructor|]. repeat split; reflexivity.
  - assert (X : exists is, Forall input_ok is /\ mqtt_in is = h_mail [a] /\ net_in is = h_bytes [a]).
    { destruct a as [x|n|e|d|t pl| | |first]; [exists [NetArrive x]| | | |exists [MqttArrive t pl]| | |]; [split; [repeat constructor; exact O | split; reflexivity] | | | |split; [repeat constructor | split; reflexivity] | | |];
      exists []; (split; [constructor | split; reflexivity]). }
    destruct X as (is & X1 & X2 & X3). exists is. rewrite dead_stays. auto.
Qed.
Lemma hstep_sound h a : hact_ok a -> sound h -> sound (hstep cl cfg h a).
Proof. intros O SO. destruct (hstep_inputs h a O SO) as (is & F & E & _). eapply sound_on; eauto. Qed.

Lemma connect_quiet h i rx a : h_bridge h = Connecting i rx -> hinv h -> SpecWakeInit.cact_ok a ->
  h_due (connect_step cl cfg h i rx a) = false -> quiet (connect_step cl cfg h i rx a).
Proof.
  intros EB (SO & Q) O. destruct (sound_connecting _ _ _ SO EB) as [I _].
  assert (K : PropWakeInit.kinv (client_of h i)) by (split; [exact I|]; intros D; specialize (Q D); unfold quiet in Q; rewrite EB in Q; exact Q).
  apply (PropWakeInit.cstep_kinv _ _ O) in K. unfold connect_step, quiet. cbv zeta. cbn [h_due h_bridge]. intros D. destruct K as [_ K]. specialize (K D).
  destruct (WakeInit.cstep (client_of h i) a) as [i' run rd wt now room br]. cbn [WakeInit.k_state WakeInit.k_reader WakeInit.k_writer WakeInit.k_runnable WakeInit.k_now WakeInit.k_room WakeInit.k_broken] in *.
  assert (KK : forall b, kept (keep b) = b) by (intros []; reflexivity).
  destruct i' as [s ph p|p|e|w]; try contradiction. cbn [after_connect]. unfold client_of. cbn [h_due h_regs h_now h_room h_broken g_read g_write]. rewrite !KK. exact K.
Qed.
Lemma not_woken ks : existsb (Nat.eqb TASK) ks = false -> ~ In TASK ks.
Proof. intros E H. assert (X : existsb (Nat.eqb TASK) ks = true) by (apply existsb_exists; exists TASK; split; [exact H | apply Nat.eqb_refl]). congruence. Qed.
Lemma outside_quiet h u a : h_bridge h = Up u -> hinv h -> from_outside a -> act_ok a -> h_due (outside h u a) = false -> quiet (outside h u a).
Proof.
  intros EB (SO & Q) F O. destruct (sound_up _ _ SO EB) as [I _]. unfold outside. destruct (wstep (world_of h u) a) as [[[w b] ks]|e|y] eqn:E; [|exact Q..].
  cbn [put h_due]. intros D. apply orb_false_elim in D as [D NW]. apply not_woken in NW. specialize (Q D). unfold quiet in *. rewrite EB in Q. cbn [put h_bridge h_chan set_panel u_mode u_rx].
  fold (put (Up (set_panel u (w_panel w))) w (h_chan h) (h_due h || existsb (Nat.eqb TASK) ks)).
  rewrite (put_world _ w _ _ (set_panel u (w_panel w))) by reflexivity.
  destruct (u_mode u).
  - destruct Q as (Q1 & Q2 & Q3). split; [exact Q1|]. split; [exact Q2|]. refine (asleep_step _ _ _ _ _ _ _ Q3 O _ E NW); [exact I | destruct a; try contradiction; reflexivity].
  - destruct Q as [Q|Q]; [left; exact (jammed_step TASK (world_of h u) _ _ _ _ I Q O F E NW) | right; refine (parked_step TASK (world_of h u) _ _ _ _ I Q O _ E NW); destruct a; try contradiction; reflexivity].
  - exact (jammed_step TASK (world_of h u) _ _ _ _ I Q O F E NW).
Qed.
Lemma select_quiet first h u : h_bridge h = Up u -> sound h -> u_mode u = Selecting -> h_due (select cl cfg first h u) = false -> quiet (select cl cfg first h u).
Proof.
  intros EB SO M. destruct (sound_up _ _ SO EB) as [I _]. unfold select. destruct first.
  - destruct (select_panel cl cfg h u) as [h1 [|]] eqn:E; [rewrite (select_panel_ready _ _ _ E); discriminate|].
    destruct (select_panel_pending _ _ _ M E) as (w & k & ks & EW & ->). cbn [put h_bridge]. unfold select_rx. cbn [set_panel u_rx].
    destruct (u_rx u) as [|m rx] eqn:ER; [|discriminate]. cbn [fst]. intros _. fold (put (Up (set_panel u (w_panel w))) w (h_chan h) false).
    fold (set_panel u (w_panel w)). unfold quiet. cbn [put h_bridge h_chan set_panel u_mode u_rx].
    rewrite M. split; [exact ER|]. split; [reflexivity|]. pose proof (wnext_pending TASK (world_of h u) _ _ _ I EW) as A. destruct w. exact A.
  - unfold select_rx. destruct (u_rx u) as [|m rx] eqn:ER; [|discriminate]. cbn [put h_bridge fst].
    destruct (select_panel cl cfg _ u) as [h1 [|]] eqn:E; cbn [fst]; [rewrite (select_panel_ready _ _ _ E); discriminate|]. intros _.
    destruct (select_panel_pending _ _ _ M E) as (w & k & ks & EW & ->). unfold quiet. cbn [put h_bridge h_chan set_panel u_mode u_rx]. rewrite M. split; [exact ER|]. split; [reflexivity|].
    assert (A : asleep TASK w) by (eapply wnext_pending; [|exact EW]; exact I). destruct w. exact A.
Qed.
Lemma hstep_hinv h a : hact_ok a -> hinv h -> hinv (hstep cl cfg h a).
Proof.
  intros O H. split; [apply hstep_sound; [exact O | apply H]|]. pose proof H as (SO & Q). unfold hstep. destruct (h_bridge h) as [i rx|u|log why] eqn:EB; [| |exact Q].
  - destruct a as [x|n|e|d|t pl| | |first]; try (apply connect_quiet; [exact EB | exact H | first [exact O | exact Logic.I]]); [|discriminate..].
    cbn [h_due]. intros D. apply orb_false_elim in D as [D _]. specialize (Q D). unfold quiet in *. rewrite EB in Q. exact Q.
  - destruct a as [x|n|e|d|t pl| | |first]; try (apply outside_quiet; [exact EB | exact H | exact Logic.I | first [exact O | exact Logic.I]]); [|discriminate..|].
    + cbn [h_due]. intros D. apply orb_false_elim in D as [D C]. specialize (Q D). unfold quiet in *. rewrite EB in Q. cbn [bstep h_bridge u_mode]. destruct (u_mode u); [|exact Q..].
      destruct Q as (_ & Q & _). congruence.
    + destruct (h_due h) eqn:D; [|intros _; exact (Q eq_refl)]. assert (S : u_mode u <> Selecting -> forall m, m = u_mode u ->
        forall w r, run_send (world_of h u) m = (w, r) -> h_due (put (bstep cl cfg (Up u) (PollSend (writes (world_of h u)))) w (h_chan h) r) = false ->
        quiet (put (bstep cl cfg (Up u) (PollSend (writes (world_of h u)))) w (h_chan h) r)).
      { intros NS m -> w r ES. cbn [put h_due]. intros ->. destruct (send_waits h u w SO EB NS ES) as (u' & E1 & E2 & E3 & E4). unfold quiet. rewrite E1. cbn [put h_bridge].
        fold (put (Up u') w (h_chan h) false). rewrite (put_world _ _ _ _ u' eq_refl E2). destruct E4 as [[-> J]|(c & -> & J)]; exact J. }
      destruct (u_mode u) as [|c|] eqn:EM; [apply select_quiet; assumption| |]; (destruct (run_send (world_of h u) _) as [w r] eqn:ES; eapply S; [discriminate | reflexivity | exact ES]).
Qed.
Lemma hrun_hinv l : Forall hact_ok l -> hinv (hrun cl cfg l).
Proof.
  intros F. unfold hrun. assert (G : forall l h, Forall hact_ok l -> hinv h -> hinv (fold_left (hstep cl cfg) l h)); [|apply G; [exact F | apply hinv_new]].
  clear. induction l as [|a l IH]; intros h F H; [exact H|]. inversion F; subst. apply IH; [assumption|]. apply hstep_hinv; assumption.
Qed.

(* running it anyway changes nothing *)
Lemma quiet_select first h u : h_bridge h = Up u -> sound h -> u_mode u = Selecting -> quiet h -> h_due h = true ->
  select cl cfg first h u = mkHost (h_bridge h) (h_regs h) (h_chan h) false (h_now h) (h_room h) (h_broken h).
Proof.
  intros EB SO M Q D. destruct (sound_up _ _ SO EB) as [I _]. unfold quiet in Q. rewrite EB, M in Q. destruct Q as (Q1 & Q2 & Q3).
  assert (P : forall c d, select_panel cl cfg (put (Up u) (world_of h u) c d) u = (put (Up u) (world_of h u) c false, false)).
  { intros c d. unfold select_panel. rewrite (put_world _ (world_of h u) c d u) by reflexivity. rewrite (next_same TASK (world_of h u) I Q3). cbn [put h_chan h_now bstep world_of w_now].
    pose proof (next_same TASK (world_of h u) I Q3) as E. apply wstep_inv in E. cbn [call_of step world_of w_panel w_now] in E. apply bind_inv in E as ([[p r] k] & E & E'). injection E' as -> -> ->.
    rewrite M, E, set_panel_same. reflexivity. }
  rewrite EB. unfold select. destruct first.
  - rewrite <- (put_same h u EB) at 1. rewrite P. cbn [put h_bridge]. unfold select_rx. rewrite Q1, Q2. reflexivity.
  - unfold select_rx. rewrite Q1. cbn [put h_bridge fst]. fold (put (Up u) (world_of h u) true false). rewrite P, Q2. reflexivity.
Qed.

(* what the socket answers to the writes of one call *)
Definition socket (h : host) : list wr :=
  match h_broken h with Some e => [WErr e] | None => match h_room h with O => [WPending] | S n => [WAccept (S n); WPending] end end.
Lemma socket_writes h u : writes (world_of h u) = socket h.
Proof. reflexivity. Qed.
Lemma socket_cwrites h i : WakeInit.cwrites (client_of h i) = socket h.
Proof. reflexivity. Qed.
Lemma rests_same h i now : iinv i -> PropWakeInit.rests (client_of h i) -> istep now (WakeInit.cwrites (client_of h i)) i = i.
Proof. intros I Q. exact (PropWakeInit.rests_idle (client_of h i) now I Q). Qed.
Lemma quiet_connect h now : sound h -> quiet h -> bstep cl cfg (h_bridge h) (PollConnect now (socket h)) = h_bridge h.
Proof.
  intros SO Q. destruct (h_bridge h) as [i rx|u|l w] eqn:EB; try reflexivity. destruct (sound_connecting _ _ _ SO EB) as [I (s & ph & p & E)]. unfold quiet in Q. rewrite EB in Q.
  cbn [bstep]. rewrite <- (socket_cwrites h i), (rests_same _ _ now I Q). subst i. reflexivity.
Qed.
Lemma quiet_panel h : sound h -> quiet h -> bstep cl cfg (h_bridge h) (PollPanel (h_now h)) = h_bridge h.
Proof.
  intros SO Q. destruct (h_bridge h) as [i rx|u|l w] eqn:EB; try reflexivity. destruct (sound_up _ _ SO EB) as [I _]. unfold quiet in Q. rewrite EB in Q. cbn [bstep]. destruct (u_mode u); try reflexivity.
  destruct Q as (_ & _ & Q). pose proof (next_same TASK (world_of h u) I Q) as E. apply wstep_inv in E. cbn [call_of step world_of w_panel w_now] in E. apply bind_inv in E as ([[p r] k] & E & E'). injection E' as -> -> ->.
  rewrite E, set_panel_same. reflexivity.
Qed.
Lemma quiet_yields h : sound h -> quiet h -> yielded_by (h_bridge h) (h_now h) = [].
Proof.
  intros SO Q. destruct (h_bridge h) as [i rx|u|l w] eqn:EB; try reflexivity. destruct (sound_up _ _ SO EB) as [I _]. unfold quiet in Q. rewrite EB in Q. cbn [yielded_by]. destruct (u_mode u); try reflexivity.
  destruct Q as (_ & _ & Q). pose proof (next_same TASK (world_of h u) I Q) as E. apply wstep_inv in E. cbn [call_of step world_of w_panel w_now] in E. apply bind_inv in E as ([[p r] k] & E & E'). injection E' as -> -> ->.
  rewrite E. reflexivity.
Qed.
Lemma quiet_rx h : quiet h -> bstep cl cfg (h_bridge h) PollRx = h_bridge h.
Proof. intros Q. unfold quiet in Q. destruct (h_bridge h) as [i rx|u|l w] eqn:EB; try reflexivity. cbn [bstep]. destruct (u_mode u); try reflexivity. destruct Q as (-> & _). reflexivity. Qed.
Lemma quiet_send h : sound h -> quiet h -> bstep cl cfg (h_bridge h) (PollSend (socket h)) = h_bridge h.
Proof.
  intros SO Q. destruct (h_bridge h) as [i rx|u|l w] eqn:EB; try reflexivity. unfold quiet in Q. rewrite EB in Q. cbn [bstep]. rewrite <- (socket_writes h u). destruct (u_mode u) as [|c|] eqn:EM; [reflexivity| |].
  - pose proof (ready_same TASK (world_of h u) Q) as E. apply wstep_inv in E. cbn [call_of step] in E. cbn [world_of w_panel] in E. fold (world_of h u) in E.
    destruct (poll_ready TASK (writes (world_of h u)) (u_panel u)) as [p r]. injection E as -> ->. rewrite set_panel_same. reflexivity.
  - pose proof (flush_same TASK (world_of h u) Q) as E. apply wstep_inv in E. cbn [call_of step] in E. cbn [world_of w_panel] in E. fold (world_of h u) in E. unfold poll_send_flush.
    destruct (poll_flush (writes (world_of h u)) (u_panel u)) as [p r]. injection E as -> ->. rewrite set_panel_same, <- EM. destruct u. reflexivity.
Qed.
Lemma quiet_run h first : sound h -> quiet h ->
  let h' := hstep cl cfg (hstep cl cfg h HWake) (HRun first) in
  h_bridge h' = h_bridge h /\ h_due h' = false /\ h_now h' = h_now h /\ h_room h' = h_room h /\ h_broken h' = h_broken h.
Proof.
  intros SO Q. cbv zeta. destruct (h_bridge h) as [i rx|u|l w] eqn:EB; [| |unfold quiet in Q; rewrite EB in Q; contradiction].
  - unfold hstep. rewrite EB. cbn [h_bridge]. pose proof (quiet_connect h (h_now h) SO Q) as EC. rewrite EB in EC. cbn [bstep] in EC.
    destruct (sound_connecting _ _ _ SO EB) as [I (s & ph & p & E)]. unfold quiet in Q. rewrite EB in Q. rewrite <- (socket_cwrites h i), (rests_same _ _ _ I Q) in EC.
    unfold connect_step, client_of. cbn [h_due h_regs h_now h_room h_broken h_chan WakeInit.cstep].
    change (WakeInit.cwrites _) with (WakeInit.cwrites (client_of h i)). rewrite (rests_same _ _ _ I Q). cbn [client_of WakeInit.k_state]. rewrite Nat.sub_diag, Nat.sub_0_r.
    assert (W : exists sd, WakeInit.iwaits (WakeInit.cwrites (client_of h i)) i = Some sd).
    { subst i. unfold PropWakeInit.rests in Q. cbn [client_of WakeInit.k_state WakeInit.k_writer WakeInit.k_room WakeInit.k_broken] in Q. destruct ph; try contradiction; cbn [WakeInit.iwaits].
      - destruct Q as (_ & Q2 & Q3 & Q4). unfold WakeInit.cwrites. cbn [client_of WakeInit.k_broken WakeInit.k_room]. rewrite Q2, Q3. unfold conn_poll_flush.
        destruct (wbuf (p_conn p)) as [|b buf]; [congruence|]. cbn [framed_flush]. eauto.
      - destruct Q as (_ & Q1 & Q2 & Q3 & Q4). destruct (conn_next_total _ (proj1 (proj1 I))) as (c & r & EN & _). rewrite EN.
        destruct (PropWakeInit.idle_next _ _ _ (proj1 (proj1 I)) Q1 Q2 Q3 Q4 EN) as [-> ->]. eauto. }
    destruct W as (sd & W). rewrite W. destruct sd; cbn; rewrite EC; auto.
  - unfold hstep. rewrite EB. cbn [h_bridge h_due]. set (h1 := mkHost (Up u) (h_regs h) (h_chan h) true (h_now h) (h_room h) (h_broken h)).
    assert (SO1 : sound h1) by (destruct SO as (is & A); exists is; rewrite EB in A; exact A).
    assert (Q1 : quiet h1) by (unfold quiet in *; rewrite EB in Q; exact Q).
    destruct (u_mode u) as [|c|] eqn:EM.
    + rewrite (quiet_select first h1 u eq_refl SO1 EM Q1 eq_refl). cbn. auto.
    + pose proof (quiet_send h1 SO1 Q1) as E. cbn [h1 h_bridge] in E. change (writes (world_of h1 u)) with (socket h1). rewrite E. unfold quiet in Q1. cbn [h1 h_bridge] in Q1. rewrite EM in Q1.
      cbn [run_send]. rewrite (ready_same TASK (world_of h1 u) Q1). cbn. auto.
    + pose proof (quiet_send h1 SO1 Q1) as E. cbn [h1 h_bridge] in E. change (writes (world_of h1 u)) with (socket h1). rewrite E. unfold quiet in Q1. cbn [h1 h_bridge] in Q1. rewrite EM in Q1.
      cbn [run_send]. unfold run_flush. rewrite (flush_same TASK (world_of h1 u) Q1). cbn. auto.
Qed.
End Task.
