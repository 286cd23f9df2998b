(* PropRest.v: C101: the bridge does not run in circles. *)
From Verif Require Import Base BaseFacts Pkt SpecPkt PktFacts DecodeFacts Msg SpecMsg DecFacts MsgFacts WireFacts IsoFacts
  PropMsg Tokio SpecConn ConnFacts State SpecState StateFacts RunFacts HistFacts ViewFacts ExState PropState PropSink PropLive
  Serde SerdeFacts PropSerde SpecInit InitFacts PropConnect SpecSend SendFacts PropSend Mqtt SpecMqtt MqttFacts PropMqtt PropEnd SpecServe ServeFacts PropServe
  SpecProgram ProgramFacts PropProgram.
From Verif Require SpecWakeInit PropWakeInit PropTasks PropFail.
From Verif Require Import Wake PropWake WakeBridge SpecHost HostFacts PropHost SpecRest.
From Coq Require Import ZifyBool ZifyNat ZifyN.
Ltac Zify.zify_post_hook ::= Z.div_mod_to_equations.

(* ---- what is left to do, each piece weighed by the runs it may take ---- *)
Definition held (p : Panel) : nat := match pending_arm p with Some _ => 1%nat | None => 0%nat end.
Definition panel_work (p : Panel) : nat := (4 * length (unread (p_conn p)) + held p)%nat.
Definition phase_work (ph : phase) : nat := match ph with PhReady => 2%nat | PhFlush => 1%nat | PhWait => 0%nat end.
Definition mode_work (m : mode) : nat := match m with Selecting => 0%nat | Feeding _ => 2%nat | Flushing => 1%nat end.
Definition init_work (i : istate) : nat := match i with IRun _ ph p => (panel_work p + phase_work ph)%nat | IDone p => panel_work p | _ => 0%nat end.
Definition up_work (u : up) : nat := (panel_work (u_panel u) + mode_work (u_mode u) + 3 * length (u_rx u))%nat.
Definition due1 (h : host) : nat := if h_due h then 1%nat else 0%nat.
Definition work (h : host) : nat :=
  match h_bridge h with
  | Connecting i rx => (init_work i + 3 * length rx + due1 h)%nat
  | Up u => (up_work u + due1 h)%nat
  | Dead _ _ => 0%nat
  end.

Lemma taken_shrinks b p rest : u8s b -> decode b = Ok (Some p, rest) -> (length rest < length b)%nat.
Proof. intros U E. destruct (decode_some_inv _ _ _ U E) as (raw & -> & L & _). rewrite app_length. lia. Qed.
Lemma held_le p : (held p <= 1)%nat.
Proof. unfold held. destruct (pending_arm p); lia. Qed.
Lemma next_work now p p' r w : pinv p -> poll_next now p = Ok (p', r, w) ->
  (panel_work p' <= panel_work p)%nat /\ ((exists e, r = Ready (Some (IoOk e))) -> panel_work p' < panel_work p)%nat.
Proof.
  intros I E. pose proof I as (CI & _). pose proof (unread_u8 _ CI) as U. pose proof (held_le p'). pose proof (poll_next_case _ _ _ _ _ I E) as PC. unfold panel_work.
  inversion PC as [pkt m e k D|pkt e D|d m prior D UU X EP L EA EP'|r' NE UU F EP']; subst.
  - pose proof (taken_shrinks _ _ _ U D). lia.
  - pose proof (taken_shrinks _ _ _ U D). lia.
  - rewrite UU. assert (E1 : held p = 1%nat) by (unfold held; rewrite EP; reflexivity). assert (E2 : held p' = 0%nat) by (rewrite EP'; reflexivity). lia.
  - rewrite UU. assert (E1 : held p' = held p) by (rewrite EP'; reflexivity). split; [lia|]. intros (e & ->). elim (NE e). reflexivity.
Qed.
Lemma sink_work p p' : sink_only p p' -> panel_work p' = panel_work p.
Proof. intros S. unfold panel_work, held. rewrite (sink_unread _ _ S). destruct S as (_ & -> & _). reflexivity. Qed.
Lemma flush_work s ph c' ws' p r ws : conn_poll_flush (p_conn p) ws = (c', ws', r) -> init_work (IRun s ph (with_conn p c')) = init_work (IRun s ph p).
Proof. intros E. destruct (conn_flush_spec _ _ _ _ _ E) as (R & _). unfold init_work, panel_work. cbn [p_conn with_conn]. rewrite (same_read_unread _ _ R). reflexivity. Qed.
Lemma step_work now ws s ph p : iinv (IRun s ph p) ->
  (init_work (istep now ws (IRun s ph p)) <= init_work (IRun s ph p))%nat /\
  (WakeInit.iwaits ws (IRun s ph p) = None -> (exists s' ph' p', istep now ws (IRun s ph p) = IRun s' ph' p') \/ (exists p', istep now ws (IRun s ph p) = IDone p') ->
     init_work (istep now ws (IRun s ph p)) < init_work (IRun s ph p))%nat.
Proof.
  intros I. pose proof I as (PI & C & S & W). destruct ph; cbn [istep WakeInit.iwaits].
  - unfold conn_poll_ready. rewrite W by discriminate. cbn [length]. change (BACKPRESSURE <=? N.of_nat 0) with false. cbv beta iota.
    destruct (to_pkt (stage_msg s)) as [pkt|e|y]; cbn [bind]; [|split; [apply Nat.le_0_l | intros _ [(? & ? & ? & [=])|(? & [=])]]..].
    destruct (conn_start_send (p_conn p) pkt) as [c|e|y] eqn:E; [|split; [apply Nat.le_0_l | intros _ [(? & ? & ? & [=])|(? & [=])]]..].
    apply conn_start_send_spec in E as (buf & _ & ->). unfold init_work, panel_work, unread, held. cbn [p_conn with_conn set_write rbuf rq pending_arm phase_work]. split; lia.
  - destruct (conn_poll_flush (p_conn p) ws) as [[c ws'] r] eqn:E. destruct r as [|[[]|e]].
    + split; [rewrite (flush_work s PhFlush _ _ _ _ _ E); lia | discriminate].
    + pose proof (flush_work s PhFlush _ _ _ _ _ E) as X. unfold init_work, phase_work in *. split; lia.
    + split; [apply Nat.le_0_l | intros _ [(? & ? & ? & [=])|(? & [=])]].
  - pose proof PI as (CI & _). pose proof (unread_u8 _ CI) as U8. destruct (conn_next_total _ CI) as (c & r & E & X). rewrite E. pose proof (nexts_unread _ _ _ X CI) as U.
    destruct r as [|[[pkt|e]|]].
    + destruct U as (U & _). split; [unfold init_work, panel_work, held; cbn [p_conn with_conn pending_arm]; rewrite U; lia | discriminate].
    + pose proof (taken_shrinks _ _ _ U8 U) as SH. pose proof (with_conn_inv p c PI (nexts_inv _ _ _ X CI) (proj1 (nexts_same_write _ _ _ X))) as I'.
      destruct (interpret_spec now (with_conn p c) pkt I' (nexts_pkt_ok _ _ _ X CI)) as (p' & e & w & -> & _ & C2 & _). cbn [p_conn with_conn] in C2. pose proof (held_le p') as HL.
      assert (Z : (init_work (IRun s PhWait p') < init_work (IRun s PhWait p))%nat) by (unfold init_work, panel_work; rewrite C2; lia).
      destruct (e_msg e) as [[m|er]|]; [|split; auto with arith..]. destruct (is_response_to m (stage_msg s)); [|split; auto with arith].
      pose proof (PropFail.after_reply_conn s p' m) as A. assert (Y : (init_work (after_reply s p' m) < init_work (IRun s PhWait p))%nat).
      { destruct (after_reply s p' m) as [s2 ph2 p2|p2|er|y]; unfold init_work, panel_work; [destruct A as [-> A]| |contradiction|]; rewrite ?A, ?C2; cbn [phase_work]; try lia;
        pose proof (held_le p2); lia. }
      split; auto with arith.
    + split; [apply Nat.le_0_l | intros _ [(? & ? & ? & [=])|(? & [=])]].
    + unfold await_eof. destruct (FmtMsg.Message_dbg _); (split; [apply Nat.le_0_l | intros _ [(? & ? & ? & [=])|(? & [=])]]).
Qed.

(* ---- one step ---- *)
Section Work.
Variables (cl : client) (cfg : Cfg).
Lemma settle_cases {A} log (o : out A) k : (exists log' x, settle log o k = k log' x) \/ exists log' why, settle log o k = Dead log' why.
Proof. unfold settle. destruct o as [log' [x|e|y]]; eauto. Qed.
Lemma connected_work i rx d : let w b := match b with Connecting i rx => (init_work i + 3 * length rx + d)%nat | Up u => (up_work u + d)%nat | Dead _ _ => 0%nat end in
  (w (after_connect cl cfg i rx) <= init_work i + 3 * length rx + d)%nat /\
  ((forall s ph p, i <> IRun s ph p) -> (forall p, i <> IDone p) -> w (after_connect cl cfg i rx) = 0%nat).
Proof.
  cbv zeta. destruct i as [s ph p|p|e|y]; cbn [after_connect].
  - split; [lia|]. intros N. elim (N s ph p). reflexivity.
  - split; [|intros _ N; elim (N p); reflexivity]. destruct (settle_cases [] (start_up cl cfg p) (fun log code => Up (mkUp p code Selecting rx log))) as [(l & x & ->)|(l & y & ->)]; [unfold up_work; cbn [u_panel u_mode u_rx mode_work init_work]; lia | lia].
  - split; [lia | reflexivity].
  - split; [lia | reflexivity].
Qed.
Lemma connect_work h i rx : h_bridge h = Connecting i rx -> sound cl cfg h -> h_due h = true -> (work (connect_step cl cfg h i rx WakeInit.CRun) < work h)%nat.
Proof.
  intros EB SO D. destruct (sound_connecting _ _ _ _ _ SO EB) as [I (s & ph & p & ->)]. unfold work at 2. unfold due1. rewrite EB, D.
  unfold connect_step, client_of. cbn [WakeInit.cstep]. rewrite D. set (k := WakeInit.mkClient _ _ _ _ _ _ _). destruct (step_work (h_now h) (WakeInit.cwrites k) s ph p I) as [S1 S2].
  destruct (WakeInit.iwaits (WakeInit.cwrites k) (IRun s ph p)) as [[]|].
  - unfold work, due1. cbn [h_bridge h_due WakeInit.k_state WakeInit.k_runnable]. destruct (connected_work (istep (h_now h) (WakeInit.cwrites k) (IRun s ph p)) rx 0%nat) as [A _]. lia.
  - unfold work, due1. cbn [h_bridge h_due WakeInit.k_state WakeInit.k_runnable]. destruct (connected_work (istep (h_now h) (WakeInit.cwrites k) (IRun s ph p)) rx 0%nat) as [A _]. lia.
  - unfold work, due1. cbn [h_bridge h_due WakeInit.k_state WakeInit.k_runnable]. destruct (connected_work (istep (h_now h) (WakeInit.cwrites k) (IRun s ph p)) rx 1%nat) as [A B].
    specialize (S2 eq_refl). destruct (istep (h_now h) (WakeInit.cwrites k) (IRun s ph p)) as [s2 ph2 p2|p2|e|y] eqn:EI.
    + assert (init_work (IRun s2 ph2 p2) < init_work (IRun s ph p))%nat by (apply S2; left; eauto). lia.
    + assert (init_work (IDone p2) < init_work (IRun s ph p))%nat by (apply S2; right; eauto). lia.
    + rewrite B by discriminate. lia.
    + rewrite B by discriminate. lia.
Qed.
Definition up_left (b : bridge) (d : nat) : nat := match b with Up u => (up_work u + d)%nat | Connecting i rx => (init_work i + 3 * length rx + d)%nat | Dead _ _ => 0%nat end.
Lemma rx_work h u : u_mode u = Selecting -> pinv (u_panel u) -> let '(h1, r) := select_rx cl cfg h u in
  if r then (work h1 < up_work u + 1)%nat else h1 = put (Up u) (world_of h u) true false.
Proof.
  intros M I. unfold select_rx. destruct (u_rx u) as [|[tp pl] rx] eqn:ER; [reflexivity|]. unfold work, due1. cbn [put h_bridge h_due bstep]. rewrite M, ER.
  destruct (requested _ _ _ _ _) as [[c|]|e|y]; unfold up_work; cbn [u_panel u_mode u_rx mode_work]; rewrite ?M, ?ER; cbn [length mode_work]; lia.
Qed.
Lemma panel_step_work h u : u_mode u = Selecting -> pinv (u_panel u) -> let '(h1, r) := select_panel cl cfg h u in
  if r then (work h1 < up_work u + 1)%nat else exists u1, h_bridge h1 = Up u1 /\ (up_work u1 <= up_work u)%nat /\ u_mode u1 = Selecting /\ pinv (u_panel u1) /\ h_due h1 = false.
Proof.
  intros M I. unfold select_panel. cbn [bstep]. rewrite M. pose proof (wstep_call (world_of h u) (WNext TASK)) as C. cbn [call_of step world_of w_panel w_now] in C.
  destruct (poll_next_spec (h_now h) (u_panel u) I) as (p & r & k & E & I1 & _). destruct (next_work _ _ _ _ _ I E) as [W1 W2]. rewrite E in *. cbn [bind] in C. destruct C as (w & ks & -> & EP).
  destruct r as [|[[e|e]|]].
  - eexists. split; [reflexivity|]. split; [unfold up_work; cbn [u_panel u_mode u_rx set_panel]; lia|]. auto.
  - unfold work, due1. cbn [put h_bridge h_due]. destruct (settle_cases (u_log u) (handle_event cl cfg p e) (fun log _ => Up (mkUp p (u_code u) Selecting (u_rx u) log))) as [(l & x & ->)|(l & y & ->)]; [|lia].
    assert (panel_work p < panel_work (u_panel u))%nat by eauto. unfold up_work. cbn [u_panel u_mode u_rx mode_work]. lia.
  - unfold work. cbn [put h_bridge]. lia.
  - unfold work. cbn [put h_bridge]. lia.
Qed.
Lemma select_work first h u : u_mode u = Selecting -> pinv (u_panel u) -> (work (select cl cfg first h u) < up_work u + 1)%nat.
Proof.
  intros M I. unfold select. destruct first.
  - pose proof (panel_step_work h u M I) as P. destruct (select_panel cl cfg h u) as [h1 r]. destruct r; [exact P|]. destruct P as (u1 & EB & L & M1 & I1 & D1). rewrite EB.
    pose proof (rx_work h1 u1 M1 I1) as R. destruct (select_rx cl cfg h1 u1) as [h2 r2]. cbn [fst]. destruct r2; [lia|]. subst h2. unfold work, due1. cbn [put h_bridge h_due]. lia.
  - pose proof (rx_work h u M I) as R. destruct (select_rx cl cfg h u) as [h1 r]. destruct r; [exact R|]. subst h1. cbn [put h_bridge].
    pose proof (panel_step_work (put (Up u) (world_of h u) true false) u M I) as P. destruct (select_panel cl cfg _ u) as [h2 r2]. cbn [fst]. destruct r2; [exact P|].
    destruct P as (u1 & EB & L & _ & _ & D1). unfold work, due1. rewrite EB, D1. lia.
Qed.
Lemma flushing_work u w ws w' r : pinv (w_panel w) -> u_panel u = w_panel w -> ws = writes w -> run_flush w = (w', r) ->
  (up_left (poll_send_flush ws u) (if r then 1 else 0) <= panel_work (u_panel u) + 3 * length (u_rx u) + 1)%nat.
Proof.
  intros I EP -> E. unfold run_flush in E. pose proof (wstep_call w (WFlush TASK)) as C. cbn [call_of step] in C. unfold poll_send_flush. rewrite EP.
  destruct (poll_flush (writes w) (w_panel w)) as [p q] eqn:EF. destruct C as (w1 & ks & C & EQ). rewrite C in E.
  destruct (poll_flush_spec _ _ _ _ EF I) as (_ & S & _). destruct q as [|[[]|e]]; injection E as <- <-; cbn [up_left]; unfold up_work; cbn [set_mode set_panel u_panel u_mode u_rx mode_work]; rewrite ?(sink_work _ _ S); lia.
Qed.
Lemma send_work h u w r : sound cl cfg h -> h_bridge h = Up u -> u_mode u <> Selecting -> run_send (world_of h u) (u_mode u) = (w, r) ->
  (up_left (bstep cl cfg (Up u) (PollSend (writes (world_of h u)))) (if r then 1 else 0) < up_work u + 1)%nat.
Proof.
  intros SO EB NS. destruct (sound_up _ _ _ _ SO EB) as [I W]. unfold up_work. cbn [bstep]. destruct (u_mode u) as [|c|] eqn:EM; [congruence| |]; cbn [run_send mode_work].
  - pose proof (wstep_call (world_of h u) (WReady TASK)) as C. cbn [call_of step] in C. change (w_panel (world_of h u)) with (u_panel u) in C.
    destruct (poll_ready TASK (writes (world_of h u)) (u_panel u)) as [p q] eqn:ER. destruct C as (w1 & ks & C & EQ). rewrite C. destruct (poll_ready_spec _ _ _ _ _ ER I) as (_ & S & _ & PR).
    destruct q as [|[[]|e]].
    + intros [= <- <-]. cbn [up_left]. unfold up_work. cbn [set_panel u_panel u_mode u_rx]. rewrite EM, (sink_work _ _ S). cbn [mode_work]. lia.
    + assert (EI : cmd_state (u_panel u) = Idle /\ p = u_panel u) by (destruct (cmd_state (u_panel u)); [tauto | destruct PR as [PR _]; congruence]). destruct EI as [EI ->].
      pose proof (start_send_spec c (u_panel u) I (W c eq_refl)) as SS. rewrite EI in SS. destruct SS as (p2 & f & E2 & I2 & S2 & _ & _ & ES & _).
      assert (EW : writes w1 = writes (world_of h u)).
      { cbn [wstep] in C. unfold poll_ready_cx in C. cbn [world_of w_panel] in C. rewrite EI in C. injection C as <- _. apply (sunk_writes (world_of h u)). reflexivity. }
      cbn [wstep]. rewrite EQ, E2. cbn [bind]. intros EF.
      pose proof (flushing_work (set_panel u p2) (sunk w1 p2 (w_regs w1)) (writes (world_of h u)) w r I2 eq_refl) as FW. rewrite <- EW in FW. specialize (FW ltac:(symmetry; apply sunk_writes; rewrite EQ; exact ES) EF).
      rewrite EW in FW. cbn [set_panel u_panel u_rx] in FW. rewrite (sink_work _ _ S2) in FW. lia.
    + intros [= <- <-]. cbn [up_left]. lia.
  - intros EF. pose proof (flushing_work u (world_of h u) (writes (world_of h u)) w r I eq_refl eq_refl EF). lia.
Qed.
Lemma run_work h first : sound cl cfg h -> needed h (HRun first) = true -> (work (hstep cl cfg h (HRun first)) < work h)%nat.
Proof.
  intros SO N. unfold hstep. cbn [needed] in N. destruct (h_bridge h) as [i rx|u|l y] eqn:EB; [apply connect_work; assumption| |discriminate N].
  rewrite N. assert (EW : work h = (up_work u + 1)%nat) by (unfold work, due1; rewrite EB, N; reflexivity). rewrite EW. destruct (sound_up _ _ _ _ SO EB) as [I _].
  assert (S : u_mode u <> Selecting -> (work (let '(w, r) := run_send (world_of h u) (u_mode u) in put (bstep cl cfg (Up u) (PollSend (writes (world_of h u)))) w (h_chan h) r) < up_work u + 1)%nat).
  { intros NS. destruct (run_send (world_of h u) (u_mode u)) as [w r] eqn:ER. pose proof (send_work h u w r SO EB NS ER) as L. unfold work, due1. cbn [put h_bridge h_due].
    destruct (bstep cl cfg (Up u) (PollSend (writes (world_of h u)))); exact L. }
  destruct (u_mode u) eqn:EM; [apply select_work; assumption | apply S; discriminate..].
Qed.
Lemma idle_run h first : sound cl cfg h -> needed h (HRun first) = false ->
  h_bridge (hstep cl cfg h (HRun first)) = h_bridge h /\ h_due (hstep cl cfg h (HRun first)) = h_due h.
Proof.
  intros SO N. unfold hstep. cbn [needed] in N. destruct (h_bridge h) as [i rx|u|l y] eqn:EB; [|rewrite N, EB; auto | auto].
  destruct (sound_connecting _ _ _ _ _ SO EB) as [_ (s & ph & p & ->)]. unfold connect_step, client_of. cbn [WakeInit.cstep]. rewrite N. split; reflexivity.
Qed.
Lemma same_work h h' : h_bridge h' = h_bridge h -> h_due h' = h_due h -> work h' = work h.
Proof. unfold work, due1. intros -> ->. reflexivity. Qed.
Lemma due_le h : (due1 h <= 1)%nat.
Proof. unfold due1. destruct (h_due h); lia. Qed.
Definition brought (a : hact) : nat :=
  match a with HArrive x => 4 * length (arrival_data x) + 1 | HMqtt _ _ => 4 | HRun _ => 0 | _ => 1 end%nat.
Lemma other_work h a : sound cl cfg h -> hact_ok a -> match a with HRun _ => False | _ => True end -> (work (hstep cl cfg h a) <= work h + brought a)%nat.
Proof.
  intros SO O NR. pose proof (due_le h). pose proof (due_le (hstep cl cfg h a)).
  assert (SB : h_bridge (hstep cl cfg h a) = h_bridge h -> (1 <= brought a)%nat -> (work (hstep cl cfg h a) <= work h + brought a)%nat).
  { intros E L. unfold work. rewrite E. destruct (h_bridge h); lia. }
  destruct a as [x|n|e|d|tp pl| | |first]; try contradiction.
  - pose proof (arrive_bridge cl cfg h x SO O) as E. unfold work at 1. rewrite E. unfold work. destruct (h_bridge h) as [i rx|u|l y] eqn:EB; cbn [bstep brought].
    + destruct (sound_connecting _ _ _ _ _ SO EB) as [_ (s & ph & p & ->)]. cbn [iarrive init_work]. unfold panel_work, held. cbn [p_conn with_conn pending_arm]. rewrite arrive_unread, app_length. lia.
    + unfold up_work, panel_work, held. cbn [set_panel u_panel u_mode u_rx p_conn with_conn pending_arm]. rewrite arrive_unread, app_length. lia.
    + lia.
  - apply SB; [apply aside_bridge; eauto | cbn; lia].
  - apply SB; [|cbn; lia]. unfold hstep. destruct (h_bridge h) as [i rx|u|l y] eqn:EB; [| |exact EB].
    + destruct (sound_connecting _ _ _ _ _ SO EB) as [_ (s & ph & p & ->)]. reflexivity.
    + unfold outside. cbn [wstep]. cbn [put h_bridge w_panel]. cbn [world_of w_panel]. rewrite set_panel_same. reflexivity.
  - apply SB; [apply aside_bridge; eauto | cbn; lia].
  - pose proof (mqtt_bridge cl cfg h tp pl) as E. unfold work at 1. rewrite E. unfold work. destruct (h_bridge h) as [i rx|u|l y] eqn:EB; cbn [bstep brought].
    + rewrite app_length. cbn [length]. lia.
    + unfold up_work. cbn [u_panel u_mode u_rx]. rewrite app_length. cbn [length]. lia.
    + lia.
  - unfold hstep, work at 1. destruct (h_bridge h) as [i rx|u|l y] eqn:EB; cbn [h_bridge bstep]; rewrite ?EB; lia.
  - apply SB; [apply aside_bridge; auto | cbn; lia].
Qed.
Lemma total_work l : forall h, sound cl cfg h -> Forall hact_ok l ->
  (runs_needed cl cfg h l + work (fold_left (hstep cl cfg) l h) <= work h + 4 * length (h_bytes l) + 3 * length (h_mail l) + happenings l)%nat.
Proof.
  induction l as [|a l IH]; intros h SO F; [cbn; lia|]. inversion F as [|? ? Fa Fl]; subst. cbn [runs_needed fold_left].
  specialize (IH (hstep cl cfg h a) (hstep_sound _ _ _ _ Fa SO) Fl).
  assert (B : (4 * length (h_bytes (a :: l)) + 3 * length (h_mail (a :: l)) + happenings (a :: l) = brought a + (4 * length (h_bytes l) + 3 * length (h_mail l) + happenings l))%nat).
  { unfold h_bytes, h_mail, happenings. cbn [map concat]. rewrite app_length. destruct a; cbn [catMaybes filter length brought]; lia. }
  destruct (needed h a) eqn:N.
  - destruct a; try discriminate N. pose proof (run_work h first SO N). cbn [brought] in B. lia.
  - destruct a as [x|n|e|d|tp pl| | |first].
    all: try (pose proof (other_work h _ SO Fa Logic.I); lia).
    destruct (idle_run h first SO N) as [E1 E2]. pose proof (same_work h _ E1 E2). lia.
Qed.
End Work.

(* However long it goes on, the task is run no more often than there is cause for: three times to begin with, four times for every byte the
   panel sends, three times for every publish, and once for everything that happens. *)
Theorem C101_few_runs : forall cl cfg l, Forall hact_ok l ->
  (runs_needed cl cfg host_new l <= 3 + 4 * length (h_bytes l) + 3 * length (h_mail l) + happenings l)%nat.
Proof. intros cl cfg l F. pose proof (total_work cl cfg l host_new (sound_new cl cfg) F) as T. change (work host_new) with 3%nat in T. lia. Qed.
(* So it comes to rest: after that many runs with nothing happening in between it has ended, or is not due and stays so. *)
Theorem C101_comes_to_rest : forall cl cfg l fs, Forall hact_ok l ->
  (4 * bytes_left (hrun cl cfg l) + 3 * mail_left (hrun cl cfg l) + 4 <= length fs)%nat ->
  let h := hrun cl cfg (l ++ map HRun fs) in ended h \/ h_due h = false /\ nothing_to_do h.
Proof.
  intros cl cfg l fs F L. cbv zeta. assert (F2 : Forall hact_ok (l ++ map HRun fs)) by (apply Forall_app; split; [exact F | apply Forall_map; apply Forall_forall; intros; exact Logic.I]).
  destruct (hrun_hinv cl cfg _ F2) as [SO2 Q2]. destruct (hrun_hinv cl cfg l F) as [SO _].
  enough (X : ended (hrun cl cfg (l ++ map HRun fs)) \/ h_due (hrun cl cfg (l ++ map HRun fs)) = false).
  { destruct X as [X|X]; [auto|]. right. split; [exact X|]. eapply quiet_nothing; eauto. }
  clear SO2 Q2. unfold hrun in *. rewrite fold_left_app. assert (W : (work (fold_left (hstep cl cfg) l host_new) <= length fs)%nat).
  { revert L SO. generalize (fold_left (hstep cl cfg) l host_new). intros h L SO. pose proof (due_le h). unfold work, bytes_left, mail_left in *. destruct (h_bridge h) as [i rx|u|lg y] eqn:EB; [| |lia].
    - destruct (sound_connecting _ _ _ _ _ SO EB) as [_ (s & ph & p & ->)]. unfold init_work, panel_work. pose proof (held_le p). destruct ph; cbn [phase_work]; lia.
    - unfold up_work, panel_work. pose proof (held_le (u_panel u)). destruct (u_mode u); cbn [mode_work]; lia. }
  clear L F F2. revert W SO. generalize (fold_left (hstep cl cfg) l host_new). induction fs as [|f fs IH]; intros h W SO; cbn [map fold_left length] in *.
  - unfold work, due1 in W. destruct (h_bridge h) as [i rx|u|lg y] eqn:EB; [| |left; exists lg, y; exact EB]; right; destruct (h_due h); lia || reflexivity.
  - assert (SO' : sound cl cfg (hstep cl cfg h (HRun f))) by (apply hstep_sound; [exact Logic.I | exact SO]). destruct (needed h (HRun f)) eqn:N.
    + apply IH; [|exact SO']. pose proof (run_work cl cfg h f SO N). lia.
    + assert (X : forall gs h0, sound cl cfg h0 -> h_bridge h0 = h_bridge h /\ h_due h0 = h_due h -> h_bridge (fold_left (hstep cl cfg) (map HRun gs) h0) = h_bridge h /\ h_due (fold_left (hstep cl cfg) (map HRun gs) h0) = h_due h).
      { induction gs as [|g gs IG]; intros h0 S0 [E1 E2]; [auto|]. cbn [map fold_left]. apply IG; [apply hstep_sound; [exact Logic.I | exact S0]|].
        assert (N0 : needed h0 (HRun g) = false) by (cbn [needed] in *; rewrite E1, E2; exact N). destruct (idle_run cl cfg h0 g S0 N0) as [-> ->]. auto. }
      destruct (X (f :: fs) h SO (conj eq_refl eq_refl)) as [E1 E2]. cbn [map fold_left] in E1, E2. rewrite E2. cbn [needed] in N. unfold ended. rewrite E1. destruct (h_bridge h); eauto.
Qed.

(* A zone changes and arming away is asked for before the task has been run at all.  Three runs write the first request and take up the
   zone's report; the fourth finds nothing more to do. *)
Definition ex_before : list hact := [HArrive (Bytes (bytes_of ex_extra)); HRoom 30; HMqtt ex_topic (B "ARM_AWAY")].
Example C101_example : Forall hact_ok ex_before /\ bytes_left (hrun ex_cl ex_cfg ex_before) = 14%nat /\ mail_left (hrun ex_cl ex_cfg ex_before) = 1%nat /\
  let l := ex_before ++ map HRun (repeat true 63) in
  runs_needed ex_cl ex_cfg host_new l = 4%nat /\ h_due (hrun ex_cl ex_cfg l) = false /\ bytes_left (hrun ex_cl ex_cfg l) = 0%nat /\ mail_left (hrun ex_cl ex_cfg l) = 1%nat.
Proof. split; [repeat constructor; vm_compute; discriminate|]. vm_compute. auto 10. Qed.

Print Assumptions C101_few_runs.
Print Assumptions C101_comes_to_rest.
