(* PropWake.v: theorems C77 and C78: a task that was told to wait is woken when it can go on. *)
From Verif Require Import Base BaseFacts Pkt SpecPkt PktFacts DecodeFacts Msg SpecMsg DecFacts MsgFacts WireFacts IsoFacts
  Tokio SpecConn ConnFacts State SpecState StateFacts RunFacts HistFacts ExState PropState PropSink Wake.
From Coq Require Import ZifyBool ZifyNat ZifyN.
Ltac Zify.zify_post_hook ::= Z.div_mod_to_equations.

(* ---- vocabulary ---- *)
Definition act_ok (a : act) : Prop :=
  match a with WArrive x => arrival_u8 x | WSend c => wf_message (into_msg c) | _ => True end.
Definition receives_next (a : act) : bool := match a with WNext _ => true | _ => false end.
Definition polls_sink (a : act) : bool := match a with WReady _ | WFlush _ | WClose _ => true | _ => false end.

(* ---- the calls with wakers are the calls without ---- *)
Lemma poll_next_cx_forget t now p g :
  poll_next now p = (' (p', r, k, _) <- poll_next_cx t now p g ;; Ok (p', r, k)).
Proof.
  unfold poll_next_cx, conn_poll_next_cx, poll_next. destruct (conn_poll_next (p_conn p)) as [[c r]|e|w]; cbn [bind]; try reflexivity.
  destruct r as [|[[pkt|e]|]]; cbn [with_conn pending_arm p_state s_arming]; try reflexivity.
  - destruct (pending_arm p) as [[d m]|]; [|reflexivity]. destruct (d <=? now); [|reflexivity]. destruct (s_arming (p_state p)); reflexivity.
  - destruct (interpret now (with_conn p c) pkt) as [[[p' e] k]|e|w]; reflexivity.
Qed.
Lemma poll_ready_cx_forget t ws p g : let '(p', r, _) := poll_ready_cx t ws p g in poll_ready t ws p = (p', r).
Proof.
  unfold poll_ready_cx, poll_ready, conn_poll_flush_cx. destruct (cmd_state p) as [|q [] k]; try reflexivity.
  destruct (conn_poll_flush (p_conn p) ws) as [[c ws'] [|[[]|e]]]; reflexivity.
Qed.
Lemma panel_flush_cx_forget t ws p g : let '(p', ws', r, _) := panel_flush_cx t ws p g in panel_flush ws p = (p', ws', r).
Proof.
  unfold panel_flush_cx, panel_flush, conn_poll_flush_cx. destruct (cmd_state p) as [|q [] k]; try reflexivity.
  destruct (conn_poll_flush (p_conn p) ws) as [[c ws'] [|[[]|e]]]; reflexivity.
Qed.
Lemma poll_flush_cx_forget t ws p g : let '(p', r, _) := poll_flush_cx t ws p g in poll_flush ws p = (p', r).
Proof.
  unfold poll_flush_cx, poll_flush. pose proof (panel_flush_cx_forget t ws p g) as F.
  destruct (panel_flush_cx t ws p g) as [[[p' ws'] r] g']. rewrite F. reflexivity.
Qed.
Lemma poll_close_cx_forget t ws p g : let '(p', r, _) := poll_close_cx t ws p g in poll_close ws p = (p', r).
Proof.
  unfold poll_close_cx, poll_close. pose proof (panel_flush_cx_forget t ws p g) as F.
  destruct (panel_flush_cx t ws p g) as [[[p' ws'] r] g']. rewrite F. destruct r as [|[[]|e]]; try reflexivity.
  unfold conn_poll_close_cx, conn_poll_flush_cx, conn_poll_close. destruct (conn_poll_flush (p_conn p') ws') as [[c ws2] r2]. reflexivity.
Qed.

(* the call that a step makes *)
Definition call_of (w : world) (a : act) : option op :=
  match a with
  | WArrive x => Some (Arrive x)
  | WRoom _ | WBreak _ | WWait _ => None
  | WNext _ => Some (PollNext (w_now w))
  | WReady t => Some (PollReady t (writes w))
  | WSend c => Some (StartSend c)
  | WFlush _ => Some (PollFlush (writes w))
  | WClose _ => Some (PollClose (writes w))
  end.
Lemma wstep_call w a : match call_of w a with
  | None => exists w' k, wstep w a = Ok (w', ONone, k) /\ w_panel w' = w_panel w
  | Some o => match step (w_panel w) o with
      | Ok (p, b) => exists w' k, wstep w a = Ok (w', b, k) /\ w_panel w' = p
      | Err e => wstep w a = Err e
      | Panic y => wstep w a = Panic y
      end
  end.
Proof.
  destruct a as [x|n|e|d|t|t|c|t|t]; cbn [call_of step wstep].
  - eexists _, _. split; reflexivity.
  - destruct n; eexists _, _; split; reflexivity.
  - eexists _, _. split; reflexivity.
  - destruct (pending_arm (w_panel w)) as [[dl m]|]; [destruct (dl <=? w_now w + d)|]; eexists _, _; split; reflexivity.
  - rewrite (poll_next_cx_forget t (w_now w) (w_panel w) (w_regs w)).
    destruct (poll_next_cx t (w_now w) (w_panel w) (w_regs w)) as [[[[p r] k] g]|e|y]; cbn [bind]; try reflexivity. eexists _, _. split; reflexivity.
  - pose proof (poll_ready_cx_forget t (writes w) (w_panel w) (w_regs w)) as F.
    destruct (poll_ready_cx t (writes w) (w_panel w) (w_regs w)) as [[p r] g]. rewrite F. eexists _, _. split; reflexivity.
  - destruct (start_send c (w_panel w)) as [p|e|y]; cbn [bind]; try reflexivity. eexists _, _. split; reflexivity.
  - pose proof (poll_flush_cx_forget t (writes w) (w_panel w) (w_regs w)) as F.
    destruct (poll_flush_cx t (writes w) (w_panel w) (w_regs w)) as [[p r] g]. rewrite F. eexists _, _. split; reflexivity.
  - pose proof (poll_close_cx_forget t (writes w) (w_panel w) (w_regs w)) as F.
    destruct (poll_close_cx t (writes w) (w_panel w) (w_regs w)) as [[p r] g]. rewrite F. eexists _, _. split; reflexivity.
Qed.
Lemma wstep_inv w a w' b k : wstep w a = Ok (w', b, k) ->
  match call_of w a with
  | None => b = ONone /\ w_panel w' = w_panel w
  | Some o => step (w_panel w) o = Ok (w_panel w', b)
  end.
Proof.
  intros E. pose proof (wstep_call w a) as C. destruct (call_of w a) as [o|].
  - destruct (step (w_panel w) o) as [[p b']|e|y]; [|congruence|congruence]. destruct C as (w2 & k2 & C & D). rewrite E in C. injection C as <- <- <-. congruence.
  - destruct C as (w2 & k2 & C & D). rewrite E in C. injection C as <- <- <-. auto.
Qed.
Lemma call_ok w a o : call_of w a = Some o -> act_ok a -> op_ok o.
Proof. destruct a; cbn; intros [= <-]; auto; exact I. Qed.
Lemma wstep_pinv w a w' b k : wstep w a = Ok (w', b, k) -> act_ok a -> pinv (w_panel w) -> pinv (w_panel w').
Proof.
  intros E O I. pose proof (wstep_inv _ _ _ _ _ E) as S. destruct (call_of w a) as [o|] eqn:C.
  - destruct (step_inv _ _ _ _ I (call_ok _ _ _ C O) S) as [H _]. exact H.
  - destruct S as [_ ->]. exact I.
Qed.
(* so panels stay reachable *)
Lemma wrun_reachable h : forall w w' bs ks, reachable (w_panel w) -> Forall act_ok h -> wrun w h = Ok (w', bs, ks) -> reachable (w_panel w').
Proof.
  induction h as [|a h IH]; intros w w' bs ks R HO E; cbn [wrun] in E; [injection E as <- <- <-; exact R|].
  apply bind_inv in E as ([[w1 b] k] & E1 & E). apply bind_inv in E as ([[w2 bs'] ks'] & E2 & E). injection E as <- <- <-.
  inversion HO as [|? ? HO1 HO2]; subst. refine (IH _ _ _ _ _ HO2 E2).
  pose proof (wstep_inv _ _ _ _ _ E1) as S. destruct (call_of w a) as [o|] eqn:C.
  - eapply reachable_step; eauto using call_ok.
  - destruct S as [_ ->]. exact R.
Qed.
(* induction over the steps of a run that do not wake t *)
Lemma wrun_keep (ok : act -> bool) (P : world -> Prop) t :
  (forall w a w' b k, pinv (w_panel w) -> P w -> act_ok a -> ok a = true -> wstep w a = Ok (w', b, k) -> ~ In t k -> P w') ->
  forall h w w' bs ks, pinv (w_panel w) -> P w -> Forall act_ok h -> forallb ok h = true -> wrun w h = Ok (w', bs, ks) -> ~ In t ks ->
  pinv (w_panel w') /\ P w'.
Proof.
  intros S h. induction h as [|a h IH]; intros w w' bs ks I Pw HO NK E NW; cbn [wrun] in E; [injection E as <- <- <-; auto|].
  apply bind_inv in E as ([[w1 b] k] & E1 & E). apply bind_inv in E as ([[w2 bs'] ks'] & E2 & E). injection E as <- <- <-.
  inversion HO as [|? ? HO1 HO2]; subst. cbn in NK. apply andb_prop in NK as [NK1 NK2]. rewrite in_app_iff in NW.
  eapply (IH w1); eauto. eapply wstep_pinv; eauto.
Qed.

(* ---- C77 ---- *)
(* nothing to read, the socket will wake t when there is, and so will the timer if a report is held *)
Definition asleep (t : nat) (w : world) : Prop :=
  g_read (w_regs w) = Some t /\
  (has_errored (p_conn (w_panel w)) = false /\ is_readable (p_conn (w_panel w)) = false /\ rq (p_conn (w_panel w)) = [] /\
   peer_closed (p_conn (w_panel w)) = false) /\
  match pending_arm (w_panel w) with Some (d, _) => w_now w < d /\ g_timer (w_regs w) = Some t | None => True end.
Lemma nexts_pending_after c c' : nexts c c' Pending ->
  has_errored c' = false /\ is_readable c' = false /\ rq c' = [] /\ peer_closed c' = false.
Proof. intros X. remember Pending as r eqn:Er. induction X; try discriminate Er; auto. Qed.
Lemma nexts_idle c c' r : nexts c c' r -> has_errored c = false -> is_readable c = false -> rq c = [] -> peer_closed c = false -> r = Pending.
Proof.
  intros X HE HR HQ HP. destruct X as [c H|c p rest _ H _|c _ H _ _|c _ H _ _ _|c _ _ _ _ _|c e q _ _ _ H|c q _ _ _ _ [H|(_ & H & _)]|c q c' r _ _ _ [H|(_ & H & _)] _|c x b q c' r _ _ _ H _]; congruence.
Qed.
Lemma wnext_pending t w w' k ks : pinv (w_panel w) -> wstep w (WNext t) = Ok (w', ONext Pending k, ks) -> asleep t w'.
Proof.
  intros I E. cbn [wstep] in E. apply bind_inv in E as ([[[p r] k'] g'] & E1 & E). injection E as <- -> -> <-.
  unfold poll_next_cx, conn_poll_next_cx in E1. destruct (conn_poll_next (p_conn (w_panel w))) as [[c rc]|e|y] eqn:EC; cbn [bind] in E1; try discriminate E1.
  pose proof (conn_next_nexts _ _ _ ltac:(apply I) EC) as X.
  destruct rc as [|[[pkt|e]|]]; try discriminate E1.
  - pose proof (nexts_pending_after _ _ X) as Q. cbn [with_conn pending_arm p_state] in E1. unfold asleep. cbn [w_panel w_regs w_now].
    destruct (pending_arm (w_panel w)) as [[d m]|] eqn:EP.
    + destruct (d <=? w_now w) eqn:ED; [destruct (s_arming (p_state (w_panel w))); discriminate E1|]. injection E1 as <- <- <-. cbn [with_conn p_conn pending_arm].
      rewrite EP. split; [reflexivity|]. split; [exact Q|]. split; [lia | reflexivity].
    + injection E1 as <- <- <-. cbn [with_conn p_conn pending_arm]. rewrite EP. auto.
  - apply bind_inv in E1 as ([[p' e'] k''] & _ & E1). discriminate E1.
Qed.
Lemma asleep_step t w a w' b k : pinv (w_panel w) -> asleep t w -> act_ok a -> negb (receives_next a) = true ->
  wstep w a = Ok (w', b, k) -> ~ In t k -> asleep t w'.
Proof.
  intros I (A1 & A2 & A3) O NN E NW.
  assert (Sink : forall p g, sink_only (w_panel w) p -> g_read g = g_read (w_regs w) -> g_timer g = g_timer (w_regs w) -> asleep t (sunk w p g)).
  { intros p g (_ & SA & (_ & _ & S3 & S4 & S5 & S6) & _) G1 G2. unfold asleep, sunk. cbn [w_panel w_regs w_now].
    rewrite SA, S3, S4, S5, S6, G1, G2. auto. }
  destruct a as [x|n|e|d|t'|t'|c|t'|t']; cbn [wstep] in E; try discriminate NN.
  - injection E as <- <- <-. rewrite A1 in NW. destruct NW. left. reflexivity.
  - destruct n; injection E as <- <- <-; split; auto.
  - injection E as <- <- <-. split; auto.
  - destruct (pending_arm (w_panel w)) as [[dl m]|] eqn:EP.
    + destruct (dl <=? w_now w + d) eqn:ED; injection E as <- <- <-.
      * destruct A3 as [_ A3]. rewrite A3 in NW. destruct NW. left. reflexivity.
      * unfold asleep. cbn [w_panel w_regs w_now]. rewrite EP. split; [exact A1|]. split; [exact A2|]. split; [lia | apply A3].
    + injection E as <- <- <-. unfold asleep. cbn [w_panel w_regs w_now]. rewrite EP. auto.
  - pose proof (poll_ready_cx_forget t' (writes w) (w_panel w) (w_regs w)) as F.
    destruct (poll_ready_cx t' (writes w) (w_panel w) (w_regs w)) as [[p r] g] eqn:EX. injection E as <- <- <-.
    destruct (poll_ready_spec _ _ _ _ _ F I) as (_ & S & _). apply Sink; [exact S | |]; clear - EX; unfold poll_ready_cx, conn_poll_flush_cx in EX;
      destruct (cmd_state (w_panel w)) as [|q [] k]; try (injection EX as <- <- <-; reflexivity);
      destruct (conn_poll_flush _ _) as [[c ws'] [|[[]|e]]]; injection EX as <- <- <-; reflexivity.
  - apply bind_inv in E as (p & E1 & E). injection E as <- <- <-. apply Sink; auto.
    pose proof (start_send_spec c (w_panel w) I O) as S. destruct (cmd_state (w_panel w)) as [|q f kk].
    + destruct S as (p' & f & E2 & _ & S & _). rewrite E1 in E2. injection E2 as <-. exact S.
    + destruct S as (why & S). congruence.
  - pose proof (poll_flush_cx_forget t' (writes w) (w_panel w) (w_regs w)) as F.
    destruct (poll_flush_cx t' (writes w) (w_panel w) (w_regs w)) as [[p r] g] eqn:EX. injection E as <- <- <-.
    destruct (poll_flush_spec _ _ _ _ F I) as (_ & S & _). apply Sink; [exact S | |]; clear - EX; unfold poll_flush_cx, panel_flush_cx, conn_poll_flush_cx in EX;
      destruct (cmd_state (w_panel w)) as [|q [] k]; try (injection EX as <- <- <-; reflexivity);
      destruct (conn_poll_flush _ _) as [[c ws'] [|[[]|e]]]; injection EX as <- <- <-; reflexivity.
  - pose proof (poll_close_cx_forget t' (writes w) (w_panel w) (w_regs w)) as F.
    destruct (poll_close_cx t' (writes w) (w_panel w) (w_regs w)) as [[p r] g] eqn:EX. injection E as <- <- <-.
    destruct (poll_close_spec _ _ _ _ F I) as (_ & S & _). apply Sink; [exact S | |]; clear - EX;
      unfold poll_close_cx, panel_flush_cx, conn_poll_close_cx, conn_poll_flush_cx in EX;
      destruct (cmd_state (w_panel w)) as [|q [] k];
      repeat match type of EX with context [conn_poll_flush ?c ?ws] => destruct (conn_poll_flush c ws) as [[? ?] [|[[]|?]]] end;
      injection EX as <- <- <-; reflexivity.
Qed.
Lemma asleep_next t w : pinv (w_panel w) -> asleep t w -> exists w', wstep w (WNext t) = Ok (w', ONext Pending None, []).
Proof.
  intros I (A1 & (Q1 & Q2 & Q3 & Q4) & A3). cbn [wstep]. unfold poll_next_cx, conn_poll_next_cx.
  destruct (conn_next_total _ (proj1 I)) as (c & r & -> & X). rewrite (nexts_idle _ _ _ X Q1 Q2 Q3 Q4). cbn [bind with_conn pending_arm].
  destruct (pending_arm (w_panel w)) as [[d m]|]; [|eexists; reflexivity].
  destruct (d <=? w_now w) eqn:ED; [lia|]. eexists. reflexivity.
Qed.
(* A task that poll_next told to wait and that has not been woken since would be told to wait again: nothing that it could be
   told has come up without its being woken.  In particular everything that has arrived has been reported, the connection is
   open, and a report that is held is held for less than five seconds. *)
Theorem C77_receiver_is_woken : forall w t w1 k ks h w2 bs ks',
  reachable (w_panel w) -> wstep w (WNext t) = Ok (w1, ONext Pending k, ks) ->
  Forall act_ok h -> forallb (fun a => negb (receives_next a)) h = true -> wrun w1 h = Ok (w2, bs, ks') -> ~ In t ks' ->
  (exists w3, wstep w2 (WNext t) = Ok (w3, ONext Pending None, [])) /\
  decode (unread (p_conn (w_panel w2))) = Ok (None, unread (p_conn (w_panel w2))) /\
  peer_closed (p_conn (w_panel w2)) = false /\
  match pending_arm (w_panel w2) with Some (d, _) => w_now w2 < d | None => True end.
Proof.
  intros w t w1 k ks h w2 bs ks' R E1 HO NN E2 NW. destruct (reachable_inv _ R) as [I _].
  pose proof (wnext_pending _ _ _ _ _ I E1) as A. pose proof (wstep_pinv _ _ _ _ _ E1 Logic.I I) as I1.
  destruct (wrun_keep (fun a => negb (receives_next a)) (asleep t) t (asleep_step t) h w1 w2 bs ks' I1 A HO NN E2 NW) as [I2 A2].
  split; [apply asleep_next; auto|]. destruct A2 as (_ & (Q1 & Q2 & Q3 & Q4) & A3). split; [|split; [exact Q4|]].
  - unfold unread. rewrite Q3. cbn. rewrite app_nil_r. apply I2. auto.
  - destruct (pending_arm (w_panel w2)) as [[d m]|]; [apply A3 | exact Logic.I].
Qed.
(* What wakes it: anything that arrives, and the end of the five seconds. *)
Theorem C77_arrival_wakes : forall w t w1 k ks h w2 bs ks' x,
  reachable (w_panel w) -> wstep w (WNext t) = Ok (w1, ONext Pending k, ks) ->
  Forall act_ok h -> forallb (fun a => negb (receives_next a)) h = true -> wrun w1 h = Ok (w2, bs, ks') -> ~ In t ks' ->
  (exists w3, wstep w2 (WArrive x) = Ok (w3, ONone, [t])) /\
  (forall d m dt, pending_arm (w_panel w2) = Some (d, m) ->
     exists w3, wstep w2 (WWait dt) = Ok (w3, ONone, if d <=? w_now w2 + dt then [t] else [])).
Proof.
  intros w t w1 k ks h w2 bs ks' x R E1 HO NN E2 NW. destruct (reachable_inv _ R) as [I _].
  pose proof (wnext_pending _ _ _ _ _ I E1) as A. pose proof (wstep_pinv _ _ _ _ _ E1 Logic.I I) as I1.
  destruct (wrun_keep (fun a => negb (receives_next a)) (asleep t) t (asleep_step t) h w1 w2 bs ks' I1 A HO NN E2 NW) as [I2 (A1 & A2 & A3)].
  split.
  - cbn [wstep]. rewrite A1. eexists. reflexivity.
  - intros d m dt EP. cbn [wstep]. rewrite EP in *. destruct A3 as [_ A3]. rewrite A3. destruct (d <=? w_now w2 + dt); eexists; reflexivity.
Qed.

(* ---- C78 ---- *)
(* bytes wait in Panel's buffer, the socket takes none, and it will wake t when it does *)
Definition blocked (t : nat) (w : world) : Prop :=
  g_write (w_regs w) = Some t /\ w_broken w = None /\ w_room w = 0%nat /\ wbuf (p_conn (w_panel w)) <> [].
(* everything is written, and the reply will wake t *)
Definition parked (t : nat) (w : world) : Prop := exists q, cmd_state (w_panel w) = Busy q true (Some t).
Lemma flush_pending w buf out buf' out' ws' : framed_flush (writes w) buf out = (buf', out', ws', Pending) ->
  w_broken w = None /\ buf' <> [] /\ length out' = (length out + w_room w)%nat.
Proof.
  unfold writes. destruct buf as [|x buf]; [destruct (w_broken w), (w_room w); discriminate|]. destruct (w_broken w); [discriminate|].
  destruct (w_room w) as [|n]; cbn [framed_flush].
  - intros [= <- <- <-]. split; [reflexivity|]. split; [discriminate | lia].
  - destruct (skipn (S n) (x :: buf)) as [|y rest] eqn:ES; cbn [framed_flush]; [discriminate|]. intros [= <- <- <-].
    split; [reflexivity|]. split; [discriminate|].
    assert (L : length (skipn (S n) (x :: buf)) = S (length rest)) by (rewrite ES; reflexivity). rewrite skipn_length in L.
    assert (L1 : length (firstn (S n) (x :: buf)) = S n) by (rewrite firstn_length; lia). cbn [firstn] in L1. rewrite app_length, L1. reflexivity.
Qed.
Lemma conn_flush_pending w c c' ws' : conn_poll_flush c (writes w) = (c', ws', Pending) ->
  w_broken w = None /\ wbuf c' <> [] /\ length (sent c') = (length (sent c) + w_room w)%nat.
Proof.
  unfold conn_poll_flush. destruct (framed_flush (writes w) (wbuf c) (sent c)) as [[[b o] s] r] eqn:E. intros [= <- <- ->].
  cbn [set_write wbuf sent]. eapply flush_pending. exact E.
Qed.
Lemma conn_flush_blocked t w c : blocked t w -> c = p_conn (w_panel w) -> exists c', conn_poll_flush c (writes w) = (c', [], Pending).
Proof.
  intros (_ & B2 & B3 & B4) ->. unfold conn_poll_flush, writes. rewrite B2, B3. destruct (wbuf (p_conn (w_panel w))); [congruence|]. eexists. reflexivity.
Qed.
Definition blocks (t : nat) (w : world) (p : Panel) (g : regs) : Prop := blocked t (sunk w p g).
Lemma blocks_intro t w p g c ws' : conn_poll_flush (p_conn (w_panel w)) (writes w) = (c, ws', Pending) ->
  p = with_conn (w_panel w) c -> g = set_writer (w_regs w) t -> blocked t (sunk w p g).
Proof.
  intros E -> ->. destruct (conn_flush_pending _ _ _ _ E) as (E1 & E2 & E3). unfold blocked, sunk. cbn [w_regs w_broken w_room w_panel with_conn p_conn set_writer g_write].
  split; [reflexivity|]. split; [exact E1|]. split; [lia | exact E2].
Qed.
Definition sink_call (t : nat) (a : act) : Prop := a = WReady t \/ a = WFlush t \/ a = WClose t.
Lemma sink_pending t a w w' k : sink_call t a -> pinv (w_panel w) -> wstep w a = Ok (w', OSink Pending, k) ->
  (blocked t w' \/ a = WReady t /\ parked t w') /\ (a = WClose t \/ exists q f u, cmd_state (w_panel w') = Busy q f u).
Proof.
  intros [-> | [-> | ->]] I E; cbn [wstep] in E.
  - unfold poll_ready_cx, conn_poll_flush_cx in E. destruct (cmd_state (w_panel w)) as [|q [] u] eqn:EC; [discriminate| |].
    + injection E as <- <-. split; [right; split; [reflexivity|]; exists q; reflexivity | right; exists q, true, (Some t); reflexivity].
    + destruct (conn_poll_flush (p_conn (w_panel w)) (writes w)) as [[c ws'] [|[[]|e]]] eqn:EF; try discriminate E.
      * injection E as <- <-. split; [left; eapply blocks_intro; eauto | right; exists q, false, u; exact EC].
      * injection E as <- <-. split; [right; split; [reflexivity|]; exists q; reflexivity | right; exists q, true, (Some t); reflexivity].
  - unfold poll_flush_cx, panel_flush_cx, conn_poll_flush_cx in E. destruct (cmd_state (w_panel w)) as [|q [] u] eqn:EC; try discriminate E.
    destruct (conn_poll_flush (p_conn (w_panel w)) (writes w)) as [[c ws'] [|[[]|e]]] eqn:EF; try discriminate E.
    injection E as <- <-. split; [left; eapply blocks_intro; eauto | right; exists q, false, u; exact EC].
  - split; [|left; reflexivity]. left. unfold poll_close_cx, panel_flush_cx, conn_poll_close_cx, conn_poll_flush_cx in E.
    assert (Id : with_conn (w_panel w) (p_conn (w_panel w)) = w_panel w) by (destruct (w_panel w); reflexivity).
    destruct (cmd_state (w_panel w)) as [|q [] u] eqn:EC.
    + destruct (conn_poll_flush (p_conn (w_panel w)) (writes w)) as [[c ws'] [|[[]|e]]] eqn:EF; try discriminate E.
      injection E as <- <-. eapply blocks_intro; eauto.
    + destruct (conn_poll_flush (p_conn (w_panel w)) (writes w)) as [[c ws'] [|[[]|e]]] eqn:EF; try discriminate E.
      injection E as <- <-. eapply blocks_intro; eauto.
    + destruct (conn_poll_flush (p_conn (w_panel w)) (writes w)) as [[c ws'] [|[[]|e]]] eqn:EF; try discriminate E.
      * injection E as <- <-. eapply blocks_intro; eauto.
      * exfalso. assert (W : wbuf c = []).
        { unfold conn_poll_flush in EF. destruct (framed_flush (writes w) (wbuf (p_conn (w_panel w))) (sent (p_conn (w_panel w)))) as [[[bb o] s] r] eqn:E2.
          injection EF as <- <- ->. cbn. clear - E2. revert E2. generalize (wbuf (p_conn (w_panel w))) (sent (p_conn (w_panel w))). intros bf.
          revert bf. induction (writes w) as [|x l IH]; intros bf o0; destruct bf as [|? bf]; cbn [framed_flush]; try congruence; destruct x as [[|?]| |]; try congruence. apply IH. }
        cbn [with_cmd with_conn p_conn] in E. unfold conn_poll_flush in E. rewrite W in E. destruct ws'; discriminate E.
Qed.
Lemma blocked_step t w a w' b k : pinv (w_panel w) -> blocked t w -> act_ok a -> negb (polls_sink a) = true ->
  wstep w a = Ok (w', b, k) -> ~ In t k -> blocked t w'.
Proof.
  intros I (B1 & B2 & B3 & B4) O NN E NW. destruct a as [x|n|e|d|t'|t'|c|t'|t']; try discriminate NN; cbn [wstep] in E.
  - injection E as <- <- <-. repeat split; auto.
  - destruct n; injection E as <- <- <-; [repeat split; auto|]. rewrite B1 in NW. destruct NW. left. reflexivity.
  - injection E as <- <- <-. rewrite B1 in NW. destruct NW. left. reflexivity.
  - destruct (pending_arm (w_panel w)) as [[dl m]|]; [destruct (dl <=? w_now w + d)|]; injection E as <- <- <-; repeat split; auto.
  - apply bind_inv in E as ([[[p r] kk] g] & E1 & E). injection E as <- <- <-. pose proof (poll_next_cx_forget t' (w_now w) (w_panel w) (w_regs w)) as F.
    rewrite E1 in F. cbn [bind] in F. destruct (poll_next_inv _ _ _ _ _ I F) as [_ (rc & X & _)]. destruct (nexts_same_write _ _ _ X) as (W & _).
    unfold blocked. cbn [w_regs w_broken w_room w_panel]. rewrite W. split; [|auto]. rewrite <- B1.
    clear - E1. unfold poll_next_cx, conn_poll_next_cx in E1. apply bind_inv in E1 as ([[c r1] g1] & E0 & E1). apply bind_inv in E0 as ([c2 r2] & _ & E0).
    injection E0 as -> -> <-. destruct r1 as [|[[pkt|e]|]]; [destruct (pending_arm _) as [[d m]|]; [destruct (d <=? w_now w); [destruct (s_arming _)|]|]| | |];
      try discriminate E1; try (injection E1 as <- <- <- <-; reflexivity).
    apply bind_inv in E1 as ([[p1 e1] k1] & _ & E1). injection E1 as <- <- <- <-. unfold timer_after. cbn [with_conn pending_arm].
    destruct (pending_arm (w_panel w)), (pending_arm p1); reflexivity.
  - apply bind_inv in E as (p & E1 & E). injection E as <- <- <-. pose proof (start_send_spec c (w_panel w) I O) as S. destruct (cmd_state (w_panel w)) as [|q f kk].
    + destruct S as (p' & f & E2 & _ & _ & _ & _ & _ & S). rewrite E1 in E2. injection E2 as <-. unfold blocked, sunk. cbn [w_regs w_broken w_room w_panel].
      rewrite S. split; [exact B1|]. split; [exact B2|]. split; [lia|]. destruct (wbuf (p_conn (w_panel w))); [congruence | discriminate].
    + destruct S as (why & S). congruence.
Qed.
Lemma parked_step t w a w' b k : pinv (w_panel w) -> parked t w -> act_ok a -> negb (polls_sink a) = true ->
  wstep w a = Ok (w', b, k) -> ~ In t k -> parked t w'.
Proof.
  intros I (q & B) O NN E NW. destruct a as [x|n|e|d|t'|t'|c|t'|t']; try discriminate NN; cbn [wstep] in E.
  - injection E as <- <- <-. exists q. exact B.
  - destruct n; injection E as <- <- <-; exists q; exact B.
  - injection E as <- <- <-. exists q. exact B.
  - destruct (pending_arm (w_panel w)) as [[dl m]|]; [destruct (dl <=? w_now w + d)|]; injection E as <- <- <-; exists q; exact B.
  - apply bind_inv in E as ([[[p r] kk] g] & E1 & E). injection E as <- <- <-. pose proof (poll_next_cx_forget t' (w_now w) (w_panel w) (w_regs w)) as F.
    rewrite E1 in F. cbn [bind] in F. pose proof (poll_next_case _ _ _ _ _ I F) as PC. unfold parked. cbn [w_panel]. destruct (yields_dec r) as [(e & Y)|NY].
    + pose proof (event_cmd _ _ _ _ _ _ PC Y) as H. rewrite B in H. destruct H as [(m & _ & _ & _ & _ & ->)|(_ & H & _)]; [destruct NW; left; reflexivity | eauto].
    + destruct (poll_no_event _ _ _ _ _ PC NY) as [EQ _]. rewrite EQ. eauto.
  - apply bind_inv in E as (p & E1 & E). pose proof (start_send_spec c (w_panel w) I O) as S. rewrite B in S. destruct S as (why & S). congruence.
Qed.
(* a command outstanding at the beginning and not completed on the way is outstanding at the end *)
Lemma wrun_busy h : forall w w' bs ks, pinv (w_panel w) -> (exists q f u, cmd_state (w_panel w) = Busy q f u) -> Forall act_ok h ->
  wrun w h = Ok (w', bs, ks) -> completions bs = [] -> exists q f u, cmd_state (w_panel w') = Busy q f u.
Proof.
  induction h as [|a h IH]; intros w w' bs ks I K HO E CN; cbn [wrun] in E; [injection E as <- <- <-; exact K|].
  apply bind_inv in E as ([[w1 b] k] & E1 & E). apply bind_inv in E as ([[w2 bs'] ks'] & E2 & E). injection E as <- <- <-.
  inversion HO as [|? ? HO1 HO2]; subst. change (b :: bs') with ([b] ++ bs') in CN. rewrite completions_app in CN. apply app_eq_nil in CN as [CN1 CN2].
  pose proof (wstep_pinv _ _ _ _ _ E1 HO1 I) as I1. refine (IH _ _ _ _ I1 _ HO2 E2 CN2).
  pose proof (wstep_inv _ _ _ _ _ E1) as S. destruct K as (q & f & u & K). destruct (call_of w a) as [o|] eqn:C.
  - destruct (step_inv _ _ _ _ I (call_ok _ _ _ C HO1) S) as [_ T]. clear S. destruct o as [x|now|u' ws|c|ws|ws]; cbn [stepped] in T.
    + destruct T as [_ ->]. cbn. eauto.
    + destruct T as (r & u' & -> & P). pose proof (polled_case _ _ _ _ _ P I) as PC. destruct (yields_dec r) as [(e & Y)|NY].
      * rewrite (completes_event _ e) in CN1 by (unfold yields in Y; subst r; reflexivity).
        pose proof (event_cmd _ _ _ _ _ _ PC Y) as H. rewrite K in H. destruct H as [(m & _ & _ & _ & H & _)|(_ & H & _)]; [|eauto].
        rewrite H in CN1. discriminate.
      * destruct (poll_no_event _ _ _ _ _ PC NY) as [EQ _]. rewrite EQ. eauto.
    + destruct T as (r & _ & _ & _ & T). rewrite K in T. destruct T as (_ & f' & k' & T & _). eauto.
    + destruct T as (_ & T & _). congruence.
    + destruct T as (r & _ & _ & _ & T). rewrite K in T. destruct T as (f' & T & _). eauto.
    + destruct T as (r & _ & _ & _ & _ & T). rewrite K in T. destruct T as (f' & T). eauto.
  - destruct S as [_ ->]. eauto.
Qed.

(* The same for the sending side: a task told to wait by poll_ready, poll_flush or poll_close, and not woken since, would be told
   to wait again, or else all of this is so: it did not call poll_close, the command was completed by a reply that came before the
   command was written, its bytes are still unwritten, and the task will be woken as soon as the socket takes a byte. *)
Theorem C78_sender_is_woken_partial : forall w t a w1 k h w2 bs ks,
  reachable (w_panel w) -> sink_call t a -> wstep w a = Ok (w1, OSink Pending, k) ->
  Forall act_ok h -> forallb (fun a => negb (polls_sink a)) h = true -> wrun w1 h = Ok (w2, bs, ks) -> ~ In t ks ->
  (exists w3, wstep w2 a = Ok (w3, OSink Pending, [])) \/
  a <> WClose t /\ outstanding (w_panel w2) = [] /\ completions bs <> [] /\ wbuf (p_conn (w_panel w2)) <> [] /\
  (forall n, exists w3, wstep w2 (WRoom (S n)) = Ok (w3, ONone, [t])).
Proof.
  intros w t a w1 k h w2 bs ks R SC E1 HO NN E2 NW. destruct (reachable_inv _ R) as [I _].
  destruct (sink_pending _ _ _ _ _ SC I E1) as [P K].
  assert (O : act_ok a) by (destruct SC as [-> | [-> | ->]]; exact Logic.I). pose proof (wstep_pinv _ _ _ _ _ E1 O I) as I1.
  destruct P as [P|[-> P]].
  - destruct (wrun_keep (fun a => negb (polls_sink a)) (blocked t) t (blocked_step t) h w1 w2 bs ks I1 P HO NN E2 NW) as [I2 P2].
    destruct (conn_flush_blocked _ _ _ P2 eq_refl) as (c & F). pose proof I2 as (_ & _ & _ & _ & CK). unfold cmd_ok in CK.
    pose proof P2 as (P21 & P22 & P23 & P24).
    assert (Cl : exists w3, wstep w2 (WClose t) = Ok (w3, OSink Pending, [])).
    { cbn [wstep]. unfold poll_close_cx, panel_flush_cx, conn_poll_close_cx, conn_poll_flush_cx.
      destruct (cmd_state (w_panel w2)) as [|q [] u]; rewrite F; eexists; reflexivity. }
    destruct (cmd_state (w_panel w2)) as [|q [] u] eqn:EC.
    + destruct SC as [-> | [-> | ->]]; [right|right|left; exact Cl]; (split; [discriminate|]); (split; [unfold outstanding; rewrite EC; reflexivity|]);
        (split; [|split; [exact P24|intros n; cbn [wstep]; rewrite P21; eexists; reflexivity]]);
        intros CN; (destruct K as [K|K]; [discriminate|]); destruct (wrun_busy _ _ _ _ _ I1 K HO E2 CN) as (q & f & u & K2); congruence.
    + destruct CK as [_ CK]. rewrite CK in P24; congruence.
    + left. destruct SC as [-> | [-> | ->]]; [| |exact Cl]; cbn [wstep]; unfold poll_ready_cx, poll_flush_cx, panel_flush_cx, conn_poll_flush_cx;
        rewrite EC, F; eexists; reflexivity.
  - destruct (wrun_keep (fun a => negb (polls_sink a)) (parked t) t (parked_step t) h w1 w2 bs ks I1 P HO NN E2 NW) as [I2 (q & P2)].
    left. cbn [wstep]. unfold poll_ready_cx. rewrite P2. eexists. reflexivity.
Qed.
(* The exception occurs, with poll_ready and with poll_flush: the socket takes nothing for now; task 7 sends a command and is told
   to wait; the reply arrives and task 3 receives it; poll_ready and poll_flush would now tell task 7 to go on, but nothing has
   woken it. *)
Definition ex_world : world := mkWorld ex_panel (mkRegs None None None) 0 0 None.
Definition ex_reply : list act := [WArrive (Bytes (bytes_of (MTaskChange 5))); WNext 3].
Lemma ex_reply_ok : Forall act_ok ex_reply.
Proof. repeat constructor; cbn; lia. Qed.
Definition missed (a : act) :=
  match wrun ex_world [WSend ex_cmd] with
  | Ok (w, _, _) =>
      match wstep w a with
      | Ok (w1, b1, k1) =>
          match wrun w1 ex_reply with
          | Ok (w2, bs, ks) => match wstep w2 a with Ok (_, b3, k3) => Some (b1, ks, b3, k3) | _ => None end
          | _ => None
          end
      | _ => None
      end
  | _ => None
  end.
Lemma missed_both : missed (WReady 7) = Some (OSink Pending, [], OSink (Ready (IoOk tt)), []) /\
  missed (WFlush 7) = Some (OSink Pending, [], OSink (Ready (IoOk tt)), []).
Proof. split; vm_compute; reflexivity. Qed.
Lemma missed_fact a b1 ks b3 k3 : missed a = Some (b1, ks, b3, k3) ->
  exists w w1 k1 w2 bs w3, reachable (w_panel w) /\ wstep w a = Ok (w1, b1, k1) /\ wrun w1 ex_reply = Ok (w2, bs, ks) /\ wstep w2 a = Ok (w3, b3, k3).
Proof.
  unfold missed. destruct (wrun ex_world [WSend ex_cmd]) as [[[w b0] k0]|?|?] eqn:E0; try discriminate.
  destruct (wstep w a) as [[[w1 b1'] k1]|?|?] eqn:E1; try discriminate. destruct (wrun w1 ex_reply) as [[[w2 bs] ks']|?|?] eqn:E2; try discriminate.
  destruct (wstep w2 a) as [[[w3 b3'] k3']|?|?] eqn:E3; try discriminate. intros [= <- <- <- <-]. exists w, w1, k1, w2, bs, w3.
  split; [|auto]. refine (wrun_reachable _ _ _ _ _ _ _ E0); [apply connected_reachable, ex_connected | repeat constructor; cbn; lia].
Qed.
Theorem C78_sender_is_woken_refuted : exists w t w1 k h w2 bs ks w3,
  reachable (w_panel w) /\ wstep w (WReady t) = Ok (w1, OSink Pending, k) /\
  Forall act_ok h /\ forallb (fun a => negb (polls_sink a)) h = true /\ wrun w1 h = Ok (w2, bs, ks) /\ ~ In t ks /\
  wstep w2 (WReady t) = Ok (w3, OSink (Ready (IoOk tt)), []).
Proof.
  destruct (missed_fact _ _ _ _ _ (proj1 missed_both)) as (w & w1 & k1 & w2 & bs & w3 & R & E1 & E2 & E3).
  exists w, 7%nat, w1, k1, ex_reply, w2, bs, [], w3. do 2 (split; [assumption|]). split; [exact ex_reply_ok|].
  split; [reflexivity|]. split; [exact E2|]. split; [intros [] | exact E3].
Qed.
Theorem C78_flusher_is_woken_refuted : exists w t w1 k h w2 bs ks w3,
  reachable (w_panel w) /\ wstep w (WFlush t) = Ok (w1, OSink Pending, k) /\
  Forall act_ok h /\ forallb (fun a => negb (polls_sink a)) h = true /\ wrun w1 h = Ok (w2, bs, ks) /\ ~ In t ks /\
  wstep w2 (WFlush t) = Ok (w3, OSink (Ready (IoOk tt)), []).
Proof.
  destruct (missed_fact _ _ _ _ _ (proj2 missed_both)) as (w & w1 & k1 & w2 & bs & w3 & R & E1 & E2 & E3).
  exists w, 7%nat, w1, k1, ex_reply, w2, bs, [], w3. do 2 (split; [assumption|]). split; [exact ex_reply_ok|].
  split; [reflexivity|]. split; [exact E2|]. split; [intros [] | exact E3].
Qed.

(* ---- examples ---- *)
(* Task 1 receives.  It is told to wait and is woken by an armed report, which is held; told to wait again, it sleeps for 4999 ms
   although task 7 sends a command meanwhile, and is woken when the five seconds are over. *)
Definition wseen (h : list act) :=
  match wrun ex_world h with
  | Ok (_, bs, ks) => Some (map (fun b => match b with ONext Pending _ => 0 | ONext (Ready _) _ => 1 | OSink Pending => 2 | OSink (Ready _) => 3 | ONone => 4 end) bs, ks)
  | _ => None
  end.
Example C77_example :
  wseen [WNext 1; WArrive (Bytes (bytes_of (MArmingStatusReport ex_armed)))] = Some ([0; 4], [1%nat]) /\
  wseen [WNext 1; WArrive (Bytes (bytes_of (MArmingStatusReport ex_armed))); WNext 1; WNext 1; WSend ex_cmd; WReady 7; WWait 4999; WRoom 3] =
    Some ([0; 4; 1; 0; 4; 2; 4; 4], [1%nat; 7%nat]) /\
  wseen [WNext 1; WArrive (Bytes (bytes_of (MArmingStatusReport ex_armed))); WNext 1; WNext 1; WWait 4999; WNext 1; WWait 1; WNext 1; WNext 1] =
    Some ([0; 4; 1; 0; 4; 0; 4; 1; 0], [1%nat; 1%nat]).
Proof. repeat split; vm_compute; reflexivity. Qed.
(* Task 7 sends.  It waits for the socket (which takes three bytes, then the rest), then for the reply, and is woken each time. *)
Example C78_example :
  wseen [WSend ex_cmd; WReady 7; WRoom 3; WReady 7; WRoom 100; WReady 7; WArrive (Bytes (bytes_of (MTaskChange 5))); WNext 3; WReady 7] =
    Some ([4; 2; 4; 2; 4; 2; 4; 1; 3], [7%nat; 7%nat; 7%nat]).
Proof. vm_compute. reflexivity. Qed.

Print Assumptions C77_receiver_is_woken.
Print Assumptions C77_arrival_wakes.
Print Assumptions C78_sender_is_woken_partial.
Print Assumptions C78_sender_is_woken_refuted.
Print Assumptions C78_flusher_is_woken_refuted.
