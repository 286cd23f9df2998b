(* PropTasks.v: C97: sending commands and reading events by tasks that are only run when woken. *)
From Verif Require Import Base BaseFacts Pkt SpecPkt PktFacts DecodeFacts Msg SpecMsg DecFacts MsgFacts WireFacts IsoFacts
  Tokio SpecConn ConnFacts State SpecState StateFacts RunFacts HistFacts ViewFacts ExState PropState PropSink PropLive
  SpecInit InitFacts PropConnect SpecSend SendFacts PropSend Wake PropWake SpecTasks.
From Verif Require PropWakeInit.
From Coq Require Import ZifyBool ZifyNat ZifyN.
Ltac Zify.zify_post_hook ::= Z.div_mod_to_equations.

(* ---- the tasks are the caller of C93 ---- *)
Lemma named_in t ks : named t ks = true <-> In t ks.
Proof. unfold named. rewrite existsb_exists. split; [intros (x & H & E); apply Nat.eqb_eq in E; subst; exact H | intros H; exists t; split; [exact H | apply Nat.eqb_refl]]. Qed.
Lemma named_not t ks : named t ks = false <-> ~ In t ks.
Proof. rewrite <- named_in. destruct (named t ks); split; congruence. Qed.
Lemma run_send_caller s r u : caller_of (run_send s r u) = if u_send_due u then send_task s (writes (u_world u)) (caller_of u) else caller_of u.
Proof.
  destruct u as [w todo fl done failed sd rd]. unfold caller_of. cbn [run_send u_world u_todo u_flushing u_done u_failed u_send_due]. destruct sd; [|reflexivity]. destruct fl; cbn [send_task].
  - cbn [wstep]. pose proof (poll_flush_cx_forget s (writes w) (w_panel w) (w_regs w)) as F. destruct (poll_flush_cx s (writes w) (w_panel w) (w_regs w)) as [[p r0] g].
    rewrite F. destruct r0 as [|[[]|e]]; reflexivity.
  - destruct todo as [|c rest]; [reflexivity|]. cbn [wstep]. pose proof (poll_ready_cx_forget s (writes w) (w_panel w) (w_regs w)) as F.
    destruct (poll_ready_cx s (writes w) (w_panel w) (w_regs w)) as [[p r0] g]. rewrite F. destruct r0 as [|[[]|e]]; try reflexivity.
    cbn [sunk w_panel]. destruct (start_send c p) as [p2|e|y]; reflexivity.
Qed.
Lemma run_read_caller s r u : caller_of (run_read s r u) = if u_read_due u then read_task (w_now (u_world u)) (caller_of u) else caller_of u.
Proof.
  destruct u as [w todo fl done failed sd rd]. unfold caller_of. cbn [run_read u_world u_todo u_flushing u_done u_failed u_read_due]. destruct rd; [|reflexivity]. cbn [read_task wstep].
  rewrite (poll_next_cx_forget r (w_now w) (w_panel w) (w_regs w)). destruct (poll_next_cx r (w_now w) (w_panel w) (w_regs w)) as [[[[p r0] k] g]|e|y]; cbn [bind]; try reflexivity.
  destruct r0 as [|[[e|e]|]]; reflexivity.
Qed.
Lemma outside_quiet s r a u : match a with WRoom _ | WWait _ => True | _ => False end -> caller_of (outside s r a u) = caller_of u.
Proof.
  intros H. unfold outside. pose proof (wstep_call (u_world u) a) as C. destruct a; try contradiction; cbn [call_of] in C; destruct C as (w' & k & -> & E); unfold caller_of; cbn; rewrite E; reflexivity.
Qed.
Lemma outside_arrive s r x u : caller_of (outside s r (WArrive x) u) = with_panel (caller_of u) (with_conn (w_panel (u_world u)) (arrive (p_conn (w_panel (u_world u))) x)).
Proof. reflexivity. Qed.

Definition move_at (s : nat) (y : play) (a : turn) : move :=
  match a with
  | TSend => if u_send_due (y_crew y) then MSend s (writes (u_world (y_crew y))) else MIdle
  | TRead => if u_read_due (y_crew y) then MRead (w_now (u_world (y_crew y))) else MIdle
  | TRoom _ | TWait _ | TWake _ => MIdle
  | TUnasked => MUnasked
  | TReply => MReply
  | TDeliver => MDeliver
  | TGive c => MGive c
  end.
Lemma writes_fine w : w_broken w = None -> Forall write_ok (writes w).
Proof. intros E. unfold writes. rewrite E. destruct (w_room w); repeat constructor. discriminate. Qed.
Lemma turn_move s r may base y a y' : w_broken (u_world (y_crew y)) = None -> turns s r may base y a y' -> moves may base (exchange_of y) (move_at s y a) (exchange_of y').
Proof.
  intros B T. destruct T as [| |n|d|t|pkt f Vp Mp Fp|q m body f N R G Hb HF|x z E Na|c Wc]; cbn [move_at]; unfold exchange_of; cbn [y_crew y_net y_replied].
  - rewrite run_send_caller. destruct (u_send_due (y_crew y)); [|constructor]. refine (M_send _ _ (mkExchange (caller_of (y_crew y)) (y_net y) (y_replied y)) _ _ _). apply writes_fine, B.
  - rewrite run_read_caller. destruct (u_read_due (y_crew y)); [|constructor]. exact (M_read _ _ (mkExchange (caller_of (y_crew y)) (y_net y) (y_replied y)) _).
  - rewrite outside_quiet by exact Logic.I. constructor.
  - rewrite outside_quiet by exact Logic.I. constructor.
  - change (caller_of (wake s r [t] (y_crew y))) with (caller_of (y_crew y)). constructor.
  - exact (M_unasked _ _ (mkExchange (caller_of (y_crew y)) (y_net y) (y_replied y)) pkt f Vp Mp Fp).
  - exact (M_reply _ base (mkExchange (caller_of (y_crew y)) (y_net y) (y_replied y)) q m body f N R G Hb HF).
  - rewrite outside_arrive. exact (M_deliver _ base (mkExchange (caller_of (y_crew y)) (y_net y) (y_replied y)) x z E Na).
  - exact (M_give _ base (mkExchange (caller_of (y_crew y)) (y_net y) (y_replied y)) c Wc).
Qed.

(* ---- a task that is not due waits for something that will wake it ---- *)
Definition idle (s : nat) (u : crew) : Prop :=
  u_todo u = [] /\ u_flushing u = false \/ blocked s (u_world u) \/ parked s (u_world u) /\ u_flushing u = false /\ u_todo u <> [].
Definition uinv (s r : nat) (u : crew) : Prop :=
  w_broken (u_world u) = None /\ (u_send_due u = false -> idle s u) /\ (u_read_due u = false -> asleep r (u_world u)).
Lemma wstep_broken w a w' b k : wstep w a = Ok (w', b, k) -> (forall e, a <> WBreak e) -> w_broken w' = w_broken w.
Proof.
  intros E N. destruct a as [x|n|e|d|t'|t'|c|t'|t']; cbn [wstep] in E.
  - injection E as <- <- <-. reflexivity.
  - destruct n; injection E as <- <- <-; reflexivity.
  - elim (N e). reflexivity.
  - destruct (pending_arm (w_panel w)) as [[dl m]|]; [destruct (dl <=? w_now w + d)|]; injection E as <- <- <-; reflexivity.
  - apply bind_inv in E as ([[[p r] kk] g] & _ & E). injection E as <- <- <-. reflexivity.
  - destruct (poll_ready_cx t' (writes w) (w_panel w) (w_regs w)) as [[p r] g]. injection E as <- <- <-. reflexivity.
  - apply bind_inv in E as (p & _ & E). injection E as <- <- <-. reflexivity.
  - destruct (poll_flush_cx t' (writes w) (w_panel w) (w_regs w)) as [[p r] g]. injection E as <- <- <-. reflexivity.
  - destruct (poll_close_cx t' (writes w) (w_panel w) (w_regs w)) as [[p r] g]. injection E as <- <- <-. reflexivity.
Qed.
Lemma due_false a b : a || b = false -> a = false /\ b = false.
Proof. apply orb_false_elim. Qed.
(* what the sending task does not do itself leaves it waiting or wakes it *)
Lemma idle_step s w a w' b k (todo : list Command) (fl : bool) : pinv (w_panel w) -> act_ok a -> negb (polls_sink a) = true -> wstep w a = Ok (w', b, k) -> ~ In s k ->
  (todo = [] /\ fl = false \/ blocked s w \/ parked s w /\ fl = false /\ todo <> []) ->
  (todo = [] /\ fl = false \/ blocked s w' \/ parked s w' /\ fl = false /\ todo <> []).
Proof.
  intros I O N E NK [F|[B|(P & F)]]; [auto | right; left; eapply blocked_step; eauto | right; right; split; [eapply parked_step; eauto | exact F]].
Qed.
Lemma outside_uinv s r a u : pinv (w_panel (u_world u)) -> act_ok a -> match a with WArrive _ | WRoom _ | WWait _ => True | _ => False end -> uinv s r u -> uinv s r (outside s r a u).
Proof.
  intros I O HA (B & SI & RI). unfold outside. destruct (wstep (u_world u) a) as [[[w' b] ks]|e|y] eqn:E; [|split; auto..].
  unfold uinv. cbn [wake u_world u_send_due u_read_due u_todo u_flushing]. split; [|split].
  - rewrite <- B. eapply wstep_broken; [exact E|]. intros e ->. exact HA.
  - intros D. apply due_false in D as [D1 D2]. apply named_not in D2. unfold idle. cbn [u_todo u_flushing u_world]. eapply idle_step; eauto; [destruct a; try contradiction; reflexivity | exact (SI D1)].
  - intros D. apply due_false in D as [D1 D2]. apply named_not in D2. eapply asleep_step; eauto. destruct a; try contradiction; reflexivity.
Qed.
Lemma run_read_uinv s r u : pinv (w_panel (u_world u)) -> uinv s r u -> uinv s r (run_read s r u).
Proof.
  destruct u as [w todo fl done failed sd rd]. intros I (B & SI & RI). cbn [u_world u_todo u_flushing u_send_due u_read_due] in *. cbn [run_read].
  destruct rd; [|split; auto]. destruct (wstep w (WNext r)) as [[[w' b] ks]|e|y] eqn:E; [|unfold uinv; cbn [u_world u_send_due u_read_due]; split; [exact B|]; split; [exact SI | discriminate]..].
  assert (B' : w_broken w' = None) by (rewrite <- B; eapply wstep_broken; [exact E | discriminate]).
  assert (SI' : sd || named s ks = false -> todo = [] /\ fl = false \/ blocked s w' \/ parked s w' /\ fl = false /\ todo <> []).
  { intros D. apply due_false in D as [D D2]. apply named_not in D2. eapply (idle_step s w); eauto; [exact Logic.I | reflexivity | exact (SI D)]. }
  destruct b as [|[|[[e|e]|]] k|o]; (split; [exact B'|]); (split; [exact SI'|]); cbn [wake u_read_due u_world orb]; try discriminate.
  intros _. eapply wnext_pending; eauto.
Qed.
Lemma run_send_uinv s r u : pinv (w_panel (u_world u)) -> Forall (fun c => wf_message (into_msg c)) (u_todo u) -> uinv s r u -> uinv s r (run_send s r u).
Proof.
  destruct u as [w todo fl done failed sd rd]. intros I W (B & SI & RI). cbn [u_world u_todo u_flushing u_send_due u_read_due] in *. cbn [run_send].
  destruct sd; [|split; auto]. 
  assert (G : forall a w' b ks, sink_call s a -> wstep w a = Ok (w', b, ks) -> w_broken w' = None /\ (rd || named r ks = false -> asleep r w')).
  { intros a w' b ks SC E. split.
    - rewrite <- B. eapply wstep_broken; [exact E|]. intros e ->. destruct SC as [SC|[SC|SC]]; discriminate SC.
    - intros D. apply due_false in D as [D1 D2]. apply named_not in D2. eapply asleep_step; eauto; destruct SC as [->|[->| ->]]; first [exact Logic.I | reflexivity]. }
  destruct fl.
  - destruct (wstep w (WFlush s)) as [[[w' b] ks]|e|y] eqn:E; [|split; [exact B|]; split; [discriminate | exact RI]..].
    destruct (G _ _ _ _ ltac:(right; left; reflexivity) E) as [B' RI'].
    destruct b as [|b k|[|[[]|e]]]; (split; [exact B'|]); (split; [|exact RI']); try discriminate.
    intros D. destruct (sink_pending s (WFlush s) w w' ks ltac:(right; left; reflexivity) I E) as [[K|[K _]] _]; [|discriminate K]. right. left. exact K.
  - destruct todo as [|c rest]; [split; [exact B|]; split; [intros _; left; auto | exact RI]|].
    destruct (wstep w (WReady s)) as [[[w' b] ks]|e|y] eqn:E; [|split; [exact B|]; split; [discriminate | exact RI]..].
    destruct (G _ _ _ _ ltac:(left; reflexivity) E) as [B' RI'].
    destruct b as [|b k|[|[[]|e]]]; try (split; [exact B'|]; split; [discriminate | exact RI']).
    + split; [exact B'|]. split; [|exact RI']. intros D.
      destruct (sink_pending s (WReady s) w w' ks ltac:(left; reflexivity) I E) as [[K|[_ K]] _]; [right; left; exact K | right; right; split; [exact K|]; split; [reflexivity | discriminate]].
    + destruct (wstep w' (WSend c)) as [[[w2 b2] ks2]|e|y] eqn:E2; try (split; [exact B'|]; split; [discriminate | exact RI']).
      split; [cbn [wake u_world]; rewrite <- B'; eapply wstep_broken; [exact E2 | discriminate]|]. split; [discriminate|].
      cbn [wake u_read_due u_world]. intros D. apply due_false in D as [D1 D2]. apply named_not in D2. rewrite in_app_iff in D2.
      assert (I' : pinv (w_panel w')) by (eapply wstep_pinv; [exact E | exact Logic.I | exact I]).
      eapply (asleep_step r w' (WSend c)); [exact I' | | inversion W; assumption | reflexivity | exact E2 | tauto].
      apply RI'. rewrite D1. apply named_not. tauto.
Qed.

(* ---- along an execution ---- *)
Section Along.
Variables (s r : nat) (may : packet -> Prop) (p : Panel) (g : regs) (now : N) (room : nat) (net : bytes) (cs : list Command) (pk : list packet).
Hypotheses (HL : healthy p) (HO : outstanding p = []) (HC : Forall (fun c => wf_message (into_msg c)) cs) (HU : under_way p net pk).
Let y0 := play_new p g now room net cs.
Lemma of_after l x : after may (base_of p) (exchange_new p net cs) l x ->
  exists p' todo fl done acc fs pk' pf, inv None (cs ++ l) (base_of p) x p' todo fl done acc fs pk' pf.
Proof. intros A. apply (started None may p net cs pk l x HL HO HC HU ltac:(discriminate) A). Qed.
Lemma turn_uinv l y a y' : after may (base_of p) (exchange_new p net cs) l (exchange_of y) -> uinv s r (y_crew y) -> turns s r may (base_of p) y a y' -> uinv s r (y_crew y').
Proof.
  intros A U T. destruct (of_after _ _ A) as (p' & todo & fl & done & acc & fs & pk' & pf & (E & I & _ & (B1 & B2 & _) & _ & (C1 & C2 & C3) & _)).
  assert (EP : w_panel (u_world (y_crew y)) = p') by (apply (f_equal s_panel) in E; exact E).
  assert (ET : u_todo (y_crew y) = todo) by (apply (f_equal s_todo) in E; exact E). rewrite <- EP in I.
  destruct T as [| |n|d|t|pkt f Vp Mp Fp|q m body f N R G Hb HF|x z E' Na|c Wc]; cbn [y_crew].
  - apply run_send_uinv; [exact I | | exact U]. rewrite ET. rewrite B1 in B2. apply Forall_app in B2. tauto.
  - apply run_read_uinv; [exact I | exact U].
  - apply outside_uinv; [exact I | exact Logic.I | exact Logic.I | exact U].
  - apply outside_uinv; [exact I | exact Logic.I | exact Logic.I | exact U].
  - destruct U as (U1 & U2 & U3). split; [exact U1|]. split; intros D; apply due_false in D as [D1 D2]; [exact (U2 D1) | exact (U3 D1)].
  - exact U.
  - exact U.
  - apply outside_uinv; [exact I | | exact Logic.I | exact U]. cbn [act_ok arrival_u8].
    pose proof (frames_u8 _ _ C1 C2) as UU. rewrite <- C3 in UU. cbn [exchange_of x_net] in UU. rewrite E' in UU. apply u8s_app in UU as [_ UU]. apply u8s_app in UU. tauto.
  - destruct U as (U1 & U2 & U3). split; [exact U1|]. split; [discriminate | exact U3].
Qed.
Lemma uinv_new : uinv s r (y_crew y0).
Proof. split; [reflexivity|]. split; discriminate. Qed.
Lemma reach_after y : reaches s r may (base_of p) y0 y -> (exists l, after may (base_of p) (exchange_new p net cs) l (exchange_of y)) /\ uinv s r (y_crew y).
Proof.
  intros A. induction A as [|y a y' A IH T]; [split; [eexists; apply A_new | apply uinv_new]|]. destruct IH as [[l IA] IU].
  split; [|eapply turn_uinv; eauto]. eexists. eapply A_move; [exact IA|]. eapply turn_move; [apply IU | exact T].
Qed.

(* running a task that is not due makes no difference: the reading task ever, the sending one if there is room *)
Lemma reach_pinv y : reaches s r may (base_of p) y0 y -> pinv (w_panel (u_world (y_crew y))).
Proof.
  intros A. destruct (reach_after _ A) as [[l AA] _].
  destruct (of_after _ _ AA) as (p' & todo & fl & done & acc & fs & pk' & pf & (E & I & _)). change (x_caller (exchange_of y)) with (caller_of (y_crew y)) in E.
  apply (f_equal s_panel) in E. cbn [caller_of s_panel] in E. rewrite E. exact I.
Qed.
Lemma read_idle y : reaches s r may (base_of p) y0 y -> u_read_due (y_crew y) = false ->
  read_task (w_now (u_world (y_crew y))) (caller_of (y_crew y)) = caller_of (y_crew y).
Proof.
  intros A D. destruct (reach_after _ A) as [AA (_ & _ & RI)]. specialize (RI D). pose proof (reach_pinv _ A) as I. unfold caller_of. cbn [read_task].
  destruct RI as (_ & (Q1 & Q2 & Q3 & Q4) & Q5). unfold poll_next. destruct (conn_next_total _ (proj1 I)) as (c & r0 & EC & X). rewrite EC.
  destruct (PropWakeInit.idle_next _ _ _ (proj1 I) Q1 Q2 Q3 Q4 EC) as [-> ->]. cbn [bind]. rewrite PropWakeInit.with_conn_same.
  destruct (pending_arm (w_panel (u_world (y_crew y)))) as [[d m]|]; [|reflexivity]. destruct (d <=? w_now (u_world (y_crew y))) eqn:ED; [lia | reflexivity].
Qed.
Lemma send_idle y ws : reaches s r may (base_of p) y0 y -> u_send_due (y_crew y) = false -> (blocked s (u_world (y_crew y)) -> False) ->
  send_task s ws (caller_of (y_crew y)) = caller_of (y_crew y).
Proof.
  intros A D NB. destruct (reach_after _ A) as [AA (_ & SI & _)]. destruct (SI D) as [[E1 E2]|[BL|((q & P) & E1 & E2)]]; [|elim (NB BL)|]; unfold caller_of; cbn [send_task].
  - rewrite E1, E2. reflexivity.
  - rewrite E1. destruct (u_todo (y_crew y)) as [|c rest]; [congruence|]. unfold poll_ready. rewrite P.
    replace (with_cmd (w_panel (u_world (y_crew y))) (Busy q true (Some s))) with (w_panel (u_world (y_crew y))); [reflexivity|]. rewrite <- P. destruct (w_panel (u_world (y_crew y))); reflexivity.
Qed.

(* ---- an execution of C93 ---- *)
Variables (ys : nat -> play) (acts : nat -> turn).
Hypothesis HX : goes_on s r may (base_of p) y0 ys acts.
Lemma all_reached n : reaches s r may (base_of p) y0 (ys n).
Proof. induction n as [|n IH]; [rewrite (proj1 HX); apply Y_new|]. eapply Y_turn; [exact IH | apply HX]. Qed.
Definition roomy (y : play) : bool := negb (w_room (u_world (y_crew y)) =? 0)%nat.
Definition xs (k : nat) : exchange := exchange_of (ys (k / 3)).
Definition mvs (k : nat) : move :=
  let y := ys (k / 3) in
  match (k mod 3)%nat with
  | 0%nat => if negb (u_send_due (y_crew y)) && roomy y then MSend s (writes (u_world (y_crew y))) else MIdle
  | 1%nat => if negb (u_read_due (y_crew y)) then MRead (w_now (u_world (y_crew y))) else MIdle
  | _ => move_at s y (acts (k / 3))
  end.
Lemma xs_unfold : unfolds may (base_of p) (exchange_new p net cs) xs mvs.
Proof.
  split; [unfold xs; cbn; rewrite (proj1 HX); reflexivity|]. intros k. unfold xs, mvs. cbv zeta. set (n := (k / 3)%nat).
  pose proof (all_reached n) as A. destruct (reach_after _ A) as [_ (B & _)].
  assert (M3 : (k mod 3 = 0 \/ k mod 3 = 1 \/ k mod 3 = 2)%nat) by lia. destruct M3 as [M|[M|M]]; rewrite M; cbv iota.
  - replace (S k / 3)%nat with n by lia. destruct (u_send_due (y_crew (ys n))) eqn:D; cbn [negb andb]; [constructor|]. destruct (roomy (ys n)) eqn:R; [|constructor].
    assert (E : exchange_of (ys n) = mkExchange (send_task s (writes (u_world (y_crew (ys n)))) (x_caller (exchange_of (ys n)))) (x_net (exchange_of (ys n))) (x_replied (exchange_of (ys n)))).
    { cbn [x_caller x_net x_replied exchange_of]. rewrite send_idle; [reflexivity | exact A | exact D|]. intros (_ & _ & BR & _). unfold roomy in R. rewrite BR in R. discriminate R. }
    rewrite E at 2. apply M_send. apply writes_fine, B.
  - replace (S k / 3)%nat with n by lia. destruct (u_read_due (y_crew (ys n))) eqn:D; cbn [negb]; [constructor|].
    assert (E : exchange_of (ys n) = mkExchange (read_task (w_now (u_world (y_crew (ys n)))) (x_caller (exchange_of (ys n)))) (x_net (exchange_of (ys n))) (x_replied (exchange_of (ys n)))).
    { cbn [x_caller x_net x_replied exchange_of]. rewrite read_idle; [reflexivity | exact A | exact D]. }
    rewrite E at 2. apply M_read.
  - replace (S k / 3)%nat with (S n) by lia. eapply turn_move; [exact B | apply HX].
Qed.
(* while the sending task is due and not run, the room in the socket stays *)
Lemma due_stays y a y' : turns s r may (base_of p) y a y' -> a <> TSend -> u_send_due (y_crew y) = true -> w_room (u_world (y_crew y)) <> 0%nat ->
  u_send_due (y_crew y') = true /\ w_room (u_world (y_crew y')) <> 0%nat.
Proof.
  intros T N D R. destruct T as [| |n|d|t|pkt f Vp Mp Fp|q m body f N' R' G Hb HF|x z E' Na|c Wc]; cbn [y_crew]; [congruence| | | | | auto | auto| |cbn; auto].
  - destruct (y_crew y) as [w todo fl done failed sd rd]. cbn [u_send_due u_world] in *. subst sd. cbn [run_read]. destruct rd; [|auto].
    destruct (wstep w (WNext r)) as [[[w' b] ks]|e|k] eqn:E; [|auto..]. cbn [wstep] in E. apply bind_inv in E as ([[[p1 r1] k1] g1] & _ & E). injection E as <- <- <-.
    destruct r1 as [|[[e|e]|]]; auto.
  - unfold outside. cbn [wstep]. destruct n; cbn; rewrite D; split; auto; lia.
  - unfold outside. cbn [wstep]. destruct (pending_arm _) as [[dl m]|]; [destruct (dl <=? _)|]; cbn; rewrite D; auto.
  - cbn. rewrite D. auto.
  - unfold outside. cbn. rewrite D. auto.
Qed.
Lemma sends_often : (forall n, exists m, (n <= m)%nat /\ (acts m = TSend \/ u_send_due (y_crew (ys m)) = false)) ->
  (forall n, exists m, (n <= m)%nat /\ w_room (u_world (y_crew (ys m))) <> 0%nat) -> forall n, exists m, (n <= m)%nat /\ sends (mvs m).
Proof.
  intros F1 F2 n. destruct (F2 n) as (m & L & R). destruct (F1 m) as (k & L2 & K). remember (k - m)%nat as d eqn:ED. revert m L R L2 ED.
  assert (W : forall m, w_room (u_world (y_crew (ys m))) <> 0%nat -> exists k, writes (u_world (y_crew (ys m))) = WAccept (S k) :: [WPending]).
  { intros m R. destruct (reach_after _ (all_reached m)) as [_ (B & _)]. unfold writes. rewrite B. destruct (w_room _) as [|k']; [congruence | eauto]. }
  induction d as [|d IH]; intros m L R L2 ED.
  - replace k with m in * by lia. destruct (W m R) as (j & EW). destruct (u_send_due (y_crew (ys m))) eqn:D.
    + destruct K as [K|K]; [|discriminate]. exists (3 * m + 2)%nat. split; [lia|]. unfold mvs. cbv zeta. replace ((3 * m + 2) mod 3)%nat with 2%nat by lia.
      replace ((3 * m + 2) / 3)%nat with m by lia. rewrite K. cbn [move_at]. rewrite D, EW. exact Logic.I.
    + exists (3 * m)%nat. split; [lia|]. unfold mvs. cbv zeta. replace ((3 * m) mod 3)%nat with 0%nat by lia. replace ((3 * m) / 3)%nat with m by lia.
      rewrite D. cbn [negb andb]. unfold roomy. replace (w_room (u_world (y_crew (ys m))) =? 0)%nat with false by lia. cbn [negb]. rewrite EW. exact Logic.I.
  - destruct (W m R) as (j & EW). destruct (u_send_due (y_crew (ys m))) eqn:D.
    + assert (Dec : acts m = TSend \/ acts m <> TSend) by (destruct (acts m); first [left; reflexivity | right; discriminate]). destruct Dec as [K'|K'].
      * exists (3 * m + 2)%nat. split; [lia|]. unfold mvs. cbv zeta. replace ((3 * m + 2) mod 3)%nat with 2%nat by lia.
        replace ((3 * m + 2) / 3)%nat with m by lia. rewrite K'. cbn [move_at]. rewrite D, EW. exact Logic.I.
      * destruct (due_stays _ _ _ (proj2 HX m) K' D R) as [_ R']. apply (IH (S m)); [lia | exact R' | lia | lia].
    + exists (3 * m)%nat. split; [lia|]. unfold mvs. cbv zeta. replace ((3 * m) mod 3)%nat with 0%nat by lia. replace ((3 * m) / 3)%nat with m by lia.
      rewrite D. cbn [negb andb]. unfold roomy. replace (w_room (u_world (y_crew (ys m))) =? 0)%nat with false by lia. cbn [negb]. rewrite EW. exact Logic.I.
Qed.
Lemma xs_just : woken_run (base_of p) ys acts -> just (base_of p) xs mvs.
Proof.
  intros (F1 & F2 & F3 & F4 & F5). split; [apply sends_often; assumption|].
  assert (M2 : forall m, mvs (3 * m + 2) = move_at s (ys m) (acts m)).
  { intros m. unfold mvs. cbv zeta. replace ((3 * m + 2) mod 3)%nat with 2%nat by lia. replace ((3 * m + 2) / 3)%nat with m by lia. reflexivity. }
  assert (X2 : forall m, xs (3 * m + 2) = exchange_of (ys m)).
  { intros m. unfold xs. replace ((3 * m + 2) / 3)%nat with m by lia. reflexivity. }
  split; [|split].
  - intros n. destruct (F2 n) as (m & L & K). destruct (u_read_due (y_crew (ys m))) eqn:D.
    + destruct K as [K|K]; [|discriminate]. exists (3 * m + 2)%nat. split; [lia|]. rewrite M2, K. cbn [move_at]. rewrite D. exact Logic.I.
    + exists (3 * m + 1)%nat. split; [lia|]. unfold mvs. cbv zeta. replace ((3 * m + 1) mod 3)%nat with 1%nat by lia. replace ((3 * m + 1) / 3)%nat with m by lia.
      rewrite D. exact Logic.I.
  - intros n. destruct (F4 n) as (m & L & K). exists (3 * m + 2)%nat. split; [lia|]. rewrite M2, X2. destruct K as [-> |K]; auto.
  - intros n. destruct (F5 n) as (m & L & K). exists (3 * m + 2)%nat. split; [lia|]. rewrite M2, X2. destruct K as [-> |K]; auto.
Qed.
Lemma mvs_given n : given (mvs) (3 * n) = given_by acts n.
Proof.
  induction n as [|n IH]; [reflexivity|]. replace (3 * S n)%nat with (S (S (S (3 * n)))) by lia. cbn [given given_by]. rewrite IH, <- !app_assoc. f_equal.
  assert (Z : given_in (mvs (3 * n)) = []).
  { unfold mvs. cbv zeta. replace ((3 * n) mod 3)%nat with 0%nat by lia. destruct (_ && _); reflexivity. }
  assert (O : given_in (mvs (S (3 * n))) = []).
  { unfold mvs. cbv zeta. replace (S (3 * n) mod 3)%nat with 1%nat by lia. destruct (negb _); reflexivity. }
  rewrite Z, O. cbn [app]. unfold mvs. cbv zeta. replace (S (S (3 * n)) mod 3)%nat with 2%nat by lia. replace (S (S (3 * n)) / 3)%nat with n by lia.
  destruct (acts n); cbn [move_at handed]; try reflexivity; destruct (_ : bool); reflexivity.
Qed.
End Along.

Lemma send_task_done t ws x : s_done (send_task t ws x) = s_done x.
Proof.
  destruct x as [p todo fl done failed]. cbn [send_task]. destruct fl.
  - destruct (poll_flush ws p) as [p' [|[[]|e]]]; reflexivity.
  - destruct todo as [|c rest]; [reflexivity|]. destruct (poll_ready t ws p) as [p' [|[[]|e]]]; try reflexivity. destruct (start_send c p'); reflexivity.
Qed.

(* ------------------------------------------------------------------ C97 *)
(* The reading task is never left waiting while there is something to read, and the sending task is never left waiting while it could go
   on, unless there is no room in the socket: running a task that is not due would change nothing. *)
Theorem C97_no_lost_wakeup : forall s r (may : packet -> Prop) p g now room net cs pk y,
  healthy p -> outstanding p = [] -> Forall (fun c => wf_message (into_msg c)) cs -> under_way p net pk ->
  reaches s r may (base_of p) (play_new p g now room net cs) y ->
  let u := y_crew y in let q := w_panel (u_world u) in
  (u_read_due u = false -> read_task (w_now (u_world u)) (caller_of u) = caller_of u /\ decode (unread (p_conn q)) = Ok (None, unread (p_conn q)) /\
     match pending_arm q with Some (d, _) => w_now (u_world u) < d | None => True end) /\
  (u_send_due u = false ->
     (w_room (u_world u) = 0%nat /\ wbuf (p_conn q) <> []) \/
     ((forall ws, send_task s ws (caller_of u) = caller_of u) /\ u_flushing u = false /\ (u_todo u = [] \/ outstanding q <> [] /\ wbuf (p_conn q) = []))).
Proof.
  intros s r may p g now room net cs pk y HL HO HC HU A. cbv zeta. destruct (reach_after s r may p g now room net cs pk HL HO HC HU y A) as [AA (B & SI & RI)].
  pose proof (reach_pinv s r may p g now room net cs pk HL HO HC HU y A) as I. split.
  - intros D. split; [eapply read_idle; eauto|]. specialize (RI D). destruct RI as (_ & (Q1 & Q2 & Q3 & Q4) & Q5). split; [|destruct (pending_arm _) as [[d m]|]; tauto].
    unfold unread. rewrite Q3. cbn. rewrite app_nil_r. apply I. left. exact Q2.
  - intros D. pose proof (SI D) as J. destruct J as [[E1 E2]|[(_ & _ & R & BN)|((k & P) & E1 & E2)]]; [right|left; auto|right].
    + split; [|auto]. intros ws. unfold caller_of. rewrite E1, E2. reflexivity.
    + assert (WB : wbuf (p_conn (w_panel (u_world (y_crew y)))) = []) by (pose proof I as (_ & _ & _ & _ & K); unfold cmd_ok in K; rewrite P in K; apply K; reflexivity).
      split; [|split; [exact E1|]; right; split; [unfold outstanding; rewrite P; discriminate | exact WB]]. intros ws. eapply send_idle; eauto. intros (_ & _ & _ & K). exact (K WB).
Qed.
(* What lets a task go on makes it due. *)
Theorem C97_woken : forall s r (may : packet -> Prop) p g now room net cs pk y a y',
  healthy p -> outstanding p = [] -> Forall (fun c => wf_message (into_msg c)) cs -> under_way p net pk ->
  reaches s r may (base_of p) (play_new p g now room net cs) y -> turns s r may (base_of p) y a y' ->
  let u := y_crew y in let u' := y_crew y' in
  (a = TDeliver -> u_read_due u' = true) /\
  (forall d dl m, a = TWait d -> pending_arm (w_panel (u_world u)) = Some (dl, m) -> dl <= w_now (u_world u) + d -> u_read_due u' = true) /\
  (forall n, a = TRoom (S n) -> wbuf (p_conn (w_panel (u_world u))) <> [] -> u_flushing u = true \/ u_todo u <> [] -> u_send_due u' = true) /\
  (u_done u' <> u_done u -> wbuf (p_conn (w_panel (u_world u))) = [] -> u_flushing u = true \/ u_todo u <> [] -> u_send_due u' = true).
Proof.
  intros s r may p g now room net cs pk y a y' HL HO HC HU A T. cbv zeta.
  destruct (reach_after s r may p g now room net cs pk HL HO HC HU y A) as [AA (B & SI & RI)].
  pose proof (reach_pinv s r may p g now room net cs pk HL HO HC HU y A) as I. split; [|split; [|split]].
  - intros ->. inversion T as [| | | | | | |x z E Na|]; subst. cbn [y_crew]. unfold outside. cbn [wstep wake u_read_due]. destruct (u_read_due (y_crew y)) eqn:D; [reflexivity|].
    destruct (RI eq_refl) as (-> & _). cbn. rewrite Nat.eqb_refl. reflexivity.
  - intros d dl m -> EP L. inversion T; subst. cbn [y_crew]. unfold outside. cbn [wstep]. rewrite EP. replace (dl <=? w_now (u_world (y_crew y)) + d) with true by lia.
    cbn [wake u_read_due]. destruct (u_read_due (y_crew y)) eqn:D; [reflexivity|]. destruct (RI eq_refl) as (_ & _ & Q). rewrite EP in Q. destruct Q as [_ ->]. cbn. rewrite Nat.eqb_refl. reflexivity.
  - intros n -> WB W. inversion T; subst. cbn [y_crew]. unfold outside. cbn [wstep wake u_send_due]. destruct (u_send_due (y_crew y)) eqn:D; [reflexivity|].
    destruct (SI eq_refl) as [[E1 E2]|[(-> & _)|((k & P) & E1 & E2)]]; [destruct W; congruence | cbn; rewrite Nat.eqb_refl; reflexivity|].
    elim WB. pose proof I as (_ & _ & _ & _ & K). unfold cmd_ok in K. rewrite P in K. apply K. reflexivity.
  - intros ND WB W. destruct T as [| |n|d|t|pkt f Vp Mp Fp|q m body f N' R' G Hb HF|x z E' Na|c Wc]; cbn [y_crew] in *; try congruence.
    + exfalso. apply ND. pose proof (f_equal s_done (run_send_caller s r (y_crew y))) as E. cbn [caller_of s_done] in E. rewrite E.
      destruct (u_send_due (y_crew y)); [apply send_task_done | reflexivity].
    + destruct (y_crew y) as [w todo fl done failed sd rd]. cbn [u_world u_todo u_flushing u_done u_send_due u_read_due] in *. cbn [run_read] in *. destruct rd; [|elim ND; reflexivity].
      destruct (wstep w (WNext r)) as [[[w' b] ks]|e|k] eqn:E; [|elim ND; reflexivity..].
      destruct b as [|[|[[e|e]|]] k|o]; try (elim ND; reflexivity). cbn [wake u_done u_send_due] in *. destruct sd eqn:D; [reflexivity|].
      destruct (e_completes e) as [q|] eqn:EC; [|congruence].
      destruct (SI eq_refl) as [[E1 E2]|[(_ & _ & _ & K)|((q' & P) & E1 & E2)]]; cbn [u_todo u_flushing u_world] in *; [destruct W; congruence | contradiction|].
      cbn [wstep] in E. apply bind_inv in E as ([[[p1 r1] k1] g1] & E1' & E). injection E as <- -> -> <-. pose proof (poll_next_cx_forget r (w_now w) (w_panel w) (w_regs w)) as F.
      rewrite E1' in F. cbn [bind] in F. pose proof (event_cmd _ _ _ _ _ e (poll_next_case _ _ _ _ _ I F) eq_refl) as H. rewrite P in H.
      destruct H as [(m & _ & _ & _ & _ & ->)|(_ & _ & H & _)]; [|congruence]. cbn. rewrite Nat.eqb_refl. reflexivity.
    + elim ND. exact (f_equal s_done (outside_quiet s r (WRoom n) (y_crew y) Logic.I)).
    + elim ND. exact (f_equal s_done (outside_quiet s r (WWait d) (y_crew y) Logic.I)).
    + elim ND. reflexivity.
    + elim ND. exact (f_equal s_done (outside_arrive s r (Bytes x) (y_crew y))).
    + elim ND. reflexivity.
Qed.

(* Run only when woken, the tasks see to it that all the commands given are completed, in order. *)
Theorem C97_all_completed : forall s r (may : packet -> Prop) p g now room net cs pk ys acts k,
  healthy p -> outstanding p = [] -> Forall (fun c => wf_message (into_msg c)) cs -> under_way p net pk ->
  goes_on s r may (base_of p) (play_new p g now room net cs) ys acts -> woken_run (base_of p) ys acts ->
  exists n, forall m, (n <= m)%nat -> u_failed (y_crew (ys m)) = false /\
    exists later, u_done (y_crew (ys m)) = map into_msg (cs ++ given_by acts k) ++ later.
Proof.
  intros s r may p g now room net cs pk ys acts k HL HO HC HU X F.
  destruct (C93_all_completed may p net cs pk (xs ys) (mvs s ys acts) (3 * k) HL HO HC HU) as (n & H); [eapply xs_unfold; eauto | eapply xs_just; eauto|].
  exists n. intros m L. specialize (H (3 * m)%nat ltac:(lia)). unfold xs in H. replace (3 * m / 3)%nat with m in H by lia. rewrite mvs_given in H. exact H.
Qed.

(* If no more are given from some time on, then in the end nothing is left to do. *)
Theorem C97_finishes : forall s r (may : packet -> Prop) p g now room net cs pk ys acts k,
  healthy p -> outstanding p = [] -> Forall (fun c => wf_message (into_msg c)) cs -> under_way p net pk ->
  goes_on s r may (base_of p) (play_new p g now room net cs) ys acts -> woken_run (base_of p) ys acts -> (forall n, (k <= n)%nat -> handed (acts n) = []) ->
  exists n, forall m, (n <= m)%nat -> u_done (y_crew (ys m)) = map into_msg (cs ++ given_by acts k) /\ u_todo (y_crew (ys m)) = [] /\
    outstanding (w_panel (u_world (y_crew (ys m)))) = [] /\ u_failed (y_crew (ys m)) = false.
Proof.
  intros s r may p g now room net cs pk ys acts k HL HO HC HU X F Z.
  destruct (C93_finishes may p net cs pk (xs ys) (mvs s ys acts) (3 * k) HL HO HC HU) as (n & H); [eapply xs_unfold; eauto | eapply xs_just; eauto| |].
  - intros n L. unfold mvs. cbv zeta. destruct (n mod 3)%nat as [|[|j]]; [destruct (_ && _); reflexivity | destruct (negb _); reflexivity|].
    specialize (Z (n / 3)%nat ltac:(lia)). destruct (acts (n / 3)%nat); cbn [move_at handed] in *; try reflexivity; [destruct (_ : bool); reflexivity.. | discriminate Z].
  - exists n. intros m L. specialize (H (3 * m)%nat ltac:(lia)). unfold xs in H. replace (3 * m / 3)%nat with m in H by lia. rewrite mvs_given in H. exact H.
Qed.

(* ---- an example: the socket is full at first ---- *)
Inductive ymv : Type := YSend | YRead | YRoom (n : nat) | YUnasked | YReply | YDeliver (n : nat) | YGive.
Definition ygo (y : play) (v : ymv) : play :=
  let u := y_crew y in
  match v with
  | YSend => mkPlay (run_send 7 8 u) (y_net y) (y_replied y)
  | YRead => mkPlay (run_read 7 8 u) (y_net y) (y_replied y)
  | YRoom n => mkPlay (outside 7 8 (WRoom n) u) (y_net y) (y_replied y)
  | YUnasked => mkPlay u (y_net y ++ bytes_of ex_extra) (y_replied y)
  | YReply => mkPlay u (y_net y ++ bytes_of (ex_result (exchange_of y))) (S (y_replied y))
  | YDeliver n => mkPlay (outside 7 8 (WArrive (Bytes (firstn n (y_net y)))) u) (skipn n (y_net y)) (y_replied y)
  | YGive => mkPlay (hand (CmdActivateTask 3) u) (y_net y) (y_replied y)
  end.
Definition turn_of (v : ymv) : turn :=
  match v with YSend => TSend | YRead => TRead | YRoom n => TRoom n | YUnasked => TUnasked | YReply => TReply | YDeliver _ => TDeliver | YGive => TGive (CmdActivateTask 3) end.
Definition can_ygo (y : play) (v : ymv) : bool :=
  match v with
  | YReply => can_go (exchange_of y) XReply
  | YDeliver n => can_go (exchange_of y) (XDeliver n)
  | _ => true
  end.
(* both tasks are run and told to wait; room for five bytes, then for more; a packet of the panel's own; nothing is left to send; the second command
   is given; the first reply, in two pieces; the second command is sent; its reply *)
Definition yplan : list ymv :=
  [YSend; YSend; YRead; YRoom 5; YSend; YRoom 100; YUnasked; YSend; YSend; YGive; YSend; YDeliver 3; YRead; YReply; YDeliver 20; YRead; YRead; YDeliver 99; YRead; YRead;
   YSend; YSend; YSend; YReply; YDeliver 99; YRead; YRead; YSend].
Definition yturn (n : nat) : ymv := nth n yplan (if Nat.even n then YSend else YRead).
Definition ystart : play := play_new ex_panel (mkRegs None None None) 0 0 [] ex_first.
Fixpoint yat (n : nat) : play := match n with O => ystart | S n' => ygo (yat n') (yturn n') end.
Lemma can_ygo_turns y v : can_ygo y v = true -> turns 7 8 ex_may (base_of ex_panel) y (turn_of v) (ygo y v).
Proof.
  destruct v as [| |n| | |n|]; cbn [can_ygo turn_of ygo]; intros H; try solve [constructor].
  - pose proof (can_go_moves (exchange_of y) XUnasked eq_refl) as M. inversion M as [| |pkt f Vp Mp Fp EM EN| | | |]; clear EM; subst. apply app_inv_head in EN. subst f.
    apply (T_unasked 7 8 ex_may _ y pkt); assumption.
  - pose proof (can_go_moves (exchange_of y) XReply H) as M. inversion M as [| | |q m body f N R G Hb HF EM EN| | |]; clear EM; subst. apply app_inv_head in EN. subst f.
    exact (T_reply 7 8 ex_may _ y q m body _ N R G Hb HF).
  - cbn [can_go exchange_of x_net] in H. apply (T_deliver 7 8 ex_may _ y (firstn n (y_net y)) (skipn n (y_net y))); [symmetry; apply firstn_skipn|]. intros E. rewrite E in H. discriminate H.
  - constructor. repeat constructor; discriminate.
Qed.
Definition yfinal : play := Eval vm_compute in yat (length yplan).
Lemma yat_final n : (length yplan <= n)%nat -> yat n = yfinal.
Proof.
  intros L. replace n with ((n - length yplan) + length yplan)%nat by lia. generalize (n - length yplan)%nat as k. induction k as [|k IH]; [vm_compute; reflexivity|].
  change (ygo (yat (k + length yplan)) (yturn (k + length yplan)) = yfinal). rewrite IH. unfold yturn. rewrite nth_overflow by lia.
  destruct (Nat.even _); reflexivity.
Qed.
Lemma ycan n : can_ygo (yat n) (yturn n) = true.
Proof.
  destruct (Nat.ltb_spec n (length yplan)) as [L|L].
  - assert (X : forallb (fun n => can_ygo (yat n) (yturn n)) (seq 0 (length yplan)) = true) by (vm_compute; reflexivity).
    rewrite forallb_forall in X. apply X, in_seq. lia.
  - unfold yturn. rewrite nth_overflow by lia. destruct (Nat.even n); reflexivity.
Qed.
Definition dues (n : nat) : bool * bool := (u_send_due (y_crew (yat n)), u_read_due (y_crew (yat n))).
(* after 2 steps the sending task waits for room, after 5 for more room, after 9 it has nothing to do, after 10 it has, after 11 it waits for the reply, after 17 it
   still does although half of the reply has arrived and been read; after 19 the first command is complete; in the end nothing is due and both commands are complete *)
Example C97_example :
  goes_on 7 8 ex_may (base_of ex_panel) ystart yat (fun n => turn_of (yturn n)) /\ woken_run (base_of ex_panel) yat (fun n => turn_of (yturn n)) /\
  (forall n, reaches 7 8 ex_may (base_of ex_panel) ystart (yat n)) /\
  map dues [2; 3; 4; 5; 6; 9; 10; 11; 12; 17; 18; 19; 20; 28]%nat =
    [(false, true); (false, false); (true, false); (false, false); (true, false); (false, false); (true, false); (false, false); (false, true); (false, false); (false, true); (true, true); (true, false); (false, false)] /\
  map (fun n => length (u_done (y_crew (yat n)))) [18; 19; 26]%nat = [0; 1; 2]%nat.
Proof.
  assert (X : goes_on 7 8 ex_may (base_of ex_panel) ystart yat (fun n => turn_of (yturn n))).
  { split; [reflexivity|]. intros n. apply (can_ygo_turns (yat n) (yturn n)), ycan. }
  split; [exact X|]. split; [|split; [|vm_compute; auto]].
  - unfold woken_run. repeat apply conj; intros n; exists (n + length yplan)%nat; (split; [lia|]); rewrite ?yat_final by lia.
    + right. reflexivity.
    + right. reflexivity.
    + discriminate.
    + right. intros q (qs & fs & rest & F & E & L).
      assert (E2 : put (exchange_of yfinal) = base_of ex_panel ++ concat (map bytes_of (map into_msg ex_commands)) ++ []) by (vm_compute; reflexivity).
      rewrite E2 in E. apply app_inv_head in E.
      assert (OK : Forall wf_message (map into_msg ex_commands)) by (apply Forall_map; exact ex_commands_ok).
      destruct (requests_unique _ _ (ex_frames _ OK) _ _ _ _ F E) as (c & EC); [constructor | reflexivity|].
      apply (f_equal (@length _)) in EC. rewrite !app_length, L in EC. vm_compute in EC. lia.
    + right. reflexivity.
  - induction n as [|n IH]; [apply Y_new|]. eapply Y_turn; [exact IH | apply X].
Qed.

Print Assumptions C97_no_lost_wakeup.
Print Assumptions C97_woken.
Print Assumptions C97_all_completed.
Print Assumptions C97_finishes.
