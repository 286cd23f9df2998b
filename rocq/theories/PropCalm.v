(* PropCalm.v: C110: watch does not run in circles (elkm1-cli/src/main.rs:18-58, 97-103). *)
From Verif Require Import Base BaseFacts Pkt SpecPkt PktFacts DecodeFacts Msg SpecMsg DecFacts MsgFacts WireFacts IsoFacts
  Tokio SpecConn ConnFacts OwedFacts PairFacts State SpecState StateFacts RunFacts HistFacts ViewFacts SpecInit InitFacts SpecFail ExState PropState PropSink PropLive PropConnect PropFail
  Cli SpecCli PropCli SpecStory PropStory WakeWatch SpecView PropView SpecCalm.
From Verif Require WakeInit SpecWakeInit PropWakeInit Wake PropWake PropRest.
From Coq Require Import ZifyBool ZifyNat ZifyN.
Ltac Zify.zify_post_hook ::= Z.div_mod_to_equations.

(* ---- what is left to do, each piece weighed by the runs it may take, as in PropRest.v ---- *)
Definition due1 (v : viewer) : nat := if y_due v then 1%nat else 0%nat.
Definition left_over (w : watcher) (d : nat) : nat :=
  match w with WConnecting i => (PropRest.init_work i + d)%nat | WLoop p _ => (PropRest.panel_work p + d)%nat | _ => 0%nat end.
Definition ywork (v : viewer) : nat := left_over (y_watch v) (due1 v).
Lemma due1_le v : (due1 v <= 1)%nat.
Proof. unfold due1. destruct (y_due v); lia. Qed.
Lemma result_work i d : (left_over (connect_result i) d <= PropRest.init_work i + d)%nat.
Proof. destruct i; cbn [connect_result left_over PropRest.init_work]; lia. Qed.
Lemma run_less v : yinv v -> run_needed v YRun = true -> (ywork (ystep v YRun) < ywork v)%nat.
Proof.
  intros I N. pose proof I as I0. unfold yinv in I0. cbn [run_needed] in N. unfold ywork, due1 at 2. destruct (y_watch v) as [i|p log|log|log why] eqn:E; try discriminate N; rewrite N; cbn [left_over].
  - rewrite (ystep_connecting _ _ _ E). destruct I0 as [(s & ph & p & ->) [II _]]. cbn [connect_task WakeInit.k_state] in II. cbn [as_cact]. unfold connect_move, due1. cbn [y_watch y_due].
    unfold connect_task at 1. cbn [WakeInit.cstep]. rewrite N. set (k := WakeInit.mkClient _ _ _ _ _ _ _). unfold connect_task. cbn [WakeInit.cstep]. rewrite N. fold k.
    destruct (PropRest.step_work (y_now v) (WakeInit.cwrites k) s ph p II) as [S1 S2].
    pose proof (result_work (istep (y_now v) (WakeInit.cwrites k) (IRun s ph p))) as RW.
    destruct (WakeInit.iwaits (WakeInit.cwrites k) (IRun s ph p)) as [[]|]; cbn [WakeInit.k_state WakeInit.k_runnable].
    + specialize (RW 0%nat). lia.
    + specialize (RW 0%nat). lia.
    + specialize (RW 1%nat). specialize (S2 eq_refl). destruct (istep (y_now v) (WakeInit.cwrites k) (IRun s ph p)) as [s2 ph2 p2|p2|e|y] eqn:EI.
      * assert (PropRest.init_work (IRun s2 ph2 p2) < PropRest.init_work (IRun s ph p))%nat by (apply S2; left; eauto). lia.
      * assert (PropRest.init_work (IDone p2) < PropRest.init_work (IRun s ph p))%nat by (apply S2; right; eauto). lia.
      * cbn [connect_result left_over]. lia.
      * cbn [connect_result left_over]. lia.
  - destruct I0 as (PI & U & _). unfold ystep. rewrite E, N. destruct (loop_next v p PI) as (x & r & k & ks & EW & EP). destruct (PropRest.next_work _ _ _ _ _ PI EP) as [W1 W2].
    unfold loop_poll. rewrite EW. cbn [wstep]. rewrite EP. unfold due1. destruct r as [|[[e|er]|]]; cbn [loop_put y_watch y_due left_over]; try lia.
    specialize (W2 (ex_intro _ e eq_refl)). destruct (watch_event _ e); cbn [left_over]; lia.
Qed.
Lemma idle_same v : yinv v -> run_needed v YRun = false -> y_watch (ystep v YRun) = y_watch v /\ y_due (ystep v YRun) = y_due v.
Proof.
  intros I N. pose proof (ystep_watch v YRun I) as W. cbn [run_needed] in N. destruct (y_watch v) as [i|p log|log|log why] eqn:E.
  - rewrite N in W. split; [exact W|]. rewrite (ystep_connecting _ _ _ E). unfold connect_move. cbn [y_due as_cact]. unfold connect_task. cbn [WakeInit.cstep]. rewrite N. reflexivity.
  - rewrite N in W. split; [exact W|]. unfold ystep. rewrite E, N. exact N.
  - unfold ystep. rewrite E. auto.
  - unfold ystep. rewrite E. auto.
Qed.
Definition carried (a : yact) : nat := match a with YArrive x => 4 * length (arrival_data x) + 1 | YRun => 0 | _ => 1 end%nat.
Lemma other_more v a : yinv v -> match a with YRun => False | _ => True end -> (ywork (ystep v a) <= ywork v + carried a)%nat.
Proof.
  intros I NR. pose proof (ystep_watch v a I) as W. pose proof (due1_le v). pose proof (due1_le (ystep v a)). unfold ywork at 1. rewrite W.
  assert (SB : (left_over (y_watch v) (due1 (ystep v a)) <= ywork v + 1)%nat) by (unfold ywork; destruct (y_watch v); cbn [left_over]; lia).
  destruct a as [x|n|e|d| |]; try contradiction; cbn [carried]; try lia. unfold ywork. unfold yinv in I. destruct (y_watch v) as [i|p log|log|log why]; cbn [wstep left_over]; try lia.
  - destruct I as [(s & ph & p & ->) _]. cbn [iarrive PropRest.init_work]. unfold PropRest.panel_work, PropRest.held. cbn [p_conn with_conn pending_arm]. rewrite arrive_unread, app_length. lia.
  - unfold PropRest.panel_work, PropRest.held. cbn [p_conn with_conn pending_arm]. rewrite arrive_unread, app_length. lia.
Qed.
Lemma total_runs l : forall v, yinv v -> Forall yact_ok l ->
  (needed_runs v l + ywork (fold_left ystep l v) <= ywork v + 4 * length (y_bytes l) + occurrences l)%nat.
Proof.
  induction l as [|a l IH]; intros v I F; [cbn; lia|]. inversion F as [|? ? Fa Fl]; subst. cbn [needed_runs fold_left]. specialize (IH (ystep v a) (ystep_inv _ _ Fa I) Fl).
  assert (B : (4 * length (y_bytes (a :: l)) + occurrences (a :: l) = carried a + (4 * length (y_bytes l) + occurrences l))%nat).
  { unfold y_bytes, occurrences. cbn [map concat]. rewrite app_length. destruct a; cbn [filter length carried]; lia. }
  destruct (run_needed v a) eqn:N.
  - destruct a; try discriminate N. pose proof (run_less v I N). cbn [carried] in B. lia.
  - destruct a as [x|n|e|d| |]; try (match type of IH with context [ystep v ?a] => pose proof (other_more v a I Logic.I) end; lia).
    destruct (idle_same v I N) as [E1 E2]. assert (ywork (ystep v YRun) = ywork v) by (unfold ywork, due1; rewrite E1, E2; reflexivity). lia.
Qed.

(* However long it goes on, the task is run no more often than there is cause for: three times to begin with, four times for every byte the
   panel sends, and once for everything that happens. *)
Theorem C110_few_runs : forall l, Forall yact_ok l -> (needed_runs viewer_new l <= 3 + 4 * length (y_bytes l) + occurrences l)%nat.
Proof. intros l F. pose proof (total_runs l viewer_new yinv_new F) as T. change (ywork viewer_new) with 3%nat in T. lia. Qed.
(* So it comes to rest: after that many runs with nothing happening in between it has ended, or is not due and there is nothing that it could do. *)
Theorem C110_comes_to_rest : forall l n, Forall yact_ok l -> (4 * unused (yrun l) + 4 <= n)%nat ->
  let v := yrun (l ++ repeat YRun n) in over v \/ y_due v = false /\ nothing_to_do v.
Proof.
  intros l n F L. cbv zeta. assert (F2 : Forall yact_ok (l ++ repeat YRun n)) by (apply Forall_app; split; [exact F | apply Forall_forall; intros a H; apply repeat_spec in H as ->; exact Logic.I]).
  enough (X : over (yrun (l ++ repeat YRun n)) \/ y_due (yrun (l ++ repeat YRun n)) = false).
  { destruct X as [X|X]; [auto|]. right. split; [exact X|]. apply (C108_no_lost_wakeup _ F2 X). }
  pose proof (yrun_inv l F) as I. clear F2. unfold yrun in *. rewrite fold_left_app.
  assert (W : (ywork (fold_left ystep l viewer_new) <= n)%nat).
  { revert L I. generalize (fold_left ystep l viewer_new). intros v L I. pose proof (due1_le v). unfold ywork, unused, yinv in *. destruct (y_watch v) as [i|p log|log|log why]; cbn [left_over]; [| |lia..].
    - destruct I as [(s & ph & p & ->) _]. unfold PropRest.init_work, PropRest.panel_work. pose proof (PropRest.held_le p). destruct ph; cbn [PropRest.phase_work]; lia.
    - unfold PropRest.panel_work. pose proof (PropRest.held_le p). lia. }
  clear L F. revert W I. generalize (fold_left ystep l viewer_new). induction n as [|n IH]; intros v W I; cbn [repeat fold_left].
  - unfold ywork, due1 in W. unfold over. destruct (y_watch v) eqn:E; cbn [left_over] in W; [right; destruct (y_due v); [lia | reflexivity].. | left | left]; eauto.
  - assert (I' : yinv (ystep v YRun)) by (apply ystep_inv; [exact Logic.I | exact I]). destruct (run_needed v YRun) eqn:N.
    + apply IH; [|exact I']. pose proof (run_less v I N). lia.
    + assert (X : forall k u, yinv u -> y_watch u = y_watch v /\ y_due u = y_due v -> y_watch (fold_left ystep (repeat YRun k) u) = y_watch v /\ y_due (fold_left ystep (repeat YRun k) u) = y_due v).
      { induction k as [|k IK]; intros u IU [E1 E2]; [auto|]. cbn [repeat fold_left]. apply IK; [apply ystep_inv; [exact Logic.I | exact IU]|].
        assert (N0 : run_needed u YRun = false) by (cbn [run_needed] in *; rewrite E1, E2; exact N). destruct (idle_same u IU N0) as [-> ->]. auto. }
      destruct (X n (ystep v YRun) I' (idle_same v I N)) as [E1 E2]. rewrite E2. cbn [run_needed] in N. unfold over. rewrite E1. destruct (y_watch v); eauto.
Qed.

(* Connecting, and then three packets at once, one of which is held for five seconds, as in the example of C108: 37 runs are needed.  Four of them are
   for the three packets: the fourth finds nothing more to do, and no more are made. *)
Example C110_example : Forall yact_ok ex_viewing /\ length (y_bytes ex_viewing) = 687%nat /\ occurrences ex_viewing = 12%nat /\ needed_runs viewer_new ex_viewing = 37%nat /\
  let l := firstn 44 ex_viewing in unused (yrun l) = 266%nat /\ needed_runs (yrun l) (repeat YRun 1068) = 4%nat /\ y_due (yrun (l ++ repeat YRun 1068)) = false.
Proof. split; [exact ex_viewing_ok|]. vm_compute. auto 10. Qed.

Print Assumptions C110_few_runs.
Print Assumptions C110_comes_to_rest.
