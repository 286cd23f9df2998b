(* PropView.v: C108, watch as a task that is only run when woken; C109, watch with a panel that answers (elkm1-cli/src/main.rs:18-58, 97-103). *)
From Verif Require Import Base BaseFacts Pkt SpecPkt PktFacts DecodeFacts Msg SpecMsg DecFacts MsgFacts WireFacts IsoFacts
  Tokio SpecConn ConnFacts OwedFacts PairFacts State SpecState StateFacts RunFacts HistFacts ViewFacts SpecInit InitFacts SpecFail ExState PropState PropSink PropLive PropConnect PropFail
  Cli SpecCli PropCli SpecStory PropStory WakeWatch SpecView.
From Verif Require WakeInit SpecWakeInit PropWakeInit Wake PropWake HostFacts.
From Coq Require Import ZifyBool ZifyNat ZifyN.
Ltac Zify.zify_post_hook ::= Z.div_mod_to_equations.

(* ---- the invariant ---- *)
Definition yinv (v : viewer) : Prop :=
  match y_watch v with
  | WConnecting i => running i /\ PropWakeInit.kinv (connect_task v i)
  | WLoop p _ => pinv p /\ up p /\ (y_due v = false -> PropWake.asleep WATCH (loop_world v p))
  | _ => y_due v = true
  end.
Lemma yinv_new : yinv viewer_new.
Proof. split; [repeat eexists|]. split; [apply (irun_inv [] (Forall_nil _)) | discriminate]. Qed.
(* what the socket answers to writes *)
Definition ywrites (v : viewer) : list wr := WakeInit.cwrites (connect_task v (init_start conn_new)).
Lemma kept_kept b : is_kept (to_keep b) = b.
Proof. destruct b; reflexivity. Qed.
Lemma task_again v i a w : connect_result (WakeInit.k_state (WakeInit.cstep (connect_task v i) a)) = w ->
  y_watch (connect_move v i a) = w /\ connect_task (connect_move v i a) (WakeInit.k_state (WakeInit.cstep (connect_task v i) a)) = WakeInit.cstep (connect_task v i) a.
Proof.
  intros <-. split; [reflexivity|]. unfold connect_task at 1, connect_move. cbn [y_due y_regs Wake.g_read Wake.g_write y_now y_room y_broken]. rewrite !kept_kept. destruct (WakeInit.cstep (connect_task v i) a). reflexivity.
Qed.
Definition as_cact (a : yact) : WakeInit.cact :=
  match a with YArrive x => WakeInit.CArrive x | YRoom n => WakeInit.CRoom n | YBreak e => WakeInit.CBreak e | YWait d => WakeInit.CWait d | YWake => WakeInit.CWake | YRun => WakeInit.CRun end.
Lemma ystep_connecting v a i : y_watch v = WConnecting i -> ystep v a = connect_move v i (as_cact a).
Proof. intros E. unfold ystep. rewrite E. destruct a; reflexivity. Qed.
Lemma connect_next v i a : running i ->
  match as_cact a with
  | WakeInit.CArrive x => WakeInit.k_state (WakeInit.cstep (connect_task v i) (as_cact a)) = iarrive x i
  | WakeInit.CRun => WakeInit.k_state (WakeInit.cstep (connect_task v i) (as_cact a)) = if y_due v then istep (y_now v) (ywrites v) i else i
  | _ => WakeInit.k_state (WakeInit.cstep (connect_task v i) (as_cact a)) = i
  end.
Proof.
  intros _. destruct a as [x|[|n]|e|d| |]; try reflexivity. cbn [as_cact]. unfold connect_task. cbn [WakeInit.cstep]. destruct (y_due v); [|reflexivity].
  destruct (WakeInit.iwaits _ i) as [[]|]; reflexivity.
Qed.
(* a step of the task as a step of Cli.v *)
Lemma ystep_watch v a : yinv v -> y_watch (ystep v a) =
  match a with
  | YArrive x => wstep (y_watch v) (IArrive x)
  | YRun => if y_due v then wstep (y_watch v) (IStep (y_now v) (ywrites v)) else y_watch v
  | _ => y_watch v
  end.
Proof.
  intros I. unfold yinv in I. destruct (y_watch v) as [i|p log|log|log why] eqn:E.
  - rewrite (ystep_connecting _ _ _ E). destruct I as [R K]. pose proof (connect_next v i a R) as N. destruct R as (s & ph & p & ->).
    unfold connect_move. cbn [y_watch]. destruct a as [x|n|e|d| |]; cbn [as_cact] in N |- *; rewrite N; try reflexivity.
    destruct (y_due v); [|reflexivity]. cbn [wstep]. destruct (istep _ _ _); reflexivity.
  - unfold ystep. rewrite E. destruct a as [x|[|n]|e|d| |]; try reflexivity.
    + unfold loop_outside. cbn [Wake.wstep loop_world Wake.w_panel]. destruct (pending_arm p) as [[dl r]|]; [destruct (dl <=? _)|]; reflexivity.
    + destruct (y_due v); [|exact E]. unfold loop_poll. change (wstep (WLoop p log) (IStep (y_now v) [])) with (wstep (WLoop p log) (IStep (y_now v) (ywrites v))).
      destruct (Wake.wstep (loop_world v p) (Wake.WNext WATCH)) as [[[x [|[|o] k|r]] ks]|er|y]; reflexivity.
  - unfold ystep. rewrite E. rewrite I. destruct a; exact E.
  - unfold ystep. rewrite E. rewrite I. destruct a; exact E.
Qed.
Lemma put_world w x d : loop_world (loop_put w x d) (Wake.w_panel x) = x.
Proof. destruct x. reflexivity. Qed.
Lemma not_woken ks : existsb (Nat.eqb WATCH) ks = false -> ~ In WATCH ks.
Proof. intros E H. rewrite <- Bool.not_true_iff_false in E. apply E. apply existsb_exists. exists WATCH. split; [exact H | reflexivity]. Qed.
Lemma outside_inv v p log a : pinv p -> up p -> (y_due v = false -> PropWake.asleep WATCH (loop_world v p)) -> PropWake.act_ok a -> match a with Wake.WArrive _ | Wake.WRoom _ | Wake.WBreak _ | Wake.WWait _ => True | _ => False end ->
  yinv (loop_outside v p log a).
Proof.
  intros I U Q O L. unfold loop_outside. destruct (Wake.wstep (loop_world v p) a) as [[[x b] ks]|e|y] eqn:E; [|exfalso; destruct a; try contradiction; cbn [Wake.wstep] in E; try discriminate E..].
  2,4: destruct n; discriminate E.
  2-3: cbn [loop_world Wake.w_panel] in E; destruct (pending_arm p) as [[dl r]|]; [destruct (dl <=? _)|]; discriminate E.
  assert (UX : up (Wake.w_panel x)).
  { destruct a; try contradiction; cbn [Wake.wstep loop_world Wake.w_panel] in E; [injection E as <- _ _; exact U | destruct n; injection E as <- _ _; exact U | injection E as <- _ _; exact U|].
    destruct (pending_arm p) as [[dl r]|]; [destruct (dl <=? _)|]; injection E as <- _ _; exact U. }
  unfold yinv. cbn [loop_put y_watch y_due]. split; [exact (PropWake.wstep_pinv (loop_world v p) a x b ks E O I)|]. split; [exact UX|]. intros D. apply orb_false_elim in D as [D NW].
  change (mkViewer _ _ _ _ _ _) with (loop_put (WLoop (Wake.w_panel x) log) x (y_due v || existsb (Nat.eqb WATCH) ks)). rewrite put_world.
  refine (PropWake.asleep_step WATCH (loop_world v p) a x b ks I (Q D) O _ E (not_woken _ NW)). destruct a; try contradiction; reflexivity.
Qed.
Lemma loop_next v p : pinv p -> exists x r k ks, Wake.wstep (loop_world v p) (Wake.WNext WATCH) = Ok (x, ONext r k, ks) /\ poll_next (y_now v) p = Ok (Wake.w_panel x, r, k).
Proof.
  intros I. destruct (poll_next_spec (y_now v) p I) as (p' & r & w & E & _). pose proof (PropWake.wstep_call (loop_world v p) (Wake.WNext WATCH)) as C. cbn [PropWake.call_of step loop_world Wake.w_panel Wake.w_now] in C.
  rewrite E in C. cbn [bind] in C. destruct C as (x & ks & C & D). exists x, r, w, ks. split; [exact C|]. rewrite <- D in E. exact E.
Qed.
Lemma run_inv v p log : pinv p -> up p -> yinv (loop_poll v p log).
Proof.
  intros I U. destruct (loop_next v p I) as (x & r & k & ks & EW & EP). destruct (poll_next_spec (y_now v) p I) as (p' & r' & w' & E & I' & P). rewrite EP in E. injection E as <- <- <-.
  pose proof (polled_case _ _ _ _ _ P I) as PC. destruct (step_inv p (PollNext (y_now v)) (Wake.w_panel x) (ONext r k) I Logic.I) as [_ ST]; [cbn [step]; rewrite EP; reflexivity|]. pose proof (up_step _ _ _ _ ST I U) as U'.
  unfold loop_poll. rewrite EW. cbn [wstep]. rewrite EP. destruct r as [|[[e|er]|]]; unfold yinv; cbn [loop_put y_watch y_due]; [|destruct (watch_event_spec _ _ _ _ _ e PC eq_refl I I' U) as (ls & -> & _)| |]; cbn [loop_put y_watch y_due].
  - split; [exact I'|]. split; [exact U'|]. intros _. change (mkViewer _ _ _ _ _ _) with (loop_put (WLoop (Wake.w_panel x) log) x false). rewrite put_world. eapply PropWake.wnext_pending; [|exact EW]. exact I.
  - split; [exact I'|]. split; [exact U' | discriminate].
  - reflexivity.
  - reflexivity.
Qed.
Lemma ystep_inv v a : yact_ok a -> yinv v -> yinv (ystep v a).
Proof.
  intros O I. pose proof I as I0. unfold yinv in I0. destruct (y_watch v) as [i|p log|log|log why] eqn:E.
  - rewrite (ystep_connecting _ _ _ E). destruct I0 as [R K]. assert (OC : SpecWakeInit.cact_ok (as_cact a)) by (destruct a; exact O).
    pose proof (PropWakeInit.cstep_kinv _ _ OC K) as K'. destruct (task_again v i (as_cact a) _ eq_refl) as [EW ET]. unfold yinv. rewrite EW.
    destruct (WakeInit.k_state (WakeInit.cstep (connect_task v i) (as_cact a))) as [s ph p|p|e|w] eqn:ES; cbn [connect_result].
    + split; [repeat eexists|]. rewrite ET. exact K'.
    + destruct K' as [II NR]. rewrite ES in II. destruct II as (PI & _ & UP & _). split; [exact PI|]. split; [exact UP|]. intros D. exfalso.
      change (WakeInit.k_runnable (WakeInit.cstep (connect_task v i) (as_cact a)) = false) in D. specialize (NR D). unfold PropWakeInit.rests in NR. rewrite ES in NR. exact NR.
    + change (WakeInit.k_runnable (WakeInit.cstep (connect_task v i) (as_cact a)) = true). destruct (WakeInit.k_runnable _) eqn:D; [reflexivity|]. destruct K' as [_ NR]. specialize (NR D). unfold PropWakeInit.rests in NR. rewrite ES in NR. destruct NR.
    + change (WakeInit.k_runnable (WakeInit.cstep (connect_task v i) (as_cact a)) = true). destruct (WakeInit.k_runnable _) eqn:D; [reflexivity|]. destruct K' as [_ NR]. specialize (NR D). unfold PropWakeInit.rests in NR. rewrite ES in NR. destruct NR.
  - destruct I0 as (PI & U & Q). unfold ystep. rewrite E. destruct a as [x|n|e|d| |]; try (apply outside_inv; auto; exact Logic.I).
    + unfold yinv. cbn [y_watch y_due]. split; [exact PI|]. split; [exact U | discriminate].
    + destruct (y_due v); [apply run_inv; assumption | exact I].
  - unfold ystep. rewrite E. exact I.
  - unfold ystep. rewrite E. exact I.
Qed.
Lemma yrun_snoc l a : yrun (l ++ [a]) = ystep (yrun l) a.
Proof. unfold yrun. rewrite fold_left_app. reflexivity. Qed.
Lemma yrun_inv l : Forall yact_ok l -> yinv (yrun l).
Proof.
  induction l as [|a l IH] using rev_ind; intros HO; [exact yinv_new|]. apply Forall_app in HO as [HO HA]. inversion HA; subst. rewrite yrun_snoc. apply ystep_inv; auto.
Qed.

(* ================= C108 ================= *)
(* Run only when woken, watch does what Cli.v says, with the same arrivals, so that C53, C54, C106 and C107 apply. *)
Lemma y_arrivals_app l l' : y_arrivals (l ++ l') = y_arrivals l ++ y_arrivals l'.
Proof. apply flat_map_app. Qed.
Lemma iop_arrivals h : Forall iop_ok h <-> Forall arrival_u8 (iarrivals h).
Proof.
  induction h as [|[x|now ws] h IH]; [split; constructor|..]; cbn [iarrivals flat_map app]; split; intros F.
  - inversion F; subst. constructor; [assumption|]. apply IH. assumption.
  - inversion F; subst. constructor; [assumption|]. apply IH. assumption.
  - inversion F; subst. apply IH. assumption.
  - constructor; [exact Logic.I|]. apply IH. exact F.
Qed.
Theorem C108_is_watch : forall l, Forall yact_ok l -> exists h, Forall iop_ok h /\ iarrivals h = y_arrivals l /\ watch h = y_watch (yrun l).
Proof.
  induction l as [|a l IH] using rev_ind; intros HO; [exists []; repeat split; constructor|]. apply Forall_app in HO as [HO HA]. inversion HA as [|? ? Ha _]; subst.
  destruct (IH HO) as (h & Hh & EA & EW). rewrite yrun_snoc, (ystep_watch _ _ (yrun_inv _ HO)), y_arrivals_app, <- EW, <- EA.
  assert (Same : exists h', Forall iop_ok h' /\ iarrivals h' = iarrivals h ++ [] /\ watch h' = watch h) by (exists h; rewrite app_nil_r; auto).
  destruct a as [x|n|e|d| |]; try exact Same.
  - exists (h ++ [IArrive x]). rewrite watch_snoc, iarrivals_app. split; [apply Forall_app; auto | auto].
  - destruct (y_due (yrun l)); [|exact Same]. exists (h ++ [IStep (y_now (yrun l)) (ywrites (yrun l))]). rewrite watch_snoc, iarrivals_app. split; [apply Forall_app; repeat constructor; auto | auto].
Qed.
Lemma asleep_reads v p : pinv p -> PropWake.asleep WATCH (loop_world v p) -> nothing_to_read (p_conn p) /\ match pending_arm p with Some (d, _) => y_now v < d | None => True end.
Proof.
  intros I (_ & (Q1 & Q2 & Q3 & Q4) & T). cbn [loop_world Wake.w_panel Wake.w_now Wake.w_regs] in *. split.
  - split; [|auto]. unfold unread. rewrite Q3. cbn. rewrite app_nil_r. apply I. left. exact Q2.
  - destruct (pending_arm p) as [[d r]|]; tauto.
Qed.
(* When it is not to be run there is nothing for it to do: running it anyway would change nothing. *)
Theorem C108_no_lost_wakeup : forall l, Forall yact_ok l -> y_due (yrun l) = false ->
  nothing_to_do (yrun l) /\ y_watch (run_anyway (yrun l)) = y_watch (yrun l) /\ y_due (run_anyway (yrun l)) = false.
Proof.
  intros l HO D. pose proof (yrun_inv l HO) as I. set (v := yrun l) in *. unfold yinv in I. unfold nothing_to_do, run_anyway, ystep. cbn [y_watch y_due].
  destruct (y_watch v) as [i|p log|log|log why] eqn:E; [| |congruence..].
  - destruct I as ((s & ph & p & ->) & K). destruct K as [II R]. specialize (R D). pose proof (PropWakeInit.rests_idle _ (y_now v) II R) as ID. cbn [connect_task WakeInit.k_state] in ID.
    unfold PropWakeInit.rests in R. cbn [connect_task WakeInit.k_state WakeInit.k_writer WakeInit.k_reader WakeInit.k_room WakeInit.k_broken] in R, II.
    destruct II as (PI & _ & _ & W). split.
    + destruct ph; [contradiction| |]; [right; tauto|]. left. destruct R as (_ & Q1 & Q2 & Q3 & Q4). split; [apply W; discriminate|]. split; [|auto].
      unfold unread. rewrite Q3. cbn. rewrite app_nil_r. apply PI. left. exact Q2.
    + unfold connect_move, connect_task. cbn [y_due y_regs y_now y_room y_broken WakeInit.cstep].
      change (WakeInit.cwrites (WakeInit.mkClient _ _ _ _ _ _ _)) with (WakeInit.cwrites (connect_task v (IRun s ph p))). rewrite ID.
      destruct ph; [contradiction| |]; cbn [WakeInit.iwaits].
      * destruct R as (_ & R2 & R3 & R4). unfold conn_poll_flush, WakeInit.cwrites. cbn [connect_task WakeInit.k_broken WakeInit.k_room]. rewrite R3, R2. destruct (wbuf (p_conn p)) as [|b buf] eqn:EB; [congruence|]. cbn. auto.
      * destruct R as (_ & Q1 & Q2 & Q3 & Q4). destruct (conn_next_total _ (proj1 PI)) as (c & r & EN & _). rewrite EN. destruct (PropWakeInit.idle_next _ _ _ (proj1 PI) Q1 Q2 Q3 Q4 EN) as [-> ->]. cbn. auto.
  - destruct I as (PI & U & Q). specialize (Q D). split; [apply asleep_reads; assumption|]. unfold loop_poll. cbn [y_now].
    set (v' := mkViewer _ _ _ _ _ _). assert (EL : loop_world v' p = loop_world v p) by reflexivity. rewrite EL, (HostFacts.next_same WATCH (loop_world v p) PI Q).
    cbn [loop_put y_watch y_due]. split; [|reflexivity]. destruct (loop_next v p PI) as (x & r & k & ks & EW & EP). rewrite (HostFacts.next_same WATCH (loop_world v p) PI Q) in EW. injection EW as <- <- <- <-.
    cbn [wstep]. rewrite EP. reflexivity.
Qed.
(* And it is woken by anything that gives it something to do. *)
Theorem C108_woken : forall l, Forall yact_ok l -> y_due (yrun l) = false ->
  match y_watch (yrun l) with
  | WConnecting (IRun _ _ p) =>
      (wbuf (p_conn p) = [] -> forall a, y_due (ystep (yrun l) (YArrive a)) = true) /\
      (wbuf (p_conn p) <> [] -> (forall n, y_due (ystep (yrun l) (YRoom (S n))) = true) /\ forall e, y_due (ystep (yrun l) (YBreak e)) = true)
  | WLoop p _ => (forall a, y_due (ystep (yrun l) (YArrive a)) = true) /\
      (forall d r dt, pending_arm p = Some (d, r) -> d <= y_now (yrun l) + dt -> y_due (ystep (yrun l) (YWait dt)) = true)
  | _ => False
  end.
Proof.
  intros l HO D. pose proof (yrun_inv l HO) as I. set (v := yrun l) in *. unfold yinv in I. destruct (y_watch v) as [i|p log|log|log why] eqn:E; [| |congruence..].
  - destruct I as ((s & ph & p & ->) & K). destruct K as [II R]. specialize (R D). unfold PropWakeInit.rests in R. cbn [connect_task WakeInit.k_state WakeInit.k_writer WakeInit.k_reader WakeInit.k_room WakeInit.k_broken] in R, II.
    destruct II as (_ & _ & _ & W). unfold ystep. rewrite E. unfold connect_move, connect_task. cbn [WakeInit.cstep y_due WakeInit.k_runnable].
    destruct ph; [contradiction| |]; destruct R as (R & R'); rewrite R, orb_true_r.
    + split; [|split; reflexivity]. intros WB. destruct R' as (_ & _ & R'). contradiction.
    + split; [reflexivity|]. intros WB. elim WB. apply W. discriminate.
  - destruct I as (PI & U & Q). destruct (Q D) as (Q1 & _ & Q2). cbn [loop_world Wake.w_panel Wake.w_now Wake.w_regs] in Q1, Q2. unfold ystep. rewrite E. unfold loop_outside. cbn [Wake.wstep loop_world Wake.w_regs Wake.w_panel Wake.w_now]. split.
    + intros a. rewrite Q1. cbn [loop_put y_due Wake.tasks existsb]. rewrite Nat.eqb_refl. cbn. apply orb_true_r.
    + intros d r dt EP L. rewrite EP in *. destruct Q2 as [_ Q2]. apply N.leb_le in L. rewrite L, Q2. cbn [loop_put y_due Wake.tasks existsb]. rewrite Nat.eqb_refl. cbn. apply orb_true_r.
Qed.

(* ---- it ends when the connection does ---- *)
Lemma yexec_run vs acts : yexecution vs acts -> forall n, vs n = yrun (map acts (seq 0 n)) /\ Forall yact_ok (map acts (seq 0 n)).
Proof.
  intros (E0 & X). induction n as [|n (E & F)]; [split; [exact E0 | constructor]|]. rewrite seq_S, map_app. cbn [map plus]. rewrite yrun_snoc, <- E. split; [apply X|].
  apply Forall_app. split; [exact F|]. constructor; [apply X | constructor].
Qed.
Lemma not_connecting_step v a : yinv v -> ~ connecting v -> ~ connecting (ystep v a).
Proof.
  intros I N. unfold connecting in *. rewrite (ystep_watch v a I). destruct (y_watch v) as [i|p log|log|log why]; [elim N; exact Logic.I|..]; destruct a as [x|n|e|d| |]; cbn [wstep]; auto; destruct (y_due v); auto.
  destruct (poll_next _ p) as [[[p' [|[[e|er]|]]] k]|er|y]; auto. destruct (watch_event p' e); auto.
Qed.
Section Shadow.
  Variables (vs : nat -> viewer) (acts : nat -> yact).
  Hypothesis X : yexecution vs acts.
  Lemma vs_inv n : yinv (vs n).
  Proof. destruct (yexec_run _ _ X n) as [-> F]. apply yrun_inv. exact F. Qed.
  Lemma vs_step n : vs (S n) = ystep (vs n) (acts n).
  Proof. apply X. Qed.
  (* connecting, continued in some way once it has come to an end *)
  Definition cacts (m : nat) : WakeInit.cact :=
    match y_watch (vs m) with WConnecting _ => as_cact (acts m) | _ => if Nat.even m then WakeInit.CRun else WakeInit.CRoom 1 end.
  Fixpoint clients (m : nat) : WakeInit.client := match m with O => WakeInit.client_new | S m' => WakeInit.cstep (clients m') (cacts m') end.
  Lemma clients_follow m : match y_watch (vs m) with WConnecting i => running i /\ clients m = connect_task (vs m) i | _ => ~ running (WakeInit.k_state (clients m)) end.
  Proof.
    induction m as [|m IH].
    - rewrite (proj1 X). cbn. split; [repeat eexists | reflexivity].
    - pose proof (vs_inv m) as I. cbn [clients]. unfold cacts. rewrite vs_step.
      destruct (y_watch (vs m)) as [i|p log|log|log why] eqn:E.
      2-4: pose proof (not_connecting_step (vs m) (acts m) I ltac:(unfold connecting; rewrite E; auto)) as N; unfold connecting in N; destruct (y_watch (ystep (vs m) (acts m))); [elim N; exact Logic.I|..];
        (destruct (clients m) as [[s ph q|q|er|w] run rd wt now room br]; [elim IH; repeat eexists|..]; destruct (Nat.even m); cbn [WakeInit.cstep WakeInit.k_state]; (try destruct run); cbn; intros (? & ? & ? & Y); discriminate Y).
      destruct IH as [R IH]. rewrite IH, (ystep_connecting _ _ _ E). destruct (task_again (vs m) i (as_cact (acts m)) _ eq_refl) as [EW ET]. rewrite EW.
      destruct (WakeInit.k_state (WakeInit.cstep (connect_task (vs m) i) (as_cact (acts m)))) as [s ph p|p|er|w] eqn:ES; cbn [connect_result].
      + split; [repeat eexists|]. symmetry. exact ET.
      + intros (? & ? & ? & Y). discriminate Y.
      + intros (? & ? & ? & Y). discriminate Y.
      + intros (? & ? & ? & Y). discriminate Y.
  Qed.
  Lemma not_connecting_stays n m : (n <= m)%nat -> ~ connecting (vs n) -> ~ connecting (vs m).
  Proof. induction 1 as [|m L IH]; intros N; [exact N|]. rewrite vs_step. apply not_connecting_step; [apply vs_inv | auto]. Qed.
  Lemma connecting_dec v : connecting v \/ ~ connecting v.
  Proof. unfold connecting. destruct (y_watch v); auto. Qed.
  Lemma clients_exec : SpecWakeInit.cexecution clients cacts.
  Proof.
    split; [reflexivity|]. intros n. split; [|reflexivity]. unfold cacts. pose proof (proj1 (proj2 X n)) as O. destruct (y_watch (vs n)); [destruct (acts n); exact O | destruct (Nat.even n); exact Logic.I..].
  Qed.
  Lemma clients_fair : yfair vs acts -> SpecWakeInit.cfair clients cacts.
  Proof.
    intros (F1 & F2). split; intros n.
    - destruct (F1 n) as (m & L & R). destruct (connecting_dec (vs m)) as [C|C].
      + exists m. split; [exact L|]. pose proof (clients_follow m) as CF. unfold connecting in C. unfold cacts. destruct (y_watch (vs m)) as [i| | |]; try contradiction. destruct CF as [_ ->].
        destruct R as [->|R]; [left; reflexivity | right; exact R].
      + exists (2 * m)%nat. split; [lia|]. left. pose proof (not_connecting_stays m (2 * m) ltac:(lia) C) as C'. unfold connecting in C'. unfold cacts.
        assert (EV : Nat.even (2 * m) = true) by (apply Nat.even_spec; exists m; reflexivity). rewrite EV. destruct (y_watch (vs (2 * m))); [elim C'; exact Logic.I | reflexivity..].
    - destruct (F2 n) as (m & L & R). destruct (connecting_dec (vs m)) as [C|C].
      + exists m. split; [exact L|]. pose proof (clients_follow m) as CF. unfold connecting in C. destruct (y_watch (vs m)) as [i| | |]; try contradiction. destruct CF as [_ ->]. exact R.
      + exists (S (2 * m + 1))%nat. split; [lia|]. left. pose proof (not_connecting_stays m (2 * m + 1) ltac:(lia) C) as C'. cbn [clients]. unfold connecting in C'. unfold cacts.
        assert (EV : Nat.even (2 * m + 1) = false) by (rewrite <- Nat.negb_odd; replace (Nat.odd (2 * m + 1)) with true; [reflexivity | symmetry; apply Nat.odd_spec; exists m; reflexivity]). rewrite EV.
        destruct (clients (2 * m + 1)). destruct (y_watch (vs (2 * m + 1))); [elim C'; exact Logic.I|..]; cbn; lia.
  Qed.
  Lemma clients_arrivals n : connecting (vs n) -> SpecWakeInit.carrivals cacts n = y_arrivals (map acts (seq 0 n)).
  Proof.
    induction n as [|n IH]; intros C; [reflexivity|]. destruct (connecting_dec (vs n)) as [C1|C1]; [|elim (not_connecting_stays n (S n) ltac:(lia) C1 C)].
    unfold SpecWakeInit.carrivals in *. rewrite seq_S, flat_map_app, map_app, y_arrivals_app, <- (IH C1). f_equal. cbn. rewrite !app_nil_r. unfold cacts, connecting in *. destruct (y_watch (vs n)); try contradiction. destruct (acts n); reflexivity.
  Qed.

  Variables (n0 : nat) (a : list arrival) (closed : bool) (os : list outcome) (left : bytes).
  Hypotheses (A : Forall arrival_ok a) (EA : y_arrivals (map acts (seq 0 n0)) = a ++ (if closed then [PeerClose] else []))
    (O : owed [] a os left) (C : closed = true \/ exists e, In (Error e) os) (Q : forall n x, (n0 <= n)%nat -> acts n <> YArrive x).
  Lemma all_arrived n : (n0 <= n)%nat -> y_arrivals (map acts (seq 0 n)) = a ++ (if closed then [PeerClose] else []).
  Proof.
    induction 1 as [|n L IH]; [exact EA|]. rewrite seq_S, map_app, y_arrivals_app, IH. pose proof (fun x => Q n x L) as N. cbn. destruct (acts n); try apply app_nil_r. elim (N a0). reflexivity.
  Qed.
  Lemma no_pending : closed = false -> (exists ps, os = map Packet ps) -> False.
  Proof. intros -> (ps & ->). destruct C as [Y|(e & Y)]; [discriminate Y|]. apply in_map_iff in Y as (? & Y & _). discriminate Y. Qed.
  (* in the loop it is always to be run *)
  Lemma must_run n p log k : y_watch (vs n) = WLoop p log -> read_so_far (p_conn p) a closed k -> y_due (vs n) = true.
  Proof.
    intros E R. destruct (y_due (vs n)) eqn:D; [reflexivity | exfalso]. pose proof (vs_inv n) as I. unfold yinv in I. rewrite E in I. destruct I as (PI & _ & S). specialize (S D).
    destruct (loop_next (vs n) p PI) as (x & r & w & ks & EW & EP). rewrite (HostFacts.next_same WATCH (loop_world (vs n) p) PI S) in EW. injection EW as <- <- <- <-.
    destruct (poll_reads _ _ _ _ _ _ _ _ R EP) as (os1 & left1 & O1 & CL & PS & _). destruct (owed_fun _ _ _ _ O _ _ O1) as [<- <-]. exact (no_pending CL PS).
  Qed.
  Lemma run_reads n p log k : (n0 <= n)%nat -> y_watch (vs n) = WLoop p log -> read_so_far (p_conn p) a closed k ->
    ended (y_watch (vs (S n))) \/ (exists p' log', y_watch (vs (S n)) = WLoop p' log' /\ read_so_far (p_conn p') a closed (S k) /\ (k < length os)%nat) \/
    acts n <> YRun /\ y_watch (vs (S n)) = WLoop p log.
  Proof.
    intros L E R. pose proof (must_run _ _ _ _ E R) as D. pose proof (vs_inv n) as I. rewrite vs_step, (ystep_watch _ _ I). unfold yinv in I. rewrite E in I |- *. destruct I as (PI & U & _).
    pose proof (fun x => Q n x L) as NA. destruct (acts n) as [x|j|e|d| |]; try (right; right; split; [discriminate | reflexivity]); [elim (NA x); reflexivity|].
    rewrite D. cbn [wstep]. destruct (poll_next_spec (y_now (vs n)) p PI) as (p' & r & w & EN & I' & P). pose proof (polled_case _ _ _ _ _ P PI) as PC. rewrite EN.
    destruct (poll_reads _ _ _ _ _ _ _ _ R EN) as (os1 & left1 & O1 & H). destruct (owed_fun _ _ _ _ O _ _ O1) as [<- <-]. destruct r as [|[[e|er]|]]; try (left; exact Logic.I).
    - elim (no_pending (proj1 H) (proj1 (proj2 H))).
    - destruct (watch_event_spec _ _ _ _ _ e PC eq_refl PI I' U) as (ls & -> & _). right; left. destruct H as [[H1 H2]|(H1 & H2 & _)]; [eauto|]. elim (no_pending H1 H2).
  Qed.
  Lemma loop_fairly_ends : (forall n, exists m, (n <= m)%nat /\ (acts m = YRun \/ y_due (vs m) = false)) ->
    forall b n p log k, (length os - k <= b)%nat -> (n0 <= n)%nat -> y_watch (vs n) = WLoop p log -> read_so_far (p_conn p) a closed k -> exists m, ended (y_watch (vs m)).
  Proof.
    intros F. induction b as [|b IH]; intros n p log k B L E R; destruct (F n) as (m & LM & RM).
    all: assert (G : forall j n, (n + j = m)%nat -> (n0 <= n)%nat -> y_watch (vs n) = WLoop p log ->
        (exists m', ended (y_watch (vs m'))) \/ exists m' p' log', (n0 <= m')%nat /\ y_watch (vs m') = WLoop p' log' /\ read_so_far (p_conn p') a closed (S k) /\ (k < length os)%nat).
    1, 3: clear n L E LM; induction j as [|j IHj]; intros n EM L E; (destruct (run_reads n p log k L E R) as [Y|[(p' & log' & Y1 & Y2 & Y3)|[Y1 Y2]]];
      [eauto | right; exists (S n), p', log'; split; [lia | auto]|]); [|apply (IHj (S n)); [lia | lia | exact Y2]];
      rewrite Nat.add_0_r in EM; subst n; destruct RM as [RM|RM]; [contradiction | rewrite (must_run _ _ _ _ E R) in RM; discriminate RM].
    - destruct (G (m - n)%nat n) as [Y|(m' & p' & log' & _ & _ & _ & Y)]; [lia | exact L | exact E | exact Y | lia].
    - destruct (G (m - n)%nat n) as [Y|(m' & p' & log' & Y1 & Y2 & Y3 & Y4)]; [lia | exact L | exact E | exact Y | apply (IH m' p' log' (S k)); auto; lia].
  Qed.
End Shadow.
(* Once the panel has closed the connection or a read has failed, watch comes to an end. *)
Theorem C108_ends : forall vs acts n a (closed : bool) os left, yexecution vs acts -> yfair vs acts ->
  Forall arrival_ok a -> y_arrivals (map acts (seq 0 n)) = a ++ (if closed then [PeerClose] else []) -> owed [] a os left -> closed = true \/ (exists e, In (Error e) os) ->
  (forall m x, (n <= m)%nat -> acts m <> YArrive x) -> exists m, ended (y_watch (vs m)).
Proof.
  intros vs acts n a closed os left X F A EA O C Q.
  assert (NC : exists m, (n <= m)%nat /\ ~ connecting (vs m)).
  { destruct (connecting_dec (vs n)) as [D|D]; [|exists n; auto]. destruct (PropWakeInit.C95_ends (clients vs acts) (cacts vs acts) n a closed os left (clients_exec _ _ X) (clients_fair _ _ X F) A) as (m & NR); auto.
    - rewrite (clients_arrivals _ _ X n D). exact EA.
    - intros m x L. unfold cacts. pose proof (fun y => Q m y L) as N. destruct (y_watch (vs m)); [destruct (acts m); try discriminate; elim (N a0); reflexivity | destruct (Nat.even m); discriminate..].
    - assert (ND : ~ connecting (vs m)).
      { intros Y. pose proof (clients_follow vs acts X m) as CF. unfold connecting in Y. destruct (y_watch (vs m)) as [i| | |]; try contradiction. destruct CF as [R E]. rewrite E in NR. elim NR. exact R. }
      exists (max n m). split; [lia|]. apply (not_connecting_stays vs acts X m); [lia | exact ND]. }
  destruct NC as (m & L & NC). destruct (y_watch (vs m)) as [i|p log|log|log why] eqn:E; [elim NC; unfold connecting; rewrite E; exact Logic.I| |exists m; rewrite E; exact Logic.I..].
  destruct (yexec_run _ _ X m) as [EV HO]. destruct (C108_is_watch _ HO) as (h & Hh & EH & EW). rewrite <- EV, E in EW.
  assert (N : network h a closed) by (split; [exact A|]; rewrite EH; apply (all_arrived acts n a closed EA Q); exact L).
  destruct (watch_reads _ _ _ _ _ N EW) as (k & R). eapply (loop_fairly_ends vs acts X n a closed os left); eauto. apply F.
Qed.

(* ---- examples ---- *)
(* It connects, being woken by each reply; then three packets arrive at once, the last of which is a report that is held for five seconds *)
Definition ex_viewing : list yact :=
  YRoom 1000 :: concat (map (fun m => [YRun; YRun; YRun; YArrive (Bytes (bytes_of m)); YRun]) ex_replies) ++ [YRun; YRun;
    YArrive (Bytes (bytes_of (MZoneStatusReport ex_zones_b) ++ bytes_of (MZoneChange (mkZC 2 2)) ++ bytes_of (MArmingStatusReport ex_armed)));
    YRun; YRun; YRun; YRun; YWait 4999; YRun; YWait 1; YRun; YRun].
Lemma ex_viewing_ok : Forall yact_ok ex_viewing.
Proof.
  assert (X : forallb (fun a => match a with YArrive (Bytes c) => forallb (fun b => b <? 256) c | YArrive _ => false | _ => true end) ex_viewing = true) by (vm_compute; reflexivity).
  apply Forall_forall. intros a H. rewrite forallb_forall in X. specialize (X a H). destruct a as [[c|e|]| | | | |]; try exact Logic.I. apply bytes_ok. exact X.
Qed.
Example C108_example : Forall yact_ok ex_viewing /\
  map (fun n => y_due (yrun (firstn n ex_viewing))) [0; 4; 5; 43; 44; 48; 49; 50; 51; 52; 53]%nat = [true; false; true; false; true; false; false; false; true; true; false] /\
  (match y_watch (yrun ex_viewing) with WLoop _ log => log | _ => [] end) =
    [LZone (B "Front DoorKeypad") 5 2; LArea (B "House") AST_Disarmed AU_ReadyToArm AA_NoAlarmActive AST_ArmedAway AU_ArmedFully AA_NoAlarmActive] /\
  (match y_watch (yrun (firstn 50 ex_viewing)) with WLoop p log => (length log, held p) | _ => (0%nat, None) end) = (1%nat, Some ex_armed).
Proof. split; [exact ex_viewing_ok|]. vm_compute. repeat split. Qed.
(* The panel closes the connection; the executor runs the task when it has been woken and does nothing otherwise. *)
Definition ex_closing (n : nat) : yact := nth n (ex_viewing ++ [YArrive PeerClose]) YRun.
Lemma ex_closing_over n : (54 <= n)%nat -> ex_closing n = YRun.
Proof. intros L. apply nth_overflow. replace (length (ex_viewing ++ [YArrive PeerClose])) with 54%nat by (vm_compute; reflexivity). exact L. Qed.
Fixpoint ex_viewers (n : nat) : viewer := match n with O => viewer_new | S n' => ystep (ex_viewers n') (ex_closing n') end.
Lemma ex_viewers_run n : ex_viewers n = yrun (map ex_closing (seq 0 n)).
Proof. induction n as [|n IH]; [reflexivity|]. rewrite seq_S, map_app. cbn [map plus]. rewrite yrun_snoc, <- IH. reflexivity. Qed.
Definition ex_closed_viewer : viewer := Eval vm_compute in ystep (ystep (yrun ex_viewing) (YArrive PeerClose)) YRun.
Lemma ex_viewers_end n : ex_viewers (n + 55) = ex_closed_viewer.
Proof.
  induction n as [|n IH]; [rewrite ex_viewers_run; vm_compute; reflexivity|]. cbn [plus ex_viewers]. rewrite IH. rewrite ex_closing_over by lia. vm_compute. reflexivity.
Qed.
Example C108_ends_example : yexecution ex_viewers ex_closing /\ yfair ex_viewers ex_closing /\
  (exists a os left, Forall arrival_ok a /\ y_arrivals (map ex_closing (seq 0 54)) = a ++ [PeerClose] /\ owed [] a os left /\ length os = 11%nat) /\
  (forall m x, (54 <= m)%nat -> ex_closing m <> YArrive x) /\
  y_watch (ex_viewers 55) = WDone [LZone (B "Front DoorKeypad") 5 2; LArea (B "House") AST_Disarmed AU_ReadyToArm AA_NoAlarmActive AST_ArmedAway AU_ArmedFully AA_NoAlarmActive].
Proof.
  split.
  { split; [reflexivity|]. intros n. split; [|reflexivity]. unfold ex_closing. assert (F : Forall yact_ok (ex_viewing ++ [YArrive PeerClose])) by (apply Forall_app; split; [exact ex_viewing_ok | repeat constructor]).
    destruct (nth_in_or_default n (ex_viewing ++ [YArrive PeerClose]) YRun) as [H|H]; [rewrite Forall_forall in F; exact (F _ H) | rewrite H; exact Logic.I]. }
  split.
  { split; intros n; exists (n + 55)%nat; (split; [lia|]).
    - left. apply ex_closing_over. lia.
    - left. rewrite ex_viewers_end. vm_compute. discriminate. }
  split; [exists (map Bytes ex_chunks), (map Packet ex_told), []; split; [apply ex_closing_net|]; split; [vm_compute; reflexivity|]; split; [apply ex_closing_net | vm_compute; reflexivity]|].
  split; [|pose proof (ex_viewers_end 0) as Y; cbn [plus] in Y; rewrite Y; reflexivity]. intros m x L. rewrite ex_closing_over by lia. discriminate.
Qed.

Print Assumptions C108_is_watch.
Print Assumptions C108_no_lost_wakeup.
Print Assumptions C108_woken.
Print Assumptions C108_ends.
