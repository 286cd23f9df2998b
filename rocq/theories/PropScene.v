(* PropScene.v: C109, watch with a panel that answers, as a task that is only run when woken (elkm1-cli/src/main.rs:18-58, 97-103). *)
From Verif Require Import Base BaseFacts Pkt SpecPkt PktFacts DecodeFacts Msg SpecMsg DecFacts MsgFacts WireFacts IsoFacts
  Tokio SpecConn ConnFacts OwedFacts PairFacts State SpecState StateFacts RunFacts HistFacts ViewFacts SpecInit InitFacts SpecFail ExState PropState PropSink PropLive PropConnect PropFail
  Cli SpecCli PropCli SpecStory PropStory WakeWatch SpecView PropView.
From Verif Require WakeInit SpecWakeInit PropWakeInit Wake PropWake HostFacts.
From Coq Require Import ZifyBool ZifyNat ZifyN.
Ltac Zify.zify_post_hook ::= Z.div_mod_to_equations.

(* ---- it connects ---- *)
Definition scene_ok (c : scene) : Prop := yinv (c_viewer c) /\ y_broken (c_viewer c) = None.
Lemma next_keeps v p x b ks : Wake.wstep (loop_world v p) (Wake.WNext WATCH) = Ok (x, b, ks) -> Wake.w_broken x = y_broken v /\ Wake.w_now x = y_now v.
Proof. intros EW. cbn [Wake.wstep] in EW. apply bind_inv in EW as ([[[q r] k] g] & _ & EW). injection EW as <- _ _. auto. Qed.
Lemma ystep_unbroken v a : ylocal a \/ (exists b, a = YArrive (Bytes b)) -> y_broken v = None -> y_broken (ystep v a) = None.
Proof.
  intros L N. unfold ystep. destruct (y_watch v) as [i|p log|log|log why] eqn:E; auto.
  - unfold connect_move, connect_task. cbn [y_broken]. destruct a as [x|[|n]|e|d| |]; cbn [WakeInit.cstep]; try exact N; [destruct L as [[]|(b & L)]; discriminate L|].
    destruct (y_due v); [|exact N]. destruct (WakeInit.iwaits _ _) as [[]|]; exact N.
  - destruct a as [x|[|n]|e|d| |]; try exact N; [destruct L as [[]|(b & L)]; discriminate L|..].
    + unfold loop_outside. cbn [Wake.wstep loop_world Wake.w_panel]. destruct (pending_arm p) as [[dl r]|]; [destruct (dl <=? _)|]; exact N.
    + destruct (y_due v); [|exact N]. unfold loop_poll. destruct (Wake.wstep (loop_world v p) (Wake.WNext WATCH)) as [[[x b] ks]|er|y] eqn:EW; [|exact N..].
      destruct (next_keeps _ _ _ _ _ EW) as [NB _]. rewrite N in NB. destruct b as [|[|o] k|r]; exact NB.
Qed.
Lemma ystep_now v a : y_now v <= y_now (ystep v a).
Proof.
  unfold ystep. destruct (y_watch v) as [i|p log|log|log why] eqn:E; try lia.
  - unfold connect_move, connect_task. cbn [y_now]. destruct a as [x|[|n]|e|d| |]; cbn [WakeInit.cstep WakeInit.k_now]; try lia. destruct (y_due v); [|cbn; lia]. destruct (WakeInit.iwaits _ _) as [[]|]; cbn; lia.
  - destruct a as [x|[|n]|e|d| |]; try (cbn; lia).
    + unfold loop_outside. cbn [Wake.wstep loop_world Wake.w_panel]. destruct (pending_arm p) as [[dl r]|]; [destruct (dl <=? _)|]; cbn; lia.
    + destruct (y_due v); [|lia]. unfold loop_poll. destruct (Wake.wstep (loop_world v p) (Wake.WNext WATCH)) as [[[x b] ks]|er|y] eqn:EW; [|cbn; lia..].
      destruct (next_keeps _ _ _ _ _ EW) as [_ NB]. destruct b as [|[|o] k|r]; cbn; lia.
Qed.
(* what has happened, as a history of watch *)
Definition scene_past (c : scene) : Prop := exists h fs, Forall data_iop h /\ watch h = y_watch (c_viewer c) /\
  Forall valid_packet (c_out c) /\ Forall2 frame_of (c_out c) fs /\ concat fs = iarrived h ++ c_net c.
Lemma data_ops h : Forall data_iop h -> Forall iop_ok h.
Proof. apply Forall_impl. intros [[c|e|]|now ws]; cbn; tauto. Qed.
Lemma shappens_past nm c a c' : scene_ok c -> scene_past c -> shappens nm c a c' -> scene_ok c' /\ scene_past c'.
Proof.
  intros (I & N) (h & fs & HD & EW & V & F & C) H. destruct H as [a L|p f Vp NR Fp|q m body f NR A G Hb HF|a b E Na].
  - assert (O : yact_ok a) by (destruct a; auto; contradiction). split; [split; [exact (ystep_inv _ _ O I) | exact (ystep_unbroken _ _ (or_introl L) N)]|].
    unfold scene_past. cbn [c_viewer c_out c_net]. rewrite (ystep_watch _ _ I), <- EW.
    assert (Same : exists h' fs, Forall data_iop h' /\ watch h' = watch h /\ Forall valid_packet (c_out c) /\ Forall2 frame_of (c_out c) fs /\ concat fs = iarrived h' ++ c_net c) by (exists h, fs; auto).
    destruct a as [x|n|e|d| |]; try contradiction; try exact Same. destruct (y_due (c_viewer c)); [|exact Same].
    eexists (h ++ [IStep _ _]), fs. rewrite watch_snoc, iarrived_step. split; [apply Forall_app; repeat constructor; exact HD|]. split; [reflexivity | auto].
  - split; [exact (conj I N)|]. exists h, (fs ++ [f]). cbn [c_viewer c_out c_net]. split; [exact HD|]. split; [exact EW|]. split; [apply Forall_app; auto|]. split; [apply Forall2_app; auto|].
    rewrite concat_app, C. cbn. rewrite app_nil_r, app_assoc. reflexivity.
  - split; [exact (conj I N)|]. exists h, (fs ++ [f]). cbn [c_viewer c_out c_net]. split; [exact HD|]. split; [exact EW|]. split; [apply Forall_app; auto|]. split; [apply Forall2_app; auto|].
    rewrite concat_app, C. cbn. rewrite app_nil_r, app_assoc. reflexivity.
  - assert (U : u8s a) by (pose proof (frames_u8 _ _ V F) as U; rewrite C, E in U; apply u8s_app in U as [_ U]; apply u8s_app in U; apply U).
    split; [split; [apply (ystep_inv _ (YArrive (Bytes a)) U I) | apply ystep_unbroken; eauto]|]. exists (h ++ [IArrive (Bytes a)]), fs. cbn [c_viewer c_out c_net].
    rewrite (ystep_watch _ _ I), watch_snoc, EW, iarrived_arrive, C, E, <- app_assoc. split; [apply Forall_app; split; [exact HD | repeat constructor; [exact Na | exact U]] | auto].
Qed.
Lemma scene_new_ok : scene_ok scene_new /\ scene_past scene_new.
Proof. split; [split; [exact yinv_new | reflexivity]|]. exists [], []. repeat constructor. Qed.
Lemma past_u8 c : scene_past c -> u8s (c_net c).
Proof. intros (h & fs & _ & _ & V & F & C). pose proof (frames_u8 _ _ V F) as U. rewrite C in U. apply u8s_app in U. apply U. Qed.

(* as in C95 while it is connecting *)
Definition as_xworld (c : scene) : SpecWakeInit.xworld := SpecWakeInit.mkX (connect_task (c_viewer c) (istate_of (y_watch (c_viewer c)))) (c_out c) (c_net c) (c_replied c).
Definition as_xact (a : sact) : SpecWakeInit.xact :=
  match a with STask a => SpecWakeInit.XTask (as_cact a) | SUnrelated => SpecWakeInit.XUnrelated | SReply => SpecWakeInit.XReply | SDeliver => SpecWakeInit.XDeliver end.
Lemma as_world c : SpecWakeInit.world_of (as_xworld c) = world_at c.
Proof. reflexivity. Qed.
Lemma tracked_connecting nm c V : tracked any nm (world_at c) V -> exists s ph p, y_watch (c_viewer c) = WConnecting (IRun s ph p) \/ False.
Proof.
  destruct V as (a & b & c0 & d). intros T. destruct (PropWakeInit.tracked_phase _ _ _ _ _ _ T) as (s & ph & p & E & _). cbn in E.
  exists s, ph, p. left. destruct (y_watch (c_viewer c)); try discriminate E. cbn in E. congruence.
Qed.
Lemma connecting_x nm c a c' V : scene_ok c -> tracked any nm (world_at c) V -> shappens nm c a c' -> PropWakeInit.xinv (as_xworld c) /\ SpecWakeInit.xhappens nm (as_xworld c) (as_xact a) (as_xworld c').
Proof.
  intros (I & N) T H. destruct (tracked_connecting _ _ _ T) as (s & ph & p & [E|[]]).
  assert (XI : PropWakeInit.xinv (as_xworld c)) by (unfold yinv in I; rewrite E in I; unfold as_xworld; rewrite E; split; [exact (proj2 I) | exact N]). split; [exact XI|].
  (* the task while it connects: it does not fail *)
  assert (Q : forall y out net rep, SpecWakeInit.xhappens nm (as_xworld c) (as_xact a) (SpecWakeInit.mkX (WakeInit.cstep (connect_task (c_viewer c) (IRun s ph p)) (as_cact y)) out net rep) ->
    connect_task (ystep (c_viewer c) y) (istate_of (y_watch (ystep (c_viewer c) y))) = WakeInit.cstep (connect_task (c_viewer c) (IRun s ph p)) (as_cact y)).
  { intros y out net rep X. rewrite (ystep_connecting _ _ _ E). destruct (task_again (c_viewer c) (IRun s ph p) (as_cact y) _ eq_refl) as [EW ET]. rewrite EW.
    assert (K : exists i, WakeInit.k_state (WakeInit.cstep (connect_task (c_viewer c) (IRun s ph p)) (as_cact y)) = i /\ istate_of (connect_result i) = i).
    { destruct (PropWakeInit.x_tracked_step _ _ _ _ _ XI T X) as [(q & _ & _ & EQ & _)|(V' & T' & _)].
      - cbn in EQ. exists (IDone q). auto.
      - destruct V' as (v1 & v2 & v3 & v4). destruct (PropWakeInit.tracked_phase _ _ _ _ _ _ T') as (s' & ph' & q & EQ & _). cbn in EQ. exists (IRun s' ph' q). auto. }
    destruct K as (i & K1 & K2). rewrite K1 in ET |- *. rewrite K2. exact ET. }
  destruct H as [y L|pk f V0 NR F|q m body f NR A G Hb HF|x y En Na].
  - unfold as_xworld at 2. cbn [c_viewer c_out c_net c_replied].
    assert (X : SpecWakeInit.xhappens nm (as_xworld c) (as_xact (STask y)) (SpecWakeInit.mkX (WakeInit.cstep (connect_task (c_viewer c) (IRun s ph p)) (as_cact y)) (c_out c) (c_net c) (c_replied c))).
    { unfold as_xworld. rewrite E. apply (SpecWakeInit.X_task nm (SpecWakeInit.mkX (connect_task (c_viewer c) (IRun s ph p)) (c_out c) (c_net c) (c_replied c)) (as_cact y)). destruct y; auto. }
    rewrite (Q y _ _ _ X). exact X.
  - apply (SpecWakeInit.X_unrelated nm (as_xworld c)); auto. apply NR. unfold connecting. rewrite E. exact Logic.I.
  - apply (SpecWakeInit.X_reply nm (as_xworld c) q m body f); auto.
  - unfold as_xworld at 2. cbn [c_viewer c_out c_net c_replied].
    assert (X : SpecWakeInit.xhappens nm (as_xworld c) (as_xact SDeliver) (SpecWakeInit.mkX (WakeInit.cstep (connect_task (c_viewer c) (IRun s ph p)) (as_cact (YArrive (Bytes x)))) (c_out c) y (c_replied c))).
    { unfold as_xworld. rewrite E. exact (SpecWakeInit.X_deliver nm (SpecWakeInit.mkX (connect_task (c_viewer c) (IRun s ph p)) (c_out c) (c_net c) (c_replied c)) x y En Na). }
    rewrite (Q (YArrive (Bytes x)) _ _ _ X). exact X.
Qed.
Section Scene.
  Variables (nm : naming) (cs : nat -> scene) (acts : nat -> sact).
  Hypotheses (X : sexecution nm cs acts) (F : sfair cs acts).
  Lemma cs_ok n : scene_ok (cs n) /\ scene_past (cs n).
  Proof. induction n as [|n (I & P)]; [rewrite (proj1 X); exact scene_new_ok|]. eapply shappens_past; eauto. apply X. Qed.
  Lemma connects_at n : (exists V, tracked any nm (world_at (cs n)) V) \/
    exists n1 i p0, (n1 < n)%nat /\ y_watch (c_viewer (cs n1)) = WConnecting i /\ y_watch (c_viewer (cs (S n1))) = WLoop p0 [] /\ finished nm (world_at (cs (S n1))).
  Proof.
    induction n as [|n [(V & T)|(n1 & i & p0 & L & Y)]]; [left; rewrite (proj1 X); eexists; apply tracked_new | |right; exists n1, i, p0; split; [lia | exact Y]].
    destruct (connecting_x _ _ _ _ _ (proj1 (cs_ok n)) T (proj2 X n)) as [XI XH]. destruct (PropWakeInit.x_tracked_step _ _ _ _ _ XI T XH) as [FI|(V' & T' & _)]; [|left; eauto].
    right. destruct (tracked_connecting _ _ _ T) as (s & ph & p & [E|[]]). pose proof FI as (q & _ & _ & EQ & _). cbn in EQ. exists n, (IRun s ph p), q. split; [lia|]. split; [exact E|]. split; [|exact FI].
    (* right after connecting nothing is told *)
    pose proof (proj1 (proj1 (cs_ok n))) as I.
    assert (G : forall y, istate_of (y_watch (ystep (c_viewer (cs n)) y)) = IDone q -> y_watch (ystep (c_viewer (cs n)) y) = WLoop q []).
    { intros y. rewrite (ystep_connecting _ _ _ E). unfold connect_move. cbn [y_watch]. destruct (WakeInit.k_state _) as [s' ph' q'|q'|e|w]; cbn; intros Y; try discriminate Y. congruence. }
    destruct (proj2 X n) as [y L|pk f V0 NR Ff|r m body f NR A Gr Hb HF|x y En Na]; cbn [c_viewer] in *; try (apply G; exact EQ); rewrite E in EQ; discriminate EQ.
  Qed.
  Lemma connects_once : exists n1 i p0, y_watch (c_viewer (cs n1)) = WConnecting i /\ y_watch (c_viewer (cs (S n1))) = WLoop p0 [] /\ finished nm (world_at (cs (S n1))).
  Proof.
    destruct (PropWakeInit.xfair_finishes nm (fun n => as_xworld (cs n)) (fun n => as_xact (acts n))
      (fun n V T => connecting_x _ _ _ _ _ (proj1 (cs_ok n)) T (proj2 X n))) with (V := (250, (3, (0, 0)))%nat) (n := 0%nat) as (m & FI).
    - destruct F as (F1 & F2 & F3 & F4). split; [|split; [|split]].
      + intros n. destruct (F1 n) as (m & L & [R|R]); exists m; (split; [exact L|]); [left; rewrite R; reflexivity | right; exact R].
      + exact F2.
      + intros n. destruct (F3 n) as (m & L & [R|R]); exists m; (split; [exact L|]); [left; rewrite R; reflexivity | right; exact R].
      + intros n. destruct (F4 n) as (m & L & [R|R]); exists m; (split; [exact L|]); [left; rewrite R; reflexivity | right; exact R].
    - rewrite (proj1 X). apply tracked_new.
    - destruct (connects_at m) as [(V & T)|(n1 & i & p0 & _ & Y)]; [|eauto]. exfalso. destruct (tracked_connecting _ _ _ T) as (s & ph & p & [E|[]]). destruct FI as (q & _ & _ & EQ & _). cbn in EQ. rewrite E in EQ. discriminate EQ.
  Qed.
End Scene.
Lemma finished_names nm w p : finished nm w -> w_client w = IDone p -> names_known nm p.
Proof.
  intros (p' & qs & fs & E' & _ & (F1 & F2 & F3) & _) E. rewrite E in E'. injection E' as <-. intros ty n T N.
  assert (G : forall l k, names_of (p_state p) ty = Some l -> k = N.to_nat (count_of ty) -> filled nm l ty k -> name_known nm p ty n).
  { intros l k El -> Fl. eexists l, _. split; [exact El|]. split; [apply Fl; lia|].
    rewrite (proj2 (Nat.ltb_lt (N.to_nat (n - 1)) (N.to_nat (count_of ty)))) by lia. replace (N.of_nat (N.to_nat (n - 1)) + 1) with n by lia. cbn [andb].
    destruct (showb (nm ty n)) eqn:ES; [left; apply showb_spec in ES; auto | right; apply showb_false in ES; auto]. }
  cbn [In] in T. destruct T as [<-|[<-|[<-|[]]]]; eapply G; try reflexivity; assumption.
Qed.

(* ---- from then on ---- *)
Definition tinv (p0 : Panel) (ps0 : list packet) (c : scene) (es : list Event) : Prop :=
  yinv (c_viewer c) /\ exists p log D fs, y_watch (c_viewer c) = WLoop p log /\ telling p0 ps0 D p es log /\ alive (p_conn p) /\
    Forall valid_packet (c_out c) /\ Forall2 frame_of (c_out c) fs /\ concat fs = D ++ c_net c.
Definition heard (c : scene) : bytes := match y_watch (c_viewer c) with WLoop p _ => unread (p_conn p) | _ => [] end.
Definition holding (c : scene) : option (N * ArmingStatusReport) := match y_watch (c_viewer c) with WLoop p _ => pending_arm p | _ => None end.
Definition lines_of (c : scene) : list line := match y_watch (c_viewer c) with WLoop _ log => log | _ => [] end.
Inductive smove (c : scene) (a : sact) (c' : scene) (es : list Event) : list Event -> Prop :=
| M_idle g : heard c' = heard c -> holding c' = holding c -> lines_of c' = lines_of c -> c_net c' = c_net c ++ g -> a <> SDeliver -> (a = STask YRun -> y_due (c_viewer c) = false) -> smove c a c' es es
| M_deliver b : a = SDeliver -> b <> [] -> heard c' = heard c ++ b -> c_net c = b ++ c_net c' -> holding c' = holding c -> lines_of c' = lines_of c -> smove c a c' es es
| M_wait : a = STask YRun -> heard c' = heard c -> holding c' = holding c -> lines_of c' = lines_of c -> c_net c' = c_net c -> decode (heard c) = Ok (None, heard c) ->
    match holding c with Some (d, _) => y_now (c_viewer c) < d | None => True end -> smove c a c' es es
| M_packet e pkt ls : a = STask YRun -> e_pkt e = Some pkt -> decode (heard c) = Ok (Some pkt, heard c') -> c_net c' = c_net c -> lines_of c' = lines_of c ++ ls -> smove c a c' es (es ++ [e])
| M_late e x ls : a = STask YRun -> e_pkt e = None -> heard c' = heard c -> c_net c' = c_net c -> holding c = Some x -> holding c' = None -> decode (heard c) = Ok (None, heard c) -> lines_of c' = lines_of c ++ ls -> smove c a c' es (es ++ [e]).
Lemma waits_no_end now p c p' r w : conn_poll_next (p_conn p) = Ok (c, Pending) -> poll_next now p = Ok (p', r, w) -> (exists e, r = Ready (Some (IoErr e))) \/ r = Ready None -> False.
Proof.
  intros EC E R. unfold poll_next in E. rewrite EC in E. cbn [bind] in E. destruct (pending_arm _) as [[d m]|]; [destruct (d <=? now); [destruct (s_arming _)|]|]; try discriminate E; injection E as _ <- _; destruct R as [(e & R)|R]; discriminate R.
Qed.
Lemma tmoves nm p0 ps0 c a c' es : tinv p0 ps0 c es -> shappens nm c a c' -> exists es', tinv p0 ps0 c' es' /\ smove c a c' es es'.
Proof.
  intros (I & p & log & D & fs & E & T & A & V & F & C) H. pose proof H as H0. destruct H as [a L|pk f Vp NR Fp|q m body f NR An G Hb HF|a b En Na].
  - assert (O : yact_ok a) by (destruct a; auto; contradiction). pose proof (ystep_inv _ _ O I) as I'. pose proof (ystep_watch _ a I) as W.
    assert (Same : y_watch (ystep (c_viewer c) a) = y_watch (c_viewer c) -> (STask a = STask YRun -> y_due (c_viewer c) = false) ->
      exists es', tinv p0 ps0 (mkScene (ystep (c_viewer c) a) (c_out c) (c_net c) (c_replied c)) es' /\ smove c (STask a) (mkScene (ystep (c_viewer c) a) (c_out c) (c_net c) (c_replied c)) es es').
    { intros S R. exists es. split; [split; [exact I'|]; exists p, log, D, fs; cbn [c_viewer c_out c_net]; rewrite S; auto 10|]. apply (M_idle c _ _ es []); unfold heard, holding, lines_of; cbn [c_viewer c_net]; rewrite ?S, ?app_nil_r; auto. discriminate. }
    destruct a as [x|n|e|d| |]; try contradiction; try (apply Same; [exact W | discriminate]). destruct (y_due (c_viewer c)) eqn:ED; [|apply Same; auto]. clear Same.
    rewrite E in W. cbn [wstep] in W. pose proof T as (_ & PI & _). destruct (telling_poll _ _ _ _ _ _ (y_now (c_viewer c)) T) as (p' & r & w & EN & PC & M). destruct (alive_poll (y_now (c_viewer c)) p PI A) as (p1 & r1 & w1 & EN1 & _ & A' & _ & HN).
    rewrite EN in EN1. injection EN1 as <- <- <-. rewrite EN in W. destruct r as [|[[e|er]|]].
    + exists es. split; [split; [exact I'|]; exists p', log, D, fs; cbn [c_viewer c_out c_net]; auto 10|]. inversion PC as [| | |r' _ EU HP EW]; subst. destruct (HP eq_refl) as (_ & HD & HA).
      apply M_wait; unfold heard, holding, lines_of; cbn [c_viewer c_net]; rewrite ?W, ?E; auto. rewrite EW. reflexivity.
    + destruct M as (ls & EV & M). rewrite EV in W. exists (es ++ [e]). split; [split; [exact I'|]; exists p', (log ++ ls), D, fs; cbn [c_viewer c_out c_net]; auto 10|].
      inversion PC as [pkt m e0 w0 HD K EP EM E1 SS ME RR|pkt e0 HD K EP EM E1 SS C1 C2|d m prior HD HU Xn EP EDl EA SS|r' NE]; subst; [| | |elim (NE e); reflexivity].
      * apply (M_packet c _ _ es e pkt ls); unfold heard, lines_of; cbn [c_viewer c_net]; rewrite ?W, ?E; auto.
      * apply (M_packet c _ _ es e pkt ls); unfold heard, lines_of; cbn [c_viewer c_net]; rewrite ?W, ?E; auto.
      * apply (M_late c _ _ es _ (d, m) ls); unfold heard, holding, lines_of; cbn [c_viewer c_net]; rewrite ?W, ?E; auto. rewrite SS. reflexivity.
    + exfalso. destruct HN as [(e & pkt & Y & _)|(_ & _ & c0 & HC)]; [discriminate Y | exact (waits_no_end _ _ _ _ _ _ HC EN (or_introl (ex_intro _ er eq_refl)))].
    + exfalso. destruct HN as [(e & pkt & Y & _)|(_ & _ & c0 & HC)]; [discriminate Y | exact (waits_no_end _ _ _ _ _ _ HC EN (or_intror eq_refl))].
  - exists es. split; [split; [exact I|]; exists p, log, D, (fs ++ [f]); cbn [c_viewer c_out c_net]; do 3 (split; [assumption|])|apply (M_idle c _ _ es f); auto; discriminate].
    split; [apply Forall_app; auto|]. split; [apply Forall2_app; auto|]. rewrite concat_app, C. cbn. rewrite app_nil_r, app_assoc. reflexivity.
  - exists es. split; [split; [exact I|]; exists p, log, D, (fs ++ [f]); cbn [c_viewer c_out c_net]; do 3 (split; [assumption|])|apply (M_idle c _ _ es f); auto; discriminate].
    split; [apply Forall_app; auto|]. split; [apply Forall2_app; auto|]. rewrite concat_app, C. cbn. rewrite app_nil_r, app_assoc. reflexivity.
  - assert (U : u8s a) by (pose proof (frames_u8 _ _ V F) as U; rewrite C, En in U; apply u8s_app in U as [_ U]; apply u8s_app in U; apply U).
    pose proof (ystep_watch _ (YArrive (Bytes a)) I) as W. rewrite E in W. cbn [wstep] in W. exists es. split.
    + split; [exact (ystep_inv _ (YArrive (Bytes a)) U I)|]. exists (with_conn p (arrive (p_conn p) (Bytes a))), log, (D ++ a), fs. cbn [c_viewer c_out c_net]. split; [exact W|].
      split; [exact (telling_arrive _ _ _ _ _ _ (Bytes a) U T)|]. split; [apply alive_arrive; [exact A | split; assumption]|]. rewrite C, En, app_assoc. auto.
    + apply (M_deliver c _ _ es a); unfold heard, holding, lines_of; cbn [c_viewer c_net]; rewrite ?W, ?E; auto. cbn [with_conn p_conn]. rewrite arrive_unread. reflexivity.
Qed.

Lemma takes_frames D ps b : takes D ps b -> forall out fs, Forall valid_packet out -> Forall2 frame_of out fs -> D = concat fs ->
  exists us gs, out = ps ++ us /\ Forall2 frame_of us gs /\ b = concat gs.
Proof.
  induction 1 as [D|D ps b p b' T IH E]; intros out fs V F ->; [exists out, fs; auto|]. destruct (IH out fs V F eq_refl) as (us & gs & -> & G & ->).
  destruct G as [|u g us gs Gu G]; [discriminate E|]. apply Forall_app in V as [_ V]. inversion V as [|? ? Vu Vs]; subst. cbn [concat] in E.
  rewrite (decode_of_frame u g (concat gs) Vu Gu (frames_u8 _ _ Vs G)) in E. injection E as <- <-. exists us, gs. rewrite <- app_assoc. auto.
Qed.
Lemma told p0 ps0 c es : tinv p0 ps0 c es -> exists us gs, c_out c = ps0 ++ packets es ++ us /\ Forall valid_packet us /\ Forall2 frame_of us gs /\ heard c ++ c_net c = concat gs.
Proof.
  intros (_ & p & log & D & fs & E & (UD & _ & _ & T & _) & _ & V & F & C). pose proof (frames_u8 _ _ V F) as U. rewrite C in U. apply u8s_app in U as [_ U].
  destruct (takes_frames _ _ _ (takes_more _ _ _ _ T UD U) _ _ V F (eq_sym C)) as (us & gs & EO & G & EC). exists us, gs. rewrite <- app_assoc in EO. split; [exact EO|]. split; [rewrite EO in V; apply Forall_app in V as [_ V]; apply Forall_app in V; apply V|]. split; [exact G|].
  unfold heard. rewrite E. exact EC.
Qed.
Lemma must_hear p0 ps0 c es : tinv p0 ps0 c es -> y_due (c_viewer c) = false -> decode (heard c) = Ok (None, heard c) /\ match holding c with Some (d, _) => y_now (c_viewer c) < d | None => True end.
Proof.
  intros (I & p & log & D & fs & E & _) N. unfold yinv in I. rewrite E in I. destruct I as (PI & _ & S). destruct (asleep_reads _ _ PI (S N)) as ((H & _) & H2). unfold heard, holding. rewrite E. auto.
Qed.
Lemma out_grows nm c a c' : shappens nm c a c' -> (exists l, c_out c' = c_out c ++ l) /\ y_now (c_viewer c) <= y_now (c_viewer c').
Proof. intros [x L|p f V N F|q m body f NR A G Hb HF|x y En Na]; cbn [c_viewer c_out]; (split; [|try apply ystep_now; lia]); eauto; exists []; rewrite app_nil_r; reflexivity. Qed.
Section Going.
  Variables (nm : naming) (cs : nat -> scene) (acts : nat -> sact) (n0 : nat) (p0 : Panel) (ps0 : list packet).
  Hypotheses (X : forall n, shappens nm (cs n) (acts n) (cs (S n))) (F : sfair cs acts) (T0 : tinv p0 ps0 (cs n0) []).
  Lemma outs_grow n m : (n <= m)%nat -> (exists l, c_out (cs m) = c_out (cs n) ++ l) /\ y_now (c_viewer (cs n)) <= y_now (c_viewer (cs m)).
  Proof.
    induction 1 as [|m L ((l & IH) & IN)]; [split; [exists []; rewrite app_nil_r; reflexivity | lia]|]. destruct (out_grows _ _ _ _ (X m)) as ((l' & E) & N). split; [|lia]. exists (l ++ l'). rewrite E, IH, app_assoc. reflexivity.
  Qed.
  Lemma goes_on_from n es : tinv p0 ps0 (cs n) es -> forall m, (n <= m)%nat -> exists l, tinv p0 ps0 (cs m) (es ++ l) /\ exists ls, lines_of (cs m) = lines_of (cs n) ++ ls.
  Proof.
    intros T m. induction 1 as [|m L (l & IH & ls & IL)]; [exists []; rewrite app_nil_r; split; [exact T|]; exists []; rewrite app_nil_r; reflexivity|].
    destruct (tmoves _ _ _ _ _ _ _ IH (X m)) as (es' & T' & M).
    assert (G : exists l' ls', es' = (es ++ l) ++ l' /\ lines_of (cs (S m)) = lines_of (cs m) ++ ls') by (destruct M as [g _ _ H|b _ _ _ _ _ H|_ _ _ H _ _ _|e pkt ls' _ _ _ _ H|e x ls' _ _ _ _ _ _ _ H]; [exists [], [].. | exists [e], ls' | exists [e], ls']; rewrite ?app_nil_r; auto).
    destruct G as (l' & ls' & -> & HL). exists (l ++ l'). rewrite app_assoc. split; [exact T'|]. exists (ls ++ ls'). rewrite HL, IL, app_assoc. reflexivity.
  Qed.
  Definition more (n K : nat) : Prop := exists m es, (n <= m)%nat /\ tinv p0 ps0 (cs m) es /\ (K < length (packets es))%nat.
  Lemma more_later n n' K : (n <= n')%nat -> more n' K -> more n K.
  Proof. intros L (m & es & L' & Y). exists m, es. split; [lia | exact Y]. Qed.
  Lemma packets_snoc es e : packets (es ++ [e]) = packets es ++ match e_pkt e with Some p => [p] | None => [] end.
  Proof. rewrite packets_app, packets_one. reflexivity. Qed.
  Lemma stays f k : forall n m es rest, (n + k = m)%nat -> tinv p0 ps0 (cs n) es -> heard (cs n) ++ c_net (cs n) = f ++ rest ->
    more n (length (packets es)) \/ exists es' rest', tinv p0 ps0 (cs m) es' /\ packets es' = packets es /\ heard (cs m) ++ c_net (cs m) = f ++ rest' /\ (length (heard (cs n)) <= length (heard (cs m)))%nat.
  Proof.
    induction k as [|k IH]; intros n m es rest E T H; [rewrite Nat.add_0_r in E; subst m; right; exists es, rest; auto|].
    destruct (tmoves _ _ _ _ _ _ _ T (X n)) as (es' & T' & M).
    assert (G : more n (length (packets es)) \/ exists rest', packets es' = packets es /\ heard (cs (S n)) ++ c_net (cs (S n)) = f ++ rest' /\ (length (heard (cs n)) <= length (heard (cs (S n))))%nat).
    { destruct M as [g M1 _ _ M2 _ _|b _ _ M1 M2 _ _|_ M1 _ _ M2 _ _|e pkt ls _ M1 M2 M3 _|e x ls _ M1 M2 M3 _ _ _ _].
      - right. exists (rest ++ g). rewrite M1, M2, app_assoc, H, <- app_assoc. auto.
      - right. exists rest. rewrite M1, <- app_assoc, <- M2, app_length. split; [auto|]. split; [exact H | lia].
      - right. exists rest. rewrite M1, M2. auto.
      - left. exists (S n), (es ++ [e]). split; [lia|]. split; [exact T'|]. rewrite packets_snoc, M1, app_length. cbn. lia.
      - right. exists rest. rewrite packets_snoc, M1, M2, M3, app_nil_r. auto. }
    destruct G as [G|(rest' & G1 & G2 & G3)]; [auto|]. destruct (IH (S n) m es' rest' ltac:(lia) T' G2) as [Y|(es2 & r2 & Y1 & Y2 & Y3 & Y4)].
    - left. rewrite G1 in Y. eapply more_later; [|exact Y]. lia.
    - right. exists es2, r2. split; [exact Y1|]. split; [congruence|]. split; [exact Y3 | lia].
  Qed.
  Lemma told_when_heard pkt f n es rest : valid_packet pkt -> frame_of pkt f -> tinv p0 ps0 (cs n) es -> heard (cs n) ++ c_net (cs n) = f ++ rest -> (length f <= length (heard (cs n)))%nat -> more n (length (packets es)).
  Proof.
    intros V Ff T H L. destruct (proj1 F n) as (m & LM & R). destruct (stays f (m - n) n m es rest ltac:(lia) T H) as [Y|(es' & rest' & T' & EP & H' & L')]; [exact Y|].
    assert (exists x, heard (cs m) = f ++ x) as (x & EX).
    { exists (skipn (length f) (heard (cs m))). rewrite <- (firstn_skipn (length f) (heard (cs m))) at 1. f_equal. apply (f_equal (firstn (length f))) in H'. rewrite !firstn_app, Nat.sub_diag, firstn_all, app_nil_r in H'.
      replace (length f - length (heard (cs m)))%nat with 0%nat in H' by lia. rewrite firstn_O, app_nil_r in H'. exact H'. }
    assert (U : u8s x).
    { destruct T' as (_ & p & log & D & fs & E & (UD & PI & _) & _). unfold heard in EX. rewrite E in EX. destruct PI as (CI & _). pose proof (unread_u8 _ CI) as UU. rewrite EX in UU. apply u8s_app in UU. apply UU. }
    pose proof (decode_of_frame pkt f x V Ff U) as HD. rewrite <- EX in HD. destruct R as [R|R]; [|rewrite (proj1 (must_hear _ _ _ _ T' R)) in HD; discriminate HD].
    destruct (tmoves _ _ _ _ _ _ _ T' (X m)) as (es2 & T2 & M). rewrite R in M.
    destruct M as [g _ _ _ _ _ M|b M _ _ _ _ _|_ _ _ _ _ M _|e pk ls _ M _ _ _|e y ls _ _ _ _ _ _ M _].
    - rewrite (proj1 (must_hear _ _ _ _ T' (M eq_refl))) in HD. discriminate HD.
    - discriminate M.
    - congruence.
    - exists (S m), (es' ++ [e]). split; [lia|]. split; [exact T2|]. rewrite packets_snoc, M, app_length, EP. cbn. lia.
    - congruence.
  Qed.
  Lemma told_soon pkt f : valid_packet pkt -> frame_of pkt f -> forall b n es rest, tinv p0 ps0 (cs n) es -> heard (cs n) ++ c_net (cs n) = f ++ rest -> (length f - length (heard (cs n)) <= b)%nat -> more n (length (packets es)).
  Proof.
    intros V Ff. induction b as [|b IH]; intros n es rest T H B; [eapply told_when_heard; eauto; lia|].
    destruct (le_lt_dec (length f) (length (heard (cs n)))) as [L|L]; [eapply told_when_heard; eauto|].
    destruct (proj2 (proj2 (proj2 F)) n) as (m & LM & R). destruct (stays f (m - n) n m es rest ltac:(lia) T H) as [Y|(es' & rest' & T' & EP & H' & L')]; [exact Y|].
    rewrite <- EP. eapply more_later; [exact LM|].
    destruct (le_lt_dec (length (heard (cs m))) (length (heard (cs n)))) as [E|E]; [|eapply IH; eauto; lia].
    destruct R as [R|R].
    2: { rewrite R, app_nil_r in H'. rewrite H', app_length in E. lia. }
    destruct (tmoves _ _ _ _ _ _ _ T' (X m)) as (es2 & T2 & M). rewrite R in M.
    destruct M as [g _ _ _ _ M _|b' _ NB M1 M2 _ _|M _ _ _ _ _ _|e pk ls M _ _ _ _|e y ls M _ _ _ _ _ _ _]; try discriminate M; [congruence|].
    eapply more_later; [|eapply (IH (S m)); eauto]; [lia | rewrite M1, <- app_assoc, <- M2; exact H'|]. rewrite M1, app_length. destruct b'; [congruence|]. cbn [length]. lia.
  Qed.
  Lemma all_told n k : exists m es, (n0 <= m)%nat /\ (n <= m)%nat /\ (k <= m)%nat /\ tinv p0 ps0 (cs m) es /\ (length (c_out (cs k)) <= length (ps0 ++ packets es))%nat.
  Proof.
    assert (G : forall b m es, (n0 <= m)%nat -> (n <= m)%nat -> (k <= m)%nat -> tinv p0 ps0 (cs m) es -> (length (c_out (cs k)) - length (ps0 ++ packets es) <= b)%nat ->
      exists m es, (n0 <= m)%nat /\ (n <= m)%nat /\ (k <= m)%nat /\ tinv p0 ps0 (cs m) es /\ (length (c_out (cs k)) <= length (ps0 ++ packets es))%nat).
    { induction b as [|b IH]; intros m es L1 L2 L3 T B; [exists m, es; repeat (split; [assumption|]); lia|].
      destruct (le_lt_dec (length (c_out (cs k))) (length (ps0 ++ packets es))) as [L|L]; [exists m, es; auto|].
      destruct (told _ _ _ _ T) as (us & gs & EO & V & G & EH). destruct (outs_grow k m L3) as ((l & EL) & _). rewrite EO in EL. apply (f_equal (@length packet)) in EL. rewrite !app_length in *.
      destruct G as [|u g us gs Gu G]; [cbn in EL; lia|]. inversion V as [|? ? Vu _]; subst. cbn [concat] in EH.
      destruct (told_soon u g Vu Gu _ m es (concat gs) T EH (le_n _)) as (m' & es' & LM & T' & LP). apply (IH m' es'); try lia; [exact T' | rewrite app_length; lia]. }
    set (m := max n0 (max n k)). destruct (goes_on_from n0 [] T0 m ltac:(lia)) as (l & T & _). eapply (G _ m); try exact T; try lia. apply le_n.
  Qed.
  (* nothing more is sent *)
  Lemma settled k : time_passes cs -> (forall m, (k <= m)%nat -> c_out (cs m) = c_out (cs k)) ->
    exists m0, (n0 <= m0)%nat /\ forall m, (m0 <= m)%nat -> exists es, tinv p0 ps0 (cs m) es /\ c_out (cs m) = ps0 ++ packets es /\ holding (cs m) = None.
  Proof.
    intros TP S. destruct (all_told 0 k) as (m1 & es1 & L0 & _ & LK & T1 & LP).
    assert (Q : forall m, (m1 <= m)%nat -> exists es, tinv p0 ps0 (cs m) es /\ c_out (cs m) = ps0 ++ packets es /\ heard (cs m) = []).
    { intros m L. destruct (goes_on_from m1 es1 T1 m L) as (l & T & _). exists (es1 ++ l). split; [exact T|]. destruct (told _ _ _ _ T) as (us & gs & EO & _ & G & EH).
      assert (us = []) as ->.
      { pose proof EO as EL. rewrite (S m ltac:(lia)) in EL. apply (f_equal (@length packet)) in EL. rewrite packets_app, !app_length in EL. rewrite app_length in LP. destruct us; [reflexivity | cbn in EL; lia]. }
      inversion G; subst. rewrite app_nil_r in EO. split; [exact EO|]. cbn in EH. apply app_eq_nil in EH. apply EH. }
    assert (ST : forall m, (m1 <= m)%nat -> holding (cs (Datatypes.S m)) = holding (cs m) \/ holding (cs (Datatypes.S m)) = None).
    { intros m L. destruct (Q m L) as (es & T & _ & EH). destruct (tmoves _ _ _ _ _ _ _ T (X m)) as (es2 & _ & M).
      destruct M as [g _ M _ _ _ _|b _ _ _ _ M _|_ _ M _ _ _ _|e pk ls _ _ M _ _|e y ls _ _ _ _ _ M _ _]; auto. rewrite EH in M. discriminate M. }
    assert (N : forall m m', (m1 <= m)%nat -> (m <= m')%nat -> holding (cs m') = holding (cs m) \/ holding (cs m') = None).
    { intros m m' L. induction 1 as [|m' L' IH]; [auto|]. destruct (ST m' ltac:(lia)) as [-> | ->]; auto. }
    assert (D : exists m2, (m1 <= m2)%nat /\ holding (cs m2) = None).
    { destruct (holding (cs m1)) as [[d x]|] eqn:EH; [|eauto]. destruct (TP m1 d) as (m2 & L2 & LD). destruct (proj1 F m2) as (m3 & L3 & R).
      destruct (N m1 m3 (le_n _) ltac:(lia)) as [H|H]; [|exists m3; split; [lia | exact H]]. rewrite EH in H. destruct (outs_grow m2 m3 L3) as (_ & LN). destruct (Q m3 ltac:(lia)) as (es & T & _ & EM).
      destruct R as [R|R]; [|pose proof (proj2 (must_hear _ _ _ _ T R)) as Y; rewrite H in Y; lia].
      destruct (tmoves _ _ _ _ _ _ _ T (X m3)) as (es2 & _ & M). rewrite R in M. destruct M as [g _ _ _ _ _ M|b M _ _ _ _ _|_ _ _ _ _ _ M|e pk ls _ _ M _ _|e y ls _ _ _ _ _ M _ _].
      - pose proof (proj2 (must_hear _ _ _ _ T (M eq_refl))) as Y. rewrite H in Y. lia.
      - discriminate M.
      - rewrite H in M. lia.
      - rewrite EM in M. discriminate M.
      - exists (Datatypes.S m3). split; [lia | exact M]. }
    destruct D as (m2 & L2 & H2). exists m2. split; [lia|]. intros m L. destruct (Q m ltac:(lia)) as (es & T & EO & _). exists es. split; [exact T|]. split; [exact EO|]. destruct (N m2 m L2 L) as [H|H]; congruence.
  Qed.
End Going.
Lemma frames_of_unique us fs us' fs' : Forall valid_packet us -> Forall valid_packet us' -> Forall2 frame_of us fs -> Forall2 frame_of us' fs' -> concat fs = concat fs' -> us = us'.
Proof.
  intros V V' G G' E. pose proof (drains_frames us fs [] [] [] V G (Forall_nil _) (drains_nil [] eq_refl)) as D. pose proof (drains_frames us' fs' [] [] [] V' G' (Forall_nil _) (drains_nil [] eq_refl)) as D'.
  rewrite E in D. rewrite !app_nil_r in D, D'. exact (proj1 (drains_det _ _ _ D _ _ D')).
Qed.
Lemma scene_not_connecting nm c a c' : scene_ok c -> shappens nm c a c' -> ~ connecting (c_viewer c) -> ~ connecting (c_viewer c').
Proof. intros (I & _) [x L|p f V N F|q m body f NR A G Hb HF|x y En Na] NC; cbn [c_viewer]; auto; apply not_connecting_step; auto. Qed.
Lemma begins nm cs acts n1 i p0 : sexecution nm cs acts -> y_watch (c_viewer (cs n1)) = WConnecting i -> y_watch (c_viewer (cs (S n1))) = WLoop p0 [] ->
  exists ps0, tinv p0 ps0 (cs (S n1)) [].
Proof.
  intros X E1 E2. destruct (cs_ok _ _ _ X n1) as ((I1 & _) & h & fs & HD & EW & V & F & C). destruct (cs_ok _ _ _ X (S n1)) as ((I2 & _) & _).
  rewrite E1 in EW. pose proof (watch_up h (data_ops _ HD)) as WU. rewrite EW in WU. destruct WU as [EI (s & ph & q & ->)].
  assert (G : exists now ws, istep now ws (IRun s ph q) = IDone p0 /\ c_out (cs (S n1)) = c_out (cs n1) /\ c_net (cs (S n1)) = c_net (cs n1)).
  { destruct (proj2 X n1) as [a L|pk f Vp NR Fp|r m body f NR A G Hb HF|a b E Na]; cbn [c_viewer c_out c_net] in *; try congruence.
    - rewrite (ystep_watch _ _ I1), E1 in E2. destruct a as [x|n|e|d| |]; try discriminate E2; try contradiction. destruct (y_due _); [|discriminate E2]. cbn [wstep] in E2. eexists _, _. split; [|auto].
      destruct (istep _ _ _) eqn:ES in E2; try discriminate E2. injection E2 as ->. exact ES.
    - rewrite (ystep_watch _ _ I1), E1 in E2. discriminate E2. }
  destruct G as (now & ws & ES & EO & EN).
  assert (E0 : irun conn_new (h ++ [IStep now ws]) = IDone p0) by (unfold irun in *; rewrite fold_left_app; cbn [fold_left]; rewrite EI; exact ES).
  assert (HD' : Forall data_iop (h ++ [IStep now ws])) by (apply Forall_app; repeat constructor; exact HD).
  destruct (telling_start _ _ (data_ops _ HD') E0) as (ps & T). pose proof (irun_alive _ HD') as A. rewrite E0 in A. rewrite iarrived_step in T.
  exists ps. split; [exact I2|]. exists p0, [], (iarrived h), fs. rewrite EO, EN. auto 10.
Qed.
Lemma begun_tinv nm cs acts n0 p0 ps0 r0 : sexecution nm cs acts -> begun nm cs n0 p0 ps0 r0 -> tinv p0 ps0 (cs n0) [].
Proof.
  intros X (B1 & B2 & _ & _ & us & fs & EO & G & C). destruct n0 as [|n1]; [rewrite (proj1 X) in B2; discriminate B2|]. pose proof (B1 n1 ltac:(lia)) as CN. unfold connecting in CN.
  destruct (y_watch (c_viewer (cs n1))) as [i| | |] eqn:E1; try contradiction. destruct (begins _ _ _ _ _ _ X E1 B2) as (ps & T). destruct (told _ _ _ _ T) as (us' & gs & EO' & V' & G' & C').
  unfold heard in C'. rewrite B2, <- C in C'. assert (V : Forall valid_packet us).
  { destruct T as (_ & p & log & D & fs0 & _ & _ & _ & V & _). rewrite EO in V. apply Forall_app in V. apply V. }
  pose proof (frames_of_unique _ _ _ _ V V' G G' C') as <-. cbn [packets map catMaybes app] in EO'. rewrite EO in EO'. apply app_inv_tail in EO'. rewrite EO'. exact T.
Qed.
Lemma tinv_story p0 ps0 r0 c es : status_is p0 r0 -> tinv p0 ps0 c es -> exists log r us, story p0 ps0 r0 c es log r (option_map snd (holding c)) us /\ log = lines_of c.
Proof.
  intros R0 T. destruct (told _ _ _ _ T) as (us & gs & EO & _). destruct T as (_ & p & log & D & fs & E & (_ & _ & _ & _ & _ & _ & _ & r1 & r & R1 & R & N) & _).
  unfold status_is in R0, R1. rewrite R0 in R1. injection R1 as <-. exists log, r, us. unfold holding, lines_of. rewrite E. split; [|reflexivity]. exists p. auto 10.
Qed.
(* It connects. *)
Theorem C109_connects : forall nm cs acts, sexecution nm cs acts -> sfair cs acts -> exists n0 p0 ps r0, begun nm cs n0 p0 ps r0.
Proof.
  intros nm cs acts X F. destruct (connects_once nm cs acts X F) as (n1 & i & p0 & E1 & E2 & FI). destruct (begins _ _ _ _ _ _ X E1 E2) as (ps & T). destruct (told _ _ _ _ T) as (us & gs & EO & V & G & C).
  pose proof T as (_ & p & log & D & fs & E & (_ & _ & _ & _ & _ & _ & _ & r0 & r & R0 & _) & _). exists (S n1), p0, ps, r0. split; [|split; [exact E2|]].
  - intros n L. destruct (connecting_dec (c_viewer (cs n))) as [Y|Y]; [exact Y|]. exfalso.
    assert (S1 : forall m, (n <= m)%nat -> ~ connecting (c_viewer (cs m))) by (induction 1 as [|m L' IH]; [exact Y | eapply scene_not_connecting; [apply (cs_ok _ _ _ X) | apply (proj2 X) | exact IH]]).
    apply (S1 n1 ltac:(lia)). unfold connecting. rewrite E1. exact Logic.I.
  - split; [eapply finished_names; [exact FI|]; cbn; rewrite E2; reflexivity|]. split; [exact R0|]. exists us, gs. split; [exact EO|]. split; [exact G|]. unfold heard in C. rewrite E2 in C. symmetry. exact C.
Qed.
(* From then on it never ends; the lines are those to be told for what the panel has sent, up to some packet; lines stay told; and everything the panel sends is told. *)
Theorem C109_tells : forall nm cs acts n0 p0 ps r0, sexecution nm cs acts -> sfair cs acts -> begun nm cs n0 p0 ps r0 ->
  (forall m, (n0 <= m)%nat -> exists es log r h us, story p0 ps r0 (cs m) es log r h us) /\
  (forall n m p log p' log', (n0 <= n <= m)%nat -> y_watch (c_viewer (cs n)) = WLoop p log -> y_watch (c_viewer (cs m)) = WLoop p' log' -> exists ls, log' = log ++ ls) /\
  (forall k, exists m es log r h us later, (n0 <= m)%nat /\ story p0 ps r0 (cs m) es log r h us /\ ps ++ packets es = c_out (cs k) ++ later).
Proof.
  intros nm cs acts n0 p0 ps r0 X F B. pose proof (begun_tinv _ _ _ _ _ _ _ X B) as T0. destruct B as (_ & _ & _ & R0 & _). split; [|split].
  - intros m L. destruct (goes_on_from nm cs acts p0 ps (proj2 X) n0 [] T0 m L) as (l & T & _). destruct (tinv_story _ _ _ _ _ R0 T) as (log & r & us & S & _). eauto 10.
  - intros n m p log p' log' (L1 & L2) E E'. destruct (goes_on_from nm cs acts p0 ps (proj2 X) n0 [] T0 n L1) as (l & T & _). destruct (goes_on_from nm cs acts p0 ps (proj2 X) n _ T m L2) as (l2 & _ & ls & EL).
    unfold lines_of in EL. rewrite E, E' in EL. eauto.
  - intros k. destruct (all_told nm cs acts n0 p0 ps (proj2 X) F T0 0 k) as (m & es & L0 & _ & LK & T & LP). destruct (tinv_story _ _ _ _ _ R0 T) as (log & r & us & S & _).
    destruct (outs_grow nm cs acts (proj2 X) k m LK) as ((l & EL) & _). pose proof S as (p & _ & _ & _ & _ & EO). rewrite app_assoc, EL in EO.
    exists m, es, log, r, (option_map snd (holding (cs m))), us, (skipn (length (c_out (cs k))) (ps ++ packets es)). split; [exact L0|]. split; [exact S|].
    rewrite <- (firstn_skipn (length (c_out (cs k))) (ps ++ packets es)) at 1. f_equal. apply (f_equal (firstn (length (c_out (cs k))))) in EO.
    rewrite !firstn_app, Nat.sub_diag, firstn_all, firstn_O, app_nil_r in EO. replace (length (c_out (cs k)) - length (ps ++ packets es))%nat with 0%nat in EO by lia. rewrite firstn_O, app_nil_r in EO. rewrite firstn_app. symmetry. exact EO.
Qed.
(* Once the panel sends nothing more everything is told, and the report in effect is the last one it has sent: none is held back. *)
Theorem C109_all_told : forall nm cs acts n0 p0 ps r0 k, sexecution nm cs acts -> sfair cs acts -> time_passes cs -> begun nm cs n0 p0 ps r0 ->
  (forall m, (k <= m)%nat -> c_out (cs m) = c_out (cs k)) ->
  exists m0, forall m, (m0 <= m)%nat -> exists es log r, story p0 ps r0 (cs m) es log r None [] /\ exists rs, reports_in (c_out (cs k)) = rs ++ [r].
Proof.
  intros nm cs acts n0 p0 ps r0 k X F TP B S. pose proof (begun_tinv _ _ _ _ _ _ _ X B) as T0. destruct B as (_ & _ & _ & R0 & _).
  destruct (settled nm cs acts n0 p0 ps (proj2 X) F T0 k TP S) as (m0 & L0 & H). exists (max m0 k). intros m L. destruct (H m ltac:(lia)) as (es & T & EO & EH).
  destruct (tinv_story _ _ _ _ _ R0 T) as (log & r & us & ST & _). rewrite EH in ST. cbn [option_map] in ST. exists es, log, r.
  assert (us = []) as -> by (destruct ST as (p & _ & _ & _ & _ & EO'); rewrite EO, app_assoc in EO'; rewrite <- (app_nil_r (ps ++ packets es)) in EO' at 1; apply app_inv_head in EO'; auto).
  split; [exact ST|]. destruct ST as (p & E & R & HH & _). destruct T as (_ & p' & log' & D & fs & E' & (_ & _ & _ & _ & _ & SN & _) & _). rewrite E in E'. injection E' as <- <-.
  rewrite <- (S m ltac:(lia)), EO. unfold seen in SN. rewrite HH in SN. apply status_some in R. rewrite R in SN.
  destruct (reports_in (ps ++ packets es)) as [|y l IHl] using rev_ind; [discriminate SN|]. clear IHl. rewrite map_app in SN. cbn [map] in SN. rewrite last_snoc in SN. injection SN as <-. eauto.
Qed.

(* ---- an example: the panel answers and then sends a zone's change and a report that is held; the executor runs the task and time passes for ever ---- *)
Inductive smv : Type := SMvTask (a : yact) | SMvSend (k : nat) | SMvReply | SMvDeliver.
Definition ex_news : list message := [ex_extra; MZoneChange (mkZC 2 2); MArmingStatusReport ex_armed].
Definition new_of (k : nat) : message := nth k ex_news ex_extra.
Definition sanswer (c : scene) : message := nth (c_replied c) ex_answers MRtcRequest.
Definition sgo (c : scene) (v : smv) : scene :=
  match v with
  | SMvTask a => mkScene (ystep (c_viewer c) a) (c_out c) (c_net c) (c_replied c)
  | SMvSend k => mkScene (c_viewer c) (c_out c ++ [ex_pkt (new_of k)]) (c_net c ++ bytes_of (new_of k)) (c_replied c)
  | SMvReply => mkScene (c_viewer c) (c_out c ++ [ex_pkt (sanswer c)]) (c_net c ++ bytes_of (sanswer c)) (S (c_replied c))
  | SMvDeliver => mkScene (ystep (c_viewer c) (YArrive (Bytes (c_net c)))) (c_out c) [] (c_replied c)
  end.
Definition sact_of (v : smv) : sact := match v with SMvTask a => STask a | SMvSend _ => SUnrelated | SMvReply => SReply | SMvDeliver => SDeliver end.
Definition can_sgo (c : scene) (v : smv) : bool :=
  match v with
  | SMvTask a => match a with YArrive _ | YBreak _ => false | _ => true end
  | SMvSend _ => true
  | SMvReply => can_move (world_at c) MvReply
  | SMvDeliver => negb (bytes_eqb (c_net c) [])
  end.
Fixpoint can_sgoes (c : scene) (vs : list smv) : bool := match vs with [] => true | v :: vs' => can_sgo c v && can_sgoes (sgo c v) vs' end.
Definition srun : smv := SMvTask YRun.
Definition ex_goes : list smv :=
  [SMvSend 0; srun; srun; SMvTask (YRoom 1000)] ++ concat (repeat [srun; srun; srun; SMvReply; SMvDeliver; srun; srun] 7) ++ [srun; SMvSend 1; SMvSend 2; SMvDeliver; srun; srun; srun; SMvTask (YWait 5000); srun; srun].
(* after these, time passes and the task may be run, for ever *)
Definition then_go (n : nat) : smv := if Nat.even n then srun else SMvTask (YWait 1).
Fixpoint safter (c : scene) (vs : list smv) (n : nat) : scene :=
  match n with O => c | S n' => sgo (safter c vs n') (nth n' vs (then_go n')) end.
Definition ex_scenes : nat -> scene := safter scene_new ex_goes.
Definition ex_sacts (n : nat) : sact := sact_of (nth n ex_goes (then_go n)).
Lemma new_wf k : wf_message (new_of k) /\ ~ exists r, new_of k = MStringDescriptionResponse r.
Proof.
  assert (F : forall m, In m ex_news -> wf_message m /\ ~ exists r, m = MStringDescriptionResponse r).
  { intros m [<-|[<-|[<-|[]]]]; (split; [|intros (r & Y); discriminate Y]); try (repeat constructor; discriminate). }
  unfold new_of. destruct (nth_in_or_default k ex_news ex_extra) as [H|H]; [exact (F _ H)|]. rewrite H. apply F. left. reflexivity.
Qed.
Lemma can_sgo_happens c v : can_sgo c v = true -> shappens ex_naming c (sact_of v) (sgo c v).
Proof.
  destruct v as [a|k| |]; intros H; cbn [sact_of sgo].
  - constructor. destruct a; try discriminate H; exact Logic.I.
  - destruct (new_wf k) as [W NR]. destruct (ex_bytes _ W) as (body & E & Hw & Hb & HF). rewrite E.
    apply (S_unrelated ex_naming c (PAscii body) _ Hb); [|exact HF]. intros _ (r & Hr). unfold message_of in Hr. cbn [parse] in Hr.
    rewrite (proj2 (parse_some_iff body (new_of k))) in Hr by (apply wire_grammar; auto). injection Hr as Hr. apply NR. eauto.
  - pose proof (can_move_happens (world_at c) MvReply H) as Y. cbn [move act_of] in Y. change (ex_answer (world_at c)) with (sanswer c) in Y.
    remember (mkWorld (w_client (world_at c)) (w_out (world_at c) ++ [ex_pkt (sanswer c)]) (w_net (world_at c) ++ bytes_of (sanswer c)) (S (w_replied (world_at c)))) as w' eqn:EW.
    remember AReply as b eqn:EB. destruct Y as [| |q m body f NR A G Hb HF|]; try discriminate EB. injection EW as E2 E3.
    apply app_inj_tail in E2 as [_ E2]. apply app_inv_head in E3. subst f. rewrite <- E2. exact (S_reply ex_naming c q m body _ NR A G Hb HF).
  - apply (S_deliver ex_naming c (c_net c) []); [rewrite app_nil_r; reflexivity|]. intros E. cbn [can_sgo] in H. rewrite E in H. discriminate H.
Qed.
Lemma ex_can_sgo : can_sgoes scene_new ex_goes = true.
Proof. vm_compute. reflexivity. Qed.
Lemma can_sgoes_nth vs : forall c n v, can_sgoes c vs = true -> nth_error vs n = Some v -> can_sgo (fold_left sgo (firstn n vs) c) v = true.
Proof.
  induction vs as [|w vs IH]; intros c n v H E; [destruct n; discriminate E|]. cbn [can_sgoes] in H. apply andb_true_iff in H as [H1 H2]. destruct n as [|n]; cbn [nth_error firstn fold_left] in *; [injection E as <-; exact H1 | exact (IH _ _ _ H2 E)].
Qed.
Lemma safter_fold c vs n : (n <= length vs)%nat -> safter c vs n = fold_left sgo (firstn n vs) c.
Proof.
  induction n as [|n IH]; intros L; [reflexivity|]. cbn [safter]. rewrite IH by lia. destruct (nth_error vs n) as [v|] eqn:E; [|apply nth_error_None in E; lia].
  rewrite (nth_error_nth _ _ _ E). apply nth_error_split in E as (l1 & l2 & -> & <-). rewrite firstn_app, Nat.sub_diag, firstn_all, firstn_O, app_nil_r.
  replace (S (length l1)) with (length l1 + 1)%nat by lia. rewrite firstn_app_2, fold_left_app. reflexivity.
Qed.
Definition ex_at (t : N) : scene := Eval vm_compute in
  let c := fold_left sgo ex_goes scene_new in
  mkScene (mkViewer (y_watch (c_viewer c)) (y_regs (c_viewer c)) (y_due (c_viewer c)) t (y_room (c_viewer c)) (y_broken (c_viewer c))) (c_out c) (c_net c) (c_replied c).
Lemma ex_at_goes t : sgo (ex_at t) srun = ex_at t /\ sgo (ex_at t) (SMvTask (YWait 1)) = ex_at (t + 1).
Proof. split; reflexivity. Qed.
Lemma ex_next n t : (length ex_goes <= n)%nat -> ex_scenes n = ex_at t -> ex_scenes (S n) = ex_at (if Nat.even n then t else t + 1).
Proof. intros L E. unfold ex_scenes in *. cbn [safter]. rewrite E, nth_overflow by exact L. unfold then_go. destruct (ex_at_goes t). destruct (Nat.even n); assumption. Qed.
Lemma ex_later n : (length ex_goes <= n)%nat -> exists t, ex_scenes n = ex_at t.
Proof.
  induction 1 as [|n L (t & E)]; [|eexists; apply (ex_next n t L E)].
  exists 5000. unfold ex_scenes. rewrite safter_fold, firstn_all by lia. vm_compute. reflexivity.
Qed.
Lemma ex_two n t : (length ex_goes <= n)%nat -> ex_scenes n = ex_at t -> ex_scenes (S (S n)) = ex_at (t + 1).
Proof.
  intros L E. rewrite (ex_next (S n) _ ltac:(lia) (ex_next n t L E)), Nat.even_succ, <- Nat.negb_even. destruct (Nat.even n); reflexivity.
Qed.
Lemma ex_ever n k : (length ex_goes <= n)%nat -> exists m t, (n <= m)%nat /\ ex_scenes m = ex_at t /\ N.of_nat k <= t.
Proof.
  intros L. induction k as [|k (m & t & LM & E & K)].
  - destruct (ex_later n L) as (t & E). exists n, t. split; [lia|]. split; [exact E | lia].
  - exists (S (S m)), (t + 1). split; [lia|]. split; [apply ex_two; [lia | exact E] | lia].
Qed.
Example C109_example : sexecution ex_naming ex_scenes ex_sacts /\ sfair ex_scenes ex_sacts /\ time_passes ex_scenes /\
  (forall m, (length ex_goes <= m)%nat -> c_out (ex_scenes m) = c_out (ex_scenes (length ex_goes))) /\
  c_out (ex_scenes (length ex_goes)) = map ex_pkt (ex_extra :: ex_answers ++ [MZoneChange (mkZC 2 2); MArmingStatusReport ex_armed]) /\
  (match y_watch (c_viewer (ex_scenes (length ex_goes))) with WLoop _ log => log | _ => [] end) =
    [LZone (B "Front DoorKeypad") 9 2; LArea (B "House") AST_Disarmed AU_ReadyToArm AA_NoAlarmActive AST_ArmedAway AU_ArmedFully AA_NoAlarmActive].
Proof.
  assert (LE : forall n, (length ex_goes <= n + length ex_goes)%nat) by (intros; lia).
  split; [|split; [|split; [|split; [|split; [|]]]]].
  - split; [reflexivity|]. intros n. unfold ex_sacts, ex_scenes. cbn [safter]. apply can_sgo_happens. destruct (nth_error ex_goes n) as [v|] eqn:E.
    + rewrite (nth_error_nth _ _ _ E). assert (L : (n < length ex_goes)%nat) by (apply nth_error_Some; congruence). rewrite safter_fold by lia. exact (can_sgoes_nth _ _ _ _ ex_can_sgo E).
    + apply nth_error_None in E. rewrite nth_overflow by exact E. unfold then_go. destruct (Nat.even n); reflexivity.
  - split; [|split; [|split]]; intros n; exists (n + length ex_goes)%nat; (split; [lia|]); destruct (ex_later _ (LE n)) as (t & ->).
    + right. reflexivity.
    + vm_compute. discriminate.
    + right. intros q (qs & fs & rest & F & E & L).
      assert (E2 : client_sent (w_client (world_at (ex_at t))) = concat (map bytes_of ex_requests) ++ []) by (vm_compute; reflexivity).
      rewrite E2 in E. destruct (requests_unique _ _ (ex_frames _ ex_requests_ok) _ _ _ _ F E) as (c & EC); [constructor | reflexivity|].
      apply (f_equal (@length _)) in EC. rewrite !app_length, L in EC. vm_compute in EC. lia.
    + right. reflexivity.
  - intros n t. destruct (ex_ever (n + length ex_goes) (N.to_nat t) (LE n)) as (m & t' & L & E & K). exists m. split; [lia|]. rewrite E. change (t <= t'). lia.
  - intros m L. destruct (ex_later m L) as (t & ->). destruct (ex_later _ (le_n (length ex_goes))) as (t' & ->). reflexivity.
  - destruct (ex_later _ (le_n (length ex_goes))) as (t' & ->). vm_compute. reflexivity.
  - destruct (ex_later _ (le_n (length ex_goes))) as (t' & ->). vm_compute. reflexivity.
Qed.

Print Assumptions C109_connects.
Print Assumptions C109_tells.
Print Assumptions C109_all_told.
