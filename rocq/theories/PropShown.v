(* PropShown.v: C102: what the broker shows is up to date whenever the bridge is at rest. *)
From Verif Require Import Base BaseFacts Pkt SpecPkt PktFacts DecodeFacts Msg SpecMsg DecFacts MsgFacts WireFacts IsoFacts
  PropMsg Tokio SpecConn ConnFacts State SpecState StateFacts RunFacts HistFacts ViewFacts ExState PropState PropSink PropLive
  Serde SerdeFacts PropSerde SpecInit InitFacts PropConnect SpecSend SendFacts PropSend Mqtt SpecMqtt MqttFacts PropMqtt PropEnd SpecServe ServeFacts PropServe
  SpecProgram ProgramFacts PropProgram.
From Verif Require SpecWakeInit PropWakeInit PropTasks PropFail PropRest.
From Verif Require Import Wake PropWake WakeBridge SpecHost HostFacts PropHost SpecRest SpecShown.
From Coq Require Import ZifyBool ZifyNat ZifyN.
Ltac Zify.zify_post_hook ::= Z.div_mod_to_equations.

Section Steps.
Variables (cl : client) (cfg : Cfg).
(* the polls of one step of the task are made at the time it has then *)
Definition timed (now : N) (a : hact) (i : input) : Prop :=
  match i with PollPanel t => t = now | PollConnect t _ => t = now | NetArrive _ => ~ no_arrival a | _ => True end.
Lemma hstep_timed h a : hact_ok a -> sound cl cfg h ->
  exists is, Forall input_ok is /\ Forall (timed (h_now h) a) is /\ h_bridge (hstep cl cfg h a) = fold_left (bstep cl cfg) is (h_bridge h).
Proof.
  intros O SO. unfold hstep. destruct (h_bridge h) as [i rx|u|log why] eqn:EB.
  - destruct (sound_connecting _ _ _ _ _ SO EB) as [_ R]. destruct a as [x|n|e|d|t pl| | |first].
    + exists [NetArrive x]. split; [repeat constructor; exact O|]. split; [repeat constructor; cbn; tauto|]. destruct R as (s & ph & p & ->). reflexivity.
    + exists []. split; [constructor|]. split; [constructor|]. destruct R as (s & ph & p & ->). destruct n; reflexivity.
    + exists []. split; [constructor|]. split; [constructor|]. destruct R as (s & ph & p & ->). reflexivity.
    + exists []. split; [constructor|]. split; [constructor|]. destruct R as (s & ph & p & ->). reflexivity.
    + exists [MqttArrive t pl]. split; [repeat constructor|]. split; [repeat constructor | reflexivity].
    + exists [MqttFail]. split; [repeat constructor|]. split; [repeat constructor | reflexivity].
    + exists []. split; [constructor|]. split; [constructor | reflexivity].
    + destruct (connect_inputs cl cfg h i rx WakeInit.CRun R Logic.I) as (is & F & E & _ & _ & EI). exists is. split; [exact F|]. split; [|exact E].
      rewrite (EI eq_refl). destruct (h_due h); repeat constructor.
  - destruct a as [x|n|e|d|t pl| | |first].
    + exists [NetArrive x]. split; [repeat constructor; exact O|]. split; [repeat constructor; cbn; tauto | reflexivity].
    + exists []. split; [constructor|]. split; [constructor|]. unfold outside. cbn [wstep]. destruct n; cbn [put h_bridge w_panel world_of fold_left]; rewrite set_panel_same; reflexivity.
    + exists []. split; [constructor|]. split; [constructor|]. unfold outside. cbn [wstep put h_bridge w_panel world_of fold_left]; rewrite set_panel_same; reflexivity.
    + exists []. split; [constructor|]. split; [constructor|]. unfold outside. cbn [wstep world_of w_panel]. destruct (pending_arm (u_panel u)) as [[dl m]|]; [destruct (dl <=? _)|]; cbn [put h_bridge w_panel fold_left]; rewrite set_panel_same; reflexivity.
    + exists [MqttArrive t pl]. split; [repeat constructor|]. split; [repeat constructor | reflexivity].
    + exists [MqttFail]. split; [repeat constructor|]. split; [repeat constructor | reflexivity].
    + exists []. split; [constructor|]. split; [constructor | reflexivity].
    + destruct (h_due h); [|exists []; split; [constructor|]; split; [constructor | exact EB]]. destruct (u_mode u) eqn:EM.
      * eexists. split; [|split; [|apply select_inputs; exact EM]]; (destruct first; [destruct (snd _) | destruct (u_rx u)]); repeat constructor.
      * destruct (run_send (world_of h u) (Feeding c)) as [w r]. exists [PollSend (writes (world_of h u))]. split; [repeat constructor|]. split; [repeat constructor | reflexivity].
      * destruct (run_send (world_of h u) Flushing) as [w r]. exists [PollSend (writes (world_of h u))]. split; [repeat constructor|]. split; [repeat constructor | reflexivity].
  - exists []. split; [constructor|]. split; [constructor | exact EB].
Qed.
(* time does not go backwards *)
Lemma flush_now w : w_now (fst (run_flush w)) = w_now w.
Proof. unfold run_flush. cbn [wstep]. destruct (poll_flush_cx _ _ _ _) as [[p [|r]] g]; reflexivity. Qed.
Lemma send_now w m : w_now (fst (run_send w m)) = w_now w.
Proof.
  destruct m; try apply flush_now. cbn [run_send wstep]. destruct (poll_ready_cx _ _ _ _) as [[p [|[[]|e]]] g]; try reflexivity.
  destruct (start_send _ _); cbn [bind]; try reflexivity. rewrite flush_now. reflexivity.
Qed.
Lemma panel_now h u : h_now (fst (select_panel cl cfg h u)) = h_now h.
Proof.
  unfold select_panel. destruct (wstep (world_of h u) (WNext TASK)) as [[[w b] ks]|e|y] eqn:E; [|reflexivity|reflexivity].
  assert (X : w_now w = h_now h). { cbn [wstep] in E. apply bind_inv in E as ([[[p r] k] g] & _ & E). injection E as <- _ _. reflexivity. }
  destruct b as [|[|[[e|e]|]] k|o]; exact X.
Qed.
Lemma rx_now h u : h_now (fst (select_rx cl cfg h u)) = h_now h.
Proof. unfold select_rx. destruct (u_rx u); reflexivity. Qed.
Lemma select_now first h u : h_now (select cl cfg first h u) = h_now h.
Proof.
  unfold select. destruct first.
  - pose proof (panel_now h u) as E. destruct (select_panel cl cfg h u) as [h1 []]; [exact E|]. cbn [fst] in E. destruct (h_bridge h1); [exact E | rewrite rx_now; exact E | exact E].
  - pose proof (rx_now h u) as E. destruct (select_rx cl cfg h u) as [h1 []]; [exact E|]. cbn [fst] in E. destruct (h_bridge h1); [exact E | rewrite panel_now; exact E | exact E].
Qed.
Lemma now_on h a : h_now h <= h_now (hstep cl cfg h a).
Proof.
  unfold hstep. destruct (h_bridge h) as [i rx|u|log why] eqn:EB; [| |lia].
  - destruct a as [x|n|e|d|t pl| | |first]; cbn [h_now]; try lia; unfold connect_step, client_of; cbn [WakeInit.cstep h_now WakeInit.k_now]; try lia.
    + destruct n; cbn; lia.
    + destruct (h_due h); [|cbn; lia]. destruct (WakeInit.iwaits _ _) as [[]|]; cbn; lia.
  - destruct a as [x|n|e|d|t pl| | |first]; cbn [h_now]; try lia; unfold outside.
    + cbn. lia.
    + destruct n; cbn; lia.
    + cbn. lia.
    + cbn [wstep]. destruct (pending_arm (w_panel (world_of h u))) as [[dl m]|]; [destruct (dl <=? _)|]; cbn; lia.
    + destruct (h_due h); [|lia]. destruct (u_mode u) eqn:EM; [rewrite select_now; lia| |];
        pose proof (send_now (world_of h u) (u_mode u)) as E; rewrite EM in E; destruct (run_send _ _) as [w r]; cbn in *; lia.
Qed.

(* ---- how long a report is held ---- *)
Definition pend_step (now : N) (p p' : Panel) : Prop :=
  pending_arm p' = pending_arm p \/ pending_arm p' = None \/ exists r, pending_arm p' = Some (now + 5000, r).
Lemma interpret_pend now p pkt p' e w : interpret now p pkt = Ok (p', e, w) -> pend_step now p p'.
Proof.
  unfold interpret. destruct (parse pkt) as [[m|]|x|x]; [|intros [= <- _ _]; left; reflexivity | intros [= <- _ _]; left; reflexivity | discriminate].
  intros E. apply bind_inv in E as ([p1 c] & E1 & E). destruct (interpret_reply p1 m) as [[p2 q] k] eqn:E2. injection E as <- _ _.
  assert (P2 : pending_arm p2 = pending_arm p1).
  { unfold interpret_reply in E2. destruct (cmd_state p1) as [|rq0 f k0]; [injection E2 as <- _ _; reflexivity|]. destruct (is_response_to m rq0); injection E2 as <- _ _; reflexivity. }
  unfold pend_step. rewrite P2. destruct m; cbn [interpret_msg] in E1; try (injection E1 as <- _; left; reflexivity).
  - injection E1 as E1. unfold interpret_arming_status in E1. destruct (s_arming (p_state p)) as [prior|]; [|injection E1 as <- _; left; reflexivity].
    destruct (pending_arm p) as [[d0 m0]|] eqn:EP.
    + right. left. destruct (ArmingStatusReport_eqb prior m); injection E1 as <- _; reflexivity.
    + destruct (is_transition_suspicious prior m).
      * injection E1 as <- _. right. right. exists m. reflexivity.
      * left. destruct (ArmingStatusReport_eqb prior m); injection E1 as <- _; exact EP.
  - destruct (s_zones (p_state p)) as [zs|]; [|injection E1 as <- _; left; reflexivity].
    apply bind_inv in E1 as (i & _ & E1). apply bind_inv in E1 as (s0 & _ & E1). apply bind_inv in E1 as (zs' & _ & E1). injection E1 as <- _. left. reflexivity.
Qed.
Lemma next_pend now p p' r w : poll_next now p = Ok (p', r, w) -> pend_step now p p'.
Proof.
  unfold poll_next. intros E. apply bind_inv in E as ([c rc] & EC & E). destruct rc as [|[[pkt|e]|]].
  - cbn [with_conn pending_arm p_state] in E. destruct (pending_arm p) as [[d m]|] eqn:EP; [|injection E as <- _ _; left; reflexivity].
    destruct (d <=? now); [|injection E as <- _ _; left; reflexivity]. destruct (s_arming (p_state p)); [|discriminate]. injection E as <- _ _. right. left. reflexivity.
  - apply bind_inv in E as ([[p1 e1] k1] & E1 & E). injection E as <- _ _. apply interpret_pend in E1. exact E1.
  - injection E as <- _ _. left. reflexivity.
  - injection E as <- _ _. left. reflexivity.
Qed.
Definition panel_in (b : bridge) : option Panel :=
  match b with Connecting (IRun _ _ p) _ => Some p | Connecting (IDone p) _ => Some p | Up u => Some (u_panel u) | _ => None end.
Definition held_till (T : N) (o : option Panel) : Prop := forall p d r, o = Some p -> pending_arm p = Some (d, r) -> d <= T.
Lemma held_step T now p p' : held_till T (Some p) -> pend_step now p p' -> now + 5000 <= T -> held_till T (Some p').
Proof.
  intros H P L p0 d r [= <-] E. destruct P as [P|[P|(r' & P)]]; [eapply H; [reflexivity | rewrite <- P; exact E] | congruence|].
  rewrite P in E. injection E as <- _. exact L.
Qed.
Lemma held_same T p p' : held_till T (Some p) -> pending_arm p' = pending_arm p -> held_till T (Some p').
Proof. intros H P p0 d r [= <-] E. eapply H; [reflexivity | rewrite <- P; exact E]. Qed.
Lemma held_none T : held_till T None. Proof. discriminate. Qed.
Lemma after_sds_pend ty p p' : panel_in (Connecting (after_sds ty p) []) = Some p' -> pending_arm p' = pending_arm p.
Proof. destruct ty; cbn; intros [= <-]; reflexivity. Qed.
Lemma after_reply_pend s p m p' : panel_in (Connecting (after_reply s p m) []) = Some p' -> pending_arm p' = pending_arm p.
Proof.
  destruct s as [| |ty max i]; cbn [after_reply]; try (cbn; intros [= <-]; reflexivity). unfold sds_reply. destruct m; try discriminate.
  destruct (negb _); [discriminate|]. destruct (names_of (p_state p) ty) as [names|]; [|discriminate]. destruct (_ =? 0); [apply after_sds_pend|].
  destruct (_ <? _)%nat; [discriminate|]. destruct (set_nth _ _ _) as [names'|e|y]; try discriminate.
  destruct (_ <? _)%nat; [cbn; intros [= <-]; reflexivity|]. intros E. apply after_sds_pend in E. exact E.
Qed.
(* what sending does to the panel *)
Definition only_writes (p p' : Panel) : Prop := pending_arm p' = pending_arm p /\ same_read (p_conn p) (p_conn p').
Lemma only_writes_trans a b c : only_writes a b -> only_writes b c -> only_writes a c.
Proof. intros [A (A1 & A2 & A3 & A4 & A5 & A6)] [B (B1 & B2 & B3 & B4 & B5 & B6)]. split; [congruence|]. repeat split; congruence. Qed.
Lemma flush_conn c ws c' ws' r : conn_poll_flush c ws = (c', ws', r) -> same_read c c'.
Proof. unfold conn_poll_flush. destruct (framed_flush ws (wbuf c) (sent c)) as [[[buf out] ws0] r0]. intros [= <- _ _]. repeat split. Qed.
Lemma flush_only ws p p' r : poll_flush ws p = (p', r) -> only_writes p p'.
Proof.
  unfold poll_flush, panel_flush. destruct (cmd_state p) as [|q [] k]; try (intros [= <- _]; split; [|repeat split]; reflexivity).
  destruct (conn_poll_flush (p_conn p) ws) as [[c ws'] o] eqn:E. apply flush_conn in E. destruct o as [|[[]|e]]; intros [= <- _]; split; [reflexivity | exact E| reflexivity | exact E| reflexivity | exact E].
Qed.
Lemma ready_only t ws p p' r : poll_ready t ws p = (p', r) -> only_writes p p'.
Proof.
  unfold poll_ready. destruct (cmd_state p) as [|q [] k]; try (intros [= <- _]; split; [|repeat split]; reflexivity).
  destruct (conn_poll_flush _ _) as [[c ws'] o] eqn:E. apply flush_conn in E. destruct o as [|[[]|e]]; intros [= <- _]; split; [reflexivity | exact E| reflexivity | exact E| reflexivity | exact E].
Qed.
Lemma send_only c p p' : start_send c p = Ok p' -> only_writes p p'.
Proof.
  unfold start_send. destruct (cmd_state p); [|discriminate]. intros E. apply bind_inv in E as (pkt & _ & E). apply bind_inv in E as (c2 & E2 & [= <-]).
  split; [reflexivity|]. unfold conn_start_send in E2. apply bind_inv in E2 as (buf & _ & [= <-]). repeat split.
Qed.
Lemma flushing_only ws u u' : poll_send_flush ws u = Up u' -> only_writes (u_panel u) (u_panel u').
Proof.
  unfold poll_send_flush. destruct (poll_flush ws (u_panel u)) as [p r] eqn:E. apply flush_only in E. destruct r as [|[[]|e]]; intros [= <-]; exact E.
Qed.
Lemma sending_only ws u u' : bstep cl cfg (Up u) (PollSend ws) = Up u' -> only_writes (u_panel u) (u_panel u').
Proof.
  cbn [bstep]. destruct (u_mode u); [intros [= <-]; split; [|repeat split]; reflexivity| |apply flushing_only].
  destruct (poll_ready TASK ws (u_panel u)) as [p r] eqn:E. apply ready_only in E. destruct r as [|[[]|e]]; [intros [= <-]; exact E| |discriminate].
  destruct (start_send c p) as [p'|e|y] eqn:ES; try discriminate. apply send_only in ES. intros EF. apply flushing_only in EF.
  eapply only_writes_trans; [exact E|]. eapply only_writes_trans; [exact ES | exact EF].
Qed.
Lemma istep_held T now ws i rx : held_till T (panel_in (Connecting i rx)) -> now + 5000 <= T -> held_till T (panel_in (Connecting (istep now ws i) rx)).
Proof.
  intros H L. destruct i as [s ph p|p|e|y]; cbn [istep]; try exact H. cbn [panel_in] in H.
  assert (HC : forall c s' ph', held_till T (panel_in (Connecting (IRun s' ph' (with_conn p c)) rx))) by (intros c s' ph'; eapply held_same; [exact H | reflexivity]).
  destruct ph.
  - destruct (conn_poll_ready (p_conn p) ws) as [[c ws'] [|[[]|e]]]; [apply HC | | apply held_none]. destruct (bind _ _) as [c'|e|y]; [apply HC | apply held_none | apply held_none].
  - destruct (conn_poll_flush (p_conn p) ws) as [[c ws'] [|[[]|e]]]; [apply HC | apply HC | apply held_none].
  - destruct (conn_poll_next (p_conn p)) as [[c [|[[pkt|e]|]]]|e|y]; try apply held_none; [apply HC | | unfold await_eof; destruct (FmtMsg.Message_dbg _); apply held_none].
    destruct (interpret now (with_conn p c) pkt) as [[[p' e] k]|e|y] eqn:EI; try apply held_none. apply interpret_pend in EI.
    assert (H' : held_till T (Some p')) by (eapply held_step; [apply (HC c s PhReady) | exact EI | exact L]). destruct (e_msg e) as [[m|m]|]; try exact H'.
    destruct (is_response_to m (stage_msg s)); [|exact H']. intros p0 d r E0 E1. apply (H' p' d r eq_refl). rewrite <- E1. symmetry.
    apply (after_reply_pend s p' m). destruct (after_reply s p' m); exact E0.
Qed.
Lemma bridge_up_or_dead u i : (exists u', bstep cl cfg (Up u) i = Up u') \/ exists l w, bstep cl cfg (Up u) i = Dead l w.
Proof.
  destruct i; cbn [bstep]; eauto.
  - destruct (u_mode u); eauto. destruct (poll_next now (u_panel u)) as [[[p [|[[e|e]|]]] w]|e|w]; eauto.
    unfold settle. destruct (handle_event cl cfg p e) as [l [[]|?|?]]; eauto.
  - destruct (u_mode u), (u_rx u) as [|[t p] rx']; eauto. destruct (requested _ _ _ _ _) as [[c|]|?|?]; eauto.
  - unfold poll_send_flush. destruct (u_mode u); eauto.
    + destruct (poll_ready TASK ws (u_panel u)) as [p [|[[]|e]]]; eauto. destruct (start_send c p); eauto.
      destruct (poll_flush ws _) as [p' [|[[]|e]]]; eauto.
    + destruct (poll_flush ws _) as [p' [|[[]|e]]]; eauto.
Qed.
Lemma panel_pend now u u' : bstep cl cfg (Up u) (PollPanel now) = Up u' -> pend_step now (u_panel u) (u_panel u').
Proof.
  cbn [bstep]. destruct (u_mode u); try (intros [= <-]; left; reflexivity). destruct (poll_next now (u_panel u)) as [[[p [|[[e|e]|]]] w]|e|y] eqn:E; try discriminate; apply next_pend in E.
  - intros [= <-]. exact E.
  - unfold settle. destruct (handle_event cl cfg p e) as [l [[]|x|x]]; intros [= <-]. exact E.
Qed.
Lemma bstep_held T now a b i : held_till T (panel_in b) -> timed now a i -> now + 5000 <= T -> held_till T (panel_in (bstep cl cfg b i)).
Proof.
  intros H C L. destruct b as [s rx|u|log why]; [| |exact H].
  - destruct i as [x|t pl| |t ws|t| |ws]; cbn [bstep]; try exact H; [|apply held_none|].
    + destruct s; cbn [iarrive panel_in] in *; try exact H; (eapply held_same; [exact H | reflexivity]).
    + cbn in C. subst t. pose proof (istep_held T now ws s rx H L) as H'. unfold after_connect. destruct (istep now ws s) as [st ph p|p|e|y]; try apply held_none; [exact H'|].
      unfold settle. destruct (start_up cl cfg p) as [l [c|e|y]]; try apply held_none. exact H'.
  - destruct (bstep cl cfg (Up u) i) as [s rx|u'|log why] eqn:E; [|cbn [panel_in] in *|apply held_none].
    + exfalso. destruct (bridge_up_or_dead u i) as [(u' & X)|(l & w & X)]; congruence.
    + destruct i as [x|t pl| |t ws|t| |ws]; try (cbn [bstep] in E; injection E as <-; eapply held_same; [exact H | reflexivity]); try discriminate E.
      * cbn in C. subst t. eapply held_step; [exact H | eapply panel_pend; exact E | exact L].
      * eapply held_same; [exact H|]. cbn [bstep] in E. destruct (u_mode u); try (injection E as <-; reflexivity). destruct (u_rx u) as [|[tp pl] rx]; [injection E as <-; reflexivity|].
        destruct (requested _ _ _ _ _) as [[c|]|x|x]; try discriminate E; injection E as <-; reflexivity.
      * eapply held_same; [exact H | apply (sending_only ws u u' E)].
Qed.
Lemma bsteps_held T now a is : forall b, held_till T (panel_in b) -> Forall (timed now a) is -> now + 5000 <= T -> held_till T (panel_in (fold_left (bstep cl cfg) is b)).
Proof. induction is as [|i is IH]; intros b H F L; [exact H|]. inversion F; subst. cbn [fold_left]. apply IH; [|assumption|exact L]. eapply bstep_held; eauto. Qed.
Lemma held_more T T' o : held_till T o -> T <= T' -> held_till T' o.
Proof. intros H L p d r E1 E2. specialize (H p d r E1 E2). lia. Qed.
Lemma hrun_snoc l a : hrun cl cfg (l ++ [a]) = hstep cl cfg (hrun cl cfg l) a.
Proof. unfold hrun. rewrite fold_left_app. reflexivity. Qed.
(* a report is held for five seconds at most *)
Lemma held_5s l : Forall hact_ok l -> held_till (h_now (hrun cl cfg l) + 5000) (panel_in (h_bridge (hrun cl cfg l))).
Proof.
  induction l as [|a l IH] using rev_ind; intros F; [intros p d r [= <-] E; discriminate E|].
  apply Forall_app in F as [F Fa]. inversion Fa; subst. specialize (IH F). destruct (hrun_hinv cl cfg l F) as [SO _]. rewrite hrun_snoc.
  destruct (hstep_timed _ a H1 SO) as (is & _ & FT & ->). pose proof (now_on (hrun cl cfg l) a) as N. eapply held_more; [eapply bsteps_held; [exact IH | exact FT | lia] | lia].
Qed.

(* ---- while nothing arrives ---- *)
Definition spent (c : conn) : Prop := has_errored c = false /\ is_readable c = false /\ rq c = [] /\ peer_closed c = false.
Definition dormant (T : N) (b : bridge) : Prop := match b with Up u => spent (p_conn (u_panel u)) /\ held_till T (Some (u_panel u)) | Dead _ _ => True | _ => False end.
Lemma spent_same c c' : same_read c c' -> spent c -> spent c'.
Proof. intros (_ & _ & S3 & S4 & S5 & S6) (A1 & A2 & A3 & A4). repeat split; congruence. Qed.
Lemma spent_next now p p' r w : pinv p -> spent (p_conn p) -> poll_next now p = Ok (p', r, w) -> spent (p_conn p') /\ (pending_arm p' = pending_arm p \/ pending_arm p' = None).
Proof.
  intros I (A1 & A2 & A3 & A4) E. unfold poll_next in E. destruct (conn_next_total _ (proj1 I)) as (c & rc & EC & X). rewrite EC in E. cbn [bind] in E.
  pose proof (nexts_idle _ _ _ X A1 A2 A3 A4) as ->. pose proof (nexts_pending_after _ _ X) as Q. cbn [with_conn pending_arm p_state] in E.
  destruct (pending_arm p) as [[d m]|] eqn:EP; [|injection E as <- _ _; auto]. destruct (d <=? now); [|injection E as <- _ _; auto].
  destruct (s_arming (p_state p)); [|discriminate]. injection E as <- _ _. auto.
Qed.
Lemma dormant_step T b is0 now a i : bridge_after cl cfg is0 b -> input_ok i -> timed now a i -> no_arrival a -> dormant T b -> dormant T (bstep cl cfg b i).
Proof.
  intros A O C N D. destruct b as [s rx|u|log why]; [contradiction| |exact D]. destruct D as [D1 D2]. destruct (bridge_binv _ _ _ _ A) as (R & _). destruct (reachable_inv _ R) as [I _].
  destruct (bstep cl cfg (Up u) i) as [s rx|u'|log why] eqn:E; [exfalso; destruct (bridge_up_or_dead u i) as [(u' & X)|(l & w & X)]; congruence | | exact Logic.I].
  destruct i as [x|t pl| |t ws|t| |ws]; try (cbn [bstep] in E; injection E as <-; split; [exact D1 | exact D2]); try discriminate E.
  - cbn in C. contradiction.
  - cbn [bstep] in E. destruct (u_mode u); try (injection E as <-; split; [exact D1 | exact D2]). destruct (poll_next t (u_panel u)) as [[[p r] w]|e|y] eqn:EN; try discriminate E.
    destruct (spent_next _ _ _ _ _ I D1 EN) as [S1 S2].
    assert (K : dormant T (Up (set_panel u p))) by (split; [exact S1|]; intros p0 d m [= <-] EP; destruct S2 as [S2|S2]; cbn in EP; [eapply D2; [reflexivity | rewrite <- S2; exact EP] | congruence]).
    destruct r as [|[[e|e]|]]; try discriminate E; [injection E as <-; exact K|]. unfold settle in E. destruct (handle_event cl cfg p e) as [l [[]|x|x]]; try discriminate E. injection E as <-. exact K.
  - cbn [bstep] in E. destruct (u_mode u); try (injection E as <-; split; [exact D1 | exact D2]). destruct (u_rx u) as [|[tp pl] rx]; [injection E as <-; split; [exact D1 | exact D2]|].
    destruct (requested _ _ _ _ _) as [[c|]|x|x]; try discriminate E; injection E as <-; (split; [exact D1 | exact D2]).
  - destruct (sending_only ws u u' E) as [S1 S2]. split; [eapply spent_same; eauto | eapply held_same; eauto].
Qed.
Lemma dormant_steps T now a is : forall b is0, bridge_after cl cfg is0 b -> Forall input_ok is -> Forall (timed now a) is -> no_arrival a -> dormant T b ->
  dormant T (fold_left (bstep cl cfg) is b).
Proof.
  induction is as [|i is IH]; intros b is0 A O C N D; [exact D|]. inversion O; inversion C; subst. cbn [fold_left]. apply (IH _ (is0 ++ [i])); auto.
  - destruct A as [F E]. split; [apply Forall_app; auto|]. rewrite brun_snoc, E. reflexivity.
  - eapply dormant_step; eauto.
Qed.
Lemma dormant_run T l1 l2 : Forall hact_ok (l1 ++ l2) -> Forall no_arrival l2 -> dormant T (h_bridge (hrun cl cfg l1)) -> dormant T (h_bridge (hrun cl cfg (l1 ++ l2))).
Proof.
  intros F N D. induction l2 as [|a l2 IH] using rev_ind; [rewrite app_nil_r; exact D|]. rewrite app_assoc in *. apply Forall_app in F as [F Fa]. apply Forall_app in N as [N Na].
  inversion Fa; inversion Na; subst. rewrite hrun_snoc. destruct (hrun_hinv cl cfg _ F) as [SO _]. destruct (hstep_timed _ a H1 SO) as (is & FI & FT & ->).
  destruct SO as (is0 & A). eapply dormant_steps; eauto.
Qed.
(* ---- when the bridge listens ---- *)
Lemma listening_spent l u : Forall hact_ok l -> listening (hrun cl cfg l) -> h_bridge (hrun cl cfg l) = Up u ->
  asleep TASK (world_of (hrun cl cfg l) u) /\ spent (p_conn (u_panel u)).
Proof.
  intros F (D & u0 & E0 & M) E. assert (u0 = u) by congruence. subst u0. destruct (hrun_hinv cl cfg l F) as [_ Q]. specialize (Q D). unfold quiet in Q. rewrite E, M in Q.
  destruct Q as (_ & _ & A). split; [exact A|]. destruct A as (_ & A & _). exact A.
Qed.
Lemma listening_polled l u : Forall hact_ok l -> listening (hrun cl cfg l) -> h_bridge (hrun cl cfg l) = Up u ->
  exists p' w, poll_next (h_now (hrun cl cfg l)) (u_panel u) = Ok (p', Pending, w).
Proof.
  intros F L E. destruct (listening_spent _ _ F L E) as [A _]. destruct (hrun_hinv cl cfg l F) as [SO _]. destruct (sound_up _ _ _ _ SO E) as [I _].
  destruct (asleep_next TASK (world_of (hrun cl cfg l) u) I A) as (w' & EW). apply wstep_inv in EW. cbn [call_of step world_of w_panel w_now] in EW. apply bind_inv in EW as ([[p r] k] & EN & EW). injection EW as _ -> ->.
  exists p, None. exact EN.
Qed.
End Steps.

(* ---- C102 ---- *)
(* Whenever the bridge listens, all packets in the bytes that have arrived from the panel have been used: those after connecting each
   published as an event, in order; each zone's topic shows its status after all of them; each area's topic shows the latest arming
   report among them, or, for less than five seconds, the one before, if the latest turned an area from disarmed to fully armed. *)
Theorem C102_up_to_date : forall cl cfg l u,
  Forall hact_ok l -> listening (hrun cl cfg l) -> h_bridge (hrun cl cfg l) = Up u -> cfg_ok cfg -> distinct_area_names cfg -> distinct_zone_names cfg ->
  exists ps0 es left,
    drain (h_bytes l) = Ok (ps0 ++ packets es, left) /\
    Forall2 (fun e a => exists v, Event_ser e = Ok v /\ Event_de FromText v = Ok e /\ a = APublish (topic_prefix cfg ++ B "/event") false (PJson v))
      es (filter is_event_pub (u_log u)) /\
    (forall zone z, In (zone, z) (zones cfg) -> exists t, (forall s, shows_zone (zone_after zone s (messages_in (ps0 ++ packets es))) t) /\
       holds (u_log u) (topic_prefix cfg ++ B "/zone/" ++ z_name z ++ B "/ha_state") (PText t)) /\
    exists rs latest shown, reports_in (ps0 ++ packets es) = rs ++ [latest] /\
      (shown = latest \/ (exists rs', rs = rs' ++ [shown]) /\ became_fully_armed shown latest) /\
      (forall l1 l2, l = l1 ++ l2 -> listening (hrun cl cfg l1) -> quiet_for_5s cl cfg l1 l2 -> shown = latest) /\
      forall area name, In (area, name) (areas cfg) -> exists s up a t, area_in shown area s up a /\ shows_area s up a t /\
        holds (u_log u) (topic_prefix cfg ++ B "/area/" ++ name ++ B "/ha_state") (PText t).
Proof.
  intros cl cfg l u F L E K DA DZ. destruct (C100_is_the_bridge cl cfg l F) as (is & A & _ & EN). rewrite E in A. rewrite <- EN.
  destruct (C83_topics_follow_the_wire cl cfg is u A K DA DZ) as (ps0 & es & qs & left & D & NQ & EV & ZS & rs & latest & shown & R1 & R2 & R3 & R4).
  destruct (listening_polled cl cfg l u F L E) as (p' & w & EP). rewrite (NQ _ _ _ EP), app_nil_r in D. exists ps0, es, left. split; [exact D|]. split; [exact EV|]. split; [exact ZS|].
  exists rs, latest, shown. split; [exact R1|]. split; [exact R2|]. split; [|exact R4].
  intros l1 l2 -> L1 (NA & TM). apply R3. pose proof L1 as (D1 & u1 & E1 & _). pose proof F as F'. apply Forall_app in F' as [F1 _].
  destruct (listening_spent cl cfg l1 u1 F1 L1 E1) as [_ S1]. pose proof (held_5s cl cfg l1 F1) as H1. rewrite E1 in H1.
  pose proof (dormant_run cl cfg (h_now (hrun cl cfg l1) + 5000) l1 l2 F NA) as DD. rewrite E1, E in DD. destruct (DD (conj S1 H1)) as [_ H2].
  destruct (listening_spent cl cfg _ u F L E) as [(_ & _ & A3) _]. cbn [world_of w_panel w_now] in A3. unfold held. destruct (pending_arm (u_panel u)) as [[d m]|] eqn:EQ; [|reflexivity].
  specialize (H2 _ _ _ eq_refl EQ). lia.
Qed.
(* And it gets there by itself: run as often as in C101 with nothing happening in between, a bridge that is up has ended, or listens, or
   is kept from going on by a socket that takes nothing or by a command that is not complete. *)
Theorem C102_gets_there : forall cl cfg l fs, Forall hact_ok l -> (exists u, h_bridge (hrun cl cfg l) = Up u) ->
  (4 * bytes_left (hrun cl cfg l) + 3 * mail_left (hrun cl cfg l) + 4 <= length fs)%nat ->
  let h := hrun cl cfg (l ++ map HRun fs) in
  ended h \/ listening h \/ exists u, h_bridge h = Up u /\ (stuffed h (p_conn (u_panel u)) \/ awaits_reply h).
Proof.
  intros cl cfg l fs F (u & E) L. pose proof (PropRest.C101_comes_to_rest cl cfg l fs F L) as R. cbv zeta in *. destruct R as [R|[D N]]; [left; exact R|]. right.
  assert (U : forall gs h, (exists u, h_bridge h = Up u) -> (exists u, h_bridge (fold_left (hstep cl cfg) (map HRun gs) h) = Up u) \/ ended (fold_left (hstep cl cfg) (map HRun gs) h)).
  { assert (B1 : forall b is, (exists u, b = Up u) -> (exists u, fold_left (bstep cl cfg) is b = Up u) \/ exists lg y, fold_left (bstep cl cfg) is b = Dead lg y).
    { intros b is. revert b. induction is as [|i is IH]; intros b (u0 & ->); [left; exists u0; reflexivity|]. cbn [fold_left]. destruct (bridge_up_or_dead cl cfg u0 i) as [(u' & ->)|(lg & y & ->)]; [apply IH; eauto|].
      right. exists lg, y. clear. induction is; [reflexivity | exact IHis]. }
    induction gs as [|g gs IG]; intros h (u0 & E0); [left; exists u0; exact E0|]. cbn [map fold_left].
    assert (S : (exists u, h_bridge (hstep cl cfg h (HRun g)) = Up u) \/ ended (hstep cl cfg h (HRun g))).
    { unfold hstep. rewrite E0. destruct (h_due h); [|left; exists u0; exact E0]. destruct (u_mode u0) eqn:EM.
      - unfold ended. rewrite (select_inputs cl cfg g h u0 EM). apply B1. eauto.
      - destruct (run_send (world_of h u0) (Feeding c)) as [w r]. unfold ended. cbn [put h_bridge]. apply (B1 (Up u0) [PollSend (writes (world_of h u0))]). eauto.
      - destruct (run_send (world_of h u0) Flushing) as [w r]. unfold ended. cbn [put h_bridge]. apply (B1 (Up u0) [PollSend (writes (world_of h u0))]). eauto. }
    destruct S as [S|(lg & y & S)]; [apply IG; exact S|]. right. exists lg, y. generalize dependent (hstep cl cfg h (HRun g)). clear. induction gs as [|g gs IG]; intros h E; [exact E|].
    cbn [map fold_left]. apply IG. unfold hstep. rewrite E. exact E. }
  destruct (U fs (hrun cl cfg l) (ex_intro _ u E)) as [(u' & E')|X].
  - unfold hrun in *. rewrite fold_left_app in *. unfold nothing_to_do in N. rewrite E' in N. destruct (u_mode u') as [|c|] eqn:EM.
    + left. split; [exact D|]. eauto.
    + right. exists u'. split; [exact E'|]. destruct N as [N|N]; [left; exact N|]. right. exists u', c. auto.
    + right. exists u'. split; [exact E'|]. left. exact N.
  - exfalso. destruct X as (lg & y & X). unfold nothing_to_do, hrun in N. rewrite fold_left_app in N. unfold hrun in X. rewrite X in N. exact N.
Qed.

(* The configuration of PropMqtt.v and the panel of PropConnect.v; once the bridge is up, area 1 is reported fully armed.  Its topic
   shows so five seconds later. *)
Definition ex_rising : list hact :=
  [HRoom 999; HRun true; HRun true; HRun true] ++ concat (map (fun m => HArrive (Bytes (bytes_of m)) :: repeat (HRun true) 5) ex_answers).
Definition ex_held : list hact := ex_rising ++ [HArrive (Bytes (bytes_of (MArmingStatusReport ex_armed))); HRun true; HRun true].
Definition ex_after : list hact := [HWait 4999; HWake; HRun false; HWait 1; HRun true; HRun true].
Definition ex_shows (h : host) (s : bytes) : Prop :=
  match h_bridge h with Up u => retained (u_log u) (B "elkm1/0001/area/house/ha_state") = Some (PText s) | _ => False end.
Example C102_example : Forall hact_ok (ex_held ++ ex_after) /\ cfg_ok ex_cfg /\ distinct_area_names ex_cfg /\ distinct_zone_names ex_cfg /\
  listening (hrun ex_cl ex_cfg ex_held) /\ ex_shows (hrun ex_cl ex_cfg ex_held) (B "disarmed") /\
  listening (hrun ex_cl ex_cfg (ex_held ++ firstn 3 ex_after)) /\ ex_shows (hrun ex_cl ex_cfg (ex_held ++ firstn 3 ex_after)) (B "disarmed") /\
  listening (hrun ex_cl ex_cfg (ex_held ++ ex_after)) /\ quiet_for_5s ex_cl ex_cfg ex_held ex_after /\ ex_shows (hrun ex_cl ex_cfg (ex_held ++ ex_after)) (B "armed_away") /\
  match drain (h_bytes (ex_held ++ ex_after)) with Ok (ps, rest) => rest = [] /\ reports_in ps = [ex_disarmed; ex_armed] | _ => False end /\
  bytes_left (hrun ex_cl ex_cfg ex_rising) = 0%nat.
Proof.
  assert (LI : forall h, (negb (h_due h) && match h_bridge h with Up u => match u_mode u with Selecting => true | _ => false end | _ => false end)%bool = true -> listening h).
  { intros h H. apply andb_true_iff in H as [H1 H2]. apply negb_true_iff in H1. split; [exact H1|]. destruct (h_bridge h) as [|u|]; try discriminate H2. exists u. split; [reflexivity|]. destruct (u_mode u); try discriminate H2. reflexivity. }
  split; [repeat constructor; vm_compute; discriminate|]. split; [repeat split; cbn; repeat constructor; cbn; lia || tauto|]. split; [repeat constructor; cbn; tauto|]. split; [repeat constructor; cbn; tauto|].
  split; [apply LI; vm_compute; reflexivity|]. split; [vm_compute; reflexivity|]. split; [apply LI; vm_compute; reflexivity|]. split; [vm_compute; reflexivity|].
  split; [apply LI; vm_compute; reflexivity|]. split; [split; [repeat constructor | vm_compute; discriminate]|]. split; [vm_compute; reflexivity|]. split; [|vm_compute; reflexivity].
  replace (drain (h_bytes (ex_held ++ ex_after))) with ltac:(let x := eval vm_compute in (drain (h_bytes (ex_held ++ ex_after))) in exact x) by (vm_compute; reflexivity).
  split; vm_compute; reflexivity.
Qed.

Print Assumptions C102_up_to_date.
Print Assumptions C102_gets_there.
