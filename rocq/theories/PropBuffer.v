(* PropBuffer.v: C91: how much is buffered. *)
From Verif Require Import Base BaseFacts Pkt SpecPkt PktFacts DecodeFacts Msg SpecMsg DecFacts MsgFacts WireFacts IsoFacts
  PropMsg PropPkt Tokio SpecConn ConnFacts State SpecState StateFacts RunFacts HistFacts ViewFacts ExState PropState PropSink
  Serde SerdeFacts PropSerde Mqtt SpecMqtt MqttFacts PropMqtt SpecBuffer.
From Coq Require Import ZifyBool ZifyNat ZifyN.
Ltac Zify.zify_post_hook ::= Z.div_mod_to_equations.

(* ---- lengths of frames ---- *)
Lemma hex2_length n s : hex2 n s -> length s = 2%nat.
Proof. intros H. apply (hex2_lt _ _ H). Qed.
Lemma dec_canon_length w n s : dec_canon w n s -> length s = w.
Proof. intros H. apply H. Qed.
Lemma frame_length body f : ascii_frame body f -> length f = (length body + 6)%nat.
Proof. intros (nn & cc & c & H1 & H2 & _ & ->). rewrite !app_length, (hex2_length _ _ H1), (hex2_length _ _ H2). cbn. lia. Qed.
Lemma command_length c f : command_frame c f -> (0 < length f <= 17)%nat.
Proof.
  intros (body & W & F). rewrite (frame_length _ _ F). destruct c as [r|t]; cbn [into_msg wire] in W.
  - destruct W as (l & a & -> & _ & D & _ & (L & _)). rewrite !app_length, (dec_canon_length _ _ _ D), L. cbn. lia.
  - destruct W as (n & -> & D & _). rewrite !app_length, (dec_canon_length _ _ _ D). cbn. lia.
Qed.
Lemma stage_length s p body f : stage_ok s p -> wire (stage_msg s) body -> ascii_frame body f -> (0 < length f <= 17)%nat.
Proof.
  intros S W F. rewrite (frame_length _ _ F). destruct s as [| |ty max i]; cbn [stage_msg wire] in W.
  - subst body. cbn. lia.
  - subst body. cbn. lia.
  - destruct W as (k & t & n & -> & _ & D1 & D2). rewrite !app_length, (dec_canon_length _ _ _ D1), (dec_canon_length _ _ _ D2). cbn. lia.
Qed.
(* ---- a step ---- *)
Lemma flush_shrinks c ws c' ws' r : conn_poll_flush c ws = (c', ws', r) -> (length (wbuf c') <= length (wbuf c))%nat.
Proof.
  intros E. destruct (conn_flush_spec _ _ _ _ _ E) as (_ & _ & W & (k & S) & _). apply (f_equal (@length _)) in W. rewrite S in W. rewrite !app_length in W. lia.
Qed.
Lemma panel_flush_shrinks ws p p' ws' r : panel_flush ws p = (p', ws', r) -> (length (wbuf (p_conn p')) <= length (wbuf (p_conn p)))%nat.
Proof.
  unfold panel_flush. destruct (cmd_state p) as [|q [|] k]; try (intros [= <- _ _]; lia).
  destruct (conn_poll_flush (p_conn p) ws) as [[c w2] rr] eqn:E. apply flush_shrinks in E. destruct rr as [|[[]|e]]; intros [= <- _ _]; exact E.
Qed.
Lemma step_shrinks p o p' b : step p o = Ok (p', b) -> (forall c, o <> StartSend c) -> pinv p -> op_ok o -> (length (wbuf (p_conn p')) <= length (wbuf (p_conn p)))%nat.
Proof.
  intros E N I HO. destruct o as [a|now|w ws|c|ws|ws]; cbn [step] in E.
  - injection E as <- _. destruct a; cbn; lia.
  - apply bind_inv in E as ([[q r] w] & E & [= <- _]). destruct (poll_next_inv _ _ _ _ _ I E) as [_ (rc & X & _)]. destruct (nexts_same_write _ _ _ X) as (E1 & _). rewrite E1. lia.
  - destruct (poll_ready w ws p) as [q r] eqn:ER. injection E as <- _. revert ER. unfold poll_ready. destruct (cmd_state p) as [|q0 [|] k]; try (intros [= <- _]; cbn; lia).
    destruct (conn_poll_flush (p_conn p) ws) as [[c w2] rr] eqn:E. apply flush_shrinks in E. destruct rr as [|[[]|e]]; intros [= <- _]; exact E.
  - elim (N c). reflexivity.
  - unfold poll_flush in E. destruct (panel_flush ws p) as [[q w2] r] eqn:EF. injection E as <- _. eapply panel_flush_shrinks; eauto.
  - unfold poll_close in E. destruct (panel_flush ws p) as [[q w2] r] eqn:EF. apply panel_flush_shrinks in EF.
    destruct r as [|[[]|e]]; try (injection E as <- _; exact EF). unfold conn_poll_close in E. destruct (conn_poll_flush (p_conn q) w2) as [[c w3] r3] eqn:EC. apply flush_shrinks in EC.
    injection E as <- _. cbn [p_conn with_conn]. lia.
Qed.

(* Idle or not, at most this much per command completed early, and one command more while one is outstanding. *)
Definition room (p : Panel) : nat := match cmd_state p with Idle => 0 | Busy _ _ _ => 17 end.
Ltac low := cbn [app length]; try match goal with |- context [if ?c then 1%nat else 0%nat] => destruct c end; lia.
Lemma step_room p o p' b n : pinv p -> op_ok o -> step p o = Ok (p', b) -> (length (wbuf (p_conn p)) <= 17 * n + room p)%nat ->
  (length (wbuf (p_conn p')) <= 17 * (n + if is_early p b then 1 else 0) + room p')%nat.
Proof.
  intros I HO E L. destruct (step_inv _ _ _ _ I HO E) as [I' S]. unfold room in *.
  assert (SH : (forall c, o <> StartSend c) -> (length (wbuf (p_conn p')) <= length (wbuf (p_conn p)))%nat) by (intros N; eapply step_shrinks; eauto).
  destruct o as [a|now|w ws|c|ws|ws]; cbn [stepped] in S; try specialize (SH ltac:(discriminate)).
  - destruct S as [-> ->]. cbn in *. low.
  - cbn [step] in E. apply bind_inv in E as ([[q r] w] & E & [= -> <-]). pose proof (poll_next_case _ _ _ _ _ I E) as PC.
    destruct (poll_next_inv _ _ _ _ _ I E) as [_ (rc & X & _)]. destruct (nexts_same_write _ _ _ X) as (EW & _).
    inversion PC as [pkt m e w' D K EP' E1 E2 N' M R'|pkt e D K EP' E1 E2 E3 E4 E5|d m prior D UU Y E1 E2 E3 E4|r' NE UU F E0]; subst.
    + unfold reply_effect in R'. destruct (cmd_state p) as [|q f k] eqn:EC.
      * destruct R' as (-> & _). low.
      * destruct R' as [(_ & -> & R & _)|(_ & -> & _)]; [|low]. unfold is_early, ev. destruct (wbuf (p_conn p)) as [|x l] eqn:EB; [rewrite EW in *; cbn; lia|].
        rewrite R. lia.
    + assert (cmd_state p' = cmd_state p) as -> by (rewrite E3; reflexivity). low.
    + assert (cmd_state p' = cmd_state p) as -> by (rewrite E4; reflexivity). low.
    + assert (cmd_state p' = cmd_state p) as -> by (rewrite E0; reflexivity). low.
  - destruct S as (r & -> & _ & _ & S). destruct (cmd_state p); [destruct S as [-> _]; cbn in *; destruct (cmd_state p); lia|]. destruct S as (_ & f' & k' & -> & _). low.
  - destruct S as (-> & EI & _ & -> & f & F & _ & EW). rewrite EI in L. apply command_length in F. rewrite EW, app_length. low.
  - destruct S as (r & -> & _ & _ & S). destruct (cmd_state p); [destruct S as [-> _]; cbn in *; destruct (cmd_state p); lia|]. destruct S as (f' & -> & _). low.
  - destruct S as (r & -> & _ & _ & _ & S). destruct (cmd_state p); [rewrite S; lia|]. destruct S as (f' & ->). low.
Qed.
Lemma run_room h : forall p p' bs n, pinv p -> Forall op_ok h -> run p h = Ok (p', bs) -> (length (wbuf (p_conn p)) <= 17 * n + room p)%nat ->
  (length (wbuf (p_conn p')) <= 17 * (n + early p h) + room p')%nat.
Proof.
  induction h as [|o h IH]; intros p p' bs n I HO E L; cbn [run early] in *; [injection E as <- _; lia|].
  inversion HO as [|? ? O1 O2]; subst. apply bind_inv in E as ([p1 b] & E1 & E). apply bind_inv in E as ([p2 bs2] & E2 & [= <- <-]). rewrite E1.
  destruct (step_inv _ _ _ _ I O1 E1) as [I1 _]. rewrite Nat.add_assoc. eapply IH; eauto. eapply step_room; eauto.
Qed.

(* ---- C91 ---- *)
(* Bytes accepted for sending but not written: at most 17 for the command outstanding, and 17 for each command that was completed before it was written. *)
Theorem C91_unsent_bounded_partial : forall p0 h p bs, connected p0 -> Forall op_ok h -> run p0 h = Ok (p, bs) ->
  (length (wbuf (p_conn p)) <= 17 * (early p0 h + length (outstanding p)))%nat.
Proof.
  intros p0 h p bs C HO E. destruct (connected_inv _ C) as (I0 & EI & _ & EW).
  assert (L : (length (wbuf (p_conn p)) <= 17 * (0 + early p0 h) + room p)%nat).
  { eapply run_room; eauto. rewrite EW. cbn. lia. }
  unfold room, outstanding in *. destruct (cmd_state p); cbn [length] in *; lia.
Qed.
(* and so nothing is left over once the command outstanding is answered, if every one was written before *)
Theorem C91_all_written_when_idle : forall p0 h p bs, connected p0 -> Forall op_ok h -> run p0 h = Ok (p, bs) ->
  early p0 h = 0%nat -> outstanding p = [] -> wbuf (p_conn p) = [].
Proof.
  intros p0 h p bs C HO E E0 EO. pose proof (C91_unsent_bounded_partial _ _ _ _ C HO E) as L. rewrite E0, EO in L. destruct (wbuf (p_conn p)); [reflexivity|]. cbn in L. lia.
Qed.

(* ---- False without that: nothing bounds it ---- *)
(* a caller that follows the contract, because it asks poll_ready right before each start_send *)
Fixpoint polite (h : list op) : bool :=
  match h with
  | [] => true
  | StartSend _ :: _ => false
  | PollReady _ _ :: StartSend _ :: h' => polite h'
  | _ :: h' => polite h'
  end.
Lemma polite_before h : forall h1 c h2, polite h = true -> h = h1 ++ StartSend c :: h2 -> exists h0 w ws, h1 = h0 ++ [PollReady w ws].
Proof.
  induction h as [h IH] using (induction_ltof1 _ (@length op)). unfold ltof in IH. intros h1 c h2 P E.
  destruct h1 as [|o h1]; [subst h; discriminate|]. destruct h as [|o' h]; [discriminate|]. injection E as <- E.
  assert (TL : polite h = true -> exists h0 w ws, o' :: h1 = h0 ++ [PollReady w ws]).
  { intros Q. destruct (IH h ltac:(cbn; lia) _ _ _ Q E) as (h0 & w & ws & ->). exists (o' :: h0), w, ws. reflexivity. }
  destruct o' as [a|now|w ws|c0|ws|ws]; try (apply TL; exact P); [|discriminate].
  destruct h as [|o2 h]; [destruct h1; discriminate|]. destruct o2 as [a|now|w2 ws2|c0|ws2|ws2]; try (apply TL; exact P).
  destruct h1 as [|o3 h1]; [exists [], w, ws; reflexivity|]. injection E as <- E. cbn [polite] in P.
  destruct (IH h ltac:(cbn; lia) _ _ _ P E) as (h0 & w' & ws' & ->). exists (PollReady w ws :: StartSend c0 :: h0), w', ws'. reflexivity.
Qed.
Lemma run_prefix h1 h2 p p' bs : run p (h1 ++ h2) = Ok (p', bs) -> exists q b1 b2, run p h1 = Ok (q, b1) /\ run q h2 = Ok (p', b2) /\ bs = b1 ++ b2.
Proof.
  rewrite run_app. intros E. apply bind_inv in E as ([q b1] & E1 & E). apply bind_inv in E as ([p2 b2] & E2 & [= <- <-]). eauto 8.
Qed.
Lemma polite_respects p0 h p bs : connected p0 -> Forall op_ok h -> polite h = true -> run p0 h = Ok (p, bs) -> respects p0 h.
Proof.
  intros C HO P E h1 c h2 EH q bq Eq. destruct (polite_before _ _ _ _ P EH) as (h0 & w & ws & ->). subst h. rewrite <- app_assoc in E. cbn [app] in E.
  destruct (connected_inv _ C) as (I0 & _). pose proof HO as HO0. rewrite <- app_assoc in HO0. apply Forall_app in HO0 as [H0 _].
  apply run_prefix in Eq as (q0 & b0 & b1 & E0 & E1 & ->). apply run_prefix in E as (q0' & b0' & b2 & E0' & E2 & _). rewrite E0 in E0'. injection E0' as <- <-.
  pose proof (run_pinv _ _ _ _ I0 H0 E0) as I1. cbn [run] in E1. apply bind_inv in E1 as ([q1 b] & S1 & [= <- <-]).
  rewrite granted_snoc by (eapply run_length; eauto).
  cbn [run] in E2. rewrite S1 in E2. cbn [bind] in E2. apply bind_inv in E2 as ([x y] & E2 & _). apply bind_inv in E2 as ([q2 b3] & S2 & _).
  destruct (step_inv _ (PollReady w ws) _ _ I1 Logic.I S1) as [I2 (r & -> & _ & _ & K)].
  destruct (step_inv _ (StartSend c) _ _ I2 ltac:(rewrite Forall_forall in HO; apply (HO (StartSend c)); apply in_elt) S2) as [_ (_ & EI & _)].
  destruct (cmd_state q0) as [|m f k] eqn:EC; [destruct K as [_ ->]; reflexivity|]. destruct K as (_ & f' & k' & EB & _). congruence.
Qed.
(* Ask, send, have the reply (the panel may announce a task at any time), flush, over a socket that takes everything. *)
Definition ex_round : list op := [PollReady 7 [WAccept 1000]; StartSend ex_cmd; got (MTaskChange 5); PollNext 0; PollFlush [WAccept 1000]].
Fixpoint rounds (n : nat) : list op := match n with O => [] | S n' => ex_round ++ rounds n' end.
Definition unsent_more (p : Panel) (w : bytes) : Panel :=
  with_conn p (mkConn (rbuf (p_conn p)) (c_eof (p_conn p)) (is_readable (p_conn p)) (has_errored (p_conn p)) (rq (p_conn p)) (peer_closed (p_conn p))
    (wbuf (p_conn p) ++ w) (sent (p_conn p)) (shut (p_conn p))).
Lemma round_adds w : exists bs, run (unsent_more ex_panel w) ex_round = Ok (unsent_more ex_panel (w ++ bytes_of (into_msg ex_cmd)), bs) /\
  Forall (fun b => forall r, b = OSink r -> r = Ready (IoOk tt)) bs.
Proof. eexists. split; [vm_compute; reflexivity|]. repeat (apply Forall_cons; [intros r [= <-]; reflexivity || discriminate|]). constructor. Qed.
Lemma rounds_add n : forall w, exists bs w', run (unsent_more ex_panel w) (rounds n) = Ok (unsent_more ex_panel w', bs) /\
  Forall (fun b => forall r, b = OSink r -> r = Ready (IoOk tt)) bs /\ (length w' = length w + n * 13)%nat.
Proof.
  induction n as [|n IH]; intros w.
  - exists [], w. split; [reflexivity|]. split; [constructor | lia].
  - destruct (round_adds w) as (b1 & E1 & F1). destruct (IH (w ++ bytes_of (into_msg ex_cmd))) as (b2 & w' & E2 & F2 & L).
    exists (b1 ++ b2), w'. cbn [rounds]. rewrite run_app, E1. cbn [bind]. rewrite E2. cbn [bind]. split; [reflexivity|]. split; [apply Forall_app; auto|].
    rewrite L, app_length. change (length (bytes_of (into_msg ex_cmd))) with 13%nat. lia.
Qed.
Lemma rounds_polite n : Forall op_ok (rounds n) /\ polite (rounds n) = true.
Proof.
  induction n as [|n [IH1 IH2]]; [split; constructor|]. cbn [rounds]. split; [|exact IH2]. apply Forall_app. split; [|exact IH1].
  repeat constructor; cbn; lia.
Qed.
(* Even though the caller follows the contract of Sink, flushes after each command, and every call answers Ready(Ok),
   the bytes that were never given to the socket grow without bound. *)
Theorem C91_unsent_bounded_refuted : forall n, exists p0 h p bs, connected p0 /\ Forall op_ok h /\ respects p0 h /\ run p0 h = Ok (p, bs) /\
  Forall (fun b => forall r, b = OSink r -> r = Ready (IoOk tt)) bs /\ outstanding p = [] /\ sent (p_conn p) = sent (p_conn p0) /\
  (n <= length (wbuf (p_conn p)))%nat.
Proof.
  intros n. destruct (rounds_add n []) as (bs & w & E & F & L). destruct (rounds_polite n) as [HO P].
  assert (E0 : unsent_more ex_panel [] = ex_panel) by reflexivity. rewrite E0 in E.
  exists ex_panel, (rounds n), (unsent_more ex_panel w), bs. split; [exact ex_connected|]. split; [exact HO|].
  split; [eapply polite_respects; eauto using ex_connected|]. split; [exact E|]. split; [exact F|]. split; [reflexivity|]. split; [reflexivity|].
  change (wbuf (p_conn (unsent_more ex_panel w))) with w. cbn [length] in L. lia.
Qed.

(* ---- while connecting, and in the bridge ---- *)
Definition few (i : istate) : Prop := match i with IRun _ _ p => (length (wbuf (p_conn p)) <= 17)%nat | _ => True end.
Definition not_flushing (i : istate) : Prop := match i with IRun _ PhFlush _ => False | _ => True end.
Lemma after_reply_ready s p m : not_flushing (after_reply s p m).
Proof.
  assert (AS : forall ty q, not_flushing (after_sds ty q)) by (intros ty q; destruct ty; exact Logic.I).
  destruct s as [| |ty max i]; try exact Logic.I. cbn [after_reply]. unfold sds_reply. destruct m; try exact Logic.I. destruct (negb _); [exact Logic.I|].
  destruct (names_of (p_state p) ty); [|exact Logic.I]. destruct (sd_num m =? 0); [apply AS|].
  destruct (_ <? _)%nat; [exact Logic.I|]. destruct (set_nth l _ _) as [l'|?|?]; try exact Logic.I. destruct (_ <? _)%nat; [exact Logic.I | apply AS].
Qed.
Lemma not_flushing_few i : iinv i -> not_flushing i -> few i.
Proof.
  destruct i as [s ph p|p|e|w]; try (intros; exact Logic.I). intros (_ & _ & _ & W) N. unfold few. rewrite W; [cbn; lia|]. intros ->. exact N.
Qed.
Lemma istep_few now ws i : iinv i -> few i -> few (istep now ws i).
Proof.
  intros I L. pose proof (istep_inv now ws i I) as I'. destruct i as [s ph p|p|e|w]; try exact L. pose proof I as (PI & C & S & W). destruct ph.
  - clear I'. cbn [istep]. unfold conn_poll_ready. rewrite W by discriminate. cbn [length]. change (BACKPRESSURE <=? N.of_nat 0) with false. cbv beta iota.
    destruct (to_pkt_spec _ (stage_msg_wf s p S)) as (b & -> & HW & Hb & _). cbn [bind]. destruct (encode_valid (PAscii b) Hb) as (f & HF & HE).
    unfold conn_start_send. rewrite HE. cbn [bind few]. cbn. rewrite (W ltac:(discriminate)). apply (stage_length _ _ _ _ S HW HF).
  - clear I'. cbn [istep]. destruct (conn_poll_flush (p_conn p) ws) as [[c ws'] r] eqn:EF. apply flush_shrinks in EF. cbn [few] in L.
    destruct r as [|[[]|e]]; cbn; lia.
  - apply not_flushing_few; [exact I'|]. clear. cbn [istep]. destruct (conn_poll_next (p_conn p)) as [[c r]|?|?]; try exact Logic.I.
    destruct r as [|[[pkt|e]|]]; try exact Logic.I.
    + destruct (interpret now _ pkt) as [[[p' e] w]|?|?]; try exact Logic.I. destruct (e_msg e) as [[m|]|]; try exact Logic.I.
      destruct (is_response_to _ _); [apply after_reply_ready | exact Logic.I].
    + unfold await_eof. destruct (FmtMsg.Message_dbg _); exact Logic.I.
Qed.
Lemma irun_few h : Forall iop_ok h -> few (irun conn_new h).
Proof.
  induction h as [|o h IH] using rev_ind; intros HO; [cbn; lia|]. apply Forall_app in HO as [HO _]. rewrite irun_step. destruct o as [a|now ws]; cbn [iop_step].
  - specialize (IH HO). destruct (irun conn_new h) as [s ph p|p|e|w]; try exact Logic.I. destruct a; exact IH.
  - apply istep_few; [apply irun_inv; exact HO | auto].
Qed.
(* While connecting, at most one request is waiting to be written, and none while a reply is awaited. *)
Theorem C91_connecting_unsent : forall h s ph p, Forall iop_ok h -> irun conn_new h = IRun s ph p ->
  (length (wbuf (p_conn p)) <= 17)%nat /\ (ph = PhWait -> wbuf (p_conn p) = []).
Proof.
  intros h s ph p HO E. pose proof (irun_few h HO) as L. pose proof (irun_inv h HO) as I. rewrite E in L, I. split; [exact L|].
  intros ->. destruct I as (_ & _ & _ & W). apply W. discriminate.
Qed.
Definition bridge_low (u : up) : Prop :=
  (length (wbuf (p_conn (u_panel u))) <= 17)%nat /\ (u_mode u <> Flushing -> wbuf (p_conn (u_panel u)) = []).
Lemma send_flush_low ws u u' : pinv (u_panel u) -> (length (wbuf (p_conn (u_panel u))) <= 17)%nat -> cmd_state (u_panel u) <> Idle \/ wbuf (p_conn (u_panel u)) = [] ->
  poll_send_flush ws u = Up u' -> bridge_low u'.
Proof.
  intros I L D. unfold poll_send_flush. destruct (poll_flush ws (u_panel u)) as [p r] eqn:E. destruct (poll_flush_spec _ _ _ _ E I) as (_ & _ & W & H).
  assert (SH : (length (wbuf (p_conn p)) <= 17)%nat).
  { unfold poll_flush in E. destruct (panel_flush ws (u_panel u)) as [[q w2] r0] eqn:EF. injection E as <- _. apply panel_flush_shrinks in EF. lia. }
  destruct r as [|[[]|e]]; intros [= <-]; split; cbn; auto; try congruence. intros _.
  destruct (cmd_state (u_panel u)) as [|q f k]; [destruct H as [-> _]; destruct D; [congruence | assumption]|]. destruct H as (f' & _ & H). auto.
Qed.
Lemma bstep_low cl cfg u i u' : binv cl cfg u -> input_ok i -> (u_mode u = Flushing -> cmd_state (u_panel u) <> Idle) -> bridge_low u -> bstep cl cfg (Up u) i = Up u' ->
  bridge_low u' /\ (u_mode u' = Flushing -> cmd_state (u_panel u') <> Idle).
Proof.
  intros B HI FL [L1 L2] E. pose proof B as (R & _ & _ & _ & WF). destruct (reachable_inv _ R) as [I _].
  assert (BF : forall ws v u', pinv (u_panel v) -> cmd_state (u_panel v) <> Idle -> poll_send_flush ws v = Up u' -> u_mode u' = Flushing -> cmd_state (u_panel u') <> Idle).
  { intros ws v v' Iv NI EF _. unfold poll_send_flush in EF. destruct (poll_flush ws (u_panel v)) as [p r] eqn:EP. destruct (poll_flush_spec _ _ _ _ EP Iv) as (_ & _ & _ & H).
    destruct (cmd_state (u_panel v)) as [|q f k]; [congruence|]. destruct H as (f' & H & _).
    destruct r as [|[[]|e]]; [| |discriminate]; injection EF as <-; cbn; rewrite H; discriminate. }
  destruct i as [a|t pl| |now ws|now| |ws]; cbn [bstep] in E.
  - injection E as <-. split; [|exact FL]. unfold bridge_low. destruct a; cbn; auto.
  - injection E as <-. split; [split; [exact L1 | exact L2] | exact FL].
  - discriminate.
  - injection E as <-. split; [split|]; assumption.
  - destruct (u_mode u) as [|c|] eqn:EM; try (injection E as <-; split; [split; [|rewrite EM]; assumption | rewrite EM; exact FL]).
    destruct (poll_next now (u_panel u)) as [[[p r] w]|er|why] eqn:EP; try discriminate.
    destruct (poll_next_inv _ _ _ _ _ I EP) as [_ (rc & X & _)]. destruct (nexts_same_write _ _ _ X) as (EW & _). specialize (L2 ltac:(discriminate)).
    assert (G : forall m rx log, bridge_low (mkUp p (u_code u) m rx log)) by (intros; split; cbn; rewrite EW, L2; [cbn; lia | reflexivity]).
    destruct r as [|[[e|er]|]]; try discriminate.
    + injection E as <-. split; [|cbn; rewrite EM; discriminate]. unfold set_panel. apply G.
    + unfold settle in E. destruct (handle_event cl cfg p e) as [l [[]|er|why]]; try discriminate. injection E as <-. split; [apply G | discriminate].
  - destruct (u_mode u) as [|c|] eqn:EM; try (injection E as <-; split; [split; [|rewrite EM]; assumption | rewrite EM; exact FL]).
    specialize (L2 ltac:(discriminate)). destruct (u_rx u) as [|[t pl] rx]; [injection E as <-; split; [split; auto | rewrite EM; discriminate]|].
    destruct (requested _ _ _ t pl) as [[c|]|er|why]; try discriminate; injection E as <-; split; try discriminate; split; cbn; auto.
  - destruct (u_mode u) as [|c|] eqn:EM; [injection E as <-; split; [split; [|rewrite EM]; assumption | rewrite EM; exact FL]| |].
    + specialize (L2 ltac:(discriminate)). destruct (poll_ready TASK ws (u_panel u)) as [p r] eqn:ER. destruct (poll_ready_spec _ _ _ _ _ ER I) as (Ip & _ & W & H).
      assert (EW : wbuf (p_conn p) = []).
      { assert (L : (length (wbuf (p_conn p)) <= length (wbuf (p_conn (u_panel u))))%nat) by (apply (step_shrinks (u_panel u) (PollReady TASK ws) p (OSink r)); [cbn [step]; rewrite ER; reflexivity | discriminate | exact I | exact Logic.I]).
        rewrite L2 in L. destruct (wbuf (p_conn p)); [reflexivity | cbn in L; lia]. }
      destruct r as [|[[]|er]]; try discriminate.
      * injection E as <-. split; [split; cbn; rewrite EW; [cbn; lia | reflexivity] | cbn; rewrite EM; discriminate].
      * destruct (start_send c p) as [p'|er|why] eqn:ES; try discriminate.
        assert (ST : step p (StartSend c) = Ok (p', ONone)) by (cbn [step]; rewrite ES; reflexivity).
        destruct (step_inv _ (StartSend c) _ _ Ip (WF c eq_refl) ST) as [I' (_ & _ & _ & EB & f & F & _ & EW')]. apply command_length in F.
        assert (NI : cmd_state (u_panel (set_panel u p')) <> Idle) by (cbn; rewrite EB; discriminate).
        split; [|exact (BF ws (set_panel u p') u' I' NI E)].
        apply (send_flush_low ws (set_panel u p')); [exact I' | cbn; rewrite EW', EW; cbn; lia | left; exact NI | exact E].
    + specialize (FL eq_refl). split; [eapply send_flush_low; eauto | eapply BF; eauto].
Qed.
Lemma bridge_lows cl cfg is u : bridge_after cl cfg is (Up u) -> bridge_low u /\ (u_mode u = Flushing -> cmd_state (u_panel u) <> Idle).
Proof.
  intros [HI E]. pose proof (brun_cases cl cfg is HI) as BC. rewrite E in BC. destruct BC as (u0 & is1 & is2 & -> & CU & _ & _ & EF).
  apply Forall_app in HI as [_ HI2].
  refine (proj2 (up_ind cl cfg u0 (fun _ u => bridge_low u /\ (u_mode u = Flushing -> cmd_state (u_panel u) <> Idle)) (came_up_binv _ _ _ CU) _ _ is2 u HI2 EF)).
  - destruct CU as (C & _ & M). destruct (connected_inv _ C) as (_ & _ & _ & W). split; [split; rewrite W; [cbn; lia | reflexivity] | rewrite M; discriminate].
  - intros js v i v' [K1 K2] B Hi _ ES. eapply bstep_low; eauto.
Qed.
(* The bridge writes each command out before it does anything else: at most one is waiting to be written, and none except while it is in send. *)
Theorem C91_bridge_unsent : forall cl cfg is u, bridge_after cl cfg is (Up u) ->
  (length (wbuf (p_conn (u_panel u))) <= 17)%nat /\ (u_mode u <> Flushing -> wbuf (p_conn (u_panel u)) = []).
Proof. intros cl cfg is u A. exact (proj1 (bridge_lows _ _ _ _ A)). Qed.

(* ---- what was read ---- *)
(* When there is nothing more to return, at most 1025 bytes are kept, except after the frames of C07, where all are. *)
Theorem C91_unread_bounded_partial : forall p now p' w, reachable p -> poll_next now p = Ok (p', Pending, w) ->
  rq (p_conn p') = [] /\ ((length (rbuf (p_conn p')) <= N.to_nat 1025)%nat \/ stalled (rbuf (p_conn p'))).
Proof.
  intros p now p' w R E. destruct (reachable_inv _ R) as [I _]. pose proof I as (CI & _). destruct (poll_next_inv _ _ _ _ _ I E) as [I' _].
  pose proof (poll_next_case _ _ _ _ _ I E) as PC.
  inversion PC as [? ? ? ? ? ? ? ? ? ? ? ? HR|? ? ? ? ? ? ? ? ? ? HR|? ? ? ? ? ? ? ? ? ? HR|r' NE UU F E0 HR]; subst.
  destruct (F eq_refl) as (X & D & _). destruct (nexts_unread _ _ _ X CI) as (U1 & U2 & U3). split; [exact U2|].
  assert (EU : unread (p_conn p') = rbuf (p_conn p')) by (unfold unread; rewrite U2; apply app_nil_r).
  assert (U8 : u8s (unread (p_conn p'))) by (apply unread_u8, I').
  rewrite <- U1, EU in D. rewrite EU in U8. destruct (Nat.le_gt_cases (length (rbuf (p_conn p'))) (N.to_nat 1025)) as [L|L]; [left; exact L|].
  right. apply (C07_bounded_buffering_partial _ U8 L). exact D.
Qed.

(* ---- examples ---- *)
Example C91_early_example : Forall op_ok ex_early_reply /\
  match run ex_panel ex_early_reply with
  | Ok (p, _) => early ex_panel ex_early_reply = 1%nat /\ outstanding p = [] /\ length (wbuf (p_conn p)) = 13%nat
  | _ => False
  end.
Proof. split; [exact ex_early_ok | vm_compute; auto]. Qed.
(* sent, flushed and then answered, twice; and an arm command sent and not flushed *)
Definition ex_in_order : list op :=
  [StartSend ex_cmd; PollFlush [WAccept 5; WAccept 100]; got (MTaskChange 5); PollNext 0; StartSend ex_cmd; PollFlush [WAccept 100]; got (MTaskChange 5); PollNext 0].
Definition ex_arm_cmd : Command := CmdArm (mkArmRequest 1 AL_ArmedAway (B "001234")).
Example C91_in_order_example : Forall op_ok (ex_in_order ++ [StartSend ex_arm_cmd]) /\ early ex_panel ex_in_order = 0%nat /\
  match run ex_panel ex_in_order, run ex_panel (ex_in_order ++ [StartSend ex_arm_cmd]) with
  | Ok (p, _), Ok (p', _) => outstanding p = [] /\ wbuf (p_conn p) = [] /\ length (outstanding p') = 1%nat /\ length (wbuf (p_conn p')) = 17%nat
  | _, _ => False
  end.
Proof.
  split; [|vm_compute; auto]. apply Forall_app. split; [repeat constructor; cbn; lia|]. repeat constructor. all: try discriminate; cbn; lia.
Qed.
Example C91_connecting_example : match irun conn_new [IStep 0 []], irun conn_new [IStep 0 []; IStep 0 [WAccept 100]] with
  | IRun St_as PhFlush p, IRun St_as PhWait p' => length (wbuf (p_conn p)) = 10%nat /\ wbuf (p_conn p') = []
  | _, _ => False
  end.
Proof. vm_compute. auto. Qed.
Definition ex_sending : list input := [MqttArrive (B "elkm1/0001/area/house/ha_command") (B "ARM_AWAY"); PollRx; PollSend [WPending]].
Example C91_bridge_example : Forall input_ok (ex_start ++ ex_sending) /\
  match brun ex_cl ex_cfg (ex_start ++ ex_sending) with Up u => u_mode u = Flushing /\ length (wbuf (p_conn (u_panel u))) = 17%nat | _ => False end.
Proof. split; [apply Forall_app; split; [exact ex_start_ok | repeat constructor]|]. vm_compute. auto. Qed.
Example C91_unread_example : exists p p', reachable p /\ poll_next 0 p = Ok (p', Pending, None) /\ rbuf (p_conn p') = B "19KC0".
Proof.
  eexists _, _. split; [exists ex_panel, [Arrive (Bytes (B "19KC0"))]; eexists; split; [exact ex_connected|]; split; [repeat constructor; cbn; lia | vm_compute; reflexivity]|].
  split; vm_compute; reflexivity.
Qed.
(* a stalled panel: all 1324 bytes are kept and nothing is returned *)
Definition ex_stall_bytes : bytes := [16; 2] ++ repeat 0 1020 ++ [16; 3] ++ repeat 65 300.
Example C91_stalled_example : exists p p', reachable p /\ poll_next 0 p = Ok (p', Pending, None) /\ length (rbuf (p_conn p')) = 1324%nat.
Proof.
  eexists _, _. split; [exists ex_panel, [Arrive (Bytes ex_stall_bytes)]; eexists; split; [exact ex_connected|]; split; [|vm_compute; reflexivity]|].
  { constructor; [|constructor]. unfold ex_stall_bytes. cbn [op_ok arrival_u8]. apply Forall_forall. intros x Hx. repeat (apply in_app_or in Hx as [Hx|Hx]); try apply repeat_spec in Hx; cbn in Hx; lia. }
  split; vm_compute; reflexivity.
Qed.

Print Assumptions C91_unsent_bounded_partial.
Print Assumptions C91_all_written_when_idle.
Print Assumptions C91_unsent_bounded_refuted.
Print Assumptions C91_connecting_unsent.
Print Assumptions C91_bridge_unsent.
Print Assumptions C91_unread_bounded_partial.
