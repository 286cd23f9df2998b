(* RunFacts.v: histories of the Panel model: every step described, induction over histories, and the
   invariant established by connecting. *)
From Verif Require Import Base BaseFacts Pkt SpecPkt PktFacts DecodeFacts Msg SpecMsg DecFacts MsgFacts WireFacts IsoFacts
  Tokio SpecConn ConnFacts State SpecState StateFacts.
From Coq Require Import ZifyBool ZifyNat ZifyN.
Ltac Zify.zify_post_hook ::= Z.div_mod_to_equations.

(* ---- the sink side ---- *)
(* nothing but the command state and the write half of the connection changes *)
Definition sink_only (p p' : Panel) : Prop :=
  p_state p' = p_state p /\ pending_arm p' = pending_arm p /\ same_read (p_conn p) (p_conn p') /\
  shut (p_conn p') = shut (p_conn p).
Definition written (c : conn) : bytes := sent c ++ wbuf c.

Lemma sink_only_refl p : sink_only p p.
Proof. repeat split. Qed.
Lemma sink_only_inv p p' : sink_only p p' -> pinv p -> cmd_ok p' -> pinv p'.
Proof.
  intros (A & B & C & D) (H1 & H2 & H3 & H4 & H5) K. apply pinv_intro; rewrite ?A; auto.
  - eapply same_read_inv; eauto.
  - unfold arming_ok in *. rewrite A, B. exact H4.
Qed.

(* a command is still outstanding (same request) *)
Definition still (p p' : Panel) (q : message) (f : bool) (w : option nat) : Prop := cmd_state p' = Busy q f w.

Lemma poll_ready_spec w ws p p' r : poll_ready w ws p = (p', r) -> pinv p ->
  pinv p' /\ sink_only p p' /\ written (p_conn p') = written (p_conn p) /\ 
  match cmd_state p with
  | Idle => p' = p /\ r = Ready (IoOk tt)
  | Busy q f k => r <> Ready (IoOk tt) /\ exists f' k', cmd_state p' = Busy q f' k' /\
      (r = Pending -> wbuf (p_conn p') = [] -> k' = Some w) /\
      (f' = f /\ k' = k \/ r = Pending /\ f' = true /\ k' = Some w)
  end.
Proof.
  unfold poll_ready. intros E I. pose proof I as (_ & _ & _ & _ & K). unfold cmd_ok in K.
  destruct (cmd_state p) as [|q f k] eqn:EC.
  - injection E as <- <-. split; [exact I|]. split; [apply sink_only_refl|]. auto.
  - destruct K as [Kc Kf]. destruct f.
    + injection E as <- <-. assert (S : sink_only p (with_cmd p (Busy q true (Some w)))) by (repeat split).
      split; [eapply sink_only_inv; eauto; split; auto|]. split; [exact S|]. split; [reflexivity|].
      split; [discriminate|]. exists true, (Some w). repeat split; auto.
    + destruct (conn_poll_flush (p_conn p) ws) as [[c ws'] rf] eqn:EF.
      destruct (conn_flush_spec _ _ _ _ _ EF) as (R & Sh & W & _ & Fl & Em).
      assert (NP : rf = Pending -> wbuf c <> []).
      { intros -> Hn. unfold conn_poll_flush in EF. destruct (framed_flush ws (wbuf (p_conn p)) (sent (p_conn p))) as [[[b o] w2] r2] eqn:EFF.
        injection EF as <- <- ->. cbn in Hn. subst b. clear -EFF. revert EFF. generalize (wbuf (p_conn p)) (sent (p_conn p)).
        induction ws as [|x ws IH]; intros b0 o0 E; destruct b0 as [|y b0]; cbn [framed_flush] in E; try (injection E; congruence; fail); try discriminate.
        destruct x as [[|n]| |e]; try (injection E; congruence; fail); try discriminate. eapply IH; eauto. }
      destruct rf as [|[[]|e]].
      * injection E as <- <-. assert (S : sink_only p (with_conn p c)) by (repeat split; auto; apply R).
        split; [eapply sink_only_inv; eauto; unfold cmd_ok; cbn; rewrite EC; split; auto; discriminate|].
        split; [exact S|]. split; [exact W|]. split; [discriminate|].
        exists false, k. cbn. repeat split; auto. intros _ X. elim (NP eq_refl X).
      * injection E as <- <-. assert (S : sink_only p (with_cmd (with_conn p c) (Busy q true (Some w)))) by (repeat split; auto; apply R).
        split; [eapply sink_only_inv; eauto; split; auto|]. split; [exact S|]. split; [exact W|]. split; [discriminate|].
        exists true, (Some w). repeat split; auto.
      * injection E as <- <-. assert (S : sink_only p (with_conn p c)) by (repeat split; auto; apply R).
        split; [eapply sink_only_inv; eauto; unfold cmd_ok; cbn; rewrite EC; split; auto; discriminate|].
        split; [exact S|]. split; [exact W|]. split; [discriminate|].
        exists false, k. cbn. repeat split; auto. discriminate.
Qed.

Lemma panel_flush_spec ws p p' ws' r : panel_flush ws p = (p', ws', r) -> pinv p ->
  pinv p' /\ sink_only p p' /\ written (p_conn p') = written (p_conn p) /\
  match cmd_state p with
  | Idle => p' = p /\ r = Ready (IoOk tt)
  | Busy q f k => exists f', cmd_state p' = Busy q f' k /\ (r = Ready (IoOk tt) -> wbuf (p_conn p') = [])
  end.
Proof.
  unfold panel_flush. intros E I. pose proof I as (_ & _ & _ & _ & K). unfold cmd_ok in K.
  destruct (cmd_state p) as [|q f k] eqn:EC.
  - injection E as <- <- <-. split; [exact I|]. split; [apply sink_only_refl|]. auto.
  - destruct K as [Kc Kf]. destruct f.
    + injection E as <- <- <-. split; [exact I|]. split; [apply sink_only_refl|]. split; [reflexivity|]. exists true. auto.
    + destruct (conn_poll_flush (p_conn p) ws) as [[c ws1] rf] eqn:EF.
      destruct (conn_flush_spec _ _ _ _ _ EF) as (R & Sh & W & _ & Fl & Em).
      destruct rf as [|[[]|e]].
      * injection E as <- <- <-. assert (S : sink_only p (with_conn p c)) by (repeat split; auto; apply R).
        split; [eapply sink_only_inv; eauto; unfold cmd_ok; cbn; rewrite EC; split; auto; discriminate|].
        split; [exact S|]. split; [exact W|]. exists false. cbn. split; [auto | discriminate].
      * injection E as <- <- <-. assert (S : sink_only p (with_cmd (with_conn p c) (Busy q true k))) by (repeat split; auto; apply R).
        split; [eapply sink_only_inv; eauto; split; auto|]. split; [exact S|]. split; [exact W|]. exists true. cbn. auto.
      * injection E as <- <- <-. assert (S : sink_only p (with_conn p c)) by (repeat split; auto; apply R).
        split; [eapply sink_only_inv; eauto; unfold cmd_ok; cbn; rewrite EC; split; auto; discriminate|].
        split; [exact S|]. split; [exact W|]. exists false. cbn. split; [auto | discriminate].
Qed.
Lemma poll_flush_spec ws p p' r : poll_flush ws p = (p', r) -> pinv p ->
  pinv p' /\ sink_only p p' /\ written (p_conn p') = written (p_conn p) /\
  match cmd_state p with
  | Idle => p' = p /\ r = Ready (IoOk tt)
  | Busy q f k => exists f', cmd_state p' = Busy q f' k /\ (r = Ready (IoOk tt) -> wbuf (p_conn p') = [])
  end.
Proof.
  unfold poll_flush. destruct (panel_flush ws p) as [[q ws'] r1] eqn:E. intros [= <- <-] I. eapply panel_flush_spec; eauto.
Qed.
Lemma poll_close_spec ws p p' r : poll_close ws p = (p', r) -> pinv p ->
  pinv p' /\ sink_only p p' /\ written (p_conn p') = written (p_conn p) /\
  (r = Ready (IoOk tt) -> wbuf (p_conn p') = []) /\
  match cmd_state p with
  | Idle => cmd_state p' = Idle
  | Busy q f k => exists f', cmd_state p' = Busy q f' k
  end.
Proof.
  unfold poll_close. intros E I. destruct (panel_flush ws p) as [[p1 ws1] r1] eqn:E1.
  destruct (panel_flush_spec _ _ _ _ _ E1 I) as (I1 & S1 & W1 & C1).
  destruct r1 as [|[[]|e]].
  - injection E as <- <-. split; [auto|]. split; [auto|]. split; [auto|]. split; [discriminate|].
    destruct (cmd_state p) as [|q f k] eqn:EC; [destruct C1 as [-> _]; exact EC | destruct C1 as (f' & -> & _); eauto].
  - unfold conn_poll_close in E. destruct (conn_poll_flush (p_conn p1) ws1) as [[c ws2] r2] eqn:EF. injection E as <- <-.
    destruct (conn_flush_spec _ _ _ _ _ EF) as (R & Sh & W & _ & Fl & Em).
    assert (S : sink_only p (with_conn p1 c)).
    { destruct S1 as (A & B & C & D). split; [exact A|]. split; [exact B|]. split; [eapply same_read_trans; eauto | cbn; congruence]. }
    assert (CC : cmd_state (with_conn p1 c) = cmd_state p1) by reflexivity.
    split.
    { eapply sink_only_inv; eauto. unfold cmd_ok. rewrite CC. pose proof I1 as (_ & _ & _ & _ & K). unfold cmd_ok in K.
      destruct (cmd_state p1); auto. destruct K as [K1 K2]. split; [exact K1|]. intros F. specialize (K2 F).
      destruct (Em K2) as [-> _]. exact K2. }
    split; [exact S|]. split; [unfold written in *; cbn; congruence|]. split; [exact Fl|]. rewrite CC.
    destruct (cmd_state p) as [|q f k] eqn:EC; [destruct C1 as [-> _]; exact EC | destruct C1 as (f' & -> & _); eauto].
  - injection E as <- <-. split; [auto|]. split; [auto|]. split; [auto|]. split; [discriminate|].
    destruct (cmd_state p) as [|q f k] eqn:EC; [destruct C1 as [-> _]; exact EC | destruct C1 as (f' & -> & _); eauto].
Qed.

Lemma command_pkt c : wf_message (into_msg c) -> exists body f, to_pkt (into_msg c) = Ok (PAscii body) /\
  command_frame c f /\ forall to, encode (PAscii body) to = Ok (to ++ f).
Proof.
  intros W. destruct (to_pkt_spec _ W) as (b & E & Hw & Hb & _). destruct (encode_valid (PAscii b) Hb) as (f & HF & HE).
  exists b, f. split; [exact E|]. split; [|exact HE]. exists b. auto.
Qed.
Lemma start_send_spec c p : pinv p -> wf_message (into_msg c) ->
  match cmd_state p with
  | Busy _ _ _ => exists why, start_send c p = Panic why
  | Idle => exists p' f, start_send c p = Ok p' /\ pinv p' /\ sink_only p p' /\
      cmd_state p' = Busy (into_msg c) false None /\ command_frame c f /\
      sent (p_conn p') = sent (p_conn p) /\ wbuf (p_conn p') = wbuf (p_conn p) ++ f
  end.
Proof.
  intros I W. unfold start_send. destruct (cmd_state p) as [|q f k] eqn:EC; [|eauto].
  destruct (command_pkt c W) as (b & f & -> & F & HE). cbn [bind]. unfold conn_start_send. rewrite HE. cbn [bind].
  eexists _, f. split; [reflexivity|].
  match goal with |- pinv ?q /\ _ => assert (S : sink_only p q) by (repeat split) end.
  split; [eapply sink_only_inv; eauto; split; [eauto | discriminate]|]. split; [exact S|]. repeat split. exact F.
Qed.

(* ---- one step of a history ---- *)
Definition stepped (p : Panel) (o : op) (p' : Panel) (b : obs) : Prop :=
  match o with
  | Arrive a => b = ONone /\ p' = with_conn p (arrive (p_conn p) a)
  | PollNext now => exists r w, b = ONext r w /\ polled now p p' r w
  | PollReady w ws => exists r, b = OSink r /\ sink_only p p' /\ written (p_conn p') = written (p_conn p) /\
      match cmd_state p with
      | Idle => p' = p /\ r = Ready (IoOk tt)
      | Busy q f k => r <> Ready (IoOk tt) /\ exists f' k', cmd_state p' = Busy q f' k' /\
          (r = Pending -> wbuf (p_conn p') = [] -> k' = Some w) /\
          (f' = f /\ k' = k \/ r = Pending /\ f' = true /\ k' = Some w)
      end
  | StartSend c => b = ONone /\ cmd_state p = Idle /\ sink_only p p' /\ cmd_state p' = Busy (into_msg c) false None /\
      exists f, command_frame c f /\ sent (p_conn p') = sent (p_conn p) /\ wbuf (p_conn p') = wbuf (p_conn p) ++ f
  | PollFlush ws => exists r, b = OSink r /\ sink_only p p' /\ written (p_conn p') = written (p_conn p) /\
      match cmd_state p with
      | Idle => p' = p /\ r = Ready (IoOk tt)
      | Busy q f k => exists f', cmd_state p' = Busy q f' k /\ (r = Ready (IoOk tt) -> wbuf (p_conn p') = [])
      end
  | PollClose ws => exists r, b = OSink r /\ sink_only p p' /\ written (p_conn p') = written (p_conn p) /\
      (r = Ready (IoOk tt) -> wbuf (p_conn p') = []) /\
      match cmd_state p with
      | Idle => cmd_state p' = Idle
      | Busy q f k => exists f', cmd_state p' = Busy q f' k
      end
  end.
Lemma step_spec p o : pinv p -> op_ok o ->
  (exists c q f k, o = StartSend c /\ cmd_state p = Busy q f k /\ exists why, step p o = Panic why) \/
  exists p' b, step p o = Ok (p', b) /\ pinv p' /\ stepped p o p' b.
Proof.
  intros I HO. destruct o as [a|now|w ws|c|ws|ws]; cbn [step stepped op_ok] in *.
  - right. eexists _, _. split; [reflexivity|]. split; [|auto]. apply with_conn_inv; auto. apply arrive_inv; auto. apply I.
  - right. destruct (poll_next_spec now p I) as (p' & r & w & -> & I' & P). cbn [bind]. eexists _, _. split; [reflexivity|]. eauto.
  - right. destruct (poll_ready w ws p) as [p' r] eqn:E. destruct (poll_ready_spec _ _ _ _ _ E I) as (I' & H).
    eexists _, _. split; [reflexivity|]. split; [exact I'|]. exists r. split; [reflexivity | exact H].
  - pose proof (start_send_spec c p I HO) as S. destruct (cmd_state p) as [|q f k] eqn:EC.
    + right. destruct S as (p' & f & -> & I' & S1 & S2 & S3 & S4 & S5). cbn [bind]. eexists _, _. split; [reflexivity|].
      split; [exact I'|]. repeat split; eauto; apply S1.
    + left. destruct S as (why & ->). cbn [bind]. exists c, q, f, k. eauto.
  - right. destruct (poll_flush ws p) as [p' r] eqn:E. destruct (poll_flush_spec _ _ _ _ E I) as (I' & H).
    eexists _, _. split; [reflexivity|]. split; [exact I'|]. exists r. split; [reflexivity | exact H].
  - right. destruct (poll_close ws p) as [p' r] eqn:E. destruct (poll_close_spec _ _ _ _ E I) as (I' & H).
    eexists _, _. split; [reflexivity|]. split; [exact I'|]. exists r. split; [reflexivity | exact H].
Qed.
Lemma step_inv p o p' b : pinv p -> op_ok o -> step p o = Ok (p', b) -> pinv p' /\ stepped p o p' b.
Proof.
  intros I HO E. destruct (step_spec p o I HO) as [(c & q & f & k & _ & _ & why & E2)|(p2 & b2 & E2 & H)]; [congruence|].
  rewrite E in E2. injection E2 as <- <-. exact H.
Qed.

(* ---- histories ---- *)
Lemma run_app h1 : forall p h2, run p (h1 ++ h2) =
  ' (p1, b1) <- run p h1 ;; ' (p2, b2) <- run p1 h2 ;; Ok (p2, b1 ++ b2).
Proof.
  induction h1 as [|o h1 IH]; intros p h2; cbn [run app].
  - cbn [bind]. destruct (run p h2) as [[p2 b2]|e|w]; reflexivity.
  - destruct (step p o) as [[p1 b]|e|w]; cbn [bind]; [|reflexivity|reflexivity]. rewrite IH.
    destruct (run p1 h1) as [[p2 b2]|e|w]; cbn [bind]; [|reflexivity|reflexivity].
    destruct (run p2 h2) as [[p3 b3]|e|w]; reflexivity.
Qed.
Lemma run_snoc p h o p' bs : run p (h ++ [o]) = Ok (p', bs) ->
  exists p1 bs1 b, run p h = Ok (p1, bs1) /\ step p1 o = Ok (p', b) /\ bs = bs1 ++ [b].
Proof.
  rewrite run_app. intros E. apply bind_inv in E as ([p1 b1] & E1 & E). apply bind_inv in E as ([p2 b2] & E2 & E).
  cbn [run] in E2. apply bind_inv in E2 as ([p3 b3] & E3 & [= <- <-]). injection E as <- <-. eauto 8.
Qed.
Lemma run_ind (P : list op -> list obs -> Panel -> Prop) p0 : pinv p0 -> P [] [] p0 ->
  (forall h bs p o p' b, run p0 h = Ok (p, bs) -> Forall op_ok h -> pinv p -> P h bs p -> op_ok o ->
     step p o = Ok (p', b) -> pinv p' -> stepped p o p' b -> P (h ++ [o]) (bs ++ [b]) p') ->
  forall h bs p, Forall op_ok h -> run p0 h = Ok (p, bs) -> pinv p /\ P h bs p.
Proof.
  intros I0 P0 PS h. induction h as [|o h IH] using rev_ind; intros bs p HO E.
  - cbn in E. injection E as <- <-. auto.
  - apply run_snoc in E as (p1 & bs1 & b & E1 & E2 & ->). apply Forall_app in HO as [HO1 HO2]. inversion HO2; subst.
    destruct (IH _ _ HO1 E1) as [I1 P1]. destruct (step_inv _ _ _ _ I1 H1 E2) as [I2 S2]. split; [exact I2|]. eapply PS; eauto.
Qed.
Lemma run_pinv p0 h p bs : pinv p0 -> Forall op_ok h -> run p0 h = Ok (p, bs) -> pinv p.
Proof. intros I HO E. eapply (run_ind (fun _ _ _ => True)); eauto. Qed.

(* ---- connecting ---- *)
Definition table (ty : TextDescriptionType) (max : nat) : Prop :=
  (ty = TT_Area /\ max = 8%nat) \/ (ty = TT_Task /\ max = 32%nat) \/ (ty = TT_Zone /\ max = 208%nat).
Definition stage_ok (s : stage) (p : Panel) : Prop :=
  match s with
  | St_as => True
  | St_zs => exists r, s_arming (p_state p) = Some r
  | St_sd ty max i => up p /\ table ty max /\ (i < max)%nat
  end.
Definition iinv (i : istate) : Prop :=
  match i with
  | IRun s ph p => pinv p /\ cmd_state p = Idle /\ stage_ok s p /\ (ph <> PhFlush -> wbuf (p_conn p) = [])
  | IDone p => pinv p /\ cmd_state p = Idle /\ up p /\ wbuf (p_conn p) = []
  | _ => True
  end.

Lemma EMPTY_ok : text_ok TextDescription_EMPTY.
Proof. split; [reflexivity|]. repeat constructor; discriminate. Qed.
Lemma repeat_names n : names_ok n (repeat TextDescription_EMPTY n).
Proof. split; [apply repeat_length|]. apply Forall_forall. intros x H. apply repeat_spec in H. subst. exact EMPTY_ok. Qed.
Lemma init_inv c : cinv c -> wbuf c = [] -> iinv (init_start c).
Proof.
  intros CI W. split; [|repeat split; auto]. apply pinv_intro; auto.
  - split; [apply repeat_names|]. split; apply repeat_names.
  - discriminate.
  - reflexivity.
  - exact I.
Qed.
Lemma interpreted_mono now p p' pkt e w : interpreted now p p' pkt e w -> arming_ok p ->
  ((exists r, s_arming (p_state p) = Some r) -> exists r, s_arming (p_state p') = Some r) /\
  ((exists z, s_zones (p_state p) = Some z) -> exists z, s_zones (p_state p') = Some z) /\
  same_names p p' /\ (cmd_state p = Idle -> cmd_state p' = Idle).
Proof.
  intros (_ & H) A. destruct (parse pkt) as [[m|]|er|why]; [| | |destruct H]; try (destruct H as (-> & _); repeat split; auto).
  destruct H as (_ & N & M & R). split; [|split; [|split; [exact N|]]].
  - intros (r & Hr). destruct m; cbn [msg_effect] in M; try (destruct M as (_ & _ & S & _); rewrite S; eauto; fail);
    try (destruct M as (_ & S & _); rewrite S; eauto; fail).
    destruct M as [M _]. unfold arming_effect in M. rewrite Hr in M.
    destruct M as [(_ & _ & M & _)|(_ & M & _)]; eauto.
  - intros (z & Hz). destruct m; cbn [msg_effect] in M; try (destruct M as (S & _); rewrite S; eauto; fail);
    try (destruct M as (_ & S); rewrite S; eauto; fail).
    destruct M as [M _]. unfold zone_effect in M. rewrite Hz in M. destruct M as (zs' & s & M & _); eauto.
  - intros E. unfold reply_effect in R. rewrite E in R. tauto.
Qed.

Lemma names_of_table s ty max : table ty max -> 
  (names_ok 208 (zone_names s) /\ names_ok 8 (area_names s) /\ names_ok 32 (task_names s)) ->
  exists l, names_of s ty = Some l /\ names_ok max l.
Proof. intros [[-> ->]|[[-> ->]|[-> ->]]] (A & B & C); eexists; (split; [reflexivity|]); auto. Qed.
Lemma text_type_eqb_eq a b : TextDescriptionType_eqb a b = true <-> a = b.
Proof. destruct a, b; cbn; split; congruence. Qed.

Lemma set_names_inv p ty max l : table ty max -> names_ok max l -> pinv p ->
  pinv (with_state p (set_names (p_state p) ty l)).
Proof.
  intros T L (H1 & (Z & A & K) & H3 & H4 & H5). destruct T as [[-> ->]|[[-> ->]|[-> ->]]]; apply pinv_intro; auto.
Qed.
Lemma set_names_up p ty max l : table ty max -> up p -> up (with_state p (set_names (p_state p) ty l)).
Proof. intros [[-> _]|[[-> _]|[-> _]]] U; exact U. Qed.
Lemma Forall_set_nth {A} (Q : A -> Prop) l i x l' : set_nth l i x = Ok l' -> Forall Q l -> Q x -> Forall Q l' /\ length l' = length l.
Proof.
  intros E F Hx. pose proof (set_nth_inv _ _ _ _ E) as L. destruct (set_nth_spec l i x L) as (l2 & E2 & L2 & N2).
  rewrite E in E2. injection E2 as <-. split; [|exact L2]. apply Forall_forall. intros y Hy. apply In_nth_error in Hy as (j & Hj).
  rewrite N2 in Hj. destruct (j =? i)%nat; [congruence|]. rewrite Forall_forall in F. apply F. eapply nth_error_In; eauto.
Qed.
Lemma after_sds_inv ty max p : table ty max -> pinv p -> cmd_state p = Idle -> up p -> wbuf (p_conn p) = [] -> iinv (after_sds ty p).
Proof.
  intros [[-> ->]|[[-> ->]|[-> ->]]] I C U W; cbn [after_sds iinv]; repeat (split; [assumption|]); auto.
  - split; [|auto]. split; [exact U|]. split; [right; left; split; reflexivity | unfold NUM_TASKS; lia].
  - split; [|auto]. split; [exact U|]. split; [right; right; split; reflexivity | unfold NUM_ZONES; lia].
Qed.
Lemma sds_reply_inv ty max i p m : table ty max -> pinv p -> cmd_state p = Idle -> up p -> wbuf (p_conn p) = [] ->
  wf_message m -> iinv (sds_reply ty max i p m).
Proof.
  intros T I C U W Wm. unfold sds_reply. destruct m; try exact Logic.I.
  destruct (negb _); [exact Logic.I|]. pose proof I as (_ & N & _).
  destruct (names_of_table _ ty max T N) as (l & -> & LN). destruct (sd_num m =? 0); [eapply after_sds_inv; eauto|].
  destruct (_ <? _)%nat; [exact Logic.I|]. destruct (set_nth l _ _) as [l'|e|w] eqn:E; try exact Logic.I.
  destruct Wm as [_ Wt]. destruct LN as [LN LF]. destruct (Forall_set_nth _ _ _ _ _ E LF Wt) as [F' L'].
  assert (I' : pinv (with_state p (set_names (p_state p) ty l'))) by (eapply set_names_inv; eauto; split; [congruence | auto]).
  assert (U' : up (with_state p (set_names (p_state p) ty l'))) by (eapply set_names_up; eauto).
  destruct (Nat.ltb_spec (N.to_nat (sd_num m - 1) + 1) max) as [Lt|Lt].
  - cbn [iinv]. repeat (split; [assumption|]). split; [|auto]. split; [exact U'|]. auto.
  - eapply after_sds_inv; eauto.
Qed.
Lemma stage_msg_wf s p : stage_ok s p -> wf_message (stage_msg s).
Proof. destruct s as [| |ty max i]; cbn; auto. intros (_ & T & L). destruct T as [[_ ->]|[[_ ->]|[_ ->]]]; lia. Qed.

(* receiving a packet while waiting *)
Lemma istep_inv now ws i : iinv i -> iinv (istep now ws i).
Proof.
  destruct i as [s ph p|p|e|w]; auto. intros (I & C & S & W). destruct ph; cbn [istep].
  - unfold conn_poll_ready. rewrite W by discriminate. cbn [length]. change (BACKPRESSURE <=? N.of_nat 0) with false. cbv beta iota.
    destruct (to_pkt_spec _ (stage_msg_wf s p S)) as (b & -> & _ & Hb & _). cbn [bind].
    destruct (encode_valid (PAscii b) Hb) as (f & HF & HE). unfold conn_start_send. rewrite HE. cbn [bind iinv].
    match goal with |- pinv ?q /\ _ => assert (SO : sink_only p q) by (repeat split) end.
    split; [eapply sink_only_inv; eauto; unfold cmd_ok; cbn; rewrite C; exact Logic.I|].
    split; [exact C|]. split; [exact S | congruence].
  - destruct (conn_poll_flush (p_conn p) ws) as [[c ws'] r] eqn:EF.
    destruct (conn_flush_spec _ _ _ _ _ EF) as (R & Sh & W' & _ & Fl & Em).
    assert (SO : sink_only p (with_conn p c)) by (repeat split; auto; apply R).
    assert (I' : pinv (with_conn p c)) by (eapply sink_only_inv; eauto; unfold cmd_ok; cbn; rewrite C; exact Logic.I).
    destruct r as [|[[]|e]]; cbn [iinv].
    + do 3 (split; [assumption|]). congruence.
    + do 3 (split; [assumption|]). intros _. apply Fl. reflexivity.
    + exact Logic.I.
  - specialize (W ltac:(discriminate)).
    pose proof I as (CI & _ & _ & AI & _). destruct (conn_next_total _ CI) as (c & r & E & X). rewrite E. destruct (await_eof_fails s) as (eof & ->).
    destruct (nexts_same_write _ _ _ X) as (Ew & _ & _ & _).
    pose proof (with_conn_inv p c I (nexts_inv _ _ _ X CI) Ew) as I'.
    destruct r as [|[[pkt|e]|]]; cbn [iinv]; try exact Logic.I.
    + do 3 (split; [assumption|]). cbn. congruence.
    + destruct (interpret_spec now (with_conn p c) pkt I' (nexts_pkt_ok _ _ _ X CI)) as (p' & e & w & -> & I2 & C2 & Y).
      destruct (interpreted_mono _ _ _ _ _ _ Y) as (M1 & M2 & M3 & M4); [apply I'|]. specialize (M4 C).
      assert (W2 : wbuf (p_conn p') = []) by (rewrite C2; cbn; congruence).
      assert (S2 : stage_ok s p').
      { destruct s as [| |ty max i]; cbn in *; auto. destruct S as ([U1 U2] & T & L). repeat split; auto. }
      assert (Stay : iinv (IRun s PhWait p')) by (split; [assumption|]; split; [assumption|]; split; auto).
      destruct (e_msg e) as [[m|]|] eqn:EM; auto.
      assert (EP : parse pkt = Ok (Some m) /\ msg_effect now (with_conn p c) p' (e_change e) m).
      { destruct Y as [_ Y]. destruct (parse pkt) as [[m'|]|er|why]; [| | |destruct Y]; try (destruct Y as (_ & Y & _); congruence).
        destruct Y as (Y & _ & Y2 & _). rewrite EM in Y. injection Y as <-. auto. }
      destruct EP as [EP ME]. pose proof (parsed_wf _ _ (nexts_pkt_ok _ _ _ X CI) EP) as Wm.
      destruct (is_response_to m (stage_msg s)) eqn:ER; auto.
      apply is_response_spec in ER. destruct s as [| |ty max i]; cbn [after_reply].
      * destruct m; cbn in ER; try contradiction. split; [assumption|]. split; [assumption|]. split; [|auto].
        cbn [msg_effect] in ME. destruct ME as [ME _]. unfold arming_effect in ME. cbn. destruct (s_arming (p_state (with_conn p c))); [|destruct ME; eauto].
        destruct ME as [(_ & _ & ME & _)|(_ & ME & _)]; eauto.
      * destruct m; cbn in ER; try contradiction. split; [assumption|]. split; [assumption|]. split; [|auto].
        split; [split|split]; [exact S2| | left; split; reflexivity | unfold NUM_AREAS; lia].
        cbn [msg_effect] in ME. destruct ME as (-> & _). eauto.
      * destruct S2 as (U & T & L). apply sds_reply_inv; auto.
Qed.
Lemma iarrive_inv a i : arrival_u8 a -> iinv i -> iinv (iarrive a i).
Proof.
  intros Ha. assert (X : forall p, pinv p -> pinv (with_conn p (arrive (p_conn p) a))).
  { intros p I. apply with_conn_inv; auto. apply arrive_inv; auto. apply I. }
  destruct i as [s ph p|p|e|w]; auto; intros (I & C & S & W); (split; [apply X; exact I|]); auto.
Qed.
Lemma irun_inv h : Forall iop_ok h -> iinv (irun conn_new h).
Proof.
  unfold irun. assert (X : forall i, iinv i -> Forall iop_ok h -> iinv (fold_left iop_step h i)).
  { induction h as [|[a|now ws] h IH]; intros i I HO; cbn; auto; inversion HO; subst; apply IH; auto;
    [apply iarrive_inv; auto | apply istep_inv; auto]. }
  intros HO. apply X; auto. apply init_inv; [exact conn_new_inv | reflexivity].
Qed.
Lemma connected_inv p : connected p -> pinv p /\ cmd_state p = Idle /\ up p /\ wbuf (p_conn p) = [].
Proof. intros (h & HO & E). pose proof (irun_inv h HO) as I. rewrite E in I. exact I. Qed.
