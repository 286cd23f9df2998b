(* PropChron.v: C90: the log of connecting, line by line. *)
From Verif Require Import Base BaseFacts Pkt SpecPkt PktFacts DecodeFacts Msg SpecMsg DecFacts MsgFacts WireFacts IsoFacts
  PropMsg Tokio SpecConn ConnFacts State SpecState StateFacts RunFacts HistFacts ViewFacts ExState PropState PropSink SpecInit
  Serde SerdeFacts PropSerde Mqtt SpecMqtt MqttFacts PropMqtt Fmt PropFmt Log SpecTrace PropTrace PropBridgeLog.
From Coq Require Import ZifyBool ZifyNat ZifyN.
Ltac Zify.zify_post_hook ::= Z.div_mod_to_equations.

(* the requests sent *)
Definition sent_by (qs : list message) (t : turn) : list message := match t with Asked q => qs ++ [q] | _ => qs end.
Definition chron (i : istate) (ls : list entry) : Prop := exists qs t, chronicle qs t ls /\
  match i with
  | IRun s ph p => t = match ph with PhReady => Announced (stage_msg s) | _ => Asked (stage_msg s) end /\
      exists fs, Forall2 request_frame (sent_by qs t) fs /\ written (p_conn p) = concat fs
  | IDone p => t = Over /\ exists fs, Forall2 request_frame qs fs /\ written (p_conn p) = concat fs
  | IFail _ => t <> Over
  | ICrash _ => t = Over
  end.
Lemma after_reply_ready s p m s' ph p' : after_reply s p m = IRun s' ph p' -> ph = PhReady.
Proof.
  assert (AS : forall ty q, after_sds ty q = IRun s' ph p' -> ph = PhReady) by (intros ty q; destruct ty; cbn; congruence).
  destruct s as [| |ty max i]; cbn [after_reply]; try congruence. unfold sds_reply. destruct m; try discriminate. destruct (negb _); [discriminate|].
  destruct (names_of (p_state p) ty); [|discriminate]. destruct (sd_num m =? 0); [apply AS|].
  destruct (_ <? _)%nat; [discriminate|]. destruct (set_nth l _ _) as [l'|?|?]; try discriminate.
  destruct (_ <? _)%nat; [congruence|]. apply AS.
Qed.
Lemma after_reply_fail s p m e : after_reply s p m <> IFail e.
Proof.
  assert (AS : forall ty q, after_sds ty q <> IFail e) by (intros ty q; destruct ty; cbn; congruence).
  destruct s as [| |ty max i]; cbn [after_reply]; try congruence. unfold sds_reply. destruct m; try discriminate. destruct (negb _); [discriminate|].
  destruct (names_of (p_state p) ty); [|discriminate]. destruct (sd_num m =? 0); [apply AS|].
  destruct (_ <? _)%nat; [discriminate|]. destruct (set_nth l _ _) as [l'|?|?]; try discriminate.
  destruct (_ <? _)%nat; [congruence|]. apply AS.
Qed.
Lemma interpret_lines p pkt m : message_of pkt = Some m -> arming_lines m (log_interpret p pkt).
Proof.
  unfold message_of, log_interpret. destruct (parse pkt) as [[m'|]|?|?]; try discriminate. intros [= ->].
  destruct m; try constructor. unfold log_arming. destruct (s_arming (p_state p)) as [a|]; [|constructor].
  destruct (pending_arm p) as [[d y]|]; destruct (is_transition_suspicious _ _); try constructor.
  - eapply Arming_again; [reflexivity|]. repeat eexists.
  - eapply Arming_delaying; [reflexivity|]. repeat eexists.
Qed.
Lemma says_stage s l : log_init_req s = Ok l -> exists l0, l = [l0] /\ says_request (stage_msg s) l0.
Proof. unfold log_init_req. intros E. apply bind_inv in E as (d & E & [= <-]). eexists. split; [reflexivity|]. exists d. auto. Qed.
Lemma istep_chron now ws i ls l : iinv i -> chron i ls -> log_istep now ws i = Ok l -> chron (istep now ws i) (ls ++ l).
Proof.
  intros I (qs & t & CH & K) E. destruct i as [s ph p|p|e|w].
  2-4: injection E as <-; rewrite app_nil_r; exists qs, t; auto.
  destruct I as (I & C & S & W). destruct K as (-> & fs & F & EW). destruct ph; cbn [istep log_istep] in *; cbv beta iota in CH; cbn [sent_by] in F.
  - revert E. unfold conn_poll_ready. rewrite W by discriminate. cbn [length]. change (BACKPRESSURE <=? N.of_nat 0) with false. cbv beta iota.
    destruct (to_pkt_spec _ (stage_msg_wf s p S)) as (b & -> & HW & Hb & _). cbn [bind].
    destruct (encode_valid (PAscii b) Hb) as (f & HF & HE). unfold conn_start_send. rewrite HE. cbn [bind panel_of]. intros [= <-].
    exists qs, (Asked (stage_msg s)). split; [eapply Chron_sent; [exact CH | exact HW | reflexivity]|]. split; [reflexivity|]. cbn [sent_by].
    exists (fs ++ [f]). split; [apply Forall2_app; [exact F|]; constructor; [|constructor]; split; [exact (stage_msg_wf s p S)|]; exists b; auto|].
    rewrite concat_app. cbn [concat]. rewrite app_nil_r, <- EW. unfold written. cbn. apply app_assoc.
  - injection E as <-. rewrite app_nil_r. destruct (conn_poll_flush (p_conn p) ws) as [[c ws'] r] eqn:EF.
    destruct (conn_flush_spec _ _ _ _ _ EF) as (_ & _ & WW & _). exists qs, (Asked (stage_msg s)). split; [exact CH|].
    destruct r as [|[[]|e]]; [ | |discriminate]; (split; [reflexivity|]); exists fs; (split; [exact F|]); cbn [p_conn with_conn]; unfold written in *; congruence.
  - pose proof I as (CI & _). destruct (conn_next_total _ CI) as (c & r & EN & X). rewrite EN in *. cbn [bind] in E.
    destruct (await_eof_fails s) as (eof & ->). destruct (nexts_same_write _ _ _ X) as (E1 & E2 & _).
    assert (WW : written c = written (p_conn p)) by (unfold written; congruence).
    destruct r as [|[[pkt|e]|]].
    1,3,4: injection E as <-; rewrite app_nil_r; exists qs, (Asked (stage_msg s)); (split; [exact CH|]); try discriminate.
    + split; [reflexivity|]. exists fs. split; [exact F|]. cbn [p_conn with_conn]. congruence.
    + pose proof (with_conn_inv p c I (nexts_inv _ _ _ X CI) E1) as I'.
      destruct (interpret_spec now (with_conn p c) pkt I' (nexts_pkt_ok _ _ _ X CI)) as (p' & e & w & EI & I2 & C2 & (EK & Y)). rewrite EI in *. cbn [bind] in E.
      assert (WP : written (p_conn p') = concat fs) by (rewrite C2; cbn [p_conn with_conn]; congruence).
      assert (NM : message_of pkt = None -> (forall m, e_msg e <> Some (inl m)) -> l = line_received pkt :: log_interpret p pkt -> chron (IRun s PhWait p') (ls ++ l)).
      { intros M NE ->. exists qs, (Asked (stage_msg s)). assert (log_interpret p pkt = []) as -> by (unfold message_of in M; unfold log_interpret; destruct (parse pkt) as [[m|]|?|?]; [discriminate | reflexivity ..]).
        split; [eapply Chron_other; [exact CH | exact M | reflexivity]|]. split; [reflexivity|]. exists fs. auto. }
      destruct (parse pkt) as [[m|]|er|why] eqn:EP; [| | |contradiction].
      2: { destruct Y as (_ & EM & _). rewrite EM in *. apply NM; [unfold message_of; rewrite EP; reflexivity | discriminate | congruence]. }
      2: { destruct Y as (_ & EM & _). rewrite EM in *. apply NM; [unfold message_of; rewrite EP; reflexivity | discriminate | congruence]. }
      clear NM. destruct Y as (EM & _ & _ & R). unfold reply_effect in R. cbn [with_conn cmd_state] in R. rewrite C in R. destruct R as (_ & RC & _). rewrite EM in *.
      assert (M : message_of pkt = Some m) by (unfold message_of; rewrite EP; reflexivity). pose proof (interpret_lines p pkt m M) as AL.
      apply bind_inv in E as (d & ED & E).
      assert (SC : forall text, says_came text pkt m (mkEntry Debug text [("msg"%string, ByDebug d)])).
      { intros text. exists (e_change e), d. split; [|reflexivity]. rewrite <- ED. f_equal. destruct e as [k1 k2 k3 k4]; cbn [e_pkt e_msg e_completes e_change] in *. congruence. }
      destruct (is_response_to m (stage_msg s)) eqn:ER.
      * apply is_response_spec in ER.
        assert (CL : forall l', l' = mkEntry Debug "received reply" [("msg"%string, ByDebug d)] -> chronicle (qs ++ [stage_msg s]) Over (ls ++ line_received pkt :: log_interpret p pkt ++ [l']))
          by (intros l' ->; eapply Chron_last; [exact CH | exact M | exact ER | reflexivity | exact AL | apply SC]).
        pose proof (after_reply_conn s p' m) as AC. destruct (after_reply s p' m) as [s' ph' p3|p3|e3|w3] eqn:EA.
        -- apply bind_inv in E as (l' & E & [= <-]). apply says_stage in E as (l0 & -> & SR). assert (ph' = PhReady) as -> by (eapply after_reply_ready; exact EA).
           exists (qs ++ [stage_msg s]), (Announced (stage_msg s')). split; [|split; [reflexivity|]; exists fs; split; [exact F | rewrite (AC p3 eq_refl); exact WP]].
           rewrite app_comm_cons, app_assoc. apply Chron_next; [|exact SR]. apply CL. reflexivity.
        -- injection E as <-. exists (qs ++ [stage_msg s]), Over. split; [apply CL; reflexivity|]. split; [reflexivity|]. exists fs. split; [exact F | rewrite (AC p3 eq_refl); exact WP].
        -- elim (after_reply_fail _ _ _ _ EA).
        -- injection E as <-. exists (qs ++ [stage_msg s]), Over. split; [apply CL; reflexivity | reflexivity].
      * injection E as <-. exists qs, (Asked (stage_msg s)). split; [|split; [reflexivity|]; exists fs; auto].
        rewrite app_comm_cons. eapply Chron_unrelated; [exact CH | exact M | | reflexivity | exact AL | apply SC]. rewrite <- is_response_spec. congruence.
Qed.

(* ---- C90 ---- *)
(* At every moment the log of connecting is that of: one request after the other, starting with that for the arming status, each announced,
   then shown as sent, then what came, with at most one line about arming each, up to the reply.  The requests it tells of are those sent. *)
Theorem C90_connecting_log : forall h, Forall iop_ok h -> exists ls qs t, log_irun h = Ok ls /\ chronicle qs t ls /\
  match irun conn_new h with
  | IRun _ _ p => t <> Over /\ exists fs, Forall2 request_frame (match t with Asked q => qs ++ [q] | _ => qs end) fs /\ sent (p_conn p) ++ wbuf (p_conn p) = concat fs
  | IDone p => t = Over /\ exists fs, Forall2 request_frame qs fs /\ sent (p_conn p) ++ wbuf (p_conn p) = concat fs
  | IFail _ => t <> Over
  | ICrash _ => t = Over
  end.
Proof.
  intros h HO. assert (X : exists ls, log_irun h = Ok ls /\ chron (irun conn_new h) ls).
  { induction h as [|o h IH] using rev_ind.
    - destruct (stage_line St_as) as (l & E & _). exists [l]. split; [unfold log_irun; rewrite E; reflexivity|]. apply says_stage in E as (l0 & [= <-] & SR).
      exists [], (Announced (stage_msg St_as)). split; [apply Chron_begins; exact SR|]. split; [reflexivity|]. exists []. split; [constructor | reflexivity].
    - apply Forall_app in HO as [HO Ho]. inversion Ho as [|? ? Ho' _]; subst. destruct (IH HO) as (ls & EL & CH). pose proof (irun_inv h HO) as II.
      destruct o as [a|now ws].
      + exists (ls ++ []). split; [apply log_irun_snoc; [exact EL | reflexivity]|]. rewrite irun_step, app_nil_r. cbn [iop_step]. destruct CH as (qs & t & CH & K). exists qs, t. split; [exact CH|].
        destruct (irun conn_new h) as [s ph p|p|e|w]; cbn [iarrive]; try exact K; destruct a; exact K.
      + destruct (istep_took now ws (irun conn_new h) II) as (l & L & _). exists (ls ++ l). split; [apply log_irun_snoc; [exact EL | exact L]|]. rewrite irun_step.
        apply istep_chron; auto. }
  destruct X as (ls & EL & qs & t & CH & K). exists ls, qs, t. split; [exact EL|]. split; [exact CH|].
  destruct (irun conn_new h) as [s ph p|p|e|w]; try exact K. destruct K as (ET & K). split; [destruct ph; subst t; discriminate | exact K].
Qed.
(* connecting to the panel of ExState.v: while the zone statuses are awaited, a zone changes *)
Example C90_example : Forall iop_ok ex_init /\ irun conn_new ex_init = IDone ex_panel /\
  firstn 11 (brief (log_irun ex_init)) =
    [(Debug, "sending initialization message"); (Trace, "sending packet"); (Trace, "received packet"); (Debug, "received reply");
     (Debug, "sending initialization message"); (Trace, "sending packet"); (Trace, "received packet"); (Debug, "received unrelated message while awaiting reply");
     (Trace, "received packet"); (Debug, "received reply"); (Debug, "sending initialization message")]%string.
Proof. split; [exact ex_init_ok|]. split; vm_compute; reflexivity. Qed.

Print Assumptions C90_connecting_log.
