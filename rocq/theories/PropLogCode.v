(* PropLogCode.v: C89: where the arm code shows up in what the bridge logs. *)
From Verif Require Import Base BaseFacts Pkt SpecPkt PktFacts DecodeFacts Msg SpecMsg DecFacts MsgFacts WireFacts IsoFacts
  PropMsg Tokio SpecConn ConnFacts State SpecState StateFacts RunFacts HistFacts ViewFacts ExState PropState PropSink
  Serde SerdeFacts PropSerde Mqtt SpecMqtt MqttFacts PropMqtt PropCode Fmt PropFmt Log SpecTrace PropTrace PropBridgeLog.
From Coq Require Import ZifyBool ZifyNat ZifyN.
Ltac Zify.zify_post_hook ::= Z.div_mod_to_equations.

Lemma same_lines_refl cfg cfg' l : Forall2 (same_line cfg cfg') l l.
Proof. induction l; constructor; [apply Same_all | assumption]. Qed.
Lemma log_poll_sim k k' now p p' : psim k k' p p' -> log_poll_next now p = log_poll_next now p'.
Proof.
  intros (C & E1 & E2 & _). unfold log_poll_next, log_interpret, log_arming. pose proof (poll_next_csim _ _ C) as N. rewrite <- E1, <- E2.
  destruct (conn_poll_next (p_conn p)) as [[c r]|e|w], (conn_poll_next (p_conn p')) as [[c' r']|e'|w']; try contradiction; cbn [bind]; [|congruence ..].
  destruct N as [<- _]. reflexivity.
Qed.
Lemma log_step_sim f cl cfg c b b' i l l' : (forall u, b = Up u -> binv cl cfg u) -> (forall u, b' = Up u -> binv cl (with_code cfg c) u) ->
  bsim cfg (with_code cfg c) b b' -> log_bstep f cfg b i = Ok l -> log_bstep f (with_code cfg c) b' i = Ok l' -> Forall2 (same_line cfg (with_code cfg c)) l l'.
Proof.
  intros BI BI' HS E E'. assert (K : l = l' -> Forall2 (same_line cfg (with_code cfg c)) l l') by (intros ->; apply same_lines_refl).
  destruct b as [s rx|u|lg w], b' as [s' rx'|u'|lg' w']; try contradiction.
  - destruct HS as [<- <-]. apply K. destruct i; cbn [log_bstep] in *; congruence.
  - pose proof HS as (P & M & R & L). specialize (BI u eq_refl). specialize (BI' u' eq_refl).
    pose proof BI as (RC & RG & DC & _ & WF). pose proof BI' as (RC' & RG' & DC' & _ & WF').
    destruct (reachable_inv _ RC) as [I _]. destruct (reachable_inv _ RC') as [I' _].
    destruct i as [a|t pl| |now ws|now| |ws]; cbn [log_bstep] in *; try (apply K; congruence).
    + destruct (u_mode u) eqn:EM, (u_mode u') eqn:EM'; try contradiction; try (apply K; congruence).
      rewrite (log_poll_sim _ _ now _ _ P) in E. apply bind_inv in E as (l1 & EL & E). rewrite EL in E'. cbn [bind] in E'.
      pose proof (poll_next_sim _ _ now _ _ P) as N.
      destruct (poll_next now (u_panel u)) as [[[q r] x]|e|w] eqn:EP, (poll_next now (u_panel u')) as [[[q' r'] x']|e'|w'] eqn:EP'; try contradiction; try (apply K; congruence).
      destruct N as [_ N]. destruct r as [|[[e|e]|]], r' as [|[[e'|e']|]]; try contradiction; try (apply K; congruence).
      destruct N as (N1 & N2 & N3 & N4). apply bind_inv in E as (d & ED & [= <-]). apply bind_inv in E' as (d' & ED' & [= <-]).
      apply Forall2_app; [apply same_lines_refl|]. constructor; [|constructor]. destruct e as [pk m co ch], e' as [pk' m' co' ch']. cbn [e_pkt e_msg e_change e_completes] in *. subst pk' m' ch'.
      destruct co as [m1|], co' as [m1'|]; try contradiction.
      * destruct N4 as (area & level & -> & ->). eapply Same_event; [exact DC | exact DC' | eexists; split; [exact ED | reflexivity] | eexists; split; [exact ED' | reflexivity]].
      * rewrite ED in ED'. injection ED' as <-. apply Same_all.
    + change (topic_prefix (with_code cfg c)) with (topic_prefix cfg) in E'. cbn [with_code areas] in E'. rewrite <- R in E'.
      destruct (u_mode u), (u_mode u'); try contradiction; destruct (u_rx u) as [|[t pl] rx]; apply K; congruence.
    + destruct (u_mode u) as [|k|] eqn:EM, (u_mode u') as [|k'|] eqn:EM'; try contradiction; try (apply K; congruence).
      pose proof (poll_ready_sim _ _ TASK ws _ _ P) as PR. destruct (poll_ready TASK ws (u_panel u)) as [q r] eqn:ER, (poll_ready TASK ws (u_panel u')) as [q' r'] eqn:ER'.
      destruct PR as [PR <-]. destruct r as [|[x|e]]; try (apply K; congruence).
      destruct (ready_idle _ _ _ _ _ ER) as [-> ID]. destruct (ready_idle _ _ _ _ _ ER') as [-> ID']. unfold log_start_send in *. rewrite ID in E. rewrite ID' in E'.
      destruct (to_pkt_spec _ (WF k eq_refl)) as (body & T & W & _). destruct (to_pkt_spec _ (WF' k' eq_refl)) as (body' & T' & W' & _).
      apply bind_inv in E as (d & ED & E). apply bind_inv in E' as (d' & ED' & E'). rewrite T in E. rewrite T' in E'. cbn [bind] in *. injection E as <-. injection E' as <-.
      destruct M as (area & level & M1 & M2). destruct k as [[a1 l1 k1]|]; [|discriminate]. destruct k' as [[a2 l2 k2]|]; [|discriminate].
      cbn [into_msg] in *. injection M1 as -> -> ->. injection M2 as -> -> ->.
      constructor; [|constructor; [|constructor]].
      * eapply Same_command; [exact DC | exact DC' | eexists; split; [exact ED | reflexivity] | eexists; split; [exact ED' | reflexivity]].
      * eapply Same_packet; [exact DC | exact DC' | exact W | exact W' | reflexivity | reflexivity].
  - apply K. cbn [log_bstep] in *. congruence.
Qed.

(* ---- C89 ---- *)
(* the last event of the example of C88 *)
Definition ex_done : Event := Eval vm_compute in
  match poll_next 7 (u_panel (up_of (brun ex_cl ex_cfg (ex_start ++ firstn 4 ex_leak_in)))) with Ok (_, Ready (Some (IoOk e)), _) => e | _ => mkEvent None None None None end.
Definition ex_done_line : entry := Eval vm_compute in
  match Event_dbg ex_done with Ok d => mkEntry Info "panel event" [("panel_event"%string, ByDebug d)] | _ => mkEntry Info "" [] end.
Definition ex_log : list entry := Eval vm_compute in match log_brun ex_foreign ex_cl ex_cfg (ex_start ++ ex_leak_in) with Ok ls => ls | _ => [] end.
(* False as one would like it: the line for the event that completes a command, shown by default, contains the command, with the code. *)
Theorem C89_code_not_logged_refuted : exists f cl cfg is ls l e area level k, code cfg < 1000000 /\ Forall input_ok is /\ log_brun f cl cfg is = Ok ls /\
  In l ls /\ loud l = true /\ says_event e l /\ e_completes e = Some (MArmRequest (mkArmRequest area level k)) /\ dec_canon 6 (code cfg) k.
Proof.
  exists ex_foreign, ex_cl, ex_cfg, (ex_start ++ ex_leak_in), ex_log, ex_done_line, ex_done, 1, AL_ArmedAway, (B "001234").
  split; [reflexivity|]. split; [exact ex_leak_ok|]. split; [vm_compute; reflexivity|]. split; [apply (nth_error_In _ 36); vm_compute; reflexivity|].
  split; [reflexivity|]. split; [eexists; split; vm_compute; reflexivity|]. split; [vm_compute; reflexivity|]. vm_compute. repeat split; repeat constructor; discriminate.
Qed.
(* Two runs that differ only in the configured code log the same lines in the same order, at every level, but for the code in the lines
   about commands sent and in the events that complete them. *)
Theorem C89_code_only_in_commands_partial : forall f cl cfg c is, code cfg < 1000000 -> c < 1000000 -> Forall input_ok is ->
  exists ls ls', log_brun f cl cfg is = Ok ls /\ log_brun f cl (with_code cfg c) is = Ok ls' /\ Forall2 (same_line cfg (with_code cfg c)) ls ls'.
Proof.
  intros f cl cfg c is H H' HI.
  assert (X : bsim cfg (with_code cfg c) (brun cl cfg is) (brun cl (with_code cfg c) is) /\
    exists ls ls', log_brun f cl cfg is = Ok ls /\ log_brun f cl (with_code cfg c) is = Ok ls' /\ Forall2 (same_line cfg (with_code cfg c)) ls ls').
  { revert HI. induction is as [|i is IH] using rev_ind; intros HI.
    - split; [split; reflexivity|]. destruct (C88_bridge_log f cl cfg [] HI) as (ls & E & _). exists ls, ls. split; [exact E|]. split; [exact E | apply same_lines_refl].
    - pose proof HI as HA. apply Forall_app in HI as [HI Hi]. destruct (IH HI) as (BS & ls & ls' & E & E' & F).
      assert (B1 : forall u, brun cl cfg is = Up u -> binv cl cfg u) by (intros u EU; apply (bridge_binv cl cfg is); split; assumption).
      assert (B2 : forall u, brun cl (with_code cfg c) is = Up u -> binv cl (with_code cfg c) u) by (intros u EU; apply (bridge_binv cl (with_code cfg c) is); split; assumption).
      split.
      + rewrite !brun_snoc. apply bsim_step; auto.
        intros s rx now ws p EB ES. pose proof (brun_cases cl cfg is HI) as BC. rewrite EB in BC. destruct BC as (_ & h & HO & -> & _).
        apply (connected_inv p). exists (h ++ [IStep now ws]). split; [apply Forall_app; split; [exact HO | repeat constructor]|]. rewrite irun_step. exact ES.
      + assert (T : forall cfg', exists lx, log_brun f cl cfg' (is ++ [i]) = Ok lx) by (intros cfg'; destruct (C88_bridge_log f cl cfg' _ HA) as (lx & EX & _); eauto).
        assert (Y : forall cfg' l0, log_brun f cl cfg' is = Ok l0 -> exists l, log_bstep f cfg' (brun cl cfg' is) i = Ok l).
        { intros cfg' l0 E0. destruct (T cfg') as (lx & EX). unfold log_brun in *. apply bind_inv in EX as (l1 & E1 & EX). apply bind_inv in EX as (l2 & E2 & _).
          clear - E2. unfold brun. revert E2. generalize (Connecting (init_start conn_new) []) as b. revert l2. induction is as [|j is IH]; intros l2 b E2; cbn [log_bsteps app fold_left] in *.
          - apply bind_inv in E2 as (l & E & _). eauto.
          - apply bind_inv in E2 as (l & _ & E2). apply bind_inv in E2 as (l3 & E2 & _). eapply IH; eauto. }
        destruct (Y _ _ E) as (l & L). destruct (Y _ _ E') as (l' & L'). exists (ls ++ l), (ls' ++ l'). split; [apply log_brun_snoc; assumption|]. split; [apply log_brun_snoc; assumption|].
        apply Forall2_app; [exact F|]. eapply log_step_sim; eauto. }
  apply X.
Qed.
(* Of those, what is shown by default: only the lines for events. *)
Theorem C89_default_log_partial : forall f cl cfg c is, code cfg < 1000000 -> c < 1000000 -> Forall input_ok is ->
  exists ls ls', log_brun f cl cfg is = Ok ls /\ log_brun f cl (with_code cfg c) is = Ok ls' /\
    Forall2 (fun l l' => l = l' \/ exists pkt m change area level k k', dec_canon 6 (code cfg) k /\ dec_canon 6 c k' /\
      says_event (mkEvent pkt m (Some (MArmRequest (mkArmRequest area level k))) change) l /\
      says_event (mkEvent pkt m (Some (MArmRequest (mkArmRequest area level k'))) change) l') (filter loud ls) (filter loud ls').
Proof.
  intros f cl cfg c is H H' HI. destruct (C89_code_only_in_commands_partial f cl cfg c is H H' HI) as (ls & ls' & E & E' & F). exists ls, ls'. split; [exact E|]. split; [exact E'|].
  clear - F. induction F as [|l l' ls ls' S F IH]; [constructor|]. cbn [filter].
  destruct S as [l|pkt m change area level k k' l l' D D' (d & ED & ->) (d' & ED' & ->)|area level k k' l l' D D' (d & ED & ->) (d' & ED' & ->)|area level k k' b b' l l' D D' W W' -> ->].
  - destruct (loud l); [constructor; [left; reflexivity | exact IH] | exact IH].
  - cbn [loud en_level]. constructor; [|exact IH]. right. exists pkt, m, change, area, level, k, k'. split; [exact D|]. split; [exact D'|]. split; eexists; (split; [eassumption | reflexivity]).
  - cbn [loud en_level]. exact IH.
  - cbn [loud en_level]. exact IH.
Qed.

Example C89_example : Forall input_ok (ex_start ++ ex_leak_in) /\ code ex_cfg < 1000000 /\
  log_brun ex_foreign ex_cl ex_cfg (ex_start ++ ex_leak_in) <> log_brun ex_foreign ex_cl (with_code ex_cfg 987654) (ex_start ++ ex_leak_in).
Proof. split; [exact ex_leak_ok|]. split; [reflexivity|]. vm_compute. discriminate. Qed.

Print Assumptions C89_code_not_logged_refuted.
Print Assumptions C89_code_only_in_commands_partial.
Print Assumptions C89_default_log_partial.
