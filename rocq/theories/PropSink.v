(* PropSink.v: theorems C39-C44 about Panel as a sink of commands (state.rs). *)
From Verif Require Import Base BaseFacts Pkt SpecPkt PktFacts DecodeFacts Msg SpecMsg DecFacts MsgFacts WireFacts IsoFacts
  Tokio SpecConn ConnFacts State SpecState StateFacts RunFacts HistFacts ViewFacts ExState PropState.
From Coq Require Import ZifyBool ZifyNat ZifyN.
Ltac Zify.zify_post_hook ::= Z.div_mod_to_equations.

(* what a poll does to the outstanding command *)
Lemma event_cmd now p p' r w e : poll_case now p p' r w -> yields r e ->
  match cmd_state p with
  | Idle => cmd_state p' = Idle /\ e_completes e = None /\ w = None
  | Busy q f k =>
      (exists m, e_msg e = Some (inl m) /\ replies m q /\ cmd_state p' = Idle /\ e_completes e = Some q /\ w = k) \/
      ((forall m, e_msg e = Some (inl m) -> ~ replies m q) /\ cmd_state p' = Busy q f k /\ e_completes e = None /\ w = None)
  end.
Proof.
  intros PC Y. destruct (poll_event _ _ _ _ _ _ PC Y) as [(pkt & m & E1 & E2 & W & E3 & _ & _ & R)|[(pkt & E1 & E2 & E3 & EQ & _ & E4 & ->)|(d & m & prior & -> & _ & _ & _ & EQ & -> & _)]].
  - unfold reply_effect in R. destruct (cmd_state p) as [|q f k]; [exact R|]. destruct R as [(R1 & R2 & R3 & R4)|(R1 & R2 & R3 & R4)].
    + left. exists m. apply is_response_spec in R1. auto.
    + right. split; [|auto]. intros m' Em. rewrite E3 in Em. injection Em as <-. intros Rp. apply is_response_spec in Rp. congruence.
  - assert (EC : cmd_state p' = cmd_state p) by (rewrite EQ; reflexivity). rewrite EC.
    destruct (cmd_state p) as [|q f k]; [auto|]. right. split; [|auto]. intros m Em. rewrite Em in E3. unfold parse_result in E3. unfold message_of in E2.
    destruct (parse pkt) as [[?|]|?|?]; congruence.
  - assert (EC : cmd_state p' = cmd_state p) by (rewrite EQ; reflexivity). rewrite EC.
    destruct (cmd_state p) as [|q f k]; [auto|]. right. split; [|auto]. discriminate.
Qed.
Lemma completes_event b e : events [b] = [e] -> completions [b] = catMaybes [e_completes e].
Proof. unfold completions. intros ->. reflexivity. Qed.
Lemma completes_none b : events [b] = [] -> completions [b] = [].
Proof. unfold completions. intros ->. reflexivity. Qed.

Lemma step_outstanding p o p' b : stepped p o p' b -> pinv p ->
  outstanding p ++ map into_msg (accepted [o]) = completions [b] ++ outstanding p'.
Proof.
  intros S I. unfold outstanding.
  destruct o as [a|now|w ws|c|ws|ws]; cbn [stepped] in S.
  - destruct S as [-> ->]. cbn. rewrite app_nil_r. reflexivity.
  - cbn [accepted map catMaybes]. rewrite app_nil_r. destruct S as (r & w & -> & P). pose proof (polled_case _ _ _ _ _ P I) as PC.
    destruct (yields_dec r) as [(e & Y)|NY].
    + rewrite (completes_event _ e) by (unfold yields in Y; subst r; reflexivity).
      pose proof (event_cmd _ _ _ _ _ _ PC Y) as H. destruct (cmd_state p) as [|q f k].
      * destruct H as (-> & -> & _). reflexivity.
      * destruct H as [(m & _ & _ & -> & -> & _)|(_ & -> & -> & _)]; reflexivity.
    + destruct (poll_no_event _ _ _ _ _ PC NY) as [EQ _]. rewrite completes_none; [rewrite EQ; reflexivity|].
      destruct r as [|[[e|er]|]]; try reflexivity. elim (NY e eq_refl).
  - destruct S as (r & -> & _ & _ & S). cbn. rewrite app_nil_r. destruct (cmd_state p) as [|q f k] eqn:EC.
    + destruct S as [-> _]. rewrite EC. reflexivity.
    + destruct S as (_ & f' & k' & -> & _). reflexivity.
  - destruct S as (-> & -> & _ & -> & _). reflexivity.
  - destruct S as (r & -> & _ & _ & S). cbn. rewrite app_nil_r. destruct (cmd_state p) as [|q f k] eqn:EC.
    + destruct S as [-> _]. rewrite EC. reflexivity.
    + destruct S as (f' & -> & _). reflexivity.
  - destruct S as (r & -> & _ & _ & _ & S). cbn. rewrite app_nil_r. destruct (cmd_state p) as [|q f k] eqn:EC.
    + rewrite S. reflexivity.
    + destruct S as (f' & ->). reflexivity.
Qed.

(* ---- C39 ---- *)
(* The accepted commands are the completed ones, in order, and at most one more (rest); poll_ready is ready exactly when
   there is none. *)
Theorem C39_commands_complete_in_order : forall p0 h p bs, connected p0 -> Forall op_ok h -> run p0 h = Ok (p, bs) ->
  exists rest, map into_msg (accepted h) = completions bs ++ rest /\ (length rest <= 1)%nat /\
    (forall w ws p' r, poll_ready w ws p = (p', r) -> (r = Ready (IoOk tt) <-> rest = [])).
Proof.
  intros p0 h p bs C HO E. destruct (connected_inv _ C) as (I0 & C0 & _).
  assert (X : map into_msg (accepted h) = completions bs ++ outstanding p).
  { refine (proj2 (run_ind (fun h bs p => map into_msg (accepted h) = completions bs ++ outstanding p) p0 I0 _ _ h bs p HO E)).
    { unfold outstanding. rewrite C0. reflexivity. }
    clear. intros h bs p o p' b _ _ Ip IH _ _ _ S. rewrite accepted_app, map_app, completions_app, IH, <- !app_assoc. f_equal.
    apply step_outstanding; auto. }
  exists (outstanding p). split; [exact X|]. unfold outstanding. pose proof (run_pinv _ _ _ _ I0 HO E) as I. split.
  - destruct (cmd_state p); cbn; lia.
  - intros w ws p' r EP. destruct (poll_ready_spec _ _ _ _ _ EP I) as (_ & _ & _ & H). destruct (cmd_state p) as [|q f k].
    + destruct H as [_ ->]. split; reflexivity.
    + destruct H as [H _]. split; [contradiction | discriminate].
Qed.
(* While q is outstanding, an event completes it exactly when its message is a reply to q; nothing else is ever completed. *)
Theorem C39_completed_by_its_reply : forall p now p' r w e, reachable p -> poll_next now p = Ok (p', r, w) -> yields r e ->
  match outstanding p with
  | q :: _ => (e_completes e = Some q <-> exists m, e_msg e = Some (inl m) /\ replies m q) /\ (e_completes e = Some q \/ e_completes e = None)
  | [] => e_completes e = None
  end.
Proof.
  intros p now p' r w e R E Y. destruct (reachable_inv _ R) as [I _]. pose proof (poll_next_case _ _ _ _ _ I E) as PC.
  pose proof (event_cmd _ _ _ _ _ _ PC Y) as H. unfold outstanding. destruct (cmd_state p) as [|q f k]; [tauto|].
  destruct H as [(m & H1 & H2 & _ & H3 & _)|(H1 & _ & H3 & _)]; rewrite H3; (split; [split|auto]); try discriminate; eauto.
  intros (m & M1 & M2). elim (H1 m M1 M2).
Qed.

(* ---- C40 ---- *)
(* A step panics exactly when it is start_send with a command outstanding. *)
Theorem C40_only_panic : forall p o, reachable p -> op_ok o ->
  ((forall p' b, step p o <> Ok (p', b)) <-> exists c q, o = StartSend c /\ outstanding p = [q]) /\
  (forall e, step p o <> Err e).
Proof.
  intros p o R HO. destruct (reachable_inv _ R) as [I _]. unfold outstanding.
  destruct (step_spec p o I HO) as [(c & q & f & k & -> & EC & why & E)|(p' & b & E & _ & S)]; rewrite E.
  - split; [|congruence]. split; [intros _|congruence]. exists c, q. rewrite EC. auto.
  - split; [|congruence]. split; [intros H; elim (H p' b eq_refl)|]. intros (c & q & -> & EO). cbn [stepped] in S.
    destruct S as (_ & EC & _). rewrite EC in EO. discriminate.
Qed.
(* granted h bs: since the last start_send (if any), poll_ready has answered Ready(Ok) *)
Fixpoint granted (g : bool) (h : list op) (bs : list obs) : bool :=
  match h, bs with
  | StartSend _ :: h', _ :: bs' => granted false h' bs'
  | PollReady _ _ :: h', OSink (Ready (IoOk _)) :: bs' => granted true h' bs'
  | _ :: h', _ :: bs' => granted g h' bs'
  | _, _ => g
  end.
(* the caller respects Sink's contract *)
Definition respects (p0 : Panel) (h : list op) : Prop :=
  forall h1 c h2, h = h1 ++ StartSend c :: h2 -> forall p bs, run p0 h1 = Ok (p, bs) -> granted false h1 bs = true.
Lemma granted_snoc h : forall g bs o b, length h = length bs ->
  granted g (h ++ [o]) (bs ++ [b]) =
  match o with StartSend _ => false | PollReady _ _ => (match b with OSink (Ready (IoOk _)) => true | _ => granted g h bs end) | _ => granted g h bs end.
Proof.
  induction h as [|o' h IH]; intros g bs o b L; destruct bs as [|b' bs]; try discriminate L.
  - destruct o; reflexivity.
  - injection L as L. cbn [app granted]. destruct o'; try apply IH; auto. destruct b' as [| |[|[]]]; apply IH; auto.
Qed.
Lemma run_length h : forall p p' bs, run p h = Ok (p', bs) -> length h = length bs.
Proof.
  induction h as [|o h IH]; intros p p' bs E; cbn [run] in E; [injection E as <- <-; reflexivity|].
  apply bind_inv in E as ([p1 b] & _ & E). apply bind_inv in E as ([p2 bs2] & E2 & [= <- <-]). cbn. f_equal. eauto.
Qed.
Lemma granted_idle p0 h p bs : pinv p0 -> Forall op_ok h -> run p0 h = Ok (p, bs) -> granted false h bs = true -> cmd_state p = Idle.
Proof.
  intros I HO E. refine (proj2 (run_ind (fun h bs p => granted false h bs = true -> cmd_state p = Idle) p0 I _ _ h bs p HO E)); [discriminate|].
  clear. intros h bs p o p' b E _ Ip IH _ _ _ S. rewrite granted_snoc by (eapply run_length; eauto).
  destruct o as [a|now|w ws|c|ws|ws]; cbn [stepped] in S; try discriminate.
  - destruct S as [_ ->]. exact IH.
  - destruct S as (r & w & -> & P). intros G. specialize (IH G). pose proof (polled_case _ _ _ _ _ P Ip) as PC. destruct (yields_dec r) as [(e & Y)|NY].
    + pose proof (event_cmd _ _ _ _ _ _ PC Y) as H. rewrite IH in H. tauto.
    + destruct (poll_no_event _ _ _ _ _ PC NY) as [EQ _]. rewrite EQ. exact IH.
  - destruct S as (r & -> & _ & _ & S). destruct (cmd_state p) as [|q f k] eqn:EC.
    + destruct S as [-> _]. auto.
    + destruct S as (N & _). destruct r as [|[[]|]]; [intros G; discriminate (IH G)|congruence|intros G; discriminate (IH G)].
  - destruct S as (r & -> & _ & _ & S). intros G. rewrite (IH G) in S. destruct S as [-> _]. auto.
  - destruct S as (r & -> & _ & _ & _ & S). intros G. rewrite (IH G) in S. exact S.
Qed.
Theorem C40_contract_never_panics : forall p0 h, connected p0 -> Forall op_ok h -> respects p0 h ->
  exists p bs, run p0 h = Ok (p, bs).
Proof.
  intros p0 h C. destruct (connected_inv _ C) as (I0 & _). induction h as [|o h IH] using rev_ind; intros HO RS; [exists p0, []; reflexivity|].
  apply Forall_app in HO as [HO Ho]. inversion Ho as [|? ? Oo _]; subst.
  destruct IH as (p & bs & E); [exact HO| |].
  { intros h1 c h2 -> p bs E. eapply RS; [|exact E]. rewrite <- app_assoc. reflexivity. }
  pose proof (run_pinv _ _ _ _ I0 HO E) as I. rewrite run_app, E. cbn [bind run].
  destruct (step_spec p o I Oo) as [(c & q & f & k & -> & EC & _)|(p' & b & -> & _)].
  - pose proof (granted_idle _ _ _ _ I0 HO E (RS h c [] eq_refl _ _ E)). congruence.
  - cbn [bind]. eauto.
Qed.

(* ---- C41 ---- *)
(* The task w is told to wait with everything written; it is the last to ask; the poll that completes the command wakes it. *)
Definition is_poll_ready (o : op) : bool := match o with PollReady _ _ => true | _ => false end.
Theorem C41_last_waiter_woken : forall p w ws p1 h p2 bs now p3 r woken e,
  reachable p -> poll_ready w ws p = (p1, Pending) -> wbuf (p_conn p1) = [] ->
  Forall op_ok h -> forallb (fun o => negb (is_poll_ready o)) h = true -> run p1 h = Ok (p2, bs) -> completions bs = [] ->
  poll_next now p2 = Ok (p3, r, woken) -> yields r e ->
  (e_completes e <> None -> woken = Some w) /\ (e_completes e = None -> woken = None).
Proof.
  intros p w ws p1 h p2 bs now p3 r woken e R EP EW HO NP E CN EN Y. destruct (reachable_inv _ R) as [I _].
  destruct (poll_ready_spec _ _ _ _ _ EP I) as (I1 & _ & _ & H).
  assert (B1 : exists q f, cmd_state p1 = Busy q f (Some w)).
  { destruct (cmd_state p) as [|q f k]; [destruct H; discriminate|]. destruct H as (_ & f' & k' & H1 & H2 & _). exists q, f'. rewrite (H2 eq_refl EW) in H1. exact H1. }
  assert (B2 : pinv p2 /\ (forallb (fun o => negb (is_poll_ready o)) h = true -> completions bs = [] -> exists q f, cmd_state p2 = Busy q f (Some w))).
  { refine (run_ind (fun h bs p => forallb (fun o => negb (is_poll_ready o)) h = true -> completions bs = [] -> exists q f, cmd_state p = Busy q f (Some w)) p1 I1 _ _ h bs p2 HO E); [auto|].
    clear. intros h bs p o p' b _ _ Ip IH _ _ _ S. rewrite forallb_app, completions_app. intros NP CN.
    apply andb_prop in NP as [NP1 NP2]. apply app_eq_nil in CN as [CN1 CN2]. destruct (IH NP1 CN1) as (q & f & EC). clear IH.
    destruct o as [a|now|w' ws|c|ws|ws]; cbn [stepped] in S; try discriminate NP2.
    - destruct S as [_ ->]. eauto.
    - destruct S as (r & w' & -> & P). pose proof (polled_case _ _ _ _ _ P Ip) as PC. destruct (yields_dec r) as [(e & Y)|NY].
      + rewrite (completes_event _ e) in CN2 by (unfold yields in Y; subst r; reflexivity).
        pose proof (event_cmd _ _ _ _ _ _ PC Y) as H. rewrite EC in H. destruct H as [(m & _ & _ & _ & H & _)|(_ & H & _)]; [|eauto].
        rewrite H in CN2. discriminate.
      + destruct (poll_no_event _ _ _ _ _ PC NY) as [EQ _]. rewrite EQ. eauto.
    - destruct S as (_ & S & _). congruence.
    - destruct S as (r & _ & _ & _ & S). rewrite EC in S. destruct S as (f' & S & _). eauto.
    - destruct S as (r & _ & _ & _ & _ & S). rewrite EC in S. destruct S as (f' & S). eauto. }
  destruct B2 as [I2 B2]. destruct (B2 NP CN) as (q & f & EC). pose proof (poll_next_case _ _ _ _ _ I2 EN) as PC.
  clear H. pose proof (event_cmd _ _ _ _ _ _ PC Y) as H. rewrite EC in H. destruct H as [(m & _ & _ & _ & H & ->)|(_ & _ & H & ->)]; rewrite H; split; congruence.
Qed.

(* ---- C42 ---- *)
(* What the socket has been given, followed by what is buffered, is what it had been given during connect followed by the
   frames of the accepted commands, in order. *)
Lemma wire_run p0 h p bs : pinv p0 -> Forall op_ok h -> run p0 h = Ok (p, bs) ->
  exists fs, Forall2 command_frame (accepted h) fs /\ written (p_conn p) = written (p_conn p0) ++ concat fs.
Proof.
  intros I0 HO E.
  refine (proj2 (run_ind (fun h _ p => exists fs, Forall2 command_frame (accepted h) fs /\ written (p_conn p) = written (p_conn p0) ++ concat fs) p0 I0 _ _ h bs p HO E)).
  { exists []. split; [constructor|]. symmetry. apply app_nil_r. }
  clear. intros h bs p o p' b _ _ Ip (fs & F & W) _ _ _ S. rewrite accepted_app.
  assert (K : accepted [o] = [] -> written (p_conn p') = written (p_conn p) ->
    exists fs, Forall2 command_frame (accepted h ++ accepted [o]) fs /\ written (p_conn p') = written (p_conn p0) ++ concat fs).
  { intros -> Ew. exists fs. rewrite app_nil_r. split; [exact F|]. congruence. }
  destruct o as [a|now|w ws|c|ws|ws]; cbn [stepped] in S.
  - destruct S as [_ ->]. apply K; reflexivity.
  - destruct S as (r & w & _ & (rc & X & _)). apply K; [reflexivity|]. destruct (nexts_same_write _ _ _ X) as (W1 & W2 & _).
    unfold written. congruence.
  - destruct S as (r & _ & _ & S & _). apply K; [reflexivity | exact S].
  - destruct S as (_ & _ & _ & _ & f & Ff & S1 & S2). exists (fs ++ [f]). split; [apply Forall2_app; [exact F|]; constructor; [exact Ff | constructor]|].
    unfold written in *. rewrite S1, S2, app_assoc, W, concat_app. cbn. rewrite app_nil_r, <- !app_assoc. reflexivity.
  - destruct S as (r & _ & _ & S & _). apply K; [reflexivity | exact S].
  - destruct S as (r & _ & _ & S & _). apply K; [reflexivity | exact S].
Qed.
Theorem C42_wire_is_the_commands : forall p0 h p bs, connected p0 -> Forall op_ok h -> run p0 h = Ok (p, bs) ->
  exists fs, Forall2 command_frame (accepted h) fs /\
    sent (p_conn p) ++ wbuf (p_conn p) = sent (p_conn p0) ++ concat fs.
Proof.
  intros p0 h p bs C HO E. destruct (connected_inv _ C) as (I0 & _ & _ & W0). destruct (wire_run _ _ _ _ I0 HO E) as (fs & F & W).
  exists fs. split; [exact F|]. unfold written in W. rewrite W, W0, app_nil_r. reflexivity.
Qed.

(* ---- C43 ---- *)
(* False as stated: when the reply comes before the command was flushed, the panel forgets that it has bytes to write. *)
Definition ex_cmd : Command := CmdActivateTask 5.
Definition ex_early_reply : list op := [StartSend ex_cmd; got (MTaskChange 5); PollNext 0].
Lemma ex_early_ok : Forall op_ok ex_early_reply.
Proof.
  repeat constructor; cbn; lia.
Qed.
Theorem C43_flush_means_written_refuted :
  exists p p', reachable p /\ poll_flush [WAccept 100] p = (p', Ready (IoOk tt)) /\ wbuf (p_conn p') = bytes_of (into_msg ex_cmd).
Proof.
  eexists _, _. split; [exists ex_panel, ex_early_reply; eexists; split; [exact ex_connected|]; split; [exact ex_early_ok | vm_compute; reflexivity]|].
  split; [reflexivity|]. vm_compute. reflexivity.
Qed.
(* True as long as the command is outstanding. *)
Theorem C43_flush_means_written_partial : forall p ws p', reachable p -> outstanding p <> [] ->
  poll_flush ws p = (p', Ready (IoOk tt)) -> wbuf (p_conn p') = [].
Proof.
  intros p ws p' R NO E. destruct (reachable_inv _ R) as [I _]. destruct (poll_flush_spec _ _ _ _ E I) as (_ & _ & _ & H).
  unfold outstanding in NO. destruct (cmd_state p) as [|q f k]; [congruence|]. destruct H as (f' & _ & H). auto.
Qed.

(* ---- C44 ---- *)
(* False as stated: the connection is never shut down. *)
Theorem C44_close_shuts_down_refuted :
  (exists p p', reachable p /\ poll_close [] p = (p', Ready (IoOk tt)) /\ shut (p_conn p') = false) /\
  forall p ws p' r, reachable p -> poll_close ws p = (p', r) -> shut (p_conn p') = shut (p_conn p).
Proof.
  split.
  - exists ex_panel, ex_panel. split; [apply connected_reachable, ex_connected|]. split; vm_compute; reflexivity.
  - intros p ws p' r R E. destruct (reachable_inv _ R) as [I _]. destruct (poll_close_spec _ _ _ _ E I) as (_ & (_ & _ & _ & S) & _). exact S.
Qed.
(* What it does do: everything is written. *)
Theorem C44_close_flushes_partial : forall p ws p', reachable p -> poll_close ws p = (p', Ready (IoOk tt)) -> wbuf (p_conn p') = [].
Proof. intros p ws p' R E. destruct (reachable_inv _ R) as [I _]. destruct (poll_close_spec _ _ _ _ E I) as (_ & _ & _ & H & _). auto. Qed.

(* ---- examples ---- *)
Definition ex_commands : list op :=
  [PollReady 1 []; StartSend ex_cmd; PollReady 1 [WAccept 3; WPending]; PollReady 2 [WAccept 100]; got (MZoneChange (mkZC 1 3)); PollNext 0;
   got (MTaskChange 5); PollNext 0; PollReady 2 []; StartSend (CmdArm (mkArmRequest 1 AL_ArmedAway (B "123456"))); PollFlush [WAccept 4; WErr "x"]].
Example C39_C40_C41_C42_example :
  match run ex_panel ex_commands with
  | Ok (p, bs) => Some (bs, length (completions bs), skipn (length (sent (p_conn ex_panel))) (sent (p_conn p)), wbuf (p_conn p), granted false (firstn 9 ex_commands) (firstn 9 bs))
  | _ => None
  end =
  Some ([OSink (Ready (IoOk tt)); ONone; OSink Pending; OSink Pending; ONone;
         ONext (Ready (Some (IoOk (mkEvent (Some (PAscii (B "ZC001300"))) (Some (inl (MZoneChange (mkZC 1 3)))) None (Some (CZoneChange 1 2)))))) None; ONone;
         ONext (Ready (Some (IoOk (mkEvent (Some (PAscii (B "TC005000"))) (Some (inl (MTaskChange 5))) (Some (MActivateTask 5)) None)))) (Some 2%nat);
         OSink (Ready (IoOk tt)); ONone; OSink (Ready (IoErr "x"))],
        1%nat, B "09tn00500C0" ++ [13; 10] ++ B "0Da1", B "11234560034" ++ [13; 10], true).
Proof. vm_compute. reflexivity. Qed.

Print Assumptions C39_commands_complete_in_order.
Print Assumptions C39_completed_by_its_reply.
Print Assumptions C40_only_panic.
Print Assumptions C40_contract_never_panics.
Print Assumptions C41_last_waiter_woken.
Print Assumptions C42_wire_is_the_commands.
Print Assumptions C43_flush_means_written_refuted.
Print Assumptions C43_flush_means_written_partial.
Print Assumptions C44_close_shuts_down_refuted.
Print Assumptions C44_close_flushes_partial.
