(* PropProgram.v: C99. *)
From Verif Require Import Base BaseFacts Pkt SpecPkt PktFacts DecodeFacts Msg SpecMsg DecFacts MsgFacts WireFacts IsoFacts
  PropMsg Tokio SpecConn ConnFacts State SpecState StateFacts RunFacts HistFacts ViewFacts ExState PropState PropSink PropLive
  Serde SerdeFacts PropSerde SpecInit InitFacts PropConnect SpecSend SendFacts PropSend Mqtt SpecMqtt MqttFacts PropMqtt PropEnd SpecServe ServeFacts PropServe
  SpecProgram ProgramFacts.
From Coq Require Import ZifyBool ZifyNat ZifyN.
Ltac Zify.zify_post_hook ::= Z.div_mod_to_equations.

(* The program never stops: it is connecting or in its loop, and while it connects it has been given no event. *)
Theorem C99_never_stops : forall nm cl cfg (may : packet -> Prop) v, well_configured cl cfg -> gets_to nm cl cfg may v ->
  (exists s ph p rx, v_bridge v = Connecting (IRun s ph p) rx /\ v_events v = []) \/
  (exists u, v_bridge v = Up u /\ In (APublish (topic_prefix cfg ++ B "/availability") true (PText (B "online"))) (u_log u)).
Proof.
  intros nm cl cfg may v WC G. destruct (program_cases nm cl cfg may WC v G) as [(V & i & rx & is & h & os & E1 & _ & _ & _ & T & _ & _ & _ & _ & EV)|(v0 & u0 & u & l & C & S & L)].
  - left. destruct (tracked_running _ _ _ _ T) as (s & ph & p & ->). eauto 6.
  - right. destruct S as (EB & _ & _ & _ & _ & _ & _ & (lg & EL & _)). exists u. split; [exact EB|]. rewrite EL. apply in_or_app. left. apply C.
Qed.
(* Commands are completed in the order they were asked for, also those asked for while it still connects; all but one are completed. *)
Theorem C99_in_order : forall nm cl cfg (may : packet -> Prop) v, well_configured cl cfg -> gets_to nm cl cfg may v ->
  exists rx os out, ((exists i, v_bridge v = Connecting i rx) /\ out = [] /\ completed (v_events v) = [] \/
      exists u, v_bridge v = Up u /\ u_rx u = rx /\ out = outstanding (u_panel u) ++ map into_msg (waiting u)) /\
    Forall2 (asked cfg) rx os /\ map into_msg (v_asked v) = completed (v_events v) ++ out ++ map into_msg (catMaybes os) /\
    (length out + length (catMaybes os) <= 1)%nat.
Proof.
  intros nm cl cfg may v WC G. destruct (program_cases nm cl cfg may WC v G) as [(V & i & rx & is & h & os & E1 & _ & _ & _ & T & F & EA & _ & L & EV)|(v0 & u0 & u & l & C & S & L)].
  - exists rx, os, []. rewrite EV, EA in *. split; [left; split; [exists i; exact E1 | auto]|]. split; [exact F|]. split; [reflexivity | exact L].
  - pose proof C as (_ & _ & HL & _ & O0 & _ & _ & _ & (pk & U & _) & _).
    destruct (sv_inv _ _ _ _ _ _ _ HL O0 U _ _ _ S) as (BI & _ & _ & EL & L1). destruct S as (E1 & _ & _ & E4 & E5 & _). cbn [sh v_asked v_events v_bridge] in *.
    destruct (wants_asked _ _ _ BI E5) as (os & F & EO). exists (u_rx u), os, (outstanding (u_panel u) ++ map into_msg (waiting u)).
    split; [right; exists u; auto|]. split; [exact F|]. rewrite EO, E4, map_app, EL, <- !app_assoc, app_length, map_length. split; [reflexivity | lia].
Qed.
(* What the bridge has written to the panel are its requests for states and names, each at most once and in order, and then the
   commands asked for, each once and in order; those that are complete, and the one under way if any, are written. *)
Theorem C99_what_is_written : forall nm cl cfg (may : packet -> Prop) v u, well_configured cl cfg -> gets_to nm cl cfg may v -> v_bridge v = Up u ->
  exists qs fs cs gs later, Forall2 request_frame qs fs /\ in_order qs /\ Forall2 command_frame cs gs /\
    written (p_conn (u_panel u)) = concat fs ++ concat gs /\ v_asked v = cs ++ later /\
    map into_msg cs = completed (v_events v) ++ outstanding (u_panel u).
Proof.
  intros nm cl cfg may v u WC G EU. destruct (program_cases nm cl cfg may WC v G) as [(V & i & rx & is & h & os & E1 & _)|(v0 & u0 & u' & l & C & S & L)]; [congruence|].
  destruct (base_is _ _ _ _ _ C) as (qs & fs & F & O & EB & _). destruct (from_written _ _ _ _ _ _ C _ _ _ S) as (acc & todo & gs & -> & FC & _ & W & EO).
  destruct S as (E1 & _ & _ & E4 & _). cbn [sh v_bridge v_asked] in *. assert (u' = u) by congruence. subst u'.
  exists qs, fs, acc, gs, (todo ++ wants cfg u). rewrite EB in W. rewrite <- app_assoc in E4. auto 10.
Qed.
(* Every event Panel has yielded has been published on the event topic, in order, in a form it can be read back from, and nothing
   else has been published unretained. *)
Theorem C99_published : forall nm cl cfg (may : packet -> Prop) v u, well_configured cl cfg -> gets_to nm cl cfg may v -> v_bridge v = Up u ->
  Forall2 (fun e a => exists j, Event_ser e = Ok j /\ Event_de FromText j = Ok e /\ a = APublish (topic_prefix cfg ++ B "/event") false (PJson j))
    (v_events v) (filter is_event_pub (u_log u)).
Proof.
  intros nm cl cfg may v u WC G EU. destruct (program_cases nm cl cfg may WC v G) as [(V & i & rx & is & h & os & E1 & _)|(v0 & u0 & u' & l & C & S & L)]; [congruence|].
  destruct S as (E1 & _ & _ & _ & _ & _ & _ & lg & EL & F). cbn [sh v_bridge v_events] in *. assert (u' = u) by congruence. subst u'.
  destruct C as (_ & _ & _ & _ & _ & _ & _ & _ & _ & _ & _ & _ & _ & NE & _). rewrite EL, filter_app, NE. exact F.
Qed.
(* If the bridge's task keeps running, the panel answers what it receives and the network delivers what is sent, then from some time
   on the bridge is in its loop, has published that it is online, and has completed every command asked for until any given time. *)
Theorem C99_all_completed : forall nm cl cfg (may : packet -> Prop) vs acts k, well_configured cl cfg ->
  goes_on nm cl cfg may vs acts -> fair_program vs acts ->
  exists n, forall m, (n <= m)%nat -> exists u later, v_bridge (vs m) = Up u /\
    In (APublish (topic_prefix cfg ++ B "/availability") true (PText (B "online"))) (u_log u) /\
    completed (v_events (vs m)) = map into_msg (v_asked (vs k)) ++ later.
Proof.
  intros nm cl cfg may vs acts k WC (E0 & X) (F0 & F1 & F2 & F3 & F4 & F5). eapply program_completes; eauto.
Qed.

(* The configuration of PropMqtt.v and the panel of PropConnect.v.  Before the bridge is connected a zone changes and arming away is
   asked for.  When it is up the command is written in two pieces while a zone changes, and answered; then disarming is asked for. *)
Inductive pmv : Type := QConnect | QDo (y : smv).
Definition all_requests : list message := ex_requests ++ map into_msg ex_asked.
Definition all_answers : list message := ex_answers ++ [ex_answer; ex_answer].
Definition panel_answer (v : service) : message := nth (v_replied v) all_answers MRtcRequest.
Definition pgo (v : service) (q : pmv) : service :=
  match q with
  | QConnect => mkService (bstep ex_cl ex_cfg (v_bridge v) (PollConnect 0 [WAccept 100])) (v_net v) (v_replied v) (v_asked v) (v_events v)
  | QDo YReply => mkService (v_bridge v) (v_net v ++ bytes_of (panel_answer v)) (S (v_replied v)) (v_asked v) (v_events v)
  | QDo y => sgo v y
  end.
Definition pmove_of (q : pmv) : pmove := match q with QConnect => PConnect 0 [WAccept 100] | QDo y => PDo (smove_of y) end.
Definition can_go (v : service) (q : pmv) : bool :=
  match q with
  | QConnect => true
  | QDo YReply => (v_replied v <? length all_requests)%nat && bytes_eqb (put_by (v_bridge v)) (concat (map bytes_of (firstn (S (v_replied v)) all_requests)))
  | QDo y => can_serve v y
  end.
Fixpoint can_all (v : service) (qs : list pmv) : bool := match qs with [] => true | q :: qs' => can_go v q && can_all (pgo v q) qs' end.
Definition ex_program : list pmv :=
  [QDo YUnasked; QDo YArm] ++ concat (repeat [QConnect; QConnect; QConnect; QDo YReply; QDo (YDeliver 999); QConnect] 7) ++ [QConnect; QConnect] ++
  map QDo [YPanel; YRx; YSend 4; YUnasked; YDeliver 3; YPanel; YSend 99; YReply; YPanel; YDeliver 20; YPanel; YPanel; YDeliver 99; YPanel;
           YOther; YDisarm; YRx; YRx; YSend 99; YPanel; YReply; YDeliver 99; YPanel; YPanel].
Definition ex_finally : service := Eval vm_compute in fold_left pgo ex_program program_new.
Definition ex_state (n : nat) : service := if (n <? length ex_program)%nat then fold_left pgo (firstn n ex_program) program_new else ex_finally.
Definition ex_idle (n : nat) : pmv := match Nat.modulo n 3 with O => QDo YPanel | 1%nat => QDo YRx | _ => QDo (YSend 99) end.
Definition ex_move (n : nat) : pmv := nth n ex_program (ex_idle n).
Lemma serves_base cl cfg may b b' v a v' : serves cl cfg may b v a v' -> a <> SReply -> serves cl cfg may b' v a v'.
Proof. intros H N. destruct H as [now| |ws HW|t pl o RD AS PT|pkt f Vp Mp Hp Fp|q m body f NR RP G Hb HF|y z EN Ny|]; try (econstructor; eassumption). congruence. Qed.
Lemma all_requests_ok : Forall wf_message all_requests.
Proof. apply Forall_app. split; [exact ex_requests_ok | apply Forall_map; exact ex_asked_ok]. Qed.
Lemma all_answers_ok : Forall wf_message all_answers.
Proof. apply Forall_app. split; [exact ex_answers_ok | repeat constructor; discriminate]. Qed.
Lemma all_answers_right : Forall2 (answered ex_naming) all_requests all_answers.
Proof.
  apply Forall2_app.
  - pose proof ex_answers_right as F. revert F. generalize ex_requests ex_answers. intros qs ms F. induction F as [|q m qs ms H F IH]; constructor; [|exact IH].
    destruct q; try exact H; destruct m; cbn in *; tauto.
  - repeat constructor.
Qed.
Lemma can_goes v q : can_go v q = true -> goes ex_naming ex_cl ex_cfg ex_may v (pmove_of q) (pgo v q).
Proof.
  destruct q as [|y]; intros H; [constructor; repeat constructor; discriminate|].
  assert (Do : y <> YUnasked -> y <> YReply -> goes ex_naming ex_cl ex_cfg ex_may v (PDo (smove_of y)) (sgo v y)).
  { intros N1 N2. apply G_serve; [destruct y; congruence || discriminate | destruct y; congruence || discriminate|].
    apply (serves_base _ _ _ (base_of (u_panel ex_up))); [|destruct y; congruence || discriminate]. apply can_serves. destruct y; try exact H. congruence. }
  destruct y as [| |n| | | | | |n]; try (apply Do; discriminate); clear Do; cbn [pmove_of smove_of pgo sgo can_go] in *.
  - assert (W : wf_message ex_extra) by (repeat constructor; discriminate). destruct (ex_bytes _ W) as (body & E & Hw & Hb & HF).
    assert (EM : message_of (ex_pkt ex_extra) = Some ex_extra) by (vm_compute; reflexivity).
    apply (G_unasked _ _ _ ex_may v (ex_pkt ex_extra)); [rewrite E; exact Hb | reflexivity | intros z; rewrite EM; discriminate | | rewrite E; exact HF].
    intros _ (r & Hr). rewrite EM in Hr. discriminate Hr.
  - apply andb_true_iff in H as [H1 H2]. apply bytes_eqb_eq in H2. apply Nat.ltb_lt in H1.
    destruct (nth_error all_requests (v_replied v)) as [q|] eqn:EQ; [|apply nth_error_None in EQ; lia].
    assert (W : wf_message (panel_answer v)).
    { pose proof all_answers_ok as OK. rewrite Forall_forall in OK. apply OK. unfold panel_answer. apply nth_In. exact H1. }
    destruct (ex_bytes _ W) as (body & E & Hw & Hb & HF).
    refine (G_reply _ _ _ ex_may v q (panel_answer v) body _ _ _ _ Hb HF); [| |apply wire_grammar; auto].
    + pose proof EQ as ES. apply nth_error_split in ES as (l1 & l2 & ES & EL). exists l1, (map bytes_of (l1 ++ [q])), []. split; [|split; [|exact EL]].
      * apply ex_frames. pose proof all_requests_ok as OK. rewrite ES in OK. apply Forall_app in OK as [OK1 OK2]. inversion OK2; subst. apply Forall_app. auto.
      * rewrite H2, app_nil_r. cbn [app]. do 2 f_equal. rewrite ES, <- EL. replace (S (length l1)) with (length l1 + 1)%nat by lia. rewrite firstn_app_2. reflexivity.
    + exact (Forall2_nth _ _ _ _ _ MRtcRequest all_answers_right EQ).
Qed.
Lemma can_all_goes qs : forall v n q, can_all v qs = true -> nth_error qs n = Some q ->
  goes ex_naming ex_cl ex_cfg ex_may (fold_left pgo (firstn n qs) v) (pmove_of q) (fold_left pgo (firstn (S n) qs) v).
Proof.
  induction qs as [|x qs IH]; intros v n q H E; [destruct n; discriminate|]. cbn [can_all] in H. apply andb_true_iff in H as [H1 H2]. destruct n as [|n].
  - injection E as ->. cbn [firstn fold_left]. apply can_goes. exact H1.
  - rewrite !firstn_cons. cbn [fold_left]. apply IH; assumption.
Qed.
Lemma ex_state_finally n : (length ex_program <= n)%nat -> ex_state n = ex_finally.
Proof. intros L. unfold ex_state. destruct (Nat.ltb_spec n (length ex_program)); [lia | reflexivity]. Qed.
Lemma ex_idle_late n r : (length ex_program <= n)%nat -> (r < 3)%nat -> ex_move (3 * n + r) = match r with O => QDo YPanel | 1%nat => QDo YRx | _ => QDo (YSend 99) end.
Proof.
  intros L Lr. unfold ex_move, ex_idle. rewrite nth_overflow by lia. replace ((3 * n + r) mod 3)%nat with r; [reflexivity|].
  rewrite (Nat.mul_comm 3), Nat.add_comm, Nat.mod_add by lia. symmetry. apply Nat.mod_small. exact Lr.
Qed.
Lemma ex_goes n : goes ex_naming ex_cl ex_cfg ex_may (ex_state n) (pmove_of (ex_move n)) (ex_state (S n)).
Proof.
  assert (C : can_all program_new ex_program = true) by (vm_compute; reflexivity).
  destruct (Nat.ltb_spec n (length ex_program)) as [L|L].
  - assert (E : ex_state (S n) = fold_left pgo (firstn (S n) ex_program) program_new).
    { unfold ex_state. destruct (Nat.ltb_spec (S n) (length ex_program)) as [L'|L']; [reflexivity|]. rewrite firstn_all2 by exact L'. vm_compute. reflexivity. }
    rewrite E. unfold ex_state. destruct (Nat.ltb_spec n (length ex_program)) as [_|L']; [|lia].
    apply can_all_goes; [exact C|]. unfold ex_move. apply nth_error_nth'. exact L.
  - rewrite !ex_state_finally by lia. unfold ex_move, ex_idle. rewrite nth_overflow by lia.
    destruct (n mod 3)%nat as [|[|j]]; match goal with |- goes _ _ _ _ _ (pmove_of ?q) _ => replace ex_finally with (pgo ex_finally q) at 2 by (vm_compute; reflexivity) end; apply can_goes; reflexivity.
Qed.
Example C99_example : well_configured ex_cl ex_cfg /\ goes_on ex_naming ex_cl ex_cfg ex_may ex_state (fun n => pmove_of (ex_move n)) /\
  fair_program ex_state (fun n => pmove_of (ex_move n)) /\ (forall n, gets_to ex_naming ex_cl ex_cfg ex_may (ex_state n)) /\
  v_asked (ex_state 2) = firstn 1 ex_asked /\ connecting (v_bridge (ex_state 43)) /\ v_asked (ex_state 43) = firstn 1 ex_asked /\
  completed (v_events ex_finally) = map into_msg ex_asked /\ length (v_events ex_finally) = 3%nat /\
  exists u, v_bridge ex_finally = Up u /\ filter is_event_pub (u_log u) <> [].
Proof.
  split. { split; [repeat constructor; cbn; lia|]. split; [repeat constructor; intros []|]. do 2 (split; [reflexivity|]).
           split; [repeat constructor|]. split; [repeat constructor|]. split; [reflexivity|]. intros ha _. split; repeat constructor. }
  split; [split; [reflexivity | exact ex_goes]|]. split; [|split].
  - split; [|split; [|split; [|split; [|split]]]]; intros n.
    + exists (n + length ex_program)%nat. split; [lia|]. right. rewrite ex_state_finally by lia. intros (i & rx & E). discriminate E.
    + exists (3 * (n + length ex_program) + 0)%nat, 5. split; [lia|]. rewrite ex_idle_late by lia. reflexivity.
    + exists (3 * (n + length ex_program) + 1)%nat. split; [lia|]. rewrite ex_idle_late by lia. reflexivity.
    + exists (3 * (n + length ex_program) + 2)%nat, 99%nat, []. split; [lia|]. rewrite ex_idle_late by lia. reflexivity.
    + exists (n + length ex_program)%nat. split; [lia|]. right. intros q (qs & fs & rest & F & E & L). rewrite ex_state_finally in E, L by lia.
      assert (E2 : put_by (v_bridge ex_finally) = concat (map bytes_of all_requests) ++ []) by (vm_compute; reflexivity).
      rewrite E2 in E. cbn [app] in E.
      destruct (requests_unique _ _ (ex_frames _ all_requests_ok) _ _ _ _ F E) as (c & EC); [constructor | reflexivity|].
      apply (f_equal (@length _)) in EC. rewrite !app_length, L in EC. vm_compute in EC. lia.
    + exists (n + length ex_program)%nat. split; [lia|]. right. rewrite ex_state_finally by lia. reflexivity.
  - induction n as [|n IH]; [constructor | exact (G_move _ _ _ _ _ _ _ IH (ex_goes n))].
  - split; [vm_compute; reflexivity|]. split; [|split; [vm_compute; reflexivity|]].
    + assert (E : match v_bridge (ex_state 43) with Connecting _ _ => true | _ => false end = true) by (vm_compute; reflexivity).
      destruct (v_bridge (ex_state 43)) as [i rx| |]; try discriminate E. exists i, rx. reflexivity.
    + split; [vm_compute; reflexivity|]. split; [vm_compute; reflexivity|]. eexists. split; [reflexivity|]. vm_compute. discriminate.
Qed.

Print Assumptions C99_never_stops.
Print Assumptions C99_in_order.
Print Assumptions C99_what_is_written.
Print Assumptions C99_published.
Print Assumptions C99_all_completed.
