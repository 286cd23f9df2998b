(* PropServe.v: C98. *)
From Verif Require Import Base BaseFacts Pkt SpecPkt PktFacts DecodeFacts Msg SpecMsg DecFacts MsgFacts WireFacts IsoFacts
  PropMsg Tokio SpecConn ConnFacts State SpecState StateFacts RunFacts HistFacts ViewFacts ExState PropState PropSink PropLive
  Serde SerdeFacts PropSerde SpecInit InitFacts PropConnect SpecSend SendFacts PropSend Mqtt SpecMqtt MqttFacts PropMqtt SpecServe ServeFacts.
From Coq Require Import ZifyBool ZifyNat ZifyN.
Ltac Zify.zify_post_hook ::= Z.div_mod_to_equations.

Lemma sv_new cl cfg may u net : ready_to_serve cl cfg u net -> sv cl cfg may (u_panel u) net (u_log u) (service_new u net) u [].
Proof.
  intros (B & _ & _ & EM & ER & _ & pk & U & H). unfold sv, service_new. cbn [v_bridge v_net v_asked v_events]. unfold wants. rewrite ER.
  split; [reflexivity|]. split; [exact B|]. split; [|split; [reflexivity|split; [constructor|split; [cbn; lia|split; [exists pk; auto|]]]]].
  - replace (exch u _) with (exchange_new (u_panel u) net []); [constructor|]. unfold exch, waiting. rewrite EM. reflexivity.
  - exists []. split; [symmetry; apply app_nil_r | constructor].
Qed.
Lemma comes_sv cl cfg may u net v : ready_to_serve cl cfg u net -> healthy (u_panel u) -> comes_to cl cfg may (base_of (u_panel u)) (service_new u net) v ->
  exists u' l, sv cl cfg may (u_panel u) net (u_log u) v u' l.
Proof.
  intros R HL C. pose proof R as (_ & TE & DN & _ & _ & O0 & pk & U & _). induction C as [|v a v' C (u' & l & S) M]; [exists u, []; apply sv_new; exact R|].
  destruct (sv_step _ _ _ _ _ _ _ HL O0 U TE DN _ _ _ _ _ S M) as (u2 & S2 & _). eauto.
Qed.
Lemma wants_asked cl cfg u : binv cl cfg u -> Forall (readable cfg) (u_rx u) -> exists os, Forall2 (asked cfg) (u_rx u) os /\ catMaybes os = wants cfg u.
Proof.
  intros (_ & RG & DC & _). unfold wants. generalize (u_rx u) as rx. induction 1 as [|m rx RM F (os & IH1 & IH2)]; [exists []; split; [constructor | reflexivity]|].
  pose proof (requested_spec cfg (u_code u) (fst m) (snd m) RG DC) as H. cbn [map concat]. unfold want at 1. destruct (requested _ _ _ _ _) as [o|er|why].
  - destruct H as (A & _). exists (o :: os). split; [constructor; [destruct m; exact A | exact IH1]|]. destruct o as [c|]; cbn [catMaybes app]; congruence.
  - destruct H.
  - destruct H as (U & a & n & HI & E). destruct RM as [RM|RM]; cbn [fst snd] in RM; [congruence|]. elim (RM a n HI E).
Qed.

(* The bridge neither stops nor gets stuck: it stays in its loop, and when it waits to send a command, no other is under way. *)
Theorem C98_keeps_serving : forall cl cfg (may : packet -> Prop) u net v,
  ready_to_serve cl cfg u net -> healthy (u_panel u) -> comes_to cl cfg may (base_of (u_panel u)) (service_new u net) v ->
  exists u', v_bridge v = Up u' /\ forall c, u_mode u' = Feeding c -> outstanding (u_panel u') = [].
Proof.
  intros cl cfg may u net v R HL C. destruct (comes_sv _ _ _ _ _ _ R HL C) as (u' & l & S). pose proof R as (_ & TE & DN & _ & _ & O0 & pk & U & _).
  exists u'. split; [apply S|]. intros c EM. destruct (sv_inv _ _ _ _ _ _ _ HL O0 U _ _ _ S) as (_ & _ & _ & _ & L). unfold waiting in L. rewrite EM in L. cbn [length] in L.
  destruct (outstanding (u_panel u')); [reflexivity | cbn [length] in L; lia].
Qed.
(* Commands are completed in the order they were asked for: those asked for so far are those completed, then the one the panel
   has been sent, then the one waiting to be sent, then those asked for by messages still in the channel; and all but one are completed. *)
Theorem C98_in_order : forall cl cfg (may : packet -> Prop) u net v,
  ready_to_serve cl cfg u net -> healthy (u_panel u) -> comes_to cl cfg may (base_of (u_panel u)) (service_new u net) v ->
  exists u' os, v_bridge v = Up u' /\ Forall2 (asked cfg) (u_rx u') os /\
    map into_msg (v_asked v) = completed (v_events v) ++ outstanding (u_panel u') ++ map into_msg (waiting u' ++ catMaybes os) /\
    (length (outstanding (u_panel u')) + length (waiting u' ++ catMaybes os) <= 1)%nat.
Proof.
  intros cl cfg may u net v R HL C. destruct (comes_sv _ _ _ _ _ _ R HL C) as (u' & l & S). pose proof R as (_ & TE & DN & _ & _ & O0 & pk & U & _).
  destruct (sv_inv _ _ _ _ _ _ _ HL O0 U _ _ _ S) as (B & _ & _ & EL & L). destruct S as (E1 & _ & _ & E4 & E5 & _).
  destruct (wants_asked _ _ _ B E5) as (os & F & EO). exists u', os. split; [exact E1|]. split; [exact F|]. rewrite EO, E4, !map_app, app_length, EL, <- !app_assoc. split; [reflexivity | lia].
Qed.
(* Every event Panel has yielded has been published on the event topic, in order, in a form it can be read back from, and nothing
   else has been published unretained; so an MQTT client can see which commands are complete. *)
Theorem C98_published : forall cl cfg (may : packet -> Prop) u net v,
  ready_to_serve cl cfg u net -> healthy (u_panel u) -> comes_to cl cfg may (base_of (u_panel u)) (service_new u net) v ->
  exists u' log, v_bridge v = Up u' /\ u_log u' = u_log u ++ log /\
    Forall2 (fun e a => exists j, Event_ser e = Ok j /\ Event_de FromText j = Ok e /\ a = APublish (topic_prefix cfg ++ B "/event") false (PJson j))
      (v_events v) (filter is_event_pub log).
Proof.
  intros cl cfg may u net v R HL C. destruct (comes_sv _ _ _ _ _ _ R HL C) as (u' & l & S). destruct S as (E1 & _ & _ & _ & _ & _ & _ & log & E8 & F).
  exists u', log. auto.
Qed.
(* A command that was completed has been received by the panel in full, with all before it, unless the panel sends of its own accord
   what looks like an answer. *)
Theorem C98_completed_was_received : forall cl cfg (may : packet -> Prop) u net v pk,
  ready_to_serve cl cfg u net -> healthy (u_panel u) -> under_way (u_panel u) net pk ->
  (forall pkt, may pkt -> ~ answers_one (v_asked v) pkt) -> Forall (fun pkt => ~ answers_one (v_asked v) pkt) pk ->
  comes_to cl cfg may (base_of (u_panel u)) (service_new u net) v -> completed (v_events v) <> [] ->
  exists fs rest, Forall2 request_frame (completed (v_events v)) fs /\ put_by (v_bridge v) = base_of (u_panel u) ++ concat fs ++ rest.
Proof.
  intros cl cfg may u net v pk R HL U HM HP C ND. destruct (comes_sv _ _ _ _ _ _ R HL C) as (u' & l & S). pose proof R as (_ & TE & DN & _ & _ & O0 & _).
  destruct S as (E1 & _ & E3 & E4 & _).
  assert (SUB : forall pkt, ~ answers_one (v_asked v) pkt -> ~ answers_one ([] ++ l) pkt).
  { intros pkt H (m & c & M & HI & X). apply H. exists m, c. split; [exact M|]. split; [|exact X]. rewrite E4. apply in_or_app. left. exact HI. }
  destruct (C93_completed_was_received may (u_panel u) net [] pk l (exch u' v) HL O0 (Forall_nil _) U) as (fs & rest & F & P).
  - intros pkt Hp. apply SUB, HM, Hp.
  - revert HP. apply Forall_impl. exact SUB.
  - exact E3.
  - exact ND.
  - exists fs, rest. split; [exact F|]. rewrite E1. exact P.
Qed.
(* If the bridge's task keeps running, the panel answers what it receives and the network delivers what is sent, then every command
   asked for is completed sooner or later, in order. *)
Theorem C98_all_completed : forall cl cfg (may : packet -> Prop) u net vs acts k,
  ready_to_serve cl cfg u net -> healthy (u_panel u) ->
  keeps_on cl cfg may (base_of (u_panel u)) (service_new u net) vs acts -> fair_service (base_of (u_panel u)) vs acts ->
  exists n, forall m, (n <= m)%nat -> exists later, completed (v_events (vs m)) = map into_msg (v_asked (vs k)) ++ later.
Proof.
  intros cl cfg may u net vs acts k R HL (E0 & X) (F1 & F2 & F3 & F4 & F5). pose proof (sv_new cl cfg may u net R) as S0. rewrite <- E0 in S0.
  destruct R as (_ & TE & DN & EM & _ & O0 & pk & U & _).
  eapply all_served; eauto; rewrite E0; reflexivity.
Qed.

(* The bridge of PropMqtt.v.  Arming away is asked for, the command is written in two pieces, a zone changes meanwhile, the answer comes;
   when it is complete, disarming is asked for, and an empty publish on some other topic comes in between; then nothing more happens. *)
Definition ex_topic : bytes := B "elkm1/0001/area/house/ha_command".
Definition ex_asked : list Command := [CmdArm (mkArmRequest 1 AL_ArmedAway (B "001234")); CmdArm (mkArmRequest 1 AL_Disarm (B "001234"))].
Definition ex_answer : message := MSendCode (mkIC (repeat 0 6) 3 16).
Inductive smv : Type := YPanel | YRx | YSend (n : nat) | YArm | YDisarm | YOther | YUnasked | YReply | YDeliver (n : nat).
Definition ex_publish (y : smv) : bytes * bytes * option Command :=
  match y with YArm => (ex_topic, B "ARM_AWAY", nth_error ex_asked 0) | YDisarm => (ex_topic, B "DISARM", nth_error ex_asked 1) | _ => (B "other", [], None) end.
Definition sgo (v : service) (y : smv) : service :=
  let st i := bstep ex_cl ex_cfg (v_bridge v) i in
  let pub := mkService (st (MqttArrive (fst (fst (ex_publish y))) (snd (fst (ex_publish y))))) (v_net v) (v_replied v) (v_asked v ++ catMaybes [snd (ex_publish y)]) (v_events v) in
  match y with
  | YPanel => mkService (st (PollPanel 5)) (v_net v) (v_replied v) (v_asked v) (v_events v ++ yielded_by (v_bridge v) 5)
  | YRx => mkService (st PollRx) (v_net v) (v_replied v) (v_asked v) (v_events v)
  | YSend n => mkService (st (PollSend [WAccept (S n)])) (v_net v) (v_replied v) (v_asked v) (v_events v)
  | YArm => pub | YDisarm => pub | YOther => pub
  | YUnasked => mkService (v_bridge v) (v_net v ++ bytes_of ex_extra) (v_replied v) (v_asked v) (v_events v)
  | YReply => mkService (v_bridge v) (v_net v ++ bytes_of ex_answer) (S (v_replied v)) (v_asked v) (v_events v)
  | YDeliver n => mkService (st (NetArrive (Bytes (firstn n (v_net v))))) (skipn n (v_net v)) (v_replied v) (v_asked v) (v_events v)
  end.
Definition smove_of (y : smv) : smove :=
  match y with
  | YPanel => SPanel 5 | YRx => SRx | YSend n => SSend [WAccept (S n)] | YUnasked => SUnasked | YReply => SReply | YDeliver _ => SDeliver
  | _ => SMqtt (fst (fst (ex_publish y))) (snd (fst (ex_publish y)))
  end.
Definition can_serve (v : service) (y : smv) : bool :=
  match y with
  | YArm | YDisarm => Nat.eqb (length (v_asked v)) (length (completed (v_events v)))
  | YReply => (v_replied v <? length ex_asked)%nat &&
      bytes_eqb (put_by (v_bridge v)) (base_of (u_panel ex_up) ++ concat (map bytes_of (firstn (S (v_replied v)) (map into_msg ex_asked))))
  | YDeliver n => negb (bytes_eqb (firstn n (v_net v)) [])
  | _ => true
  end.
Definition ex_script : list smv :=
  [YPanel; YArm; YPanel; YRx; YRx; YSend 4; YUnasked; YDeliver 3; YPanel; YSend 99; YReply; YPanel; YDeliver 20; YPanel; YPanel; YDeliver 99; YPanel;
   YOther; YDisarm; YRx; YRx; YSend 99; YPanel; YReply; YDeliver 99; YPanel; YPanel].
Definition ex_act (n : nat) : smv := nth n ex_script (match Nat.modulo n 3 with O => YPanel | 1%nat => YRx | _ => YSend 99 end).
Fixpoint ex_service (n : nat) : service := match n with O => service_new ex_up [] | S n' => sgo (ex_service n') (ex_act n') end.
Lemma ex_asked_ok : Forall (fun c => wf_message (into_msg c)) ex_asked.
Proof. repeat constructor; discriminate. Qed.
Lemma ex_arms : asks ex_cfg (ex_topic, B "ARM_AWAY") (CmdArm (mkArmRequest 1 AL_ArmedAway (B "001234"))) /\
  asks ex_cfg (ex_topic, B "DISARM") (CmdArm (mkArmRequest 1 AL_Disarm (B "001234"))).
Proof.
  assert (D : dec_canon 6 (code ex_cfg) (B "001234")) by (repeat split; repeat constructor; discriminate).
  split; exists 1, (B "house"); eexists _, (B "001234"); (split; [left; reflexivity|]); (split; [reflexivity|]); (split; [|split; [exact D | reflexivity]]); cbn; tauto.
Qed.
Lemma can_serves v y : can_serve v y = true -> serves ex_cl ex_cfg ex_may (base_of (u_panel ex_up)) v (smove_of y) (sgo v y).
Proof.
  destruct y as [| |n| | | | | |n]; cbn [can_serve smove_of sgo]; intros H.
  - constructor.
  - constructor.
  - constructor. repeat constructor. discriminate.
  - apply Nat.eqb_eq in H. apply S_mqtt; [left; reflexivity | exact (proj1 ex_arms) | auto].
  - apply Nat.eqb_eq in H. apply S_mqtt; [left; reflexivity | exact (proj2 ex_arms) | auto].
  - apply S_mqtt; [left; reflexivity| |intros X; elim X; reflexivity]. intros c (a & n & l & k & HI & E & _). cbn [fst ex_publish] in E. discriminate E.
  - assert (W : wf_message ex_extra) by (repeat constructor; discriminate). destruct (ex_bytes _ W) as (body & E & Hw & Hb & HF).
    apply (S_unasked _ _ ex_may _ v (ex_pkt ex_extra)); [rewrite E; exact Hb | reflexivity | | rewrite E; exact HF].
    intros z. assert (EM : message_of (ex_pkt ex_extra) = Some ex_extra) by (vm_compute; reflexivity). rewrite EM. discriminate.
  - apply andb_true_iff in H as [H1 H2]. apply bytes_eqb_eq in H2. apply Nat.ltb_lt in H1.
    destruct (nth_error (map into_msg ex_asked) (v_replied v)) as [q|] eqn:EQ; [|apply nth_error_None in EQ; cbn in *; lia].
    assert (W : wf_message ex_answer) by (repeat constructor; discriminate).
    destruct (ex_bytes _ W) as (body & E & Hw & Hb & HF).
    refine (S_reply _ _ ex_may _ v q ex_answer body _ _ _ _ Hb HF); [| |apply wire_grammar; auto].
    + pose proof EQ as ES. apply nth_error_split in ES as (l1 & l2 & ES & EL). exists l1, (map bytes_of (l1 ++ [q])), []. split; [|split; [|exact EL]].
      * apply ex_frames. assert (OK : Forall wf_message (map into_msg ex_asked)) by (apply Forall_map; exact ex_asked_ok).
        rewrite ES in OK. apply Forall_app in OK as [OK1 OK2]. inversion OK2; subst. apply Forall_app. auto.
      * rewrite H2, app_nil_r. do 3 f_equal. rewrite ES, <- EL. replace (S (length l1)) with (length l1 + 1)%nat by lia. rewrite firstn_app_2. reflexivity.
    + destruct (v_replied v) as [|[|n]]; [| |cbn in H1; lia]; injection EQ as <-; exact Logic.I.
  - apply (S_deliver _ _ ex_may _ v (firstn n (v_net v)) (skipn n (v_net v))); [symmetry; apply firstn_skipn|]. intros E. rewrite E in H. discriminate H.
Qed.
Definition ex_served : service := Eval vm_compute in ex_service (length ex_script).
Lemma ex_served_stays n : (length ex_script <= n)%nat -> ex_service n = ex_served.
Proof.
  intros L. replace n with ((n - length ex_script) + length ex_script)%nat by lia. generalize (n - length ex_script)%nat as k. induction k as [|k IH]; [vm_compute; reflexivity|].
  change (sgo (ex_service (k + length ex_script)) (ex_act (k + length ex_script)) = ex_served). rewrite IH. unfold ex_act. rewrite nth_overflow by lia.
  destruct (_ mod 3)%nat as [|[|j]]; vm_compute; reflexivity.
Qed.
Lemma ex_can_serve n : can_serve (ex_service n) (ex_act n) = true.
Proof.
  destruct (Nat.ltb_spec n (length ex_script)) as [L|L].
  - assert (X : forallb (fun n => can_serve (ex_service n) (ex_act n)) (seq 0 (length ex_script)) = true) by (vm_compute; reflexivity).
    rewrite forallb_forall in X. apply X, in_seq. lia.
  - unfold ex_act. rewrite nth_overflow by lia. destruct (_ mod 3)%nat as [|[|j]]; reflexivity.
Qed.
Lemma ex_act_late n r : (length ex_script <= n)%nat -> (r < 3)%nat -> ex_act (3 * n + r) = match r with O => YPanel | 1%nat => YRx | _ => YSend 99 end.
Proof.
  intros L Lr. unfold ex_act. rewrite nth_overflow by lia. replace ((3 * n + r) mod 3)%nat with r; [reflexivity|].
  rewrite (Nat.mul_comm 3), Nat.add_comm, Nat.mod_add by lia. symmetry. apply Nat.mod_small. exact Lr.
Qed.
Example C98_example : ready_to_serve ex_cl ex_cfg ex_up [] /\ healthy (u_panel ex_up) /\ under_way (u_panel ex_up) [] [] /\
  (forall pkt, ex_may pkt -> ~ answers_one ex_asked pkt) /\
  keeps_on ex_cl ex_cfg ex_may (base_of (u_panel ex_up)) (service_new ex_up []) ex_service (fun n => smove_of (ex_act n)) /\
  fair_service (base_of (u_panel ex_up)) ex_service (fun n => smove_of (ex_act n)) /\
  (forall n, comes_to ex_cl ex_cfg ex_may (base_of (u_panel ex_up)) (service_new ex_up []) (ex_service n)) /\
  v_asked (ex_service 16) = firstn 1 ex_asked /\ completed (v_events (ex_service 16)) = [] /\ completed (v_events (ex_service 17)) = map into_msg (firstn 1 ex_asked) /\
  v_asked (ex_service 19) = ex_asked /\ completed (v_events (ex_service 25)) = map into_msg (firstn 1 ex_asked) /\ completed (v_events (ex_service 26)) = map into_msg ex_asked /\
  length (v_events (ex_service 26)) = 3%nat.
Proof.
  assert (X : forall n, serves ex_cl ex_cfg ex_may (base_of (u_panel ex_up)) (ex_service n) (smove_of (ex_act n)) (ex_service (S n))).
  { intros n. apply (can_serves (ex_service n) (ex_act n)), ex_can_serve. }
  split. { split; [exists ex_start; exact ex_up_after|]. split; [reflexivity|]. split; [repeat constructor; intros []|]. split; [reflexivity|]. split; [reflexivity|].
           split; [reflexivity|]. exists []. split; [exists []; repeat split; constructor | constructor]. }
  split; [exact ex_panel_healthy|]. split; [exists []; repeat split; constructor|].
  split. { intros pkt -> (m & c & M & HI & R). assert (EM : message_of (ex_pkt ex_extra) = Some ex_extra) by (vm_compute; reflexivity).
           rewrite EM in M. injection M as <-. destruct HI as [<-|[<-|[]]]; exact R. }
  split; [split; [reflexivity | exact X]|]. split; [|split].
  - split; [|split; [|split; [|split]]]; intros n.
    + exists (3 * (n + length ex_script) + 0)%nat, 5. split; [lia|]. rewrite ex_act_late by lia. reflexivity.
    + exists (3 * (n + length ex_script) + 1)%nat. split; [lia|]. rewrite ex_act_late by lia. reflexivity.
    + exists (3 * (n + length ex_script) + 2)%nat, 99%nat, []. split; [lia|]. rewrite ex_act_late by lia. reflexivity.
    + exists (n + length ex_script)%nat. split; [lia|]. right. intros q (qs & fs & rest & F & E & L). rewrite ex_served_stays in E, L by lia.
      assert (E2 : put_by (v_bridge ex_served) = base_of (u_panel ex_up) ++ concat (map bytes_of (map into_msg ex_asked)) ++ []) by (vm_compute; reflexivity).
      rewrite E2 in E. apply app_inv_head in E.
      assert (OK : Forall wf_message (map into_msg ex_asked)) by (apply Forall_map; exact ex_asked_ok).
      destruct (requests_unique _ _ (ex_frames _ OK) _ _ _ _ F E) as (c & EC); [constructor | reflexivity|].
      apply (f_equal (@length _)) in EC. rewrite !app_length, L in EC. vm_compute in EC. lia.
    + exists (n + length ex_script)%nat. split; [lia|]. right. rewrite ex_served_stays by lia. reflexivity.
  - induction n as [|n IH]; [constructor | exact (V_move _ _ _ _ _ _ _ _ IH (X n))].
  - vm_compute. auto 10.
Qed.

Print Assumptions C98_keeps_serving.
Print Assumptions C98_in_order.
Print Assumptions C98_published.
Print Assumptions C98_completed_was_received.
Print Assumptions C98_all_completed.
