(* PropTraffic.v: C146, which and how many publications an event causes (elkm1-mqtt/src/main.rs:444-475). *)
From Verif Require Import Base BaseFacts Pkt SpecPkt Msg SpecMsg Tokio SpecConn State SpecState Serde SerdeFacts Mqtt SpecMqtt MqttFacts
  StateFacts RunFacts HistFacts ViewFacts ExState PropMqtt Config SpecConfig PropConfig BridgeText JsonText PropText SpecSize PropSize PropSizeAscii SpecModest PropFits SpecTraffic.
From Coq Require Import ZifyBool ZifyNat ZifyN.
Ltac Zify.zify_post_hook ::= Z.div_mod_to_equations.

Lemma same_length {A C} (R : A -> C -> Prop) l l' : Forall2 R l l' -> length l = length l'.
Proof. induction 1; cbn; congruence. Qed.
Definition burst (cfg : Cfg) (e : Event) (l : list action) : Prop :=
  exists topics, told_on cfg e topics /\ Forall2 on_topic l ((topic_prefix cfg ++ B "/event", false) :: map (fun t => (t, true)) topics).
Definition trafficked (cfg : Cfg) (u0 : up) (is : list input) (u : up) : Prop :=
  exists ops bs ls, Forall op_ok ops /\ run (u_panel u0) ops = Ok (u_panel u, bs) /\ arrived ops = net_in is /\
    Forall2 (burst cfg) (events bs) ls /\ u_log u = u_log u0 ++ concat ls.
Lemma handled_burst cl cfg p e l : reachable p -> SpecMqtt.in_range cfg -> handle_event cl cfg p e = (l, Ok tt) -> burst cfg e l.
Proof.
  intros R RG EH. destruct (handle_event_ok _ _ _ _ _ R RG EH) as (v & l' & S & -> & EP & _). unfold event_pubs in EP. unfold burst, told_on. destruct (e_change e) as [[k s|prior]|].
  - destruct EP as [(c & x & HK & (t & _ & ->) & ->)|[NK ->]].
    + eexists. split; [left; exists c; split; [exact HK | reflexivity]|]. constructor; [eexists; reflexivity|]. constructor; [eexists; reflexivity | constructor].
    + exists []. split; [right; split; [exact NK | reflexivity]|]. constructor; [eexists; reflexivity | constructor].
  - eexists. split; [reflexivity|]. constructor; [eexists; reflexivity|]. rewrite map_map. clear -EP. induction EP as [|x a xs l (t & _ & ->) _ IH]; cbn [map]; constructor; [eexists; reflexivity | exact IH].
  - subst l'. exists []. split; [reflexivity|]. constructor; [eexists; reflexivity | constructor].
Qed.
Lemma bridge_traffic cl cfg u0 is u : binv cl cfg u0 -> Forall input_ok is -> fold_left (bstep cl cfg) is (Up u0) = Up u -> trafficked cfg u0 is u.
Proof.
  intros B0 HI E. refine (proj2 (up_ind cl cfg u0 (trafficked cfg u0) B0 _ _ is u HI E)).
  - exists [], [], []. cbn. rewrite !app_nil_r. repeat split; auto.
  - clear. intros is u i u' (ops & bs & ls & H1 & H2 & H3 & H8 & H9) (R & RG & _) HI (ops' & bs' & hd' & os' & K1 & K2 & K3 & _ & _ & _ & _ & _ & K8) _.
    exists (ops ++ ops'), (bs ++ bs'). destruct K8 as [[EV EL]|(now & r & w & e & l & EP & Y & EB & EH & EL)].
    + exists ls. split; [apply Forall_app; auto|]. split; [rewrite run_app, H2; cbn [bind]; rewrite K2; reflexivity|]. split; [rewrite arrived_app, net_in_app; congruence|].
      rewrite events_app, EV, app_nil_r, EL. auto.
    + exists (ls ++ [l]). split; [apply Forall_app; auto|]. split; [rewrite run_app, H2; cbn [bind]; rewrite K2; reflexivity|]. split; [rewrite arrived_app, net_in_app; congruence|].
      rewrite events_app, concat_app. cbn [concat]. rewrite app_nil_r. split; [|rewrite EL, H9, app_assoc; reflexivity].
      apply Forall2_app; [exact H8|]. unfold yields in Y. subst r bs'. cbn. constructor; [|constructor]. exact (handled_burst _ _ _ _ _ (reachable_poll _ _ _ _ _ R EP) RG EH).
Qed.
(* Between any two moments at which the bridge is up: all it has published is, event by event, the event and the states that changed with it. *)
Theorem C146_event_by_event : forall cl cfg is1 u1 is2 u2,
  bridge_after cl cfg is1 (Up u1) -> bridge_after cl cfg (is1 ++ is2) (Up u2) ->
  exists ops bs ls, Forall op_ok ops /\ run (u_panel u1) ops = Ok (u_panel u2, bs) /\ arrived ops = net_in is2 /\ u_log u2 = u_log u1 ++ concat ls /\
    Forall2 (fun e l => exists topics, told_on cfg e topics /\ Forall2 on_topic l ((topic_prefix cfg ++ B "/event", false) :: map (fun t => (t, true)) topics)) (events bs) ls.
Proof.
  intros cl cfg is1 u1 is2 u2 A1 A2. destruct (bridge_between _ _ _ _ _ _ A1 A2) as [B _]. destruct A1 as (H1 & E1), A2 as (H2 & E2).
  apply Forall_app in H2 as [_ H2]. unfold brun in E2. rewrite fold_left_app in E2. change (fold_left (bstep cl cfg) is2 (brun cl cfg is1) = Up u2) in E2. rewrite E1 in E2.
  destruct (bridge_traffic cl cfg u1 is2 u2 B H2 E2) as (ops & bs & ls & K1 & K2 & K3 & K4 & K5). exists ops, bs, ls. auto.
Qed.
(* So each event makes for between one and nine publications, and without an event there is none. *)
Theorem C146_how_many : forall cl cfg is1 u1 is2 u2,
  bridge_after cl cfg is1 (Up u1) -> bridge_after cl cfg (is1 ++ is2) (Up u2) -> cfg_ok cfg ->
  exists ops bs log, Forall op_ok ops /\ run (u_panel u1) ops = Ok (u_panel u2, bs) /\ arrived ops = net_in is2 /\ u_log u2 = u_log u1 ++ log /\
    (length (events bs) <= length log <= 9 * length (events bs))%nat.
Proof.
  intros cl cfg is1 u1 is2 u2 A1 A2 K. destruct (bridge_between _ _ _ _ _ _ A1 A2) as [(_ & RG & _) _]. pose proof (few_areas cfg K RG) as L8.
  destruct (C146_event_by_event _ _ _ _ _ _ A1 A2) as (ops & bs & ls & K1 & K2 & K3 & K4 & F). exists ops, bs, (concat ls). repeat (split; [assumption|]).
  clear -F L8. induction F as [|e l es ls (ts & T & F2) _ IH]; [cbn; lia|]. cbn [concat length]. rewrite app_length. apply same_length in F2. cbn [length] in F2. rewrite map_length in F2.
  assert (L : (length ts <= 8)%nat).
  { unfold told_on in T. destruct (e_change e) as [[k s|prior]|]; [|subst ts; rewrite map_length; exact L8|subst ts; cbn; lia]. destruct T as [(c & _ & ->)|[_ ->]]; cbn; lia. }
  lia.
Qed.
Definition ex_change : list input :=
  [NetArrive (Bytes (match encode (PAscii (B "ZC002B00")) [] with Ok f => f | _ => [] end)); PollPanel 7;
   NetArrive (Bytes (match encode (PAscii (B "ZC002")) [] with Ok f => f | _ => [] end)); PollPanel 8].
Definition ex_change_up : up := Eval vm_compute in up_of (brun ex_cl ex_cfg (ex_start ++ ex_change)).
Lemma ex_change_after : bridge_after ex_cl ex_cfg (ex_start ++ ex_change) (Up ex_change_up).
Proof.
  split; [apply Forall_app; split; [exact ex_start_ok|] | vm_compute; reflexivity].
  apply Forall_cons; [|apply Forall_cons; [exact Logic.I | apply Forall_cons; [|apply Forall_cons; [exact Logic.I | apply Forall_nil]]]]; vm_compute; repeat (apply Forall_cons; [reflexivity|]); apply Forall_nil.
Qed.
(* a zone changes and is told of; a report that is too short is published, and nothing else *)
Definition topic_of (a : action) : bytes := match a with APublishQ _ t _ _ => t | _ => [] end.
Lemma ex_cfg_fine : cfg_ok ex_cfg.
Proof. split; (split; [cbn; repeat constructor; intros []|repeat constructor; cbn; lia]). Qed.
Example C146_example :
  bridge_after ex_cl ex_cfg ex_start (Up ex_up) /\ bridge_after ex_cl ex_cfg (ex_start ++ ex_change) (Up ex_change_up) /\ cfg_ok ex_cfg /\
  map topic_of (skipn (length (u_log ex_up)) (u_log ex_change_up)) = [B "elkm1/0001/event"; B "elkm1/0001/zone/front/ha_state"; B "elkm1/0001/event"].
Proof.
  split; [exact ex_up_after|]. split; [exact ex_change_after|]. split; [exact ex_cfg_fine | vm_compute; reflexivity].
Qed.
Print Assumptions C146_event_by_event.
Print Assumptions C146_how_many.
