(* PropOnce.v: the property C140: a command is carried out once, by a bridge that was running when it was given. *)
From Verif Require Import Base BaseFacts Pkt SpecPkt PktFacts DecodeFacts Msg SpecMsg DecFacts MsgFacts WireFacts IsoFacts
  Tokio SpecConn ConnFacts State SpecState StateFacts RunFacts HistFacts ExState PropState PropMsg Serde SerdeFacts PropSerde
  Mqtt MqttFacts Config SpecMqtt SpecConfig PropMqtt PropConfig SpecInit SpecUnasked PropUnasked SpecListen PropListen SpecOnce.
From Coq Require Import ZifyBool ZifyNat ZifyN.
Ltac Zify.zify_post_hook ::= Z.div_mod_to_equations.
Import SpecMqtt.

(* ---- C140 ---- *)
(* False as stated, for any configuration: the bridge obeys a message whether it was kept by the broker from before or not.  It looks at
   nothing but topic and payload. *)
Theorem C140_kept_refuted : forall cl cfg is u m c,
  bridge_after cl cfg is (Up u) -> u_mode u = Selecting -> outstanding (u_panel u) = [] -> u_rx u = [] -> asks cfg (content m) c ->
  exists n u' c' f, bridge_after cl cfg (is ++ [MqttArrive (g_topic m) (g_payload m); PollRx; PollSend [WAccept n]]) (Up u') /\
    asks cfg (content m) c' /\ command_frame c' f /\ written (p_conn (u_panel u')) = written (p_conn (u_panel u)) ++ f.
Proof.
  intros cl cfg is u [t pl r] c A EM EO ER AS. unfold content in AS. cbn [g_topic g_payload] in AS |- *. destruct (bridge_binv _ _ _ _ A) as (R & RG & DC & _).
  pose proof (requested_spec cfg (u_code u) t pl RG DC) as RS.
  assert (X : exists c', requested (topic_prefix cfg) (u_code u) (areas cfg) t pl = Ok (Some c') /\ asks cfg (t, pl) c').
  { destruct (requested _ _ _ t pl) as [[c'|]|e|w]; [destruct RS as (RS & _); eauto | destruct RS as (RS & _); elim (RS c AS) | contradiction |].
    exfalso. destruct RS as (U & _). destruct AS as (a & n & lv & k & _ & _ & P & _). cbn [snd] in P. cbn in P.
    destruct P as [[= <- _]|[[= <- _]|[[= <- _]|[]]]]; vm_compute in U; discriminate U. }
  destruct X as (c' & ERQ & AS').
  assert (A1 : bridge_after cl cfg (is ++ [MqttArrive t pl; PollRx]) (Up (mkUp (u_panel u) (u_code u) (Feeding c') [] (u_log u)))).
  { split; [apply Forall_app; split; [apply A | repeat (apply Forall_cons; [exact Logic.I|]); apply Forall_nil]|].
    change [MqttArrive t pl; PollRx] with ([MqttArrive t pl] ++ [PollRx]). rewrite app_assoc, !brun_snoc. destruct A as (_ & ->). cbn [bstep u_mode u_rx u_panel u_code u_log].
    rewrite EM, ER. cbn [app]. rewrite ERQ. reflexivity. }
  destruct (C51_progress_partial _ _ _ _ A1) as [(c2 & _ & H)|(n & u' & EB & EM' & ER')]; [elim H; exact EO|].
  assert (A2 : bridge_after cl cfg (is ++ [MqttArrive t pl; PollRx; PollSend [WAccept n]]) (Up u')).
  { split; [apply Forall_app; split; [apply A | repeat (apply Forall_cons; [exact Logic.I|]); apply Forall_nil]|].
    change [MqttArrive t pl; PollRx; PollSend [WAccept n]] with ([MqttArrive t pl; PollRx] ++ [PollSend [WAccept n]]). rewrite app_assoc, brun_snoc. destruct A1 as (_ & ->). exact EB. }
  destruct (C50_commands_sent cl cfg is u [MqttArrive t pl; PollRx; PollSend [WAccept n]] u' A A2) as (hd & os & cs & fs & H1 & H2 & H3 & H4 & H5).
  assert (W : waiting u = [] /\ waiting u' = []) by (unfold waiting; rewrite EM, EM'; auto). destruct W as (W1 & W2).
  rewrite ER, ER' in H1. cbn in H1. rewrite app_nil_r in H1. subst hd. rewrite W1, W2, app_nil_r in H3. cbn [app] in H3.
  inversion H2 as [|? o ? os' HO HR]; subst. inversion HR; subst. destruct o as [c2|]; [|elim (HO c' AS')]. cbn [catMaybes] in H4. cbn in H4.
  inversion H4 as [|? f ? fs' HF HR']; subst. inversion HR'; subst. cbn [concat] in H5. rewrite app_nil_r in H5. exists n, u', c2, f. auto.
Qed.
(* So one message to disarm, published once with the retain flag, makes each of any number of runs of the bridge disarm the house. *)
Definition ex_kept : gmessage := mkGiven (B "elkm1/0001/area/house/ha_command") (B "DISARM") true.
Definition ex_kept_in : list input := [MqttArrive (B "elkm1/0001/area/house/ha_command") (B "DISARM"); PollRx; PollSend [WAccept 100]].
Definition ex_kept_up : up := Eval vm_compute in up_of (brun ex_strict ex_cfg (ex_start ++ ex_kept_in)).
Definition ex_disarm_cmd : Command := CmdArm (mkArmRequest 1 AL_Disarm (B "001234")).
Definition ex_strict_subs : list bytes := [B "elkm1/0001/area/house/ha_command"].
Lemma ex_strict_after : bridge_after ex_strict ex_cfg ex_start (Up ex_strict_up).
Proof. split; [exact ex_start_ok | vm_compute; reflexivity]. Qed.
Lemma ex_strict_subscribed : In (ASubscribe ex_strict_subs) (u_log ex_strict_up).
Proof. vm_compute. right. right. right. right. left. reflexivity. Qed.
Lemma ex_kept_subscribing : on_subscribing [ex_kept] ex_strict_subs [ex_kept].
Proof.
  assert (K : keeps [ex_kept] ex_kept) by (exists [], []; split; [reflexivity|]; split; [reflexivity|]; split; [discriminate | intros m' []]).
  split; [apply NoDup_cons; [intros [] | apply NoDup_nil]|]. intros m. split.
  - intros [<-|[]]. split; [exact K|]. exists (B "elkm1/0001/area/house/ha_command"). split; [left; reflexivity|].
    apply match_plain; [apply plainb_plain; vm_compute; reflexivity | reflexivity].
  - intros ((l1 & l2 & E & _) & _). destruct l1 as [|x [|y l1]]; try discriminate E. injection E as <- _. left. reflexivity.
Qed.
Lemma ex_kept_run : one_run ex_strict ex_cfg [ex_kept] [] (ex_start ++ ex_kept_in) (Up ex_kept_up).
Proof.
  split; [split; [apply Forall_app; split; [exact ex_start_ok | repeat (apply Forall_cons; [exact Logic.I|]); apply Forall_nil] | vm_compute; reflexivity]|].
  exists ex_start, ex_strict_up, ex_kept_in, AtMostOnce, ex_strict_subs, [ex_kept], [], []. split; [reflexivity|]. split; [exact ex_strict_after|].
  split; [vm_compute; reflexivity|]. split; [exact ex_strict_subscribed|]. split; [exact ex_kept_subscribing|]. split; [apply some_nil|]. split; [apply Forall_nil|]. vm_compute. reflexivity.
Qed.
Definition packets_of (d : bytes) : list packet := match drain d with Ok (ps, _) => ps | _ => [] end.
Definition ex_kept_packets : list packet := Eval vm_compute in packets_of (given_to_socket (Up ex_kept_up)).
Definition ex_kept_queries : list message := Eval vm_compute in removelast (catMaybes (map message_of ex_kept_packets)).
Theorem C140_once_refuted : exists cl cfg m c, g_retain m = true /\ asks cfg (content m) c /\ c = CmdArm (mkArmRequest 1 AL_Disarm (B "001234")) /\
  forall n, exists runs : list (list input), length runs = n /\
    Forall (fun is => exists u d e qs, one_run cl cfg [m] [] is (Up u) /\ given_to_socket (Up u) = d ++ e /\ understood d (qs ++ [into_msg c]) /\ Forall query qs) runs.
Proof.
  exists ex_strict, ex_cfg, ex_kept, ex_disarm_cmd. split; [reflexivity|].
  assert (AS : asks ex_cfg (content ex_kept) ex_disarm_cmd).
  { exists 1, (B "house"), AL_Disarm, (B "001234"). split; [left; reflexivity|]. split; [reflexivity|]. split; [left; reflexivity|]. split; [|reflexivity].
    split; [reflexivity|]. split; [repeat (apply Forall_cons; [vm_compute; split; intros X; discriminate X|]); apply Forall_nil | vm_compute; reflexivity]. }
  split; [exact AS|]. split; [reflexivity|].
  intros n. exists (repeat (ex_start ++ ex_kept_in) n). split; [apply repeat_length|]. apply Forall_forall. intros is I. apply repeat_spec in I. subst is.
  exists ex_kept_up, (given_to_socket (Up ex_kept_up)), [], ex_kept_queries. split; [exact ex_kept_run|]. split; [symmetry; apply app_nil_r|].
  split; [exists ex_kept_packets, []; split; vm_compute; reflexivity|]. repeat (apply Forall_cons; [exact Logic.I|]). apply Forall_nil.
Qed.

(* Otherwise true: if the broker keeps nothing that asks for a command, then all commands that a run gives to the panel were asked for by
   messages published while it ran, each by one of its own, in order. *)
Lemma some_of_firstn {A} k : forall l g : list A, some_of l g -> some_of l (firstn k g).
Proof.
  intros l g H. revert k. induction H as [|x l g H IH|x l g H IH]; intros k.
  - rewrite firstn_nil. apply some_nil.
  - destruct k as [|k]; cbn [firstn]; [|apply some_take, IH]. apply some_skip. exact (IH O).
  - apply some_skip, IH.
Qed.
Theorem C140_only_while_running_partial : forall cl cfg before during is b d e,
  one_run cl cfg before during is b -> (forall m c, keeps before m -> ~ asks cfg (content m) c) -> given_to_socket b = d ++ e ->
  exists qs cs got more, understood d (qs ++ map into_msg cs) /\ Forall query qs /\ some_of during got /\ asked_for cfg (map content got) (cs ++ more).
Proof.
  intros cl cfg before during is b d e (A & is0 & u0 & is1 & q & fs & kept & got & later & -> & _ & E0 & _ & (_ & OS) & SO & _ & EM) NK ED.
  destruct (C129_received _ _ _ _ d e A ED) as (qs & cs & handled & rest & more & U & Q & EH & (os & F & EC) & _).
  rewrite mqtt_in_app, E0 in EH. cbn [app] in EH. rewrite EH, <- app_assoc in EM.
  assert (X : handled = map content (firstn (length handled) (kept ++ got))) by (rewrite <- firstn_map, EM; symmetry; apply firstn_exact; reflexivity).
  remember (length handled) as k. rewrite firstn_app, map_app in X. subst handled. apply Forall2_app_inv_l in F as (os1 & os2 & F1 & F2 & ->).
  assert (Z : catMaybes os1 = []).
  { assert (G : forall ms, (forall m, In m ms -> In m kept) -> forall os, Forall2 (asked cfg) (map content ms) os -> catMaybes os = []).
    { induction ms as [|m ms IH]; intros HI os F; inversion F as [|? o ? os' HO HR]; subst; [reflexivity|]. destruct o as [c|].
      - elim (NK m c); [apply OS, HI; left; reflexivity | exact HO].
      - cbn [catMaybes]. apply (IH (fun m I => HI m (or_intror I)) os' HR). }
    apply (G (firstn k kept)); [|exact F1]. intros m I. rewrite <- (firstn_skipn k kept). apply in_app_iff. left. exact I. }
  exists qs, cs, (firstn (k - length kept) got), more. split; [exact U|]. split; [exact Q|]. split; [apply some_of_firstn; exact SO|]. exists os2. split; [exact F2|].
  rewrite <- EC, catMaybes_app, Z. reflexivity.
Qed.

(* a run with a command that is published while it runs, and with something kept that asks for nothing *)
Definition ex_old : gmessage := mkGiven (B "elkm1/0001/area/house/ha_command") (B "TRIGGER") true.
Definition ex_now : gmessage := mkGiven (B "elkm1/0001/area/house/ha_command") (B "ARM_AWAY") false.
Definition ex_once_in : list input :=
  [MqttArrive (B "elkm1/0001/area/house/ha_command") (B "TRIGGER"); PollRx; MqttArrive (B "elkm1/0001/area/house/ha_command") (B "ARM_AWAY"); PollRx; PollSend [WAccept 100]].
Definition ex_once_up : up := Eval vm_compute in up_of (brun ex_strict ex_cfg (ex_start ++ ex_once_in)).
Definition ex_once_packets : list packet := Eval vm_compute in packets_of (given_to_socket (Up ex_once_up)).
Example C140_example :
  one_run ex_strict ex_cfg [ex_old] [ex_now] (ex_start ++ ex_once_in) (Up ex_once_up) /\ (forall m c, keeps [ex_old] m -> ~ asks ex_cfg (content m) c) /\
  (exists qs, understood (given_to_socket (Up ex_once_up)) (qs ++ [MArmRequest (mkArmRequest 1 AL_ArmedAway (B "001234"))])) /\
  (* C140_kept_refuted *)
  bridge_after ex_strict ex_cfg ex_start (Up ex_strict_up) /\ u_mode ex_strict_up = Selecting /\ outstanding (u_panel ex_strict_up) = [] /\ u_rx ex_strict_up = [].
Proof.
  assert (M : forall m, subscribed ex_strict_subs m <-> g_topic m = B "elkm1/0001/area/house/ha_command").
  { intros m. assert (P : plain_topic (B "elkm1/0001/area/house/ha_command")) by (apply plainb_plain; vm_compute; reflexivity). split.
    - intros (f & [<-|[]] & X). apply (match_plain _ _ P) in X. exact X.
    - intros X. exists (B "elkm1/0001/area/house/ha_command"). split; [left; reflexivity|]. apply (match_plain _ _ P). exact X. }
  assert (K : forall m, keeps [ex_old] m -> m = ex_old).
  { intros m (l1 & l2 & E & _). destruct l1 as [|x [|y l1]]; try discriminate E. injection E as <- _. reflexivity. }
  split; [|split; [|split; [|split; [exact ex_strict_after | split; [reflexivity | split; reflexivity]]]]].
  - split; [split; [apply Forall_app; split; [exact ex_start_ok | repeat (apply Forall_cons; [exact Logic.I|]); apply Forall_nil] | vm_compute; reflexivity]|].
    exists ex_start, ex_strict_up, ex_once_in, AtMostOnce, ex_strict_subs, [ex_old], [ex_now], []. split; [reflexivity|]. split; [exact ex_strict_after|].
    split; [vm_compute; reflexivity|]. split; [exact ex_strict_subscribed|]. split; [split; [apply NoDup_cons; [intros [] | apply NoDup_nil]|]|].
    { intros m. split.
      - intros [<-|[]]. split; [|apply M; reflexivity]. exists [], []. split; [reflexivity|]. split; [reflexivity|]. split; [discriminate | intros m' []].
      - intros (X & _). left. symmetry. exact (K m X). }
    split; [apply some_take, some_nil|]. split; [apply Forall_cons; [apply M; reflexivity | apply Forall_nil]|]. vm_compute. reflexivity.
  - intros m c X. rewrite (K m X). intros (a & n & lv & k & _ & _ & P & _). cbn in P. destruct P as [P|[P|[P|[]]]]; discriminate P.
  - exists ex_kept_queries, ex_once_packets, []. split; vm_compute; reflexivity.
Qed.

Print Assumptions C140_kept_refuted.
Print Assumptions C140_once_refuted.
Print Assumptions C140_only_while_running_partial.
