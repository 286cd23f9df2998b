(* PropFits.v: C145, the size of what is published besides the events (elkm1-mqtt/src/main.rs:144-187, 223-279, 434-442). *)
From Verif Require Import Base BaseFacts Pkt SpecPkt Msg SpecMsg Tokio SpecConn State SpecState Serde SerdeFacts Mqtt SpecMqtt MqttFacts
  StateFacts RunFacts HistFacts ViewFacts PropMqtt Config SpecConfig PropConfig BridgeText JsonText JsonWrite PropText SpecSize PropSize PropSizeAscii SpecModest.
From Coq Require Import ZifyBool ZifyNat ZifyN.
Ltac Zify.zify_post_hook ::= Z.div_mod_to_equations.

Lemma prefix_len cfg : modest cfg -> (length (topic_prefix cfg) <= 106)%nat.
Proof.
  intros (H & H1 & _). unfold topic_prefix. destruct (cfg_topic_prefix cfg) as [p|]; [specialize (H1 p eq_refl); lia|]. rewrite app_length. cbn [length]. change (length (B "elkm1/")) with 6%nat. lia.
Qed.
Lemma area_text_len r a s : ha_area_state r a = Ok s -> (length s <= 20)%nat.
Proof.
  unfold ha_area_state. intros E. repeat (apply bind_inv in E as (? & _ & E)).
  repeat match type of E with (if ?b then _ else _) = _ => destruct b end; injection E as <-; try (cbn; lia).
  match goal with |- context [match ?x with _ => _ end] => destruct x end; cbn; lia.
Qed.
Lemma zone_text_len z s : ha_zone_state z = Ok s -> (length s <= 20)%nat.
Proof. unfold ha_zone_state. intros E. apply bind_inv in E as (l & _ & E). injection E as <-. destruct l; cbn; lia. Qed.
Lemma u8_text_len n : (length (show_u8 n) <= 3)%nat.
Proof. unfold show_u8. destruct (n <? 10); [cbn; lia|]. destruct (n <? 100); cbn; lia. Qed.
Lemma sz_device cfg : (length (serial_number cfg) <= 100)%nat -> sz 1 (device_json cfg) 900.
Proof.
  intros H. eapply sz_mono.
  - apply (sz_obj 1 [B "manufacturer"; B "model"; B "identifiers"] [ser_str (B "Elk Products"); ser_str (B "M1"); ser_list ser_str [serial_number cfg]]).
    constructor; [apply (sz_str _ _ 12); cbn; lia|]. constructor; [apply (sz_str _ _ 2); cbn; lia|]. constructor; [|constructor].
    apply (sz_list _ _ 1 602); [reflexivity|]. constructor; [apply (sz_str _ _ 100 H) | constructor].
  - cbn [ob]. cbn -[Nat.mul Nat.add]. lia.
Qed.
Lemma id_len cfg n : (length (serial_number cfg) <= 100)%nat -> (length (area_unique_id cfg n) <= 113)%nat /\ (length (zone_unique_id cfg n) <= 113)%nat.
Proof.
  intros H. unfold area_unique_id, zone_unique_id. rewrite !app_length. pose proof (u8_text_len n).
  change (length (B "elk-")) with 4%nat. change (length (B "-area-")) with 6%nat. change (length (B "-zone-")) with 6%nat. lia.
Qed.
Lemma area_json_len cfg n name : modest cfg -> (length name <= 100)%nat -> (length (to_string_pretty (area_discovery_json (topic_prefix cfg) cfg n name)) <= N.to_nat 8000)%nat.
Proof.
  intros M L. pose proof (prefix_len cfg M) as LP. destruct M as (LS & _). destruct (id_len cfg n LS) as [LI _].
  assert (F : Forall2 (sz 1) [ser_str (availability_topic (topic_prefix cfg)); ser_str (area_state_topic (topic_prefix cfg) name); ser_str (area_command_topic (topic_prefix cfg) name);
      ser_str (area_unique_id cfg n); ser_str name; device_json cfg] [2 + 6 * 120; 2 + 6 * 222; 2 + 6 * 224; 2 + 6 * 113; 2 + 6 * 100; 900]%nat).
  { unfold availability_topic, area_state_topic, area_command_topic.
    constructor; [apply sz_str; rewrite app_length; change (length (B "/availability")) with 13%nat; lia|].
    constructor; [apply sz_str; rewrite !app_length; change (length (B "/area/")) with 6%nat; change (length (B "/ha_state")) with 9%nat; lia|].
    constructor; [apply sz_str; rewrite !app_length; change (length (B "/area/")) with 6%nat; change (length (B "/ha_command")) with 11%nat; lia|].
    constructor; [apply sz_str, LI|]. constructor; [apply sz_str, L|]. constructor; [apply sz_device, LS | constructor]. }
  pose proof (sz_obj 0 [B "availability_topic"; B "state_topic"; B "command_topic"; B "unique_id"; B "name"; B "device"] _ _ F 0%nat (le_n 0)) as Z.
  unfold to_string_pretty, area_discovery_json. eapply Nat.le_trans; [exact Z|]. cbn [ob]. cbn -[Nat.mul Nat.add]. lia.
Qed.
Lemma zone_json_len cfg n z : modest cfg -> (length (z_name z) <= 100)%nat -> (length (z_class z) <= 100)%nat ->
  (length (to_string_pretty (zone_discovery_json (topic_prefix cfg) cfg n z)) <= N.to_nat 8000)%nat.
Proof.
  intros M L LC. pose proof (prefix_len cfg M) as LP. destruct M as (LS & _). destruct (id_len cfg n LS) as [_ LI].
  assert (F : Forall2 (sz 1) [ser_str (availability_topic (topic_prefix cfg)); ser_str (zone_state_topic (topic_prefix cfg) (z_name z));
      ser_str (zone_unique_id cfg n); ser_str (z_name z); device_json cfg; ser_str (z_class z)] [2 + 6 * 120; 2 + 6 * 222; 2 + 6 * 113; 2 + 6 * 100; 900; 2 + 6 * 100]%nat).
  { unfold availability_topic, zone_state_topic.
    constructor; [apply sz_str; rewrite app_length; change (length (B "/availability")) with 13%nat; lia|].
    constructor; [apply sz_str; rewrite !app_length; change (length (B "/zone/")) with 6%nat; change (length (B "/ha_state")) with 9%nat; lia|].
    constructor; [apply sz_str, LI|]. constructor; [apply sz_str, L|]. constructor; [apply sz_device, LS|]. constructor; [apply sz_str, LC | constructor]. }
  pose proof (sz_obj 0 [B "availability_topic"; B "state_topic"; B "unique_id"; B "name"; B "device"; B "device_class"] _ _ F 0%nat (le_n 0)) as Z.
  unfold to_string_pretty, zone_discovery_json. eapply Nat.le_trans; [exact Z|]. cbn [ob]. cbn -[Nat.mul Nat.add]. lia.
Qed.
Lemma areas_fit cl cfg p : modest cfg -> Forall fits (fst (publish_area_states cl p (topic_prefix cfg) (areas cfg))).
Proof.
  intros M. pose proof (prefix_len cfg M) as LP. destruct M as (_ & _ & _ & MA & _). rewrite Forall_forall in MA.
  apply each_log_in. intros [n name] I. specialize (MA _ I). cbn [snd] in MA.
  repeat (apply PropText.obind_log_ok; [apply lift_log|intros ? ?]). apply publish_log. intros _. cbn [payload_text].
  match goal with H : snd (lift (ha_area_state _ _)) = Ok _ |- _ => apply area_text_len in H; unfold area_state_topic; rewrite !app_length; change (length (B "/area/")) with 6%nat; change (length (B "/ha_state")) with 9%nat; unfold client_limit; lia end.
Qed.
Lemma zone_fits cl cfg p z z' c : modest cfg -> In (z', c) (zones cfg) -> Forall fits (fst (publish_zone_state cl p (topic_prefix cfg) z c)).
Proof.
  intros M I. pose proof (prefix_len cfg M) as LP. destruct M as (_ & _ & _ & _ & MZ). rewrite Forall_forall in MZ. destruct (MZ _ I) as [L _]. cbn [snd] in L.
  repeat (apply PropText.obind_log_ok; [apply lift_log|intros ? ?]). apply publish_log. intros _. cbn [payload_text].
  match goal with H : snd (lift (ha_zone_state _)) = Ok _ |- _ => apply zone_text_len in H; unfold zone_state_topic; rewrite !app_length; change (length (B "/zone/")) with 6%nat; change (length (B "/ha_state")) with 9%nat; unfold client_limit; lia end.
Qed.
Lemma event_fits cl cfg p e : modest cfg -> Forall fits (fst (handle_event cl cfg p e)).
Proof.
  intros M. apply obind_log; [apply lift_log|]. intros v. apply obind_log; [apply publish_log; discriminate|].
  intros _. destruct (e_change e) as [[z s|prior]|]; [|apply areas_fit, M|constructor].
  pose proof (find_key (zones cfg) z) as F. destruct (find _ (zones cfg)) as [[k c]|]; [|constructor]. destruct F as [-> F]. eapply zone_fits; eauto.
Qed.
Lemma start_fits cl cfg p : modest cfg -> Forall fits (fst (start_up cl cfg p)).
Proof.
  intros M. pose proof (prefix_len cfg M) as LP. unfold start_up. apply obind_log; [apply lift_log|]. intros code'.
  apply obind_log; [|intros _; apply obind_log; [apply areas_fit, M|]; intros _; apply obind_log; [|intros _; apply obind_log; [|intros _; apply obind_log; [|constructor]]]].
  - destruct (ha_discovery_prefix cfg) as [ha|] eqn:EH; [|constructor]. pose proof M as (LS & _ & LH & MA & MZ). specialize (LH ha EH). rewrite Forall_forall in MA, MZ.
    apply obind_log; [|intros _]; apply each_log_in; intros [n x] I; apply publish_log; intros _; cbn [payload_text]; destruct (id_len cfg n LS) as [L1 L2]; rewrite !app_length.
    + pose proof (area_json_len cfg n x M (MA _ I)). change (length (B "/alarm_control_panel/")) with 21%nat. change (length (B "/config")) with 7%nat. unfold client_limit. lia.
    + destruct (MZ _ I) as [LN LC]. pose proof (zone_json_len cfg n x M LN LC). change (length (B "/binary_sensor/")) with 15%nat. change (length (B "/config")) with 7%nat. unfold client_limit. lia.
  - apply each_log_in. intros [n z] I. apply obind_log; [apply lift_log|]. intros k. eapply zone_fits; eauto.
  - unfold subscribe_many. destruct (filters_ok cl _); constructor; [exact Logic.I | constructor].
  - apply publish_log. intros _. unfold availability_topic. rewrite app_length. change (length (B "/availability")) with 13%nat. cbn [payload_text]. change (length (B "online")) with 6%nat. unfold client_limit. lia.
Qed.
(* what holds of all that is done at the start and for an event holds of all that is ever done *)
Lemma log_all (P : action -> Prop) cl cfg is b : (forall p, Forall P (fst (start_up cl cfg p))) -> (forall p e, Forall P (fst (handle_event cl cfg p e))) ->
  bridge_after cl cfg is b -> Forall P (blog b).
Proof.
  intros HS HE (HI & E). subst b. induction is as [|i is IH] using rev_ind; [constructor|]. apply Forall_app in HI as [HI _]. specialize (IH HI). rewrite brun_snoc.
  destruct (brun cl cfg is) as [s rx|u|l w]; [| |exact IH].
  - destruct i as [a|t pl| |now ws|now| |ws]; cbn [bstep]; try constructor. unfold after_connect. destruct (istep now ws s) as [st ph p|p|er|why]; try constructor.
    pose proof (HS p) as H. unfold settle. destruct (start_up cl cfg p) as [l [c|er|why]]; exact H.
  - cbn [blog] in IH. assert (F : forall ws v, u_log v = u_log u -> Forall P (blog (poll_send_flush ws v))).
    { intros ws v EV. unfold poll_send_flush. destruct (poll_flush ws (u_panel v)) as [p [|[[]|e]]]; cbn; rewrite EV; exact IH. }
    destruct i as [a|t pl| |now ws|now| |ws]; cbn [bstep]; try exact IH.
    + destruct (u_mode u); try exact IH. destruct (poll_next now (u_panel u)) as [[[p [|[[e|er]|]]] w]|er|why]; try exact IH.
      pose proof (HE p e) as H. unfold settle. destruct (handle_event cl cfg p e) as [l [[]|er|why]]; cbn [blog u_log]; apply Forall_app; auto.
    + destruct (u_mode u); try exact IH. destruct (u_rx u) as [|[t pl] rx]; try exact IH. destruct (requested _ _ _ _ _) as [[c|]|er|why]; exact IH.
    + destruct (u_mode u); try exact IH; [|apply F; reflexivity]. destruct (poll_ready TASK ws (u_panel u)) as [p [|[[]|e]]]; try exact IH.
      destruct (start_send c p); try exact IH. apply F. reflexivity.
Qed.
(* Whatever becomes of the bridge, all it publishes besides the events leaves 1000 bytes of the client's limit. *)
Theorem C145_states_and_announcements_fit : forall cl cfg is b, bridge_after cl cfg is b -> modest cfg -> Forall fits (blog b).
Proof. intros cl cfg is b A K. apply (log_all fits cl cfg is b); [intros p; apply start_fits, K | intros p e; apply event_fits, K | exact A]. Qed.
(* The subscription *)
Definition sub_is (cfg : Cfg) (a : action) : Prop :=
  match a with ASubscribeQ _ fs => fs = map (fun '(_, name) => area_command_topic (topic_prefix cfg) name) (areas cfg) | _ => True end.
Lemma areas_sub cl cfg p : Forall (sub_is cfg) (fst (publish_area_states cl p (topic_prefix cfg) (areas cfg))).
Proof. apply each_log_in. intros [n name] _. repeat (apply obind_log; [apply lift_log|intros ?]). apply publish_log. exact Logic.I. Qed.
Lemma zone_sub cl cfg p z c : Forall (sub_is cfg) (fst (publish_zone_state cl p (topic_prefix cfg) z c)).
Proof. repeat (apply obind_log; [apply lift_log|intros ?]). apply publish_log. exact Logic.I. Qed.
Lemma event_sub cl cfg p e : Forall (sub_is cfg) (fst (handle_event cl cfg p e)).
Proof.
  apply obind_log; [apply lift_log|]. intros v. apply obind_log; [apply publish_log; exact Logic.I|].
  intros _. destruct (e_change e) as [[z s|prior]|]; [|apply areas_sub|constructor]. destruct (find _ (zones cfg)) as [[k c]|]; [apply zone_sub | constructor].
Qed.
Lemma start_sub cl cfg p : Forall (sub_is cfg) (fst (start_up cl cfg p)).
Proof.
  unfold start_up. apply obind_log; [apply lift_log|]. intros code'.
  apply obind_log; [|intros _; apply obind_log; [apply areas_sub|]; intros _; apply obind_log; [|intros _; apply obind_log; [|intros _; apply obind_log; [|constructor]]]].
  - destruct (ha_discovery_prefix cfg) as [ha|]; [|constructor]. apply obind_log; [|intros _]; apply each_log_in; intros [n x] _; apply publish_log; exact Logic.I.
  - apply each_log_in. intros [n z] _. apply obind_log; [apply lift_log|]. intros k. apply zone_sub.
  - unfold subscribe_many. destruct (filters_ok cl _); constructor; [reflexivity | constructor].
  - apply publish_log. exact Logic.I.
Qed.
Lemma few_areas cfg : cfg_ok cfg -> SpecMqtt.in_range cfg -> (length (areas cfg) <= 8)%nat.
Proof.
  intros ((ND & _) & _) (RA & _). rewrite <- (map_length fst). change 8%nat with (length [1; 2; 3; 4; 5; 6; 7; 8]). apply NoDup_incl_length; [exact ND|].
  intros a Ha. apply in_map_iff in Ha as (x & <- & Hx). rewrite Forall_forall in RA. specialize (RA _ Hx). unfold area_ok in RA. cbn [In]. lia.
Qed.
Theorem C145_subscription_fits : forall cl cfg is u q fs, bridge_after cl cfg is (Up u) -> cfg_ok cfg -> modest cfg -> In (ASubscribeQ q fs) (u_log u) ->
  N.of_nat (list_sum (map (fun f => length f + 3) fs)%nat) + 1000 <= client_limit.
Proof.
  intros cl cfg is u q fs A K M I. pose proof (log_all (sub_is cfg) cl cfg is (Up u) (start_sub cl cfg) (event_sub cl cfg) A) as F. rewrite Forall_forall in F. specialize (F _ I). cbn [sub_is] in F. subst fs.
  destruct (up_log cl cfg is u _ A (loop_not_availability cfg)) as (u0 & l & (C & E & _) & _).
  destruct (start_up_ok _ _ _ _ _ (connected_reachable _ C) E) as (R & _). pose proof (few_areas cfg K R) as L8. pose proof (prefix_len cfg M) as LP. destruct M as (_ & _ & _ & MA & _).
  assert (S : (list_sum (map (fun f => length f + 3) (map (fun '(_, name) => area_command_topic (topic_prefix cfg) name) (areas cfg))) <= 226 * length (areas cfg))%nat).
  { clear -MA LP. induction MA as [|[n name] l H F IH]; [cbn; lia|]. cbn [map length snd] in *. rewrite sum_cons. unfold area_command_topic at 1. rewrite !app_length.
    change (length (B "/area/")) with 6%nat. change (length (B "/ha_command")) with 11%nat. lia. }
  unfold client_limit. lia.
Qed.
(* So of all that is published, only events can be too large; which ones is C144. *)
Theorem C145_only_events_can_be_too_large : forall cl cfg is u q t retain pl,
  bridge_after cl cfg is (Up u) -> cfg_ok cfg -> modest cfg -> In (APublishQ q t retain pl) (u_log u) -> client_limit < N.of_nat (length t + length (payload_text pl)) ->
  retain = false /\ t = topic_prefix cfg ++ B "/event".
Proof.
  intros cl cfg is u q t retain pl A K M I L. pose proof (C145_states_and_announcements_fit _ _ _ _ A M) as F. rewrite Forall_forall in F. specialize (F _ I). cbn [fits] in F.
  assert (R : retain = false) by (destruct retain; [specialize (F eq_refl); lia | reflexivity]). split; [exact R|].
  pose proof (C68_only_these_topics _ _ _ _ A K) as P. rewrite Forall_forall in P. destruct (P _ I) as (_ & w & T & _ & E). apply E in R. subst w. exact T.
Qed.
Lemma ex_modest : modest ex_cfg.
Proof.
  split; [cbn; lia|]. split; [discriminate|]. split; [intros p [= <-]; cbn; lia|]. split; [constructor; [cbn; lia | constructor]|]. constructor; [split; cbn; lia | constructor].
Qed.
Example C145_example :
  bridge_after ex_cl ex_cfg ex_start (Up ex_up) /\ modest ex_cfg /\ map pub_size (u_log ex_up) = [326; 297; 8; 2; 0; 6]%nat /\
  In (ASubscribe [B "elkm1/0001/area/house/ha_command"]) (u_log ex_up) /\ bridge_after ex_cl ex_cfg (ex_start ++ ex_noise) (Up ex_noise_up).
Proof.
  split; [exact ex_up_after|]. split; [exact ex_modest|]. split; [vm_compute; reflexivity|]. split; [vm_compute; do 4 right; left; reflexivity | exact ex_noise_after].
Qed.
Print Assumptions C145_states_and_announcements_fit.
Print Assumptions C145_only_events_can_be_too_large.
Print Assumptions C145_subscription_fits.
