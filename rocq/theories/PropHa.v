(* PropHa.v: the property C115: whether Home Assistant understands the bridge, and the bridge Home Assistant. *)
From Verif Require Import Base BaseFacts Pkt SpecPkt PktFacts DecodeFacts Msg SpecMsg DecFacts MsgFacts WireFacts IsoFacts
  Tokio SpecConn ConnFacts State SpecState StateFacts RunFacts HistFacts ExState PropState PropMsg Serde SerdeFacts PropSerde
  Mqtt MqttFacts Config SpecMqtt SpecConfig PropMqtt PropConfig BridgeText SpecJson JsonFacts JsonWrite ShowFacts TextFacts PropText SpecHa.
From Coq Require Import ZifyBool ZifyNat ZifyN.
Ltac Zify.zify_post_hook ::= Z.div_mod_to_equations.

(* The announcements, as values. *)
Lemma area_announcement cl cfg is u ha area name : bridge_after cl cfg is (Up u) -> cfg_ok cfg -> ha_discovery_prefix cfg = Some ha -> In (area, name) (areas cfg) ->
  holds (u_log u) (ha ++ B "/" ++ B "alarm_control_panel" ++ B "/" ++ area_unique_id cfg area ++ B "/config") (PJson (area_discovery_json (topic_prefix cfg) cfg area name)) /\
  exists fs, In (ASubscribe fs) (u_log u) /\ In (topic_prefix cfg ++ B "/area/" ++ name ++ B "/ha_command") fs.
Proof.
  intros A ((KA & UA) & _) HH HI. destruct (up_discovery _ _ _ _ _ A HH) as (la & lz & rest & EL & NC & LA & LZ & IS).
  assert (U : forall y, In y (areas cfg) -> digits (show_u8 (fst y)) /\ dec_value (show_u8 (fst y)) = fst y).
  { intros y Hy. rewrite Forall_forall in UA. apply show_u8_spec, UA, Hy. }
  split; [|eexists; split; [exact IS|]; apply in_map_iff; exists (area, name); auto].
  assert (X : holds la (ha ++ B "/alarm_control_panel/" ++ area_unique_id cfg area ++ B "/config") (PJson (area_discovery_json (topic_prefix cfg) cfg area name))).
  { refine (holds_keyed (fun x => ha ++ B "/alarm_control_panel/" ++ area_unique_id cfg (fst x) ++ B "/config")
      (fun x => PJson (area_discovery_json (topic_prefix cfg) cfg (fst x) (snd x))) (areas cfg) la (area, name) LA _ HI).
    intros [a n] Hy EQ. cbn [fst] in EQ. apply app_inv_head in EQ. apply app_inv_head in EQ. apply app_inv_tail in EQ. unfold area_unique_id in EQ.
    do 3 apply app_inv_head in EQ. destruct (U _ HI) as [_ U1], (U _ Hy) as [_ U2]. cbn [fst] in *. assert (a = area) by congruence. subst a.
    f_equal. eapply key_unique; eauto. }
  rewrite EL. change (B "/" ++ B "alarm_control_panel" ++ B "/" ++ area_unique_id cfg area ++ B "/config") with (B "/alarm_control_panel/" ++ area_unique_id cfg area ++ B "/config").
  rewrite !app_assoc. apply config_held; [|exact NC]. rewrite <- !app_assoc. apply holds_left; [exact X|]. clear -LZ.
  induction LZ as [|x a xs l -> _ IH]; constructor; auto. intros (qq & rr & H). injection H as _ H _. apply app_inv_head in H. discriminate.
Qed.
Lemma zone_announcement cl cfg is u ha zone z : bridge_after cl cfg is (Up u) -> cfg_ok cfg -> ha_discovery_prefix cfg = Some ha -> In (zone, z) (zones cfg) ->
  holds (u_log u) (ha ++ B "/" ++ B "binary_sensor" ++ B "/" ++ zone_unique_id cfg zone ++ B "/config") (PJson (zone_discovery_json (topic_prefix cfg) cfg zone z)).
Proof.
  intros A (_ & (KZ & UZ)) HH HI. destruct (up_discovery _ _ _ _ _ A HH) as (la & lz & rest & EL & NC & LA & LZ & IS).
  assert (U : forall y, In y (zones cfg) -> digits (show_u8 (fst y)) /\ dec_value (show_u8 (fst y)) = fst y).
  { intros y Hy. rewrite Forall_forall in UZ. apply show_u8_spec, UZ, Hy. }
  assert (X : holds lz (ha ++ B "/binary_sensor/" ++ zone_unique_id cfg zone ++ B "/config") (PJson (zone_discovery_json (topic_prefix cfg) cfg zone z))).
  { refine (holds_keyed (fun x => ha ++ B "/binary_sensor/" ++ zone_unique_id cfg (fst x) ++ B "/config")
      (fun x => PJson (zone_discovery_json (topic_prefix cfg) cfg (fst x) (snd x))) (zones cfg) lz (zone, z) LZ _ HI).
    intros [a n] Hy EQ. cbn [fst] in EQ. apply app_inv_head in EQ. apply app_inv_head in EQ. apply app_inv_tail in EQ. unfold zone_unique_id in EQ.
    do 3 apply app_inv_head in EQ. destruct (U _ HI) as [_ U1], (U _ Hy) as [_ U2]. cbn [fst] in *. assert (a = zone) by congruence. subst a.
    f_equal. eapply key_unique; eauto. }
  rewrite EL. change (B "/" ++ B "binary_sensor" ++ B "/" ++ zone_unique_id cfg zone ++ B "/config") with (B "/binary_sensor/" ++ zone_unique_id cfg zone ++ B "/config").
  rewrite !app_assoc. apply config_held; [|exact NC]. rewrite <- !app_assoc. apply holds_right. exact X.
Qed.
Lemma holds_in log t p : holds log t p -> exists q, In (APublishQ q t true p) log.
Proof. intros (q & l1 & l2 & -> & _). exists q. apply in_app_iff. right. left. reflexivity. Qed.
Lemma text_setup file r : main_text file = Ok r -> exists v, main_setup v = Ok r.
Proof. unfold main_text. intros H. apply bind_inv in H as (v & _ & H). eauto. Qed.
Lemma setup_ok file o h cfg : main_text file = Ok (o, h, cfg) -> cfg_ok cfg.
Proof. intros H. destruct (proj1 (C80_configuration_text file) o h cfg H) as (v & c & _ & _ & _ & _ & K). exact K. Qed.
Lemma will_of file o h cfg : main_text file = Ok (o, h, cfg) -> exists v, main_setup v = Ok (o, h, cfg).
Proof. apply text_setup. Qed.
(* the members of an announcement *)
Lemma member_in fields k x : NoDup (map fst fields) -> In (k, x) fields -> member (VObj fields) k x.
Proof.
  intros ND HI. exists fields. split; [reflexivity|]. split; [exact HI|]. intros y HY.
  apply In_nth_error in HI as (i & Ei), HY as (j & Ej). assert (i = j) as <-; [|congruence].
  apply (proj1 (NoDup_nth_error _) ND); [rewrite map_length; apply nth_error_Some; congruence|]. rewrite (map_nth_error _ _ _ Ei), (map_nth_error _ _ _ Ej). reflexivity.
Qed.
Lemma text_in fields k s : NoDup (map fst fields) -> In (k, ser_str s) fields -> text_member (VObj fields) k s.
Proof. intros ND HI. exists (needs_escape s). apply member_in; assumption. Qed.
Lemma area_keys prefix cfg area name : exists fields, area_discovery_json prefix cfg area name = VObj fields /\ NoDup (map fst fields) /\
  map fst fields = [B "availability_topic"; B "state_topic"; B "command_topic"; B "unique_id"; B "name"; B "device"].
Proof. eexists. split; [reflexivity|]. split; [|reflexivity]. cbn [map fst]. repeat constructor; cbn [In]; intuition discriminate. Qed.
Lemma zone_keys prefix cfg zone z : exists fields, zone_discovery_json prefix cfg zone z = VObj fields /\ NoDup (map fst fields) /\
  map fst fields = [B "availability_topic"; B "state_topic"; B "unique_id"; B "name"; B "device"; B "device_class"].
Proof. eexists. split; [reflexivity|]. split; [|reflexivity]. cbn [map fst]. repeat constructor; cbn [In]; intuition discriminate. Qed.
Lemma device_is cfg : forall v, member v (B "device") (device_json cfg) -> of_device v (B "Elk Products") (B "M1") (serial_number cfg).
Proof.
  intros v H. exists (device_json cfg), (needs_escape (serial_number cfg)). split; [exact H|].
  assert (ND : NoDup [B "manufacturer"; B "model"; B "identifiers"]) by (repeat constructor; cbn [In]; intuition discriminate).
  split; [|split]; [apply text_in | apply text_in | apply member_in]; try exact ND; cbn [In]; tauto.
Qed.
Lemma id_chars s : forallb (fun c => between (ch "0") (ch "9") c || between (ch "a") (ch "z") c || between (ch "A") (ch "Z") c || (c =? ch "_") || (c =? ch "-")) s = true -> Forall id_char s.
Proof.
  intros H. apply Forall_forall. intros c Hc. rewrite forallb_forall in H. specialize (H c Hc). unfold between, id_char in *.
  rewrite !orb_true_iff, !andb_true_iff, !N.leb_le, !N.eqb_eq in H. tauto.
Qed.
Lemma digits_id s : digits s -> Forall id_char s.
Proof. intros H. eapply Forall_impl; [|exact H]. intros c Hc. left. exact Hc. Qed.
Lemma setting_default v k d s : no_member v k -> setting v k d s -> s = d.
Proof.
  intros (f & -> & N) [(e & f' & [= <-] & H & _)|[_ H]]; [|exact H]. elim N. apply in_map_iff. exists (k, VStr e s). auto.
Qed.
Lemma same_member v k x y : member v k x -> member v k y -> x = y.
Proof. intros (f & -> & H & _) (f' & [= <-] & _ & H'). apply H'. exact H. Qed.
Lemma same_text v k s s' : text_member v k s -> text_member v k s' -> s = s'.
Proof. intros (e & H) (e' & H'). pose proof (same_member _ _ _ _ H H') as [=]. assumption. Qed.

Lemma announced_one log ha component id v v' : announced log ha component id v -> announced log ha component id v' -> v = v'.
Proof. intros (p & H & D) (p' & H' & D'). pose proof (holds_fun _ _ _ _ H H') as <-. apply D', D. reflexivity. Qed.

(* Each area: Home Assistant finds it under an identifier of its own on the one device, knows it to be available, gets a state that it knows, which is the area's; and
   of the commands it may send three are honoured, the others ignored. *)
Theorem C115_areas_understood_partial : forall file o h cl cfg is u ha area name,
  main_text file = Ok (o, h, cfg) -> bridge_after cl cfg is (Up u) -> distinct_area_names cfg -> ha_discovery_prefix cfg = Some ha -> In (area, name) (areas cfg) ->
  exists id v st ct av t a,
    announced (u_log u) ha (B "alarm_control_panel") id v /\ (Forall id_char (serial_number cfg) -> Forall id_char id) /\ text_member v (B "unique_id") id /\
    (forall v', announced (u_log u) ha (B "alarm_control_panel") id v' -> v' = v) /\
    of_device v (B "Elk Products") (B "M1") (serial_number cfg) /\ text_member v (B "name") name /\
    text_member v (B "availability_topic") av /\ holds (u_log u) av (PText a) /\ takes_available v a /\
    text_member v (B "state_topic") st /\ holds (u_log u) st (PText t) /\ area_shown (u_panel u) area t /\ In t alarm_states /\
    text_member v (B "command_topic") ct /\ (exists fs, In (ASubscribe fs) (u_log u) /\ In ct fs) /\
    offers_all v /\ (forall action default, In (action, default) alarm_actions -> sends_for v action default) /\
    forall action s, sends_for v action s ->
      (forall level, In (action, level) honoured -> forall c, asks cfg (ct, s) c <-> exists code', dec_canon 6 (code cfg) code' /\ c = CmdArm (mkArmRequest area level code')) /\
      ((forall level, ~ In (action, level) honoured) -> forall c, ~ asks cfg (ct, s) c).
Proof.
  intros file o h cl cfg is u ha area name M A DN HH HI. pose proof (setup_ok _ _ _ _ M) as K. destruct (area_announcement _ _ _ _ _ _ _ A K HH HI) as [HO SUB].
  set (v := area_discovery_json (topic_prefix cfg) cfg area name) in *.
  destruct (C48_area_topics_match _ _ _ _ _ _ A DN HI) as (t & AS & HT).
  destruct (will_of _ _ _ _ M) as (v0 & M0). pose proof (C69_availability_retained _ _ _ _ _ _ _ M0 A) as AV. cbv zeta in AV. unfold broker_sees in AV. cbn [blog] in AV. rewrite app_nil_r in AV.
  exists (area_unique_id cfg area), v, (topic_prefix cfg ++ B "/area/" ++ name ++ B "/ha_state"), (topic_prefix cfg ++ B "/area/" ++ name ++ B "/ha_command"), (topic_prefix cfg ++ B "/availability"), t, (B "online").
  destruct (area_keys (topic_prefix cfg) cfg area name) as (fields & EF & ND & KS). fold v in EF.
  assert (NM : forall k, ~ In k [B "availability_topic"; B "state_topic"; B "command_topic"; B "unique_id"; B "name"; B "device"] -> no_member v k) by (intros k Hk; exists fields; rewrite KS; auto).
  assert (TM : forall k s, In (k, ser_str s) fields -> text_member v k s) by (intros k s Hk; rewrite EF; apply text_in; assumption).
  assert (AN : announced (u_log u) ha (B "alarm_control_panel") (area_unique_id cfg area) v).
  { exists (PJson v). split; [exact HO|]. destruct (holds_in _ _ _ HO) as (q & HIn). eapply C79_published_text; eauto. }
  unfold v, area_discovery_json in EF. injection EF as <-.
  split; [exact AN|]. split; [|split; [apply TM; cbn [In]; tauto|]]. 2: split; [intros v' AN'; exact (announced_one _ _ _ _ _ _ AN' AN)|].
  2: split; [|split; [apply TM; cbn [In]; tauto|split; [apply TM; cbn [In]; tauto|split; [exact AV|split; [|split; [apply TM; cbn [In]; tauto|split; [exact HT|split; [exact AS|split; [|split; [apply TM; cbn [In]; tauto|split; [exact SUB|split; [apply NM; cbn; intuition discriminate|split]]]]]]]]]]]].
  - intros F. unfold area_unique_id. apply Forall_app. split; [apply id_chars; reflexivity|]. apply Forall_app. split; [exact F|]. apply Forall_app. split; [apply id_chars; reflexivity|].
    apply digits_id. apply show_u8_spec. destruct K as ((_ & UA) & _). rewrite Forall_forall in UA. apply (UA _ HI).
  - apply device_is. apply member_in; [exact ND|]. cbn [In]. tauto.
  - right. split; [apply NM; cbn; intuition discriminate | reflexivity].
  - destruct AS as (r & s & up & al & _ & _ & SH). destruct SH as [[_ ->]|[[_ ->]|[(_ & _ & _ & ->)|(_ & _ & _ & SH)]]]; [cbn; tauto ..|].
    cbn in SH. repeat (destruct SH as [SH|SH]; [injection SH as _ <-; cbn; tauto|]). destruct SH.
  - intros action d HA. exists d. split; [exact HA|]. right. split; [|reflexivity]. apply NM. clear - HA. cbn in HA. intros X.
    repeat (destruct HA as [HA|HA]; [injection HA as <- _; cbn in X; intuition discriminate|]). destruct HA.
  - intros action s (d & HA & HS).
    assert (s = d) as ->.
    { eapply setting_default; [|exact HS]. apply NM. clear - HA. cbn in HA. intros X. repeat (destruct HA as [HA|HA]; [injection HA as <- _; cbn in X; intuition discriminate|]). destruct HA. }
    assert (AK : forall c, asks cfg (topic_prefix cfg ++ B "/area/" ++ name ++ B "/ha_command", d) c <->
      exists level code', In (d, level) payload_levels /\ dec_canon 6 (code cfg) code' /\ c = CmdArm (mkArmRequest area level code')).
    { intros c. split.
      - intros (area' & name' & level & code' & I' & ET & IL & DC & ->). cbn [fst snd] in *. do 2 apply app_inv_head in ET. apply app_inv_tail in ET. subst name'.
        exists level, code'. split; [exact IL|]. split; [exact DC|]. f_equal. f_equal.
        apply In_nth_error in HI as (i & Ei), I' as (j & Ej). assert (i = j) as <-; [|congruence].
        apply (proj1 (NoDup_nth_error _) DN); [rewrite map_length; apply nth_error_Some; congruence|]. rewrite (map_nth_error _ _ _ Ei), (map_nth_error _ _ _ Ej). reflexivity.
      - intros (level & code' & IL & DC & ->). exists area, name, level, code'. cbn [fst snd]. auto. }
    assert (LV : forall level, In (d, level) payload_levels <-> In (action, level) honoured).
    { clear - HA. intros level. cbn in HA. repeat (destruct HA as [HA|HA]; [injection HA as <- <-; cbn; split; intros X; repeat (destruct X as [X|X]; [try discriminate X; injection X as <-; tauto|]); destruct X|]). destruct HA. }
    split.
    + intros level HL c. rewrite AK. split.
      * intros (level' & code' & IL & DC & ->). exists code'. split; [exact DC|]. f_equal. f_equal. apply LV in IL. clear - IL HL. cbn in IL, HL.
        repeat (destruct HL as [HL|HL]; [injection HL as <- <-; repeat (destruct IL as [IL|IL]; [try discriminate IL; injection IL as <-; reflexivity|]); destruct IL|]). destruct HL.
      * intros (code' & DC & ->). exists level, code'. split; [apply LV; exact HL|]. auto.
    + intros NL c HC. apply AK in HC as (level & code' & IL & _). apply (NL level). apply LV. exact IL.
Qed.
(* False in full: Home Assistant is told of no limits, so it offers all seven commands, and "arm night" does nothing. *)
Theorem C115_areas_understood_refuted : exists file o h cl cfg is u ha id v ct action s, main_text file = Ok (o, h, cfg) /\ bridge_after cl cfg is (Up u) /\ distinct_area_names cfg /\
  announced (u_log u) ha (B "alarm_control_panel") id v /\ offers_all v /\ text_member v (B "command_topic") ct /\ sends_for v action s /\ action = B "payload_arm_night" /\ forall c, ~ asks cfg (ct, s) c.
Proof.
  destruct C79_example as ((o & h & M) & A & _). assert (DN : distinct_area_names ex_cfg) by (repeat constructor; intros []).
  destruct (C115_areas_understood_partial ex_text o h ex_cl ex_cfg ex_start ex_up (B "homeassistant") 1 (B "house") M A DN eq_refl (or_introl eq_refl))
    as (id & v & st & ct & av & t & a & AN & _ & _ & _ & _ & _ & _ & _ & _ & _ & _ & _ & _ & CT & _ & OF & SE & SF).
  exists ex_text, o, h, ex_cl, ex_cfg, ex_start, ex_up, (B "homeassistant"), id, v, ct, (B "payload_arm_night"), (B "ARM_NIGHT").
  assert (S : sends_for v (B "payload_arm_night") (B "ARM_NIGHT")) by (apply SE; cbn [alarm_actions In]; tauto).
  repeat (split; [solve [assumption | reflexivity]|]). apply (SF _ _ S). intros level H. cbn in H. repeat (destruct H as [H|H]; [discriminate H|]). destruct H.
Qed.

(* Each zone: Home Assistant finds it on the same device and knows it to be available; the state is where it was told, and is the zone's.  But it is never one of the
   two that Home Assistant knows: the announcement leaves these at ON and OFF, and what is published is on, off or offline. *)
Theorem C115_zones_announced_partial : forall file o h cl cfg is u ha zone z,
  main_text file = Ok (o, h, cfg) -> bridge_after cl cfg is (Up u) -> distinct_zone_names cfg -> ha_discovery_prefix cfg = Some ha -> In (zone, z) (zones cfg) ->
  exists id v st av t a,
    announced (u_log u) ha (B "binary_sensor") id v /\ (Forall id_char (serial_number cfg) -> Forall id_char id) /\ text_member v (B "unique_id") id /\
    (forall v', announced (u_log u) ha (B "binary_sensor") id v' -> v' = v) /\
    of_device v (B "Elk Products") (B "M1") (serial_number cfg) /\ text_member v (B "name") (z_name z) /\ text_member v (B "device_class") (z_class z) /\
    text_member v (B "availability_topic") av /\ holds (u_log u) av (PText a) /\ takes_available v a /\
    text_member v (B "state_topic") st /\ holds (u_log u) st (PText t) /\ zone_shown (u_panel u) zone t /\ ~ takes_on v t /\ ~ takes_off v t.
Proof.
  intros file o h cl cfg is u ha zone z M A DN HH HI. pose proof (setup_ok _ _ _ _ M) as K. pose proof (zone_announcement _ _ _ _ _ _ _ A K HH HI) as HO.
  set (v := zone_discovery_json (topic_prefix cfg) cfg zone z) in *.
  destruct (C49_zone_topics_match _ _ _ _ _ _ A K DN HI) as (t & AS & HT).
  destruct (will_of _ _ _ _ M) as (v0 & M0). pose proof (C69_availability_retained _ _ _ _ _ _ _ M0 A) as AV. cbv zeta in AV. unfold broker_sees in AV. cbn [blog] in AV. rewrite app_nil_r in AV.
  exists (zone_unique_id cfg zone), v, (topic_prefix cfg ++ B "/zone/" ++ z_name z ++ B "/ha_state"), (topic_prefix cfg ++ B "/availability"), t, (B "online").
  destruct (zone_keys (topic_prefix cfg) cfg zone z) as (fields & EF & ND & KS). fold v in EF.
  assert (NM : forall k, ~ In k [B "availability_topic"; B "state_topic"; B "unique_id"; B "name"; B "device"; B "device_class"] -> no_member v k) by (intros k Hk; exists fields; rewrite KS; auto).
  assert (TM : forall k s, In (k, ser_str s) fields -> text_member v k s) by (intros k s Hk; rewrite EF; apply text_in; assumption).
  assert (AN : announced (u_log u) ha (B "binary_sensor") (zone_unique_id cfg zone) v).
  { exists (PJson v). split; [exact HO|]. destruct (holds_in _ _ _ HO) as (q & HIn). eapply C79_published_text; eauto. }
  unfold v, zone_discovery_json in EF. injection EF as <-.
  assert (NO : forall k d, ~ In k [B "availability_topic"; B "state_topic"; B "unique_id"; B "name"; B "device"; B "device_class"] ->
    ~ In d [B "off"; B "offline"; B "on"] -> ~ setting v k d t).
  { intros k d HK HD HS. apply setting_default in HS; [|apply NM, HK]. apply HD. subst d. destruct AS as (s & _ & SH). cbn in SH.
    repeat (destruct SH as [SH|SH]; [injection SH as _ <-; cbn; tauto|]). destruct SH. }
  split; [exact AN|]. split; [|split; [apply TM; cbn [In]; tauto|]]. 2: split; [intros v' AN'; exact (announced_one _ _ _ _ _ _ AN' AN)|].
  2: split; [|split; [apply TM; cbn [In]; tauto|split; [apply TM; cbn [In]; tauto|split; [apply TM; cbn [In]; tauto|split; [exact AV|split; [|split; [apply TM; cbn [In]; tauto|split; [exact HT|split; [exact AS|]]]]]]]]].
  - intros F. unfold zone_unique_id. apply Forall_app. split; [apply id_chars; reflexivity|]. apply Forall_app. split; [exact F|]. apply Forall_app. split; [apply id_chars; reflexivity|].
    apply digits_id. apply show_u8_spec. destruct K as (_ & (_ & UZ)). rewrite Forall_forall in UZ. apply (UZ _ HI).
  - apply device_is. apply member_in; [exact ND|]. cbn [In]. tauto.
  - right. split; [apply NM; cbn; intuition discriminate | reflexivity].
  - split; apply NO; cbn; intuition discriminate.
Qed.

(* When the bridge has ended all is still announced, and unavailable. *)
Lemma dead_log cl cfg (P : action -> Prop) is' : loop_actions cfg P -> forall u log why, fold_left (bstep cl cfg) is' (Up u) = Dead log why -> exists l, log = u_log u ++ l /\ Forall P l.
Proof.
  intros HP. induction is' as [|i is' IH]; intros u log why E; [discriminate|]. cbn [fold_left] in E. pose proof (bstep_log cl cfg u i P HP) as S.
  destruct (bstep cl cfg (Up u) i) as [s rx|u'|l' w'] eqn:EB; [destruct S| |].
  - destruct S as (l & EL & FL). cbn [blog] in EL. destruct (IH _ _ _ E) as (l2 & -> & F2). exists (l ++ l2). rewrite EL, app_assoc. split; [reflexivity | apply Forall_app; auto].
  - rewrite dead_stays in E. injection E as -> ->. exact S.
Qed.
Lemma still_announced file o h cl cfg is u is' log why t v : main_text file = Ok (o, h, cfg) -> bridge_after cl cfg is (Up u) -> brun cl cfg (is ++ is') = Dead log why ->
  holds (u_log u) (t ++ B "/config") v -> holds (broker_sees (o_last_will o) (Dead log why)) (t ++ B "/config") v.
Proof.
  intros M A E H. unfold brun in E. rewrite fold_left_app in E. destruct A as (_ & EU). unfold brun in EU. rewrite EU in E. destruct (dead_log _ _ _ _ (loop_not_config cfg) _ _ _ E) as (l & -> & F).
  destruct (will_of _ _ _ _ M) as (v0 & M0). destruct (C66_set_up v0) as (S & _). destruct (S _ _ _ M0) as (c & _ & _ & S' & _).
  destruct S' as (_ & _ & _ & _ & (p & _ & <- & W) & _). unfold broker_sees. cbn [blog]. rewrite W, <- app_assoc. cbn [w_topic w_message w_qos w_retain]. apply config_held; [exact H|]. apply Forall_app. split; [exact F|].
  constructor; [|constructor]. intros q t' p' [= _ <- _]. pose proof (avail_topic_last (topic_prefix cfg)) as X. unfold availability_topic in X. rewrite X. discriminate.
Qed.
Theorem C115_unavailable_when_it_ends : forall file o h cl cfg is is' u log why ha component name,
  main_text file = Ok (o, h, cfg) -> bridge_after cl cfg is (Up u) -> bridge_after cl cfg (is ++ is') (Dead log why) -> ha_discovery_prefix cfg = Some ha ->
  (exists area, component = B "alarm_control_panel" /\ In (area, name) (areas cfg)) \/ (exists zone z, component = B "binary_sensor" /\ In (zone, z) (zones cfg) /\ z_name z = name) ->
  exists id v av, text_member v (B "name") name /\ text_member v (B "availability_topic") av /\
    announced (u_log u) ha component id v /\ holds (u_log u) av (PText (B "online")) /\ takes_available v (B "online") /\
    let sees := broker_sees (o_last_will o) (Dead log why) in
    announced sees ha component id v /\ holds sees av (PText (B "offline")) /\ takes_unavailable v (B "offline") /\ ~ takes_available v (B "offline").
Proof.
  intros file o h cl cfg is is' u log why ha component name M A D HH HC. pose proof (setup_ok _ _ _ _ M) as K. destruct (will_of _ _ _ _ M) as (v0 & M0).
  pose proof (C69_availability_retained _ _ _ _ _ _ _ M0 A) as AV. cbv zeta in AV. unfold broker_sees in AV. cbn [blog] in AV. rewrite app_nil_r in AV.
  pose proof (C69_availability_retained _ _ _ _ _ _ _ M0 D) as AD. cbv zeta in AD |- *.
  assert (G : forall id v, holds (u_log u) (ha ++ B "/" ++ component ++ B "/" ++ id ++ B "/config") (PJson v) ->
    announced (u_log u) ha component id v /\ announced (broker_sees (o_last_will o) (Dead log why)) ha component id v).
  { intros id v HO. destruct (holds_in _ _ _ HO) as (q & HIn). pose proof (C79_published_text _ _ _ _ _ _ _ _ _ _ _ M A HIn) as T.
    split; exists (PJson v); (split; [|exact T]); [exact HO|]. rewrite !app_assoc in HO |- *. eapply still_announced; eauto. apply (proj2 D). }
  assert (DF : forall v, no_member v (B "payload_available") -> takes_available v (B "online") /\ ~ takes_available v (B "offline")).
  { intros v N. split; [right; auto|]. intros T. apply setting_default in T; [discriminate|exact N]. }
  destruct HC as [(area & -> & HI)|(zone & z & -> & HI & <-)].
  - destruct (area_announcement _ _ _ _ _ _ _ A K HH HI) as [HO _]. destruct (G _ _ HO) as [G1 G2]. destruct (area_keys (topic_prefix cfg) cfg area name) as (fields & EF & ND & KS).
    set (v := area_discovery_json (topic_prefix cfg) cfg area name) in *. destruct (DF v) as [D1 D2]; [exists fields; split; [exact EF|]; rewrite KS; cbn; intuition discriminate|].
    exists (area_unique_id cfg area), v, (topic_prefix cfg ++ B "/availability").
    split; [unfold v, area_discovery_json; apply text_in; [unfold v, area_discovery_json in EF; injection EF as <-; exact ND | cbn [In]; tauto]|].
    split; [unfold v, area_discovery_json; apply text_in; [unfold v, area_discovery_json in EF; injection EF as <-; exact ND | cbn [In]; tauto]|].
    repeat (split; [assumption|]). split; [|exact D2]. right. split; [|reflexivity]. exists fields. split; [exact EF|]. rewrite KS. cbn; intuition discriminate.
  - pose proof (zone_announcement _ _ _ _ _ _ _ A K HH HI) as HO. destruct (G _ _ HO) as [G1 G2]. destruct (zone_keys (topic_prefix cfg) cfg zone z) as (fields & EF & ND & KS).
    set (v := zone_discovery_json (topic_prefix cfg) cfg zone z) in *. destruct (DF v) as [D1 D2]; [exists fields; split; [exact EF|]; rewrite KS; cbn; intuition discriminate|].
    exists (zone_unique_id cfg zone), v, (topic_prefix cfg ++ B "/availability").
    split; [unfold v, zone_discovery_json; apply text_in; [unfold v, zone_discovery_json in EF; injection EF as <-; exact ND | cbn [In]; tauto]|].
    split; [unfold v, zone_discovery_json; apply text_in; [unfold v, zone_discovery_json in EF; injection EF as <-; exact ND | cbn [In]; tauto]|].
    repeat (split; [assumption|]). split; [|exact D2]. right. split; [|reflexivity]. exists fields. split; [exact EF|]. rewrite KS. cbn; intuition discriminate.
Qed.
(* The refutation of what one would expect of zones: that one of the two states is what Home Assistant knows. *)
Theorem C115_zone_states_understood_refuted : exists file o h cl cfg is u ha zone z id v st t,
  main_text file = Ok (o, h, cfg) /\ bridge_after cl cfg is (Up u) /\ distinct_zone_names cfg /\ In (zone, z) (zones cfg) /\
  announced (u_log u) ha (B "binary_sensor") id v /\ text_member v (B "state_topic") st /\ holds (u_log u) st (PText t) /\ zone_status_is (u_panel u) zone 9 /\ t = B "on" /\ ~ takes_on v t.
Proof.
  destruct C79_example as ((o & h & M) & A & _). assert (DN : distinct_zone_names ex_cfg) by (repeat constructor; intros []).
  destruct (C115_zones_announced_partial ex_text o h ex_cl ex_cfg ex_start ex_up (B "homeassistant") 2 (mkZoneCfg (B "front") (B "door")) M A DN eq_refl (or_introl eq_refl))
    as (id & v & st & av & t & a & AN & _ & _ & _ & _ & _ & _ & _ & _ & _ & ST & HT & ZS & N1 & N2).
  exists ex_text, o, h, ex_cl, ex_cfg, ex_start, ex_up, (B "homeassistant"), 2, (mkZoneCfg (B "front") (B "door")), id, v, st, t.
  assert (Z : zone_status_is (u_panel ex_up) 2 9) by (exists ex_zones; vm_compute; auto).
  assert (t = B "on") as ->.
  { destruct ZS as (s & (zs & E1 & E2) & SH). destruct Z as (zs' & E1' & E2'). rewrite E1 in E1'. injection E1' as <-. rewrite E2 in E2'. injection E2' as ->.
    cbn in SH. repeat (destruct SH as [SH|SH]; [try discriminate SH; injection SH as <-; reflexivity|]). destruct SH. }
  split; [exact M|]. split; [exact A|]. split; [exact DN|]. split; [left; reflexivity|]. repeat (split; [solve [assumption | reflexivity]|]). exact N1.
Qed.

(* The configuration of PropText.v: the bridge is up, then the broker's connection fails. *)
Lemma broker_lost cl cfg is u : bridge_after cl cfg is (Up u) -> bridge_after cl cfg (is ++ [MqttFail]) (Dead (u_log u) "called `Result::unwrap()` on an `Err` value").
Proof.
  intros (HI & E). split; [apply Forall_app; split; [exact HI | repeat constructor]|]. unfold brun in *. rewrite fold_left_app, E. reflexivity.
Qed.
Lemma ex_asks : asks ex_cfg (B "elkm1/0001/area/house/ha_command", B "ARM_HOME") (CmdArm (mkArmRequest 1 AL_ArmedStay (B "001234"))).
Proof.
  exists 1, (B "house"), AL_ArmedStay, (B "001234"). split; [left; reflexivity|]. split; [reflexivity|]. split; [cbn; tauto|]. split; [|reflexivity].
  vm_compute. repeat split; try discriminate; repeat constructor; discriminate.
Qed.
Lemma ex_held : (exists o h, main_text ex_text = Ok (o, h, ex_cfg)) ->
  holds (u_log ex_up) (B "homeassistant/alarm_control_panel/elk-0001-area-1/config") (PJson (area_discovery_json (B "elkm1/0001") ex_cfg 1 (B "house"))).
Proof.
  intros (o & h & M). pose proof (area_announcement _ _ _ _ (B "homeassistant") 1 (B "house") ex_up_after (setup_ok _ _ _ _ M) eq_refl (or_introl eq_refl)) as (H & _).
  exact H.
Qed.
Example C115_example :
  (exists o h, main_text ex_text = Ok (o, h, ex_cfg)) /\ bridge_after ex_cl ex_cfg ex_start (Up ex_up) /\
  (exists log why, bridge_after ex_cl ex_cfg (ex_start ++ [MqttFail]) (Dead log why)) /\
  distinct_area_names ex_cfg /\ distinct_zone_names ex_cfg /\ ha_discovery_prefix ex_cfg = Some (B "homeassistant") /\ In (1, B "house") (areas ex_cfg) /\
  Forall id_char (serial_number ex_cfg) /\
  holds (u_log ex_up) (B "homeassistant/alarm_control_panel/elk-0001-area-1/config") (PJson (area_discovery_json (B "elkm1/0001") ex_cfg 1 (B "house"))) /\
  asks ex_cfg (B "elkm1/0001/area/house/ha_command", B "ARM_HOME") (CmdArm (mkArmRequest 1 AL_ArmedStay (B "001234"))) /\
  takes_on (VObj [(B "payload_on", VStr false (B "on"))]) (B "on") /\ ~ takes_on (VObj []) (B "on") /\ takes_on (VObj []) (B "ON").
Proof.
  destruct C79_example as (M & A & _). split; [exact M|]. split; [exact A|]. split; [eexists; eexists; exact (broker_lost _ _ _ _ A)|].
  split; [repeat constructor; intros []|]. split; [repeat constructor; intros []|]. split; [reflexivity|]. split; [left; reflexivity|]. split; [apply id_chars; reflexivity|].
  split; [exact (ex_held M)|]. split; [exact ex_asks|]. split; [|split].
  - left. exists false. eexists. split; [reflexivity|]. split; [left; reflexivity|]. intros y [H|[]]. injection H as <-. reflexivity.
  - intros T. apply setting_default in T; [discriminate|]. exists []. split; [reflexivity | intros []].
  - right. split; [|reflexivity]. exists []. split; [reflexivity | intros []].
Qed.

Print Assumptions C115_areas_understood_partial.
Print Assumptions C115_areas_understood_refuted.
Print Assumptions C115_zones_announced_partial.
Print Assumptions C115_zone_states_understood_refuted.
Print Assumptions C115_unavailable_when_it_ends.
