(* PropText.v: theorems C79 and C80 about the JSON text that is published and read. *)
From Verif Require Import Base BaseFacts Pkt SpecPkt PktFacts DecodeFacts Msg SpecMsg DecFacts MsgFacts WireFacts IsoFacts
  Tokio SpecConn ConnFacts State SpecState StateFacts RunFacts HistFacts ExState PropState PropMsg Serde SerdeFacts PropSerde
  Mqtt MqttFacts Config SpecMqtt SpecConfig PropMqtt PropConfig BridgeText SpecJson JsonFacts JsonWrite ShowFacts TextFacts.
From Coq Require Import ZifyBool ZifyNat ZifyN.
Ltac Zify.zify_post_hook ::= Z.div_mod_to_equations.

(* ---- C80: reading ---- *)
(* A text is read exactly if it is JSON, as what it denotes; it denotes one value only; otherwise there is an error, never a panic. *)
Theorem C80_reads_json : forall s v, from_slice s = Ok v <-> denotes v s.
Proof. exact from_slice_spec. Qed.
Theorem C80_one_meaning : forall s v v', denotes v s -> denotes v' s -> v = v'.
Proof. intros s v v' H H'. apply from_slice_spec in H, H'. congruence. Qed.
Theorem C80_otherwise_an_error : forall s, (forall v, ~ denotes v s) -> exists e, from_slice s = Err e.
Proof.
  intros s H. destruct (from_slice s) as [v|e|w] eqn:E; [|eauto|elim (from_slice_safe _ _ E)]. apply from_slice_spec in E. elim (H v E).
Qed.

(* The bridge starts exactly from a file whose text is JSON for a configuration, with a user name and a password or neither; and is
   then set up as the file says. *)
Theorem C80_configuration_text : forall s,
  (forall o h cfg, main_text s = Ok (o, h, cfg) ->
     exists v c, denotes v s /\ file_value v c /\ credentials_paired (f_mqtt c) /\ set_up_for c o h cfg /\ cfg_ok cfg) /\
  (forall v c, denotes v s -> file_value v c -> credentials_paired (f_mqtt c) ->
     exists c' o h cfg, same_file c c' /\ main_text s = Ok (o, h, cfg) /\ set_up_for c' o h cfg) /\
  ((forall v c, denotes v s -> file_value v c -> ~ credentials_paired (f_mqtt c)) -> exists why, main_text s = Panic why).
Proof.
  intros s. unfold main_text. split; [|split].
  - intros o h cfg E. destruct (from_slice s) as [v|e|w] eqn:ES; try discriminate. cbn [expect bind] in E. apply from_slice_spec in ES.
    apply (proj1 (C66_set_up v)) in E as (c & E). exists v, c. auto.
  - intros v c D F P. apply from_slice_spec in D. rewrite D. cbn [expect bind]. apply (proj1 (proj2 (C66_set_up v))); assumption.
  - intros H. destruct (from_slice s) as [v|e|w] eqn:ES; cbn [expect bind]; eauto. apply from_slice_spec in ES. apply (proj2 (proj2 (C66_set_up v))). eauto.
Qed.

(* ---- C79: writing ---- *)
Theorem C79_text_denotes : forall v, writable v -> denotes v (to_string_pretty v).
Proof. exact text_denotes. Qed.

(* the texts in a value read from text are UTF-8 *)
Inductive texts_in : value -> Prop :=
| ti_null : texts_in VNull
| ti_bool b : texts_in (VBool b)
| ti_num n : texts_in (VNum n)
| ti_other : texts_in VOther
| ti_str e s : utf8_valid s = true -> texts_in (VStr e s)
| ti_arr l : Forall texts_in l -> texts_in (VArr l)
| ti_obj l : Forall (fun kv => texts_in (snd kv)) l -> texts_in (VObj l).
Lemma denotes_texts :
  (forall v t, denotes_value v t -> texts_in v) /\ (forall l t, denotes_elems l t -> Forall texts_in l) /\
  (forall l t, denotes_members l t -> Forall (fun kv => texts_in (snd kv)) l) /\ (forall k v (m : bytes), denotes_member k v m -> texts_in v).
Proof.
  apply denotes_ind; try solve [repeat constructor; auto].
  - intros v t [t' _ _|]; constructor.
  - intros e s t (t' & _ & _ & U). constructor. exact U.
Qed.
Lemma texts_member names v k x : texts_in v -> member names v k (Some x) -> texts_in x.
Proof.
  intros T M. destruct v as [| | | | |l|l]; try contradiction; inversion T as [| | | | |l' F|l' F]; subst; rewrite Forall_forall in F.
  - destruct M as (_ & i & y & [= <-] & _ & N). apply F. eapply nth_error_In; eauto.
  - destruct M as (l1 & l2 & -> & _). apply (F (k, x)). apply in_elt.
Qed.
Lemma texts_text v s : texts_in v -> text_value v s -> utf8_valid s = true.
Proof. intros T (e & ->). inversion T. assumption. Qed.

(* the texts of a configuration *)
Definition cfg_texts (cfg : Cfg) : Prop :=
  utf8_valid (topic_prefix cfg) = true /\ utf8_valid (serial_number cfg) = true /\
  (forall n name, In (n, name) (areas cfg) -> utf8_valid name = true) /\
  (forall n z, In (n, z) (zones cfg) -> utf8_valid (z_name z) = true /\ utf8_valid (z_class z) = true).
Lemma file_texts v c o h cfg : texts_in v -> file_value v c -> set_up_for c o h cfg -> cfg_texts cfg.
Proof.
  intros T ((o0 & M0 & v0 & -> & (o1 & M1 & v1 & -> & TS) & _ & _ & (o3 & M3 & v3 & -> & l3 & -> & _ & G3 & I3) & (o4 & M4 & v4 & -> & l4 & -> & _ & G4 & I4)) & F2)
    (_ & _ & _ & _ & (p & P & EP & _) & _ & ES & _ & EA & EZ & _).
  apply (texts_member _ _ _ _ T) in M0. apply (texts_member _ _ _ _ M0) in M1. apply (texts_member _ _ _ _ M0) in M3. apply (texts_member _ _ _ _ M0) in M4.
  assert (US : utf8_valid (k_serial_number (f_elk c)) = true) by exact (texts_text _ _ M1 TS).
  unfold cfg_texts. rewrite EP, ES, EA, EZ. split; [|split; [exact US|split]].
  - destruct P as [P|[_ ->]]; [|apply utf8_app; [reflexivity | exact US]].
    destruct F2 as (o5 & M5 & v5 & -> & _ & _ & _ & _ & _ & (o6 & M6 & F6) & _). rewrite P in F6. destruct F6 as (v6 & -> & _ & F6).
    apply (texts_member _ _ _ _ T) in M5. apply (texts_member _ _ _ _ M5) in M6. exact (texts_text _ _ M6 F6).
  - intros n name Hn. apply I3 in Hn as (l1 & t & w & l2 & -> & _ & _ & (o5 & M5 & v5 & -> & F5)). inversion M3 as [| | | | | |l' F]; subst.
    rewrite Forall_forall in F. specialize (F (t, w) (in_elt _ _ _)). cbn [snd] in F. exact (texts_text _ _ (texts_member _ _ _ _ F M5) F5).
  - intros n z Hn. apply I4 in Hn as (l1 & t & w & l2 & -> & _ & _ & ((o5 & M5 & v5 & -> & F5) & (o6 & M6 & v6 & -> & F6))). inversion M4 as [| | | | | |l' F]; subst.
    rewrite Forall_forall in F. specialize (F (t, w) (in_elt _ _ _)). cbn [snd] in F. split; [exact (texts_text _ _ (texts_member _ _ _ _ F M5) F5) | exact (texts_text _ _ (texts_member _ _ _ _ F M6) F6)].
Qed.

Definition expressed (a : action) : Prop := match a with APublishQ _ _ _ (PJson v) => writable v | _ => True end.
Ltac utf8 := repeat apply utf8_app; first [assumption | reflexivity | idtac].
Lemma show_u8_utf8 n : n <= 255 -> utf8_valid (show_u8 n) = true.
Proof. intros H. apply utf8_printable, digits_printable, show_u8_spec, H. Qed.
Lemma wr_device cfg : utf8_valid (serial_number cfg) = true -> writable (device_json cfg).
Proof.
  intros US. unfold device_json. members; try (apply wr_ser_str; reflexivity). apply wr_arr. constructor; [apply wr_ser_str; exact US | constructor].
Qed.
Lemma wr_area cfg n name : cfg_texts cfg -> In (n, name) (areas cfg) -> n <= 255 -> writable (area_discovery_json (topic_prefix cfg) cfg n name).
Proof.
  intros (UP & US & UA & _) I L. specialize (UA _ _ I). pose proof (show_u8_utf8 n L) as UN.
  unfold area_discovery_json. repeat (apply wr_member; [reflexivity | first [apply wr_device; exact US | apply wr_ser_str] | ]); try exact wr_empty;
    unfold availability_topic, area_state_topic, area_command_topic, area_unique_id; utf8.
Qed.
Lemma wr_zone cfg n z : cfg_texts cfg -> In (n, z) (zones cfg) -> n <= 255 -> writable (zone_discovery_json (topic_prefix cfg) cfg n z).
Proof.
  intros (UP & US & _ & UZ) I L. destruct (UZ _ _ I) as [U1 U2]. pose proof (show_u8_utf8 n L) as UN.
  unfold zone_discovery_json. repeat (apply wr_member; [reflexivity | first [apply wr_device; exact US | apply wr_ser_str] | ]); try exact wr_empty;
    unfold availability_topic, zone_state_topic, zone_unique_id; utf8.
Qed.
Lemma obind_log_ok {A C} (P : action -> Prop) (m : out A) (f : A -> out C) :
  Forall P (fst m) -> (forall a, snd m = Ok a -> Forall P (fst (f a))) -> Forall P (fst (obind m f)).
Proof.
  destruct m as [l [a|e|w]]; cbn [obind fst snd]; auto. intros H1 H2. specialize (H2 a eq_refl). destruct (f a) as [l' r]. cbn [fst] in *. apply Forall_app. auto.
Qed.
Lemma areas_expressed cl p prefix l : Forall expressed (fst (publish_area_states cl p prefix l)).
Proof. apply each_log_in. intros [n name] _. repeat (apply obind_log; [apply lift_log|intros ?]). apply publish_log. exact I. Qed.
Lemma zone_expressed cl p prefix z c : Forall expressed (fst (publish_zone_state cl p prefix z c)).
Proof. repeat (apply obind_log; [apply lift_log|intros ?]). apply publish_log. exact I. Qed.
Lemma event_expressed cl cfg p e : event_ok e -> event_texts e -> Forall expressed (fst (handle_event cl cfg p e)).
Proof.
  intros OK TX. apply obind_log_ok; [apply lift_log|]. intros v EV. cbn [lift snd] in EV. apply obind_log; [apply publish_log; cbn; eapply wr_Event; eauto|].
  intros _. destruct (e_change e) as [[z s|prior]|]; [|apply areas_expressed|constructor].
  destruct (find _ (zones cfg)) as [[k c]|]; [|constructor]. apply zone_expressed.
Qed.
Lemma start_expressed cl cfg p : cfg_ok cfg -> cfg_texts cfg -> Forall expressed (fst (start_up cl cfg p)).
Proof.
  intros ((_ & KA) & (_ & KZ)) TX. rewrite Forall_forall in KA, KZ. unfold start_up. apply obind_log; [apply lift_log|]. intros code'.
  apply obind_log; [|intros _; apply obind_log; [apply areas_expressed|]; intros _; apply obind_log; [|intros _; apply obind_log; [|intros _; apply obind_log; [|constructor]]]].
  - destruct (ha_discovery_prefix cfg) as [ha|]; [|constructor]. apply obind_log; [|intros _]; apply each_log_in; intros [n x] I; apply publish_log.
    + apply wr_area; auto. apply (KA _ I).
    + apply wr_zone; auto. apply (KZ _ I).
  - apply each_log_in. intros [n z] _. apply obind_log; [apply lift_log|]. intros k. apply zone_expressed.
  - unfold subscribe_many. destruct (filters_ok cl _); constructor; [exact I | constructor].
  - apply publish_log. exact I.
Qed.
Lemma run_expressed cl cfg is b : bridge_after cl cfg is b -> cfg_ok cfg -> cfg_texts cfg -> Forall expressed (blog b).
Proof.
  intros (HI & E) K TX. subst b. induction is as [|i is IH] using rev_ind; [constructor|]. apply Forall_app in HI as [HI _]. specialize (IH HI). rewrite brun_snoc.
  destruct (brun cl cfg is) as [s rx|u|l w] eqn:EB; [| |exact IH].
  - destruct i as [a|t pl| |now ws|now| |ws]; cbn [bstep]; try constructor. unfold after_connect. destruct (istep now ws s) as [st ph p|p|er|why]; try constructor.
    pose proof (start_expressed cl cfg p K TX) as H. unfold settle. destruct (start_up cl cfg p) as [l [c|er|why]]; exact H.
  - cbn [blog] in IH. assert (F : forall ws v, u_log v = u_log u -> Forall expressed (blog (poll_send_flush ws v))).
    { intros ws v EV. unfold poll_send_flush. destruct (poll_flush ws (u_panel v)) as [p [|[[]|e]]]; cbn; rewrite EV; exact IH. }
    assert (BA : bridge_after cl cfg is (Up u)) by (split; assumption).
    assert (R : reachable (u_panel u)) by (rewrite <- (app_nil_r is) in BA; destruct (bridge_between cl cfg is u [] u (conj HI EB) BA) as [(R & _) _]; exact R).
    destruct (reachable_inv _ R) as [PI _].
    destruct i as [a|t pl| |now ws|now| |ws]; cbn [bstep]; try exact IH.
    + destruct (u_mode u); try exact IH. destruct (poll_next now (u_panel u)) as [[[p [|[[e|er]|]]] w]|er|why] eqn:EP; try exact IH.
      assert (H : Forall expressed (fst (handle_event cl cfg p e))).
      { apply event_expressed; [eapply emitted_ok | eapply emitted_texts]; eauto; reflexivity. }
      unfold settle. destruct (handle_event cl cfg p e) as [l [[]|er|why]]; cbn [blog u_log]; apply Forall_app; auto.
    + destruct (u_mode u); try exact IH. destruct (u_rx u) as [|[t pl] rx]; try exact IH. destruct (requested _ _ _ _ _) as [[c|]|er|why]; exact IH.
    + destruct (u_mode u); try exact IH; [|apply F; reflexivity]. destruct (poll_ready TASK ws (u_panel u)) as [p [|[[]|e]]]; try exact IH.
      destruct (start_send c p); try exact IH. apply F. reflexivity.
Qed.

(* Whatever the configuration file and the panel say, every value the bridge publishes is published as a JSON text that denotes it
   and nothing else. *)
Theorem C79_published_text : forall file o h cl cfg is b q t retain v,
  main_text file = Ok (o, h, cfg) -> bridge_after cl cfg is b -> In (APublishQ q t retain (PJson v)) (blog b) ->
  forall v', denotes v' (payload_text (PJson v)) <-> v' = v.
Proof.
  intros file o h cl cfg is b q t retain v E A HI. destruct (proj1 (C80_configuration_text file) o h cfg E) as (v0 & c & D & F & _ & S & K).
  assert (TX : cfg_texts cfg).
  { destruct D as (w & t0 & w' & _ & _ & D & _). exact (file_texts v0 c o h cfg (proj1 denotes_texts _ _ D) F S). }
  pose proof (run_expressed _ _ _ _ A K TX) as X. rewrite Forall_forall in X. specialize (X _ HI). cbn in X. pose proof (text_denotes _ X) as DV.
  intros v'. split; [intros D'; eapply C80_one_meaning; eauto | intros ->; exact DV].
Qed.
Lemma run_event_texts h : forall p p' bs, pinv p -> Forall op_ok h -> run p h = Ok (p', bs) -> Forall event_texts (events bs).
Proof.
  induction h as [|o h IH]; intros p p' bs I HO E; cbn [run] in E; [injection E as <- <-; constructor|].
  inversion HO as [|? ? Ho HO']; subst. destruct (step p o) as [[p1 b]| |] eqn:ES; try discriminate. cbn [bind] in E.
  destruct (run p1 h) as [[p2 bs']| |] eqn:ER; try discriminate. injection E as <- <-. destruct (step_inv _ _ _ _ I Ho ES) as [I1 _].
  change (b :: bs') with ([b] ++ bs'). rewrite events_app. apply Forall_app. split; [|eapply IH; eauto].
  destruct (event_of b) as [e|] eqn:EB; [|unfold events; cbn; rewrite EB; constructor]. unfold events. cbn. rewrite EB. constructor; [|constructor].
  destruct b as [|r w|r]; try discriminate. destruct o as [a|now|w' ws|c|ws|ws]; cbn [step] in ES.
  - discriminate.
  - destruct (poll_next now p) as [[[q r'] w']| |] eqn:EP; try discriminate. injection ES as -> -> ->. eapply emitted_texts; [exact I | exact EP |].
    unfold yields. destruct r as [|[[e'|]|]]; cbn in EB; congruence.
  - destruct (poll_ready w' ws p). discriminate.
  - destruct (start_send c p); discriminate.
  - destruct (poll_flush ws p). discriminate.
  - destruct (poll_close ws p). discriminate.
Qed.
(* The texts published as events are, in order, texts of the events the panel's stream yielded: whoever reads one as JSON and
   deserialises it has the event. *)
Theorem C79_events_text : forall cl cfg is1 u1 is2 u2,
  bridge_after cl cfg is1 (Up u1) -> bridge_after cl cfg (is1 ++ is2) (Up u2) ->
  exists ops bs log, Forall op_ok ops /\ run (u_panel u1) ops = Ok (u_panel u2, bs) /\ arrived ops = net_in is2 /\
    u_log u2 = u_log u1 ++ log /\
    Forall2 (fun e a => exists pl, a = APublish (topic_prefix cfg ++ B "/event") false pl /\
        (exists v, denotes v (payload_text pl)) /\ forall v, denotes v (payload_text pl) -> Event_de FromText v = Ok e)
      (events bs) (filter is_event_pub log).
Proof.
  intros cl cfg is1 u1 is2 u2 A1 A2.
  destruct (bridge_between _ _ _ _ _ _ A1 A2) as [(R & _) (ops & bs & hd & os & H1 & H2 & H3 & _ & _ & _ & _ & ls & H8 & H9)].
  exists ops, bs, (concat ls). repeat (split; [assumption|]). destruct (reachable_inv _ R) as [I _].
  assert (OK : Forall (fun e => event_ok e) (events bs)) by (eapply run_event_ok; eauto).
  assert (TX : Forall event_texts (events bs)) by (eapply run_event_texts; eauto).
  clear -H8 OK TX. induction H8 as [|e l es ls (v & l' & S & -> & F) _ IH]; cbn [concat]; [constructor|].
  inversion OK as [|? ? O1 O2]; subst. inversion TX as [|? ? T1 T2]; subst. cbn [app filter is_event_pub negb]. constructor.
  - exists (PJson v). split; [reflexivity|]. assert (NZ : ~ event_zs e) by (intros H; destruct (Event_zs e H); congruence).
    destruct (Event_rt e O1 NZ) as (v' & S' & D & _). assert (v' = v) by congruence. subst v'.
    pose proof (text_denotes v (wr_Event _ _ O1 T1 S)) as DV. cbn [payload_text]. split; [eauto|]. intros v' D'. rewrite (C80_one_meaning _ _ _ D' DV). exact D.
  - rewrite filter_app. replace (filter is_event_pub l') with (@nil action); [apply IH; [exact O2 | exact T2]|].
    clear -F. induction F as [|a l H _ IH]; cbn [filter]; [reflexivity|]. destruct a as [q t [] p|q fs]; cbn; auto. elim (H q t p eq_refl).
Qed.

(* ---- a case ---- *)
(* one quote for two, to write JSON in Coq *)
Definition q (s : bytes) : bytes := map (fun c => if c =? ch "'" then ch """" else c) s.
Definition ex_text : bytes := q (B "{
  'elk': {'serialNumber': '0001', 'code': 1234, 'hostPort': 'elk:2101',
    'areas': {'1': {'name': 'house'}}, 'zones': {'2': {'name': 'front', 'binarySensorDeviceClass': 'door'}}},
  'mqtt': {'host': 'broker', 'haDiscoveryPrefix': 'homeassistant', 'comment': [-1.5e3, true, {}] }
}
").
Example C80_example :
  (exists o, main_text ex_text = Ok (o, B "elk:2101", ex_cfg)) /\
  from_slice (q (B " {'a': [1, true, null, -2.5e3, 'x\u00E9\n']} ")) = Ok (VObj [(B "a", VArr [VNum 1; VBool true; VNull; VOther; VStr true [120; 195; 169; 10]])]) /\
  from_slice (q (B "'\ud83d\uDE00'")) = Ok (VStr true [240; 159; 152; 128]) /\
  from_slice (B "18446744073709551615") = Ok (VNum 18446744073709551615) /\ from_slice (B "18446744073709551616") = Ok VOther /\
  Forall (fun s => exists e, from_slice s = Err e)
    [B "01"; B "[1,]"; B "{a: 1}"; q (B "'\ud800'"); q (B "'\x'"); B "[1] 2"; B "nul"; B "1."; []; [34; 10; 34]; [34; 195; 34]; B "[1 2]"; q (B "{'a' 1}")].
Proof. split; [eexists; vm_compute; reflexivity|]. repeat (split; [vm_compute; reflexivity|]). repeat (constructor; [eexists; vm_compute; reflexivity|]). constructor. Qed.
Definition ex_announcement : payload := PJson (zone_discovery_json (B "elkm1/0001") ex_cfg 2 (mkZoneCfg (B "front") (B "door"))).
Example C79_example :
  (exists o h, main_text ex_text = Ok (o, h, ex_cfg)) /\ bridge_after ex_cl ex_cfg ex_start (Up ex_up) /\
  In (APublish (B "homeassistant/binary_sensor/elk-0001-zone-2/config") true ex_announcement) (u_log ex_up) /\
  payload_text ex_announcement = q (B "{
  'availability_topic': 'elkm1/0001/availability',
  'state_topic': 'elkm1/0001/zone/front/ha_state',
  'unique_id': 'elk-0001-zone-2',
  'name': 'front',
  'device': {
    'manufacturer': 'Elk Products',
    'model': 'M1',
    'identifiers': [
      '0001'
    ]
  },
  'device_class': 'door'
}") /\
  to_string_pretty (VArr [VArr []; VObj []; VStr true [7; 9; 34; 92; 195; 169]]) = B "[
  [],
  {},
  ""\u0007\t\""\\" ++ [195; 169; 34; 10; 93].
Proof.
  split; [eexists _, _; vm_compute; reflexivity|]. split; [exact ex_up_after|]. split; [right; left; vm_compute; reflexivity|]. split; vm_compute; reflexivity.
Qed.
(* the events of an arming status report and of a zone change, as published, read back *)
Definition read_back (a : action) : option Event :=
  match a with
  | APublishQ _ _ false pl => match from_slice (payload_text pl) with Ok v => match Event_de FromText v with Ok e => Some e | _ => None end | _ => None end
  | _ => None
  end.
Example C79_events_example :
  bridge_after ex_cl ex_cfg ex_start (Up ex_up) /\
  map e_msg (catMaybes (map read_back (u_log (up_of (brun ex_cl ex_cfg (ex_start ++ ex_reports)))))) =
    [Some (inl (MArmingStatusReport ex_arming)); Some (inl (MZoneChange (mkZC 2 2)))].
Proof. split; [exact ex_up_after|]. vm_compute. reflexivity. Qed.

Print Assumptions C79_text_denotes.
Print Assumptions C79_published_text.
Print Assumptions C79_events_text.
Print Assumptions C80_reads_json.
Print Assumptions C80_one_meaning.
Print Assumptions C80_otherwise_an_error.
Print Assumptions C80_configuration_text.
