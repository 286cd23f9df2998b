(* PropSerde.v: theorems C55 and C56 about serialisation. *)
From Verif Require Import Base BaseFacts Pkt SpecPkt PktFacts DecodeFacts Msg SpecMsg DecFacts MsgFacts WireFacts IsoFacts
  Tokio SpecConn ConnFacts State SpecState StateFacts RunFacts HistFacts ExState PropState PropMsg Serde SerdeFacts.
From Coq Require Import ZifyBool ZifyNat ZifyN.
Ltac Zify.zify_post_hook ::= Z.div_mod_to_equations.

(* ---- C55 ---- *)
(* False as stated, for every one of the types named: each has a value that deserialises but that no checked constructor returns. *)
Theorem C55_deserialised_in_range_refuted :
  (exists v z, limited_de v = Ok z /\ forall n, Zone_try_from n <> Ok z /\ Area_try_from n <> Ok z /\ Keypad_try_from n <> Ok z /\ Task_try_from n <> Ok z) /\
  (exists v c, ArmCode_de v = Ok c /\ (forall n, ArmCode_try_from_u32 n <> Ok c) /\ forall s, ArmCode_try_from_slice s <> Ok c) /\
  (exists v t, TextDescription_de v = Ok t /\ forall s, TextDescription_new s <> Ok t) /\
  (exists v s, ZoneStatus_de v = Ok s /\ (forall c, ZoneStatus_from_ascii c <> Ok s) /\ forall l p, ZoneStatus_new l p <> s) /\
  (exists v b, AsciiPacket_de v = Ok b /\ forall s, ascii_try_from s <> Ok b).
Proof.
  assert (L : forall max n, max <= 255 -> limited_try_from max n <> Ok 0).
  { intros max n _. unfold limited_try_from. destruct (N.leb_spec 1 n); cbn; [|discriminate]. destruct (n <=? max); [|discriminate]. intros [= ->]. lia. }
  split; [|split; [|split; [|split]]].
  - exists (VNum 0), 0. split; [reflexivity|]. intros n. repeat split; apply L; vm_compute; discriminate.
  - exists (VArr [VNum 1; VNum 2; VNum 3; VNum 4; VNum 5; VNum 6]), [1; 2; 3; 4; 5; 6]. split; [reflexivity|]. split.
    + intros n. unfold ArmCode_try_from_u32. destruct (N.leb_spec 1000000 n) as [H|H]; [discriminate|].
      destruct (fmt_pad_spec 6 n) as (L6 & D & _); [discriminate | exact H |]. rewrite L6. cbn [Nat.eqb]. intros [= E]. rewrite E in D. inversion D; subst. lia.
    + intros s. unfold ArmCode_try_from_slice. destruct (negb _); [discriminate|]. destruct (existsb _ s) eqn:E; [discriminate|]. intros [= ->]. discriminate E.
  - exists (VArr (repeat (VNum 255) 16)), (repeat 255 16). split; [reflexivity|]. intros s H. apply text_new_ok in H as [_ P].
    inversion P as [|? ? P1 _]; subst. unfold printable in P1. lia.
  - exists (VNum 255), 255. split; [reflexivity|]. split.
    + intros c H. apply ZoneStatus_from_spec in H. vm_compute in H. discriminate.
    + intros [] []; vm_compute; discriminate.
  - exists (VStr false []), []. split; [reflexivity|]. intros s H. apply ascii_try_from_spec in H as [H <-]. unfold ascii_body in H. cbn in H. lia.
Qed.
(* What such values then do: indexing, the zone status accessors, printing a name and sending an arm request all panic, and an
   arm request for an area that does not exist goes out on the wire. *)
Theorem C55_unchecked_values_misbehave_refuted :
  (exists v z w, limited_de v = Ok z /\ to_index z = Panic w) /\
  (exists v s w, ZoneStatus_de v = Ok s /\ ZoneStatus_logical s = Panic w) /\
  (exists v t w, TextDescription_de v = Ok t /\ TextDescription_as_str t = Panic w) /\
  (exists v m w, Message_de FromText v = Ok m /\ to_pkt m = Panic w) /\
  (exists v m, Message_de FromText v = Ok m /\ to_pkt m = Ok (PAscii (B "a0900000100"))).
Proof.
  split; [|split; [|split; [|split]]].
  - exists (VNum 0), 0. eexists. split; reflexivity.
  - exists (VNum 255), 255. eexists. split; reflexivity.
  - exists (VArr (repeat (VNum 255) 16)). eexists _, _. split; vm_compute; reflexivity.
  - exists (tagged (B "armRequest") (VObj [(B "area", VNum 250); (B "level", VStr false (B "disarm")); (B "code", ArmCode_ser (B "000001"))])).
    exists (MArmRequest (mkArmRequest 250 AL_Disarm (B "000001"))). eexists. split; [vm_compute; reflexivity | reflexivity].
  - exists (tagged (B "armRequest") (VObj [(B "area", VNum 9); (B "level", VStr false (B "disarm")); (B "code", ArmCode_ser (B "000001"))])).
    exists (MArmRequest (mkArmRequest 9 AL_Disarm (B "000001"))). split; vm_compute; reflexivity.
Qed.

(* Exactly what the wrapper types accept: any value of the type inside. *)
Theorem C55_wrappers_exact_partial :
  (forall v z, limited_de v = Ok z <-> v = VNum z /\ z <= 255) /\
  (forall v s, ZoneStatus_de v = Ok s <-> v = VNum s /\ s <= 255) /\
  (forall v c, ArmCode_de v = Ok c <-> v = VArr (map VNum c) /\ length c = 6%nat /\ u8s c) /\
  (forall v t, TextDescription_de v = Ok t <-> v = VArr (map VNum t) /\ length t = 16%nat /\ u8s t) /\
  (forall v b, AsciiPacket_de v = Ok b <-> exists esc, v = VStr esc b).
Proof.
  repeat split.
  1-2,4-5: try (apply de_u8_iff in H; apply H). all: try (apply de_array_u8_iff in H; apply H).
  all: try (intros [-> H]; apply de_u8_num; exact H).
  all: try (intros H; apply de_array_u8_iff; exact H).
  - destruct v; cbn; intros H; try discriminate. injection H as ->. eauto.
  - intros (esc & ->). reflexivity.
Qed.

Lemma field_inv {A} (de : value -> res A) fs i x : field de fs i = Ok x -> exists v, de v = Ok x.
Proof. unfold field. destruct (nth_error fs i) as [[v|]|]; try discriminate. eauto. Qed.
Ltac invb H := match type of H with
  | bind ?m _ = Ok _ => let E := fresh "E" in destruct m eqn:E; [cbn [bind] in H | discriminate H | discriminate H]; invb H
  | _ => idtac end.
Ltac flds := repeat match goal with E : field _ _ _ = Ok _ |- _ => apply field_inv in E as (? & E) end.
Ltac conv := repeat match goal with
  | E : limited_de _ = Ok _ |- _ => apply de_u8_iff in E
  | E : ZoneStatus_de _ = Ok _ |- _ => apply de_u8_iff in E
  | E : de_u8 _ = Ok _ |- _ => apply de_u8_iff in E
  | E : ArmCode_de _ = Ok _ |- _ => apply de_array_u8_iff in E
  | E : TextDescription_de _ = Ok _ |- _ => apply de_array_u8_iff in E
  | E : de_array _ de_u8 _ = Ok _ |- _ => apply de_array_u8_iff in E
  | E : de_array _ _ _ = Ok _ |- _ => apply de_array_len in E
  end.
Lemma limited_le v z : limited_de v = Ok z -> z <= 255. Proof. intros H. apply de_u8_iff in H. apply H. Qed.
Lemma Rtc_de_inv src v r : Rtc_de src v = Ok r -> exists s, from_iso_8601 s = Ok (datetime r).
Proof.
  unfold Rtc_de, RtcData_de, DateTime_de. intros H. invb H. apply field_inv in H as (x & H). invb H. injection H as <-.
  apply field_inv in E1 as (y & H). invb H. cbn. eauto.
Qed.
Lemma Message_de_loose src v m : Message_de src v = Ok m -> loose_message m.
Proof.
  unfold Message_de. intros H. destruct (de_variant v) as [[k c]|e|w]; try discriminate. cbn [bind] in H.
  repeat match type of H with (if ?b then _ else _) = _ => destruct b; [invb H; try (injection H as <-)|] end; try discriminate;
  cbn [loose_message]; try exact I.
  - unfold ArmRequest_de in E0. invb E0. injection E0 as <-. flds. cbn. conv. tauto.
  - unfold ArmingStatusReport_de in E0. invb E0. injection E0 as <-. flds. conv. unfold as_ok. change NUM_AREAS with 8%nat in *. cbn. tauto.
  - unfold SendTimeData_de in E0. invb E0. injection E0 as <-. flds. conv. cbn. tauto.
  - unfold SendCode_de in E0. invb E0. injection E0 as <-. flds. conv. cbn. tauto.
  - eapply Rtc_de_inv; eauto.
  - unfold SdReq_de in E0. invb E0. injection E0 as <-. flds. conv. cbn. tauto.
  - unfold SdResp_de in E0. invb E0. injection E0 as <-. flds. conv. cbn. tauto.
  - unfold Task_de in E0. invb E0. apply field_inv in E0 as (? & E0). conv. tauto.
  - unfold Task_de in E0. invb E0. apply field_inv in E0 as (? & E0). conv. tauto.
  - eapply Rtc_de_inv; eauto.
  - unfold ZoneChange_de in E0. invb E0. injection E0 as <-. flds. conv. cbn. tauto.
Qed.
(* Exactly the messages some JSON text deserialises to. *)
Theorem C55_messages_exact_partial : forall m, (exists v, Message_de FromText v = Ok m) <-> loose_message m.
Proof.
  intros m. split; [intros (v & H); eapply Message_de_loose; exact H|]. intros L.
  assert (R : forall r s, from_iso_8601 s = Ok (datetime r) -> exists v, Rtc_de FromText v = Ok r).
  { intros r s H. exists (VObj (combine Rtc_fields [VObj (combine RtcData_fields
      [VStr false s; Weekday_ser (weekday r); VBool (dst r); ClockDisplayMode_ser (clock_display r); DateDisplayMode_ser (date_display r)])])).
    unfold Rtc_de, RtcData_de. fields. fields. unfold DateTime_de. cbn [de_borrowed bind]. rewrite H. cbn [bind].
    rewrite Weekday_rt. cbn [bind de_bool]. rewrite ClockDisplayMode_rt. cbn [bind]. rewrite DateDisplayMode_rt. destruct r; reflexivity. }
  assert (G : forall k x n, (exists v, Message_de FromText (tagged k v) = Ok n) -> x = n -> exists v, Message_de FromText v = Ok x) by (intros k x n (v & H) ->; eauto).
  assert (T : forall k v, Message_de FromText (tagged k v) = Message_de FromText (VObj [(k, v)])) by reflexivity.
  destruct m; cbn [loose_message] in L; try contradiction.
  all: try (match goal with |- exists v, Message_de _ v = Ok ?m => exists (match Message_ser m with Ok v => v | _ => VNull end) end;
    cbn [Message_ser]; cbv beta iota delta [Message_de tagged de_variant bind contents]; cbn [beq N.eqb Pos.eqb andb];
    first [rewrite ArmRequest_rt by exact L | rewrite ArmingStatusReport_rt by exact L | rewrite SendTimeData_rt by exact L | rewrite SendCode_rt by exact L
      | rewrite SdReq_rt by exact L | rewrite SdResp_rt by exact L | rewrite Task_rt by exact L | rewrite ZoneChange_rt by exact L | idtac]; reflexivity).
  - destruct L as (s & H). destruct (R _ _ H) as (v & E). exists (tagged (B "rtcResponse") v).
    cbv beta iota delta [Message_de tagged de_variant bind contents]; cbn [beq N.eqb Pos.eqb andb]. rewrite E. reflexivity.
  - destruct L as (s & H). destruct (R _ _ H) as (v & E). exists (tagged (B "heartbeat") v).
    cbv beta iota delta [Message_de tagged de_variant bind contents]; cbn [beq N.eqb Pos.eqb andb]. rewrite E. reflexivity.
Qed.
Example C55_example : Message_de FromText (tagged (B "zoneChange") (VObj [(B "status", VNum 2); (B "zone", VNum 208)])) = Ok (MZoneChange (mkZC 208 2)) /\
  Message_de FromText (tagged (B "zoneChange") (VObj [(B "status", VNum 2); (B "zone", VNum 256)])) = Err "invalid value, expected u8" /\
  Message_de FromText (tagged (B "zoneChange") (VObj [(B "status", VNum 2)])) = Err "missing field" /\
  Message_de FromText (tagged (B "zoneChange") (VObj [(B "zone", VNum 0); (B "status", VNum 99); (B "other", VNull)])) = Ok (MZoneChange (mkZC 0 99)).
Proof. repeat split. Qed.

(* ---- C56 ---- *)
Lemma emitted_ok now p p' r w e : pinv p -> poll_next now p = Ok (p', r, w) -> yields r e -> event_ok e.
Proof.
  intros I E Y. pose proof I as (_ & _ & ZI & AI & KI).
  assert (PU : forall k, pkt_ok k -> packet_u8 k).
  { intros [b|d|raw why] H; cbn in H |- *; [exact Logic.I| |exact H]. unfold rp_body in H. tauto. }
  assert (PC := poll_next_case _ _ _ _ _ I E). unfold yields in Y.
  destruct PC as [pkt m e' w' D K EP E1 E2 N M R|pkt e' D K EP E1 E2 E3 E4 E5|d m prior D U X E1 E2 E3 E4|r' NE U F E0]; [| | |elim (NE e); exact Y].
  - injection Y as ->. assert (W := parsed_wf _ _ K E1). split; [|split; [|split]].
    + intros k Hk. rewrite EP in Hk. injection Hk as <-. auto.
    + intros m' Hm. rewrite E2 in Hm. injection Hm as <-. exact W.
    + intros q Hq. unfold reply_effect in R. unfold cmd_ok in KI. destruct (cmd_state p) as [|q0 f k]; [destruct R as (_ & R & _); congruence|].
      destruct R as [(_ & _ & R & _)|(_ & _ & R & _)]; [|congruence]. rewrite R in Hq. injection Hq as <-.
      destruct KI as ((c & -> & WC) & _). split; [exact WC|]. destruct c; split; reflexivity.
    + intros c Hc. unfold msg_effect in M. destruct m; try (destruct M as (_ & M & _); congruence).
      * destruct M as (M & _). unfold arming_effect in M. unfold arming_ok in AI. destruct (s_arming (p_state p)) as [prior|]; [|destruct M as (_ & _ & M); congruence].
        destruct M as [(_ & _ & _ & _ & M)|(_ & _ & _ & [(_ & M)|(_ & M)])]; try congruence. rewrite M in Hc. injection Hc as <-. cbn. apply AI.
      * destruct M as (M & _). unfold zone_effect in M. destruct (s_zones (p_state p)) as [zs|] eqn:EZ; [|destruct M as (_ & M); congruence].
        destruct M as (zs' & s & _ & _ & Ns & _ & M). destruct (s =? _); [congruence|]. rewrite M in Hc. injection Hc as <-. cbn.
        destruct (ZI _ eq_refl) as (_ & F). rewrite Forall_forall in F. apply nth_error_In in Ns. apply F in Ns.
        cbn [wf_message] in W. destruct W as (WZ & _). unfold zone_ok in WZ. lia.
  - injection Y as ->. split; [|split; [|split]]; intros x Hx; try congruence.
    { rewrite EP in Hx. injection Hx as <-. auto. }
    rewrite E2 in Hx. destruct (parse pkt); discriminate.
  - injection Y as <-. split; [|split; [|split]]; intros x Hx; try discriminate. cbn in Hx. injection Hx as <-.
    unfold arming_ok in AI. rewrite E3 in AI. cbn. apply AI.
Qed.
(* False as stated, in two ways. Serialising the event of a zone status report is a todo!(). *)
Theorem C56_event_roundtrip_refuted :
  exists p now p' r w e why, reachable p /\ poll_next now p = Ok (p', r, w) /\ yields r e /\ Event_ser e = Panic why.
Proof.
  eexists _, 7, _, _, _, _, _. split.
  { exists ex_panel, ex_zs_ops. eexists. split; [exact ex_connected|]. split; [|vm_compute; reflexivity]. constructor; [|constructor].
    assert (X : forallb (fun b => b <? 256) (bytes_of (MZoneStatusReport ex_zones')) = true) by (vm_compute; reflexivity).
    cbn. apply Forall_forall. intros b Hb. rewrite forallb_forall in X. apply N.ltb_lt. auto. }
  split; [vm_compute; reflexivity|]. split; reflexivity.
Qed.
(* And the event of a heartbeat cannot be read back from a byte stream or a parsed value: dates are read as borrowed strings. *)
Definition ex_hb_ops : list op := [Arrive (Bytes (bytes_of (MHeartbeat ex_rtc)))].
Theorem C56_event_roundtrip_from_reader_refuted :
  exists p now p' r w e v er, reachable p /\ poll_next now p = Ok (p', r, w) /\ yields r e /\ Event_ser e = Ok v /\ Event_de FromReader v = Err er.
Proof.
  eexists _, 7, _, _, _, _, _, _. split.
  { exists ex_panel, ex_hb_ops. eexists. split; [exact ex_connected|]. split; [|vm_compute; reflexivity]. constructor; [|constructor].
    assert (X : forallb (fun b => b <? 256) (bytes_of (MHeartbeat ex_rtc)) = true) by (vm_compute; reflexivity).
    cbn. apply Forall_forall. intros b Hb. rewrite forallb_forall in X. apply N.ltb_lt. auto. }
  split; [vm_compute; reflexivity|]. split; [reflexivity|]. split; vm_compute; reflexivity.
Qed.
(* Otherwise true: every event a panel emits, except that of a zone status report, comes back from its text; and from a reader
   too, exactly when its message carries no clock. *)
Theorem C56_event_roundtrip_partial : forall p now p' r w e,
  reachable p -> poll_next now p = Ok (p', r, w) -> yields r e ->
  ((exists z, e_msg e = Some (inl (MZoneStatusReport z))) /\ exists why, Event_ser e = Panic why) \/
  ((forall z, e_msg e <> Some (inl (MZoneStatusReport z))) /\
   exists v, Event_ser e = Ok v /\ Event_de FromText v = Ok e /\
     (Event_de FromReader v = Ok e <-> forall c, e_msg e <> Some (inl (MRtcResponse c)) /\ e_msg e <> Some (inl (MHeartbeat c)))).
Proof.
  intros p now p' r w e R E Y. destruct (reachable_inv _ R) as [I _]. assert (OK := emitted_ok _ _ _ _ _ _ I E Y).
  destruct (e_msg e) as [[m|er]|] eqn:EM.
  - destruct (is_zs m) eqn:EZ.
    + left. destruct m; try discriminate. split; [eauto|]. apply Event_zs. unfold event_zs. eauto.
    + right. split; [intros z [= ->]; discriminate|]. assert (NZ : ~ event_zs e) by (intros (z & Hz); rewrite EM in Hz; injection Hz as ->; discriminate).
      destruct (Event_rt e OK NZ) as (v & S & D1 & D2 & D3). exists v. split; [exact S|]. split; [exact D1|]. split.
      * intros D c. split; intros [= ->].
        { assert (Q : event_rtc e) by (eexists; split; [exact EM | reflexivity]). destruct (D3 Q) as (er & D4). congruence. }
        { assert (Q : event_rtc e) by (eexists; split; [exact EM | reflexivity]). destruct (D3 Q) as (er & D4). congruence. }
      * intros H. apply D2. intros (m' & Hm & Hr). rewrite EM in Hm. injection Hm as <-.
        destruct m; try discriminate; [edestruct H as [H1 _]; elim H1; reflexivity | edestruct H as [_ H2]; elim H2; reflexivity].
  - right. split; [discriminate|]. assert (NZ : ~ event_zs e) by (intros (z & Hz); congruence).
    destruct (Event_rt e OK NZ) as (v & S & D1 & D2 & D3). exists v. split; [exact S|]. split; [exact D1|]. split; [split; discriminate|].
    intros _. apply D2. intros (m & Hm & _). congruence.
  - right. split; [discriminate|]. assert (NZ : ~ event_zs e) by (intros (z & Hz); congruence).
    destruct (Event_rt e OK NZ) as (v & S & D1 & D2 & D3). exists v. split; [exact S|]. split; [exact D1|]. split; [split; discriminate|].
    intros _. apply D2. intros (m & Hm & _). congruence.
Qed.
(* An event with a packet, a message, a completed command and nothing else, and a deferred one with only a change. *)
Example C56_example :
  let e := mkEvent (Some (PAscii (B "a1000000100"))) (Some (inl (MArmingStatusReport ex_armed)))
             (Some (MArmRequest (mkArmRequest 1 AL_ArmedAway (B "001234")))) (Some (CArmingStatus ex_disarmed)) in
  (v <- Event_ser e ;; Event_de FromReader v) = Ok e /\
  (v <- Event_ser (mkEvent None None None (Some (CZoneChange 208 9))) ;; Event_de FromText v) = Ok (mkEvent None None None (Some (CZoneChange 208 9))).
Proof. split; vm_compute; reflexivity. Qed.

Print Assumptions C55_deserialised_in_range_refuted.
Print Assumptions C55_unchecked_values_misbehave_refuted.
Print Assumptions C55_wrappers_exact_partial.
Print Assumptions C55_messages_exact_partial.
Print Assumptions C56_event_roundtrip_refuted.
Print Assumptions C56_event_roundtrip_from_reader_refuted.
Print Assumptions C56_event_roundtrip_partial.
