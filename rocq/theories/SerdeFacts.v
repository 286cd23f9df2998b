(* SerdeFacts.v: lemmas about the serialisation model (Serde.v). *)
From Verif Require Import Base BaseFacts Pkt SpecPkt Msg SpecMsg IsoFacts State SpecState Serde.
From Coq Require Import ZifyBool ZifyNat ZifyN.
Ltac Zify.zify_post_hook ::= Z.div_mod_to_equations.

(* ---- strings ---- *)
Lemma string_bytes_inv s : string_of_bytes (bytes_of_string s) = s.
Proof.
  unfold string_of_bytes, bytes_of_string. rewrite map_map.
  rewrite (map_ext _ (fun x => x)) by (intros a; apply ascii_N_embedding). rewrite map_id. apply string_of_list_ascii_of_string.
Qed.
Lemma de_ser_str s : de_str (ser_str s) = Ok s. Proof. reflexivity. Qed.

(* ---- numbers and arrays ---- *)
Lemma de_u8_iff v n : de_u8 v = Ok n <-> v = VNum n /\ n <= 255.
Proof.
  destruct v; cbn; try (split; [discriminate | intros [X _]; discriminate]).
  destruct (N.ltb_spec n0 256); split.
  - intros [= ->]. split; [reflexivity | lia].
  - intros [[= ->] _]. reflexivity.
  - discriminate.
  - intros [[= ->] ?]. lia.
Qed.
Lemma de_u8_num n : n <= 255 -> de_u8 (VNum n) = Ok n.
Proof. intros H. apply de_u8_iff. auto. Qed.
Lemma mapM_map {A C} (f : A -> res C) (g : C -> A) l : Forall (fun x => f (g x) = Ok x) l -> mapM f (map g l) = Ok l.
Proof. induction 1 as [|x l H _ IH]; cbn; [reflexivity|]. rewrite H. cbn. rewrite IH. reflexivity. Qed.
Lemma mapM_u8_iff l r : mapM de_u8 l = Ok r <-> l = map VNum r /\ u8s r.
Proof.
  revert r. induction l as [|v l IH]; intros r; cbn.
  - split; [intros [= <-]; split; [reflexivity | constructor] | intros [E _]; destruct r; [reflexivity | discriminate]].
  - destruct (de_u8 v) as [n|e|w] eqn:E; cbn.
    + destruct (mapM de_u8 l) as [ns|e|w] eqn:E2; cbn.
      * apply de_u8_iff in E as [-> Hn]. destruct (proj1 (IH ns) eq_refl) as [-> U]. split.
        { intros [= <-]. split; [reflexivity | constructor; [unfold is_u8; lia | exact U]]. }
        { intros [E U2]. destruct r as [|n' r]; [discriminate|]. cbn in E. injection E as -> E. f_equal. f_equal.
          assert (X : Ok ns = Ok r) by (apply IH; split; [exact E | inversion U2; auto]). congruence. }
      * split; [discriminate|]. intros [E3 U]. destruct r as [|n' r]; [discriminate|]. cbn in E3. injection E3 as -> E3.
        assert (X : Err e = Ok r) by (apply IH; split; [exact E3 | inversion U; auto]). discriminate.
      * split; [discriminate|]. intros [E3 U]. destruct r as [|n' r]; [discriminate|]. cbn in E3. injection E3 as -> E3.
        assert (X : Panic w = Ok r) by (apply IH; split; [exact E3 | inversion U; auto]). discriminate.
    + split; [discriminate|]. intros [E3 U]. destruct r as [|n' r]; [discriminate|]. cbn in E3. injection E3 as -> E3.
      rewrite de_u8_num in E; [discriminate|]. inversion U; subst. unfold is_u8 in *. lia.
    + split; [discriminate|]. intros [E3 U]. destruct r as [|n' r]; [discriminate|]. cbn in E3. injection E3 as -> E3.
      rewrite de_u8_num in E; [discriminate|]. inversion U; subst. unfold is_u8 in *. lia.
Qed.
Lemma mapM_len {A C} (f : A -> res C) l : forall r, mapM f l = Ok r -> length r = length l.
Proof.
  induction l as [|x l IH]; intros r; cbn; [intros [= <-]; reflexivity|]. destruct (f x); cbn; try discriminate.
  destruct (mapM f l); cbn; try discriminate. intros [= <-]. cbn. f_equal. auto.
Qed.
Lemma de_array_len {A} n (de : value -> res A) v r : de_array n de v = Ok r -> length r = n.
Proof.
  destruct v; cbn; try discriminate. destruct (Nat.eqb_spec (length l) n); [|discriminate]. intros H. apply mapM_len in H. lia.
Qed.
Lemma de_array_u8_iff n v r : de_array n de_u8 v = Ok r <-> v = VArr (map VNum r) /\ length r = n /\ u8s r.
Proof.
  destruct v; cbn; try (split; [discriminate | intros [X _]; discriminate]). destruct (Nat.eqb_spec (length l) n) as [L|L].
  - rewrite mapM_u8_iff. split.
    + intros [-> U]. rewrite map_length in L. auto.
    + intros ([= ->] & _ & U). auto.
  - split; [discriminate|]. intros ([= ->] & L2 & _). rewrite map_length in L. lia.
Qed.
Lemma de_vec_u8_iff v r : de_vec de_u8 v = Ok r <-> v = VArr (map VNum r) /\ u8s r.
Proof.
  destruct v; cbn; try (split; [discriminate | intros [X _]; discriminate]). rewrite mapM_u8_iff.
  split; [intros [-> U]; auto | intros [[= ->] U]; auto].
Qed.
Lemma array_roundtrip {A} n (ser : A -> value) (de : value -> res A) l : length l = n -> Forall (fun x => de (ser x) = Ok x) l ->
  de_array n de (ser_list ser l) = Ok l.
Proof. intros L F. cbn. rewrite map_length, L, Nat.eqb_refl. apply mapM_map. exact F. Qed.
Lemma u8_array_roundtrip n l : length l = n -> u8s l -> de_array n de_u8 (ser_list VNum l) = Ok l.
Proof. intros L U. apply de_array_u8_iff. auto. Qed.

(* ---- enums ---- *)
Ltac enum := let x := fresh in intros x; destruct x; reflexivity.
Lemma ArmLevel_rt : forall x, ArmLevel_de (ArmLevel_ser x) = Ok x. Proof. enum. Qed.
Lemma TimeDataType_rt : forall x, TimeDataType_de (TimeDataType_ser x) = Ok x. Proof. enum. Qed.
Lemma ArmedState_rt : forall x, ArmedState_de (ArmedState_ser x) = Ok x. Proof. enum. Qed.
Lemma Weekday_rt : forall x, Weekday_de (Weekday_ser x) = Ok x. Proof. enum. Qed.
Lemma ClockDisplayMode_rt : forall x, ClockDisplayMode_de (ClockDisplayMode_ser x) = Ok x. Proof. enum. Qed.
Lemma DateDisplayMode_rt : forall x, DateDisplayMode_de (DateDisplayMode_ser x) = Ok x. Proof. enum. Qed.
Lemma ArmingStatus_rt : forall x, ArmingStatus_de (ArmingStatus_ser x) = Ok x. Proof. enum. Qed.
Lemma ArmUpState_rt : forall x, ArmUpState_de (ArmUpState_ser x) = Ok x. Proof. enum. Qed.
Lemma AlarmState_rt : forall x, AlarmState_de (AlarmState_ser x) = Ok x. Proof. enum. Qed.
Lemma TextDescriptionType_rt : forall x, TextDescriptionType_de (TextDescriptionType_ser x) = Ok x. Proof. enum. Qed.

(* ---- dates ---- *)
Lemma iso_no_escape d : datetime_ok d -> needs_escape (to_iso_8601 d) = false.
Proof.
  intros H. destruct (to_iso_spec d H) as (y & mo & dd & h & mi & se & -> & Y & M & D & Hh & Mi & S).
  assert (X : forall n s, two n s -> forall c, In c s -> ch "0" <= c <= ch "9").
  { intros n s (_ & F & _) c Hc. unfold digits in F. rewrite Forall_forall in F. auto. }
  unfold needs_escape. apply not_true_is_false. intros E. apply existsb_exists in E as (c & Hc & E).
  rewrite !in_app_iff in Hc. cbn [In] in Hc.
  assert (C : ch "0" <= c <= ch "9" \/ c = ch "-" \/ c = ch "T" \/ c = ch ":").
  { repeat (destruct Hc as [Hc|Hc]; try (left; eauto; fail); try (subst c; try (left; lia); try (right; lia); fail); try contradiction).
    all: try (left; eauto; fail). all: subst; auto. all: try (left; lia). }
  lia.
Qed.
Lemma DateTime_rt d : datetime_ok d -> DateTime_de FromText (DateTime_ser d) = Ok d.
Proof. intros H. unfold DateTime_de, DateTime_ser, ser_str. rewrite iso_no_escape by exact H. cbn [de_borrowed bind]. apply from_to_iso. exact H. Qed.

(* ---- structs ---- *)
Lemma occurrences_none k l : ~ In k (map fst l) -> occurrences k l = [].
Proof.
  unfold occurrences. induction l as [|[k' v] l IH]; cbn; intros H; [reflexivity|].
  destruct (beq k' k) eqn:E; [apply beq_eq in E; subst; tauto|]. apply IH. tauto.
Qed.
Lemma occurrences_app k l l' : occurrences k (l ++ l') = occurrences k l ++ occurrences k l'.
Proof. unfold occurrences. rewrite filter_app, map_app. reflexivity. Qed.
Lemma map_fst_combine {A C} (l : list A) : forall (k : list C), length l = length k -> map fst (combine l k) = l.
Proof. induction l as [|x l IH]; intros [|y k]; cbn; intros H; try discriminate; [reflexivity|]. f_equal. apply IH. lia. Qed.
Definition find_field (l : list (bytes * value)) (k : bytes) : res (option value) :=
  match occurrences k l with [] => Ok None | [x] => Ok (Some x) | _ => Err "duplicate field" end.
Lemma fields_aux names : forall vs pre, NoDup names -> length names = length vs -> (forall k, In k names -> ~ In k (map fst pre)) ->
  mapM (find_field (pre ++ combine names vs)) names = Ok (map Some vs).
Proof.
  induction names as [|k names IH]; intros [|v vs] pre ND L HP; try discriminate; [reflexivity|].
  inversion ND as [|? ? Nk ND']; subst. cbn [combine mapM].
  assert (E : find_field (pre ++ (k, v) :: combine names vs) k = Ok (Some v)).
  { unfold find_field. rewrite occurrences_app, (occurrences_none k pre) by (apply HP; left; reflexivity).
    unfold occurrences. cbn [filter fst app]. rewrite beq_refl. cbn [map snd].
    fold (occurrences k (combine names vs)). rewrite occurrences_none; [reflexivity|]. rewrite map_fst_combine by (cbn in L; lia). exact Nk. }
  rewrite E. cbn [bind]. replace (pre ++ (k, v) :: combine names vs) with ((pre ++ [(k, v)]) ++ combine names vs) by (rewrite <- app_assoc; reflexivity).
  rewrite IH; [reflexivity | exact ND' | cbn in L; lia |]. intros k' Hk'. rewrite map_app, in_app_iff. cbn. intros [X|[X|[]]].
  - eapply HP; [right; exact Hk' | exact X].
  - subst. contradiction.
Qed.
Lemma fields_rt names vs : NoDup names -> length names = length vs -> de_fields names (VObj (combine names vs)) = Ok (map Some vs).
Proof. intros ND L. exact (fields_aux names vs [] ND L (fun _ _ H => H)). Qed.
Ltac nodup := repeat (constructor; [cbn; intuition discriminate|]); constructor.
(* de_fields of what ser writes *)
Ltac fields := rewrite fields_rt by (reflexivity || nodup); cbn [bind map field field_opt nth_error].

(* What messages accept: the wrapper fields are only known to be bytes; everything else is in range. *)
Definition loose_message (m : message) : Prop :=
  match m with
  | MArmRequest r => ar_area r <= 255 /\ length (ar_code r) = 6%nat /\ u8s (ar_code r)
  | MArmingStatusReport r => as_ok r
  | MSendTimeData r => ee_area r <= 255 /\ ee_timer1 r <= 255 /\ ee_timer2 r <= 255
  | MSendCode r => length (ic_code r) = 6%nat /\ u8s (ic_code r) /\ ic_user r <= 255 /\ ic_keypad r <= 255
  | MRtcResponse r | MHeartbeat r => exists s, from_iso_8601 s = Ok (datetime r)
  | MStringDescriptionRequest r => sdq_num r <= 255
  | MStringDescriptionResponse r => sd_num r <= 255 /\ length (sd_text r) = 16%nat /\ u8s (sd_text r)
  | MActivateTask t | MTaskChange t => t <= 255
  | MZoneChange r => zc_zone r <= 255 /\ zc_status r <= 255
  | MZoneStatusReport z => False
  | MArmingStatusRequest | MRtcRequest | MZoneStatusRequest => True
  end.
Lemma limited_rt n : n <= 255 -> limited_de (limited_ser n) = Ok n. Proof. apply de_u8_num. Qed.
Lemma RtcData_rt r : datetime_ok (datetime r) -> RtcData_de FromText (RtcData_ser r) = Ok r.
Proof.
  intros H. unfold RtcData_de, RtcData_ser. fields. rewrite DateTime_rt by exact H. cbn [bind]. rewrite Weekday_rt. cbn [bind de_bool].
  rewrite ClockDisplayMode_rt. cbn [bind]. rewrite DateDisplayMode_rt. destruct r; reflexivity.
Qed.
Lemma Rtc_rt r : datetime_ok (datetime r) -> Rtc_de FromText (Rtc_ser r) = Ok r.
Proof. intros H. unfold Rtc_de, Rtc_ser. fields. apply RtcData_rt. exact H. Qed.
Lemma ArmRequest_rt m : loose_message (MArmRequest m) -> ArmRequest_de (ArmRequest_ser m) = Ok m.
Proof.
  intros (A & L & D). unfold ArmRequest_de, ArmRequest_ser. fields. rewrite limited_rt by exact A. cbn [bind].
  rewrite ArmLevel_rt. cbn [bind]. unfold ArmCode_de, ArmCode_ser. rewrite u8_array_roundtrip; [destruct m; reflexivity | exact L | exact D].
Qed.
Lemma ArmingStatusReport_rt m : as_ok m -> ArmingStatusReport_de (ArmingStatusReport_ser m) = Ok m.
Proof.
  intros (L1 & L2 & L3 & T). unfold ArmingStatusReport_de, ArmingStatusReport_ser. fields.
  rewrite array_roundtrip; [|exact L1|apply Forall_forall; intros; apply ArmingStatus_rt]. cbn [bind].
  rewrite array_roundtrip; [|exact L2|apply Forall_forall; intros; apply ArmUpState_rt]. cbn [bind].
  rewrite array_roundtrip; [|exact L3|apply Forall_forall; intros; apply AlarmState_rt]. cbn [bind].
  rewrite de_u8_num by exact T. destruct m; reflexivity.
Qed.
Lemma SendTimeData_rt m : loose_message (MSendTimeData m) -> SendTimeData_de (SendTimeData_ser m) = Ok m.
Proof.
  intros (A & T1 & T2). unfold SendTimeData_de, SendTimeData_ser. fields. rewrite limited_rt by exact A. cbn [bind].
  rewrite TimeDataType_rt. cbn [bind]. rewrite !de_u8_num by assumption. cbn [bind].
  assert (E : de_opt ArmedState_de (ser_opt ArmedState_ser (ee_armed_state m)) = Ok (ee_armed_state m)) by (destruct (ee_armed_state m) as [s|]; [destruct s|]; reflexivity).
  rewrite E. destruct m; reflexivity.
Qed.
Lemma SendCode_rt m : loose_message (MSendCode m) -> SendCode_de (SendCode_ser m) = Ok m.
Proof.
  intros (L & U & T & K). unfold SendCode_de, SendCode_ser. fields. rewrite u8_array_roundtrip by assumption. cbn [bind].
  rewrite de_u8_num by exact T. cbn [bind]. rewrite limited_rt by exact K. destruct m; reflexivity.
Qed.
Lemma SdReq_rt m : sdq_num m <= 255 -> SdReq_de (SdReq_ser m) = Ok m.
Proof. intros T. unfold SdReq_de, SdReq_ser. fields. rewrite TextDescriptionType_rt. cbn [bind]. rewrite de_u8_num by exact T. destruct m; reflexivity. Qed.
Lemma SdResp_rt m : loose_message (MStringDescriptionResponse m) -> SdResp_de (SdResp_ser m) = Ok m.
Proof.
  intros (T & L & P). unfold SdResp_de, SdResp_ser. fields. rewrite TextDescriptionType_rt. cbn [bind]. rewrite de_u8_num by exact T. cbn [bind].
  unfold TextDescription_de, TextDescription_ser. rewrite u8_array_roundtrip; [destruct m; reflexivity | exact L | exact P].
Qed.
Lemma Task_rt t : t <= 255 -> Task_de (Task_ser t) = Ok t.
Proof. intros H. unfold Task_de, Task_ser. fields. apply limited_rt. exact H. Qed.
Lemma ZoneChange_rt m : loose_message (MZoneChange m) -> ZoneChange_de (ZoneChange_ser m) = Ok m.
Proof.
  intros (Z & S). unfold ZoneChange_de, ZoneChange_ser. fields. rewrite limited_rt by exact Z. cbn [bind].
  unfold ZoneStatus_de, ZoneStatus_ser. rewrite de_u8_num by lia. destruct m; reflexivity.
Qed.

(* ---- messages, packets, changes, events ---- *)
Definition is_zs (m : message) : bool := match m with MZoneStatusReport _ => true | _ => false end.
Definition has_rtc (m : message) : bool := match m with MRtcResponse _ | MHeartbeat _ => true | _ => false end.
Definition tag_is (v : value) : Prop := exists k x, v = tagged k x.
Lemma wf_loose m : wf_message m -> is_zs m = false -> loose_message m.
Proof.
  assert (F : forall (P : N -> Prop) l, Forall P l -> (forall c, P c -> c <= 255) -> u8s l).
  { intros P l H I. eapply Forall_impl; [|exact H]. cbn. intros c Hc. apply I in Hc. unfold is_u8. lia. }
  intros W Z. destruct m; try discriminate Z; cbn [wf_message loose_message] in *; try exact I; try exact W.
  - destruct W as (A & L & D). unfold area_ok in A. split; [lia|]. split; [exact L|]. eapply F; [exact D|]. cbn. lia.
  - destruct W as (A & W). unfold area_ok in A. split; [lia|exact W].
  - destruct W as (A & C & U & K). unfold keypad_ok in K. repeat split; auto. lia.
  - eexists. apply from_to_iso. exact W.
  - destruct W as (A & L & D). split; [exact A|]. split; [exact L|]. eapply F; [exact D|]. unfold printable. lia.
  - unfold task_ok in W. lia.
  - unfold task_ok in W. lia.
  - eexists. apply from_to_iso. exact W.
  - destruct W as (A & B). unfold zone_ok in A. lia.
Qed.
Lemma Message_rt m : wf_message m -> is_zs m = false ->
  exists v, Message_ser m = Ok v /\ tag_is v /\ Message_de FromText v = Ok m /\
    (has_rtc m = false -> Message_de FromReader v = Ok m) /\ (has_rtc m = true -> exists e, Message_de FromReader v = Err e).
Proof.
  intros W Z. assert (L := wf_loose m W Z).
  destruct m; try discriminate Z; cbn [wf_message] in W; cbn [loose_message] in L; (eexists; split; [reflexivity|]; split; [eexists _, _; reflexivity|]);
  cbv beta iota delta [Message_de tagged de_variant bind contents]; cbn [beq N.eqb Pos.eqb andb].
  - rewrite ArmRequest_rt by exact L. repeat split; auto; discriminate.
  - repeat split; auto; discriminate.
  - rewrite ArmingStatusReport_rt by exact W. repeat split; auto; discriminate.
  - rewrite SendTimeData_rt by exact L. repeat split; auto; discriminate.
  - rewrite SendCode_rt by exact L. repeat split; auto; discriminate.
  - repeat split; auto; discriminate.
  - rewrite Rtc_rt by exact W. repeat split; auto; try discriminate. intros _. eexists. reflexivity.
  - rewrite SdReq_rt by exact W. repeat split; auto; discriminate.
  - rewrite SdResp_rt by exact L. repeat split; auto; discriminate.
  - rewrite Task_rt by exact L. repeat split; auto; discriminate.
  - rewrite Task_rt by exact L. repeat split; auto; discriminate.
  - rewrite Rtc_rt by exact W. repeat split; auto; try discriminate. intros _. eexists. reflexivity.
  - rewrite ZoneChange_rt by exact L. repeat split; auto; discriminate.
  - repeat split; auto; discriminate.
Qed.
Definition packet_u8 (p : packet) : Prop := match p with PAscii _ => True | PRp d => u8s d | PInvalid raw _ => u8s raw end.
Definition change_ok (c : Change) : Prop :=
  match c with CZoneChange z s => z <= 255 /\ s < 16 | CArmingStatus r => as_ok r end.
Lemma Packet_rt p : packet_u8 p -> Packet_de (Packet_ser p) = Ok p /\ tag_is (Packet_ser p).
Proof.
  destruct p as [b|d|raw w]; cbn [packet_u8]; intros U; (split; [|eexists _, _; reflexivity]);
  cbv beta iota delta [Packet_ser Packet_de tagged de_variant bind contents]; cbn [beq N.eqb Pos.eqb andb].
  - reflexivity.
  - unfold RpPacket_de, RpPacket_ser. replace (de_vec de_u8 (ser_list VNum d)) with (Ok d); [reflexivity|]. symmetry. apply de_vec_u8_iff. auto.
  - unfold InvalidPacket_de. fields. cbn [de_str ser_str bind].
    replace (de_vec de_u8 (ser_list VNum raw)) with (Ok raw) by (symmetry; apply de_vec_u8_iff; auto). cbn [bind]. rewrite string_bytes_inv. reflexivity.
Qed.
Lemma Change_rt c : change_ok c -> Change_de (Change_ser c) = Ok c /\ tag_is (Change_ser c).
Proof.
  destruct c as [z s|r]; cbn [change_ok]; intros H; (split; [|eexists _, _; reflexivity]);
  unfold Change_ser, Change_de, tagged; cbn [de_variant bind contents]; cbn [beq N.eqb Pos.eqb andb]; cbn [contents bind].
  - fields. rewrite limited_rt by apply H. cbn [bind]. unfold ZoneStatus_de, ZoneStatus_ser. rewrite de_u8_num by lia. reflexivity.
  - fields. rewrite ArmingStatusReport_rt by exact H. reflexivity.
Qed.
Lemma de_opt_tag {A} (de : value -> res A) v : tag_is v -> de_opt de v = (x <- de v ;; Ok (Some x)).
Proof. intros (k & x & ->). reflexivity. Qed.

(* what an event holds *)
Definition event_ok (e : Event) : Prop :=
  (forall p, e_pkt e = Some p -> packet_u8 p) /\ (forall m, e_msg e = Some (inl m) -> wf_message m) /\
  (forall m, e_completes e = Some m -> wf_message m /\ is_zs m = false /\ has_rtc m = false) /\ (forall c, e_change e = Some c -> change_ok c).
Definition event_zs (e : Event) : Prop := exists z, e_msg e = Some (inl (MZoneStatusReport z)).
Definition event_rtc (e : Event) : Prop := exists m, e_msg e = Some (inl m) /\ has_rtc m = true.
Lemma Outcome_rt o : (forall m, o = inl m -> wf_message m /\ is_zs m = false) ->
  exists v, Outcome_ser o = Ok v /\ tag_is v /\ Outcome_de FromText v = Ok o /\
    ((forall m, o = inl m -> has_rtc m = false) -> Outcome_de FromReader v = Ok o) /\
    (forall m, o = inl m -> has_rtc m = true -> exists e, Outcome_de FromReader v = Err e).
Proof.
  destruct o as [m|e]; intros H.
  - destruct (H m eq_refl) as [W Z]. destruct (Message_rt m W Z) as (v & E & T & R1 & R2 & R3). cbn [Outcome_ser]. rewrite E. cbn [bind].
    eexists. split; [reflexivity|]. split; [eexists _, _; reflexivity|].
    cbv beta iota delta [Outcome_de tagged de_variant bind contents]; cbn [beq N.eqb Pos.eqb andb]. rewrite R1. split; [reflexivity|]. split.
    + intros HR. rewrite R2 by auto. reflexivity.
    + intros m' [= <-] HR. destruct (R3 HR) as (er & ->). eauto.
  - eexists. split; [reflexivity|]. split; [eexists _, _; reflexivity|].
    unfold Outcome_de, tagged. cbn [de_variant bind contents]. cbn [beq N.eqb Pos.eqb andb contents bind]. unfold Error_de, Error_ser. cbn [de_str ser_str bind].
    rewrite string_bytes_inv. repeat split; auto. discriminate.
Qed.
Lemma Event_rt e : event_ok e -> ~ event_zs e ->
  exists v, Event_ser e = Ok v /\ Event_de FromText v = Ok e /\ (~ event_rtc e -> Event_de FromReader v = Ok e) /\
    (event_rtc e -> exists er, Event_de FromReader v = Err er).
Proof.
  intros (HP & HM & HC & HX) NZ.
  assert (P : de_opt Packet_de (ser_opt Packet_ser (e_pkt e)) = Ok (e_pkt e)).
  { destruct (e_pkt e) as [p|]; [|reflexivity]. cbn [ser_opt]. destruct (Packet_rt p (HP _ eq_refl)) as [R T]. rewrite de_opt_tag by exact T. rewrite R. reflexivity. }
  assert (X : de_opt Change_de (ser_opt Change_ser (e_change e)) = Ok (e_change e)).
  { destruct (e_change e) as [c|]; [|reflexivity]. cbn [ser_opt]. destruct (Change_rt c (HX _ eq_refl)) as [R T]. rewrite de_opt_tag by exact T. rewrite R. reflexivity. }
  assert (C : exists v, ser_opt_res Message_ser (e_completes e) = Ok v /\ forall src, de_opt (Message_de src) v = Ok (e_completes e)).
  { destruct (e_completes e) as [m|]; [|exists VNull; auto]. destruct (HC m eq_refl) as (W & Z & RT). destruct (Message_rt m W Z) as (v & E & T & R1 & R2 & _).
    exists v. split; [exact E|]. intros src. rewrite de_opt_tag by exact T. destruct src; [rewrite R1 | rewrite R2 by exact RT]; reflexivity. }
  destruct C as (vc & EC & RC).
  assert (M : exists v, ser_opt_res Outcome_ser (e_msg e) = Ok v /\ de_opt (Outcome_de FromText) v = Ok (e_msg e) /\
     (~ event_rtc e -> de_opt (Outcome_de FromReader) v = Ok (e_msg e)) /\ (event_rtc e -> exists er, de_opt (Outcome_de FromReader) v = Err er)).
  { unfold event_rtc, event_zs in *. destruct (e_msg e) as [o|]; [|exists VNull; repeat split; auto; intros (m & Y & _); discriminate].
    destruct (Outcome_rt o) as (v & E & T & R1 & R2 & R3).
    { intros m ->. split; [auto|]. destruct m; try reflexivity. elim NZ. eauto. }
    exists v. split; [exact E|]. rewrite !de_opt_tag by exact T. rewrite R1. split; [reflexivity|]. split.
    - intros NR. rewrite R2; [reflexivity|]. intros m ->. destruct (has_rtc m) eqn:HR; [elim NR; eauto | reflexivity].
    - intros (m & [= ->] & HR). destruct (R3 m eq_refl HR) as (er & ->). exists er. reflexivity. }
  destruct M as (vm & EM & R1 & R2 & R3).
  unfold Event_ser. rewrite EM. cbn [bind]. rewrite EC. cbn [bind]. eexists. split; [reflexivity|]. unfold Event_de. fields.
  rewrite P. cbn [bind]. rewrite R1. cbn [bind]. rewrite RC. cbn [bind]. rewrite X. cbn [bind]. split; [destruct e; reflexivity|]. split.
  - intros NR. rewrite R2 by exact NR. cbn [bind]. rewrite RC. cbn [bind]. destruct e; reflexivity.
  - intros HR. destruct (R3 HR) as (er & ->). eexists. reflexivity.
Qed.
Lemma Event_zs e : event_zs e -> exists why, Event_ser e = Panic why.
Proof. intros (z & E). unfold Event_ser. rewrite E. cbn. eauto. Qed.
