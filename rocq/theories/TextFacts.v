(* TextFacts.v: everything the library serialises can be written as JSON text. *)
From Verif Require Import Base BaseFacts Pkt Msg State SpecMsg Serde SpecPkt SpecState Tokio SpecConn ConnFacts JsonText SpecJson DecFacts WireFacts SerdeFacts PktFacts StateFacts RunFacts HistFacts JsonFacts JsonWrite ShowFacts.
From Coq Require Import ZifyBool ZifyNat ZifyN.
Ltac Zify.zify_post_hook ::= Z.div_mod_to_equations.

(* ---- the texts of errors are texts ---- *)
Definition texty {A} (r : res A) : Prop := match r with Err e => utf8_valid (bytes_of_string e) = true | _ => True end.
Lemma texty_bind {A C} (m : res A) (k : A -> res C) : texty m -> (forall x, texty (k x)) -> texty (bind m k).
Proof. intros Hm Hk. destruct m; cbn in *; auto. Qed.
Lemma texty_mapM {A C} (f : A -> res C) l : (forall x, texty (f x)) -> texty (mapM f l).
Proof. intros H. induction l as [|x l IH]; [exact I|]. cbn [mapM]. apply texty_bind; [apply H|]. intros y. apply texty_bind; [exact IH|]. intros z. exact I. Qed.
Lemma texty_index {A} (l : list A) i : texty (index l i).
Proof. unfold index. destruct (nth_error l i); exact I. Qed.
Lemma texty_slice {A} (l : list A) a b : texty (slice l a b).
Proof. unfold slice. destruct (_ && _)%bool; exact I. Qed.
Lemma texty_expect {A} (m : res A) w : texty (expect m w).
Proof. destruct m; exact I. Qed.
Ltac texts := cbn [texty]; try match goal with |- utf8_valid (bytes_of_string ?s) = true => change (text s) end;
  repeat match goal with
  | |- text (_ ++ _) => apply text_append
  | |- text (show_dec _) => apply text_dec
  | |- text (show_len _) => apply text_len
  | |- text (show_hex2 _) => apply text_hex2
  | |- text (show_slice _) => apply text_slice
  | |- text (show_char _) => apply text_char
  | |- text (show_str _) => apply text_str
  | |- _ => reflexivity
  end.
Create HintDb texty.
#[local] Hint Resolve texty_index texty_slice texty_expect : texty.
Ltac texty1 :=
  match goal with
  | |- texty (Ok _) => exact I
  | |- texty (Panic _) => exact I
  | |- texty (Err _) => texts
  | U : forall n v, text n -> texty (parse_u8_dec n v) |- texty (parse_u8_dec _ _) => apply U; reflexivity
  | |- texty (bind _ _) => apply texty_bind; [|intros ?]
  | |- texty (mapM _ _) => apply texty_mapM; intros ?
  | |- texty (if ?b then _ else _) => destruct b
  | |- texty (match ?x with _ => _ end) => destruct x
  | |- texty (let _ := _ in _) => cbv zeta
  | |- _ => solve [eauto with texty]
  end.
Ltac texty := repeat texty1.
Lemma parse_texty pkt : texty (parse pkt).
Proof.
  destruct pkt as [body|d|raw why]; try exact I. cbn [parse].
  assert (U8 : forall n v, text n -> texty (parse_u8_dec n v)).
  { intros n v Hn. unfold parse_u8_dec. destruct (utf8_valid v); [destruct (from_str_dec 255 v); [exact I|]|]; (cbn [texty]; apply (text_append n); [exact Hn | texts]). }
  assert (LT : forall m v, texty (limited_try_from m v)) by (intros m v; unfold limited_try_from; texty).
  assert (E1 : forall b, texty (ArmLevel_try_from b)) by (intros b; unfold ArmLevel_try_from; texty).
  assert (E2 : forall b, texty (TimeDataType_try_from b)) by (intros b; unfold TimeDataType_try_from; texty).
  assert (E3 : forall b, texty (ArmedState_try_from b)) by (intros b; unfold ArmedState_try_from; texty).
  assert (E4 : forall b, texty (Weekday_try_from b)) by (intros b; unfold Weekday_try_from; texty).
  assert (E5 : forall b, texty (ClockDisplayMode_try_from b)) by (intros b; unfold ClockDisplayMode_try_from; texty).
  assert (E6 : forall b, texty (DateDisplayMode_try_from b)) by (intros b; unfold DateDisplayMode_try_from; texty).
  assert (E7 : forall b, texty (ArmingStatus_try_from b)) by (intros b; unfold ArmingStatus_try_from; texty).
  assert (E8 : forall b, texty (ArmUpState_try_from b)) by (intros b; unfold ArmUpState_try_from; texty).
  assert (E9 : forall b, texty (AlarmState_try_from b)) by (intros b; unfold AlarmState_try_from; texty).
  assert (EA : forall b, texty (TextDescriptionType_try_from b)) by (intros b; unfold TextDescriptionType_try_from; texty).
  assert (EB : forall b, texty (ArmCode_try_from_slice b)) by (intros b; unfold ArmCode_try_from_slice; texty).
  assert (EC : forall b, texty (ZoneStatus_from_ascii b)) by (intros b; unfold ZoneStatus_from_ascii; texty).
  assert (RT : forall b, texty (RtcData_from_ascii b)) by (intros b; unfold RtcData_from_ascii; texty).
  unfold parse_ascii, ArmRequest_from_ascii, ArmingStatusReport_from_ascii_data, SendTimeData_from_ascii_data, SendCode_from_ascii_data,
    SdReq_from_ascii_data, SdResp_from_ascii_data, ActivateTask_from_ascii_data, TaskChange_from_ascii_data, ZoneChange_from_ascii_data,
    ZoneStatusReport_from_ascii_data, AS_loop, Zone_try_from, Area_try_from, Keypad_try_from, Task_try_from.
  texty.
Qed.
Definition reasoned (r : res (option packet * bytes)) : Prop :=
  match r with Ok (Some (PInvalid _ w), _) => utf8_valid (bytes_of_string w) = true | _ => True end.
Lemma reasoned_bind {A} (m : res A) k : (forall x, reasoned (k x)) -> reasoned (bind m k).
Proof. intros H. destruct m; cbn; auto. Qed.
Lemma ascii_decode_texty raw : texty (ascii_decode raw).
Proof.
  assert (CP : forall s, texty (check_printable s)) by (intros s; unfold check_printable; texty).
  unfold ascii_decode, ascii_try_from, dehex_byte. texty.
Qed.
Lemma rp_loop_reason fuel : forall src buf pos data, match rp_loop fuel src buf pos data with Ok (RpErr _ w, _) => utf8_valid (bytes_of_string w) = true | _ => True end.
Proof.
  set (Q := fun r : res (rp_result * bytes) => match r with Ok (RpErr _ w, _) => utf8_valid (bytes_of_string w) = true | _ => True end).
  assert (QB : forall A (m : res A) k, (forall x, Q (k x)) -> Q (bind m k)) by (intros A m k H; destruct m; cbn; auto).
  induction fuel as [|fuel IH]; intros src buf pos data; [exact I|]. change (Q (rp_loop (S fuel) src buf pos data)). cbn [rp_loop].
  apply QB. intros rest. assert (U : Q (rp_decode_unfinished src)).
  { unfold rp_decode_unfinished. destruct (_ <=? _)%nat; [do 2 (apply QB; intros ?); unfold Q; texts | exact I]. }
  destruct (memchr 16 rest) as [rel|]; [|exact U]. destruct (nth_error buf (pos + rel + 1)) as [e|]; [|exact U].
  destruct (e =? 16); [apply QB; intros s; apply IH|]. destruct (e =? 3).
  - apply QB. intros s. cbv zeta. destruct (get_to buf (pos + rel + 4)); [|exact I]. do 3 (apply QB; intros ?). destruct (_ =? _); [exact I|]. unfold Q. texts.
  - do 2 (apply QB; intros ?). unfold Q. texts.
Qed.
Lemma decode_reasoned src : reasoned (decode src).
Proof.
  unfold decode. destruct (_ <? _)%nat; [exact I|]. destruct (starts_with src RP_HEADER).
  - destruct (rp_decode src) as [[[[d|]|raw w] s']| |] eqn:E; try exact I. cbn. unfold rp_decode in E.
    destruct (_ <? _)%nat; [discriminate|]. destruct (negb _); [discriminate|]. cbv zeta in E.
    match type of E with rp_loop ?f ?s ?b ?p ?d = _ => pose proof (rp_loop_reason f s b p d) as R end. rewrite E in R. exact R.
  - apply reasoned_bind. intros a. apply reasoned_bind. intros b. destruct (dehex_byte a b).
    + cbv zeta. destruct (get_to src _) as [raw|]; [|exact I]. pose proof (ascii_decode_texty raw) as T. destruct (ascii_decode raw); cbn [bind]; [|apply reasoned_bind|exact I].
      * apply reasoned_bind. intros; exact I.
      * intros s'. exact T.
    + apply reasoned_bind. intros [pos|]; [|exact I]. do 2 (apply reasoned_bind; intros ?). reflexivity.
    + exact I.
Qed.

(* ---- what serialises to what can be written ---- *)
Lemma digits_printable s : digits s -> Forall printable s.
Proof. apply Forall_impl. intros c H. unfold printable. change (ch "0") with 48 in H. change (ch "9") with 57 in H. lia. Qed.
Lemma pad_printable w n : Forall printable (fmt_pad w n).
Proof.
  unfold fmt_pad. apply digits_printable. apply Forall_app. split; [apply digits_zeros | apply fmt_dec_spec].
Qed.
Lemma iso_utf8 d : utf8_valid (to_iso_8601 d) = true.
Proof.
  apply utf8_printable. unfold to_iso_8601. rewrite !Forall_app. repeat match goal with |- _ /\ _ => split end; try apply pad_printable; repeat (apply Forall_cons; [unfold printable; cbn; lia|]); apply Forall_nil.
Qed.
Lemma wr_nums l : u8s l -> writable (VArr (map VNum l)).
Proof. intros U. constructor. induction U as [|c l H _ IH]; cbn [map]; constructor; auto. constructor. unfold u8s in *. lia. Qed.
Lemma wr_arr_map {A} (f : A -> value) l : (forall x, writable (f x)) -> writable (VArr (map f l)).
Proof. intros H. constructor. induction l; cbn; constructor; auto. Qed.
Lemma wr_ser_str s : utf8_valid s = true -> writable (ser_str s).
Proof. exact (wr_str s). Qed.
Ltac unit_name x := apply wr_ser_str; destruct x; reflexivity.
Lemma wr_ArmLevel x : writable (ArmLevel_ser x). Proof. unit_name x. Qed.
Lemma wr_TimeDataType x : writable (TimeDataType_ser x). Proof. unit_name x. Qed.
Lemma wr_ArmedState x : writable (ArmedState_ser x). Proof. unit_name x. Qed.
Lemma wr_Weekday x : writable (Weekday_ser x). Proof. unit_name x. Qed.
Lemma wr_Clock x : writable (ClockDisplayMode_ser x). Proof. unit_name x. Qed.
Lemma wr_Date x : writable (DateDisplayMode_ser x). Proof. unit_name x. Qed.
Lemma wr_ArmingStatus x : writable (ArmingStatus_ser x). Proof. unit_name x. Qed.
Lemma wr_ArmUpState x : writable (ArmUpState_ser x). Proof. unit_name x. Qed.
Lemma wr_AlarmState x : writable (AlarmState_ser x). Proof. unit_name x. Qed.
Lemma wr_TextType x : writable (TextDescriptionType_ser x). Proof. unit_name x. Qed.
Lemma wr_small n : n <= 255 -> writable (VNum n).
Proof. intros H. constructor. lia. Qed.
Lemma wr_member k v l : utf8_valid k = true -> writable v -> writable (VObj l) -> writable (VObj ((k, v) :: l)).
Proof. intros K V L. inversion L; subst. constructor. constructor; auto. Qed.
Lemma wr_empty : writable (VObj []).
Proof. constructor. constructor. Qed.
Lemma wr_tagged k v : utf8_valid k = true -> writable v -> writable (tagged k v).
Proof. intros K V. apply wr_member; [exact K | exact V | exact wr_empty]. Qed.
Ltac members := repeat (apply wr_member; [reflexivity | | ]); try exact wr_empty.
Lemma wr_Rtc r : writable (Rtc_ser r).
Proof.
  unfold Rtc_ser, RtcData_ser. cbn [combine Rtc_fields RtcData_fields]. members. members.
  - apply wr_ser_str, iso_utf8.
  - apply wr_Weekday.
  - constructor.
  - apply wr_Clock.
  - apply wr_Date.
Qed.
Lemma wr_AS r : as_ok r -> writable (ArmingStatusReport_ser r).
Proof.
  intros (_ & _ & _ & H). unfold ArmingStatusReport_ser, ser_list. cbn [combine ArmingStatusReport_fields]. members.
  - apply wr_arr_map, wr_ArmingStatus.
  - apply wr_arr_map, wr_ArmUpState.
  - apply wr_arr_map, wr_AlarmState.
  - apply wr_small, H.
Qed.
Lemma wr_Message m v : wf_message m -> Message_ser m = Ok v -> writable v.
Proof.
  intros W E. destruct m; cbn [wf_message Message_ser] in W, E; try discriminate; injection E as <-; (apply wr_tagged; [reflexivity|]); try exact wr_empty;
    try apply wr_Rtc; try (apply wr_AS; exact W).
  - unfold ArmRequest_ser, ArmCode_ser, limited_ser, ser_list. cbn [combine ArmRequest_fields]. destruct W as [W1 (W2 & W3)]. unfold area_ok in W1. members.
    + apply wr_small. lia.
    + apply wr_ArmLevel.
    + apply wr_nums. apply printable_u8, digits_printable, W3.
  - unfold SendTimeData_ser, limited_ser, ser_opt. cbn [combine SendTimeData_fields]. destruct W as (W1 & W2 & W3). unfold area_ok in W1. members; try (apply wr_small; lia).
    + apply wr_TimeDataType.
    + destruct (ee_armed_state m); [apply wr_ArmedState | constructor].
  - unfold SendCode_ser, limited_ser, ser_list. cbn [combine SendCode_fields]. destruct W as (_ & W2 & W3 & W4). unfold keypad_ok in W4. members; try (apply wr_small; lia).
    apply wr_nums. exact W2.
  - unfold SdReq_ser. cbn [combine SdReq_fields]. members; [apply wr_TextType | apply wr_small; exact W].
  - unfold SdResp_ser, TextDescription_ser, ser_list. cbn [combine SdResp_fields]. destruct W as (W1 & _ & W3). members; [apply wr_TextType | apply wr_small; exact W1 |].
    apply wr_nums. apply printable_u8, W3.
  - unfold task_ok in W. unfold Task_ser, limited_ser. cbn [combine Task_fields]. members. apply wr_small. lia.
  - unfold task_ok in W. unfold Task_ser, limited_ser. cbn [combine Task_fields]. members. apply wr_small. lia.
  - unfold ZoneChange_ser, limited_ser, ZoneStatus_ser. cbn [combine ZoneChange_fields]. destruct W as (W1 & W2). unfold zone_ok in W1. members; apply wr_small; lia.
Qed.
(* the texts in an event are texts *)
Definition event_texts (e : Event) : Prop :=
  (forall b, e_pkt e = Some (PAscii b) -> utf8_valid b = true) /\ (forall raw w, e_pkt e = Some (PInvalid raw w) -> utf8_valid (bytes_of_string w) = true) /\ (forall er, e_msg e = Some (inr er) -> utf8_valid (bytes_of_string er) = true).
Lemma wr_Event e v : event_ok e -> event_texts e -> Event_ser e = Ok v -> writable v.
Proof.
  intros (HP & HM & HC & HX) (T1 & T2 & T3) E. unfold Event_ser in E. apply bind_inv in E as (m & EM & E). apply bind_inv in E as (c & EC & [= <-]).
  cbn [combine Event_fields]. members.
  - destruct (e_pkt e) as [[b|d|raw w]|]; cbn [ser_opt Packet_ser]; [| | |constructor]; (apply wr_tagged; [reflexivity|]).
    + apply wr_ser_str. auto.
    + apply wr_nums. apply (HP _ eq_refl).
    + cbn [combine InvalidPacket_fields]. members; [apply wr_ser_str; eauto | apply wr_nums; apply (HP _ eq_refl)].
  - destruct (e_msg e) as [[x|er]|]; cbn [ser_opt_res Outcome_ser] in EM; [| |injection EM as <-; constructor].
    + apply bind_inv in EM as (y & EM & [= <-]). apply wr_tagged; [reflexivity|]. eapply wr_Message; eauto.
    + injection EM as <-. apply wr_tagged; [reflexivity|]. apply wr_ser_str. auto.
  - destruct (e_completes e) as [x|]; cbn [ser_opt_res] in EC; [|injection EC as <-; constructor]. eapply wr_Message; [apply HC; reflexivity | exact EC].
  - destruct (e_change e) as [x|]; cbn [ser_opt]; [|constructor]. specialize (HX _ eq_refl). destruct x as [z s|r]; cbn [Change_ser change_ok] in *; (apply wr_tagged; [reflexivity|]).
    + unfold limited_ser, ZoneStatus_ser. cbn [combine CZone_fields]. members; apply wr_small; lia.
    + cbn [combine CArming_fields]. apply wr_member; [reflexivity | apply wr_AS; exact HX | exact wr_empty].
Qed.
Lemma emitted_texts now p p' r w e : pinv p -> poll_next now p = Ok (p', r, w) -> yields r e -> event_texts e.
Proof.
  intros I E Y. assert (PC := poll_next_case _ _ _ _ _ I E). unfold yields in Y.
  assert (TX : forall pkt rest, decode (unread (p_conn p)) = Ok (Some pkt, rest) -> pkt_ok pkt -> e_pkt e = Some pkt ->
    (forall b, e_pkt e = Some (PAscii b) -> utf8_valid b = true) /\ (forall raw w, e_pkt e = Some (PInvalid raw w) -> utf8_valid (bytes_of_string w) = true)).
  { intros pkt rest D K EP. split.
    - intros b Hb. assert (pkt = PAscii b) by congruence. subst pkt. apply utf8_printable. apply K.
    - intros raw w' Hb. assert (pkt = PInvalid raw w') by congruence. subst pkt. pose proof (decode_reasoned (unread (p_conn p))) as R. rewrite D in R. exact R. }
  destruct PC as [pkt m e' w' D K EP E1 E2 N M R|pkt e' D K EP E1 E2 E3 E4 E5|d m prior D U X E1 E2 E3 E4|r' NE U F E0]; [| | |elim (NE e); exact Y].
  - injection Y as ->. destruct (TX _ _ D K EP) as [X1 X2]. split; [exact X1|]. split; [exact X2|]. congruence.
  - injection Y as ->. destruct (TX _ _ D K EP) as [X1 X2]. split; [exact X1|]. split; [exact X2|]. intros er Her. rewrite E2 in Her.
    pose proof (parse_texty pkt) as T. destruct (parse pkt); try discriminate. injection Her as <-. exact T.
  - injection Y as <-. split; [|split]; intros; discriminate.
Qed.
