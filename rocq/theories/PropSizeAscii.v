(* PropSizeAscii.v: C144, the part about events of ASCII packets and of timers (elkm1-mqtt/src/main.rs:446-456). *)
From Verif Require Import Base BaseFacts Pkt SpecPkt PktFacts DecodeFacts PropPkt Msg SpecMsg DecFacts MsgFacts WireFacts IsoFacts ShowFacts
  PropMsg Tokio SpecConn ConnFacts State SpecState StateFacts RunFacts HistFacts ViewFacts ExState PropState PropSink
  Serde SerdeFacts PropSerde Mqtt SpecMqtt MqttFacts PropMqtt BridgeText JsonText JsonWrite SpecSize PropSize.
From Coq Require Import ZifyBool ZifyNat ZifyN.
Ltac Zify.zify_post_hook ::= Z.div_mod_to_equations.

(* sz d v k: written at depth d or less, v takes at most k characters *)
Definition sz (d : nat) (v : value) (k : nat) : Prop := forall n, (n <= d)%nat -> (length (pretty n v) <= k)%nat.
Lemma sz_mono d v k k' : sz d v k -> (k <= k')%nat -> sz d v k'.
Proof. intros H L n Hn. specialize (H n Hn). lia. Qed.
Lemma sep_len b n : (length (separator b n) <= 2 + 2 * n)%nat.
Proof. destruct b; cbn [separator app length]; unfold separator; rewrite ?app_length, ?indent_len; cbn [length]; rewrite ?indent_len; lia. Qed.
Fixpoint ob (d : nat) (names : list bytes) (ks : list nat) : nat :=
  match names, ks with x :: names', k :: ks' => 2 + 2 * S d + length (write_str x) + 2 + k + ob d names' ks' | _, _ => 0 end%nat.
Lemma members_len d names : forall vals ks b n, (n <= d)%nat -> Forall2 (sz (S d)) vals ks ->
  (length (write_members n b (combine names vals)) <= ob d names ks)%nat.
Proof.
  induction names as [|x names IH]; intros vals ks b n L F; [cbn; lia|]. destruct F as [|v k vals ks H F]; [cbn; lia|].
  cbn [combine write_members ob]. rewrite !app_length. specialize (IH vals ks false n L F). specialize (H (S n) ltac:(lia)). pose proof (sep_len b (S n)). cbn [length bytes_of_string]. change (length (B ": ")) with 2%nat. lia.
Qed.
Lemma sz_obj d names vals ks : Forall2 (sz (S d)) vals ks -> sz d (VObj (combine names vals)) (3 + 2 * d + ob d names ks).
Proof.
  intros F n L. pose proof (members_len d names vals ks true n L F) as M. destruct (combine names vals) as [|kv l] eqn:E; [cbn; lia|].
  destruct kv as [x v]. rewrite pretty_obj. rewrite !app_length, indent_len. cbn [length]. lia.
Qed.
Lemma elements_len d k l : forall b n, (n <= d)%nat -> Forall (fun v => sz (S d) v k) l -> (length (write_elems n b l) <= length l * (2 + 2 * S d + k))%nat.
Proof.
  induction l as [|v l IH]; intros b n L F; [cbn; lia|]. inversion F as [|? ? H F']; subst. cbn [write_elems length]. rewrite !app_length.
  specialize (IH false n L F'). specialize (H (S n) ltac:(lia)). pose proof (sep_len b (S n)). lia.
Qed.
Lemma sz_list {A : Type} (f : A -> value) d m k l : length l = m -> Forall (fun x => sz (S d) (f x) k) l -> sz d (ser_list f l) (3 + 2 * d + m * (2 + 2 * S d + k)).
Proof.
  intros <- F n L. unfold ser_list. assert (F' : Forall (fun v => sz (S d) v k) (map f l)) by (apply Forall_map, F).
  pose proof (elements_len d k _ true n L F') as M. rewrite map_length in M. destruct (map f l) as [|v vs]; [cbn; lia|]. rewrite pretty_arr. rewrite !app_length, indent_len. cbn [length]. lia.
Qed.
Lemma sz_num d x : x < 256 -> sz d (VNum x) 3.
Proof. intros H n _. cbn [pretty]. rewrite (digits_len x H). apply digits_bounds. Qed.
Lemma sz_null d k : (4 <= k)%nat -> sz d VNull k.
Proof. intros H n _. exact H. Qed.
Lemma sz_bool d b : sz d (VBool b) 5.
Proof. intros n _. destruct b; cbn; lia. Qed.
Lemma escape_len c : (length (escape c) <= 6)%nat.
Proof. unfold escape. repeat (destruct (_ : bool); [cbn; lia|]). cbn. lia. Qed.
Lemma write_str_len s : (length (write_str s) <= 2 + 6 * length s)%nat.
Proof.
  unfold write_str. cbn [length]. rewrite app_length. assert (H : (length (flat_map escape s) <= 6 * length s)%nat); [|cbn [length]; lia].
  induction s as [|c s IH]; [cbn; lia|]. cbn [flat_map length]. rewrite app_length. pose proof (escape_len c). lia.
Qed.
Lemma sz_str d s m : (length s <= m)%nat -> sz d (ser_str s) (2 + 6 * m).
Proof. intros H n _. unfold ser_str. cbn [pretty]. pose proof (write_str_len s). lia. Qed.

Ltac unit_size := let x := fresh in intros x n _; destruct x; cbn -[Nat.le]; lia.
Lemma sz_ArmLevel d x : sz d (ArmLevel_ser x) 40. Proof. revert x. unit_size. Qed.
Lemma sz_TimeDataType d x : sz d (TimeDataType_ser x) 40. Proof. revert x. unit_size. Qed.
Lemma sz_ArmedState d x : sz d (ArmedState_ser x) 40. Proof. revert x. unit_size. Qed.
Lemma sz_Weekday d x : sz d (Weekday_ser x) 40. Proof. revert x. unit_size. Qed.
Lemma sz_Clock d x : sz d (ClockDisplayMode_ser x) 40. Proof. revert x. unit_size. Qed.
Lemma sz_Date d x : sz d (DateDisplayMode_ser x) 40. Proof. revert x. unit_size. Qed.
Lemma sz_ArmingStatus d x : sz d (ArmingStatus_ser x) 40. Proof. revert x. unit_size. Qed.
Lemma sz_ArmUp d x : sz d (ArmUpState_ser x) 40. Proof. revert x. unit_size. Qed.
Lemma sz_Alarm d x : sz d (AlarmState_ser x) 40. Proof. revert x. unit_size. Qed.
Lemma sz_TextType d x : sz d (TextDescriptionType_ser x) 40. Proof. revert x. unit_size. Qed.
Lemma sz_datetime d x : datetime_ok x -> sz d (DateTime_ser x) (2 + 6 * 19).
Proof.
  intros H. apply sz_str. apply Nat.eq_le_incl, (iso_of_len x). apply to_iso_spec, H.
Qed.
Lemma sz_tag d k v n : sz (S d) v n -> sz d (tagged k v) (3 + 2 * d + (2 + 2 * S d + length (write_str k) + 2 + n + 0)).
Proof. intros H. change (tagged k v) with (VObj (combine [k] [v])). apply (sz_obj d [k] [v] [n]). constructor; [exact H | constructor]. Qed.
Ltac bytes_forall := apply Forall_forall; intros.
Lemma sz_report d r : (d <= 4)%nat -> as_ok r -> sz d (ArmingStatusReport_ser r) 1700.
Proof.
  intros L (H1 & H2 & H3 & H4). eapply sz_mono.
  - unfold ArmingStatusReport_ser. apply sz_obj. constructor; [apply (sz_list _ _ 8 40); [exact H1 | bytes_forall; apply sz_ArmingStatus]|].
    constructor; [apply (sz_list _ _ 8 40); [exact H2 | bytes_forall; apply sz_ArmUp]|].
    constructor; [apply (sz_list _ _ 8 40); [exact H3 | bytes_forall; apply sz_Alarm]|].
    constructor; [apply sz_num; lia | constructor].
  - cbn [ob ArmingStatusReport_fields]. cbn -[Nat.mul Nat.add]. lia.
Qed.
Lemma sz_rtc d r : (d <= 4)%nat -> datetime_ok (datetime r) -> sz d (Rtc_ser r) 1000.
Proof.
  intros L H. eapply sz_mono.
  - unfold Rtc_ser, RtcData_ser. apply sz_obj. constructor; [|constructor]. apply sz_obj. constructor; [apply sz_datetime, H|]. constructor; [apply sz_Weekday|].
    constructor; [apply sz_bool|]. constructor; [apply sz_Clock|]. constructor; [apply sz_Date | constructor].
  - cbn [ob RtcData_fields Rtc_fields]. cbn -[Nat.mul Nat.add]. lia.
Qed.
Ltac small := first [apply sz_num; lia | apply sz_ArmLevel | apply sz_TimeDataType | apply sz_TextType].
Lemma sz_u8list d l m : length l = m -> Forall (fun b => b < 256) l -> sz d (ser_list VNum l) (3 + 2 * d + m * (2 + 2 * S d + 3)).
Proof. intros H F. apply sz_list; [exact H|]. eapply Forall_impl; [|exact F]. intros b Hb. apply sz_num, Hb. Qed.

Lemma sz_ArmRequest d r : (d <= 4)%nat -> area_ok (ar_area r) -> arm_code_ok (ar_code r) -> sz d (ArmRequest_ser r) 500.
Proof.
  intros L W1 (W2 & W3). unfold area_ok in W1. eapply sz_mono.
  - unfold ArmRequest_ser. apply sz_obj. constructor; [small|]. constructor; [small|]. constructor; [|constructor].
    apply (sz_u8list _ _ 6); [exact W2|]. eapply Forall_impl; [|exact W3]. intros b Hb. change (48 <= b <= 57) in Hb. lia.
  - cbn [ob ArmRequest_fields]. cbn -[Nat.mul Nat.add]. lia.
Qed.
Lemma sz_SendTimeData d r : (d <= 4)%nat -> area_ok (ee_area r) -> ee_timer1 r <= 255 -> ee_timer2 r <= 255 -> sz d (SendTimeData_ser r) 500.
Proof.
  intros L W1 W2 W3. unfold area_ok in W1. eapply sz_mono.
  - unfold SendTimeData_ser. apply sz_obj. constructor; [small|]. constructor; [small|]. constructor; [small|]. constructor; [small|]. constructor; [|constructor].
    instantiate (1 := 40%nat). destruct (ee_armed_state r) as [x|]; [apply sz_ArmedState | apply sz_null; lia].
  - cbn [ob SendTimeData_fields]. cbn -[Nat.mul Nat.add]. lia.
Qed.
Lemma sz_SendCode d r : (d <= 4)%nat -> length (ic_code r) = 6%nat -> u8s (ic_code r) -> ic_user r <= 255 -> keypad_ok (ic_keypad r) -> sz d (SendCode_ser r) 500.
Proof.
  intros L W1 W2 W3 W4. unfold keypad_ok in W4. eapply sz_mono.
  - unfold SendCode_ser. apply sz_obj. constructor; [apply (sz_u8list _ _ 6); [exact W1 | exact W2]|]. constructor; [small|]. constructor; [small | constructor].
  - cbn [ob SendCode_fields]. cbn -[Nat.mul Nat.add]. lia.
Qed.
Lemma sz_SdReq d r : (d <= 4)%nat -> sdq_num r <= 255 -> sz d (SdReq_ser r) 500.
Proof.
  intros L W. eapply sz_mono.
  - unfold SdReq_ser. apply sz_obj. constructor; [small|]. constructor; [small | constructor].
  - cbn [ob SdReq_fields]. cbn -[Nat.mul Nat.add]. lia.
Qed.
Lemma sz_SdResp d r : (d <= 4)%nat -> sd_num r <= 255 -> text_ok (sd_text r) -> sz d (SdResp_ser r) 500.
Proof.
  intros L W (W1 & W2). eapply sz_mono.
  - unfold SdResp_ser. apply sz_obj. constructor; [small|]. constructor; [small|]. constructor; [|constructor].
    apply (sz_u8list _ _ 16); [exact W1|]. eapply Forall_impl; [|exact W2]. intros b Hb. unfold printable in Hb. lia.
  - cbn [ob SdResp_fields]. cbn -[Nat.mul Nat.add]. lia.
Qed.
Lemma sz_Task d t : (d <= 4)%nat -> task_ok t -> sz d (Task_ser t) 500.
Proof.
  intros L W. unfold task_ok in W. eapply sz_mono.
  - unfold Task_ser. apply sz_obj. constructor; [small | constructor].
  - cbn [ob Task_fields]. cbn -[Nat.mul Nat.add]. lia.
Qed.
Lemma sz_ZoneChange d r : (d <= 4)%nat -> zone_ok (zc_zone r) -> zc_status r < 16 -> sz d (ZoneChange_ser r) 500.
Proof.
  intros L W1 W2. unfold zone_ok in W1. eapply sz_mono.
  - unfold ZoneChange_ser. apply sz_obj. constructor; [small|]. constructor; [small | constructor].
  - cbn [ob ZoneChange_fields]. cbn -[Nat.mul Nat.add]. lia.
Qed.
Lemma sz_empty d : sz d empty_ser 2.
Proof. intros n _. apply le_n. Qed.
Ltac msg L t := eapply sz_mono; [apply sz_tag; t; lia || tauto | cbn -[Nat.mul Nat.add]; lia].
Lemma sz_message d m v : (d <= 2)%nat -> wf_message m -> Message_ser m = Ok v -> sz d v 1800.
Proof.
  intros L W E. destruct m as [r| |r|r|r| |r|r|r|t|t|r|r| |z]; cbn [Message_ser] in E; try discriminate E; injection E as <-; cbn [wf_message] in W.
  - msg L ltac:(apply sz_ArmRequest).
  - msg L ltac:(apply sz_empty).
  - msg L ltac:(apply sz_report).
  - msg L ltac:(apply sz_SendTimeData).
  - msg L ltac:(apply sz_SendCode).
  - msg L ltac:(apply sz_empty).
  - msg L ltac:(apply sz_rtc).
  - msg L ltac:(apply sz_SdReq).
  - msg L ltac:(apply sz_SdResp).
  - msg L ltac:(apply sz_Task).
  - msg L ltac:(apply sz_Task).
  - msg L ltac:(apply sz_rtc).
  - msg L ltac:(apply sz_ZoneChange).
  - msg L ltac:(apply sz_empty).
Qed.
Lemma sz_change d c : (d <= 2)%nat -> change_ok c -> sz d (Change_ser c) 1900.
Proof.
  intros L H. destruct c as [z s|r]; cbn [change_ok] in H; cbn [Change_ser].
  - eapply sz_mono; [apply sz_tag, sz_obj; constructor; [apply sz_num; lia|]; constructor; [apply sz_num; lia | constructor] | cbn [ob CZone_fields]; cbn -[Nat.mul Nat.add]; lia].
  - eapply sz_mono; [apply sz_tag, sz_obj; constructor; [apply sz_report; [lia | exact H] | constructor] | cbn [ob CArming_fields]; cbn -[Nat.mul Nat.add]; lia].
Qed.
(* what the message of an event can add: an error's text is as long as it is *)
Definition error_len (e : Event) : nat := match e_msg e with Some (inr er) => length (write_str (bytes_of_string er)) | _ => 0%nat end.
Lemma sz_event e v : event_ok e -> (forall p, e_pkt e = Some p -> exists body, p = PAscii body /\ ascii_body body) -> Event_ser e = Ok v ->
  (length (to_string_pretty v) <= N.to_nat 7600 + error_len e)%nat.
Proof.
  intros (_ & HM & HC & HX) HP E. unfold Event_ser in E. destruct (ser_opt_res Outcome_ser (e_msg e)) as [m| |] eqn:EM; try discriminate E. cbn [bind] in E.
  destruct (ser_opt_res Message_ser (e_completes e)) as [c| |] eqn:EC; try discriminate E. cbn [bind] in E. injection E as <-.
  assert (P : sz 1 (ser_opt Packet_ser (e_pkt e)) 1600).
  { destruct (e_pkt e) as [p|]; [|apply sz_null; lia]. destruct (HP p eq_refl) as (body & -> & _ & L). cbn [ser_opt Packet_ser]. eapply sz_mono; [apply sz_tag, (sz_str _ _ 253); lia | cbn -[Nat.mul Nat.add]; lia]. }
  assert (M : sz 1 m (1900 + error_len e)).
  { unfold error_len. destruct (e_msg e) as [[x|er]|]; cbn [ser_opt_res Outcome_ser] in EM.
    - destruct (Message_ser x) as [w| |] eqn:EW; try discriminate EM. injection EM as <-.
      eapply sz_mono; [apply sz_tag, (sz_message 2 x w); [lia | apply HM; reflexivity | exact EW] | cbn -[Nat.mul Nat.add]; lia].
    - injection EM as <-. eapply sz_mono; [apply (sz_tag 1 _ _ (length (write_str (bytes_of_string er)))); intros n _; apply le_n | set (k := length (write_str (bytes_of_string er))); change (length (write_str (B "Err"))) with 5%nat; lia].
    - injection EM as <-. apply sz_null. lia. }
  assert (C : sz 1 c 1800).
  { destruct (e_completes e) as [x|]; cbn [ser_opt_res] in EC; [apply (sz_message 1 x c); [lia | apply (HC x eq_refl) | exact EC] | injection EC as <-; apply sz_null; lia]. }
  assert (X : sz 1 (ser_opt Change_ser (e_change e)) 1900).
  { destruct (e_change e) as [x|]; [apply sz_change; [lia | apply HX; reflexivity] | apply sz_null; lia]. }
  assert (F : Forall2 (sz 1) [ser_opt Packet_ser (e_pkt e); m; c; ser_opt Change_ser (e_change e)] [1600; 1900 + error_len e; 1800; 1900]%nat).
  { constructor; [exact P|]. constructor; [exact M|]. constructor; [exact C|]. constructor; [exact X | constructor]. }
  pose proof (sz_obj 0 Event_fields _ _ F 0%nat (le_n 0)) as Z. unfold to_string_pretty. eapply Nat.le_trans; [exact Z|].
  unfold Event_fields. cbn [ob]. set (k := error_len e). cbn -[Nat.mul Nat.add k]. lia.
Qed.
(* ---- how long the text of an error is: at most 100 bytes ---- *)
Definition blen (e : string) : nat := length (bytes_of_string e).
Lemma blen_app a b : blen (a ++ b)%string = (blen a + blen b)%nat.
Proof. unfold blen. rewrite bytes_append, app_length. reflexivity. Qed.
Lemma blen_of s : blen (string_of_bytes s) = length s.
Proof. unfold blen, bytes_of_string, string_of_bytes. rewrite list_ascii_of_string_of_list_ascii, !map_length. reflexivity. Qed.
Definition short {A : Type} (m : res A) : Prop := forall e, m = Err e -> (blen e <= 100)%nat.
Lemma short_ok {A} (a : A) : short (Ok a). Proof. discriminate. Qed.
Lemma short_panic {A} w : short (@Panic A w). Proof. discriminate. Qed.
Lemma short_err {A} e : (blen e <= 100)%nat -> short (@Err A e). Proof. intros H e' [= <-]. exact H. Qed.
Lemma short_bind {A C} (m : res A) (k : A -> res C) : short m -> (forall a, m = Ok a -> short (k a)) -> short (x <- m ;; k x).
Proof. intros H K e E. destruct m as [a|e'|w]; cbn [bind] in E; [exact (K a eq_refl e E) | injection E as <-; apply H; reflexivity | discriminate]. Qed.
Lemma short_slice {A} (s : list A) a b : short (slice s a b).
Proof. unfold slice. destruct (_ && _); discriminate. Qed.
Lemma short_index {A} (s : list A) i : short (index s i).
Proof. unfold index. destruct (nth_error s i); discriminate. Qed.
Lemma short_expect {A} (m : res A) w : short (expect m w).
Proof. destruct m; discriminate. Qed.
Lemma short_mapM {A C} (f : A -> res C) l : (forall x, short (f x)) -> short (mapM f l).
Proof. intros H. induction l as [|x l IH]; [apply short_ok|]. cbn [mapM]. apply short_bind; [apply H|]. intros a _. apply short_bind; [exact IH|]. intros; apply short_ok. Qed.
Lemma fmt_dec_len n : n < 256 -> (length (fmt_dec n) <= 3)%nat.
Proof.
  intros H. assert (X : forallb (fun k => Nat.leb (length (fmt_dec (N.of_nat k))) 3) (seq 0 256) = true) by (vm_compute; reflexivity).
  rewrite forallb_forall in X. specialize (X (N.to_nat n)). rewrite N2Nat.id in X. apply Nat.leb_le, X, in_seq. lia.
Qed.
Lemma show_dec_len n : n < 256 -> (blen (show_dec n) <= 3)%nat.
Proof. intros H. unfold show_dec. rewrite blen_of. apply fmt_dec_len, H. Qed.
Lemma show_char_len c : (blen (show_char c) <= 12)%nat.
Proof.
  unfold show_char. rewrite blen_of, !app_length. unfold escape_char.
  repeat match goal with |- context [if ?b then _ else _] => destruct b end; cbn; lia.
Qed.
Lemma show_slice_len s : (length s <= 3)%nat -> u8s s -> (blen (show_slice s) <= 20)%nat.
Proof.
  intros L U. unfold show_slice. rewrite !blen_app. assert (H : forall x, In x s -> (blen (show_dec x) <= 3)%nat) by (intros x Hx; apply show_dec_len; exact (proj1 (Forall_forall _ _) U x Hx)).
  destruct s as [|a [|b [|c [|]]]]; cbn [length] in L; try lia; cbn [map String.concat]; rewrite ?blen_app;
    repeat match goal with |- context [blen (show_dec ?x)] => pose proof (H x ltac:(cbn; tauto)); generalize dependent (blen (show_dec x)); intros end;
    change (blen "[") with 1%nat; change (blen "]") with 1%nat; change (blen ", ") with 2%nat; change (blen "") with 0%nat; lia.
Qed.
Lemma short_dec name s : (blen name <= 10)%nat -> (length s <= 3)%nat -> u8s s -> short (parse_u8_dec name s).
Proof.
  intros HN L U. unfold parse_u8_dec. destruct (utf8_valid s); [destruct (from_str_dec 255 s); [apply short_ok|]|]; apply short_err; rewrite !blen_app.
  - pose proof (show_slice_len s L U). change (blen " expected to be decimal in [0, 255); got ") with 41%nat. lia.
  - change (blen " expected to be decimal in [0, 255); was bad utf-8") with 50%nat. lia.
Qed.
Lemma Forall_split {A} (Q : A -> Prop) n l : Forall Q l -> Forall Q (firstn n l) /\ Forall Q (skipn n l).
Proof. intros H. apply Forall_app. rewrite firstn_skipn. exact H. Qed.
Lemma u8_slice s a b t : u8s s -> slice s a b = Ok t -> u8s t /\ length t = (b - a)%nat.
Proof.
  intros U E. unfold slice in E. destruct (_ && _) eqn:X; [|discriminate]. injection E as <-. split.
  - apply Forall_split, (Forall_split _ a), U.
  - rewrite firstn_length, skipn_length. lia.
Qed.
Lemma u8_index s i b : u8s s -> index s i = Ok b -> b < 256.
Proof. intros U E. apply index_inv, nth_error_In in E. exact (proj1 (Forall_forall _ _) U b E). Qed.
Lemma u8_dec name s n : parse_u8_dec name s = Ok n -> n < 256.
Proof. intros E. unfold parse_u8_dec in E. destruct (utf8_valid s); [|discriminate]. destruct (from_str_dec 255 s) as [v|] eqn:X; [|discriminate]. injection E as <-. apply from_str_dec_spec in X. destruct X as [X _]. lia. Qed.

Ltac lits := repeat match goal with |- context [blen (String ?a ?b)] => let t := constr:(blen (String a b)) in let n := eval vm_compute in t in change t with n end.
Ltac err := apply short_err; rewrite ?blen_app; lits;
  repeat match goal with
  | |- context [blen (show_char ?c)] => pose proof (show_char_len c); generalize dependent (blen (show_char c)); intros
  | |- context [blen (show_dec ?x)] => let H := fresh in assert (H : (blen (show_dec x) <= 3)%nat) by (apply show_dec_len; first [assumption | lia]); generalize dependent (blen (show_dec x)); intros
  | |- context [blen (show_len ?x)] => let H := fresh in assert (H : (blen (show_len x) <= 3)%nat) by (unfold show_len; apply show_dec_len; lia); generalize dependent (blen (show_len x)); intros
  end; lia.
Ltac note := match goal with
  | U : u8s ?d, E : slice ?d _ _ = Ok _ |- _ => let U' := fresh "U" in let L' := fresh "L" in destruct (u8_slice _ _ _ _ U E) as [U' L']; clear E
  | U : u8s ?d, E : index ?d _ = Ok _ |- _ => apply (u8_index _ _ _ U) in E
  | E : parse_u8_dec _ _ = Ok _ |- _ => apply u8_dec in E
  end.
Ltac sh := repeat first [
    apply short_ok | apply short_panic | apply short_slice | apply short_index | apply short_expect
  | match goal with
    | |- short (bind _ _) => apply short_bind; [|let a := fresh "a" in let E := fresh "E" in intros a E; repeat note]
    | |- short (parse_u8_dec _ _) => apply short_dec; [cbn; lia | lia | assumption]
    | |- short (mapM _ _) => apply short_mapM; intros
    | |- short (if ?b then _ else _) => destruct b
    | |- short (match dehex_byte ?a ?b with _ => _ end) => destruct (dehex_byte a b)
    | |- short (match dehex_nibble ?a with _ => _ end) => destruct (dehex_nibble a)
    | |- short (Err _) => err
    end ].
Lemma short_ArmLevel b : short (ArmLevel_try_from b). Proof. unfold ArmLevel_try_from. sh. Qed.
Lemma short_TimeDataType b : short (TimeDataType_try_from b). Proof. unfold TimeDataType_try_from. sh. Qed.
Lemma short_ArmedState b : short (ArmedState_try_from b). Proof. unfold ArmedState_try_from. sh. Qed.
Lemma short_Weekday b : short (Weekday_try_from b). Proof. unfold Weekday_try_from. sh. Qed.
Lemma short_Clock b : short (ClockDisplayMode_try_from b). Proof. unfold ClockDisplayMode_try_from. sh. Qed.
Lemma short_Date b : short (DateDisplayMode_try_from b). Proof. unfold DateDisplayMode_try_from. sh. Qed.
Lemma short_ArmingStatus b : short (ArmingStatus_try_from b). Proof. unfold ArmingStatus_try_from. sh. Qed.
Lemma short_ArmUp b : short (ArmUpState_try_from b). Proof. unfold ArmUpState_try_from. sh. Qed.
Lemma short_Alarm b : short (AlarmState_try_from b). Proof. unfold AlarmState_try_from. sh. Qed.
Lemma short_TextType b : b < 256 -> short (TextDescriptionType_try_from b). Proof. intros. unfold TextDescriptionType_try_from. sh. Qed.
Lemma short_limited max b : max < 256 -> b < 256 -> short (limited_try_from max b). Proof. intros. unfold limited_try_from. sh. Qed.
Lemma short_code s : short (ArmCode_try_from_slice s). Proof. unfold ArmCode_try_from_slice. sh. Qed.
Lemma short_zone c : short (ZoneStatus_from_ascii c). Proof. unfold ZoneStatus_from_ascii. sh. Qed.
Ltac sh2 := repeat (sh; first [apply short_ArmLevel | apply short_TimeDataType | apply short_ArmedState | apply short_Weekday | apply short_Clock | apply short_Date
  | apply short_ArmingStatus | apply short_ArmUp | apply short_Alarm | apply short_TextType; assumption | apply short_limited; [reflexivity | assumption] | apply short_code | apply short_zone ]).
Lemma parse_short body er : ascii_body body -> parse_ascii body = Err er -> (blen er <= 100)%nat.
Proof.
  intros [P L]. revert er. change (short (parse_ascii body)).
  assert (U : u8s body) by (eapply Forall_impl; [|exact P]; intros b Hb; unfold printable in Hb; lia).
  unfold parse_ascii. sh.
  all: assert (LD : (length a0 < 256)%nat) by lia.
  all: unfold ArmRequest_from_ascii, ArmingStatusReport_from_ascii_data, AS_loop, SendTimeData_from_ascii_data, SendCode_from_ascii_data, SdReq_from_ascii_data, SdResp_from_ascii_data,
     ActivateTask_from_ascii_data, TaskChange_from_ascii_data, RtcData_from_ascii, ZoneChange_from_ascii_data, ZoneStatusReport_from_ascii_data, Zone_try_from, Area_try_from, Keypad_try_from, Task_try_from.
  all: sh2.
Qed.

(* ---- what an event of an ASCII packet, or of none, is made of ---- *)
Definition plain (e : Event) : Prop :=
  (forall body, e_pkt e = Some (PAscii body) -> ascii_body body) /\
  (forall er, e_msg e = Some (inr er) -> (blen er <= 100)%nat).
Lemma poll_plain now p p' r w e : pinv p -> poll_next now p = Ok (p', r, w) -> yields r e -> plain e.
Proof.
  intros I E Y. pose proof (poll_next_case _ _ _ _ _ I E) as PC. unfold yields in Y. subst r.
  inversion PC as [pkt m e' w' D K EP E1 E2 N M R|pkt e' D K EP E1 E2 E3 E4 E5|d m prior D U X E1 E2 E3 E4|r' NE U F E0]; subst; [| | |elim (NE e); reflexivity].
  - split; [intros body EB; rewrite EP in EB; injection EB as ->; exact K | intros er X; rewrite E2 in X; discriminate].
  - split; [intros body EB; rewrite EP in EB; injection EB as ->; exact K|]. intros er X. rewrite E2 in X. destruct pkt as [body|data|raw why]; cbn [parse] in X; try discriminate X.
    destruct (parse_ascii body) as [| |] eqn:EA; try discriminate X. injection X as <-. exact (parse_short _ _ K EA).
  - split; intros ? X'; discriminate X'.
Qed.
Lemma run_plain h : forall p p' bs, pinv p -> Forall op_ok h -> run p h = Ok (p', bs) -> Forall plain (events bs).
Proof.
  induction h as [|o h IH]; intros p p' bs I HO E; cbn [run] in E; [injection E as <- <-; constructor|].
  inversion HO as [|? ? Ho HO']; subst. destruct (step p o) as [[p1 b]| |] eqn:ES; try discriminate. cbn [bind] in E.
  destruct (run p1 h) as [[p2 bs']| |] eqn:ER; try discriminate. injection E as <- <-. destruct (step_inv _ _ _ _ I Ho ES) as [I1 _].
  change (b :: bs') with ([b] ++ bs'). rewrite events_app. apply Forall_app. split; [|eapply IH; eauto].
  destruct (event_of b) as [e|] eqn:EB; [|unfold events; cbn; rewrite EB; constructor]. unfold events. cbn. rewrite EB. constructor; [|constructor].
  destruct b as [|r w|r]; try discriminate. destruct o as [a|now|w' ws|c|ws|ws]; cbn [step] in ES.
  - discriminate.
  - destruct (poll_next now p) as [[[q r'] w']| |] eqn:EP; try discriminate. injection ES as -> -> ->. eapply poll_plain; [exact I | exact EP |].
    unfold yields. destruct r as [|[[e'|]|]]; cbn in EB; congruence.
  - destruct (poll_ready w' ws p). discriminate.
  - destruct (start_send c p); discriminate.
  - destruct (poll_flush ws p). discriminate.
  - destruct (poll_close ws p). discriminate.
Qed.
(* Whenever the bridge is up, what it has published for each event of an ASCII packet, or of none, takes at most 8202 bytes, which leaves
   2038 of the limit for the topic and the framing. *)
Theorem C144_ascii_fits_partial : forall cl cfg is1 u1 is2 u2,
  bridge_after cl cfg is1 (Up u1) -> bridge_after cl cfg (is1 ++ is2) (Up u2) ->
  exists ops bs log, Forall op_ok ops /\ run (u_panel u1) ops = Ok (u_panel u2, bs) /\ arrived ops = net_in is2 /\ u_log u2 = u_log u1 ++ log /\
    Forall2 (fun e a => exists pl, a = APublish (topic_prefix cfg ++ B "/event") false pl /\
        ((e_pkt e = None \/ exists body, e_pkt e = Some (PAscii body)) -> N.of_nat (length (payload_text pl)) <= client_limit - 2038))
      (events bs) (filter is_event_pub log).
Proof.
  intros cl cfg is1 u1 is2 u2 A1 A2. destruct (bridge_between _ _ _ _ _ _ A1 A2) as [(R & _) _]. destruct (reachable_inv _ R) as [I _].
  destruct (C58_events_published _ _ _ _ _ _ A1 A2) as (ops & bs & log & H1 & H2 & H3 & H4 & F). exists ops, bs, log. repeat (split; [assumption|]).
  pose proof (run_plain _ _ _ _ I H1 H2) as PL. pose proof (run_event_ok _ _ _ _ I H1 H2) as OK. clear -F PL OK.
  induction F as [|e a es l (v & E1 & _ & ->) F IH]; [constructor|]. inversion PL as [|? ? (P1 & P2) P3]; subst. inversion OK as [|? ? O1 O2]; subst.
  constructor; [|exact (IH P3 O2)]. exists (PJson v). split; [reflexivity|]. intros K. cbn [payload_text].
  assert (S : (length (to_string_pretty v) <= N.to_nat 7600 + error_len e)%nat).
  { apply sz_event; [exact O1 | | exact E1]. intros p EP. destruct K as [K|[body K]]; rewrite K in EP; [discriminate|]. injection EP as <-. exists body. split; [reflexivity|]. exact (P1 _ K). }
  assert (L : (error_len e <= 602)%nat).
  { unfold error_len. destruct (e_msg e) as [[m|er]|]; [lia| |lia]. specialize (P2 er eq_refl). unfold blen in P2. pose proof (write_str_len (bytes_of_string er)). lia. }
  unfold client_limit. lia.
Qed.
(* a report that a zone is violated, and one that is too short: the bridge takes them, and publishes these many bytes *)
Definition ex_two : list input :=
  [NetArrive (Bytes (match encode (PAscii (B "ZC002900")) [] with Ok f => f | _ => [] end)); PollPanel 7;
   NetArrive (Bytes (match encode (PAscii (B "ZC002")) [] with Ok f => f | _ => [] end)); PollPanel 8].
Definition ex_two_up : up := Eval vm_compute in up_of (brun ex_cl ex_cfg (ex_start ++ ex_two)).
Lemma ex_two_after : bridge_after ex_cl ex_cfg (ex_start ++ ex_two) (Up ex_two_up).
Proof.
  split; [apply Forall_app; split; [exact ex_start_ok|] | vm_compute; reflexivity].
  apply Forall_cons; [|apply Forall_cons; [exact Logic.I | apply Forall_cons; [|apply Forall_cons; [exact Logic.I | apply Forall_nil]]]]; vm_compute; repeat (apply Forall_cons; [reflexivity|]); apply Forall_nil.
Qed.
Definition pub_size (a : action) : nat := match a with APublishQ _ _ _ pl => length (payload_text pl) | _ => 0%nat end.
Example C144_ascii_example :
  bridge_after ex_cl ex_cfg ex_start (Up ex_up) /\ bridge_after ex_cl ex_cfg (ex_start ++ ex_two) (Up ex_two_up) /\
  map pub_size (filter is_event_pub (skipn (length (u_log ex_up)) (u_log ex_two_up))) = [184; 140]%nat.
Proof.
  split; [exact ex_up_after|]. split; [exact ex_two_after|]. vm_compute. reflexivity.
Qed.
Print Assumptions C144_ascii_fits_partial.
