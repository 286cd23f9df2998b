(* PropJson.v: theorems C65 about the names in the JSON of events, compared with the names in the log (Debug). *)
From Verif Require Import Base BaseFacts Pkt SpecPkt PktFacts DecodeFacts Msg SpecMsg DecFacts MsgFacts WireFacts IsoFacts
  Tokio SpecConn ConnFacts State SpecState StateFacts RunFacts HistFacts ExState PropState PropMsg Serde SerdeFacts PropSerde Fmt PropFmt.
From Coq Require Import ZifyBool ZifyNat ZifyN.
Ltac Zify.zify_post_hook ::= Z.div_mod_to_equations.

(* serde's camelCase of the name of a variant: the first letter in lower case *)
Definition camel_variant (n : string) : bytes := match bytes_of_string n with c :: r => c + 32 :: r | [] => [] end.
(* serde's camelCase of the name of a field: no underscores, the letters after them in upper case *)
Fixpoint camel_letters (s : bytes) : bytes :=
  match s with
  | [] => []
  | c :: s' => if c =? ch "_" then match s' with x :: r => x - 32 :: camel_letters r | [] => [] end else c :: camel_letters s'
  end.
Definition camel_field (n : string) : bytes := camel_letters (bytes_of_string n).

(* The JSON v says the same as the log entry d.  K gives the JSON name of a struct's field. *)
Section alike.
Context (K : string -> string -> bytes).
Inductive alike : dbg -> value -> Prop :=
| a_num n : alike (DNum n) (VNum n)
| a_bool b : alike (DBool b) (VBool b)
| a_str s esc : alike (DStr s) (VStr esc s)
| a_text s esc : alike (DText s) (VStr esc (bytes_of_string s))
| a_list ds vs : Forall2 alike ds vs -> alike (DList ds) (VArr vs)
(* Option and Result *)
| a_none : alike (DWord "None") VNull
| a_some d v : alike d v -> alike (DTuple "Some" [d]) v
| a_ok d v : alike d v -> alike (DTuple "Ok" [d]) (VObj [(B "Ok", v)])
| a_err d v : alike d v -> alike (DTuple "Err" [d]) (VObj [(B "Err", v)])
(* enums *)
| a_unit_variant n : alike (DWord n) (VStr false (camel_variant n))
| a_newtype_variant n d v : alike d v -> alike (DTuple n [d]) (VObj [(camel_variant n, v)])
| a_struct_variant n fs vs : fields n fs vs -> alike (DStruct n fs) (VObj [(camel_variant n, VObj vs)])
(* structs *)
| a_unit_struct n : alike (DWord n) (VObj [])
| a_struct n fs vs : fields n fs vs -> alike (DStruct n fs) (VObj vs)
(* wrappers are written as what they contain; bytes as numbers, names and codes with their padding, statuses as numbers *)
| a_wrapper n d v : In n ["AsciiPacket"; "Error"]%string -> alike d v -> alike (DTuple n [d]) v
| a_rp b v : alike (DHex b) v -> alike (DTuple "RpPacket" [DHex b]) v
| a_hex b : alike (DHex b) (VArr (map VNum b))
| a_bytes s k : alike (DStr s) (VArr (map VNum (s ++ repeat (ch " ") k)))
| a_status s : alike (DTuple "ZoneStatus" [DWord (logical_word s); DWord (physical_word s)]) (VNum s)
with fields : string -> list (string * dbg) -> list (bytes * value) -> Prop :=
| f_nil n : fields n [] []
| f_cons n k d fs v vs : alike d v -> fields n fs vs -> fields n ((k, d) :: fs) ((K n k, v) :: vs).
End alike.

(* every field in camelCase *)
Definition camel_keys (struct field : string) : bytes := camel_field field.
(* the same, but for the clock data *)
Definition real_keys (struct field : string) : bytes :=
  if String.eqb struct "RtcData" then bytes_of_string field else camel_field field.

Lemma words_alike {A} K (d : A -> dbg) (s : A -> value) : (forall x, alike K (d x) (s x)) -> forall l, alike K (DList (map d l)) (ser_list s l).
Proof. intros H l. apply a_list. induction l; constructor; auto. Qed.
Ltac word := intros K x; destruct x; apply (a_unit_variant K).
Lemma ArmLevel_alike : forall K x, alike K (ArmLevel_dbg x) (ArmLevel_ser x). Proof. word. Qed.
Lemma TimeDataType_alike : forall K x, alike K (TimeDataType_dbg x) (TimeDataType_ser x). Proof. word. Qed.
Lemma ArmedState_alike : forall K x, alike K (ArmedState_dbg x) (ArmedState_ser x). Proof. word. Qed.
Lemma Weekday_alike : forall K x, alike K (Weekday_dbg x) (Weekday_ser x). Proof. word. Qed.
Lemma ClockDisplayMode_alike : forall K x, alike K (ClockDisplayMode_dbg x) (ClockDisplayMode_ser x). Proof. word. Qed.
Lemma DateDisplayMode_alike : forall K x, alike K (DateDisplayMode_dbg x) (DateDisplayMode_ser x). Proof. word. Qed.
Lemma ArmingStatus_alike : forall K x, alike K (ArmingStatus_dbg x) (ArmingStatus_ser x). Proof. word. Qed.
Lemma ArmUpState_alike : forall K x, alike K (ArmUpState_dbg x) (ArmUpState_ser x). Proof. word. Qed.
Lemma AlarmState_alike : forall K x, alike K (AlarmState_dbg x) (AlarmState_ser x). Proof. word. Qed.
Lemma TextDescriptionType_alike : forall K x, alike K (TextDescriptionType_dbg x) (TextDescriptionType_ser x). Proof. word. Qed.
Ltac fld := match goal with |- fields ?K ?n ((?k, _) :: _) ((?b, _) :: _) => change b with (K n k); apply f_cons end.
Ltac flds := repeat fld; try apply f_nil.
Lemma nums_alike K l : alike K (DList (map DNum l)) (ser_list VNum l).
Proof. apply words_alike. intros x. apply a_num. Qed.
Lemma as_alike r : alike real_keys (ArmingStatusReport_dbg r) (ArmingStatusReport_ser r).
Proof.
  apply a_struct. cbn [combine ArmingStatusReport_fields]. flds.
  - apply words_alike, ArmingStatus_alike.
  - apply words_alike, ArmUpState_alike.
  - apply words_alike, AlarmState_alike.
  - apply a_num.
Qed.
Lemma rtc_alike r : alike real_keys (RtcData_dbg r) (RtcData_ser r).
Proof.
  apply a_struct. cbn [combine RtcData_fields]. flds; [apply a_str | apply Weekday_alike | apply a_bool | apply ClockDisplayMode_alike | apply DateDisplayMode_alike].
Qed.
Lemma code_alike K c : alike K (DStr c) (ser_list VNum c).
Proof. unfold ser_list. rewrite <- (app_nil_r c) at 2. apply (a_bytes K c 0). Qed.
Lemma text_alike K t : alike K (DStr (trim_end t)) (ser_list VNum t).
Proof. destruct (trim_end_spec t) as (k & E & _). unfold ser_list. rewrite E at 2. apply a_bytes. Qed.
Ltac tag := match goal with |- alike ?K (DTuple ?n [_]) (tagged ?b _) => change b with (camel_variant n); apply a_newtype_variant end.
Lemma message_alike m v : Message_ser m = Ok v -> alike real_keys (message_tree m) v.
Proof.
  destruct m; cbn [Message_ser message_tree Message_dbg]; try (intros [= <-]; tag).
  - apply a_struct. cbn [combine ArmRequest_fields]. flds; [apply a_num | apply ArmLevel_alike | apply code_alike].
  - apply a_unit_struct.
  - apply as_alike.
  - apply a_struct. cbn [combine SendTimeData_fields]. flds; [apply a_num | apply TimeDataType_alike | apply a_num | apply a_num |].
    destruct (ee_armed_state m); [apply a_some, ArmedState_alike | apply a_none].
  - apply a_struct. cbn [combine SendCode_fields]. flds; [apply nums_alike | apply a_num | apply a_num].
  - apply a_unit_struct.
  - apply a_struct. cbn [combine Rtc_fields]. flds. apply rtc_alike.
  - apply a_struct. cbn [combine SdReq_fields]. flds; [apply TextDescriptionType_alike | apply a_num].
  - apply a_struct. cbn [combine SdResp_fields]. flds; [apply TextDescriptionType_alike | apply a_num | apply text_alike].
  - apply a_struct. cbn [combine Task_fields]. flds. apply a_num.
  - apply a_struct. cbn [combine Task_fields]. flds. apply a_num.
  - apply a_struct. cbn [combine Rtc_fields]. flds. apply rtc_alike.
  - apply a_struct. cbn [combine ZoneChange_fields]. flds; [apply a_num | apply a_status].
  - apply a_unit_struct.
Qed.
Lemma packet_alike p : alike real_keys (Packet_dbg p) (Packet_ser p).
Proof.
  destruct p; cbn [Packet_dbg Packet_ser]; tag.
  - apply a_wrapper; [left; reflexivity | apply a_str].
  - apply a_rp, a_hex.
  - apply a_struct. cbn [combine InvalidPacket_fields]. flds; [apply a_text | apply a_hex].
Qed.
Lemma change_alike c : alike real_keys (change_tree c) (Change_ser c).
Proof.
  destruct c; cbn [change_tree Change_ser]; unfold tagged.
  - change (B "zoneChange") with (camel_variant "ZoneChange"). apply a_struct_variant. cbn [combine CZone_fields]. flds; [apply a_num | apply a_status].
  - change (B "armingStatus") with (camel_variant "ArmingStatus"). apply a_struct_variant. cbn [combine CArming_fields]. flds. apply as_alike.
Qed.

Lemma event_alike e v : Event_ser e = Ok v -> alike real_keys (event_tree e) v.
Proof.
  unfold Event_ser, event_tree. destruct (ser_opt_res Outcome_ser (e_msg e)) as [mv|er|w] eqn:EM; try discriminate. cbn [bind].
  destruct (ser_opt_res Message_ser (e_completes e)) as [cv|er|w] eqn:EC; try discriminate. cbn [bind]. intros [= <-].
  apply a_struct. cbn [combine Event_fields]. flds.
  - destruct (e_pkt e) as [p|]; [apply a_some, packet_alike | apply a_none].
  - destruct (e_msg e) as [[m|er]|]; cbn [ser_opt_res Outcome_ser] in EM.
    + destruct (Message_ser m) as [v|?|?] eqn:E; try discriminate. injection EM as <-. apply a_some, a_ok. apply message_alike. exact E.
    + injection EM as <-. apply a_some, a_err, a_wrapper; [right; left; reflexivity | apply a_text].
    + injection EM as <-. apply a_none.
  - destruct (e_completes e) as [m|]; cbn [ser_opt_res] in EC; [apply a_some, message_alike; exact EC | injection EC as <-; apply a_none].
  - destruct (e_change e) as [c|]; [apply a_some, change_alike | apply a_none].
Qed.
(* False as stated: the clock's fields keep their underscores, as in a heartbeat. *)
Theorem C65_names_camel_refuted : exists m d v, wf_message m /\ Message_dbg m = Ok d /\ Message_ser m = Ok v /\ ~ alike camel_keys d v.
Proof.
  exists (MHeartbeat ex_rtc). eexists _, _. split; [repeat split; cbn; lia|]. split; [reflexivity|]. split; [reflexivity|]. intros A.
  repeat (cbv [Heartbeat_dbg Rtc_ser RtcData_dbg RtcData_ser combine Rtc_fields RtcData_fields] in *; match goal with
  | X : alike _ (DTuple _ _) _ |- _ => inversion X; clear X; subst; try discriminate
  | X : alike _ (DStruct _ _) _ |- _ => inversion X; clear X; subst; try discriminate
  | X : fields _ _ (_ :: _) _ |- _ => inversion X; clear X; subst; try discriminate
  | X : In _ _ |- _ => destruct X as [X|[X|[]]]; discriminate X
  end).
Qed.
(* Otherwise true: the JSON of every event of a panel has the fields and variants of its log entry, in the same order, each under
   the camelCase form of its name, except that the fields of the clock keep their names; so it is with every message. *)
Theorem C65_names_partial : forall p now p' r w e d v,
  reachable p -> poll_next now p = Ok (p', r, w) -> yields r e -> Event_dbg e = Ok d -> Event_ser e = Ok v -> alike real_keys d v.
Proof.
  intros p now p' r w e d v R E Y D V. destruct (reachable_inv _ R) as [I _].
  rewrite event_dbg_tree in D by (eapply emitted_ok; eauto). injection D as <-. apply event_alike. exact V.
Qed.
Theorem C65_message_names_partial : forall m d v, Message_dbg m = Ok d -> Message_ser m = Ok v -> alike real_keys d v.
Proof.
  intros m d v D V. destruct (C62_messages_written_exactly m) as [_ P].
  assert (Q : message_prints m \/ ~ message_prints m).
  { destruct m; cbn; try tauto; try (destruct (utf8_valid _); [left; reflexivity | right; discriminate]); [lia | discriminate V]. }
  destruct Q as [Q|Q]; [|destruct (P Q) as (? & X); congruence]. rewrite message_dbg_tree in D by exact Q. injection D as <-. apply message_alike. exact V.
Qed.
(* In the log, a message is its kind, with the struct of the same name in parentheses, and its fields; the report of all zones is a map of them.  Its kind
   is what JSON has in camelCase. *)
Definition named (n : string) (d : dbg) : Prop := d = DWord n \/ exists fs, d = DStruct n fs /\ fs <> [].
Theorem C65_message_kinds : forall m d, Message_dbg m = Ok d -> exists n inner, d = DTuple n [inner] /\
  (named n inner \/ exists z es, m = MZoneStatusReport z /\ n = "ZoneStatusReport"%string /\ inner = DMap es) /\
  forall v, Message_ser m = Ok v -> exists j, v = VObj [(camel_variant n, j)].
Proof.
  intros m d H. unfold Message_dbg in H.
  destruct m; repeat match goal with
  | X : bind _ _ = Ok _ |- _ => apply bind_inv in X as (? & ? & X)
  end; injection H as <-; eexists _, _; (split; [reflexivity|]); split;
    try (left; first [left; reflexivity | right; eexists; split; [reflexivity | discriminate]]; fail);
    try (intros v V; cbn [Message_ser] in V; try discriminate V; injection V as <-; eexists; reflexivity).
  all: repeat match goal with X : ArmRequest_dbg _ = Ok _ |- _ => unfold ArmRequest_dbg in X | X : SendTimeData_dbg _ = Ok _ |- _ => unfold SendTimeData_dbg in X
    | X : StringDescriptionResponse_dbg _ = Ok _ |- _ => unfold StringDescriptionResponse_dbg in X | X : ZoneChange_dbg _ = Ok _ |- _ => unfold ZoneChange_dbg in X
    | X : ZoneStatusReport_dbg _ = Ok _ |- _ => unfold ZoneStatusReport_dbg in X
    | X : bind _ _ = Ok _ |- _ => apply bind_inv in X as (? & ? & X) end;
    match goal with X : Ok _ = Ok _ |- _ => injection X as <- end.
  all: try (left; right; eexists; split; [reflexivity | discriminate]). right. eexists _, _. auto.
Qed.
Example C65_example :
  camel_field "first_exit_time" = B "firstExitTime" /\ camel_variant "ArmedStayInstant" = B "armedStayInstant" /\
  alike real_keys (DStruct "ZoneChange" [("zone", DNum 7); ("status", DTuple "ZoneStatus" [DWord "Violated"; DWord "Open"])])%string
    (VObj [(B "zone", VNum 7); (B "status", VNum 9)]).
Proof. split; [reflexivity|]. split; [reflexivity|]. apply a_struct. flds; [apply a_num | apply (a_status _ 9)]. Qed.

Print Assumptions C65_names_camel_refuted.
Print Assumptions C65_names_partial.
Print Assumptions C65_message_names_partial.
Print Assumptions C65_message_kinds.
