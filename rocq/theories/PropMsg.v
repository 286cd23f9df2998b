(* PropMsg.v: theorems C12-C27 about messages (msg.rs). *)
From Verif Require Import Base BaseFacts Pkt SpecPkt PktFacts DecodeFacts Msg SpecMsg DecFacts MsgFacts WireFacts IsoFacts.
From Coq Require Import ZifyBool ZifyNat ZifyN.
Ltac Zify.zify_post_hook ::= Z.div_mod_to_equations.

(* ---- examples ---- *)
Definition ex_zc : message := MZoneChange (mkZC 16 9).
Definition ex_as : message := MArmingStatusReport (mkAS
  [AST_Disarmed; AST_ArmedAway; AST_Disarmed; AST_Disarmed; AST_Disarmed; AST_Disarmed; AST_Disarmed; AST_Disarmed]
  [AU_ReadyToArm; AU_ArmedFully; AU_NotReadyToArm; AU_ReadyToArm; AU_ReadyToArm; AU_ReadyToArm; AU_ReadyToArm; AU_ReadyToArm]
  [AA_NoAlarmActive; AA_VerifyFire; AA_NoAlarmActive; AA_NoAlarmActive; AA_NoAlarmActive; AA_NoAlarmActive; AA_NoAlarmActive; AA_NoAlarmActive]
  14).
Definition ex_ee : message := MSendTimeData (mkEE 1 TD_Exit 60 120 (Some ARS_ArmedAway)).
Definition ex_rtc : RtcData := mkRtcData (mkDateTime 5 12 25 10 59 0) WD_Sun false CD_TwelveHour DD_MonthFirst.
Definition ex_sd : message := MStringDescriptionResponse (mkSdResp TT_Zone 1 (B "Front DoorKeypad")).

(* ---- C12 ---- *)
Theorem C12_packet_roundtrip : forall m, wf_message m ->
  exists p, to_pkt m = Ok p /\ valid_packet p /\ parse p = Ok (Some m).
Proof. intros m W. destruct (to_pkt_spec m W) as (b & H1 & _ & H2 & H3). exists (PAscii b). auto. Qed.
Example C12_example : wf_message ex_sd /\ wf_message ex_as /\ wf_message ex_ee /\
  to_pkt ex_sd = Ok (PAscii (B "SD00001Front DoorKeypad00")) /\ to_pkt ex_zc = Ok (PAscii (B "ZC016900")).
Proof.
  split; [split; [cbn; lia|]; split; [reflexivity | repeat constructor; discriminate]|].
  split; [repeat split; cbn; lia|]. split; [repeat split; cbn; lia|]. split; vm_compute; reflexivity.
Qed.

(* ---- C13 ---- *)
Theorem C13_wire_roundtrip : forall m, wf_message m ->
  exists p f, to_pkt m = Ok p /\ (forall to, encode p to = Ok (to ++ f)) /\
    forall rest, u8s rest -> decode (f ++ rest) = Ok (Some p, rest) /\ parse p = Ok (Some m).
Proof.
  intros m W. destruct (to_pkt_spec m W) as (b & H1 & _ & H2 & H3).
  destruct (encode_valid (PAscii b) H2) as (f & HF & HE). exists (PAscii b), f. repeat split; auto.
  apply decode_of_frame; auto.
Qed.
Theorem C13_wire_prefix_free : forall m n p q f g rest, wf_message m -> wf_message n ->
  to_pkt m = Ok p -> to_pkt n = Ok q -> encode p [] = Ok f -> encode q [] = Ok g ->
  f ++ rest = g \/ g ++ rest = f -> m = n /\ rest = [].
Proof.
  assert (X : forall m n p q f g rest, wf_message m -> wf_message n ->
    to_pkt m = Ok p -> to_pkt n = Ok q -> encode p [] = Ok f -> encode q [] = Ok g ->
    f ++ rest = g -> m = n /\ rest = []).
  { intros m n p q f g rest Wm Wn Hp Hq Ef Eg E.
    destruct (C13_wire_roundtrip m Wm) as (p' & f' & Hp' & Ef' & Dm).
    destruct (C13_wire_roundtrip n Wn) as (q' & g' & Hq' & Eg' & Dn).
    assert (p' = p) by congruence. assert (q' = q) by congruence. subst p' q'.
    rewrite Ef' in Ef. rewrite Eg' in Eg. cbn [app] in Ef, Eg. injection Ef as <-. injection Eg as <-.
    destruct (to_pkt_spec n Wn) as (b & H1 & _ & H2 & _). rewrite H1 in Hq. injection Hq as <-.
    destruct (encode_valid (PAscii b) H2) as (gg & HF & HE). specialize (HE []); rewrite Eg' in HE; cbn [app] in HE. injection HE as ->.
    pose proof (frame_of_valid (PAscii b) _ H2 HF) as (U & _). rewrite <- E in U. apply u8s_app in U as [_ UR].
    destruct (Dm rest UR) as [D1 P1]. destruct (Dn [] ltac:(constructor)) as [D2 P2].
    rewrite app_nil_r, <- E, D1 in D2. injection D2 as -> ->. split; [congruence | reflexivity]. }
  intros m n p q f g rest Wm Wn Hp Hq Ef Eg [E | E].
  - eapply X with (p := p) (q := q); eassumption.
  - assert (n = m /\ rest = []) as [-> ->]; [|auto]. eapply X with (p := q) (q := p); eassumption.
Qed.
Example C13_example : exists p, to_pkt ex_zc = Ok p /\ encode p [] = Ok (B "0AZC016900C2" ++ [13; 10]).
Proof. eexists. split; vm_compute; reflexivity. Qed.

(* ---- C14 ---- *)
Theorem C14_parse_never_panics : forall p why, parse p <> Panic why.
Proof.
  intros p why. destruct p as [b|d|r w]; cbn; try discriminate.
  pose proof (parse_safe b) as H. intros E. rewrite E in H. exact H.
Qed.
Example C14_example : parse (PAscii (B "RR5959239311299111")) = Err "bad Weekday '9'" /\ parse (PAscii (B "a1")) = Err "malformed ASCII message: too short".
Proof. split; vm_compute; reflexivity. Qed.

(* ---- C15 ---- *)
Theorem C15_parsed_well_formed : forall b m, ascii_body b -> parse (PAscii b) = Ok (Some m) -> wf_message m.
Proof. intros b m [P _] H. apply parse_some_iff in H. eapply grammar_wf; eassumption. Qed.
Theorem C15_only_ascii_packets_are_messages : forall p m, parse p = Ok (Some m) -> exists b, p = PAscii b.
Proof. intros [b|d|r w] m H; try discriminate. eauto. Qed.
Theorem C15_accessors_never_panic : forall b m, ascii_body b -> parse (PAscii b) = Ok (Some m) ->
  match m with
  | MZoneChange z => (exists i, to_index (zc_zone z) = Ok i /\ (i < 208)%nat) /\
      (exists l p, ZoneStatus_logical (zc_status z) = Ok l /\ ZoneStatus_physical (zc_status z) = Ok p)
  | MZoneStatusReport zs => forall z, In z zs ->
      exists l p, ZoneStatus_logical z = Ok l /\ ZoneStatus_physical z = Ok p
  | MStringDescriptionResponse r => exists s, TextDescription_as_str (sd_text r) = Ok s
  | MActivateTask t | MTaskChange t => exists i, to_index t = Ok i /\ (i < 32)%nat
  | _ => True
  end.
Proof.
  intros b m HB H. pose proof (C15_parsed_well_formed b m HB H) as W.
  assert (S : forall s, s < 16 -> exists l p, ZoneStatus_logical s = Ok l /\ ZoneStatus_physical s = Ok p).
  { intros s Hs. assert (E : s = 0 \/ s = 1 \/ s = 2 \/ s = 3 \/ s = 4 \/ s = 5 \/ s = 6 \/ s = 7 \/ s = 8 \/ s = 9 \/ s = 10
    \/ s = 11 \/ s = 12 \/ s = 13 \/ s = 14 \/ s = 15) by lia.
    repeat destruct E as [-> | E]; try subst s; eexists _, _; split; reflexivity. }
  destruct m; auto; cbv beta iota delta [wf_message] in W.
  - destruct W as (_ & _ & W). destruct (text_as_str _ W) as (s & E & _). eauto.
  - unfold task_ok in W. unfold to_index. destruct (task =? 0) eqn:E; [lia|]. eexists. split; [reflexivity | lia].
  - unfold task_ok in W. unfold to_index. destruct (task =? 0) eqn:E; [lia|]. eexists. split; [reflexivity | lia].
  - destruct W as [Wz Ws]. split; [|apply S; exact Ws]. unfold zone_ok in Wz. unfold to_index.
    destruct (zc_zone m =? 0) eqn:E; [lia|]. eexists. split; [reflexivity | lia].
  - destruct W as [_ W]. rewrite Forall_forall in W. intros z Hz. apply S. apply W. exact Hz.
Qed.
Example C15_example : parse (PAscii (B "ZC+16900")) = Ok (Some ex_zc) /\ parse (PAscii (B "ZC209900")) = Err "209 not in expected t range of [1, 208]".
Proof. split; vm_compute; reflexivity. Qed.

(* ---- C16 ---- *)
Theorem C16_documented_format : forall m p, wf_message m ->
  (to_pkt m = Ok p <-> exists body, p = PAscii body /\ wire m body).
Proof.
  intros m p W. destruct (to_pkt_spec m W) as (b & H1 & H2 & _). split.
  - intros H. exists b. split; [congruence | exact H2].
  - intros (body & -> & Hw). rewrite H1. do 2 f_equal. eapply wire_fun; eassumption.
Qed.
Example C16_example : to_pkt ex_ee = Ok (PAscii (B "EE10060120100")) /\
  to_pkt (MHeartbeat ex_rtc) = Ok (PAscii (B "XK0059101251205010")) /\
  to_pkt ex_as = Ok (PAscii (B "AS01000000140111110B0000000E")) /\
  to_pkt (MArmRequest (mkArmRequest 1 AL_ForceArmToStay (B "001234"))) = Ok (PAscii (B "a:100123400")) /\
  to_pkt (MSendCode (mkIC [1; 2; 3; 4; 0; 171] 3 16)) = Ok (PAscii (B "IC0102030400AB0031600")).
Proof. repeat split; vm_compute; reflexivity. Qed.

(* ---- C17 ---- *)
Theorem C17_grammar_exact : forall body,
  (forall m, parse (PAscii body) = Ok (Some m) <-> grammar m body) /\
  (parse (PAscii body) = Ok None <-> (4 <= length body)%nat /\ ~ supported (firstn 2 body)) /\
  ((exists e, parse (PAscii body) = Err e) <->
     (length body < 4)%nat \/ (supported (firstn 2 body) /\ forall m, ~ grammar m body)).
Proof.
  intros body. cbn [parse]. split; [intros m; apply parse_some_iff|]. split; [apply parse_none_iff|].
  pose proof (parse_safe body) as S. pose proof (parse_none_iff body) as N. pose proof (parse_some_iff body) as M.
  destruct (parse_ascii body) as [[m|]|e|w] eqn:E; [| | |contradiction].
  - split; [intros (e & H); discriminate|]. intros [H | [_ H]].
    + assert (G : grammar m body) by (apply M; reflexivity). apply grammar_len in G. lia.
    + exfalso. apply (H m). apply M. reflexivity.
  - split; [intros (e & H); discriminate|]. destruct (proj1 N eq_refl) as [N1 N2]. intros [H | [H _]]; [lia | contradiction].
  - split; [|eauto]. intros _. destruct (Nat.lt_ge_cases (length body) 4) as [L|L]; [auto|]. right. split.
    + assert (D : supported (firstn 2 body) \/ ~ supported (firstn 2 body)).
      { destruct body as [|c0 [|c1 data]]; cbn [length] in L; try lia. cbn [firstn].
        destruct (existsb (beq [c0; c1]) arm_cmds) eqn:EA.
        { left. right. apply arm_cmd_iff in EA as [-> (v & HV)]. eauto. }
        unfold supported.
        match goal with |- (In ?c ?l \/ _) \/ _ => destruct (in_dec (list_eq_dec N.eq_dec) c l) as [HI|HI] end; [auto|].
        right. intros [H | (l & c & HL & [= -> ->])]; [contradiction|].
        rewrite (proj2 (arm_cmd_iff 97 c)) in EA by eauto. discriminate. }
      destruct D as [D|D]; [exact D|]. assert (Err e = Ok None) by (apply N; auto). discriminate.
    + intros m G. apply M in G. discriminate.
Qed.
Theorem C17_grammar_unambiguous : forall body m n, grammar m body -> grammar n body -> m = n.
Proof. exact grammar_fun. Qed.
Example C17_example : grammar ex_zc (B "ZC+169xyz") /\ ~ supported (B "ZZ") /\ supported (B "a:").
Proof.
  split; [apply parse_some_iff; vm_compute; reflexivity|]. split.
  - intros [H | (l & c & _ & E)]; [cbn in H; intuition discriminate | discriminate].
  - right. exists AL_ForceArmToStay, 58. split; [exists 10%nat; split; reflexivity | reflexivity].
Qed.

(* ---- C18 ---- *)
Theorem C18_reencode_canonical : forall b m, ascii_body b -> parse (PAscii b) = Ok (Some m) ->
  exists b', to_pkt m = Ok (PAscii b') /\ ascii_body b' /\ wire m b' /\ parse (PAscii b') = Ok (Some m) /\
    (b' = b <-> wire m b).
Proof.
  intros b m HB H. pose proof (C15_parsed_well_formed b m HB H) as W.
  destruct (to_pkt_spec m W) as (b' & H1 & H2 & H3 & H4). exists b'. repeat split; auto.
  - apply H3. - apply H3. - apply H3.
  - intros ->. exact H2.
  - intros Hw. eapply wire_fun; eassumption.
Qed.
(* The stronger reading fails: the re-encoded packet may differ from the parsed one. *)
Theorem C18_reencode_identity_refuted : exists b m b', ascii_body b /\ parse (PAscii b) = Ok (Some m) /\
  to_pkt m = Ok (PAscii b') /\ b' <> b.
Proof.
  exists (B "ZC+16900"), ex_zc, (B "ZC016900"). split; [split; [repeat constructor; discriminate | cbn; lia]|].
  split; [vm_compute; reflexivity|]. split; [vm_compute; reflexivity | discriminate].
Qed.
Example C18_example : parse (PAscii (B "TC00500")) = Ok (Some (MTaskChange 5)) /\ to_pkt (MTaskChange 5) = Ok (PAscii (B "TC005000")).
Proof. split; vm_compute; reflexivity. Qed.

(* ---- C19 ---- *)
Theorem C19_replies_exact : forall m r, is_response_to m r = true <-> replies m r.
Proof. exact is_response_spec. Qed.
Definition is_request (m : message) : Prop :=
  match m with
  | MArmRequest _ | MArmingStatusRequest | MRtcRequest | MStringDescriptionRequest _ | MActivateTask _ | MZoneStatusRequest => True
  | _ => False
  end.
Theorem C19_requests_never_reply : forall m r, is_response_to m r = true -> is_request r /\ ~ is_request m.
Proof. intros m r H. apply is_response_spec in H. destruct m, r; cbn in H |- *; tauto. Qed.
Theorem C19_replies_unambiguous : forall m r, is_response_to m r = true -> forall s, is_response_to m s = true ->
  match r, s with
  | MArmRequest _, MArmRequest _ => True
  | MStringDescriptionRequest q, MStringDescriptionRequest q' => sdq_ty q = sdq_ty q'
  | _, _ => r = s
  end.
Proof.
  intros m r H s G. apply is_response_spec in H, G. destruct m; cbn in H, G; try contradiction;
    destruct r; try contradiction; destruct s; try contradiction; auto; try congruence.
  destruct H, G. congruence.
Qed.
Example C19_example : is_response_to ex_sd (MStringDescriptionRequest (mkSdReq TT_Zone 1)) = true /\
  is_response_to ex_sd (MStringDescriptionRequest (mkSdReq TT_Zone 2)) = false.
Proof. split; vm_compute; reflexivity. Qed.

(* ---- C20 ---- *)
Theorem C20_code_from_number : forall n s, ArmCode_try_from_u32 n = Ok s <-> n < 1000000 /\ dec_canon 6 n s.
Proof.
  intros n s. unfold ArmCode_try_from_u32. destruct (1000000 <=? n) eqn:E.
  - split; [discriminate | lia].
  - assert (HP : dec_canon 6 n (fmt_pad 6 n)) by (apply fmt_pad_spec; [discriminate | cbn; lia]).
    rewrite (proj1 HP). cbn [Nat.eqb]. split.
    + intros [= <-]. split; [lia | exact HP].
    + intros [_ H]. f_equal. eapply dec_canon_fun; eassumption.
Qed.
Theorem C20_code_from_number_no_panic : forall n, (exists s, ArmCode_try_from_u32 n = Ok s) \/ (exists e, ArmCode_try_from_u32 n = Err e).
Proof.
  intros n. destruct (N.lt_ge_cases n 1000000) as [H|H].
  - left. exists (fmt_pad 6 n). apply C20_code_from_number. split; [exact H | apply fmt_pad_spec; [discriminate | exact H]].
  - right. unfold ArmCode_try_from_u32. replace (1000000 <=? n) with true by lia. eauto.
Qed.
Theorem C20_code_from_text : forall s c, ArmCode_try_from_slice s = Ok c <-> (length s = 6%nat /\ digits s) /\ c = s.
Proof. exact ArmCode_slice_spec. Qed.
Theorem C20_codes_are_numbers : forall s, arm_code_ok s -> exists! n, ArmCode_try_from_u32 n = Ok s.
Proof.
  intros s (L & D). exists (dec_value s). split.
  - apply C20_code_from_number. pose proof (dec_value_lt s D) as H. rewrite L in H. split; [exact H | repeat split; auto].
  - intros n H. apply C20_code_from_number in H as (_ & _ & _ & H). exact H.
Qed.
Example C20_example : ArmCode_try_from_u32 1234 = Ok (B "001234") /\ ArmCode_try_from_u32 1000000 = Err "code out of range" /\
  arm_code_ok (B "001234") /\ ArmCode_try_from_slice (B "00123a") = Err "ArmCode must be numeric".
Proof. repeat split; try (vm_compute; reflexivity). repeat constructor; discriminate. Qed.

(* ---- C21 ---- *)
(* the u8 inside, which is what u8::from returns, is the representation itself *)
Definition checked_bijection (max : N) (try_from : N -> res N) : Prop :=
  (forall v n, try_from v = Ok n <-> (1 <= v <= max) /\ n = v) /\
  (forall v, ~ (1 <= v <= max) -> exists e, try_from v = Err e) /\
  (forall v n, try_from v = Ok n -> exists i, to_index n = Ok i /\ N.of_nat i + 1 = v /\ (i < N.to_nat max)%nat) /\
  (forall i, (i < N.to_nat max)%nat -> exists n, try_from (N.of_nat i + 1) = Ok n /\ to_index n = Ok i).
Theorem C21_checked_numbers :
  checked_bijection 208 Zone_try_from /\ checked_bijection 8 Area_try_from /\
  checked_bijection 16 Keypad_try_from /\ checked_bijection 32 Task_try_from.
Proof.
  assert (X : forall max, checked_bijection max (limited_try_from max)).
  { intros max. split; [intros v n; apply limited_spec|]. split; [|split].
    - intros v H. unfold limited_try_from. replace ((1 <=? v) && (v <=? max)) with false by lia. eauto.
    - intros v n H. apply limited_spec in H as [H ->]. unfold to_index. destruct (v =? 0) eqn:E; [lia|].
      eexists. split; [reflexivity | lia].
    - intros i Hi. exists (N.of_nat i + 1). split; [apply limited_spec; split; [lia | reflexivity]|].
      unfold to_index. destruct (_ =? 0) eqn:E; [lia|]. f_equal. lia. }
  split; [apply X|]. split; [apply X|]. split; apply X.
Qed.
Example C21_example : Zone_try_from 208 = Ok 208 /\ to_index 208 = Ok 207%nat /\ Zone_try_from 0 = Err "0 not in expected t range of [1, 208]".
Proof. repeat split. Qed.

(* ---- C22 ---- *)
Theorem C22_status_is_pair :
  (forall l p, ZoneStatus_new l p < 16 /\ ZoneStatus_logical (ZoneStatus_new l p) = Ok l /\
     ZoneStatus_physical (ZoneStatus_new l p) = Ok p) /\
  (forall s, s < 16 -> exists l p, ZoneStatus_logical s = Ok l /\ ZoneStatus_physical s = Ok p /\ ZoneStatus_new l p = s) /\
  (forall s, s < 16 -> hex_digit (N.to_nat s) (ZoneStatus_to_ascii s) /\ ZoneStatus_from_ascii (ZoneStatus_to_ascii s) = Ok s) /\
  (forall c s, ZoneStatus_from_ascii c = Ok s -> s < 16 /\ ZoneStatus_to_ascii s = c) /\
  ZoneStatus_UNCONFIGURED = ZoneStatus_new ZL_Normal ZP_Unconfigured.
Proof.
  assert (H3 : forall s, s < 16 -> hex_digit (N.to_nat s) (ZoneStatus_to_ascii s)).
  { intros s Hs. pose proof (hex_nibble_spec s) as H. rewrite N.mod_small in H by lia. exact H. }
  split; [intros [] []; repeat split; vm_compute; reflexivity|]. split; [|split; [|split]].
  - intros s Hs. assert (E : s = 0 \/ s = 1 \/ s = 2 \/ s = 3 \/ s = 4 \/ s = 5 \/ s = 6 \/ s = 7 \/ s = 8 \/ s = 9 \/ s = 10
    \/ s = 11 \/ s = 12 \/ s = 13 \/ s = 14 \/ s = 15) by lia.
    repeat destruct E as [-> | E]; try subst s; eexists _, _; (split; [reflexivity|]); (split; reflexivity).
  - intros s Hs. split; [apply H3; exact Hs|]. apply ZoneStatus_from_spec, H3, Hs.
  - intros c s H. apply ZoneStatus_from_spec in H. pose proof (hex_digit_lt _ _ H). assert (Hs : s < 16) by lia.
    split; [exact Hs|]. eapply hex_digit_fun; [apply H3; exact Hs | exact H].
  - reflexivity.
Qed.
(* the numeric encoding: logical in the upper two bits, physical in the lower two *)
Theorem C22_status_code : forall l p i j,
  nth_error [ZL_Normal; ZL_Trouble; ZL_Violated; ZL_Bypassed] i = Some l ->
  nth_error [ZP_Unconfigured; ZP_Open; ZP_EOL; ZP_Short] j = Some p ->
  ZoneStatus_new l p = N.of_nat (4 * i + j).
Proof.
  intros l p i j Hi Hj.
  do 4 (destruct i as [|i]; [injection Hi as <-; do 4 (destruct j as [|j]; [injection Hj as <-; reflexivity|]); destruct j; discriminate|]).
  destruct i; discriminate.
Qed.
Example C22_example : ZoneStatus_from_ascii (ch "9") = Ok (ZoneStatus_new ZL_Violated ZP_Open).
Proof. reflexivity. Qed.

(* ---- C23 ---- *)
(* The claim fails: a fire alarm is not reported as firing. *)
Theorem C23_is_firing_refuted : exists a, is_alarm a /\ is_firing a = false.
Proof. exists AA_FireAlarm. split; [unfold is_alarm; cbn; intuition discriminate | reflexivity]. Qed.
(* What holds: every alarm except the fire alarm fires, and nothing that is not an alarm does.
   Missing from C23: the fire alarm. *)
Theorem C23_is_firing_partial : forall a, is_firing a = true <-> is_alarm a /\ a <> AA_FireAlarm.
Proof. intros a. unfold is_alarm. destruct a; cbn; intuition congruence. Qed.
Example C23_example : is_alarm AA_BurglarAlarm /\ is_firing AA_BurglarAlarm = true.
Proof. split; [unfold is_alarm; cbn; intuition discriminate | reflexivity]. Qed.

(* ---- C24 ---- *)
Theorem C24_suspicious_exact : forall from to, is_transition_suspicious from to = true <-> became_fully_armed from to.
Proof. exact suspicious_spec. Qed.
Theorem C24_never_for_equal : forall r, is_transition_suspicious r r = false.
Proof.
  intros r. destruct (is_transition_suspicious r r) eqn:E; [|reflexivity].
  apply suspicious_spec in E as (i & s & H1 & H2 & M & _). rewrite H1 in H2. injection H2 as <-.
  cbn in M. intuition discriminate.
Qed.
Example C24_example : match ex_as with
  | MArmingStatusReport r => became_fully_armed (mkAS (repeat AST_Disarmed 8) (up_state r) (alarm_state r) 0) r
  | _ => False end.
Proof. exists 1%nat, AST_ArmedAway. cbn. auto. Qed.

(* ---- C25 ---- *)
Theorem C25_text_new : forall s t, TextDescription_new s = Ok t ->
  Forall printable s /\ text_ok t /\ exists shown, TextDescription_as_str t = Ok shown /\ trimmed (firstn 16 s) shown.
Proof.
  intros s t H. pose proof (text_new_ok s t H) as T. pose proof H as H'. apply text_new_spec in H' as [P ->].
  split; [exact P|]. split; [exact T|].
  destruct (text_as_str _ (proj2 T)) as (shown & E & (k & E1 & E2)). exists shown. split; [exact E|].
  destruct (trim_end_spec (firstn 16 s)) as (j & F1 & F2).
  assert (shown = trim_end (firstn 16 s)) as ->; [|exists j; auto].
  apply (trimmed_fun (firstn 16 s ++ repeat 32 (16 - length s))); [exists k; auto|].
  exists (j + (16 - length s))%nat. split; [|exact F2]. rewrite F1 at 1. rewrite repeat_app, app_assoc. reflexivity.
Qed.
Theorem C25_text_new_accepts : forall s,
  (Forall printable s -> exists t, TextDescription_new s = Ok t) /\
  (~ Forall printable s -> exists e, TextDescription_new s = Err e).
Proof.
  intros s. split.
  - intros H. eexists. apply text_new_spec. split; [exact H | reflexivity].
  - intros H. destruct (check_printable_err s H) as (e & E). exists e. unfold TextDescription_new. rewrite E. reflexivity.
Qed.
Example C25_example : TextDescription_new (B "Front Door") = Ok (B "Front Door      ") /\
  TextDescription_as_str (B "Front Door      ") = Ok (B "Front Door") /\
  TextDescription_new (B "A very long description") = Ok (B "A very long desc").
Proof. repeat split; vm_compute; reflexivity. Qed.

(* ---- C26 ---- *)
(* The claim fails for the year 2100: it is accepted, and prints with 20 characters. *)
Theorem C26_iso_roundtrip_refuted : exists s d, from_iso_8601 s = Ok d /\
  length (to_iso_8601 d) = 20%nat /\ from_iso_8601 (to_iso_8601 d) <> Ok d.
Proof.
  exists (B "2100-12-25T10:59:00"), (mkDateTime 100 12 25 10 59 0).
  split; [vm_compute; reflexivity|]. split; [reflexivity|]. vm_compute. discriminate.
Qed.
(* What holds: exactly the documented strings are accepted, and all but the year 2100 round-trip.
   Missing from C26: the year 2100. *)
Theorem C26_iso_accepts_exact : forall s d, from_iso_8601 s = Ok d <-> iso_accepts d s.
Proof. exact from_iso_iff. Qed.
Theorem C26_iso_roundtrip_partial : forall s d, from_iso_8601 s = Ok d -> year d <> 100 ->
  iso_of d (to_iso_8601 d) /\ length (to_iso_8601 d) = 19%nat /\ from_iso_8601 (to_iso_8601 d) = Ok d.
Proof.
  intros s d H Y. apply from_iso_iff in H.
  destruct H as (Y' & y & mo & dd & h & mi & se & -> & HY & RY & EY & H1 & R1 & H2 & R2 & H3 & R3 & H4 & R4 & H5 & R5).
  assert (W : datetime_ok d) by (unfold datetime_ok; lia).
  split; [apply to_iso_spec; exact W|]. split; [eapply iso_of_len; apply to_iso_spec; exact W | apply from_to_iso; exact W].
Qed.
Theorem C26_wire_dates_roundtrip : forall d, datetime_ok d -> from_iso_8601 (to_iso_8601 d) = Ok d.
Proof. exact from_to_iso. Qed.
Example C26_example : from_iso_8601 (B "2005-12-25T10:59:00") = Ok (datetime ex_rtc) /\
  to_iso_8601 (datetime ex_rtc) = B "2005-12-25T10:59:00".
Proof. split; vm_compute; reflexivity. Qed.

(* ---- C27 ---- *)
(* The claim fails: a multi-byte character across a field boundary panics. *)
Theorem C27_iso_never_panics_refuted : exists s why, utf8_valid s = true /\ from_iso_8601 s = Panic why.
Proof.
  (* "200\u{e9}12-25T10:59:00" *)
  exists (B "200" ++ [195; 169] ++ B "12-25T10:59:00"), "byte index is not a char boundary"%string.
  split; vm_compute; reflexivity.
Qed.
(* What holds: no panic on ASCII strings, nor on strings of any other length than 19.
   Missing from C27: 19-byte strings with non-ASCII characters. *)
Theorem C27_iso_never_panics_partial : forall s, Forall (fun c => c < 128) s \/ length s <> 19%nat ->
  forall why, from_iso_8601 s <> Panic why.
Proof.
  intros s [H | H] why E.
  - pose proof (from_iso_safe s H) as S. rewrite E in S. exact S.
  - unfold from_iso_8601 in E. apply Nat.eqb_neq in H. rewrite H in E. discriminate.
Qed.
Example C27_example : Forall (fun c => c < 128) (B "2005-13-25T10:59:00") /\ from_iso_8601 (B "2005-13-25T10:59:00") = Err "month 13 out of range".
Proof. split; [repeat constructor | vm_compute; reflexivity]. Qed.

(* Exactly which texts make it panic: those of 19 bytes where a part ends inside a character and every part before it is right. *)
Theorem C27_panics_exactly_partial : forall s, (exists why, from_iso_8601 s = Panic why) <-> iso_breaks s.
Proof. exact from_iso_panics. Qed.
(* "2005-12-25T10:5\u{e9}00": the minutes end inside the character, and everything before them is right *)
Example C27_panics_example : iso_breaks (B "2005-12-25T10:5" ++ [195; 169] ++ B "00") /\
  utf8_valid (B "2005-12-25T10:5" ++ [195; 169] ++ B "00") = true.
Proof. split; [apply from_iso_panics; eexists | ]; vm_compute; reflexivity. Qed.
(* the same character where it does not matter: the year is already wrong *)
Example C27_no_panic_example : ~ iso_breaks (B "1905-12-25T10:5" ++ [195; 169] ++ B "00").
Proof. intros H. apply from_iso_panics in H as (why & E). vm_compute in E. discriminate. Qed.

Print Assumptions C12_packet_roundtrip.
Print Assumptions C13_wire_roundtrip.
Print Assumptions C13_wire_prefix_free.
Print Assumptions C14_parse_never_panics.
Print Assumptions C15_parsed_well_formed.
Print Assumptions C15_accessors_never_panic.
Print Assumptions C16_documented_format.
Print Assumptions C17_grammar_exact.
Print Assumptions C18_reencode_canonical.
Print Assumptions C19_replies_exact.
Print Assumptions C20_codes_are_numbers.
Print Assumptions C21_checked_numbers.
Print Assumptions C22_status_is_pair.
Print Assumptions C23_is_firing_partial.
Print Assumptions C24_suspicious_exact.
Print Assumptions C25_text_new.
Print Assumptions C26_iso_roundtrip_partial.
Print Assumptions C27_iso_never_panics_partial.
Print Assumptions C27_panics_exactly_partial.
