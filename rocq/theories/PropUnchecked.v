(* PropUnchecked.v: theorem C141, messages that hold values out of range (as read from JSON, see C55) and what arrives. *)
From Verif Require Import Base BaseFacts Pkt SpecPkt PktFacts Msg SpecMsg DecFacts MsgFacts WireFacts IsoFacts Serde SerdeFacts PropMsg PropSerde Release PropRelease SpecUnchecked.
From Coq Require Import ZifyBool ZifyNat ZifyN.
Ltac Zify.zify_post_hook ::= Z.div_mod_to_equations.

Lemma written s why b : expect (ascii_try_from s) why = Ok b -> b = s /\ ascii_body s.
Proof. intros H. destruct (ascii_try_from s) as [t|e|w] eqn:E; try discriminate H. cbn in H. injection H as ->. apply ascii_try_from_spec in E as [E ->]. auto. Qed.
Lemma reads {A} (F : res A) (M : A -> message) b (P : message -> Prop) :
  parse_ascii b = (x <- F ;; Ok (Some (M x))) -> (forall x, F = Ok x -> P (M x)) ->
  (exists e, parse (PAscii b) = Err e) \/ exists m, parse (PAscii b) = Ok (Some m) /\ P m.
Proof.
  intros E H. pose proof (C14_parse_never_panics (PAscii b)) as N. cbn [parse] in *. rewrite E in *.
  destruct F as [x|e|w]; cbn [bind] in *; [right; eauto | left; eauto | exfalso; eapply N; reflexivity].
Qed.

(* numbers of up to three digits *)
Lemma two_digits n : 10 <= n < 100 -> fmt_dec n = [48 + n / 10; 48 + n mod 10].
Proof.
  intros H. apply beq_eq.
  assert (X : forallb (fun n => beq (fmt_dec n) [48 + n / 10; 48 + n mod 10]) (map N.of_nat (seq 10 90)) = true) by (vm_compute; reflexivity).
  rewrite forallb_forall in X. apply X. apply in_map_iff. exists (N.to_nat n). split; [lia|]. apply in_seq. lia.
Qed.
Lemma three_digits n : 100 <= n <= 255 -> fmt_dec n = [48 + n / 100; 48 + n / 10 mod 10; 48 + n mod 10].
Proof.
  intros H. apply beq_eq.
  assert (X : forallb (fun n => beq (fmt_dec n) [48 + n / 100; 48 + n / 10 mod 10; 48 + n mod 10]) (map N.of_nat (seq 100 156)) = true) by (vm_compute; reflexivity).
  rewrite forallb_forall in X. apply X. apply in_map_iff. exists (N.to_nat n). split; [lia|]. apply in_seq. lia.
Qed.
Lemma pad2_three n : 100 <= n <= 255 -> fmt_pad 2 n = [48 + n / 100; 48 + n / 10 mod 10; 48 + n mod 10].
Proof. intros H. unfold fmt_pad. rewrite (three_digits n H). reflexivity. Qed.
Lemma two_of_three n : 100 <= n <= 255 -> dec_canon 2 (n / 10) [48 + n / 100; 48 + n / 10 mod 10].
Proof.
  intros H. split; [reflexivity|]. split.
  - unfold digits. change (ch "0") with 48. change (ch "9") with 57. apply Forall_cons; [lia|]. apply Forall_cons; [lia | constructor].
  - unfold dec_value. cbn [fold_left]. change (ch "0") with 48. lia.
Qed.

Lemma zc_read m b : zc_zone m <= 255 -> zc_status m <= 255 -> to_ascii (MZoneChange m) = Ok b ->
  (exists e, parse (PAscii b) = Err e) \/ (exists x, parse (PAscii b) = Ok (Some x) /\ (wf_message (MZoneChange m) \/ mistaken (MZoneChange m) x)).
Proof.
  intros Z S W. cbn [to_ascii] in W. apply written in W as [-> W]. pose proof (pad_canon 3 (zc_zone m) ltac:(discriminate) ltac:(cbn; lia)) as C. pose proof C as (L & _ & _).
  change (B "ZC" ++ ?x) with (90 :: 67 :: x).
  apply (reads (ZoneChange_from_ascii_data (fmt_pad 3 (zc_zone m) ++ fmt_hex8 (zc_status m) ++ B "00")) MZoneChange _ (fun x => wf_message (MZoneChange m) \/ mistaken (MZoneChange m) x)).
  - apply parse_ascii_cons. rewrite !app_length, L. cbn [length]. lia.
  - intros x H. pose proof H as H'. apply ZC_from_iff in H as (tail & n & c & E & D & ZO & HX). injection E as E.
    pose proof (dec_field_lt _ _ _ D) as (_ & _ & Ln). apply app_inj_len in E as [E1 E2]; [|congruence]. subst n.
    pose proof (dec_field_inj _ _ _ _ _ D (canon_field 3 _ _ ltac:(discriminate) Z C)) as EZ.
    destruct (N.lt_ge_cases (zc_status m) 16) as [Q|Q]; [left; split; [rewrite <- EZ; exact ZO | exact Q]|]. right. cbn [mistaken]. split; [exact Q|].
    unfold fmt_hex8 in E2. replace (zc_status m <? 16) with false in E2 by lia. cbn [app] in E2. injection E2 as <- _.
    assert (X : hex_digit (N.to_nat (zc_status m / 16)) (hex_upper (zc_status m / 16))) by (apply hex_upper_spec; lia).
    apply ZoneStatus_from_spec in HX. apply ZoneStatus_from_spec in X. rewrite X in HX. injection HX as HX. destruct x. cbn in *. congruence.
Qed.
Lemma zc_always z s b : zone_ok z -> 16 <= s <= 255 -> to_ascii (MZoneChange (mkZC z s)) = Ok b -> parse (PAscii b) = Ok (Some (MZoneChange (mkZC z (s / 16)))).
Proof.
  intros Z S W. cbn [to_ascii] in W. apply written in W as [-> W]. cbn [zc_zone zc_status parse] in *. apply parse_some_iff. unfold zone_ok in Z.
  exists (hex_upper (s mod 16) :: B "00"), (fmt_pad 3 z), (hex_upper (s / 16)). cbn [zc_zone zc_status].
  split; [unfold fmt_hex8; replace (s <? 16) with false by lia; reflexivity|].
  split; [apply canon_field; [discriminate | lia | apply pad_canon; [discriminate | cbn; lia]]|]. split; [exact Z | apply hex_upper_spec; lia].
Qed.

Lemma tn_read M cmd c0 c1 rest t b : cmd = [c0; c1] -> t <= 255 -> b = cmd ++ fmt_pad 3 t ++ rest ->
  (forall data, (2 <= length data)%nat -> parse_ascii (c0 :: c1 :: data) = (x <- ActivateTask_from_ascii_data data ;; Ok (Some (M x)))) ->
  (exists e, parse (PAscii b) = Err e) \/ (exists x, parse (PAscii b) = Ok (Some x) /\ task_ok t).
Proof.
  intros -> T -> HP. pose proof (pad_canon 3 t ltac:(discriminate) ltac:(cbn; lia)) as C. pose proof C as (L & _ & _).
  eapply (reads _ _ _ (fun _ => task_ok t)); [apply (HP (fmt_pad 3 t ++ rest)); rewrite app_length; lia|].
  intros x H. apply (tn_from_iff [c0; c1]) in H as (tail & n & E & D & TO). apply app_inv_head in E. 
  pose proof (dec_field_lt _ _ _ D) as (_ & _ & Ln). apply app_inj_len in E as [<- _]; [|congruence].
  rewrite <- (dec_field_inj _ _ _ _ _ D (canon_field 3 _ _ ltac:(discriminate) T C)). exact TO.
Qed.
Lemma arm_bytes m a : ar_area m <= 255 -> length (ar_code m) = 6%nat -> a = (ar_area m + 48) mod 256 ->
  let b := [ch "a"; ArmLevel_u8 (ar_level m); a] ++ ar_code m ++ B "00" in
  (exists e, parse (PAscii b) = Err e) \/ (exists x, parse (PAscii b) = Ok (Some x) /\ wf_message (MArmRequest m)).
Proof.
  intros A L HA b. unfold b. clear b.
  assert (LV : exists v, arm_level_code v (ArmLevel_u8 (ar_level m))) by (eexists; apply ArmLevel_u8_spec).
  eapply (reads (ArmRequest_from_ascii (ArmLevel_u8 (ar_level m)) _) MArmRequest _ (fun _ => wf_message (MArmRequest m))).
  - cbn [app]. change (ch "a") with 97. rewrite parse_ascii_cons by (cbn [length]; rewrite app_length; lia). rewrite (proj2 (arm_cmd_iff _ _)) by (split; [reflexivity | exact LV]). reflexivity.
  - intros x H. apply Arm_from_iff in H as (tail & (l & s & E & _ & D & AO & CO) & _); [|exact LV]. cbn [app] in E. injection E as _ E.
    pose proof (dec_field_lt _ _ _ D) as (_ & _ & La). destruct s as [|c [|]]; try discriminate La. cbn [app] in E. injection E as <- E.
    apply app_inj_len in E as [E _]; [|destruct CO as [CO _]; congruence]. split; [|rewrite E; exact CO].
    destruct D as (_ & _ & ds & [<- | X] & ND & DD & V); [|injection X as X1 X2; exfalso; apply ND; exact (eq_sym X2)].
    apply Forall_inv in DD. change (ch "0") with 48 in DD. change (ch "9") with 57 in DD.
    unfold dec_value in V. cbn [fold_left] in V. change (ch "0") with 48 in V. unfold area_ok in *. lia.
Qed.
Lemma arm_read m b : ar_area m <= 255 -> length (ar_code m) = 6%nat -> to_ascii (MArmRequest m) = Ok b ->
  (exists e, parse (PAscii b) = Err e) \/ (exists x, parse (PAscii b) = Ok (Some x) /\ wf_message (MArmRequest m)).
Proof.
  intros A L W. cbn [to_ascii] in W. unfold ArmRequest_to_ascii in W. apply bind_inv in W as (a & EA & W). apply written in W as [-> W].
  apply arm_bytes; [exact A | exact L|]. unfold add8 in EA. change (ch "0") with 48 in EA. destruct (ar_area m + 48 <? 256) eqn:Q; [|discriminate EA]. injection EA as <-.
  rewrite N.mod_small; [reflexivity | lia].
Qed.

(* keypads *)
Lemma concat_hex l c : Forall2 hex2 l c -> length (concat c) = (2 * length l)%nat.
Proof. induction 1 as [|x y l c H _ IH]; [reflexivity|]. cbn [concat length]. rewrite app_length, IH, (hex2_hex_byte _ _ H). cbn [hex_byte length]. lia. Qed.
Lemma hexes l : u8s l -> Forall2 hex2 l (map hex_byte l).
Proof. intros U. apply F2_map_in. intros x Hx. unfold u8s in U. rewrite Forall_forall in U. apply hex_byte_spec. specialize (U x Hx). cbn in U. lia. Qed.
Definition ic_data (m : SendCode) : bytes := flat_map hex_byte (ic_code m) ++ fmt_pad 3 (ic_user m) ++ fmt_pad 2 (ic_keypad m) ++ B "00".
Lemma ic_always c u k : length c = 6%nat -> u8s c -> u <= 255 -> 100 <= k <= 169 -> SendCode_from_ascii_data (ic_data (mkIC c u k)) = Ok (mkIC c u (k / 10)).
Proof.
  intros L U W K. apply IC_from_iff. exists ((48 + k mod 10) :: B "00"). split; [|cbn; lia].
  exists (map hex_byte c), (fmt_pad 3 u), [48 + k / 100; 48 + k / 10 mod 10]. cbn [ic_code ic_user ic_keypad].
  split. { unfold ic_data. cbn [ic_code ic_user ic_keypad]. rewrite (pad2_three k) by lia. rewrite flat_map_concat_map. reflexivity. }
  split; [apply hexes; exact U|]. split; [rewrite map_length; exact L|].
  split; [apply canon_field; [discriminate | exact W | apply pad_canon; [discriminate | cbn; lia]]|].
  split; [apply canon_field; [discriminate | lia | apply two_of_three; lia]|]. unfold keypad_ok. lia.
Qed.
Lemma ic_read m b : length (ic_code m) = 6%nat -> u8s (ic_code m) -> ic_user m <= 255 -> ic_keypad m <= 255 -> to_ascii (MSendCode m) = Ok b ->
  (exists e, parse (PAscii b) = Err e) \/ (exists x, parse (PAscii b) = Ok (Some x) /\ (wf_message (MSendCode m) \/ mistaken (MSendCode m) x)).
Proof.
  intros L U W K T. cbn [to_ascii] in T. apply written in T as [-> _].
  pose proof (pad_canon 3 (ic_user m) ltac:(discriminate) ltac:(cbn; lia)) as C. pose proof C as (L3 & _ & _).
  apply (reads (SendCode_from_ascii_data (ic_data m)) MSendCode _ (fun x => wf_message (MSendCode m) \/ mistaken (MSendCode m) x)).
  - apply (parse_ascii_cons 73 67). unfold ic_data. rewrite !app_length, L3. cbn [length]. lia.
  - intros x H. pose proof H as H'. apply IC_from_iff in H as (tail & (code & u & k & E & F & LC & DU & DK & KO) & _). apply app_inv_head in E. unfold ic_data in E.
    assert (LF : length (ic_code x) = 6%nat) by (etransitivity; [exact (Forall2_len _ _ _ F) | exact LC]).
    pose proof (concat_hex _ _ F) as LX. pose proof (concat_hex _ _ (hexes _ U)) as LY. rewrite flat_map_concat_map in E.
    apply app_inj_len in E as [_ E]; [|transitivity (2 * length (ic_code m))%nat; [exact LY | transitivity (2 * length (ic_code x))%nat; [lia | symmetry; exact LX]]].
    pose proof (dec_field_lt _ _ _ DU) as (_ & _ & Lu). pose proof (dec_field_lt _ _ _ DK) as (_ & _ & Lk).
    apply app_inj_len in E as [_ E]; [|congruence].
    destruct (N.lt_ge_cases (ic_keypad m) 100) as [Q|Q].
    + left. pose proof (pad_canon 2 (ic_keypad m) ltac:(discriminate) ltac:(cbn; lia)) as C2. pose proof C2 as (L2 & _ & _).
      apply app_inj_len in E as [<- _]; [|congruence].
      rewrite (dec_field_inj _ _ _ _ _ DK (canon_field 2 _ _ ltac:(discriminate) K C2)) in KO. cbn [wf_message]. auto.
    + right. rewrite (pad2_three (ic_keypad m)) in E by lia. destruct k as [|k0 [|k1 [|]]]; try discriminate Lk. cbn [app] in E. injection E as <- <- _.
      pose proof (dec_field_inj _ _ _ _ _ DK (canon_field 2 (ic_keypad m / 10) _ ltac:(discriminate) ltac:(lia) (two_of_three (ic_keypad m) ltac:(lia)))) as EK.
      rewrite EK in KO. unfold keypad_ok in KO. cbn [mistaken]. split; [exact Q|].
      pose proof (ic_always (ic_code m) (ic_user m) (ic_keypad m) L U W ltac:(lia)) as R. destruct m as [c0 u0 k0]. cbn [ic_code ic_user ic_keypad] in *. congruence.
Qed.

(* areas of a timer *)
Lemma area_digits n : 10 <= n <= 255 -> fmt_dec n = map (N.add 48) (all_digits n).
Proof. intros H. unfold all_digits. destruct (n <? 100) eqn:E; [apply two_digits | apply three_digits]; lia. Qed.
Lemma pad3 n : n <= 255 -> fmt_pad 3 n = map (N.add 48) (three n).
Proof.
  intros H. apply beq_eq.
  assert (X : forallb (fun n => beq (fmt_pad 3 n) (map (N.add 48) (three n))) (map N.of_nat (seq 0 256)) = true) by (vm_compute; reflexivity).
  rewrite forallb_forall in X. apply X. apply in_map_iff. exists (N.to_nat n). split; [lia|]. apply in_seq. lia.
Qed.
Lemma digits_small n : n <= 255 -> Forall (fun d => d <= 9) (all_digits n) /\ Forall (fun d => d <= 9) (three n).
Proof.
  intros H. unfold all_digits, three. split; [destruct (n <? 100) eqn:E|]; repeat (apply Forall_cons; [lia|]); apply Forall_nil.
Qed.
Lemma value_of v a b c : dec_field 3 v (map (N.add 48) [a; b; c]) -> a <= 9 -> b <= 9 -> c <= 9 -> v = value3 a b c.
Proof.
  intros (_ & _ & ds & [E | E] & _ & _ & V) A Hb C.
  - subst ds. subst v. unfold dec_value, value3. cbn [map fold_left]. change (ch "0") with 48. lia.
  - apply (f_equal (hd 0)) in E. cbn [map hd] in E. change (ch "+") with 43 in E. lia.
Qed.
Lemma ee_read m b : ee_area m <= 255 -> ee_timer1 m <= 255 -> ee_timer2 m <= 255 -> to_ascii (MSendTimeData m) = Ok b ->
  (exists e, parse (PAscii b) = Err e) \/ (exists x, parse (PAscii b) = Ok (Some x) /\ (wf_message (MSendTimeData m) \/ mistaken (MSendTimeData m) x)).
Proof.
  intros A T1 T2 T. cbn [to_ascii] in T. apply written in T as [-> _].
  match goal with |- context [B "EE" ++ ?d] => set (data := d) end.
  apply (reads (SendTimeData_from_ascii_data data) MSendTimeData _ (fun x => wf_message (MSendTimeData m) \/ mistaken (MSendTimeData m) x)).
  - apply (parse_ascii_cons 69 69). unfold data. rewrite !app_length. cbn [length]. lia.
  - intros x H. apply EE_from_iff in H as (tail & s & (a & ty & t1 & t2 & E & AO & -> & HT & D1 & D2 & AS) & HTL). apply app_inv_head in E. unfold data in E.
    unfold area_ok in AO. change (ch "0") with 48 in E.
    destruct (N.lt_ge_cases (ee_area m) 10) as [Q|Q].
    + left. destruct (fmt_dec_1 _ Q) as (L1 & _ & V). destruct (fmt_dec (ee_area m)) as [|d [|]]; try discriminate L1. assert (E0 : d = 48 + ee_area x) by exact (f_equal (hd 0) E).
      unfold dec_value in V. cbn [fold_left] in V. change (ch "0") with 48 in V. cbn [wf_message]. split; [unfold area_ok; lia | auto].
    + right. cbn [mistaken]. split; [exact Q|]. rewrite area_digits, !pad3 in E by lia.
      assert (TY : [TimeDataType_u8 (ee_ty m)] = map (N.add 48) [type_digit (ee_ty m)]) by (destruct (ee_ty m); reflexivity). rewrite TY in E.
      pose proof (digits_small _ A) as [SA _]. pose proof (digits_small _ T1) as [_ S1]. pose proof (digits_small _ T2) as [_ S2].
      assert (ST : Forall (fun d => d <= 9) [type_digit (ee_ty m)]) by (destruct (ee_ty m); (apply Forall_cons; [cbn; lia | apply Forall_nil])).
      pose proof (dec_field_lt _ _ _ D1) as (_ & _ & L1). pose proof (dec_field_lt _ _ _ D2) as (_ & _ & L2).
      set (row := all_digits (ee_area m) ++ [type_digit (ee_ty m)] ++ three (ee_timer1 m) ++ three (ee_timer2 m)).
      assert (SR : Forall (fun d => d <= 9) row) by (unfold row; rewrite !Forall_app; auto).
      assert (ER : exists behind, map (N.add 48) row ++ behind = [48 + ee_area x; ty] ++ t1 ++ t2 ++ s ++ tail /\ (2 <= length behind)%nat).
      { eexists. split; [etransitivity; [|exact E]; unfold row; rewrite !map_app, <- !app_assoc; reflexivity|]. destruct (ee_armed_state m); cbn; lia. }
      assert (LR : (9 <= length row)%nat) by (unfold row, all_digits; rewrite !app_length; destruct (ee_area m <? 100); cbn; lia).
      destruct ER as (behind & ER & LB). clear E TY SA S1 S2 ST. subst row.
      match goal with |- moved _ _ => unfold moved end. set (row := all_digits (ee_area m) ++ [type_digit (ee_ty m)] ++ three (ee_timer1 m) ++ three (ee_timer2 m)) in *. clearbody row.
      destruct t1 as [|c2 [|c3 [|c4 [|]]]]; try discriminate L1. destruct t2 as [|c5 [|c6 [|c7 [|]]]]; try discriminate L2.
      destruct row as [|d0 [|d1 [|d2 [|d3 [|d4 [|d5 [|d6 [|d7 [|d8 rest]]]]]]]]]; cbn [length] in LR; try lia.
      assert (EL := f_equal (@length N) ER). rewrite !app_length, map_length in EL. cbn [length] in EL.
      assert (exists v c, ee_armed_state x = Some v /\ s = [c] /\ armed_state_code v c) as (v & c & EV & -> & HC).
      { destruct (ee_armed_state x) as [v|]; [destruct AS as (c & -> & HC); eauto|]. subst s. cbn [length] in EL. lia. }
      repeat match goal with H : Forall _ (_ :: _) |- _ => let H1 := fresh "F" in apply Forall_cons_iff in H as [H1 H] end.
      assert (X : forall i, nth i (map (N.add 48) (d0 :: d1 :: d2 :: d3 :: d4 :: d5 :: d6 :: d7 :: d8 :: rest) ++ behind) 0 = nth i ([48 + ee_area x; ty] ++ [c2; c3; c4] ++ [c5; c6; c7] ++ [c] ++ tail) 0) by (intros i; rewrite ER; reflexivity).
      pose proof (X 0%nat) as X0. pose proof (X 1%nat) as X1. pose proof (X 2%nat) as X2. pose proof (X 3%nat) as X3. pose proof (X 4%nat) as X4. pose proof (X 5%nat) as X5.
      pose proof (X 6%nat) as X6. pose proof (X 7%nat) as X7. pose proof (X 8%nat) as X8. clear X ER. cbn [map app nth] in *.
      subst c2 c3 c4 c5 c6 c7 c ty.
      exists d0, d1, d2, d3, d4, d5, d6, d7, d8, rest, v. split; [reflexivity|].
      destruct HC as (i & HI & HC). change (ch "0") with 48 in HC. split; [replace (N.to_nat d8) with i by lia; exact HI|].
      split. { destruct HT as (k & HK & HT). change (ch "0") with 48 in HT. destruct k as [|[|[|]]]; cbn [nth_error] in HK; try discriminate HK; injection HK as <-; cbn; lia. }
      destruct x as [xa xt x1 x2 xs]. cbn [ee_area ee_ty ee_timer1 ee_timer2 ee_armed_state] in *.
      f_equal; [lia | apply value_of; assumption | apply value_of; assumption | exact EV].
Qed.

(* dates *)
Definition shift (r : RtcData) : RtcData :=
  mkRtcData (mkDateTime 10 (month (datetime r)) (day (datetime r)) (hour (datetime r)) (minute (datetime r)) (second (datetime r))) (weekday r) false
    (if dst r then CD_TwelveHour else CD_TwentyFourHour) (match clock_display r with CD_TwelveHour => DD_DayFirst | CD_TwentyFourHour => DD_MonthFirst end).
Lemma rtc_always r : year (datetime r) = 100 -> datetime_ok (datetime (shift r)) -> RtcData_from_ascii (RtcData_to_ascii r) = Ok (shift r).
Proof.
  intros Y W. pose proof W as (D1 & D2 & D3 & D4 & D5 & D6). cbn [shift datetime year month day hour minute second] in *. apply RTC_from_iff. unfold RtcData_to_ascii. rewrite Y.
  exists [DateDisplayMode_u8 (date_display r)].
  exists (fmt_pad 2 (second (datetime r))), (fmt_pad 2 (minute (datetime r))), (fmt_pad 2 (hour (datetime r))),
    (Weekday_u8 (weekday r)), (fmt_pad 2 (day (datetime r))), (fmt_pad 2 (month (datetime r))), (B "10"),
    48, (if dst r then 49 else 48), (ClockDisplayMode_u8 (clock_display r)).
  split. { change (fmt_pad 2 100) with (B "10" ++ [48]). rewrite <- !app_assoc. do 7 f_equal. destruct (dst r); reflexivity. }
  cbn [shift datetime year month day hour minute second weekday dst clock_display date_display].
  assert (P : forall n, n < 100 -> dec_field 2 n (fmt_pad 2 n)). { intros n Hn. apply canon_field; [discriminate | lia | apply pad_canon; [discriminate | exact Hn]]. }
  repeat (split; [apply P; lia|]). split; [apply Weekday_u8_spec|]. repeat (split; [apply P; lia|]).
  split; [exists 0%nat; split; reflexivity|].
  split; [destruct (dst r); [exists 1%nat | exists 0%nat]; split; reflexivity|].
  split; [destruct (clock_display r); [exists 0%nat | exists 1%nat]; split; reflexivity | exact W].
Qed.
Lemma iso_dates d s : from_iso_8601 s = Ok d -> year d <= 100 /\ (1 <= month d <= 12 /\ 1 <= day d <= 31 /\ hour d < 24 /\ minute d < 60 /\ second d < 60).
Proof. intros H. apply C26_iso_accepts_exact in H as (Y & y & mo & dd & h & mi & se & _ & _ & H1 & H2 & _ & H3 & _ & H4 & _ & H5 & _ & H6 & _ & H7). lia. Qed.
Lemma rtc_len r : (2 <= length (RtcData_to_ascii r))%nat.
Proof. unfold RtcData_to_ascii. rewrite !app_length. cbn [length]. lia. Qed.
Lemma rtc_parse r : parse_ascii (B "RR" ++ RtcData_to_ascii r) = (x <- RtcData_from_ascii (RtcData_to_ascii r) ;; Ok (Some (MRtcResponse x))) /\
  parse_ascii (B "XK" ++ RtcData_to_ascii r) = (x <- RtcData_from_ascii (RtcData_to_ascii r) ;; Ok (Some (MHeartbeat x))).
Proof. split; [apply (parse_ascii_cons 82 82) | apply (parse_ascii_cons 88 75)]; apply rtc_len. Qed.
Lemma shift_shifted r : year (datetime r) = 100 -> shifted r (shift r).
Proof. intros Y. unfold shifted, same_but_year. cbn. repeat split. exact Y. Qed.

(* What arrives when a message that was read from JSON is sent. *)
Lemma what_arrives m b : loose_message m -> to_ascii m = Ok b ->
  (exists e, parse (PAscii b) = Err e) \/ (exists x, parse (PAscii b) = Ok (Some x) /\ (wf_message m \/ mistaken m x)).
Proof.
  intros L T.
  assert (WF : wf_message m -> (exists e, parse (PAscii b) = Err e) \/ (exists x, parse (PAscii b) = Ok (Some x) /\ (wf_message m \/ mistaken m x))).
  { intros W. right. destruct (C12_packet_roundtrip m W) as (p & E & _ & R). unfold to_pkt in E. rewrite T in E. injection E as <-. eauto. }
  assert (DT : forall r, (exists s, from_iso_8601 s = Ok (datetime r)) -> datetime_ok (datetime r) \/ year (datetime r) = 100 /\ RtcData_from_ascii (RtcData_to_ascii r) = Ok (shift r)).
  { intros r (s & E). destruct (iso_dates _ _ E) as (Y & D). destruct (N.eq_dec (year (datetime r)) 100) as [Q|Q].
    - right. split; [exact Q|]. apply rtc_always; [exact Q|]. unfold datetime_ok. cbn. split; [lia | exact D].
    - left. split; [lia | exact D]. }
  destruct m; cbn [loose_message] in L.
  - destruct (arm_read m b ltac:(apply L) ltac:(apply L) T) as [?|(x & ? & ?)]; eauto.
  - apply WF. exact I.
  - apply WF. exact L.
  - destruct L as (L1 & L2 & L3). apply ee_read; assumption.
  - destruct L as (L1 & L2 & L3 & L4). apply ic_read; assumption.
  - apply WF. exact I.
  - destruct (DT _ L) as [D|(Y & R)]; [apply WF; exact D|]. right. cbn [to_ascii] in T. apply written in T as [-> _].
    exists (MRtcResponse (shift rtc_data)). cbn [parse]. rewrite (proj1 (rtc_parse _)), R. split; [reflexivity|]. right. apply shift_shifted. exact Y.
  - apply WF. exact L.
  - apply WF. destruct L as (L1 & L2 & L3). cbn [to_ascii] in T. unfold SdResp_to_ascii in T. apply bind_inv in T as (t & E & T). apply written in T as [-> [P _]].
    unfold as_padded_str in E. destruct (utf8_valid (sd_text m)); [|discriminate E]. injection E as <-. cbn [wf_message]. split; [exact L1|]. split; [exact L2|].
    rewrite !Forall_app in P. apply P.
  - cbn [to_ascii] in T. apply written in T as [-> _].
    destruct (tn_read MActivateTask (B "tn") 116 110 (B "00") task _ eq_refl L eq_refl (parse_ascii_cons 116 110)) as [?|(x & ? & ?)]; eauto.
  - cbn [to_ascii] in T. apply written in T as [-> _].
    destruct (tn_read MTaskChange (B "TC") 84 67 (B "000") task _ eq_refl L eq_refl (parse_ascii_cons 84 67)) as [?|(x & ? & ?)]; eauto.
  - destruct (DT _ L) as [D|(Y & R)]; [apply WF; exact D|]. right. cbn [to_ascii] in T. apply written in T as [-> _].
    exists (MHeartbeat (shift rtc_data)). cbn [parse]. rewrite (proj2 (rtc_parse _)), R. split; [reflexivity|]. right. apply shift_shifted. exact Y.
  - apply zc_read; [apply L | apply L | exact T].
  - apply WF. exact I.
  - contradiction.
Qed.

(* ---- C141 ---- *)
Theorem C141_what_arrives_partial : forall src v m p, Message_de src v = Ok m -> to_pkt m = Ok p ->
  (wf_message m /\ parse p = Ok (Some m)) \/
  (~ wf_message m /\ exists e, parse p = Err e) \/
  (~ wf_message m /\ exists m', parse p = Ok (Some m') /\ wf_message m' /\ m' <> m /\ mistaken m m').
Proof.
  intros src v m p D T. apply Message_de_loose in D. unfold to_pkt in T. apply bind_inv in T as (b & T & E). injection E as <-.
  assert (W : wf_message m -> parse (PAscii b) = Ok (Some m)).
  { intros W. destruct (C12_packet_roundtrip m W) as (p & E & _ & R). unfold to_pkt in E. rewrite T in E. injection E as <-. exact R. }
  assert (AB : ascii_body b).
  { destruct m; cbn [to_ascii] in T; try (apply written in T as [-> T]; exact T).
    - unfold ArmRequest_to_ascii in T. apply bind_inv in T as (a & _ & T). apply written in T as [-> T]; exact T.
    - unfold SdResp_to_ascii in T. apply bind_inv in T as (a & _ & T). apply written in T as [-> T]; exact T. }
  destruct (what_arrives m b D T) as [(e & E)|(x & E & [O|O])].
  - right; left. split; [|eauto]. intros Q. rewrite (W Q) in E. discriminate.
  - left. auto.
  - right; right. pose proof (C15_parsed_well_formed b x AB E) as WX.
    assert (NE : x <> m).
    { intros ->. destruct m; cbn [mistaken] in O; try contradiction; cbn [wf_message] in WX; unfold area_ok, keypad_ok in WX;
        try (destruct O as (Y & Y' & _); congruence); destruct O as (O & _); lia. }
    split; [intros Q; rewrite (W Q) in E; injection E as <-; apply NE; reflexivity|]. exists x. auto.
Qed.
Theorem C141_always_mistaken_partial :
  (forall z s p, zone_ok z -> 16 <= s <= 255 -> to_pkt (MZoneChange (mkZC z s)) = Ok p -> parse p = Ok (Some (MZoneChange (mkZC z (s / 16))))) /\
  (forall c u k p, length c = 6%nat -> u8s c -> u <= 255 -> 100 <= k <= 169 -> to_pkt (MSendCode (mkIC c u k)) = Ok p -> parse p = Ok (Some (MSendCode (mkIC c u (k / 10))))) /\
  (forall src v r p, Message_de src v = Ok (MHeartbeat r) -> year (datetime r) = 100 -> to_pkt (MHeartbeat r) = Ok p -> exists r', parse p = Ok (Some (MHeartbeat r')) /\ shifted r r').
Proof.
  split; [|split].
  - intros z s p Z S T. unfold to_pkt in T. apply bind_inv in T as (b & T & E). injection E as <-. apply zc_always; assumption.
  - intros c u k p L U W K T. unfold to_pkt in T. apply bind_inv in T as (b & T & E). injection E as <-. cbn [to_ascii] in T. apply written in T as [-> _].
    cbn [parse]. pose proof (ic_always c u k L U W K) as R. unfold ic_data in R. cbn [ic_code ic_user ic_keypad] in *.
    transitivity (x <- SendCode_from_ascii_data (flat_map hex_byte c ++ fmt_pad 3 u ++ fmt_pad 2 k ++ B "00") ;; Ok (Some (MSendCode x))); [|rewrite R; reflexivity].
    apply (parse_ascii_cons 73 67). rewrite !app_length. cbn [length]. lia.
  - intros src v r p D Y T. apply Message_de_loose in D. cbn [loose_message] in D. destruct D as (s & D). destruct (iso_dates _ _ D) as (_ & O).
    unfold to_pkt in T. apply bind_inv in T as (b & T & E). injection E as <-. cbn [to_ascii] in T. apply written in T as [-> _].
    exists (shift r). split; [|apply shift_shifted; exact Y]. cbn [parse]. rewrite (proj2 (rtc_parse r)), rtc_always; [reflexivity | exact Y|].
    unfold datetime_ok. cbn. split; [lia | exact O].
Qed.
(* what arms and disarms, or activates a task, is never mistaken for something else *)
Theorem C141_orders_never_mistaken_partial : forall src v m p m', Message_de src v = Ok m -> to_pkt m = Ok p -> parse p = Ok (Some m') ->
  (match m with MArmRequest _ | MActivateTask _ => True | _ => False end \/ match m' with MArmRequest _ | MActivateTask _ => True | _ => False end) -> m' = m.
Proof.
  intros src v m p m' D T P K. destruct (C141_what_arrives_partial src v m p D T) as [(_ & E)|[(_ & e & E)|(_ & x & E & _ & _ & M)]].
  - rewrite E in P. injection P as <-. reflexivity.
  - rewrite E in P. discriminate P.
  - rewrite E in P. injection P as ->. exfalso. destruct m, m'; cbn [mistaken] in M; try contradiction; tauto.
Qed.
(* the same when built for release, where the area of an order may wrap around *)
Theorem C141_release_partial : forall src v m p, Message_de src v = Ok m -> to_pkt_r m = Ok p ->
  (wf_message m /\ parse_r p = Ok (Some m)) \/
  (~ wf_message m /\ exists e, parse_r p = Err e) \/
  (~ wf_message m /\ exists m', parse_r p = Ok (Some m') /\ wf_message m' /\ m' <> m /\ mistaken m m').
Proof.
  intros src v m p D T. rewrite C118_parse.
  assert (X : (exists r, m = MArmRequest r) \/ to_pkt_r m = to_pkt m) by (destruct m; [left; eauto | right; reflexivity..]).
  destruct X as [(r & ->)|X]; [|rewrite X in T; eapply C141_what_arrives_partial; eassumption].
  pose proof (Message_de_loose _ _ _ D) as (L1 & L2 & L3).
  unfold to_pkt_r in T. apply bind_inv in T as (b & T & E). injection E as <-. cbn [to_ascii_r] in T. apply written in T as [-> W].
  destruct (arm_bytes r _ L1 L2 eq_refl) as [(e & E)|(x & E & O)].
  - right; left. split; [|eauto]. intros Q. destruct (C12_packet_roundtrip _ Q) as (p & T & _ & R). rewrite <- (C118_to_pkt _ Q) in T. unfold to_pkt_r in T. cbn [to_ascii_r] in T.
    unfold ArmRequest_to_ascii_r in T. rewrite (expect_ascii _ _ W) in T. cbn [bind] in T. injection T as <-. pose proof (eq_trans (eq_sym E) R) as H. discriminate H.
  - left. split; [exact O|]. destruct (C12_packet_roundtrip _ O) as (p & T & _ & R). rewrite <- (C118_to_pkt _ O) in T. unfold to_pkt_r in T. cbn [to_ascii_r] in T.
    unfold ArmRequest_to_ascii_r in T. rewrite (expect_ascii _ _ W) in T. cbn [bind] in T. injection T as <-. exact R.
Qed.
Definition ex_time (a : N) : message := MSendTimeData (mkEE a TD_Exit 60 120 None).
Definition ex_2100 : RtcData := mkRtcData (mkDateTime 100 12 25 10 59 0) WD_Sun true CD_TwelveHour DD_MonthFirst.
Definition ex_json (kind : string) : value :=
  tagged (bytes_of_string kind) (VObj (combine Rtc_fields [VObj (combine RtcData_fields
    [ser_str (B "2100-12-25T10:59:00"); Weekday_ser WD_Sun; VBool true; ClockDisplayMode_ser CD_TwelveHour; DateDisplayMode_ser DD_MonthFirst])])).
(* the claim without restriction is false: each of five kinds, read from JSON, arrives as something else *)
Theorem C141_arrives_unchanged_refuted :
  forall m, In m [MZoneChange (mkZC 7 146); MSendCode (mkIC [1; 2; 3; 4; 0; 0] 3 127); ex_time 10; MRtcResponse ex_2100; MHeartbeat ex_2100] ->
  exists v p m', Message_de FromText v = Ok m /\ to_pkt m = Ok p /\ parse p = Ok (Some m') /\ m' <> m.
Proof.
  intros m I. cbn [In] in I. destruct I as [<-|[<-|[<-|[<-|[<-|[]]]]]].
  4: exists (ex_json "rtcResponse"). 5: exists (ex_json "heartbeat").
  1-3: match goal with |- exists v p m', Message_de _ v = Ok ?m /\ _ =>
    let v := eval vm_compute in (Message_ser m) in match v with Ok ?v => exists v end end.
  all: eexists _, _; split; [vm_compute; reflexivity|]; split; [vm_compute; reflexivity|]; split; [vm_compute; reflexivity | discriminate].
Qed.
(* a zone that does not exist is refused; an order to disarm an area that does not exist too *)
Example C141_example :
  (exists v p, Message_de FromText v = Ok (MArmRequest (mkArmRequest 9 AL_Disarm (B "001234"))) /\ to_pkt (MArmRequest (mkArmRequest 9 AL_Disarm (B "001234"))) = Ok p /\ exists e, parse p = Err e) /\
  (exists p, to_pkt (MZoneChange (mkZC 7 146)) = Ok p /\ p = PAscii (B "ZC0079200") /\ parse p = Ok (Some (MZoneChange (mkZC 7 9)))) /\
  (exists p, to_pkt (ex_time 10) = Ok p /\ p = PAscii (B "EE100060120" ++ B "00") /\ parse p = Ok (Some (MSendTimeData (mkEE 1 TD_Exit 6 12 (Some ARS_Disarmed))))) /\
  (exists v p, Message_de FromText v = Ok (MArmRequest (mkArmRequest 250 AL_Disarm (B "001234"))) /\ to_pkt_r (MArmRequest (mkArmRequest 250 AL_Disarm (B "001234"))) = Ok p /\ p = PAscii (B "a0*00123400") /\ exists e, parse_r p = Err e).
Proof.
  split; [|split; [|split]].
  - let v := eval vm_compute in (Message_ser (MArmRequest (mkArmRequest 9 AL_Disarm (B "001234")))) in match v with Ok ?v => exists v end.
    eexists. split; [vm_compute; reflexivity|]. split; [vm_compute; reflexivity|]. eexists. vm_compute. reflexivity.
  - eexists. split; [vm_compute; reflexivity|]. split; vm_compute; reflexivity.
  - eexists. split; [vm_compute; reflexivity|]. split; vm_compute; reflexivity.
  - let v := eval vm_compute in (Message_ser (MArmRequest (mkArmRequest 250 AL_Disarm (B "001234")))) in match v with Ok ?v => exists v end.
    eexists. split; [vm_compute; reflexivity|]. split; [vm_compute; reflexivity|]. split; [vm_compute; reflexivity|]. eexists. vm_compute. reflexivity.
Qed.

Print Assumptions C141_what_arrives_partial.
Print Assumptions C141_always_mistaken_partial.
Print Assumptions C141_release_partial.
Print Assumptions C141_orders_never_mistaken_partial.
Print Assumptions C141_arrives_unchanged_refuted.
