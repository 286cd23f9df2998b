(* MsgFacts.v: message layouts: what each from_ascii accepts and what each to_ascii writes. *)
From Verif Require Import Base BaseFacts Pkt SpecPkt PktFacts Msg SpecMsg DecFacts.
From Coq Require Import ZifyBool ZifyNat ZifyN.
Ltac Zify.zify_post_hook ::= Z.div_mod_to_equations.

Tactic Notation "peel" int_or_var(k) ident(data) ident(H) := do k (destruct data as [|? data]; [cbn [length] in H; lia|]).
Ltac simp_in H := cbv [slice index] in H; cbn [length Nat.leb firstn skipn andb Nat.sub nth_error] in H.
Ltac simp := cbv [slice index]; cbn [length Nat.leb firstn skipn andb Nat.sub nth_error].
Ltac inv_binds := repeat
  match goal with
  | H : bind (Ok _) _ = Ok _ |- _ => cbn [bind] in H
  | H : bind _ _ = Ok _ |- _ => let v := fresh "v" in let E := fresh "E" in apply bind_inv in H as (v & E & H)
  | H : (if ?c then Err _ else _) = Ok _ |- _ => let E := fresh "C" in destruct c eqn:E; [discriminate H|]
  | H : (if ?c then Panic _ else _) = Ok _ |- _ => let E := fresh "C" in destruct c eqn:E; [discriminate H|]
  | H : (if ?c then Ok _ else Err _) = Ok _ |- _ => let E := fresh "C" in destruct c eqn:E; [|discriminate H]
  | H : Ok _ = Ok _ |- _ => injection H; clear H; intros; subst
  end.
Ltac split_all := repeat match goal with |- _ /\ _ => split end.
(* a list of known length as an explicit list *)
Ltac expl s H := repeat (destruct s as [|? s]; cbn [length] in H; try discriminate H); try clear H.

Ltac fields := repeat match goal with
  | H : parse_u8_dec _ ?s = Ok ?n |- _ => apply parse_u8_dec_spec in H; cbn [length] in H
  | H : limited_try_from _ _ = Ok _ |- _ => apply limited_spec in H as [H ->]
  | H : Area_try_from _ = Ok _ |- _ => apply limited_spec in H as [H ->]
  | H : Zone_try_from _ = Ok _ |- _ => apply limited_spec in H as [H ->]
  | H : Task_try_from _ = Ok _ |- _ => apply limited_spec in H as [H ->]
  | H : Keypad_try_from _ = Ok _ |- _ => apply limited_spec in H as [H ->]
  | H : ArmCode_try_from_slice _ = Ok _ |- _ => apply ArmCode_slice_spec in H as [H ->]
  | H : TextDescriptionType_try_from _ = Ok _ |- _ => apply TextDescriptionType_spec in H
  | H : ArmLevel_try_from _ = Ok _ |- _ => apply ArmLevel_spec in H
  | H : ArmingStatus_try_from _ = Ok _ |- _ => apply ArmingStatus_spec in H
  | H : ArmUpState_try_from _ = Ok _ |- _ => apply ArmUpState_spec in H
  | H : AlarmState_try_from _ = Ok _ |- _ => apply AlarmState_spec in H
  | H : ArmedState_try_from _ = Ok _ |- _ => apply ArmedState_spec in H
  | H : Weekday_try_from _ = Ok _ |- _ => apply Weekday_spec in H
  | H : TimeDataType_try_from _ = Ok _ |- _ => apply TimeDataType_spec in H
  | H : ClockDisplayMode_try_from _ = Ok _ |- _ => apply ClockDisplayMode_spec in H
  | H : DateDisplayMode_try_from _ = Ok _ |- _ => apply DateDisplayMode_spec in H
  | H : (if _ =? 48 then Ok false else _) = Ok _ |- _ => apply dst_spec in H
  end.

Lemma parse_dec_ok w n s : dec_field w n s -> forall name, parse_u8_dec name s = Ok n.
Proof. intros H name. apply parse_u8_dec_spec. destruct H as (H1 & H2). split; [reflexivity | exact H2]. Qed.
Ltac unfields := repeat first
  [ match goal with
    | H : dec_field _ _ ?s |- context [parse_u8_dec _ ?s] => rewrite (parse_dec_ok _ _ _ H); cbn [bind]
    | H : arm_level_code _ ?c |- context [ArmLevel_try_from ?c] => rewrite (proj2 (ArmLevel_spec _ _) H); cbn [bind expect]
    | H : arming_status_code _ ?c |- context [ArmingStatus_try_from ?c] => rewrite (proj2 (ArmingStatus_spec _ _) H); cbn [bind]
    | H : arm_up_code _ ?c |- context [ArmUpState_try_from ?c] => rewrite (proj2 (ArmUpState_spec _ _) H); cbn [bind]
    | H : alarm_code _ ?c |- context [AlarmState_try_from ?c] => rewrite (proj2 (AlarmState_spec _ _) H); cbn [bind]
    | H : armed_state_code _ ?c |- context [ArmedState_try_from ?c] => rewrite (proj2 (ArmedState_spec _ _) H); cbn [bind]
    | H : weekday_code _ ?c |- context [Weekday_try_from ?c] => rewrite (proj2 (Weekday_spec _ _) H); cbn [bind]
    | H : time_type_code _ ?c |- context [TimeDataType_try_from ?c] => rewrite (proj2 (TimeDataType_spec _ _) H); cbn [bind]
    | H : clock_code _ ?c |- context [ClockDisplayMode_try_from ?c] => rewrite (proj2 (ClockDisplayMode_spec _ _) H); cbn [bind]
    | H : date_code _ ?c |- context [DateDisplayMode_try_from ?c] => rewrite (proj2 (DateDisplayMode_spec _ _) H); cbn [bind]
    | H : bool_code _ ?c |- context [if ?c =? 48 then _ else _] => rewrite (proj2 (dst_spec _ _) H); cbn [bind]
    | H : text_type_number _ ?c |- context [TextDescriptionType_try_from ?c] => rewrite (proj2 (TextDescriptionType_spec _ _) H); cbn [bind]
    | H : _ <= ?n <= _ |- context [limited_try_from ?m ?n] => rewrite (proj2 (limited_spec m n n) (conj H eq_refl)); cbn [bind]
    | H : arm_code_ok ?c |- context [ArmCode_try_from_slice ?c] => rewrite (proj2 (ArmCode_slice_spec c c) (conj H eq_refl)); cbn [bind]
    | H : hex2 ?n [?a; ?b] |- context [dehex_byte ?a ?b] => rewrite (proj2 (dehex_byte_spec a b n) H); cbn [bind]
    | H : hex_digit (N.to_nat ?n) ?a |- context [dehex_nibble ?a] => rewrite (proj2 (dehex_nibble_spec a n) H); cbn [bind]
    end ].

(* ---- arm request ---- *)
Lemma Arm_from_iff l data m : (exists v, arm_level_code v l) ->
  ArmRequest_from_ascii l data = Ok m <->
  exists tail, arm_layout dec_field m tail ([ch "a"; l] ++ data) /\ (2 <= length tail)%nat.
Proof.
  intros (lv & HL). unfold ArmRequest_from_ascii. rewrite (proj2 (ArmLevel_spec _ _) HL). cbn [expect bind].
  split.
  - intros H. destruct (length data <? 9)%nat eqn:L; [discriminate|]. apply Nat.ltb_ge in L.
    peel 9 data L. simp_in H. inv_binds. fields. subst.
    exists (n6 :: n7 :: data). split; [|cbn; lia].
    exists l, [n]. cbn [ar_area ar_level ar_code]. split_all; auto; try lia.
  - intros (tail & (l' & a & E & H1 & H2 & H3 & H4) & HT).
    injection E as <- ->.
    pose proof (dec_field_lt _ _ _ H2) as (_ & _ & La). expl a La.
    pose proof H4 as [Lc _]. destruct m as [ar lvl code]; cbn [ar_area ar_level ar_code] in *. expl code Lc.
    destruct tail as [|t0 [|t1 tail]]; cbn in HT; try lia.
    simp. cbn [app length Nat.ltb Nat.leb firstn skipn bind]. unfields.
    unfold Area_try_from, area_ok, Area_MAX in *. unfields.
    assert (lv = lvl) by (eapply coded_inj; eassumption). congruence.
Qed.

(* ---- arming status report ---- *)
Lemma AS_from_iff data m :
  ArmingStatusReport_from_ascii_data data = Ok m <-> exists tail, as_layout m tail (B "AS" ++ data).
Proof.
  unfold ArmingStatusReport_from_ascii_data, AS_loop, NUM_AREAS. split.
  - intros H. destruct (length data <? 26)%nat eqn:L; [discriminate|]. apply Nat.ltb_ge in L.
    peel 26 data L. cbn [seq mapM Nat.add Nat.mul] in H. simp_in H. inv_binds. fields.
    match goal with H : match dehex_byte ?a ?b with _ => _ end = Ok _ |- _ =>
      destruct (dehex_byte a b) as [t| |] eqn:T; try discriminate H; injection H as <- end.
    apply dehex_byte_spec in T.
    exists data, [n; n0; n1; n2; n3; n4; n5; n6], [n7; n8; n9; n10; n11; n12; n13; n14],
      [n15; n16; n17; n18; n19; n20; n21; n22], [n23; n24].
    cbn [arming_status up_state alarm_state first_exit_time map fst snd].
    split; [reflexivity|]. split_all; try reflexivity; try exact T; repeat constructor; assumption.
  - intros (tail & s & u & a & t & E & F1 & L1 & F2 & L2 & F3 & L3 & H).
    injection E as ->. pose proof (hex2_lt _ _ H) as [_ Lt].
    expl s L1. expl u L2. expl a L3. expl t Lt.
    destruct m as [sl ul al x]; cbn [arming_status up_state alarm_state first_exit_time] in *.
    repeat match goal with F : Forall2 _ _ (_ :: _) |- _ => inversion F; clear F; subst
                         | F : Forall2 _ _ [] |- _ => inversion F; clear F; subst end.
    cbn [app]. cbn [length Nat.ltb Nat.leb]. cbn [seq mapM Nat.add Nat.mul]. simp. cbn [bind].
    unfields. reflexivity.
Qed.

(* ---- entry/exit time data ---- *)
Lemma EE_from_iff data m :
  SendTimeData_from_ascii_data data = Ok m <->
  exists tail s, ee_layout dec_field m s tail (B "EE" ++ data) /\
    match ee_armed_state m with Some _ => (2 <= length tail)%nat | None => length tail = 2%nat end.
Proof.
  unfold SendTimeData_from_ascii_data. split.
  - intros H. destruct (length data <? 10)%nat eqn:L; [discriminate|]. apply Nat.ltb_ge in L.
    peel 10 data L. simp_in H. inv_binds. fields.
    assert (HA : area_ok (n - 48) /\ n = 48 + (n - 48)) by (unfold area_ok; lia).
    destruct data as [|x data].
    + cbn in E3. injection E3 as <-. exists [n7; n8], []. split; [|reflexivity].
      exists n, n0, [n1; n2; n3], [n4; n5; n6]. cbn [ee_area ee_ty ee_timer1 ee_timer2 ee_armed_state].
      split_all; auto; apply HA.
    + replace (_ <? 11)%nat with false in E3 by (cbn; reflexivity).
      inv_binds. fields. exists (n8 :: x :: data), [n7]. split; [|cbn; lia].
      exists n, n0, [n1; n2; n3], [n4; n5; n6]. cbn [ee_area ee_ty ee_timer1 ee_timer2 ee_armed_state].
      split_all; auto; [apply HA | apply HA | eauto].
  - intros (tail & s & (a & ty & t1 & t2 & E & H1 & H2 & H3 & H4 & H5 & H6) & HT).
    injection E as ->.
    pose proof (dec_field_lt _ _ _ H4) as (_ & _ & L4). pose proof (dec_field_lt _ _ _ H5) as (_ & _ & L5).
    expl t1 L4. expl t2 L5. destruct m as [ar tt x1 x2 st]; cbn [ee_area ee_ty ee_timer1 ee_timer2 ee_armed_state] in *.
    assert (HC : (49 <=? a) && (a <=? 56) = true) by (unfold area_ok in H1; lia).
    assert (HA : a - 48 = ar) by lia.
    destruct st as [st|].
    + destruct H6 as (c & -> & H6). destruct tail as [|y [|z tail]]; cbn in HT; try lia.
      cbn [app]. cbn [length Nat.ltb Nat.leb]. simp. cbn [bind]. rewrite HC. cbn [bind]. unfields.
      rewrite HA. reflexivity.
    + subst s. destruct tail as [|y [|z [|]]]; cbn in HT; try lia.
      cbn [app]. cbn [length Nat.ltb Nat.leb]. simp. cbn [bind]. rewrite HC. cbn [bind]. unfields.
      rewrite HA. reflexivity.
Qed.

(* ---- send code ---- *)
Lemma IC_from_iff data m :
  SendCode_from_ascii_data data = Ok m <->
  exists tail, ic_layout dec_field m tail (B "IC" ++ data) /\ (2 <= length tail)%nat.
Proof.
  unfold SendCode_from_ascii_data. split.
  - intros H. destruct (length data <? 19)%nat eqn:L; [discriminate|]. apply Nat.ltb_ge in L.
    peel 19 data L. cbn [seq mapM Nat.add Nat.mul] in H. simp_in H. inv_binds. fields.
    repeat match goal with H : match dehex_byte ?a ?b with _ => _ end = Ok _ |- _ =>
      let T := fresh "T" in
      destruct (dehex_byte a b) as [| |] eqn:T; try discriminate H; injection H as <-; apply dehex_byte_spec in T end.
    exists (n16 :: n17 :: data). split; [|cbn; lia].
    exists [[n; n0]; [n1; n2]; [n3; n4]; [n5; n6]; [n7; n8]; [n9; n10]], [n11; n12; n13], [n14; n15].
    cbn [ic_code ic_user ic_keypad]. split; [reflexivity|].
    split_all; auto; try (repeat constructor; assumption); unfold Keypad_MAX, keypad_ok in *; lia.
  - intros (tail & (code & u & k & E & F & Lc & H1 & H2 & H3) & HT).
    injection E as ->.
    pose proof (dec_field_lt _ _ _ H1) as (_ & _ & L1). pose proof (dec_field_lt _ _ _ H2) as (_ & _ & L2).
    expl u L1. expl k L2. destruct m as [mc mu mk]; cbn [ic_code ic_user ic_keypad] in *.
    expl code Lc.
    repeat match goal with F : Forall2 _ _ (_ :: _) |- _ => inversion F; clear F; subst
                         | F : Forall2 _ _ [] |- _ => inversion F; clear F; subst end.
    repeat match goal with H : hex2 _ ?l |- _ => is_var l; let L := fresh in
        pose proof (hex2_lt _ _ H) as [_ L]; expl l L end.
    destruct tail as [|y [|z tail]]; cbn in HT; try lia.
    cbn [app concat]. cbn [length Nat.ltb Nat.leb]. cbn [seq mapM Nat.add Nat.mul]. simp. cbn [bind].
    unfold keypad_ok, Keypad_try_from, Keypad_MAX in *. unfields. reflexivity.
Qed.

(* ---- real time clock ---- *)
Lemma RTC_from_iff data m :
  RtcData_from_ascii data = Ok m <-> exists tail, rtc_layout dec_field m tail data.
Proof.
  unfold RtcData_from_ascii. split.
  - intros H. destruct (length data <? 16)%nat eqn:L; [discriminate|]. apply Nat.ltb_ge in L.
    peel 16 data L. simp_in H. inv_binds. fields.
    exists data, [n; n0], [n1; n2], [n3; n4], n5, [n6; n7], [n8; n9], [n10; n11], n12, n13, n14.
    cbn [datetime weekday dst clock_display date_display]. unfold datetime_ok.
    cbn [year month day hour minute second].
    repeat match goal with H : negb _ = false |- _ => apply negb_false_iff in H end. unfold in_range in *.
    split; [reflexivity|].
    split_all; auto; lia.
  - intros (tail & se & mi & h & wd & d & mo & y & ds & cd & dd & -> & H1 & H2 & H3 & H4 & H5 & H6 & H7 & H8 & H9 & H10 & HD).
    pose proof (dec_field_lt _ _ _ H1) as (_ & _ & L1). pose proof (dec_field_lt _ _ _ H2) as (_ & _ & L2).
    pose proof (dec_field_lt _ _ _ H3) as (_ & _ & L3). pose proof (dec_field_lt _ _ _ H5) as (_ & _ & L5).
    pose proof (dec_field_lt _ _ _ H6) as (_ & _ & L6). pose proof (dec_field_lt _ _ _ H7) as (_ & _ & L7).
    expl se L1. expl mi L2. expl h L3. expl d L5. expl mo L6. expl y L7.
    destruct m as [[yy mm dy hh mn ss] w ddst c da].
    cbn [datetime weekday dst clock_display date_display year month day hour minute second] in *.
    unfold datetime_ok in HD. cbn [year month day hour minute second] in HD.
    cbn [app]. cbn [length Nat.ltb Nat.leb]. simp. cbn [bind]. unfold in_range.
    unfields.
    replace (yy <? 100) with true by lia. cbn [negb]. unfields.
    replace ((1 <=? mm) && (mm <=? 12)) with true by lia. cbn [negb]. unfields.
    replace ((1 <=? dy) && (dy <=? 31)) with true by lia. cbn [negb]. unfields.
    replace (24 <=? hh) with false by lia. unfields.
    replace (60 <=? mn) with false by lia. unfields.
    replace (60 <=? ss) with false by lia. unfields. reflexivity.
Qed.

(* ---- string descriptions ---- *)
Lemma sdq_from_iff data m :
  SdReq_from_ascii_data data = Ok m <-> exists tail, sdq_layout dec_field m tail (B "sd" ++ data).
Proof.
  unfold SdReq_from_ascii_data. split.
  - intros H. destruct (length data <? 5)%nat eqn:L; [discriminate|]. apply Nat.ltb_ge in L.
    peel 5 data L. simp_in H. inv_binds. fields.
    exists data, v, [n; n0], [n1; n2; n3]. cbn [sdq_ty sdq_num]. split_all; auto.
  - intros (tail & ty & t & k & E & H1 & H2 & H3). injection E as ->.
    pose proof (dec_field_lt _ _ _ H2) as (_ & _ & L2). pose proof (dec_field_lt _ _ _ H3) as (_ & _ & L3).
    expl t L2. expl k L3. destruct m as [mt mn]; cbn [sdq_ty sdq_num] in *.
    cbn [app]. cbn [length Nat.ltb Nat.leb]. simp. cbn [bind]. unfields. reflexivity.
Qed.
Lemma sd_from_iff data m :
  SdResp_from_ascii_data data = Ok m <-> exists tail, sd_layout dec_field m tail (B "SD" ++ data).
Proof.
  unfold SdResp_from_ascii_data. split.
  - intros H. destruct (length data <? 21)%nat eqn:L; [discriminate|]. apply Nat.ltb_ge in L.
    peel 21 data L. simp_in H. inv_binds. fields.
    exists data, v, [n; n0], [n1; n2; n3]. cbn [sd_ty sd_num sd_text]. split_all; auto.
  - intros (tail & ty & t & k & E & H1 & H2 & H3 & L1). injection E as ->.
    pose proof (dec_field_lt _ _ _ H2) as (_ & _ & L2). pose proof (dec_field_lt _ _ _ H3) as (_ & _ & L3).
    expl t L2. expl k L3. destruct m as [mt mn mx]; cbn [sd_ty sd_num sd_text] in *. expl mx L1.
    cbn [app]. cbn [length Nat.ltb Nat.leb]. simp. cbn [bind]. unfields. reflexivity.
Qed.

(* ---- tasks ---- *)
Lemma tn_from_iff cmd data m :
  ActivateTask_from_ascii_data data = Ok m <-> exists tail, task_layout dec_field cmd m tail (cmd ++ data).
Proof.
  unfold ActivateTask_from_ascii_data. split.
  - intros H. destruct (length data <? 3)%nat eqn:L; [discriminate|]. apply Nat.ltb_ge in L.
    peel 3 data L. simp_in H. inv_binds. fields.
    exists data, [n; n0; n1]. split_all; auto; unfold Task_MAX, task_ok in *; lia.
  - intros (tail & s & E & H1 & H2). apply app_inv_head in E. subst data.
    pose proof (dec_field_lt _ _ _ H1) as (_ & _ & L1). expl s L1.
    cbn [app]. cbn [length Nat.ltb Nat.leb]. simp. cbn [bind]. unfold Task_try_from, Task_MAX, task_ok in *.
    unfields. reflexivity.
Qed.
Lemma TC_from_eq data : TaskChange_from_ascii_data data = ActivateTask_from_ascii_data data.
Proof. reflexivity. Qed.

(* ---- zones ---- *)
Lemma ZoneStatus_from_spec c v : ZoneStatus_from_ascii c = Ok v <-> hex_digit (N.to_nat v) c.
Proof.
  rewrite <- dehex_nibble_spec. unfold ZoneStatus_from_ascii.
  destruct (dehex_nibble c); split; intros H; try discriminate; exact H.
Qed.
Lemma ZoneStatus_from_safe c : safe (ZoneStatus_from_ascii c).
Proof. unfold ZoneStatus_from_ascii. destruct (dehex_nibble_nopanic c) as [-> | [v ->]]; exact I. Qed.

Lemma ZC_from_iff data m :
  ZoneChange_from_ascii_data data = Ok m <-> exists tail, zc_layout dec_field m tail (B "ZC" ++ data).
Proof.
  unfold ZoneChange_from_ascii_data. split.
  - intros H. destruct (length data <? 4)%nat eqn:L; [discriminate|]. apply Nat.ltb_ge in L.
    peel 4 data L. simp_in H. inv_binds. fields. apply ZoneStatus_from_spec in E1.
    exists data, [n; n0; n1], n2. cbn [zc_zone zc_status]. split_all; auto; unfold Zone_MAX, zone_ok in *; lia.
  - intros (tail & s & c & E & H1 & H2 & H3). injection E as ->.
    pose proof (dec_field_lt _ _ _ H1) as (_ & _ & L1). expl s L1.
    destruct m as [z st]; cbn [zc_zone zc_status] in *.
    cbn [app]. cbn [length Nat.ltb Nat.leb]. simp. cbn [bind]. unfold Zone_try_from, Zone_MAX, zone_ok in *.
    unfields. rewrite (proj2 (ZoneStatus_from_spec _ _) H3). reflexivity.
Qed.

Lemma mapM_index {C} (g : N -> res C) n : forall (pre s rest : bytes), length s = n ->
  mapM (fun i => b <- index (pre ++ s ++ rest) i ;; g b) (seq (length pre) n) = mapM g s.
Proof.
  induction n as [|n IH]; intros pre s rest L.
  - destruct s; [reflexivity | discriminate].
  - destruct s as [|c s]; [discriminate|]. cbn [seq mapM]. cbn [app]. rewrite index_app by reflexivity. cbn [bind].
    injection L as L. specialize (IH (pre ++ [c]) s rest L).
    rewrite app_length, Nat.add_1_r, <- app_assoc in IH. cbn [app] in IH. rewrite IH. reflexivity.
Qed.

Lemma ZS_from_iff data z :
  ZoneStatusReport_from_ascii_data data = Ok z <-> exists tail, zs_layout z tail (B "ZS" ++ data).
Proof.
  unfold ZoneStatusReport_from_ascii_data.
  assert (K : forall s t, length s = NUM_ZONES ->
    mapM (fun i => b <- index (s ++ t) i ;; ZoneStatus_from_ascii b) (seq 0 NUM_ZONES) = mapM ZoneStatus_from_ascii s).
  { intros s t L. apply (mapM_index ZoneStatus_from_ascii NUM_ZONES [] s t L). }
  assert (F : forall s, mapM ZoneStatus_from_ascii s = Ok z <-> Forall2 (fun v c => hex_digit (N.to_nat v) c) z s).
  { intros s. rewrite mapM_ok. split; intros H; induction H; constructor; auto; apply ZoneStatus_from_spec; auto. }
  unfold zs_layout. change 208%nat with NUM_ZONES.
  set (nz := NUM_ZONES) in *. clearbody nz. 
  split.
  - intros H. destruct (length data <? nz)%nat eqn:L; [discriminate|]. apply Nat.ltb_ge in L.
    rewrite <- (firstn_skipn nz data) in H. rewrite K in H by (apply firstn_length_le; lia).
    exists (skipn nz data), (firstn nz data). rewrite firstn_skipn. split; [reflexivity|].
    split; [apply firstn_length_le; lia | apply F; exact H].
  - intros (tail & s & E & L & H). injection E as ->.
    replace (length (s ++ tail) <? nz)%nat with false by (rewrite app_length; lia).
    rewrite K by exact L. apply F. exact H.
Qed.

(* ---- Message::parse ---- *)
Definition arm_cmds : list bytes :=
  [B "a0"; B "a1"; B "a2"; B "a3"; B "a4"; B "a5"; B "a6"; B "a7"; B "a8"; B "a9"; B "a:"].
Lemma arm_cmd_iff c0 c1 :
  existsb (beq [c0; c1]) arm_cmds = true <-> c0 = 97 /\ exists v, arm_level_code v c1.
Proof.
  rewrite existsb_exists. split.
  - intros (x & Hx & E). apply beq_eq in E. subst x. cbn [In arm_cmds] in Hx.
    repeat destruct Hx as [Hx | Hx]; try contradiction; injection Hx as <- <-; (split; [reflexivity|]);
    [exists AL_Disarm | exists AL_ArmedAway | exists AL_ArmedStay | exists AL_ArmedStayInstant | exists AL_ArmedNight
    | exists AL_ArmedNightInstant | exists AL_ArmedVacation | exists AL_ArmToNextAwayMode | exists AL_ArmToNextStayMode
    | exists AL_ForceArmToAway | exists AL_ForceArmToStay]; apply ArmLevel_u8_spec.
  - intros (-> & v & H). apply coded_range in H. cbn [length arm_levels] in H.
    exists [97; c1]. split; [|apply beq_refl].
    assert (c1 = 48 \/ c1 = 49 \/ c1 = 50 \/ c1 = 51 \/ c1 = 52 \/ c1 = 53 \/ c1 = 54 \/ c1 = 55 \/ c1 = 56 \/ c1 = 57 \/ c1 = 58) by lia.
    cbn [In arm_cmds]. intuition (subst; auto 12).
Qed.

Lemma parse_ascii_cons c0 c1 data : (2 <= length data)%nat ->
  parse_ascii (c0 :: c1 :: data) =
  if existsb (beq [c0; c1]) arm_cmds
  then m <- ArmRequest_from_ascii c1 data ;; Ok (Some (MArmRequest m))
  else if beq [c0; c1] (B "as") then Ok (Some MArmingStatusRequest)
  else if beq [c0; c1] (B "AS") then m <- ArmingStatusReport_from_ascii_data data ;; Ok (Some (MArmingStatusReport m))
  else if beq [c0; c1] (B "EE") then m <- SendTimeData_from_ascii_data data ;; Ok (Some (MSendTimeData m))
  else if beq [c0; c1] (B "IC") then m <- SendCode_from_ascii_data data ;; Ok (Some (MSendCode m))
  else if beq [c0; c1] (B "rr") then Ok (Some MRtcRequest)
  else if beq [c0; c1] (B "RR") then m <- RtcData_from_ascii data ;; Ok (Some (MRtcResponse m))
  else if beq [c0; c1] (B "sd") then m <- SdReq_from_ascii_data data ;; Ok (Some (MStringDescriptionRequest m))
  else if beq [c0; c1] (B "SD") then m <- SdResp_from_ascii_data data ;; Ok (Some (MStringDescriptionResponse m))
  else if beq [c0; c1] (B "tn") then m <- ActivateTask_from_ascii_data data ;; Ok (Some (MActivateTask m))
  else if beq [c0; c1] (B "TC") then m <- TaskChange_from_ascii_data data ;; Ok (Some (MTaskChange m))
  else if beq [c0; c1] (B "XK") then m <- RtcData_from_ascii data ;; Ok (Some (MHeartbeat m))
  else if beq [c0; c1] (B "ZC") then m <- ZoneChange_from_ascii_data data ;; Ok (Some (MZoneChange m))
  else if beq [c0; c1] (B "zs") then Ok (Some MZoneStatusRequest)
  else if beq [c0; c1] (B "ZS") then m <- ZoneStatusReport_from_ascii_data data ;; Ok (Some (MZoneStatusReport m))
  else Ok None.
Proof.
  intros L. unfold parse_ascii. destruct (length (c0 :: c1 :: data) <? 4)%nat eqn:E.
  { apply Nat.ltb_lt in E. cbn [length] in E. lia. }
  rewrite slice_to by (cbn; lia). rewrite slice_from by (cbn; lia). cbn [firstn skipn bind].
  reflexivity.
Qed.

Lemma some_bind {A} (r : res A) (f : A -> message) m :
  (x <- r ;; Ok (Some (f x))) = Ok (Some m) <-> exists x, r = Ok x /\ m = f x.
Proof.
  split.
  - intros H. apply bind_inv in H as (x & -> & H). injection H as <-. eauto.
  - intros (x & -> & ->). reflexivity.
Qed.

Ltac cmdcase H := match type of H with
  | (if beq ?a ?b then _ else _) = _ => let E := fresh "E" in destruct (beq a b) eqn:E;
       [apply beq_eq in E; injection E as -> -> | clear E]
  end.

Lemma grammar_len m body : grammar m body -> (4 <= length body)%nat.
Proof.
  intros (tail & H). destruct m; cbv beta iota in H.
  - destruct H as ((l & a & -> & _ & H & _ & Hc) & Ht). destruct Hc as [Hc _]. apply dec_field_lt in H as (_ & _ & H).
    cbn [app length]. rewrite !app_length. lia.
  - destruct H as [-> H]. cbn. lia.
  - destruct H as (s & u & a & t & -> & _ & L1 & _). rewrite !app_length. cbn. lia.
  - destruct H as (s & (a & ty & t1 & t2 & -> & _ & _ & _ & H1 & _) & _). cbn. lia.
  - destruct H as ((code & u & k & -> & _ & _ & H & H2 & _) & Ht).
    rewrite !app_length. cbn. lia.
  - destruct H as [-> H]. cbn. lia.
  - destruct H as (d & -> & se & mi & h & wd & d' & mo & y & ds & cd & dd & -> & _). rewrite !app_length. cbn. lia.
  - destruct H as (ty & t & n & -> & _ & _ & H). apply dec_field_lt in H as (_ & _ & H). rewrite !app_length. cbn. lia.
  - destruct H as (ty & t & n & -> & _ & _ & _ & H). rewrite !app_length. cbn. lia.
  - destruct H as (n & -> & H & _). apply dec_field_lt in H as (_ & _ & H). rewrite !app_length. cbn. lia.
  - destruct H as (n & -> & H & _). apply dec_field_lt in H as (_ & _ & H). rewrite !app_length. cbn. lia.
  - destruct H as (d & -> & se & mi & h & wd & d' & mo & y & ds & cd & dd & -> & _). rewrite !app_length. cbn. lia.
  - destruct H as (n & c & -> & H & _). apply dec_field_lt in H as (_ & _ & H). rewrite !app_length. cbn. lia.
  - destruct H as [-> H]. cbn. lia.
  - destruct H as (s & -> & L & _). rewrite !app_length. lia.
Qed.

Lemma parse_some_iff body m : parse_ascii body = Ok (Some m) <-> grammar m body.
Proof.
  split.
  - intros H. assert (L : (4 <= length body)%nat).
    { unfold parse_ascii in H. destruct (length body <? 4)%nat eqn:E; [discriminate|]. apply Nat.ltb_ge in E. exact E. }
    destruct body as [|c0 [|c1 data]]; cbn [length] in L; try lia.
    rewrite parse_ascii_cons in H by lia.
    destruct (existsb (beq [c0; c1]) arm_cmds) eqn:EA.
    { apply arm_cmd_iff in EA as [-> HV]. apply some_bind in H as (x & H & ->).
      apply Arm_from_iff in H; [|exact HV]. destruct H as (tail & H). exists tail. exact H. }
    clear EA.
    cmdcase H. { injection H as <-. exists data. split; [reflexivity | lia]. }
    cmdcase H. { apply some_bind in H as (x & H & ->). apply AS_from_iff in H. exact H. }
    cmdcase H. { apply some_bind in H as (x & H & ->). apply EE_from_iff in H. exact H. }
    cmdcase H. { apply some_bind in H as (x & H & ->). apply IC_from_iff in H. exact H. }
    cmdcase H. { injection H as <-. exists data. split; [reflexivity | lia]. }
    cmdcase H. { apply some_bind in H as (x & H & ->). apply RTC_from_iff in H as (tail & H).
                 exists tail, data. split; [reflexivity | exact H]. }
    cmdcase H. { apply some_bind in H as (x & H & ->). apply sdq_from_iff in H. exact H. }
    cmdcase H. { apply some_bind in H as (x & H & ->). apply sd_from_iff in H. exact H. }
    cmdcase H. { apply some_bind in H as (x & H & ->). apply (tn_from_iff (B "tn")) in H. exact H. }
    cmdcase H. { apply some_bind in H as (x & H & ->). rewrite TC_from_eq in H. apply (tn_from_iff (B "TC")) in H. exact H. }
    cmdcase H. { apply some_bind in H as (x & H & ->). apply RTC_from_iff in H as (tail & H).
                 exists tail, data. split; [reflexivity | exact H]. }
    cmdcase H. { apply some_bind in H as (x & H & ->). apply ZC_from_iff in H. exact H. }
    cmdcase H. { injection H as <-. exists data. split; [reflexivity | lia]. }
    cmdcase H. { apply some_bind in H as (x & H & ->). apply ZS_from_iff in H. exact H. }
    discriminate.
  - intros G. pose proof (grammar_len _ _ G) as L. destruct G as (tail & G).
    assert (K : forall c0 c1 d, body = [c0; c1] ++ d -> body = c0 :: c1 :: d /\ (2 <= length d)%nat).
    { intros c0 c1 d ->. split; [reflexivity|]. cbn in L. lia. }
    destruct m; cbv beta iota in G.
    + destruct G as [G1 G2]. pose proof G1 as (l & a & E & HL & _).
      destruct (K _ _ _ E) as [E' L']. rewrite E'. rewrite parse_ascii_cons by exact L'.
      rewrite (proj2 (arm_cmd_iff 97 l)) by eauto.
      apply some_bind. eexists. split; [|reflexivity].
      apply Arm_from_iff; [eauto|]. exists tail. split; [|exact G2]. rewrite E' in G1. exact G1.
    + destruct G as [E G]. destruct (K _ _ _ E) as [E' L']. rewrite E'. rewrite parse_ascii_cons by exact L'. reflexivity.
    + pose proof G as (s & u & a & t & E & _).
      destruct (K _ _ _ E) as [E' L']. rewrite E'. rewrite parse_ascii_cons by exact L'.
      apply some_bind. eexists. split; [|reflexivity]. apply AS_from_iff. exists tail. rewrite E' in G. exact G.
    + destruct G as (s & G & G2). pose proof G as (a & ty & t1 & t2 & E & _).
      destruct (K _ _ _ E) as [E' L']. rewrite E'. rewrite parse_ascii_cons by exact L'.
      apply some_bind. eexists. split; [|reflexivity]. apply EE_from_iff. exists tail, s. rewrite E' in G. split; [exact G | exact G2].
    + destruct G as [G G2]. pose proof G as (code & u & k & E & _).
      destruct (K _ _ _ E) as [E' L']. rewrite E'. rewrite parse_ascii_cons by exact L'.
      apply some_bind. eexists. split; [|reflexivity]. apply IC_from_iff. exists tail. rewrite E' in G. split; [exact G | exact G2].
    + destruct G as [E G]. destruct (K _ _ _ E) as [E' L']. rewrite E'. rewrite parse_ascii_cons by exact L'. reflexivity.
    + destruct G as (d & E & G). destruct (K _ _ _ E) as [E' L']. rewrite E'. rewrite parse_ascii_cons by exact L'.
      apply some_bind. eexists. split; [|reflexivity]. apply RTC_from_iff. eauto.
    + pose proof G as (ty & t & n & E & _).
      destruct (K _ _ _ E) as [E' L']. rewrite E'. rewrite parse_ascii_cons by exact L'.
      apply some_bind. eexists. split; [|reflexivity]. apply sdq_from_iff. exists tail. rewrite E' in G. exact G.
    + pose proof G as (ty & t & n & E & _).
      destruct (K _ _ _ E) as [E' L']. rewrite E'. rewrite parse_ascii_cons by exact L'.
      apply some_bind. eexists. split; [|reflexivity]. apply sd_from_iff. exists tail. rewrite E' in G. exact G.
    + pose proof G as (n & E & _).
      destruct (K _ _ _ E) as [E' L']. rewrite E'. rewrite parse_ascii_cons by exact L'.
      apply some_bind. eexists. split; [|reflexivity]. apply (tn_from_iff (B "tn")). exists tail. rewrite E' in G. exact G.
    + pose proof G as (n & E & _).
      destruct (K _ _ _ E) as [E' L']. rewrite E'. rewrite parse_ascii_cons by exact L'.
      apply some_bind. eexists. split; [|reflexivity]. apply (tn_from_iff (B "TC")). exists tail. rewrite E' in G. exact G.
    + destruct G as (d & E & G). destruct (K _ _ _ E) as [E' L']. rewrite E'. rewrite parse_ascii_cons by exact L'.
      apply some_bind. eexists. split; [|reflexivity]. apply RTC_from_iff. eauto.
    + pose proof G as (n & c & E & _).
      destruct (K _ _ _ E) as [E' L']. rewrite E'. rewrite parse_ascii_cons by exact L'.
      apply some_bind. eexists. split; [|reflexivity]. apply ZC_from_iff. exists tail. rewrite E' in G. exact G.
    + destruct G as [E G]. destruct (K _ _ _ E) as [E' L']. rewrite E'. rewrite parse_ascii_cons by exact L'. reflexivity.
    + pose proof G as (s & E & _).
      destruct (K _ _ _ E) as [E' L']. rewrite E'. rewrite parse_ascii_cons by exact L'.
      apply some_bind. eexists. split; [|reflexivity]. apply ZS_from_iff. exists tail. rewrite E' in G. exact G.
Qed.

Lemma none_bind {A} (r : res A) (f : A -> message) :
  (x <- r ;; Ok (Some (f x))) <> Ok None.
Proof. destruct r; discriminate. Qed.

Lemma parse_none_iff body :
  parse_ascii body = Ok None <-> (4 <= length body)%nat /\ ~ supported (firstn 2 body).
Proof.
  destruct (length body <? 4)%nat eqn:E.
  { unfold parse_ascii. rewrite E. apply Nat.ltb_lt in E. split; [discriminate | lia]. }
  apply Nat.ltb_ge in E. destruct body as [|c0 [|c1 data]]; cbn [length] in E; try lia.
  rewrite parse_ascii_cons by lia. cbn [firstn]. unfold supported. split.
  - intros H. split; [cbn; lia|].
    intros [Hin | (l & c & HL & [= -> ->])].
    + cbn [In] in Hin.
      repeat destruct Hin as [Hin | Hin]; try contradiction; injection Hin as <- <-; revert H;
        cbn -[ArmingStatusReport_from_ascii_data SendTimeData_from_ascii_data SendCode_from_ascii_data RtcData_from_ascii
              SdReq_from_ascii_data SdResp_from_ascii_data ActivateTask_from_ascii_data TaskChange_from_ascii_data
              ZoneChange_from_ascii_data ZoneStatusReport_from_ascii_data bind];
        first [apply none_bind | discriminate].
    + rewrite (proj2 (arm_cmd_iff 97 c)) in H by eauto. revert H. apply none_bind.
  - intros [_ H].
    destruct (existsb (beq [c0; c1]) arm_cmds) eqn:EA.
    { exfalso. apply H. right. apply arm_cmd_iff in EA as [-> (v & HV)]. eauto. }
    repeat match goal with |- (if beq ?a ?b then _ else _) = _ => destruct (beq a b) eqn:?;
       [exfalso; apply H; left; match goal with E : beq _ _ = true |- _ => apply beq_eq in E; rewrite E end; cbn [In]; auto 20|] end.
    reflexivity.
Qed.

(* ---- no panics ---- *)
Ltac safe_step := match goal with
  | |- safe (bind (Ok _) _) => cbn [bind]
  | |- safe (bind _ _) => apply safe_bind; [|intros]
  | |- safe (if ?c then _ else _) => let E := fresh "C" in destruct c eqn:E
  | |- safe (Ok _) => exact I
  | |- safe (Err _) => exact I
  | |- safe (parse_u8_dec _ _) => apply parse_u8_dec_safe
  | |- safe (limited_try_from _ _) => apply limited_safe
  | |- safe (Area_try_from _) => apply limited_safe
  | |- safe (Zone_try_from _) => apply limited_safe
  | |- safe (Task_try_from _) => apply limited_safe
  | |- safe (Keypad_try_from _) => apply limited_safe
  | |- safe (ArmCode_try_from_slice _) => apply ArmCode_slice_safe
  | |- safe (ArmingStatus_try_from _) => apply ArmingStatus_safe
  | |- safe (ArmUpState_try_from _) => apply ArmUpState_safe
  | |- safe (AlarmState_try_from _) => apply AlarmState_safe
  | |- safe (ArmedState_try_from _) => apply ArmedState_safe
  | |- safe (Weekday_try_from _) => apply Weekday_safe
  | |- safe (TimeDataType_try_from _) => apply TimeDataType_safe
  | |- safe (ClockDisplayMode_try_from _) => apply ClockDisplayMode_safe
  | |- safe (DateDisplayMode_try_from _) => apply DateDisplayMode_safe
  | |- safe (TextDescriptionType_try_from _) => apply TextDescriptionType_safe
  | |- safe (ZoneStatus_from_ascii _) => apply ZoneStatus_from_safe
  | |- safe (match dehex_byte ?a ?b with _ => _ end) => destruct (dehex_byte_nopanic a b) as [-> | [? ->]]; exact I
  end.
Ltac safe_msg k data := let E := fresh "L" in
  destruct (length data <? _)%nat eqn:E; [exact I|]; apply Nat.ltb_ge in E.

Lemma from_safe data :
  (forall l, (exists v, arm_level_code v l) -> safe (ArmRequest_from_ascii l data)) /\
  safe (ArmingStatusReport_from_ascii_data data) /\ safe (SendTimeData_from_ascii_data data) /\
  safe (SendCode_from_ascii_data data) /\ safe (RtcData_from_ascii data) /\ safe (SdReq_from_ascii_data data) /\
  safe (SdResp_from_ascii_data data) /\ safe (ActivateTask_from_ascii_data data) /\
  safe (TaskChange_from_ascii_data data) /\ safe (ZoneChange_from_ascii_data data) /\
  safe (ZoneStatusReport_from_ascii_data data).
Proof.
  split_all.
  - intros l (v & HV). unfold ArmRequest_from_ascii. rewrite (proj2 (ArmLevel_spec _ _) HV). cbn [expect bind].
    destruct (length data <? 9)%nat eqn:L; [exact I|]. apply Nat.ltb_ge in L. peel 9 data L. simp. repeat safe_step.
  - unfold ArmingStatusReport_from_ascii_data, AS_loop, NUM_AREAS.
    destruct (length data <? 26)%nat eqn:L; [exact I|]. apply Nat.ltb_ge in L. peel 26 data L.
    cbn [seq mapM Nat.add Nat.mul]. simp. repeat safe_step.
  - unfold SendTimeData_from_ascii_data.
    destruct (length data <? 10)%nat eqn:L; [exact I|]. apply Nat.ltb_ge in L. peel 10 data L. simp. repeat safe_step.
  - unfold SendCode_from_ascii_data.
    destruct (length data <? 19)%nat eqn:L; [exact I|]. apply Nat.ltb_ge in L. peel 19 data L.
    cbn [seq mapM Nat.add Nat.mul]. simp. repeat safe_step.
  - unfold RtcData_from_ascii.
    destruct (length data <? 16)%nat eqn:L; [exact I|]. apply Nat.ltb_ge in L. peel 16 data L. simp. cbn [bind].
    apply safe_bind; [apply parse_u8_dec_safe|]. intros y Hy.
    apply parse_u8_dec_spec in Hy. cbn [length] in Hy. apply dec_field_lt in Hy as (Hy & _). cbn in Hy.
    replace (y <? 100) with true by lia. cbn [negb]. repeat safe_step.
  - unfold SdReq_from_ascii_data.
    destruct (length data <? 5)%nat eqn:L; [exact I|]. apply Nat.ltb_ge in L. peel 5 data L. simp. repeat safe_step.
  - unfold SdResp_from_ascii_data.
    destruct (length data <? 21)%nat eqn:L; [exact I|]. apply Nat.ltb_ge in L. peel 21 data L. simp. repeat safe_step.
  - unfold ActivateTask_from_ascii_data.
    destruct (length data <? 3)%nat eqn:L; [exact I|]. apply Nat.ltb_ge in L. peel 3 data L. simp. repeat safe_step.
  - unfold TaskChange_from_ascii_data.
    destruct (length data <? 3)%nat eqn:L; [exact I|]. apply Nat.ltb_ge in L. peel 3 data L. simp. repeat safe_step.
  - unfold ZoneChange_from_ascii_data.
    destruct (length data <? 4)%nat eqn:L; [exact I|]. apply Nat.ltb_ge in L. peel 4 data L. simp. repeat safe_step.
  - unfold ZoneStatusReport_from_ascii_data.
    set (nz := NUM_ZONES). clearbody nz. destruct (length data <? nz)%nat eqn:L; [exact I|]. apply Nat.ltb_ge in L.
    apply mapM_safe. intros i Hi. apply in_seq in Hi.
    destruct (index_ok data i) as (x & -> & _); [lia|]. cbn [bind]. apply ZoneStatus_from_safe.
Qed.

Lemma parse_safe body : safe (parse_ascii body).
Proof.
  destruct (length body <? 4)%nat eqn:E.
  { unfold parse_ascii. rewrite E. exact I. }
  apply Nat.ltb_ge in E. destruct body as [|c0 [|c1 data]]; cbn [length] in E; try lia.
  rewrite parse_ascii_cons by lia.
  destruct (from_safe data) as (H1 & H2 & H3 & H4 & H5 & H6 & H7 & H8 & H9 & H10 & H11).
  destruct (existsb (beq [c0; c1]) arm_cmds) eqn:EA.
  { apply arm_cmd_iff in EA as [-> HV]. apply safe_bind; [apply H1; exact HV | intros; exact I]. }
  repeat match goal with |- safe (if ?b then _ else _) => destruct b end; try exact I;
    (apply safe_bind; [assumption | intros; exact I]).
Qed.

(* ---- parsed messages are well-formed ---- *)
Lemma Forall2_len {A C} (R : A -> C -> Prop) l k : Forall2 R l k -> length l = length k.
Proof. induction 1; cbn; congruence. Qed.

Lemma grammar_wf m body : Forall printable body -> grammar m body -> wf_message m.
Proof.
  intros P (tail & H). destruct m; cbv beta iota in H; cbv beta iota delta [wf_message].
  - destruct H as ((l & a & -> & _ & H1 & H2 & Hc) & Ht). auto.
  - exact I.
  - destruct H as (s & u & a & t & -> & F1 & L1 & F2 & L2 & F3 & L3 & Hx). unfold as_ok.
    apply Forall2_len in F1, F2, F3. apply hex2_lt in Hx as [Hx _]. repeat split; try congruence. lia.
  - destruct H as (s & (a & ty & t1 & t2 & -> & H1 & _ & _ & H2 & H3 & _) & _).
    apply dec_field_lt in H2, H3. tauto.
  - destruct H as ((code & u & k & -> & F & Lc & H1 & H2 & H3) & Ht).
    split; [apply Forall2_len in F; etransitivity; [exact F | exact Lc]|]. apply dec_field_lt in H1. split; [|tauto].
    clear - F. unfold u8s. induction F as [|? ? ? ? X]; constructor; auto. apply hex2_lt in X. tauto.
  - exact I.
  - destruct H as (d & -> & se & mi & h & wd & d' & mo & y & ds & cd & dd & -> & H). tauto.
  - destruct H as (ty & t & n & -> & _ & _ & H). apply dec_field_lt in H. tauto.
  - destruct H as (ty & t & n & -> & _ & _ & H & L). apply dec_field_lt in H. split; [tauto|]. split; [exact L|].
    rewrite !Forall_app in P. tauto.
  - destruct H as (n & -> & _ & H). exact H.
  - destruct H as (n & -> & _ & H). exact H.
  - destruct H as (d & -> & se & mi & h & wd & d' & mo & y & ds & cd & dd & -> & H). tauto.
  - destruct H as (n & c & -> & _ & H & Hd). apply hex_digit_lt in Hd. split; [exact H | lia].
  - exact I.
  - destruct H as (s & -> & L & F). split; [apply Forall2_len in F; congruence|].
    clear - F. induction F as [|? ? ? ? X]; constructor; auto. apply hex_digit_lt in X. lia.
Qed.
