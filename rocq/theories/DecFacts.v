(* DecFacts.v: decimal fields, enumerations and other pieces messages are made of. *)
From Verif Require Import Base BaseFacts Pkt SpecPkt PktFacts Msg SpecMsg.
From Coq Require Import ZifyBool ZifyNat ZifyN.
Ltac Zify.zify_post_hook ::= Z.div_mod_to_equations.

Notation dstep := (fun acc c : N => acc * 10 + (c - 48)).

Lemma is_digit_spec b : is_digit b = true <-> 48 <= b <= 57.
Proof. unfold is_digit. lia. Qed.

Lemma fold_ge s : forall acc, acc <= fold_left dstep s acc.
Proof. induction s as [|c s IH]; intros acc; cbn; [lia|]. specialize (IH (acc * 10 + (c - 48))). lia. Qed.

Lemma parse_digits_spec max s : forall acc n, acc <= max ->
  parse_digits max acc s = Some n <-> digits s /\ fold_left dstep s acc = n /\ n <= max.
Proof.
  induction s as [|c s IH]; intros acc n Ha; cbn -[N.mul N.leb].
  - split; [intros [= <-]; repeat split; auto; constructor | intros (_ & -> & _); reflexivity].
  - destruct (is_digit c) eqn:D.
    + destruct (acc * 10 + (c - 48) <=? max) eqn:L.
      * rewrite IH by lia. apply is_digit_spec in D. unfold digits. rewrite Forall_cons_iff. tauto.
      * split; [discriminate|]. intros (_ & E & Hn). pose proof (fold_ge s (acc * 10 + (c - 48))). lia.
    + split; [discriminate|]. intros (Hd & _). inversion Hd; subst.
      assert (is_digit c = true) by (apply is_digit_spec; auto). congruence.
Qed.

Lemma from_str_dec_spec max s n : from_str_dec max s = Some n <->
  n <= max /\ exists ds, (s = ds \/ s = 43 :: ds) /\ ds <> [] /\ digits ds /\ dec_value ds = n.
Proof.
  unfold from_str_dec, dec_value. destruct s as [|c s].
  - split; [discriminate|]. intros (_ & ds & [<- | E] & H & _); [congruence | discriminate].
  - destruct (c =? 43) eqn:C.
    + apply N.eqb_eq in C. subst c. destruct s as [|d s].
      * split; [discriminate|]. intros (_ & ds & [<- | [= <-]] & H1 & H2 & _); [|congruence].
        inversion H2; lia.
      * rewrite parse_digits_spec by lia. split.
        -- intros (H1 & H2 & H3). split; [exact H3|]. exists (d :: s). repeat split; auto. discriminate.
        -- intros (H1 & ds & [<- | [= <-]] & H2 & H3 & H4); [inversion H3; lia | auto].
    + rewrite parse_digits_spec by lia. split.
      * intros (H1 & H2 & H3). split; [exact H3|]. exists (c :: s). repeat split; auto. discriminate.
      * intros (H1 & ds & [<- | [= -> <-]] & H2 & H3 & H4); [auto | lia].
Qed.

Lemma digits_utf8 ds : digits ds -> utf8_valid ds = true.
Proof. induction 1 as [|c ds Hc HD IH]; [reflexivity|]. cbn [utf8_valid]. replace (c <? 128) with true by lia. exact IH. Qed.
Lemma from_str_utf8 max s v : from_str_dec max s = Some v -> utf8_valid s = true.
Proof.
  intros H. apply from_str_dec_spec in H as (_ & ds & HE & _ & HD & _). pose proof (digits_utf8 _ HD) as X. destruct HE as [-> | ->]; exact X.
Qed.
Lemma parse_u8_dec_spec name s n : parse_u8_dec name s = Ok n <-> dec_field (length s) n s.
Proof.
  unfold parse_u8_dec, dec_field. pose proof (from_str_dec_spec 255 s) as H. pose proof (from_str_utf8 255 s) as UV.
  destruct (from_str_dec 255 s) as [v|]; [rewrite (UV v eq_refl)|destruct (utf8_valid s)].
  - split.
    + intros [= <-]. destruct (proj1 (H v) eq_refl) as [H1 H2]. auto.
    + intros (_ & H1 & H2). assert (Some v = Some n) by (apply H; auto). congruence.
  - split; [discriminate|]. intros (_ & H1 & H2). assert (None = Some n) by (apply H; auto). discriminate.
  - split; [discriminate|]. intros (_ & H1 & H2). assert (None = Some n) by (apply H; auto). discriminate.
Qed.
Lemma parse_u8_dec_safe name s : safe (parse_u8_dec name s).
Proof. unfold parse_u8_dec. destruct (utf8_valid s); [|exact I]. destruct (from_str_dec 255 s); exact I. Qed.

Lemma dec_value_snoc s c : dec_value (s ++ [c]) = dec_value s * 10 + (c - 48).
Proof. unfold dec_value. rewrite fold_left_app. reflexivity. Qed.
Lemma digits_app s t : digits (s ++ t) <-> digits s /\ digits t.
Proof. apply Forall_app. Qed.

Lemma dec_value_lt s : digits s -> dec_value s < 10 ^ N.of_nat (length s).
Proof.
  induction s as [|c s IH] using rev_ind; intros H; [cbn; lia|].
  apply digits_app in H as [H1 H2]. inversion H2; subst. rewrite dec_value_snoc, app_length.
  cbn [length]. rewrite Nat.add_1_r, Nat2N.inj_succ, N.pow_succ_r'. specialize (IH H1). lia.
Qed.

Lemma dec_canon_fun w n s t : dec_canon w n s -> dec_canon w n t -> s = t.
Proof.
  revert n s t. induction w as [|w IH]; intros n s t (L1 & D1 & V1) (L2 & D2 & V2).
  - destruct s; [|discriminate]. destruct t; [reflexivity | discriminate].
  - destruct (@exists_last _ s) as (s' & c & ->); [intros ->; discriminate|].
    destruct (@exists_last _ t) as (t' & d & ->); [intros ->; discriminate|].
    rewrite dec_value_snoc in V1, V2. rewrite app_length in L1, L2. cbn in L1, L2.
    apply digits_app in D1 as [D1 E1], D2 as [D2 E2]. inversion E1; inversion E2; subst.
    assert (c = d) by lia. subst d.
    rewrite (IH (dec_value s') s' t'); [reflexivity | |]; repeat split; auto; lia.
Qed.

Lemma size_nat_gt n : n < 2 ^ N.of_nat (N.size_nat n).
Proof.
  destruct n as [|p]; [cbn; lia|]. cbn [N.size_nat].
  induction p as [p IH | p IH |]; cbn [Pos.size_nat]; rewrite ?Nat2N.inj_succ, ?N.pow_succ_r'; lia.
Qed.

Lemma dec_digits_spec f : forall n, n < 2 ^ N.of_nat f -> (f <> 0)%nat ->
  digits (dec_digits f n) /\ dec_value (dec_digits f n) = n /\ dec_digits f n <> [] /\
  forall w, (w <> 0)%nat -> n < 10 ^ N.of_nat w -> (length (dec_digits f n) <= w)%nat.
Proof.
  induction f as [|f IH]; intros n Hn Hf; [congruence|]. cbn [dec_digits].
  rewrite Nat2N.inj_succ, N.pow_succ_r' in Hn.
  assert (E : 48 <= 48 + n mod 10 <= 57) by lia.
  destruct (n <? 10) eqn:L.
  - cbn [app]. repeat split.
    + constructor; [exact E | constructor].
    + unfold dec_value. cbn [fold_left]. lia.
    + discriminate.
    + intros w Hw _. cbn. lia.
  - assert (Hf' : (f <> 0)%nat) by (intros ->; cbn in Hn; lia).
    destruct (IH (n / 10)) as (H1 & H2 & H3 & H4); [lia | exact Hf' |].
    repeat split.
    + apply digits_app. split; [exact H1 | constructor; [exact E | constructor]].
    + rewrite dec_value_snoc, H2. lia.
    + intros C. apply app_eq_nil in C as [_ C]. discriminate.
    + intros w Hw Hl. rewrite app_length. cbn [length].
      destruct w as [|w]; [congruence|]. rewrite Nat2N.inj_succ, N.pow_succ_r' in Hl.
      assert (w <> 0)%nat by (intros ->; cbn in Hl; lia).
      specialize (H4 w ltac:(assumption) ltac:(lia)). lia.
Qed.

Lemma fmt_dec_spec n : digits (fmt_dec n) /\ dec_value (fmt_dec n) = n /\ fmt_dec n <> [] /\
  forall w, (w <> 0)%nat -> n < 10 ^ N.of_nat w -> (length (fmt_dec n) <= w)%nat.
Proof.
  unfold fmt_dec. apply dec_digits_spec; [|discriminate].
  rewrite Nat2N.inj_succ, N.pow_succ_r'. pose proof (size_nat_gt n). lia.
Qed.

Lemma digits_zeros k : digits (repeat 48 k).
Proof. induction k; constructor; [lia | assumption]. Qed.
Lemma dec_value_zeros k s : dec_value (repeat 48 k ++ s) = dec_value s.
Proof. unfold dec_value. rewrite fold_left_app. f_equal. induction k; cbn; [reflexivity | assumption]. Qed.

Lemma fmt_pad_spec w n : (w <> 0)%nat -> n < 10 ^ N.of_nat w -> dec_canon w n (fmt_pad w n).
Proof.
  intros Hw Hn. destruct (fmt_dec_spec n) as (H1 & H2 & H3 & H4). specialize (H4 w Hw Hn).
  unfold fmt_pad, dec_canon. rewrite app_length, repeat_length, dec_value_zeros.
  repeat split; [lia | apply digits_app; auto using digits_zeros | exact H2].
Qed.
Lemma fmt_dec_1 n : n < 10 -> dec_canon 1 n (fmt_dec n).
Proof.
  intros Hn. destruct (fmt_dec_spec n) as (H1 & H2 & H3 & H4).
  specialize (H4 1%nat ltac:(discriminate) Hn). repeat split; auto.
  destruct (fmt_dec n); [congruence | cbn in *; lia].
Qed.

Lemma canon_field w n s : (w <> 0)%nat -> n <= 255 -> dec_canon w n s -> dec_field w n s.
Proof.
  intros Hw Hn (H1 & H2 & H3). repeat split; auto. exists s. repeat split; auto. intros ->. cbn in H1. congruence.
Qed.
Lemma dec_field_inj w v n m s : dec_field w n s -> dec_field v m s -> n = m.
Proof.
  intros (L1 & H1) (L2 & H2).
  apply (from_str_dec_spec 255 s n) in H1. apply (from_str_dec_spec 255 s m) in H2. congruence.
Qed.
Lemma dec_field_lt w n s : dec_field w n s -> n < 10 ^ N.of_nat w /\ n <= 255 /\ length s = w.
Proof.
  intros (L & H & ds & E & H1 & H2 & <-). repeat split; auto.
  pose proof (dec_value_lt ds H2).
  enough (10 ^ N.of_nat (length ds) <= 10 ^ N.of_nat w) by lia.
  apply N.pow_le_mono_r; [lia|]. destruct E as [-> | ->]; cbn in L; lia.
Qed.
Lemma dec_canon_printable w n s : dec_canon w n s -> Forall printable s.
Proof. intros (_ & H & _). revert H. apply Forall_impl. unfold printable. lia. Qed.

(* ---- enumerations ---- *)
Ltac enum_spec :=
  intros c v; unfold coded; split;
  [ intros H;
    repeat match type of H with
    | (if ?c =? ?k then _ else _) = _ => let E := fresh in destruct (c =? k) eqn:E;
        [apply N.eqb_eq in E; injection H as <-; subst c |clear E]
    end; try discriminate;
    match goal with |- exists i, nth_error ?l i = Some ?v /\ _ => destruct v eqn:?; try discriminate end;
    first [exists 0%nat; split; reflexivity | exists 1%nat; split; reflexivity | exists 2%nat; split; reflexivity
     | exists 3%nat; split; reflexivity | exists 4%nat; split; reflexivity | exists 5%nat; split; reflexivity
     | exists 6%nat; split; reflexivity | exists 7%nat; split; reflexivity | exists 8%nat; split; reflexivity
     | exists 9%nat; split; reflexivity | exists 10%nat; split; reflexivity | exists 11%nat; split; reflexivity
     | exists 12%nat; split; reflexivity | exists 13%nat; split; reflexivity | exists 14%nat; split; reflexivity
     | exists 15%nat; split; reflexivity | exists 16%nat; split; reflexivity | exists 17%nat; split; reflexivity
     | exists 18%nat; split; reflexivity | exists 19%nat; split; reflexivity]
  | intros (i & E & ->);
    repeat (destruct i as [|i]; [injection E as <-; reflexivity | cbn [nth_error] in E]);
    destruct i; discriminate ].

Lemma ArmLevel_spec : forall c v, ArmLevel_try_from c = Ok v <-> arm_level_code v c.
Proof. unfold ArmLevel_try_from, arm_level_code, arm_levels. enum_spec. Qed.
Lemma ArmingStatus_spec : forall c v, ArmingStatus_try_from c = Ok v <-> arming_status_code v c.
Proof. unfold ArmingStatus_try_from, arming_status_code, arming_statuses. enum_spec. Qed.
Lemma ArmUpState_spec : forall c v, ArmUpState_try_from c = Ok v <-> arm_up_code v c.
Proof. unfold ArmUpState_try_from, arm_up_code, arm_up_states. enum_spec. Qed.
Lemma AlarmState_spec : forall c v, AlarmState_try_from c = Ok v <-> alarm_code v c.
Proof. unfold AlarmState_try_from, alarm_code, alarm_states. enum_spec. Qed.
Lemma ArmedState_spec : forall c v, ArmedState_try_from c = Ok v <-> armed_state_code v c.
Proof. unfold ArmedState_try_from, armed_state_code, armed_states. enum_spec. Qed.
Lemma Weekday_spec : forall c v, Weekday_try_from c = Ok v <-> weekday_code v c.
Proof. unfold Weekday_try_from, weekday_code, weekdays. enum_spec. Qed.
Lemma TimeDataType_spec : forall c v, TimeDataType_try_from c = Ok v <-> time_type_code v c.
Proof. unfold TimeDataType_try_from, time_type_code. enum_spec. Qed.
Lemma ClockDisplayMode_spec : forall c v, ClockDisplayMode_try_from c = Ok v <-> clock_code v c.
Proof. unfold ClockDisplayMode_try_from, clock_code. enum_spec. Qed.
Lemma DateDisplayMode_spec : forall c v, DateDisplayMode_try_from c = Ok v <-> date_code v c.
Proof. unfold DateDisplayMode_try_from, date_code. enum_spec. Qed.
Lemma TextDescriptionType_spec : forall c v, TextDescriptionType_try_from c = Ok v <-> text_type_number v c.
Proof. unfold TextDescriptionType_try_from, text_type_number, text_types. enum_spec. Qed.
Lemma dst_spec : forall c v,
  (if c =? 48 then Ok false else if c =? 49 then Ok true else Err "bad dst flag") = Ok v <-> bool_code v c.
Proof. unfold bool_code. enum_spec. Qed.

Ltac enum_u8 := intros v; destruct v;
  match goal with |- ?G => let h := eval red in G in idtac end;
  first [exists 0%nat; split; reflexivity | exists 1%nat; split; reflexivity | exists 2%nat; split; reflexivity
     | exists 3%nat; split; reflexivity | exists 4%nat; split; reflexivity | exists 5%nat; split; reflexivity
     | exists 6%nat; split; reflexivity | exists 7%nat; split; reflexivity | exists 8%nat; split; reflexivity
     | exists 9%nat; split; reflexivity | exists 10%nat; split; reflexivity | exists 11%nat; split; reflexivity
     | exists 12%nat; split; reflexivity | exists 13%nat; split; reflexivity | exists 14%nat; split; reflexivity
     | exists 15%nat; split; reflexivity | exists 16%nat; split; reflexivity | exists 17%nat; split; reflexivity
     | exists 18%nat; split; reflexivity | exists 19%nat; split; reflexivity].
Lemma ArmLevel_u8_spec : forall v, arm_level_code v (ArmLevel_u8 v). Proof. enum_u8. Qed.
Lemma ArmingStatus_u8_spec : forall v, arming_status_code v (ArmingStatus_u8 v). Proof. enum_u8. Qed.
Lemma ArmUpState_u8_spec : forall v, arm_up_code v (ArmUpState_u8 v). Proof. enum_u8. Qed.
Lemma AlarmState_u8_spec : forall v, alarm_code v (AlarmState_u8 v). Proof. enum_u8. Qed.
Lemma ArmedState_u8_spec : forall v, armed_state_code v (ArmedState_u8 v). Proof. enum_u8. Qed.
Lemma Weekday_u8_spec : forall v, weekday_code v (Weekday_u8 v). Proof. enum_u8. Qed.
Lemma TimeDataType_u8_spec : forall v, time_type_code v (TimeDataType_u8 v). Proof. enum_u8. Qed.
Lemma ClockDisplayMode_u8_spec : forall v, clock_code v (ClockDisplayMode_u8 v). Proof. enum_u8. Qed.
Lemma DateDisplayMode_u8_spec : forall v, date_code v (DateDisplayMode_u8 v). Proof. enum_u8. Qed.
Lemma TextDescriptionType_u8_spec : forall v, text_type_number v (TextDescriptionType_u8 v). Proof. enum_u8. Qed.

Ltac enum_safe := intros c; repeat match goal with |- safe (if ?b then _ else _) => destruct b end; exact I.
Lemma ArmLevel_safe : forall c, safe (ArmLevel_try_from c). Proof. unfold ArmLevel_try_from. enum_safe. Qed.
Lemma ArmingStatus_safe : forall c, safe (ArmingStatus_try_from c). Proof. unfold ArmingStatus_try_from. enum_safe. Qed.
Lemma ArmUpState_safe : forall c, safe (ArmUpState_try_from c). Proof. unfold ArmUpState_try_from. enum_safe. Qed.
Lemma AlarmState_safe : forall c, safe (AlarmState_try_from c). Proof. unfold AlarmState_try_from. enum_safe. Qed.
Lemma ArmedState_safe : forall c, safe (ArmedState_try_from c). Proof. unfold ArmedState_try_from. enum_safe. Qed.
Lemma Weekday_safe : forall c, safe (Weekday_try_from c). Proof. unfold Weekday_try_from. enum_safe. Qed.
Lemma TimeDataType_safe : forall c, safe (TimeDataType_try_from c). Proof. unfold TimeDataType_try_from. enum_safe. Qed.
Lemma ClockDisplayMode_safe : forall c, safe (ClockDisplayMode_try_from c). Proof. unfold ClockDisplayMode_try_from. enum_safe. Qed.
Lemma DateDisplayMode_safe : forall c, safe (DateDisplayMode_try_from c). Proof. unfold DateDisplayMode_try_from. enum_safe. Qed.
Lemma TextDescriptionType_safe : forall c, safe (TextDescriptionType_try_from c). Proof. unfold TextDescriptionType_try_from. enum_safe. Qed.

(* a coded value's character determines it and conversely (for lists without duplicates) *)
Lemma coded_fun {A} first (l : list A) v c d : NoDup l -> coded first l v c -> coded first l v d -> c = d.
Proof.
  intros N (i & E & ->) (j & E' & ->). f_equal. f_equal.
  apply (proj1 (NoDup_nth_error l) N); [apply nth_error_Some; congruence | congruence].
Qed.
Lemma coded_inj {A} first (l : list A) v w c : coded first l v c -> coded first l w c -> v = w.
Proof. intros (i & E & ->) (j & E' & H). assert (i = j) by lia. congruence. Qed.
Lemma coded_range {A} first (l : list A) v c : coded first l v c ->
  first <= c < first + N.of_nat (length l).
Proof. intros (i & E & ->). assert (i < length l)%nat by (apply nth_error_Some; congruence). lia. Qed.

(* ---- limited numbers ---- *)
Lemma limited_spec max v n : limited_try_from max v = Ok n <-> (1 <= v <= max) /\ n = v.
Proof.
  unfold limited_try_from. destruct ((1 <=? v) && (v <=? max)) eqn:E.
  - split; [intros [= <-]; split; [lia | reflexivity] | intros [_ ->]; reflexivity].
  - split; [discriminate | intros [H _]; lia].
Qed.
Lemma limited_safe max v : safe (limited_try_from max v).
Proof. unfold limited_try_from. destruct (_ && _); exact I. Qed.

(* ---- arm codes ---- *)
Lemma ArmCode_slice_spec s c : ArmCode_try_from_slice s = Ok c <-> arm_code_ok s /\ c = s.
Proof.
  unfold ArmCode_try_from_slice, arm_code_ok.
  destruct (length s =? 6)%nat eqn:L; cbn [negb].
  - apply Nat.eqb_eq in L. destruct (existsb _ s) eqn:E.
    + split; [discriminate|]. intros ((_ & D) & _). apply existsb_exists in E as (x & Hx & Hn).
      unfold digits in D. rewrite Forall_forall in D. specialize (D x Hx).
      rewrite (proj2 (is_digit_spec x) D) in Hn. discriminate.
    + split.
      * intros [= <-]. repeat split; auto. apply Forall_forall. intros x Hx.
        apply is_digit_spec. destruct (is_digit x) eqn:Dx; [reflexivity|].
        assert (existsb (fun b => negb (is_digit b)) s = true); [|congruence].
        apply existsb_exists. exists x. rewrite Dx. auto.
      * intros [_ ->]. reflexivity.
  - apply Nat.eqb_neq in L. split; [discriminate | intros ((H & _) & _); congruence].
Qed.
Lemma ArmCode_slice_safe s : safe (ArmCode_try_from_slice s).
Proof. unfold ArmCode_try_from_slice. destruct (negb _); [exact I|]. destruct (existsb _ s); exact I. Qed.
