(* WireFacts.v: what to_ascii writes, and its relation to what parse accepts. *)
From Verif Require Import Base BaseFacts Pkt SpecPkt PktFacts Msg SpecMsg DecFacts MsgFacts.
From Coq Require Import ZifyBool ZifyNat ZifyN.
Ltac Zify.zify_post_hook ::= Z.div_mod_to_equations.

Lemma expect_ascii s w : ascii_body s -> expect (ascii_try_from s) w = Ok s.
Proof. intros H. rewrite (proj2 (ascii_try_from_spec s s)) by auto. reflexivity. Qed.

Lemma printable_digits s : digits s -> Forall printable s.
Proof. apply Forall_impl. unfold printable. lia. Qed.
Lemma printable_1 c : printable c -> Forall printable [c].
Proof. intros. constructor; auto. Qed.
Lemma hex2_printable n s : hex2 n s -> Forall printable s.
Proof. intros H. apply hex2_range in H. revert H. apply Forall_impl. unfold printable. lia. Qed.
Lemma coded_printable {A} f (l : list A) v c : coded f l v c -> 32 <= f -> f + N.of_nat (length l) <= 127 -> printable c.
Proof. intros H. apply coded_range in H. unfold printable. lia. Qed.

Lemma utf8_printable s : Forall printable s -> utf8_valid s = true.
Proof.
  induction 1 as [|c s H]; [reflexivity|]. cbn [utf8_valid]. unfold printable in H.
  replace (c <? 128) with true by lia. exact IHForall.
Qed.

Lemma hex_upper_spec d : d < 16 -> hex_digit (N.to_nat d) (hex_upper d).
Proof.
  intros H. assert (E : d = 0 \/ d = 1 \/ d = 2 \/ d = 3 \/ d = 4 \/ d = 5 \/ d = 6 \/ d = 7 \/ d = 8 \/ d = 9 \/ d = 10
    \/ d = 11 \/ d = 12 \/ d = 13 \/ d = 14 \/ d = 15) by lia.
  repeat destruct E as [-> | E]; try reflexivity. subst. reflexivity.
Qed.

Lemma pad_canon w n : (w <> 0)%nat -> n < 10 ^ N.of_nat w -> dec_canon w n (fmt_pad w n).
Proof. apply fmt_pad_spec. Qed.

Lemma text_type_lt v n : text_type_number v n -> n < 20.
Proof. intros H. apply coded_range in H. cbn in H. lia. Qed.

Lemma printable_len_app s t : ascii_body (s ++ t) <->
  (Forall printable s /\ Forall printable t) /\ (2 <= length s + length t <= 253)%nat.
Proof. unfold ascii_body. rewrite Forall_app, app_length. tauto. Qed.

Lemma F2_map {A C} (R : A -> C -> Prop) (f : A -> C) l : (forall x, R x (f x)) -> Forall2 R l (map f l).
Proof. intros H. induction l; constructor; auto. Qed.
Lemma F2_map_in {A C} (R : A -> C -> Prop) (f : A -> C) l : (forall x, In x l -> R x (f x)) -> Forall2 R l (map f l).
Proof. intros H. induction l; constructor; auto using in_eq. apply IHl. intros. apply H. right. auto. Qed.
Lemma F2_printable {A} f (l : list A) vs cs : Forall2 (coded f l) vs cs -> 32 <= f -> f + N.of_nat (length l) <= 127 ->
  Forall printable cs.
Proof. intros F H1 H2. induction F; constructor; auto. eapply coded_printable; eauto. Qed.

Ltac P1 := match goal with H : _ _ ?c |- printable ?c => eapply coded_printable; [exact H | lia | cbn; lia] end.
Ltac FP := repeat (apply Forall_cons || apply Forall_nil || (apply Forall_app; split));
   try (match goal with |- printable ?x => unfold printable; lia end);
   eauto using dec_canon_printable, printable_digits, hex2_printable.

Lemma wire_ascii m body : wf_message m -> wire m body -> ascii_body body.
Proof.
  intros W H. destruct m; cbv beta iota delta [wire] in H; cbv beta iota delta [wf_message] in W.
  - destruct H as (l & a & -> & H1 & H2 & _ & L & D). assert (printable l) by P1.
    pose proof H2 as (La & _). split; [FP | rewrite !app_length, L, La; cbn; lia].
  - subst. split; [FP | cbn; lia].
  - destruct H as (s & u & a & t & -> & F1 & L1 & F2 & L2 & F3 & L3 & H).
    pose proof (hex2_lt _ _ H) as [_ Lt].
    apply F2_printable in F1; [|lia|cbn; lia]. apply F2_printable in F2; [|lia|cbn; lia].
    apply F2_printable in F3; [|lia|cbn; lia].
    split; [FP | rewrite !app_length, L1, L2, L3, Lt; cbn; lia].
  - destruct H as (s & a & ty & t1 & t2 & -> & H1 & H2 & H3 & H4 & H5 & H6).
    assert (printable ty) by P1. assert (printable a) by (unfold printable, area_ok in *; lia).
    assert (Ps : Forall printable s /\ (length s <= 1)%nat).
    { destruct (ee_armed_state m); [destruct H6 as (c & -> & H6) | subst s].
      - split; [|cbn; lia]. assert (printable c) by P1. FP.
      - split; [FP | cbn; lia]. }
    destruct Ps as [Ps Ls]. pose proof H4 as (L4 & _). pose proof H5 as (L5 & _).
    split; [FP | rewrite !app_length, L4, L5; cbn; lia].
  - destruct H as (code & u & k & -> & F & Lc & H1 & H2 & _).
    pose proof H1 as (L1 & _). pose proof H2 as (L2 & _).
    assert (Pc : Forall printable (concat code) /\ (length (concat code) = 2 * length code)%nat).
    { clear - F. induction F as [|? ? ? ? H F [IH1 IH2]]; [split; [FP | reflexivity]|].
      cbn [concat]. split; [FP|]. rewrite app_length, IH2. apply hex2_lt in H as [_ H]. cbn [length]. lia. }
    destruct Pc as [Pc Lcc]. rewrite Lc in Lcc.
    split; [FP | rewrite !app_length, L1, L2, Lcc; cbn; lia].
  - subst. split; [FP | cbn; lia].
  - destruct H as (d & -> & se & mi & h & wd & d' & mo & y & ds & cd & dd & -> & H1 & H2 & H3 & H4 & H5 & H6 & H7 & H8 & H9 & H10 & _).
    assert (printable wd) by P1. assert (printable ds) by P1. assert (printable cd) by P1. assert (printable dd) by P1.
    pose proof (proj1 H1) as E1; pose proof (proj1 H2) as E2; pose proof (proj1 H3) as E3; pose proof (proj1 H5) as E4;
    pose proof (proj1 H6) as E5; pose proof (proj1 H7) as E6.
    split; [FP | rewrite !app_length, E1, E2, E3, E4, E5, E6; cbn; lia].
  - destruct H as (ty & t & n & -> & H1 & H2 & H3). pose proof (proj1 H2) as E1; pose proof (proj1 H3) as E2.
    split; [FP | rewrite !app_length, E1, E2; cbn; lia].
  - destruct H as (ty & t & n & -> & H1 & H2 & H3 & L). pose proof (proj1 H2) as E1; pose proof (proj1 H3) as E2.
    destruct W as (_ & _ & W). split; [FP | rewrite !app_length, E1, E2, L; cbn; lia].
  - destruct H as (n & -> & H & _). pose proof (proj1 H) as E1. split; [FP | rewrite !app_length, E1; cbn; lia].
  - destruct H as (n & -> & H & _). pose proof (proj1 H) as E1. split; [FP | rewrite !app_length, E1; cbn; lia].
  - destruct H as (d & -> & se & mi & h & wd & d' & mo & y & ds & cd & dd & -> & H1 & H2 & H3 & H4 & H5 & H6 & H7 & H8 & H9 & H10 & _).
    assert (printable wd) by P1. assert (printable ds) by P1. assert (printable cd) by P1. assert (printable dd) by P1.
    pose proof (proj1 H1) as E1; pose proof (proj1 H2) as E2; pose proof (proj1 H3) as E3; pose proof (proj1 H5) as E4;
    pose proof (proj1 H6) as E5; pose proof (proj1 H7) as E6.
    split; [FP | rewrite !app_length, E1, E2, E3, E4, E5, E6; cbn; lia].
  - destruct H as (n & c & -> & H & _ & Hd). pose proof (proj1 H) as E1.
    assert (printable c) by (apply hex_digit_printable in Hd; unfold printable; lia).
    split; [FP | rewrite !app_length, E1; cbn; lia].
  - subst. split; [FP | cbn; lia].
  - destruct H as (s & -> & L & F).
    assert (Forall printable s).
    { clear - F. induction F; constructor; auto. apply hex_digit_printable in H. unfold printable. lia. }
    split; [FP | rewrite !app_length, L; cbn [length]; lia].
Qed.

Lemma digit_1 n : 1 <= n <= 8 -> dec_canon 1 n [n + 48].
Proof.
  intros H. repeat split; [constructor; [lia | constructor]|]. unfold dec_value. cbn [fold_left]. lia.
Qed.
Lemma dec_canon_1 n s : n < 10 -> dec_canon 1 n s -> s = [48 + n].
Proof.
  intros Hn H. apply (dec_canon_fun 1 n); [exact H|]. repeat split; [constructor; [lia | constructor]|].
  unfold dec_value. cbn [fold_left]. lia.
Qed.

Lemma rtc_to_layout r : datetime_ok (datetime r) -> rtc_layout dec_canon r [] (RtcData_to_ascii r).
Proof.
  intros W. pose proof W as (D1 & D2 & D3 & D4 & D5 & D6). unfold RtcData_to_ascii.
  exists (fmt_pad 2 (second (datetime r))), (fmt_pad 2 (minute (datetime r))), (fmt_pad 2 (hour (datetime r))),
    (Weekday_u8 (weekday r)), (fmt_pad 2 (day (datetime r))), (fmt_pad 2 (month (datetime r))), (fmt_pad 2 (year (datetime r))),
    (if dst r then 49 else 48), (ClockDisplayMode_u8 (clock_display r)), (DateDisplayMode_u8 (date_display r)).
  split. { rewrite app_nil_r. do 7 f_equal. destruct (dst r); reflexivity. }
  split; [apply pad_canon; [discriminate | cbn; lia]|]. split; [apply pad_canon; [discriminate | cbn; lia]|].
  split; [apply pad_canon; [discriminate | cbn; lia]|]. split; [apply Weekday_u8_spec|].
  split; [apply pad_canon; [discriminate | cbn; lia]|]. split; [apply pad_canon; [discriminate | cbn; lia]|].
  split; [apply pad_canon; [discriminate | cbn; lia]|].
  split; [destruct (dst r); [exists 1%nat | exists 0%nat]; split; reflexivity|].
  split; [apply ClockDisplayMode_u8_spec|]. split; [apply DateDisplayMode_u8_spec|]. exact W.
Qed.

Lemma to_ascii_wire m : wf_message m -> exists body, to_ascii m = Ok body /\ wire m body.
Proof.
  intros W.
  assert (FIN : forall body e, wire m body -> expect (ascii_try_from body) e = Ok body).
  { intros body e Hw. apply expect_ascii. eapply wire_ascii; eassumption. }
  destruct m; cbv beta iota delta [to_ascii].
  - unfold ArmRequest_to_ascii. destruct W as [Wa Wc]. unfold add8.
    replace (ar_area m + 48 <? 256) with true by (unfold area_ok in Wa; lia). cbn [bind].
    match goal with |- exists b, expect (ascii_try_from ?X) ?e = _ /\ _ => assert (Hw : wire (MArmRequest m) X) end.
    { exists (ArmLevel_u8 (ar_level m)), [ar_area m + 48]. split; [reflexivity|].
      split; [apply ArmLevel_u8_spec|]. split; [apply digit_1; exact Wa|]. auto. }
    eexists. split; [apply FIN; exact Hw | exact Hw].
  - eexists. split; [apply FIN; reflexivity | reflexivity].
  - unfold ArmingStatusReport_to_ascii.
    match goal with |- exists b, expect (ascii_try_from ?X) ?e = _ /\ _ => assert (Hw : wire (MArmingStatusReport m) X) end.
    { destruct W as (L1 & L2 & L3 & L4).
      exists (map ArmingStatus_u8 (arming_status m)), (map ArmUpState_u8 (up_state m)), (map AlarmState_u8 (alarm_state m)),
        (hex_byte (first_exit_time m)).
      rewrite !map_length, app_nil_r. split; [reflexivity|].
      split; [apply F2_map, ArmingStatus_u8_spec|]. split; [exact L1|].
      split; [apply F2_map, ArmUpState_u8_spec|]. split; [exact L2|].
      split; [apply F2_map, AlarmState_u8_spec|]. split; [exact L3|]. apply hex_byte_spec. lia. }
    eexists. split; [apply FIN; exact Hw | exact Hw].
  - unfold SendTimeData_to_ascii. destruct W as (Wa & W1 & W2).
    match goal with |- exists b, expect (ascii_try_from ?X) ?e = _ /\ _ => assert (Hw : wire (MSendTimeData m) X) end.
    { exists (match ee_armed_state m with Some s => [ArmedState_u8 s] | None => [] end).
      exists (48 + ee_area m), (TimeDataType_u8 (ee_ty m)), (fmt_pad 3 (ee_timer1 m)), (fmt_pad 3 (ee_timer2 m)).
      rewrite (dec_canon_1 (ee_area m) (fmt_dec (ee_area m))); [|unfold area_ok in Wa; lia|apply fmt_dec_1; unfold area_ok in Wa; lia].
      split; [reflexivity|]. split; [exact Wa|]. split; [reflexivity|]. split; [apply TimeDataType_u8_spec|].
      split; [apply pad_canon; [discriminate | cbn; lia]|]. split; [apply pad_canon; [discriminate | cbn; lia]|].
      destruct (ee_armed_state m); [|reflexivity]. eexists. split; [reflexivity | apply ArmedState_u8_spec]. }
    eexists. split; [apply FIN; exact Hw | exact Hw].
  - unfold SendCode_to_ascii. destruct W as (W1 & W2 & W3 & W4).
    match goal with |- exists b, expect (ascii_try_from ?X) ?e = _ /\ _ => assert (Hw : wire (MSendCode m) X) end.
    { exists (map hex_byte (ic_code m)), (fmt_pad 3 (ic_user m)), (fmt_pad 2 (ic_keypad m)).
      rewrite <- flat_map_concat_map. split; [reflexivity|].
      split. { apply F2_map_in. intros x Hx. apply hex_byte_spec. unfold u8s in W2. rewrite Forall_forall in W2. auto. }
      split; [rewrite map_length; exact W1|].
      split; [apply pad_canon; [discriminate | cbn; lia]|].
      split; [apply pad_canon; [discriminate | unfold keypad_ok in W4; cbn; lia]|]. exact W4. }
    eexists. split; [apply FIN; exact Hw | exact Hw].
  - eexists. split; [apply FIN; reflexivity | reflexivity].
  - unfold RtcResponse_to_ascii.
    match goal with |- exists b, expect (ascii_try_from ?X) ?e = _ /\ _ => assert (Hw : wire (MRtcResponse rtc_data) X) end.
    { eexists. split; [reflexivity | apply rtc_to_layout; exact W]. }
    eexists. split; [apply FIN; exact Hw | exact Hw].
  - unfold SdReq_to_ascii.
    match goal with |- exists b, expect (ascii_try_from ?X) ?e = _ /\ _ => assert (Hw : wire (MStringDescriptionRequest m) X) end.
    { pose proof (TextDescriptionType_u8_spec (sdq_ty m)) as HT. pose proof (text_type_lt _ _ HT).
      cbv beta iota delta [wf_message] in W.
      eexists _, _, _. split; [reflexivity|]. split; [exact HT|].
      split; apply pad_canon; try discriminate; cbn; lia. }
    eexists. split; [apply FIN; exact Hw | exact Hw].
  - unfold SdResp_to_ascii, as_padded_str. destruct W as (W1 & W2 & W3). rewrite utf8_printable by exact W3. cbn [bind].
    match goal with |- exists b, expect (ascii_try_from ?X) ?e = _ /\ _ => assert (Hw : wire (MStringDescriptionResponse m) X) end.
    { pose proof (TextDescriptionType_u8_spec (sd_ty m)) as HT. pose proof (text_type_lt _ _ HT).
      eexists _, _, _. split; [reflexivity|]. split; [exact HT|].
      split; [|split; [|exact W2]]; apply pad_canon; try discriminate; cbn; lia. }
    eexists. split; [apply FIN; exact Hw | exact Hw].
  - unfold ActivateTask_to_ascii.
    match goal with |- exists b, expect (ascii_try_from ?X) ?e = _ /\ _ => assert (Hw : wire (MActivateTask task) X) end.
    { eexists. split; [reflexivity|]. split; [|exact W]. cbv delta [wf_message task_ok] beta iota in W.
      apply pad_canon; [discriminate | cbn; lia]. }
    eexists. split; [apply FIN; exact Hw | exact Hw].
  - unfold TaskChange_to_ascii.
    match goal with |- exists b, expect (ascii_try_from ?X) ?e = _ /\ _ => assert (Hw : wire (MTaskChange task) X) end.
    { eexists. split; [reflexivity|]. split; [|exact W]. cbv delta [wf_message task_ok] beta iota in W.
      apply pad_canon; [discriminate | cbn; lia]. }
    eexists. split; [apply FIN; exact Hw | exact Hw].
  - unfold Heartbeat_to_ascii.
    match goal with |- exists b, expect (ascii_try_from ?X) ?e = _ /\ _ => assert (Hw : wire (MHeartbeat rtc_data) X) end.
    { eexists. split; [reflexivity | apply rtc_to_layout; exact W]. }
    eexists. split; [apply FIN; exact Hw | exact Hw].
  - unfold ZoneChange_to_ascii, fmt_hex8. destruct W as (W1 & W2).
    replace (zc_status m <? 16) with true by lia.
    match goal with |- exists b, expect (ascii_try_from ?X) ?e = _ /\ _ => assert (Hw : wire (MZoneChange m) X) end.
    { eexists _, _. split; [reflexivity|]. split; [apply pad_canon; [discriminate | unfold zone_ok in W1; cbn; lia]|].
      split; [exact W1|]. apply hex_upper_spec. exact W2. }
    eexists. split; [apply FIN; exact Hw | exact Hw].
  - eexists. split; [apply FIN; reflexivity | reflexivity].
  - unfold ZoneStatusReport_to_ascii. destruct W as (W1 & W2).
    match goal with |- exists b, expect (ascii_try_from ?X) ?e = _ /\ _ => assert (Hw : wire (MZoneStatusReport zones) X) end.
    { eexists. split; [reflexivity|]. split; [rewrite map_length; exact W1|].
      apply F2_map_in. intros x Hx. rewrite Forall_forall in W2. specialize (W2 x Hx).
      unfold ZoneStatus_to_ascii. pose proof (hex_nibble_spec x) as H. rewrite N.mod_small in H by lia. exact H. }
    eexists. split; [apply FIN; exact Hw | exact Hw].
Qed.

Ltac cf := apply canon_field; [discriminate | | eassumption].
Lemma wire_grammar m body : wf_message m -> wire m body -> grammar m body.
Proof.
  intros W H. destruct m; cbv beta iota delta [wire] in H; cbv beta iota delta [wf_message] in W; unfold grammar.
  - exists (B "00"). split; [|cbn; lia]. destruct H as (l & a & -> & H1 & H2 & H3 & H4).
    exists l, a. split_all; auto; try apply H3; try apply H4. cf. unfold area_ok in H3. lia.
  - exists (B "00"). split; [exact H | cbn; lia].
  - exists []. exact H.
  - destruct H as (s & a & ty & t1 & t2 & -> & H1 & H2 & H3 & H4 & H5 & H6). destruct W as (Wa & W1 & W2).
    exists (B "00"), s. split; [|destruct (ee_armed_state m); cbn; lia].
    exists a, ty, t1, t2. split_all; auto; try apply H1; cf; assumption.
  - exists (B "00"). split; [|cbn; lia]. destruct H as (code & u & k & -> & F & Lc & H1 & H2 & H3). destruct W as (_ & _ & W & _).
    exists code, u, k. split_all; auto; try apply H3; cf; try assumption. unfold keypad_ok in H3. lia.
  - exists (B "00"). split; [exact H | cbn; lia].
  - exists []. destruct H as (d & -> & se & mi & h & wd & d' & mo & y & ds & cd & dd & -> & H1 & H2 & H3 & H4 & H5 & H6 & H7 & H8 & H9 & H10 & HD).
    eexists. split; [reflexivity|]. unfold datetime_ok in W.
    exists se, mi, h, wd, d', mo, y, ds, cd, dd. split; [reflexivity|].
    repeat match goal with |- dec_field _ _ _ /\ _ => split; [cf; lia|] | |- _ /\ _ => split; [assumption|] end. exact HD.
  - exists (B "00"). destruct H as (ty & t & n & -> & H1 & H2 & H3). exists ty, t, n. pose proof (text_type_lt _ _ H1).
    split_all; auto; cf; lia.
  - exists (B "00"). destruct H as (ty & t & n & -> & H1 & H2 & H3 & L). exists ty, t, n. pose proof (text_type_lt _ _ H1).
    split_all; auto; cf; lia.
  - exists (B "00"). destruct H as (n & -> & H & HT). exists n. split_all; auto; try apply HT. cf. unfold task_ok in HT. lia.
  - exists (B "000"). destruct H as (n & -> & H & HT). exists n. split_all; auto; try apply HT. cf. unfold task_ok in HT. lia.
  - exists []. destruct H as (d & -> & se & mi & h & wd & d' & mo & y & ds & cd & dd & -> & H1 & H2 & H3 & H4 & H5 & H6 & H7 & H8 & H9 & H10 & HD).
    eexists. split; [reflexivity|]. unfold datetime_ok in W.
    exists se, mi, h, wd, d', mo, y, ds, cd, dd. split; [reflexivity|].
    repeat match goal with |- dec_field _ _ _ /\ _ => split; [cf; lia|] | |- _ /\ _ => split; [assumption|] end. exact HD.
  - exists (B "00"). destruct H as (n & c & -> & H & HZ & Hd). exists n, c. split_all; auto; try apply HZ. cf. unfold zone_ok in HZ. lia.
  - exists (B "00"). split; [exact H | cbn; lia].
  - exists (B "00"). exact H.
Qed.

Lemma F2_fun {A C} (R : A -> C -> Prop) l a b :
  (forall x y z, R x y -> R x z -> y = z) -> Forall2 R l a -> Forall2 R l b -> a = b.
Proof.
  intros H F. revert b. induction F; intros b G; inversion G; subst; [reflexivity|]. f_equal; eauto.
Qed.
Ltac nd := repeat constructor; cbn; intuition discriminate.
Lemma arm_level_fun v c d : arm_level_code v c -> arm_level_code v d -> c = d.
Proof. apply coded_fun. nd. Qed.
Lemma arming_status_fun v c d : arming_status_code v c -> arming_status_code v d -> c = d.
Proof. apply coded_fun. nd. Qed.
Lemma arm_up_fun v c d : arm_up_code v c -> arm_up_code v d -> c = d.
Proof. apply coded_fun. nd. Qed.
Lemma alarm_fun v c d : alarm_code v c -> alarm_code v d -> c = d.
Proof. apply coded_fun. nd. Qed.
Lemma armed_state_fun v c d : armed_state_code v c -> armed_state_code v d -> c = d.
Proof. apply coded_fun. nd. Qed.
Lemma weekday_fun v c d : weekday_code v c -> weekday_code v d -> c = d.
Proof. apply coded_fun. nd. Qed.
Lemma time_type_fun v c d : time_type_code v c -> time_type_code v d -> c = d.
Proof. apply coded_fun. nd. Qed.
Lemma bool_code_fun v c d : bool_code v c -> bool_code v d -> c = d.
Proof. apply coded_fun. nd. Qed.
Lemma clock_fun v c d : clock_code v c -> clock_code v d -> c = d.
Proof. apply coded_fun. nd. Qed.
Lemma date_fun v c d : date_code v c -> date_code v d -> c = d.
Proof. apply coded_fun. nd. Qed.
Lemma text_type_fun v c d : text_type_number v c -> text_type_number v d -> c = d.
Proof. apply coded_fun. nd. Qed.

Ltac ceq := repeat match goal with
  | H : dec_canon ?w ?n ?s, H' : dec_canon ?w ?n ?t |- _ => pose proof (dec_canon_fun _ _ _ _ H H'); subst t; clear H'
  | H : arm_level_code ?v ?s, H' : arm_level_code ?v ?t |- _ => pose proof (arm_level_fun _ _ _ H H'); subst t; clear H'
  | H : armed_state_code ?v ?s, H' : armed_state_code ?v ?t |- _ => pose proof (armed_state_fun _ _ _ H H'); subst t; clear H'
  | H : weekday_code ?v ?s, H' : weekday_code ?v ?t |- _ => pose proof (weekday_fun _ _ _ H H'); subst t; clear H'
  | H : time_type_code ?v ?s, H' : time_type_code ?v ?t |- _ => pose proof (time_type_fun _ _ _ H H'); subst t; clear H'
  | H : bool_code ?v ?s, H' : bool_code ?v ?t |- _ => pose proof (bool_code_fun _ _ _ H H'); subst t; clear H'
  | H : clock_code ?v ?s, H' : clock_code ?v ?t |- _ => pose proof (clock_fun _ _ _ H H'); subst t; clear H'
  | H : date_code ?v ?s, H' : date_code ?v ?t |- _ => pose proof (date_fun _ _ _ H H'); subst t; clear H'
  | H : text_type_number ?v ?s, H' : text_type_number ?v ?t |- _ => pose proof (text_type_fun _ _ _ H H'); subst t; clear H'
  | H : hex2 ?v ?s, H' : hex2 ?v ?t |- _ => pose proof (hex2_fun _ _ _ H H'); subst t; clear H'
  | H : hex_digit ?v ?s, H' : hex_digit ?v ?t |- _ => pose proof (hex_digit_fun _ _ _ H H'); subst t; clear H'
  end.

(* the documented wire format of a message is unique *)
Lemma wire_fun m a b : wire m a -> wire m b -> a = b.
Proof.
  intros H G. destruct m; cbv beta iota delta [wire] in H, G; try congruence.
  - destruct H as (? & ? & -> & ? & ? & _). destruct G as (? & ? & -> & ? & ? & _). ceq. reflexivity.
  - destruct H as (? & ? & ? & ? & -> & F1 & _ & F2 & _ & F3 & _ & H). destruct G as (? & ? & ? & ? & -> & G1 & _ & G2 & _ & G3 & _ & G).
    ceq. rewrite (F2_fun _ _ _ _ arming_status_fun F1 G1), (F2_fun _ _ _ _ arm_up_fun F2 G2), (F2_fun _ _ _ _ alarm_fun F3 G3). reflexivity.
  - destruct H as (s & ? & ? & ? & ? & -> & _ & H & ? & ? & ? & Hs). destruct G as (t & ? & ? & ? & ? & -> & _ & G & ? & ? & ? & Ht).
    ceq. subst. destruct (ee_armed_state m).
    + destruct Hs as (? & -> & ?), Ht as (? & -> & ?). ceq. reflexivity.
    + congruence.
  - destruct H as (? & ? & ? & -> & F & _ & ? & ? & _). destruct G as (? & ? & ? & -> & G & _ & ? & ? & _).
    ceq. rewrite (F2_fun _ _ _ _ hex2_fun F G). reflexivity.
  - destruct H as (? & -> & ? & ? & ? & ? & ? & ? & ? & ? & ? & ? & -> & ? & ? & ? & ? & ? & ? & ? & ? & ? & ? & _).
    destruct G as (? & -> & ? & ? & ? & ? & ? & ? & ? & ? & ? & ? & -> & ? & ? & ? & ? & ? & ? & ? & ? & ? & ? & _).
    ceq. reflexivity.
  - destruct H as (? & ? & ? & -> & ? & ? & ?). destruct G as (? & ? & ? & -> & ? & ? & ?). ceq. reflexivity.
  - destruct H as (? & ? & ? & -> & ? & ? & ? & _). destruct G as (? & ? & ? & -> & ? & ? & ? & _). ceq. reflexivity.
  - destruct H as (? & -> & ? & _). destruct G as (? & -> & ? & _). ceq. reflexivity.
  - destruct H as (? & -> & ? & _). destruct G as (? & -> & ? & _). ceq. reflexivity.
  - destruct H as (? & -> & ? & ? & ? & ? & ? & ? & ? & ? & ? & ? & -> & ? & ? & ? & ? & ? & ? & ? & ? & ? & ? & _).
    destruct G as (? & -> & ? & ? & ? & ? & ? & ? & ? & ? & ? & ? & -> & ? & ? & ? & ? & ? & ? & ? & ? & ? & ? & _).
    ceq. reflexivity.
  - destruct H as (? & ? & -> & ? & _ & ?). destruct G as (? & ? & -> & ? & _ & ?). ceq. reflexivity.
  - destruct H as (? & -> & _ & F). destruct G as (? & -> & _ & G).
    rewrite (F2_fun _ _ _ _ (fun x y z => hex_digit_fun (N.to_nat x) y z) F G). reflexivity.
Qed.

Lemma grammar_fun body m n : grammar m body -> grammar n body -> m = n.
Proof. intros H G. apply parse_some_iff in H, G. congruence. Qed.

Lemma to_pkt_spec m : wf_message m -> exists body, to_pkt m = Ok (PAscii body) /\ wire m body /\ ascii_body body
  /\ parse_ascii body = Ok (Some m).
Proof.
  intros W. destruct (to_ascii_wire m W) as (body & E & Hw). exists body. unfold to_pkt. rewrite E. cbn [bind].
  split; [reflexivity|]. split; [exact Hw|]. split; [eapply wire_ascii; eassumption|].
  apply parse_some_iff. apply wire_grammar; assumption.
Qed.
