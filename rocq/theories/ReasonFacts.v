(* ReasonFacts.v: lemmas for the error texts (C81, C82). *)
From Verif Require Import Base BaseFacts Pkt SpecPkt CrcFacts PktFacts DecodeFacts Msg SpecMsg DecFacts IsoFacts MsgFacts ShowFacts SpecReason.
From Coq Require Import ZifyBool ZifyNat ZifyN.
Ltac Zify.zify_post_hook ::= Z.div_mod_to_equations.

(* ---- following a list of checks ---- *)
Definition follows {A} (m : res A) (l : list check) : Prop :=
  match m with Ok _ => Forall fst l | Err w => first_violated l w | Panic _ => False end.
Lemma fv_app_r l1 l2 w : Forall fst l1 -> first_violated l2 w -> first_violated (l1 ++ l2) w.
Proof. intros F H. induction F as [|[P t] l1 HP _ IH]; [exact H|]. cbn. apply FV_later; auto. Qed.
Lemma fv_app_l l1 l2 w : first_violated l1 w -> first_violated (l1 ++ l2) w.
Proof. induction 1; cbn; [apply FV_here | apply FV_later]; auto. Qed.
Lemma fv_not_all l w : first_violated l w -> ~ Forall fst l.
Proof. induction 1; intros F; inversion F; subst; cbn in *; auto. Qed.
Lemma fv_fun l w : first_violated l w -> forall w', first_violated l w' -> w = w'.
Proof. induction 1; intros w' H'; inversion H'; subst; auto; contradiction. Qed.
Lemma follows_err {A} (m : res A) l w : follows m l -> (m = Err w <-> first_violated l w).
Proof.
  destruct m; cbn; intros H; split; try discriminate; try contradiction.
  - intros V. destruct (fv_not_all _ _ V H).
  - intros [= <-]. exact H.
  - intros V. rewrite (fv_fun _ _ V _ H). reflexivity.
Qed.
Lemma follows_ok {A} (m : res A) l : follows m l -> ((exists x, m = Ok x) <-> Forall fst l).
Proof.
  destruct m; cbn; intros H; split; try contradiction; eauto.
  - intros (x & E). discriminate.
  - intros F. destruct (fv_not_all _ _ H F).
Qed.
Lemma follows_bind {A C} (m : res A) (k : A -> res C) l1 l2 : follows m l1 -> (forall x, m = Ok x -> follows (k x) l2) -> follows (bind m k) (l1 ++ l2).
Proof.
  destruct m as [x|w|w]; cbn; intros F H.
  - specialize (H x eq_refl). destruct (k x); cbn in *; [apply Forall_app; auto | apply fv_app_r; auto | exact H].
  - apply fv_app_l. exact F.
  - exact F.
Qed.
Lemma follows_map {A C} (m : res A) (f : A -> C) l : follows m l -> follows (x <- m ;; Ok (f x)) l.
Proof. destruct m; auto. Qed.
Lemma follows_if {A} (b : bool) (P : Prop) w (m : res A) l : (b = false <-> P) -> (P -> follows m l) -> follows (if b then Err w else m) (req P w :: l).
Proof.
  intros E H. destruct b.
  - apply FV_here. rewrite <- E. discriminate.
  - assert (X : P) by (apply E; reflexivity). specialize (H X). destruct m; cbn in *; [constructor; auto | apply FV_later; auto | exact H].
Qed.
Lemma follows_one {A} (m : res A) (P : Prop) w : (forall x, m = Ok x -> P) -> (P -> exists x, m = Ok x) -> (m = Err w \/ exists x, m = Ok x) -> follows m [req P w].
Proof.
  intros H1 H2 [-> | (x & ->)].
  - apply FV_here. intros X. destruct (H2 X) as (x & E). discriminate.
  - constructor; [cbn; eapply H1; reflexivity | constructor].
Qed.
Lemma follows_mapM {A C} (f : A -> res C) g l : (forall x, In x l -> follows (f x) (g x)) -> follows (mapM f l) (flat_map g l).
Proof.
  induction l as [|x l IH]; intros H; [constructor|]. cbn [mapM flat_map]. apply follows_bind; [apply H; left; reflexivity|].
  intros y _. apply follows_map. apply IH. intros z Hz. apply H. right. exact Hz.
Qed.
Lemma slice_part s a b : (a <= b)%nat -> (b <= length s)%nat -> slice s a b = Ok (part s a b).
Proof. intros H1 H2. unfold slice, part. replace ((a <=? b)%nat && (b <=? length s)%nat)%bool with true by lia. reflexivity. Qed.
Lemma index_byte s i : (i < length s)%nat -> index s i = Ok (byte i s).
Proof. intros H. unfold index, byte. rewrite (nth_error_nth' s 0 H). reflexivity. Qed.
Lemma part_length s a b : (a <= b)%nat -> (b <= length s)%nat -> length (part s a b) = (b - a)%nat.
Proof. intros H1 H2. unfold part. rewrite firstn_length, skipn_length. lia. Qed.

(* ---- numbers ---- *)
Lemma field_value_of w n s : dec_field w n s -> field_value s = n.
Proof.
  intros (_ & _ & ds & [-> | ->] & NE & D & E); unfold field_value; [|exact E].
  destruct ds as [|c ds]; [contradiction|]. inversion D as [|? ? Hc _]; subst. change (ch "0") with 48 in Hc. change (ch "9") with 57 in Hc. change (ch "+") with 43.
  replace (c =? 43) with false by lia. reflexivity.
Qed.
Lemma u8_follows name s : follows (parse_u8_dec name s) (a_number name s).
Proof.
  unfold a_number. pose proof (parse_u8_dec_spec name s) as S. unfold parse_u8_dec in *. destruct (utf8_valid s) eqn:U.
  - destruct (from_str_dec 255 s) as [n|] eqn:F; cbn.
    + repeat constructor. cbn. exists n. apply S. reflexivity.
    + apply FV_later; [reflexivity|]. apply FV_here. intros (n & H). apply S in H. discriminate.
  - cbn. apply FV_here. discriminate.
Qed.
Lemma u8_value name s n : parse_u8_dec name s = Ok n -> n = field_value s /\ dec_field (length s) n s.
Proof. intros H. apply parse_u8_dec_spec in H. split; [symmetry; eapply field_value_of; exact H | exact H]. Qed.
Lemma limited_follows max n s : n = field_value s -> follows (limited_try_from max n) [limited max s].
Proof.
  intros ->. unfold limited. apply follows_one.
  - intros x H. apply limited_spec in H. tauto.
  - intros H. exists (field_value s). apply limited_spec. auto.
  - unfold limited_try_from. destruct (_ && _)%bool; [right; eauto | left; reflexivity].
Qed.
Ltac enum_follows S := intros; unfold one_of; apply follows_one;
  [intros x H; exists x; apply S; exact H | intros (v & H); exists v; apply S; exact H
  | match goal with |- ?f ?c = _ \/ _ => unfold f end; repeat match goal with |- context [if ?b then _ else _] => destruct b; [right; eauto; fail|] end; left; reflexivity].
Lemma F_ArmingStatus c : follows (ArmingStatus_try_from c) [one_of arming_status_code "ArmingStatus" c].
Proof. enum_follows ArmingStatus_spec. Qed.
Lemma F_ArmUpState c : follows (ArmUpState_try_from c) [one_of arm_up_code "ArmUpState" c].
Proof. enum_follows ArmUpState_spec. Qed.
Lemma F_AlarmState c : follows (AlarmState_try_from c) [one_of alarm_code "AlarmState" c].
Proof. enum_follows AlarmState_spec. Qed.
Lemma F_ArmedState c : follows (ArmedState_try_from c) [one_of armed_state_code "ArmedState" c].
Proof. enum_follows ArmedState_spec. Qed.
Lemma F_Weekday c : follows (Weekday_try_from c) [one_of weekday_code "Weekday" c].
Proof. enum_follows Weekday_spec. Qed.
Lemma F_TimeDataType c : follows (TimeDataType_try_from c) [one_of time_type_code "TimeDataType" c].
Proof. enum_follows TimeDataType_spec. Qed.
Lemma F_Clock c : follows (ClockDisplayMode_try_from c) [one_of clock_code "ClockDisplayMode" c].
Proof. enum_follows ClockDisplayMode_spec. Qed.
Lemma F_Date c : follows (DateDisplayMode_try_from c) [one_of date_code "DateDisplayMode" c].
Proof. enum_follows DateDisplayMode_spec. Qed.
Lemma F_TextType c : follows (TextDescriptionType_try_from c) [req (exists v, text_type_number v c) ("bad TextDescriptionType " ++ show_dec c)].
Proof.
  apply follows_one; [intros x H; exists x; apply TextDescriptionType_spec; exact H | intros (v & H); exists v; apply TextDescriptionType_spec; exact H|].
  unfold TextDescriptionType_try_from. repeat match goal with |- context [if ?b then _ else _] => destruct b; [right; eauto; fail|] end. left. reflexivity.
Qed.
Lemma F_ZoneStatus c : follows (ZoneStatus_from_ascii c) [hexadigit c].
Proof.
  apply follows_one.
  - intros x H. apply ZoneStatus_from_spec in H. eexists. exact H.
  - intros (i & H). exists (N.of_nat i). apply ZoneStatus_from_spec. rewrite Nat2N.id. exact H.
  - unfold ZoneStatus_from_ascii. destruct (dehex_nibble_nopanic c) as [-> | [v ->]]; eauto.
Qed.
Lemma dehex_follows {A} a b w (k : N -> A) : follows (match dehex_byte a b with Ok v => Ok (k v) | Err _ => Err w | Panic p => Panic p end) [req (is_hex_digit a /\ is_hex_digit b) w].
Proof.
  pose proof (is_ok_dehex_byte a b) as I. destruct (dehex_byte_nopanic a b) as [E | [n E]]; rewrite E in *; cbn in *.
  - apply FV_here. rewrite <- I. discriminate.
  - repeat constructor; apply I; reflexivity.
Qed.
Lemma follows_ext {A} (m : res A) l l' : l = l' -> follows m l -> follows m l'.
Proof. intros ->. auto. Qed.
Lemma follows_cons {A C} (m : res A) (k : A -> res C) c l2 : follows m [c] -> (forall x, m = Ok x -> follows (k x) l2) -> follows (bind m k) (c :: l2).
Proof. intros H1 H2. apply (follows_bind m k [c] l2); assumption. Qed.
(* a requirement that is met *)
Lemma follows_skip {A} (m : res A) (P : Prop) w l : P -> follows m l -> follows m (req P w :: l).
Proof. intros HP H. destruct m; cbn in *; [constructor; auto | apply FV_later; auto | exact H]. Qed.
Ltac fetch := repeat (first [rewrite slice_part by lia | rewrite index_byte by lia]; cbn [bind]).

Lemma arm_follows lvl c data : arm_level_code lvl c -> follows (ArmRequest_from_ascii c data) (arm_checks data).
Proof.
  intros HL. unfold ArmRequest_from_ascii, arm_checks. rewrite (proj2 (ArmLevel_spec _ _) HL). cbn [expect bind].
  apply follows_if; [lia|]. intros L. fetch. apply follows_bind; [apply u8_follows|]. intros n E. apply u8_value in E as [E _].
  apply follows_cons; [apply limited_follows; exact E|]. intros ar _. fetch. apply follows_map. apply follows_one.
  - intros x H. apply ArmCode_slice_spec in H as [[_ D] _]. exact D.
  - intros D. exists (part data 1 7). apply ArmCode_slice_spec. repeat split; [apply part_length; lia | exact D].
  - unfold ArmCode_try_from_slice. rewrite part_length by lia. cbn [Nat.sub Nat.eqb negb]. destruct (existsb _ _); eauto.
Qed.
Lemma as_follows data : follows (ArmingStatusReport_from_ascii_data data) (as_checks data).
Proof.
  unfold ArmingStatusReport_from_ascii_data, as_checks, AS_loop, NUM_AREAS. apply (follows_if _ _ "expected at least 26 data"); [lia|]. intros L.
  apply follows_bind.
  - apply follows_mapM. intros i Hi. apply in_seq in Hi. fetch. apply follows_cons; [apply F_ArmingStatus|]. intros s _. fetch.
    apply follows_cons; [apply F_ArmUpState|]. intros u _. fetch. apply follows_map, F_AlarmState.
  - intros l _. fetch. apply follows_map. pose proof (dehex_follows (byte 24 data) (byte 25 data) "bad first_exit_time" (fun v => v)) as D.
    destruct (dehex_byte _ _); exact D.
Qed.
Lemma ee_follows data : follows (SendTimeData_from_ascii_data data) (ee_checks data).
Proof.
  unfold SendTimeData_from_ascii_data, ee_checks, at_least. apply (follows_if _ _ ("expected at least 10 bytes, got " ++ show_len data)); [lia|]. intros L. fetch.
  apply follows_cons.
  { unfold area_ok. change (ch "1") with 49. change (ch "8") with 56. change (ch "0") with 48. apply follows_one.
    - intros x. destruct ((49 <=? byte 0 data) && (byte 0 data <=? 56))%bool eqn:E; [|discriminate]. lia.
    - intros H. replace ((49 <=? byte 0 data) && (byte 0 data <=? 56))%bool with true by lia. eauto.
    - destruct (_ && _)%bool; eauto. }
  intros a _. fetch. apply follows_cons; [apply F_TimeDataType|]. intros ty _. fetch. apply follows_bind; [apply u8_follows|]. intros t1 _. fetch.
  apply follows_bind; [apply u8_follows|]. intros t2 _. apply follows_map. destruct (Nat.ltb_spec (length data) 11) as [H|H].
  - repeat constructor. cbn. lia.
  - fetch. apply follows_map. pose proof (F_ArmedState (byte 8 data)) as F. destruct (ArmedState_try_from (byte 8 data)); cbn in F |- *; [|inversion F as [? ? ? X | ? ? ? ? ? X]; subst; [apply FV_here; intros Y; apply X, Y; lia | inversion X]|exact F].
    inversion F; subst. repeat constructor. intros _. assumption.
Qed.
Lemma part12 (s : bytes) : (12 <= length s)%nat -> part s 0 12 = flat_map (fun i => [byte (2 * i) s; byte (2 * i + 1) s]) (seq 0 6).
Proof. intros H. unfold part, byte. do 12 (destruct s as [|? s]; [cbn in H; lia|]). reflexivity. Qed.
Lemma ic_follows data : follows (SendCode_from_ascii_data data) (ic_checks data).
Proof.
  unfold SendCode_from_ascii_data, ic_checks, at_least. apply (follows_if _ _ ("expected at least 19 bytes, got " ++ show_len data)); [lia|]. intros L.
  apply follows_cons.
  - rewrite part12 by lia. set (f := fun i => hi <- index data (2 * i) ;; _).
    assert (G : forall l, (forall i, In i l -> (2 * i + 1 < length data)%nat) -> follows (mapM f l) [req (Forall is_hex_digit (flat_map (fun i => [byte (2 * i) data; byte (2 * i + 1) data]) l)) "invalid hex code"]).
    { induction l as [|i l IH]; intros H; [repeat constructor|]. cbn [mapM flat_map]. unfold f at 1. rewrite (index_byte data (2 * i)) by (specialize (H i (or_introl eq_refl)); lia). cbn [bind].
      rewrite (index_byte data (2 * i + 1)) by (apply H; left; reflexivity). cbn [bind].
      pose proof (is_ok_dehex_byte (byte (2 * i) data) (byte (2 * i + 1) data)) as I. destruct (dehex_byte_nopanic (byte (2 * i) data) (byte (2 * i + 1) data)) as [E | [n E]]; rewrite E in *; cbn in I |- *.
      - apply FV_here. intros F. inversion F as [|? ? H1 F']; subst. inversion F' as [|? ? H2 _]; subst. discriminate (proj2 I (conj H1 H2)).
      - specialize (IH (fun j Hj => H j (or_intror Hj))). destruct (mapM f l); cbn in IH |- *.
        + destruct (proj1 I eq_refl). inversion IH; subst. constructor; [|constructor]. cbn. repeat constructor; assumption.
        + inversion IH as [? ? ? X | ? ? ? ? ? X]; subst; [|inversion X]. apply FV_here. intros F. inversion F as [|? ? _ F']; subst. inversion F'; subst. auto.
        + exact IH. }
    apply G. intros i Hi. apply in_seq in Hi. lia.
  - intros code _. fetch. apply follows_bind; [apply u8_follows|]. intros u _. fetch. apply follows_bind; [apply u8_follows|]. intros k E. apply u8_value in E as [E _].
    apply follows_map, limited_follows. exact E.
Qed.
Lemma two_digits n s : dec_field (length s) n s -> length s = 2%nat -> n < 100.
Proof. intros H L. apply dec_field_lt in H as (H & _). rewrite L in H. exact H. Qed.
Lemma dst_follows c : follows (if c =? ch "0" then Ok false else if c =? ch "1" then Ok true else Err "bad dst flag") [req (exists v, bool_code v c) "bad dst flag"].
Proof.
  apply follows_one.
  - intros x H. exists x. apply dst_spec. exact H.
  - intros (v & H). exists v. apply dst_spec. exact H.
  - destruct (c =? ch "0"); [eauto|]. destruct (c =? ch "1"); eauto.
Qed.
Lemma rtc_follows data : follows (RtcData_from_ascii data) (rtc_checks data).
Proof.
  unfold RtcData_from_ascii, rtc_checks. apply follows_if; [lia|]. intros L. fetch. apply follows_bind; [apply u8_follows|].
  intros y E. apply u8_value in E as [_ E]. apply two_digits in E; [|apply part_length; lia]. replace (negb (y <? 100)) with false by lia. fetch.
  assert (N1 : forall name s (b : N -> bool) lo hi w A (k : N -> res A) l, (forall n, b n = false <-> lo <= n <= hi) -> w = (name ++ " out of range")%string -> (forall n, follows (k n) l) ->
    follows (n <- parse_u8_dec name s ;; if b n then Err w else k n) (ranged name s lo hi ++ l)).
  { intros name s b lo hi w A k l H -> K. unfold ranged. rewrite <- app_assoc. apply follows_bind; [apply u8_follows|]. intros n E1. apply u8_value in E1 as [-> _]. apply follows_if; [apply H | intros _; apply K]. }
  apply (N1 "month"%string _ _ _ _ _ _ (fun mo => _)); [unfold in_range; lia | reflexivity|]. intros mo. fetch.
  apply (N1 "day"%string _ _ _ _ _ _ (fun d => _)); [unfold in_range; lia | reflexivity|]. intros d. fetch.
  apply (N1 "hour"%string _ _ _ _ _ _ (fun d => _)); [lia | reflexivity|]. intros h. fetch.
  apply (N1 "minute"%string _ _ _ _ _ _ (fun d => _)); [lia | reflexivity|]. intros mi. fetch.
  apply (N1 "second"%string _ _ _ _ _ _ (fun d => _)); [lia | reflexivity|]. intros se. fetch.
  apply follows_cons; [apply F_Weekday|]. intros wd _. fetch. apply follows_cons; [apply dst_follows|]. intros ds _. fetch.
  apply follows_cons; [apply F_Clock|]. intros cd _. fetch. apply follows_map, F_Date.
Qed.
Lemma type_follows s t : t = field_value s -> follows (TextDescriptionType_try_from t) [text_type s].
Proof. intros ->. apply F_TextType. Qed.
Lemma sdq_follows data : follows (SdReq_from_ascii_data data) (sdq_checks data).
Proof.
  unfold SdReq_from_ascii_data, sdq_checks, at_least. apply (follows_if _ _ ("expected at least 5 bytes, got " ++ show_len data)); [lia|]. intros L. fetch.
  apply follows_bind; [apply u8_follows|]. intros t E. apply u8_value in E as [E _]. apply follows_bind; [apply type_follows; exact E|]. intros ty _. fetch. apply follows_map, u8_follows.
Qed.
Lemma sd_follows data : follows (SdResp_from_ascii_data data) (sd_checks data).
Proof.
  unfold SdResp_from_ascii_data, sd_checks. apply follows_if; [lia|]. intros L. fetch.
  apply follows_bind; [apply u8_follows|]. intros t E. apply u8_value in E as [E _]. apply follows_bind; [apply type_follows; exact E|]. intros ty _. fetch.
  rewrite <- (app_nil_r (a_number _ _)). apply follows_bind; [apply u8_follows|]. intros n _. fetch. constructor.
Qed.
Lemma tn_follows data : follows (ActivateTask_from_ascii_data data) (task_checks data).
Proof.
  unfold ActivateTask_from_ascii_data, task_checks, at_least. apply (follows_if _ _ ("expected at least 3 bytes, got " ++ show_len data)); [lia|]. intros L. fetch.
  apply follows_bind; [apply u8_follows|]. intros t E. apply u8_value in E as [E _]. apply limited_follows. exact E.
Qed.
Lemma zc_follows data : follows (ZoneChange_from_ascii_data data) (zc_checks data).
Proof.
  unfold ZoneChange_from_ascii_data, zc_checks, at_least. apply (follows_if _ _ ("expected at least 4 bytes, got " ++ show_len data)); [lia|]. intros L. fetch.
  apply follows_bind; [apply u8_follows|]. intros t E. apply u8_value in E as [E _]. apply follows_cons; [apply limited_follows; exact E|]. intros z _. fetch.
  apply follows_map, F_ZoneStatus.
Qed.
Lemma zs_follows data : follows (ZoneStatusReport_from_ascii_data data) (zs_checks data).
Proof.
  unfold ZoneStatusReport_from_ascii_data, zs_checks, at_least, NUM_ZONES. apply (follows_if _ _ ("expected at least " ++ show_dec 208 ++ " bytes, got " ++ show_len data)); [lia|]. intros L.
  replace (map (fun i => hexadigit (byte i data)) (seq 0 208)) with (flat_map (fun i => [hexadigit (byte i data)]) (seq 0 208)) by (induction (seq 0 208) as [|i l IH]; [reflexivity|]; cbn [flat_map map app]; f_equal; exact IH).
  apply follows_mapM. intros i Hi. apply in_seq in Hi. fetch. apply F_ZoneStatus.
Qed.

(* ---- messages ---- *)
Lemma malformed_iff body why : parse_ascii body = Err why <-> malformed body why.
Proof.
  destruct (Nat.lt_ge_cases (length body) 4) as [L|L].
  - unfold parse_ascii. replace (length body <? 4)%nat with true by lia. split.
    + intros [= <-]. apply MF_short. exact L.
    + intros M. inversion M as [H | lvl c data w Eb HL Hl V | cmd data l w Eb Hl HI V]; subst; [reflexivity | rewrite app_length in L; cbn in L; lia|].
      rewrite app_length in L. assert (length cmd = 2%nat); [|lia]. cbn [checks_of In] in HI. repeat destruct HI as [HI | HI]; try contradiction; injection HI as <- _; reflexivity.
  - destruct body as [|c0 [|c1 data]]; cbn [length] in L; try lia. assert (L2 : (2 <= length data)%nat) by lia. clear L.
    assert (U : forall cmd d, (exists l, In (cmd, l) (checks_of d)) -> c0 :: c1 :: data = cmd ++ d -> cmd = [c0; c1] /\ d = data).
    { intros cmd d (l & HI) E. assert (length cmd = 2%nat) by (cbn [checks_of In] in HI; repeat destruct HI as [HI | HI]; try contradiction; injection HI as <- _; reflexivity).
      destruct cmd as [|x [|y [|z cmd]]]; try discriminate. injection E as -> -> ->. auto. }
    assert (NA : ~ (c0 = 97 /\ exists v, arm_level_code v c1) -> malformed (c0 :: c1 :: data) why <-> exists l, In ([c0; c1], l) (checks_of data) /\ first_violated l why).
    { intros NA. split.
      - intros M. inversion M as [H | lvl c d w Eb HL Hl V | cmd d l w Eb Hl HI V]; subst; [cbn in H; lia | | destruct (U cmd d) as [-> ->]; eauto].
        injection Eb as -> -> ->. destruct NA. eauto.
      - intros (l & HI & V). eapply (MF_other _ [c0; c1] data); eauto. }
    rewrite parse_ascii_cons by exact L2. destruct (existsb (beq [c0; c1]) arm_cmds) eqn:EA.
    + apply arm_cmd_iff in EA as [-> (v & HV)]. pose proof (follows_map _ (fun m => Some (MArmRequest m)) _ (arm_follows v c1 data HV)) as F.
      rewrite (follows_err _ _ why F). split; [intros V; eapply (MF_arm _ v c1 data); eauto|].
      intros M. inversion M as [H | lvl c d w Eb HL Hl V | cmd d l w Eb Hl HI V]; subst; [cbn in H; lia | injection Eb as <- <-; exact V|].
      exfalso. destruct (U cmd d) as [-> ->]; eauto. cbn [checks_of In] in HI. repeat destruct HI as [HI | HI]; try contradiction; discriminate.
    + assert (N1 : ~ (c0 = 97 /\ exists v, arm_level_code v c1)) by (rewrite <- arm_cmd_iff; congruence). rewrite (NA N1). clear NA U EA.
      assert (K : forall A (m : res A) (f : A -> option message) l0, follows m l0 -> In ([c0; c1], l0) (checks_of data) -> (forall l, In ([c0; c1], l) (checks_of data) -> l = l0) ->
        (x <- m ;; Ok (f x)) = Err why <-> exists l, In ([c0; c1], l) (checks_of data) /\ first_violated l why).
      { intros A m f l0 F HI HU. rewrite (follows_err _ _ why (follows_map m f l0 F)). split; [eauto|]. intros (l & Hl & V). rewrite (HU l Hl) in V. exact V. }
      assert (Z : ~ (exists l, In ([c0; c1], l) (checks_of data)) -> forall o : option message, Ok o = Err why <-> exists l, In ([c0; c1], l) (checks_of data) /\ first_violated l why).
      { intros H o. split; [discriminate|]. intros (l & Hl & _). destruct H. eauto. }
      unfold checks_of in K, Z |- *. cbn [In] in K, Z |- *.
      Ltac pick K Z := first
        [ apply Z; intros (l & HI); repeat destruct HI as [HI | HI]; try contradiction; discriminate
        | eapply K; [first [exact (as_follows _) | exact (ee_follows _) | exact (ic_follows _) | exact (rtc_follows _) | exact (sdq_follows _) | exact (sd_follows _) | exact (tn_follows _) | rewrite TC_from_eq; exact (tn_follows _) | exact (zc_follows _) | exact (zs_follows _)]
                    | auto 15 | intros l HI; repeat destruct HI as [HI | HI]; try contradiction; first [discriminate HI | injection HI as <-; reflexivity] ] ].
      repeat match goal with |- (if beq ?a ?b then _ else _) = _ <-> _ => let E := fresh "E" in destruct (beq a b) eqn:E; [apply beq_eq in E; injection E as -> ->; clear - K Z; pick K Z | apply beq_neq in E] end.
      apply Z. intros (l & HI). repeat destruct HI as [HI | HI]; try contradiction; injection HI as <- <- _; congruence.
Qed.

(* ---- dates ---- *)
Lemma str_slice_part s a b : Forall (fun c => c < 128) s -> (a <= b)%nat -> (b <= length s)%nat -> str_slice s a b = Ok (part s a b).
Proof.
  intros A H1 H2. assert (Bd : forall i, (i <= length s)%nat -> is_char_boundary s i = true).
  { intros i Hi. unfold is_char_boundary. destruct i as [|i]; [reflexivity|]. destruct (nth_error s (S i)) as [c|] eqn:E.
    - apply nth_error_In in E. rewrite Forall_forall in A. specialize (A c E). unfold is_cont, between. lia.
    - apply nth_error_None in E. lia. }
  unfold str_slice. rewrite !Bd by lia. apply slice_part; assumption.
Qed.
Lemma sep_follows (x sep : bytes) w {A} (k : res A) l : follows k l -> follows (if negb (beq x sep) then Err w else k) (req (x = sep) w :: l).
Proof. intros H. apply follows_if; [|intros _; exact H]. rewrite <- beq_eq. destruct (beq x sep); cbn; split; congruence. Qed.
Lemma iso_follows s : Forall (fun c => c < 128) s -> follows (from_iso_8601 s) (iso_checks s).
Proof.
  intros A. unfold from_iso_8601, iso_checks, separator, iso_number. cbn [app]. apply follows_if; [destruct (Nat.eqb_spec (length s) 19); cbn; split; congruence|]. intros L.
  Local Ltac cut1 A := rewrite (str_slice_part _ _ _ A) by lia; cbn [bind].
  assert (PL : forall a b, (a <= b)%nat -> (b <= 19)%nat -> length (part s a b) = (b - a)%nat) by (intros; apply part_length; lia).
  assert (P2 : forall x e, follows (parse_dec 255 x e) [req (exists n, dec_field (length x) n x) e]).
  { intros x e. apply follows_one.
    - intros n H. exists n. apply parse_dec_spec in H. split; [reflexivity | exact H].
    - intros (n & _ & H). exists n. apply parse_dec_spec. exact H.
    - unfold parse_dec. destruct (from_str_dec 255 x); eauto. }
  assert (V2 : forall m x e n, parse_dec m x e = Ok n -> n = field_value x).
  { intros m x e n H. apply parse_dec_spec in H as (_ & H). symmetry.
    destruct H as (ds & [-> | ->] & NE & D & E); unfold field_value; [|exact E].
    destruct ds as [|c ds]; [contradiction|]. inversion D as [|? ? Hc _]; subst. change (ch "0") with 48 in Hc. change (ch "9") with 57 in Hc. change (ch "+") with 43.
    replace (c =? 43) with false by lia. reflexivity. }
  assert (H2 : forall a b e, (a <= b)%nat -> (b <= 19)%nat -> (b - a = 2)%nat -> follows (parse_dec 255 (part s a b) e) [req (exists n, dec_field 2 n (part s a b)) e]).
  { intros a b e X Y Z. specialize (P2 (part s a b) e). rewrite PL, Z in P2 by assumption. exact P2. }
  cut1 A. apply follows_cons.
  { apply follows_one.
    - intros n H. apply parse_dec_spec in H as (_ & ds & H1 & NE & D & _). exists ds. auto.
    - intros (ds & H & NE & D). exists (dec_value ds). apply parse_dec_spec. split; [|exists ds; auto]. pose proof (dec_value_lt ds D) as B.
      assert (LD : (length ds <= 4)%nat) by (specialize (PL 0%nat 4%nat); destruct H as [H | H]; rewrite H in PL; cbn [length] in PL; lia).
      assert (10 ^ N.of_nat (length ds) <= 10 ^ 4) by (apply N.pow_le_mono_r; lia). lia.
    - unfold parse_dec. destruct (from_str_dec 65535 (part s 0 4)); eauto. }
  intros y E. apply V2 in E. subst y. apply follows_if; [unfold in_range; lia|]. intros _. cut1 A. apply sep_follows. cut1 A.
  apply follows_cons; [apply P2|]. intros mo E. apply V2 in E. subst mo. apply follows_if; [unfold in_range; lia|]. intros _. cut1 A. apply sep_follows. cut1 A.
  apply follows_cons; [apply P2|]. intros d E. apply V2 in E. subst d. apply follows_if; [unfold in_range; lia|]. intros _. cut1 A. apply sep_follows. cut1 A.
  apply follows_cons; [apply H2; lia|]. intros h E. apply V2 in E. subst h. cut1 A. apply sep_follows. apply follows_if; [lia|]. intros _. cut1 A.
  apply follows_cons; [apply P2|]. intros mi E. apply V2 in E. subst mi. apply follows_if; [lia|]. intros _. cut1 A. apply sep_follows. cut1 A.
  apply follows_cons; [apply H2; lia|]. intros se E. apply V2 in E. subst se. apply follows_if; [lia|]. intros _. constructor.
Qed.

(* ---- numerals ---- *)
Lemma numeral_shown n s : numeral n s <-> s = fmt_dec n.
Proof.
  destruct (fmt_dec_spec n) as (D & V & NE & W). split.
  - intros (D' & V' & NE' & Z). apply (dec_canon_fun (length (fmt_dec n)) n); [|repeat split; auto].
    split; [|split; assumption]. destruct s as [|c s]; [contradiction|].
    assert (U : (length (fmt_dec n) <= length (c :: s))%nat) by (apply W; [discriminate | rewrite <- V'; apply dec_value_lt; exact D']).
    destruct s as [|c' s]; [cbn [length] in *; destruct (fmt_dec n); [contradiction | cbn [length] in *; lia]|].
    enough (length (c :: c' :: s) <= length (fmt_dec n))%nat by lia.
    assert (Hc : c <> 48) by (intros ->; discriminate (Z (c' :: s) eq_refl)).
    assert (G : 10 ^ N.of_nat (length (c' :: s)) <= dec_value (c :: c' :: s)).
    { inversion D' as [|? ? Dc Dr]; subst. change (ch "0") with 48 in Dc. change (ch "9") with 57 in Dc.
      assert (G0 : forall t acc, (acc * 10 ^ N.of_nat (length t) <= fold_left dstep t acc)).
      { induction t as [|x t IH]; intros acc; cbn [length fold_left]; [cbn; lia|]. rewrite Nat2N.inj_succ, N.pow_succ_r'. etransitivity; [|apply IH]. nia. }
      unfold dec_value. cbn [fold_left]. specialize (G0 (c' :: s) (0 * 10 + (c - 48))). cbn [fold_left] in G0. change (ch "0") with 48. nia. }
    rewrite V' in G. pose proof (dec_value_lt _ D) as B. rewrite V in B.
    assert (X : 10 ^ N.of_nat (length (c' :: s)) < 10 ^ N.of_nat (length (fmt_dec n))) by lia. apply N.pow_lt_mono_r_iff in X; [|lia]. cbn [length] in *. lia.
  - intros ->. repeat split; auto. intros t E. destruct t as [|c t]; [reflexivity|exfalso].
    assert (X : (length (fmt_dec n) <= length (c :: t))%nat).
    { apply W; [discriminate|]. rewrite <- V, E. change (ch "0" :: c :: t) with (repeat 48 1 ++ (c :: t)). rewrite dec_value_zeros. apply dec_value_lt. rewrite E in D. inversion D; assumption. }
    rewrite E in X. cbn [length] in X. lia.
Qed.
Lemma hex_upper_digit d : d < 16 -> hex_digit (N.to_nat d) (hex_upper d).
Proof.
  intros H. assert (E : exists k, (k < 16)%nat /\ d = N.of_nat k) by (exists (N.to_nat d); lia). destruct E as (k & Hk & ->).
  rewrite Nat2N.id. do 16 (destruct k as [|k]; [reflexivity|]). lia.
Qed.
Lemma hex_value_lt s n : hex_value s n -> n < 16 ^ N.of_nat (length s).
Proof.
  induction 1 as [|s n i c _ IH D]; [cbn; lia|]. apply hex_digit_lt in D. rewrite app_length. cbn [length]. replace (N.of_nat (length s + 1)) with (N.succ (N.of_nat (length s))) by lia. rewrite N.pow_succ_r'. lia.
Qed.
Lemma hex_value_snoc s c n : hex_value (s ++ [c]) n -> exists m i, hex_value s m /\ hex_digit i c /\ n = 16 * m + N.of_nat i.
Proof.
  intros H. inversion H as [E | s' m i c' H1 H2 E]; [destruct s; discriminate|]. apply app_inj_tail in E as [-> ->]. eauto.
Qed.
Lemma hex_value_nil n : hex_value [] n -> n = 0.
Proof. intros H. inversion H as [|s m i c _ _ E]; [reflexivity | destruct s; discriminate]. Qed.
Lemma hex_value_same s : forall t n, length s = length t -> hex_value s n -> hex_value t n -> s = t.
Proof.
  induction s as [|c s IH] using rev_ind; intros t n L Hs Ht; [destruct t; [reflexivity | discriminate]|].
  destruct t as [|d t _] using rev_ind; [rewrite app_length in L; cbn in L; lia|]. rewrite !app_length in L. cbn [length] in L.
  apply hex_value_snoc in Hs as (m & i & Hs & Hi & ->). apply hex_value_snoc in Ht as (m' & i' & Ht & Hi' & E).
  pose proof (hex_digit_lt _ _ Hi). pose proof (hex_digit_lt _ _ Hi'). assert (m = m' /\ i = i') as [<- <-] by lia.
  rewrite (hex_digit_fun _ _ _ Hi Hi'). f_equal. eapply IH; [lia | exact Hs | exact Ht].
Qed.
Lemma hex_value_ge s n : hex_value s n -> (forall t, s <> ch "0" :: t) -> s <> [] -> 16 ^ N.of_nat (length s - 1) <= n.
Proof.
  induction 1 as [|s n i c H IH D]; intros Z NE; [contradiction|]. rewrite app_length. cbn [length]. replace (length s + 1 - 1)%nat with (length s) by lia.
  destruct s as [|x s].
  - cbn [length N.of_nat]. rewrite N.pow_0_r. enough (i <> 0%nat) by lia. intros ->. apply (Z []). cbn. unfold hex_digit in D. cbn in D. congruence.
  - specialize (IH ltac:(intros t E; injection E as -> ->; eapply Z; reflexivity) ltac:(discriminate)). cbn [length] in IH |- *. replace (S (length s) - 1)%nat with (length s) in IH by lia. rewrite Nat2N.inj_succ, N.pow_succ_r'. lia.
Qed.
Lemma hex_digits_value f : forall n, n < 16 ^ N.of_nat f -> (f <> 0)%nat -> hex_value (hex_digits f n) n /\ (1 <= length (hex_digits f n))%nat /\ ((2 <= length (hex_digits f n))%nat -> forall t, hex_digits f n <> ch "0" :: t).
Proof.
  induction f as [|f IH]; intros n H NE; [contradiction|]. cbn [hex_digits]. destruct (N.ltb_spec n 16) as [L|L].
  - cbn [app length]. split; [|split; lia]. rewrite N.mod_small by exact L. pose proof (HV_snoc [] 0 (N.to_nat n) _ HV_nil (hex_upper_digit n L)) as X. cbn [app] in X. replace (16 * 0 + N.of_nat (N.to_nat n)) with n in X by lia. exact X.
  - rewrite Nat2N.inj_succ, N.pow_succ_r' in H. destruct f as [|f']; [cbn in H; lia|]. destruct (IH (n / 16)) as (V & L1 & Z); [lia | discriminate|].
    split; [|split].
    + pose proof (HV_snoc _ _ (N.to_nat (n mod 16)) _ V (hex_upper_digit (n mod 16) ltac:(lia))) as X. replace (16 * (n / 16) + N.of_nat (N.to_nat (n mod 16))) with n in X by lia. exact X.
    + rewrite app_length. cbn [length]. lia.
    + intros _ t E. remember (hex_digits (S f') (n / 16)) as q eqn:Eq. destruct q as [|x q]; [cbn in L1; lia|]. injection E as -> E.
      destruct q as [|y q]; [|apply (Z ltac:(cbn; lia) (y :: q)); reflexivity].
      apply (hex_value_snoc [] (ch "0")) in V as (m & i & Hm & Hi & E2). apply hex_value_nil in Hm. assert (i = 0)%nat by (apply (hex_digit_inj _ _ (ch "0")); [exact Hi | reflexivity]). lia.
Qed.
Lemma hex_numeral_shown n s : n < 2 ^ 16 -> hex_numeral n s -> show_hex2 n = string_of_bytes s.
Proof.
  intros H (V & L). unfold show_hex2. f_equal. destruct (hex_digits_value 4 n) as (V' & L' & Z); [exact H | discriminate|].
  set (q := hex_digits 4 n) in *. cbv zeta. destruct L as [L | [L Z2]].
  - assert (B : n < 256) by (apply hex_value_lt in V; rewrite L in V; exact V).
    assert (L2 : (length q <= 2)%nat).
    { destruct (Nat.le_gt_cases (length q) 2) as [X|X]; [exact X|]. exfalso.
      assert (G : 16 ^ N.of_nat (length q - 1) <= n) by (apply hex_value_ge; [exact V' | apply Z; lia | destruct q; [cbn in L'; lia | discriminate]]).
      assert (16 ^ 2 <= 16 ^ N.of_nat (length q - 1)) by (apply N.pow_le_mono_r; lia). lia. }
    apply (hex_value_same _ _ n); [rewrite app_length, repeat_length; lia | | exact V].
    destruct (length q) as [|[|[|k]]] eqn:E; [lia| |cbn; exact V'|lia]. destruct q as [|x [|y q]]; try discriminate. cbn [Nat.sub repeat app].
    apply (hex_value_snoc [] x) in V' as (m & i & Hm & Hi & ->). apply hex_value_nil in Hm. subst m.
    pose proof (HV_snoc [] 0 0 (ch "0") HV_nil eq_refl) as X0. apply (HV_snoc [ch "0"] (16 * 0 + N.of_nat 0) i x X0 Hi).
  - assert (G : 16 ^ N.of_nat (length s - 1) <= n) by (apply hex_value_ge; [exact V | exact Z2 | destruct s; [cbn in L; lia | discriminate]]).
    pose proof (hex_value_lt _ _ V) as B1. pose proof (hex_value_lt _ _ V') as B2.
    assert (X1 : 16 ^ N.of_nat (length s - 1) < 16 ^ N.of_nat (length q)) by lia. apply N.pow_lt_mono_r_iff in X1; [|lia].
    assert (G2 : 16 ^ N.of_nat (length q - 1) <= n) by (apply hex_value_ge; [exact V' | apply Z; lia | destruct q; [cbn in L'; lia | discriminate]]).
    assert (X2 : 16 ^ N.of_nat (length q - 1) < 16 ^ N.of_nat (length s)) by lia. apply N.pow_lt_mono_r_iff in X2; [|lia].
    replace (2 - length q)%nat with 0%nat by lia. cbn [repeat app]. apply (hex_value_same _ _ n); [lia | exact V' | exact V].
Qed.
Lemma hex_numeral_exists n : n < 2 ^ 16 -> exists s, hex_numeral n s.
Proof.
  intros H. destruct (hex_digits_value 4 n) as (V & L & Z); [exact H | discriminate|].
  destruct (hex_digits 4 n) as [|x [|y [|z q]]] eqn:E; [cbn in L; lia| | |].
  - exists [ch "0"; x]. split; [|left; reflexivity]. apply (hex_value_snoc [] x) in V as (m & i & Hm & Hi & ->). apply hex_value_nil in Hm. subst m.
    pose proof (HV_snoc [] 0 0 (ch "0") HV_nil eq_refl) as X0. apply (HV_snoc [ch "0"] (16 * 0 + N.of_nat 0) i x X0 Hi).
  - exists [x; y]. split; [exact V | left; reflexivity].
  - exists (x :: y :: z :: q). split; [exact V|]. right. cbn [length]. split; [lia|]. apply Z. cbn. lia.
Qed.

(* ---- packets ---- *)
Lemma hex2_numeral n s : hex2 n s -> hex_numeral n s.
Proof.
  intros (i & j & a & b & Ha & Hb & -> & ->). split; [|left; reflexivity].
  pose proof (HV_snoc [] 0 i a HV_nil Ha) as X. pose proof (HV_snoc _ _ j b X Hb) as Y. cbn [app] in Y. replace (16 * (16 * 0 + N.of_nat i) + N.of_nat j) with (16 * N.of_nat i + N.of_nat j) in Y by lia. exact Y.
Qed.
Lemma hex2_shown n s : hex2 n s -> show_hex2 n = string_of_bytes s.
Proof. intros H. apply hex_numeral_shown; [apply hex2_lt in H; lia | apply hex2_numeral; exact H]. Qed.
Lemma position_split s : ~ Forall printable s -> exists before b after, s = before ++ b :: after /\ Forall printable before /\ ~ printable b /\
  position (fun b => negb (printable_byte b)) s = length before.
Proof.
  induction s as [|c s IH]; intros H; [destruct H; constructor|]. cbn [position]. destruct (printable_byte c) eqn:E; cbn [negb].
  - destruct IH as (x & b & y & -> & F & NP & P).
    { intros F. apply H. constructor; [apply printable_byte_iff; exact E | exact F]. }
    exists (c :: x), b, y. repeat split; auto; [|cbn; congruence]. constructor; [apply printable_byte_iff; exact E | exact F].
  - exists [], c, s. repeat split; auto. rewrite <- printable_byte_iff. congruence.
Qed.
Lemma position_at before b after : Forall printable before -> ~ printable b -> position (fun b => negb (printable_byte b)) (before ++ b :: after) = length before.
Proof.
  induction 1 as [|c s Hc _ IH]; intros NP; cbn [app position length].
  - rewrite <- printable_byte_iff in NP. destruct (printable_byte b); [congruence | reflexivity].
  - apply printable_byte_iff in Hc. rewrite Hc. cbn [negb]. f_equal. apply IH. exact NP.
Qed.
Lemma announced_length raw : announced raw -> (4 <= length raw <= 259)%nat.
Proof. intros (n & a & b & t & -> & H & L). apply hex2_lt in H as [H _]. rewrite app_length. cbn [length]. lia. Qed.
Lemma ascii_explained raw rest e : u8s raw -> announced raw -> ascii_decode raw = Err e -> explains raw rest e.
Proof.
  intros U An H. pose proof (announced_length _ An) as LA. destruct (ends_with raw CRLF) eqn:E.
  - apply ends_with_spec in E as (t & E). destruct (Nat.lt_ge_cases (length raw) 8) as [L|L].
    + unfold ascii_decode in H. rewrite (proj2 (ends_with_spec raw CRLF)) in H by eauto. replace (4 + 4 <=? length raw)%nat with false in H by lia. injection H as <-.
      apply (X_too_short _ _ t); assumption.
    + assert (Lt : length raw = (length t + 2)%nat) by (rewrite E, app_length; reflexivity).
      destruct t as [|b t _] using rev_ind; [cbn in Lt; lia|]. destruct t as [|a d _] using rev_ind; [cbn in Lt; lia|]. rewrite !app_length in Lt. cbn [length] in Lt.
      assert (Er : raw = d ++ [a; b] ++ [13; 10]) by (rewrite E, <- !app_assoc; reflexivity). assert (Ld : (4 <= length d)%nat) by lia.
      rewrite Er in H. change [13; 10] with CRLF in H. rewrite ascii_decode_split in H by exact Ld.
      assert (Ud : u8s d) by (rewrite Er in U; apply u8s_app in U; tauto). destruct (checksum_spec d Ud) as [C1 C2].
      pose proof (is_ok_dehex_byte a b) as I. destruct (dehex_byte_nopanic a b) as [D | [n D]]; rewrite D in *.
      * injection H as <-. apply (X_checksum_unreadable _ _ d a b); auto. rewrite <- I. discriminate.
      * apply dehex_byte_spec in D. destruct (N.eqb_spec n (checksum d)) as [Eq | Ne].
        -- rewrite Eq in D. clear Eq. destruct d as [|d0 [|d1 body]]; cbn [length] in Ld; try lia. cbn [skipn] in H. unfold ascii_try_from, check_printable in H.
           destruct (forallb printable_byte body) eqn:F.
           { cbn [bind] in H. cbn [length] in Lt. replace ((length body <? 2)%nat || (253 <? length body)%nat)%bool with false in H by lia. discriminate. }
           cbn [bind] in H. injection H as <-.
           destruct (position_split body) as (x & c & y & Eb & Fx & NP & P).
           { intros X. rewrite Forall_forall in X. assert (forallb printable_byte body = true); [|congruence]. apply forallb_forall. intros z Hz. apply printable_byte_iff. auto. }
           rewrite P. assert (Lb : length body = (length (x ++ y) + 1)%nat) by (rewrite Eb, !app_length; cbn [length]; lia).
           apply (X_character _ _ [d0; d1] x c y [a; b] (checksum (d0 :: d1 :: body)) (fmt_dec (N.of_nat (length x)))); auto.
           ++ rewrite Er, Eb. reflexivity.
           ++ rewrite <- Eb. cbn [app]. lia.
           ++ lia.
           ++ apply numeral_shown. reflexivity.
        -- injection H as <-. pose proof (hex_byte_spec _ C1) as HB. rewrite (hex2_shown _ _ HB).
           apply (X_checksum_wrong _ _ d [a; b] n (hex_byte (checksum d)) (checksum d)); auto. lia.
  - unfold ascii_decode in H. rewrite E in H. injection H as <-. apply X_no_crlf; [exact An|]. intros t ->. rewrite (proj2 (ends_with_spec (t ++ [13; 10]) CRLF)) in E; [discriminate|]. exists t. reflexivity.
Qed.
Lemma checksum_is d c : u8s d -> c < 256 -> (byte_sum d + c) mod 256 = 0 -> checksum d = c.
Proof. intros U H E. symmetry. apply checksum_unique; assumption. Qed.
Lemma explains_ascii raw rest w : u8s raw -> announced raw -> explains raw rest w -> ascii_decode raw = Err w.
Proof.
  intros U An X. pose proof (announced_length _ An) as LA. assert (NR : forall t, raw = [16; 2] ++ t -> False).
  { intros t E. destruct An as (n & a & b & t' & E' & H & _). rewrite E' in E. eapply hex2_not_header; eassumption. }
  inversion X as [_A H | t _A E L | d a b _A E L H | d cc c rcc rc _A E L H1 H2 S Ne | nn x b y cc c i _A E L H S L2 F NP Nu | d hi lo rc s E L C Ne HN | d c rest' s E L E2 N1 N2 HN | d tail E T L | NB]; subst; try (exfalso; eapply NR; reflexivity).
  - unfold ascii_decode. destruct (ends_with raw CRLF) eqn:E; [|reflexivity]. apply ends_with_spec in E as (t & E). destruct (H t E).
  - unfold ascii_decode. rewrite (proj2 (ends_with_spec (t ++ [13; 10]) CRLF)) by (exists t; reflexivity). destruct (Nat.leb_spec (4 + 4) (length (t ++ [13; 10]))); [lia|]. reflexivity.
  - change [13; 10] with CRLF. rewrite ascii_decode_split by exact L. pose proof (is_ok_dehex_byte a b) as I. destruct (dehex_byte_nopanic a b) as [D | [n D]]; rewrite D in *; [reflexivity|]. destruct H. apply I. reflexivity.
  - pose proof H1 as (i & j & a & b & _ & _ & _ & ->). change [13; 10] with CRLF. rewrite ascii_decode_split by exact L. rewrite (proj2 (dehex_byte_spec a b c) H1).
    apply u8s_app in U as [Ud _]. rewrite (checksum_is d rc Ud) by (try exact S; apply hex2_lt in H2; tauto). replace (c =? rc) with false by lia. rewrite (hex2_shown _ _ H2). reflexivity.
  - pose proof H as (i' & j & a & b' & _ & _ & _ & ->). destruct nn as [|n0 [|n1 [|]]]; try discriminate. set (body := x ++ b :: y) in *.
    replace ([n0; n1] ++ body ++ [a; b'] ++ [13; 10]) with ((n0 :: n1 :: body) ++ [a; b'] ++ CRLF) by reflexivity.
    assert (Lb : length body = (length (x ++ y) + 1)%nat) by (unfold body; rewrite !app_length; cbn [length]; lia).
    rewrite ascii_decode_split by (cbn [length]; lia). rewrite (proj2 (dehex_byte_spec a b' c) H).
    assert (Ud : u8s (n0 :: n1 :: body)) by (apply (u8s_app (n0 :: n1 :: body) ([a; b'] ++ [13; 10])); exact U).
    rewrite (checksum_is (n0 :: n1 :: body) c Ud) by (try exact S; apply hex2_lt in H; tauto). rewrite N.eqb_refl. cbn [skipn]. unfold ascii_try_from, check_printable.
    destruct (forallb printable_byte body) eqn:FB.
    { exfalso. rewrite forallb_forall in FB. apply NP. apply printable_byte_iff, FB. unfold body. apply in_or_app. right. left. reflexivity. }
    cbn [bind]. unfold body. rewrite position_at by assumption. apply numeral_shown in Nu. subst i. reflexivity.
  - exfalso. apply NB. destruct An as (n & a & b & t & -> & H & _). rewrite <- app_assoc. eapply hex2_begins. exact H.
Qed.

Definition no_prefix_text : string := "bytes without ASCII length or RP prefix".
Lemma decode_explained src raw why rest : u8s src -> decode src = Ok (Some (PInvalid raw why), rest) -> src = raw ++ rest /\ explains raw rest why.
Proof.
  intros U E. apply decode_inv in E; [|exact U].
  inversion E as [| |n a b t rest' Hx L HN| | |d hi lo right rest' frame HF L C|d c rest' junk N1 N2 L|d tail rest' junk T L| | | |junk rest' NE NB End|]; subst; (split; [reflexivity|]).
  - apply u8s_app in U as [U _]. apply ascii_explained; [exact U | exists n, a, b, t; auto|]. cbn [reason]. change (a :: b :: t) with ([a; b] ++ t). destruct (ascii_decode_total ([a; b] ++ t)) as [[body Q] | [e Q]]; rewrite Q; [|reflexivity].
    exfalso. destruct (ascii_decode_sound ([a; b] ++ t) n body) as [HB HF']; auto; [cbn; lia | cbn [app length]; lia|]. eapply HN; eassumption.
  - unfold frame in *. assert (Ud : u8s d) by (apply u8s_app in U as [U _]; apply (u8s_app [16; 2]) in U as [_ U]; apply u8s_app in U as [U _]; apply dle_double_u8s; exact U).
    assert (Uh : hi < 256 /\ lo < 256).
    { apply u8s_app in U as [U _]. apply (u8s_app [16; 2]) in U as [_ U]. apply u8s_app in U as [_ U]. apply (u8s_app [16; 3]) in U as [_ U]. inversion U as [|? ? U1 U2]; subst. inversion U2; subst. auto. }
    assert (B16 : right < 2 ^ 16) by (destruct C; assumption). destruct (hex_numeral_exists right B16) as (s & HS). cbn [reason]. rewrite (hex_numeral_shown _ _ B16 HS).
    apply (X_crc _ _ d hi lo right s); auto. intros Eq. apply HF. exists hi, lo, right. destruct Uh. split; [exact C|]. auto.
  - unfold junk in *. assert (Bc : c < 256) by (apply u8s_app in U as [_ U]; inversion U; assumption).
    assert (B16 : c < 2 ^ 16) by lia. destruct (hex_numeral_exists c B16) as (s & HS). cbn [reason]. rewrite (hex_numeral_shown _ _ B16 HS).
    eapply (X_sequence _ _ d c _ s); eauto.
  - apply (X_too_long _ _ d tail); auto.
  - apply X_no_prefix. apply (NB 0%nat). destruct raw; [contradiction | cbn; lia].
Qed.
Lemma explains_decode raw rest w : u8s (raw ++ rest) -> explains raw rest w ->
  decode (raw ++ rest) = Ok (Some (PInvalid raw w), rest) \/ w = no_prefix_text /\ ~ begins_packet (raw ++ rest).
Proof.
  intros U X. destruct (proj1 (u8s_app _ _) U) as [Ur Us].
  assert (As : announced raw -> decode (raw ++ rest) = Ok (Some (PInvalid raw w), rest)).
  { intros An. pose proof (explains_ascii _ _ _ Ur An X) as D. destruct An as (n & a & b & t & -> & H & L). destruct (decodes_ascii_or n a b t rest Ur H L) as (p & Dp & Q).
    rewrite D in Q. subst p. apply decode_exact; assumption. }
  inversion X as [An H | t An E L | d a b An E L H | d cc c rcc rc An E L H1 H2 S Ne | nn x b y cc c i An E L H S L2 F NP Nu | d hi lo rc s E L C Ne HN | d c rest' s E L E2 N1 N2 HN | d tail E T L | NB];
    try match goal with EW : _ = w |- _ => rewrite EW; left; apply As; exact An end; [| | |right; auto].
  - left. subst raw. apply decode_exact; [exact U|]. match goal with |- decodes _ (Some ?p) _ => replace p with (invalid_of (BadCrc rc) ([16; 2] ++ dle_double d ++ [16; 3] ++ [hi; lo])) end.
    + apply D_rp_crc; [|exact L | exact C]. intros HF.
      destruct HF as (hi' & lo' & c' & C' & E' & _ & _ & EF). apply (crc16_unique d c' rc C') in C. subst c'. apply app_inv_head in EF. apply app_inv_head in EF. injection EF as -> ->. congruence.
    + unfold invalid_of. cbn [reason]. rewrite (hex_numeral_shown rc s) by (try exact HN; destruct C; assumption). reflexivity.
  - left. subst raw rest. apply decode_exact; [exact U|]. match goal with |- decodes _ (Some ?p) _ => replace p with (invalid_of (BadSequence c) ([16; 2] ++ dle_double d ++ [16])) end.
    + apply D_rp_seq; assumption.
    + unfold invalid_of. cbn [reason]. assert (c < 256) by (inversion Us; assumption). rewrite (hex_numeral_shown c s) by (try exact HN; lia). reflexivity.
  - left. subst raw. apply decode_exact; [exact U|]. match goal with |- decodes _ (Some ?p) _ => replace p with (invalid_of TooLong ([16; 2] ++ dle_double d ++ tail)) end; [apply D_rp_long; assumption|]. unfold invalid_of. cbn [reason]. reflexivity.
Qed.
Lemma string_of_bytes_inj a b : u8s a -> u8s b -> string_of_bytes a = string_of_bytes b -> a = b.
Proof. intros A C E. apply (f_equal bytes_of_string) in E. rewrite !bytes_string in E by assumption. exact E. Qed.
Lemma append_inj_l a : forall b c, (a ++ b)%string = (a ++ c)%string -> b = c.
Proof. induction a as [|x a IH]; intros b c E; [exact E|]. injection E as E. apply IH. exact E. Qed.
Lemma says_inj i a b : says i a = says i b -> u8s a -> u8s b -> a = b.
Proof. intros E A C. apply append_inj_l in E. apply string_of_bytes_inj; assumption. Qed.
Lemma hex_value_u8s s n : hex_value s n -> u8s s.
Proof. induction 1 as [|s n i c _ IH D]; [constructor|]. apply u8s_app. split; [exact IH|]. constructor; [apply hex_digit_printable in D; lia | constructor]. Qed.
Lemma app_same {A} (x y p q : list A) : length x = length y -> x ++ p = y ++ q -> x = y /\ p = q.
Proof. revert y. induction x as [|a x IH]; intros [|b y] L E; try discriminate; [auto|]. injection E as -> E. apply IH in E as [-> ->]; auto. Qed.
Lemma fmt_dec_u8s n : u8s (fmt_dec n).
Proof. destruct (fmt_dec_spec n) as (D & _). eapply Forall_impl; [|exact D]. cbv beta. intros c H. change (ch "0") with 48 in H. change (ch "9") with 57 in H. lia. Qed.
Lemma fmt_dec_inj a b : fmt_dec a = fmt_dec b -> a = b.
Proof. intros E. destruct (fmt_dec_spec a) as (_ & <- & _). destruct (fmt_dec_spec b) as (_ & <- & _). rewrite E. reflexivity. Qed.
Lemma digits_stop a : forall b x y, digits a -> digits b -> a ++ 32 :: x = b ++ 32 :: y -> a = b /\ x = y.
Proof.
  induction a as [|c a IH]; intros [|d b] x y A B E; cbn in E.
  - injection E as ->. auto.
  - injection E as <- _. inversion B as [|? ? H _]; subst. change (ch "0") with 48 in H. lia.
  - injection E as -> _. inversion A as [|? ? H _]; subst. change (ch "0") with 48 in H. lia.
  - injection E as <- E. inversion A; inversion B; subst. destruct (IH b x y) as [-> ->]; auto.
Qed.
Lemma dec_stop a b x y : (show_dec a ++ String " " x)%string = (show_dec b ++ String " " y)%string -> a = b /\ bytes_of_string x = bytes_of_string y.
Proof.
  intros E. apply (f_equal bytes_of_string) in E. rewrite !bytes_append in E. unfold show_dec in E. rewrite !bytes_string in E by apply fmt_dec_u8s.
  apply digits_stop in E as [E1 E2]; [|apply fmt_dec_spec | apply fmt_dec_spec]. split; [apply fmt_dec_inj; exact E1 | exact E2].
Qed.
Lemma show_dec_inj a b : bytes_of_string (show_dec a) = bytes_of_string (show_dec b) -> a = b.
Proof. unfold show_dec. rewrite !bytes_string by apply fmt_dec_u8s. apply fmt_dec_inj. Qed.
Lemma show_dec_head n x : exists c t, (show_dec n ++ x)%string = String c t /\ 48 <= N_of_ascii c <= 57.
Proof.
  unfold show_dec. destruct (fmt_dec_spec n) as (D & _ & NE & _). pose proof (fmt_dec_u8s n) as U. destruct (fmt_dec n) as [|c s]; [congruence|].
  inversion D as [|? ? H _]; subst. inversion U; subst. cbn. eexists _, _. split; [reflexivity|]. rewrite N_ascii_embedding by assumption. exact H.
Qed.
Lemma fv_in l w : first_violated l w -> In w (map snd l).
Proof. induction 1; cbn; auto. Qed.
Lemma show_dec_led n x c t : (show_dec n ++ x)%string = String c t -> 48 <= N_of_ascii c <= 57.
Proof. intros E. destruct (show_dec_head n x) as (c' & t' & E' & H). congruence. Qed.
