(* PropFuzz.v: theorems C60 and C61 about the fuzz targets and the generators behind them (the `arbitrary` feature). *)
From Verif Require Import Base BaseFacts Pkt SpecPkt PktFacts DecodeFacts Msg SpecMsg DecFacts MsgFacts WireFacts IsoFacts PropPkt PropMsg Eq PropEq Fuzz.
From Coq Require Import ZifyBool ZifyNat ZifyN.
Ltac Zify.zify_post_hook ::= Z.div_mod_to_equations.

(* ---- specification ---- *)
(* A generator makes exactly the values in P, whatever comes after the bytes it used, and never panics. *)
Definition makes_exactly {A : Type} (g : bytes -> res (A * bytes)) (P : A -> Prop) : Prop :=
  (forall u v r, u8s u -> g u = Ok (v, r) -> P v /\ u8s r) /\
  (forall v, P v -> exists d, u8s d /\ forall r, g (d ++ r) = Ok (v, r)) /\
  (forall u why, u8s u -> g u <> Panic why).
(* the codes 65536 * hi + lo with hi < 16 and lo < 256 *)
Definition generated_code (c : bytes) : Prop := exists hi lo, hi < 16 /\ lo < 256 /\ dec_canon 6 (65536 * hi + lo) c.
Definition generated_message (m : message) : Prop :=
  wf_message m /\ match m with MArmRequest r => generated_code (ar_code r) | _ => True end.

(* ---- combinators ---- *)
Lemma mk_ret {A} (v : A) : makes_exactly (fun u => Ok (v, u)) (eq v).
Proof.
  split; [|split].
  - intros u w r U [= <- <-]. auto.
  - intros w <-. exists []. split; [constructor | reflexivity].
  - discriminate.
Qed.
Lemma mk_bind {A C} (g : bytes -> res (A * bytes)) (h : A -> bytes -> res (C * bytes)) P Q :
  makes_exactly g P -> (forall a, P a -> makes_exactly (h a) (Q a)) ->
  makes_exactly (fun u => ' (a, r) <- g u ;; h a r) (fun c => exists a, P a /\ Q a c).
Proof.
  intros (G1 & G2 & G3) H. split; [|split].
  - intros u v r U E. destruct (g u) as [[a s]| |] eqn:EG; try discriminate. cbn [bind] in E.
    destruct (G1 _ _ _ U EG) as [PA US]. destruct (H a PA) as (H1 & _). destruct (H1 _ _ _ US E). eauto.
  - intros v (a & PA & QV). destruct (G2 a PA) as (d & UD & ED). destruct (H a PA) as (_ & H2 & _). destruct (H2 v QV) as (e & UE & EE).
    exists (d ++ e). split; [apply u8s_app; auto|]. intros r. rewrite <- app_assoc, ED. cbn [bind]. apply EE.
  - intros u w U E. destruct (g u) as [[a s]| |] eqn:EG; cbn [bind] in E; [|discriminate | exact (G3 u _ U EG)].
    destruct (G1 _ _ _ U EG) as [PA US]. destruct (H a PA) as (_ & _ & H3). exact (H3 _ _ US E).
Qed.
Lemma mk_iff {A} (g : bytes -> res (A * bytes)) P Q : makes_exactly g P -> (forall v, P v <-> Q v) -> makes_exactly g Q.
Proof.
  intros (G1 & G2 & G3) H. split; [|split; [|exact G3]].
  - intros u v r U E. destruct (G1 _ _ _ U E) as [X Y]. split; [apply H; exact X | exact Y].
  - intros v Q1. apply G2. apply H. exact Q1.
Qed.
Lemma u8s_skipn n u : u8s u -> u8s (skipn n u).
Proof. intros U. rewrite <- (firstn_skipn n u) in U. apply u8s_app in U. apply U. Qed.
Lemma u8s_firstn n u : u8s u -> u8s (firstn n u).
Proof. intros U. rewrite <- (firstn_skipn n u) in U. apply u8s_app in U. apply U. Qed.

(* ---- primitives ---- *)
Lemma mk_bytes n : makes_exactly (u_bytes n) (fun s => length s = n /\ u8s s).
Proof.
  unfold u_bytes. split; [|split].
  - intros u v r U E. destruct (length u <? n)%nat eqn:L; [discriminate|]. injection E as <- <-.
    rewrite firstn_length. split; [split; [lia | apply u8s_firstn; exact U] | apply u8s_skipn; exact U].
  - intros v [L U]. exists v. split; [exact U|]. intros r. rewrite app_length. replace (length v + length r <? n)%nat with false by lia.
    rewrite firstn_exact, skipn_exact by auto. reflexivity.
  - intros u w U. destruct (length u <? n)%nat; discriminate.
Qed.
Lemma mk_fill n : makes_exactly (fun u => Ok (u_fill n u)) (fun s => length s = n /\ u8s s).
Proof.
  unfold u_fill. split; [|split; [|discriminate]].
  - intros u v r U [= <- <-]. assert (UZ : u8s (u ++ repeat 0 n)).
    { apply u8s_app. split; [exact U|]. apply Forall_forall. intros x Hx. apply repeat_spec in Hx. subst. reflexivity. }
    split; [split; [rewrite firstn_length, app_length, repeat_length; lia | apply u8s_firstn; exact UZ] | apply u8s_skipn; exact U].
  - intros v [L U]. exists v. split; [exact U|]. intros r. rewrite <- app_assoc, firstn_exact, skipn_exact by auto. reflexivity.
Qed.
Lemma mk_u8 : makes_exactly gen_u8 (fun v => v < 256).
Proof.
  split; [|split].
  - intros [|b u] v r U [= <- <-]; [split; [reflexivity | constructor]|]. inversion U; subst. auto.
  - intros v H. exists [v]. split; [repeat constructor; exact H | reflexivity].
  - intros [|b u] w U; discriminate.
Qed.
Lemma mk_bool : makes_exactly gen_bool (fun _ => True).
Proof.
  eapply mk_iff.
  - eapply (mk_bind gen_u8 (fun b u => Ok (N.land b 1 =? 1, u)) _ (fun b => eq (N.land b 1 =? 1))); [exact mk_u8 | intros a _; apply mk_ret].
  - intros v. split; [auto|]. intros _. destruct v; [exists 1 | exists 0]; split; reflexivity.
Qed.
Lemma mk_range lo hi : lo < hi -> hi - lo <= 255 -> makes_exactly (int_in_range lo hi) (fun v => lo <= v <= hi).
Proof.
  intros H L. unfold int_in_range. replace (hi <? lo) with false by lia. replace (lo =? hi) with false by lia.
  eapply mk_iff.
  - eapply (mk_bind gen_u8 (fun b u => Ok (lo + b mod (hi - lo + 1), u)) _ (fun b => eq (lo + b mod (hi - lo + 1)))); [exact mk_u8 | intros a _; apply mk_ret].
  - intros v. split.
    + intros (b & _ & <-). pose proof (N.mod_lt b (hi - lo + 1) ltac:(lia)). lia.
    + intros V. exists (v - lo). split; [lia|]. rewrite N.mod_small; lia.
Qed.
Definition le_value (b : bytes) : N := fold_right (fun x acc => x + 256 * acc) 0 b.
Lemma mk_u32 : makes_exactly gen_u32 (fun v => v < 4294967296).
Proof.
  eapply mk_iff.
  - eapply (mk_bind (fun u => Ok (u_fill 4 u)) (fun b u => Ok (le_value b, u)) _ (fun b => eq (le_value b))); [apply mk_fill | intros a _; apply mk_ret].
  - intros v. split.
    + intros (b & [L U] & <-). destruct b as [|b0 [|b1 [|b2 [|b3 [|]]]]]; try discriminate L.
      unfold u8s in U. repeat match goal with H : Forall _ (_ :: _) |- _ => inversion H; clear H; subst end. unfold le_value. cbn [fold_right]. lia.
    + intros V. exists [v mod 256; v / 256 mod 256; v / 65536 mod 256; v / 16777216]. split.
      * split; [reflexivity|]. repeat constructor; try (apply N.mod_lt; discriminate). apply N.div_lt_upper_bound; [discriminate | exact V].
      * unfold le_value. cbn [fold_right]. lia.
Qed.
Lemma index_of n count : 0 < count -> (n * count) / 4294967296 < count \/ 4294967296 <= n.
Proof. intros H. destruct (N.lt_ge_cases n 4294967296) as [L|L]; [left | right; exact L]. apply N.div_lt_upper_bound; [discriminate | nia]. Qed.
Lemma mk_index count : (0 < count)%nat -> N.of_nat count <= 4294967296 -> makes_exactly (gen_index count) (fun i => (i < count)%nat).
Proof.
  intros C0 C1. eapply mk_iff.
  - eapply (mk_bind gen_u32 (fun n u => Ok (N.to_nat (N.shiftr (n * N.of_nat count) 32), u)) _ (fun n => eq (N.to_nat (N.shiftr (n * N.of_nat count) 32)))); [exact mk_u32 | intros a _; apply mk_ret].
  - intros i. split.
    + intros (n & L & <-). rewrite N.shiftr_div_pow2. change (2 ^ 32) with 4294967296. destruct (index_of n (N.of_nat count) ltac:(lia)); lia.
    + intros L. set (c := N.of_nat count) in *. assert (IC : N.of_nat i < c) by (unfold c; lia).
      set (x := N.of_nat i * 4294967296 + (c - 1)). exists (x / c).
      pose proof (N.div_mod x c ltac:(lia)) as D. pose proof (N.mod_lt x c ltac:(lia)) as M.
      assert (E1 : N.of_nat i * 4294967296 <= x / c * c < N.of_nat i * 4294967296 + 4294967296) by (unfold x in *; lia).
      split.
      * apply N.div_lt_upper_bound; [lia|]. unfold x. nia.
      * rewrite N.shiftr_div_pow2. change (2 ^ 32) with 4294967296.
        replace (x / c * c / 4294967296) with (N.of_nat i); [lia|]. symmetry. symmetry. apply (N.div_unique _ _ _ (x / c * c - N.of_nat i * 4294967296)); lia.
Qed.
Lemma mk_enum {A} (l : list A) : l <> [] -> N.of_nat (length l) <= 4294967296 -> makes_exactly (gen_enum l) (fun v => In v l).
Proof.
  intros L0 L1. unfold gen_enum. eapply mk_iff.
  - eapply (mk_bind (gen_index (length l)) (fun i u => match nth_error l i with Some v => Ok (v, u) | None => Panic "unreachable!()" end) _
      (fun i v => nth_error l i = Some v)).
    + apply mk_index; [|exact L1]. destruct l; [congruence | cbn; lia].
    + intros i Hi. cbv beta in Hi. destruct (nth_error l i) as [v|] eqn:E; [|apply nth_error_None in E; lia].
      eapply mk_iff; [apply mk_ret|]. intros w. split; [intros <-; reflexivity | intros [= <-]; reflexivity].
  - intros v. split; [intros (i & _ & H); eapply nth_error_In; eauto|]. intros H. apply In_nth_error in H as [i H]. exists i.
    split; [apply nth_error_Some; congruence | exact H].
Qed.
Lemma mk_all {A} (l : list A) : l <> [] -> N.of_nat (length l) <= 4294967296 -> (forall v, In v l) -> makes_exactly (gen_enum l) (fun _ => True).
Proof. intros H1 H2 H3. eapply mk_iff; [apply mk_enum; assumption|]. intros v. split; auto. Qed.
Lemma mk_option {A} (g : bytes -> res (A * bytes)) P : makes_exactly g P ->
  makes_exactly (gen_option g) (fun o => match o with Some v => P v | None => True end).
Proof.
  intros G. unfold gen_option. eapply mk_iff.
  - eapply (mk_bind gen_bool _ _ (fun s o => match o with Some v => s = true /\ P v | None => s = false end) mk_bool).
    intros [] _.
    + eapply mk_iff; [eapply (mk_bind g (fun v u => Ok (Some v, u)) _ (fun v => eq (Some v)) G); intros a _; apply mk_ret|].
      intros [v|]; split; [intros (a & PA & [= <-]); auto | intros [_ PV]; eauto | intros (a & _ & [=]) | discriminate].
    + eapply mk_iff; [apply mk_ret|]. intros [v|]; split; [discriminate | intros [[=] _] | auto | auto].
  - intros [v|]; split; [intros (s & _ & _ & H); exact H | intros H; exists true; auto | auto | intros _; exists false; auto].
Qed.
Lemma mk_array {A} n (g : bytes -> res (A * bytes)) P : makes_exactly g P -> makes_exactly (gen_array n g) (fun l => length l = n /\ Forall P l).
Proof.
  intros G. induction n as [|n IH]; cbn [gen_array].
  - eapply mk_iff; [apply mk_ret|]. intros l. split; [intros <-; split; [reflexivity | constructor] | intros [L _]; destruct l; [reflexivity | discriminate]].
  - eapply mk_iff.
    + eapply (mk_bind g _ _ (fun v l => exists t, (length t = n /\ Forall P t) /\ l = v :: t) G). intros v PV.
      eapply mk_iff; [eapply (mk_bind (gen_array n g) (fun l u => Ok (v :: l, u)) _ (fun l => eq (v :: l)) IH); intros a _; apply mk_ret|].
      intros l. split; intros (t & T & E); exists t; auto.
    + intros l. split.
      * intros (v & PV & t & (L & F) & ->). cbn. auto.
      * intros [L F]. destruct l as [|v t]; [discriminate|]. inversion F; subst. exists v. split; [assumption|]. exists t. cbn in L. auto.
Qed.

(* ---- the generators of msg.rs ---- *)
Lemma code_value b0 b1 b2 : b0 < 256 -> b1 < 256 -> b2 < 256 ->
  N.lor (N.lor (N.shiftl b0 24) (N.shiftl b1 16)) b2 = 16777216 * b0 + 65536 * b1 + b2.
Proof.
  intros H0 H1 H2.
  assert (X : forall a k c, c < 2 ^ k -> N.lor (N.shiftl a k) c = a * 2 ^ k + c).
  { intros a k c Hc. rewrite <- (N.shiftl_mul_pow2 a k). rewrite <- N.lxor_lor; [symmetry; apply N.add_nocarry_lxor|];
      (apply N.bits_inj; intros j; rewrite N.land_spec, N.bits_0; destruct (N.lt_ge_cases j k) as [L|L];
       [rewrite N.shiftl_spec_low by exact L; reflexivity|];
       replace (N.testbit c j) with false; [apply andb_false_r|]; symmetry; destruct (N.eq_dec c 0) as [->|C0]; [apply N.bits_0|];
       apply N.bits_above_log2; apply N.log2_lt_pow2 in Hc; lia). }
  replace (N.lor (N.shiftl b0 24) (N.shiftl b1 16)) with (N.shiftl (N.lor (N.shiftl b0 8) b1) 16).
  - rewrite X by (cbn; lia). rewrite X by (cbn; lia). cbn [N.pow]. change (2 ^ 8) with 256. change (2 ^ 16) with 65536. lia.
  - rewrite N.shiftl_lor, N.shiftl_shiftl. reflexivity.
Qed.
Lemma mk_code : makes_exactly gen_ArmCode generated_code.
Proof.
  unfold gen_ArmCode. pose proof (mk_bytes 3) as (B1 & B2 & B3). split; [|split].
  - intros u v r U E. destruct (u_bytes 3 u) as [[buf s]| |] eqn:EB; try discriminate. destruct (B1 _ _ _ U EB) as [[L UB] US].
    destruct buf as [|b0 [|b1 [|b2 [|]]]]; try discriminate L. cbn in E.
    inversion UB as [|? ? H0 UB1]; subst. inversion UB1 as [|? ? H1 UB2]; subst. inversion UB2 as [|? ? H2 UB3]; subst.
    fold (N.shiftl b0 24) in E. fold (N.shiftl b1 16) in E. rewrite code_value in E by assumption.
    destruct (ArmCode_try_from_u32 _) as [c| |] eqn:EC; try discriminate. injection E as <- <-. apply C20_code_from_number in EC as [LT EC].
    split; [|exact US]. exists b1, b2. replace b0 with 0 in EC by lia. split; [lia|]. split; [exact H2|]. exact EC.
  - intros v (hi & lo & HH & HL & C). destruct (B2 [0; hi; lo]) as (d & UD & ED); [split; [reflexivity | repeat constructor; lia]|].
    exists d. split; [exact UD|]. intros r. rewrite ED. cbn [bind index nth_error]. rewrite code_value by lia.
    replace (16777216 * 0 + 65536 * hi + lo) with (65536 * hi + lo) by lia.
    replace (ArmCode_try_from_u32 _) with (Ok v); [reflexivity|]. symmetry. apply C20_code_from_number. split; [lia | exact C].
  - intros u w U E. destruct (u_bytes 3 u) as [[buf s]| |] eqn:EB; [|discriminate | exact (B3 _ _ U EB)]. destruct (B1 _ _ _ U EB) as [[L UB] US].
    destruct buf as [|b0 [|b1 [|b2 [|]]]]; try discriminate L. cbn [bind index nth_error] in E.
    destruct (C20_code_from_number_no_panic (N.lor (N.lor (N.shiftl b0 24) (N.shiftl b1 16)) b2)) as [[c EC]|[e EC]]; rewrite EC in E; discriminate.
Qed.
Lemma mk_zone_status : makes_exactly gen_ZoneStatus (fun s => s < 16).
Proof.
  assert (X : forall b, b < 256 -> (N.land b 240 =? 0) = (b <? 16)).
  { intros b H. change 240 with (N.shiftl 15 4).
    assert (E : N.land b (N.shiftl 15 4) = N.shiftl (N.shiftr b 4) 4).
    { apply N.bits_inj. intros j. rewrite N.land_spec. destruct (N.lt_ge_cases j 4) as [L|L].
      - rewrite !N.shiftl_spec_low by exact L. apply andb_false_r.
      - rewrite !N.shiftl_spec_high' by exact L. rewrite N.shiftr_spec by lia. replace (j - 4 + 4) with j by lia.
        change 15 with (N.ones 4). destruct (N.lt_ge_cases (j - 4) 4) as [L2|L2].
        + rewrite N.ones_spec_low by exact L2. apply andb_true_r.
        + rewrite N.ones_spec_high by exact L2. rewrite andb_false_r. symmetry. destruct (N.eq_dec b 0) as [->|B0]; [apply N.bits_0|].
          apply N.bits_above_log2. assert (N.log2 b < 8) by (apply N.log2_lt_pow2; [lia | exact H]). lia. }
    rewrite E, N.shiftl_mul_pow2, N.shiftr_div_pow2. change (2 ^ 4) with 16. lia. }
  unfold gen_ZoneStatus. pose proof (mk_bytes 1) as (B1 & B2 & B3). split; [|split].
  - intros u v r U E. destruct (u_bytes 1 u) as [[buf s]| |] eqn:EB; try discriminate. destruct (B1 _ _ _ U EB) as [[L UB] US].
    destruct buf as [|b [|]]; try discriminate L. cbn [bind index nth_error] in E. inversion UB; subst. rewrite X in E by assumption.
    destruct (b <? 16) eqn:EL; [|discriminate]. injection E as <- <-. split; [lia | exact US].
  - intros v H. destruct (B2 [v]) as (d & UD & ED); [split; [reflexivity | repeat constructor; lia]|]. exists d. split; [exact UD|].
    intros r. rewrite ED. cbn [bind index nth_error]. rewrite X by lia. replace (v <? 16) with true by lia. reflexivity.
  - intros u w U E. destruct (u_bytes 1 u) as [[buf s]| |] eqn:EB; [|discriminate | exact (B3 _ _ U EB)]. destruct (B1 _ _ _ U EB) as [[L UB] US].
    destruct buf as [|b [|]]; try discriminate L. cbn [bind index nth_error] in E. destruct (negb _); discriminate.
Qed.
Lemma mk_text : makes_exactly gen_TextDescription text_ok.
Proof.
  unfold gen_TextDescription. eapply mk_iff.
  - eapply (mk_bind (fun u => Ok (u_fill 16 u)) (fun buf u => _ <- or_incorrect (check_printable buf) ;; Ok (buf, u)) _ (fun buf v => Forall printable buf /\ buf = v) (mk_fill 16)).
    intros buf [L U]. split; [|split].
    + intros u v r UU E. destruct (check_printable buf) as [[]| |] eqn:EC; try discriminate. injection E as <- <-. apply check_printable_spec in EC. auto.
    + intros v [F <-]. exists []. split; [constructor|]. intros r. apply check_printable_spec in F. rewrite F. reflexivity.
    + intros u w UU E. unfold check_printable in E. destruct (forallb _ _); discriminate.
  - intros v. split.
    + intros (b & [L U] & F & <-). split; assumption.
    + intros [L F]. exists v. repeat split; auto. eapply Forall_impl; [|exact F]. unfold printable. intros. lia.
Qed.
Lemma mk_limited max : 1 < max -> max <= 256 -> makes_exactly (gen_limited max) (fun v => 1 <= v <= max).
Proof. intros H L. apply mk_range; lia. Qed.
Ltac chain := repeat first
  [ eapply mk_ret
  | eapply mk_bind; [solve [eauto with gen] | intros ? ?] ].
Ltac witnesses := repeat match goal with |- exists _, _ => eexists; split; [|] end; try match goal with |- @eq message _ _ => reflexivity | |- @eq DateTime _ _ => reflexivity | |- @eq RtcData _ _ => reflexivity end.
Local Hint Resolve mk_u8 mk_bool mk_code mk_zone_status mk_text mk_array mk_option : gen.
Local Hint Extern 1 (makes_exactly (int_in_range _ _) _) => eapply mk_range; [reflexivity | discriminate] : gen.
Local Hint Extern 1 (makes_exactly (gen_limited _) _) => eapply mk_limited; [reflexivity | discriminate] : gen.
Local Hint Extern 1 (makes_exactly (gen_enum _) _) => eapply mk_all; [discriminate | discriminate | intros []; cbn; tauto] : gen.
Lemma mk_datetime : makes_exactly gen_DateTime datetime_ok.
Proof.
  unfold gen_DateTime. eapply mk_iff; [chain|]. intros [y mo d h mi s]. unfold datetime_ok. cbn [year month day hour minute second]. split.
  - intros (? & ? & ? & ? & ? & ? & ? & ? & ? & ? & ? & ? & E). injection E as -> -> -> -> -> ->. lia.
  - intros H. witnesses; lia.
Qed.
Local Hint Resolve mk_datetime : gen.
Lemma mk_rtc : makes_exactly gen_RtcData (fun r => datetime_ok (datetime r)).
Proof.
  unfold gen_RtcData. eapply mk_iff; [chain|]. intros [dt wd ds cd dd]. cbn [datetime]. split.
  - intros (? & ? & ? & ? & ? & ? & ? & ? & ? & ? & E). injection E as -> -> -> -> ->. assumption.
  - intros H. witnesses; auto.
Qed.
Local Hint Resolve mk_rtc : gen.
(* the position of the message's kind in the declaration of `enum Message` *)
Definition kind (m : message) : nat :=
  match m with
  | MArmRequest _ => 0 | MArmingStatusRequest => 1 | MArmingStatusReport _ => 2 | MSendTimeData _ => 3 | MSendCode _ => 4 | MRtcRequest => 5
  | MRtcResponse _ => 6 | MStringDescriptionRequest _ => 7 | MStringDescriptionResponse _ => 8 | MActivateTask _ => 9 | MTaskChange _ => 10
  | MHeartbeat _ => 11 | MZoneChange _ => 12 | MZoneStatusRequest => 13 | MZoneStatusReport _ => 14
  end.
Lemma generated_code_ok c : generated_code c -> arm_code_ok c.
Proof. intros (hi & lo & _ & _ & L & D & _). split; assumption. Qed.
Lemma all_true {A} (l : list A) : Forall (fun _ => True) l.
Proof. induction l; constructor; auto. Qed.
Lemma mk_message : makes_exactly gen_message generated_message.
Proof.
  unfold gen_message. eapply mk_iff.
  - eapply (mk_bind (gen_index 15) _ _ (fun i m => generated_message m /\ kind m = i)); [apply mk_index; [lia | discriminate]|].
    intros i Hi. cbv beta in Hi. destruct i as [|[|[|[|[|[|[|[|[|[|[|[|[|[|[|i]]]]]]]]]]]]]]]; [..|lia]; clear Hi; (eapply mk_iff; [chain|]); unfold generated_message; intros m; split.
    all: try (intros H; repeat match goal with H : exists _, _ |- _ => destruct H as [? H] | H : _ /\ _ |- _ => destruct H end; subst m;
              cbn [wf_message kind ar_area ar_code ee_area ee_timer1 ee_timer2 ic_code ic_user ic_keypad sdq_num sd_num sd_text zc_zone zc_status];
              unfold area_ok, keypad_ok, task_ok, zone_ok, as_ok, zones_ok, Area_MAX, Keypad_MAX, Task_MAX, Zone_MAX, NUM_AREAS, NUM_ZONES in *;
              cbn [arming_status up_state alarm_state first_exit_time];
              repeat match goal with |- _ /\ _ => split end; auto; try lia; try (apply generated_code_ok; assumption); fail).
    all: intros [[W C] K]; destruct m; try discriminate K; clear K.
    all: cbn [wf_message] in W; repeat match goal with r : ArmRequest |- _ => destruct r | r : ArmingStatusReport |- _ => destruct r
           | r : SendTimeData |- _ => destruct r | r : SendCode |- _ => destruct r | r : StringDescriptionRequest |- _ => destruct r
           | r : StringDescriptionResponse |- _ => destruct r | r : ZoneChange |- _ => destruct r end;
         unfold area_ok, keypad_ok, task_ok, zone_ok, as_ok, zones_ok, Area_MAX, Keypad_MAX, Task_MAX, Zone_MAX, NUM_AREAS, NUM_ZONES in *; cbn in *;
         witnesses;
         repeat match goal with H : _ /\ _ |- _ => destruct H end; auto using all_true; try lia;
         try (match goal with |- match ?o with _ => _ end => destruct o; exact Logic.I end).
  - intros m. split; [intros (i & _ & H & _); exact H|]. intros H. exists (kind m). split; [destruct m; cbn; lia | auto].
Qed.

(* ---- C60 ---- *)
Lemma rp_try_from_safe s : (exists d, rp_try_from s = Ok d) \/ exists e, rp_try_from s = Err e.
Proof. unfold rp_try_from. destruct (_ <? _)%nat; eauto. Qed.
Lemma ascii_try_from_safe s : (exists d, ascii_try_from s = Ok d) \/ exists e, ascii_try_from s = Err e.
Proof. unfold ascii_try_from, check_printable. destruct (forallb _ _); cbn [bind]; [|eauto]. destruct (_ || _); eauto. Qed.
Lemma packet_eqb_refl p : packet_eqb p p = true.
Proof. destruct p; cbn; apply beq_refl. Qed.
Theorem C60_pkt_target_passes : forall data, u8s data -> pkt_target data = Ok tt.
Proof.
  assert (X : forall p, valid_packet p -> (buf <- encode p [] ;; ' (o, buf) <- decode buf ;; q <- unwrap o ;; _ <- check (packet_eqb q p) ;; check (length buf =? 0)%nat) = Ok tt).
  { intros p V. destruct (C02_encode_decode p V) as (f & HE & HD). rewrite HE. cbn [bind app]. specialize (HD [] ltac:(constructor)). rewrite app_nil_r in HD. rewrite HD.
    cbn [bind unwrap]. rewrite packet_eqb_refl. reflexivity. }
  destruct C02_try_from_exact as [TA TR].
  intros [|b body] U; [reflexivity|]. unfold pkt_target. inversion U as [|? ? _ UB]; subst. destruct b as [|[b|b|]]; try reflexivity; cbv beta iota zeta.
  - destruct (ascii_try_from_safe body) as [[d E]|[e E]]; rewrite E; [|reflexivity]. apply X. apply TA in E as [V ->]. exact V.
  - destruct (rp_try_from_safe body) as [[d E]|[e E]]; rewrite E; [|reflexivity]. apply X. apply TR in E as [V ->]; assumption.
Qed.
Lemma depkt_loop_drains src ps rest : drains src ps rest -> forall fuel out used, (length ps < fuel)%nat ->
  (forall to, encode_all ps to = Ok (to ++ used)) -> depkt_loop fuel src out = Ok (rest, out ++ used).
Proof.
  induction 1 as [src E|src p rest ps left E D IH]; intros [|fuel] out used L HE; try (cbn in L; lia); cbn [depkt_loop]; rewrite E; cbn [bind].
  - specialize (HE []). cbn in HE. injection HE as <-. rewrite app_nil_r. reflexivity.
  - replace (match parse p with Panic w => Panic w | _ => Ok tt end) with (@Ok unit tt); [|pose proof (C14_parse_never_panics p) as N; destruct (parse p); [reflexivity.. | elim (N why eq_refl)]].
    cbn [bind]. pose proof (HE out) as HO. cbn [encode_all] in HO. destruct (encode p out) as [o1| |] eqn:EO; try discriminate. cbn [bind] in HO |- *.
    assert (PE : exists f, forall to, encode p to = Ok (to ++ f)).
    { destruct p as [b|d|raw w]; cbn [encode] in *.
      - unfold ascii_encode in *. destruct (add8 _ _); [|discriminate..]. eexists. intros to. cbn [bind]. reflexivity.
      - unfold rp_encode in *. destruct (rp_escape _ _ _); [|discriminate..]. eexists. intros to. cbn [bind]. reflexivity.
      - eexists. intros to. reflexivity. }
    destruct PE as [f PE]. rewrite PE in EO. injection EO as <-.
    assert (HU : exists u2, used = f ++ u2 /\ forall to, encode_all ps to = Ok (to ++ u2)).
    { pose proof (HE []) as H0. cbn [encode_all] in H0. rewrite PE in H0. cbn [bind app] in H0.
      assert (G : forall qs to r, encode_all qs to = Ok r -> exists u, r = to ++ u /\ forall t, encode_all qs t = Ok (t ++ u)).
      { clear. induction qs as [|q qs IHq]; intros to r HQ; cbn [encode_all] in *.
        - injection HQ as <-. exists []. rewrite app_nil_r. split; [reflexivity|]. intros t. rewrite app_nil_r. reflexivity.
        - assert (QE : forall o, encode q to = Ok o -> exists g, o = to ++ g /\ forall t, encode q t = Ok (t ++ g)).
          { intros o. destruct q as [b|d|raw w]; cbn [encode].
            - unfold ascii_encode. destruct (add8 _ _); [|discriminate..]. cbn [bind]. intros [= <-]. eexists. split; reflexivity.
            - unfold rp_encode. destruct (rp_escape _ _ _); [|discriminate..]. cbn [bind]. intros [= <-]. eexists. split; reflexivity.
            - intros [= <-]. eexists. split; reflexivity. }
          destruct (encode q to) as [o| |]; try discriminate. destruct (QE o eq_refl) as (g & -> & QE'). cbn [bind] in HQ.
          destruct (IHq _ _ HQ) as (u & -> & HU). exists (g ++ u). rewrite app_assoc. split; [reflexivity|]. intros t. rewrite QE'. cbn [bind]. rewrite HU, app_assoc. reflexivity. }
      destruct (G _ _ _ H0) as (u2 & -> & HU). eauto. }
    destruct HU as (u2 & -> & HU). rewrite (IH fuel (out ++ f) u2); [rewrite app_assoc; reflexivity | cbn in L; lia | exact HU].
Qed.
Theorem C60_depkt_target_passes : forall data, u8s data -> depkt_target data = Ok tt.
Proof.
  intros data U. destruct (drain_total data U) as (ps & left & _ & D). destruct (drains_encode _ _ _ D U) as (used & Es & HE & LE). unfold depkt_target.
  rewrite (depkt_loop_drains _ _ _ D _ [] used); [|rewrite Es, app_length; lia | exact HE]. cbn [bind app]. rewrite <- Es, beq_refl. reflexivity.
Qed.
Theorem C60_msg_target_passes : forall data, u8s data -> msg_target data = Ok tt.
Proof.
  intros data U. unfold msg_target. destruct mk_message as (M1 & _ & M3). destruct (gen_message data) as [[m r]|e|w] eqn:E; [|reflexivity | elim (M3 _ _ U E)].
  destruct (M1 _ _ _ U E) as [[W _] _]. destruct (C12_packet_roundtrip m W) as (p & -> & _ & HP). cbn [bind]. rewrite HP. cbn [expect bind unwrap].
  rewrite (proj2 (C96_messages m m) eq_refl). reflexivity.
Qed.

(* ---- C61 ---- *)
(* False as stated: the generator of arm codes shifts two of its three bytes too far, and makes 4096 of the million codes. *)
Theorem C61_every_message_tried_refuted : exists m, wf_message m /\ forall data rest, u8s data -> gen_message data <> Ok (m, rest).
Proof.
  exists (MArmRequest (mkArmRequest 1 AL_Disarm (B "000256"))). split; [split; [split; discriminate|]; split; [reflexivity | repeat constructor; discriminate]|].
  intros data rest U E. destruct mk_message as (M1 & _). destruct (M1 _ _ _ U E) as [[_ (hi & lo & HH & HL & _ & _ & V)] _].
  cbn [ar_code] in V. replace (dec_value _) with 256 in V by reflexivity. lia.
Qed.
(* Exactly the messages that are tried: every well-formed one, but of the arm codes only those of the form 65536 * hi + lo with
   hi < 16 and lo < 256.  Missing: the other codes, with which it is false. *)
Theorem C61_tried_exactly_partial : makes_exactly gen_message generated_message.
Proof. exact mk_message. Qed.
Theorem C61_tried_reaches_assertion : forall m, generated_message m ->
  exists data, u8s data /\ (forall more, exists rest, gen_message (data ++ more) = Ok (m, rest)) /\ msg_target data = Ok tt.
Proof.
  intros m G. destruct mk_message as (_ & M2 & _). destruct (M2 m G) as (d & U & E). exists d. split; [exact U|]. split; [eauto | apply C60_msg_target_passes; exact U].
Qed.

(* ---- examples ---- *)
(* a message request (variant 0), area 1, arming level 5 of 11, the code bytes 0, 1, 2, and a byte that is not used *)
Definition ex_fuzz : bytes := [0; 0; 0; 0; 0; 0; 0; 0; 128; 0; 1; 2; 77].
Example C60_C61_example : u8s ex_fuzz /\
  gen_message ex_fuzz = Ok (MArmRequest (mkArmRequest 1 AL_ArmedNightInstant (B "065538")), [77]) /\
  generated_code (B "065538") /\ gen_message [0; 0; 0; 255] = Err "NotEnoughData" /\
  u8s (1 :: ex_rp_body) /\ rp_try_from ex_rp_body = Ok ex_rp_body /\ u8s ex_stream.
Proof.
  split; [repeat constructor|]. split; [vm_compute; reflexivity|]. split; [exists 1, 2; split; [reflexivity|]; split; [reflexivity|]; vm_compute; repeat split; repeat constructor; discriminate|].
  split; [vm_compute; reflexivity|]. split; [repeat constructor|]. split; [vm_compute; reflexivity | repeat constructor].
Qed.

Print Assumptions C60_pkt_target_passes.
Print Assumptions C60_depkt_target_passes.
Print Assumptions C60_msg_target_passes.
Print Assumptions C61_every_message_tried_refuted.
Print Assumptions C61_tried_exactly_partial.
Print Assumptions C61_tried_reaches_assertion.
