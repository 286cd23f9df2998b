(* PropHex.v: the property C114: hex dumps can be read back, and what Display writes for packets. *)
From Verif Require Import Base BaseFacts Pkt SpecPkt CrcFacts PktFacts DecodeFacts Msg SpecMsg DecFacts MsgFacts WireFacts IsoFacts Tokio SpecConn ConnFacts
  State SpecState StateFacts RunFacts HistFacts PropState PropMsg Serde SerdeFacts PropSerde Fmt PropFmt ShowFacts SpecReason ReasonFacts
  Cli SpecCli PropPkt PropCli FmtText SpecLog LogFacts PropLog JsonText Hex SpecHex.
From Coq Require Import ZifyBool ZifyNat ZifyN.
Ltac Zify.zify_post_hook ::= Z.div_mod_to_equations.

(* ---- digits ---- *)
Lemma hex_lower_inj a b : a < 16 -> b < 16 -> hex_lower a = hex_lower b -> a = b.
Proof. unfold hex_lower. change (ch "0") with 48. change (ch "a") with 97. intros. destruct (N.ltb_spec a 10), (N.ltb_spec b 10); lia. Qed.
Lemma hex_lower_is d : d < 16 -> is_low_digit (hex_lower d) d.
Proof.
  intros H. unfold is_low_digit. assert (X : forallb (fun d => match nth_error (B "0123456789abcdef") (N.to_nat d) with Some c => c =? hex_lower d | None => false end)
    (map N.of_nat (seq 0 16)) = true) by reflexivity.
  rewrite forallb_forall in X. specialize (X d). destruct (nth_error _ _) as [c|]; rewrite ?N.eqb_eq in X.
  - rewrite X; [reflexivity|]. apply in_map_iff. exists (N.to_nat d). split; [lia|]. apply in_seq. lia.
  - discriminate X. apply in_map_iff. exists (N.to_nat d). split; [lia|]. apply in_seq. lia.
Qed.
Lemma low_digit_line c d : is_low_digit c d -> c <> 10.
Proof. unfold is_low_digit. intros H. apply nth_error_In in H. cbn in H. intros ->. repeat destruct H as [H|H]; try discriminate H; exact H. Qed.
Lemma low_numeral f : forall n, n < 2 ^ N.of_nat f -> numeral_of 16 (low_digits (S f) n) n.
Proof.
  induction f as [|f IH]; intros n H.
  - assert (n = 0) as -> by (cbn in H; lia). apply num_one; [lia | apply hex_lower_is; lia].
  - change (low_digits (S (S f)) n) with ((if n <? 16 then [] else low_digits (S f) (n / 16)) ++ [hex_lower (n mod 16)]). destruct (N.ltb_spec n 16) as [L|L].
    + rewrite N.mod_small by lia. apply num_one; [lia | apply hex_lower_is; lia].
    + replace n with (n / 16 * 16 + n mod 16) at 3 by lia. apply num_more; [|lia | lia | apply hex_lower_is; lia].
      apply IH. rewrite Nat2N.inj_succ, N.pow_succ_r' in H. lia.
Qed.
Lemma size_bound n : n < 2 ^ N.of_nat (N.size_nat n).
Proof.
  destruct n as [|p]; [cbn; lia|]. cbn [N.size_nat]. pose proof (N.size_gt (Npos p)) as H. unfold N.size in H.
  replace (N.of_nat (Pos.size_nat p)) with (Npos (Pos.size p)); [exact H|].
  clear H. induction p as [p IH|p IH|]; cbn [Pos.size Pos.size_nat]; rewrite ?Nat2N.inj_succ, <- ?IH; try lia; reflexivity.
Qed.
Lemma fmt_x_numeral n : numeral_of 16 (fmt_x n) n.
Proof. unfold fmt_x. apply low_numeral, size_bound. Qed.
Lemma low_fuel f : forall g n, n < 2 ^ N.of_nat f -> n < 2 ^ N.of_nat g -> low_digits (S f) n = low_digits (S g) n.
Proof.
  induction f as [|f IH]; intros g n H G.
  - assert (n = 0) as -> by (cbn in H; lia). destruct g; reflexivity.
  - destruct g as [|g]; [assert (n = 0) as -> by (cbn in G; lia); reflexivity|].
    cbn [low_digits]. f_equal. destruct (N.ltb_spec n 16); [reflexivity|]. apply IH; rewrite Nat2N.inj_succ, N.pow_succ_r' in *; lia.
Qed.
Lemma fmt_04x_small n : n < 65536 -> fmt_04x n = map hex_lower [n / 4096; n / 256 mod 16; n / 16 mod 16; n mod 16].
Proof.
  intros H. unfold fmt_04x, fmt_x. rewrite (low_fuel _ 16 n (size_bound n)) by (cbn; lia). cbn [low_digits map].
  assert (Z : hex_lower 0 = ch "0") by reflexivity.
  destruct (N.ltb_spec n 16) as [A|A]; [|destruct (N.ltb_spec (n / 16) 16) as [A1|A1]; [|destruct (N.ltb_spec (n / 16 / 16) 16) as [A2|A2]; [|destruct (N.ltb_spec (n / 16 / 16 / 16) 16) as [A3|A3]; [|lia]]]];
    cbn [app length repeat Nat.sub]; rewrite <- ?Z; repeat (f_equal; [f_equal; lia|]); f_equal; f_equal; lia.
Qed.
Lemma dec_numeral f : forall n, n < 2 ^ N.of_nat f -> numeral_of 10 (dec_digits (S f) n) n.
Proof.
  assert (D : forall d, d < 10 -> is_low_digit (ch "0" + d) d).
  { intros d H. pose proof (hex_lower_is d) as X. unfold hex_lower in X. replace (d <? 10) with true in X by (symmetry; apply N.ltb_lt; lia). apply X. lia. }
  induction f as [|f IH]; intros n H.
  - assert (n = 0) as -> by (cbn in H; lia). apply num_one; [lia | apply (D 0); lia].
  - change (dec_digits (S (S f)) n) with ((if n <? 10 then [] else dec_digits (S f) (n / 10)) ++ [ch "0" + n mod 10]). destruct (N.ltb_spec n 10) as [L|L].
    + rewrite N.mod_small by lia. apply num_one; [lia | apply D; lia].
    + replace n with (n / 10 * 10 + n mod 10) at 3 by lia. apply num_more; [|lia | lia | apply D; lia].
      apply IH. rewrite Nat2N.inj_succ, N.pow_succ_r' in H. lia.
Qed.
Lemma fmt_dec_numeral n : numeral_of 10 (fmt_dec n) n.
Proof. unfold fmt_dec. apply dec_numeral, size_bound. Qed.
Lemma numeral_line base s n : numeral_of base s n -> ~ In 10 s.
Proof.
  induction 1 as [c d _ H|s n c d _ IH _ _ H].
  - intros [X|[]]. apply (low_digit_line _ _ H X).
  - rewrite in_app_iff. intros [X|[X|[]]]; [apply (IH X) | apply (low_digit_line _ _ H X)].
Qed.

(* ---- dumps tell their bytes ---- *)
Lemma cells_tell row : forall row' j r r', length row = length row' -> u8s row -> u8s row' -> cells j row ++ r = cells j row' ++ r' -> row = row' /\ r = r'.
Proof.
  induction row as [|x row IH]; intros [|y row'] j r r' L U U' E; try discriminate L; [auto|]. cbn [cells] in E. inversion_clear U. inversion_clear U'.
  rewrite <- !app_assoc in E. apply app_inv_head in E. cbn [app] in E. injection E as E1 E2 E. apply hex_lower_inj in E1; [|lia ..]. apply hex_lower_inj in E2; [|lia ..].
  injection L as L. destruct (IH _ _ _ _ L ltac:(assumption) ltac:(assumption) E) as [-> ->]. split; [f_equal; lia | reflexivity].
Qed.
Lemma row_tells o row row' r r' : length row = length row' -> u8s row -> u8s row' -> dump_row o row ++ r = dump_row o row' ++ r' -> row = row' /\ r = r'.
Proof.
  intros L U U' E. unfold dump_row in E. rewrite <- !app_assoc in E. apply app_inv_head in E. apply app_inv_head in E.
  apply cells_tell in E as [-> E]; [|assumption ..]. split; [reflexivity|]. repeat apply app_inv_head in E. exact E.
Qed.
Lemma u8s_parts n b : u8s b -> u8s (firstn n b) /\ u8s (skipn n b).
Proof. intros U. rewrite <- (firstn_skipn n b) in U. apply u8s_app in U. exact U. Qed.
Lemma rows_nil f o b : (length b <= f)%nat -> dump_rows f o b = [] -> b = [].
Proof. destruct f, b; cbn; intros; [reflexivity | lia | reflexivity | discriminate]. Qed.
Lemma rows_tell f : forall o b b' r r', length b = length b' -> (length b <= f)%nat -> u8s b -> u8s b' ->
  joined (dump_rows f o b) ++ r = joined (dump_rows f o b') ++ r' -> b = b'.
Proof.
  induction f as [|f IH]; intros o b b' r r' L F U U' E; [destruct b; [|cbn in F; lia]; destruct b'; [reflexivity | discriminate L]|].
  destruct b as [|x b0]; [destruct b'; [reflexivity | discriminate L]|]. destruct b' as [|y b0']; [discriminate L|].
  remember (x :: b0) as b eqn:Eb. remember (y :: b0') as b' eqn:Eb'.
  assert (Q : dump_rows (S f) o b = dump_row o (firstn 16 b) :: dump_rows f (o + 16) (skipn 16 b)) by (subst; reflexivity).
  assert (Q' : dump_rows (S f) o b' = dump_row o (firstn 16 b') :: dump_rows f (o + 16) (skipn 16 b')) by (subst; reflexivity).
  rewrite Q, Q' in E. clear Q Q'. destruct (u8s_parts 16 b U) as [U1 U2], (u8s_parts 16 b' U') as [U1' U2'].
  assert (L1 : length (firstn 16 b) = length (firstn 16 b')) by (rewrite !firstn_length; lia).
  assert (L2 : length (skipn 16 b) = length (skipn 16 b')) by (rewrite !skipn_length; lia).
  assert (LF : (length (skipn 16 b) <= f)%nat) by (rewrite skipn_length; rewrite Eb in *; cbn [length] in *; lia).
  rewrite <- (firstn_skipn 16 b), <- (firstn_skipn 16 b'). clear Eb Eb' F.
  cbn [joined] in E. destruct (dump_rows f (o + 16) (skipn 16 b)) as [|l ls] eqn:D, (dump_rows f (o + 16) (skipn 16 b')) as [|l' ls'] eqn:D'.
  - apply row_tells in E as [-> _]; [|assumption ..]. apply rows_nil in D; [|lia]. apply rows_nil in D'; [|lia]. rewrite D, D'. reflexivity.
  - exfalso. apply rows_nil in D; [|lia]. rewrite D in L2. destruct (skipn 16 b'); [destruct f; discriminate D' | discriminate L2].
  - exfalso. apply rows_nil in D'; [|lia]. rewrite D' in L2. destruct (skipn 16 b); [destruct f; discriminate D | discriminate L2].
  - rewrite <- !app_assoc in E. apply row_tells in E as [-> E]; [|assumption ..]. apply app_inv_head in E. rewrite <- D, <- D' in E. f_equal. eapply IH; eauto.
Qed.
Lemma pretty_hex_ok : dump_ok pretty_hex.
Proof.
  split; [intros b; eexists; reflexivity|]. intros b b' r r' U U' E. unfold pretty_hex in E. rewrite <- !app_assoc in E. apply app_inv_head in E.
  apply dec_tells in E as [L E]; [|reflexivity ..]. apply Nat2N.inj in L. rewrite <- L in E. do 4 apply app_inv_head in E. eapply rows_tell; eauto.
Qed.

(* ---- where everything is ---- *)
Definition before (j : nat) : nat := match j with O => O | S i => (3 * i + i / 4 + 2)%nat end.
Lemma gap_length j : (before j + length (gap j) = 3 * j + j / 4)%nat.
Proof.
  destruct j as [|j]; [reflexivity|]. cbn [before]. unfold gap. destruct (Nat.eqb_spec (S j mod 4) 0).
  - change (length (B "  ")) with 2%nat. lia.
  - change (length (B " ")) with 1%nat. lia.
Qed.
Lemma cells_length row : forall j, (before j + length (cells j row) = before (j + length row))%nat.
Proof.
  induction row as [|x row IH]; intros j; cbn [cells length]; [rewrite !Nat.add_0_r; reflexivity|]. rewrite !app_length. cbn [length].
  replace (j + S (length row))%nat with (S j + length row)%nat by lia. rewrite <- IH. cbn [before]. pose proof (gap_length j). lia.
Qed.
Lemma blanks_length n : forall j, (before j + length (blanks j n) = before (j + n))%nat.
Proof.
  induction n as [|n IH]; intros j; cbn [blanks length]; [rewrite !Nat.add_0_r; reflexivity|]. rewrite !app_length. change (length (B "  ")) with 2%nat.
  replace (j + S n)%nat with (S j + n)%nat by lia. rewrite <- IH. cbn [before]. pose proof (gap_length j). lia.
Qed.
Lemma cell_at row : forall j i x, nth_error row i = Some x ->
  exists A C, cells j row = A ++ [hex_lower (x / 16); hex_lower (x mod 16)] ++ C /\ (before j + length A = 3 * (j + i) + (j + i) / 4)%nat.
Proof.
  induction row as [|y row IH]; intros j [|i] x H; try discriminate H; cbn [nth_error cells] in *.
  - injection H as ->. exists (gap j), (cells (S j) row). split; [reflexivity|]. rewrite Nat.add_0_r. apply gap_length.
  - destruct (IH (S j) i x H) as (A & C & E & L). exists (gap j ++ [hex_lower (y / 16); hex_lower (y mod 16)] ++ A), C. rewrite E, <- !app_assoc. split; [reflexivity|].
    rewrite !app_length. cbn [length before] in *. pose proof (gap_length j). replace (j + S i)%nat with (S j + i)%nat by lia. lia.
Qed.
Lemma as_char_shown x : shown_as x (as_char x).
Proof. unfold shown_as, as_char, between. destruct (N.leb_spec 32 x), (N.leb_spec x 126); cbn [andb]; [left; split; [lia | reflexivity] | right ..]; (split; [lia | reflexivity]). Qed.
Lemma row_line o row : ~ In 10 (dump_row o row).
Proof.
  assert (G : forall j, ~ In 10 (gap j)).
  { intros [|j]; cbn [gap]; [tauto|]. destruct (_ =? 0)%nat; cbn; intuition discriminate. }
  assert (HL : forall d, hex_lower d <> 10) by (intros d; unfold hex_lower; change (ch "0") with 48; change (ch "a") with 97; destruct (N.ltb_spec d 10); lia).
  assert (C : forall r j, ~ In 10 (cells j r)).
  { induction r as [|x r IH]; intros j; cbn [cells]; [tauto|]. rewrite !in_app_iff. cbn [In]. intros [X|[[X|[X|[]]]|X]]; [apply (G _ X) | apply (HL _ X) | apply (HL _ X) | apply (IH _ X)]. }
  assert (K : forall n j, ~ In 10 (blanks j n)).
  { induction n as [|n IH]; intros j; cbn [blanks]; [tauto|]. rewrite !in_app_iff. intros [X|[X|X]]; [apply (G _ X) | cbn in X; intuition discriminate | apply (IH _ X)]. }
  unfold dump_row, fmt_04x. rewrite !in_app_iff. intros [[X|X]|[X|[X|[X|[X|X]]]]].
  - apply repeat_spec in X. discriminate X.
  - apply (numeral_line _ _ _ (fmt_x_numeral o) X).
  - cbn in X; intuition discriminate.
  - apply (C _ _ X).
  - apply (K _ _ X).
  - cbn in X; intuition discriminate.
  - apply in_map_iff in X as (d & X & _). unfold as_char, between in X. change (ch ".") with 46 in X. destruct (N.leb_spec 32 d), (N.leb_spec d 126); cbn [andb] in X; lia.
Qed.
Lemma joined_lines ls : ls <> [] -> Forall (fun l => ~ In 10 l) ls -> lines (joined ls) ls.
Proof.
  induction ls as [|l ls IH]; intros N F; [elim N; reflexivity|]. inversion_clear F as [|? ? F1 F2]. destruct ls as [|l' ls]; [apply one_line; exact F1|].
  change (joined (l :: l' :: ls)) with (l ++ 10 :: joined (l' :: ls)). apply more_lines; [exact F1 | apply IH; [discriminate | exact F2]].
Qed.
Lemma rows_lines f : forall o b, Forall (fun l => ~ In 10 l) (dump_rows f o b).
Proof. induction f as [|f IH]; intros o [|x b]; cbn [dump_rows]; constructor; [apply row_line | apply IH]. Qed.
Lemma rows_length f : forall o b, (length b <= f)%nat -> length (dump_rows f o b) = ((length b + 15) / 16)%nat.
Proof.
  induction f as [|f IH]; intros o b F; [destruct b; [reflexivity | cbn in F; lia]|]. destruct b as [|x b]; [reflexivity|].
  change (dump_rows (S f) o (x :: b)) with (dump_row o (firstn 16 (x :: b)) :: dump_rows f (o + 16) (skipn 16 (x :: b))). cbn [length] in *.
  rewrite IH; rewrite skipn_length; cbn [length]; lia.
Qed.
Lemma rows_nth f : forall o b i row, nth_error (dump_rows f o b) i = Some row -> row = dump_row (o + N.of_nat (16 * i)) (firstn 16 (skipn (16 * i) b)).
Proof.
  induction f as [|f IH]; intros o b i row H; [destruct i; discriminate H|]. destruct b as [|x b]; [destruct i; discriminate H|].
  change (dump_rows (S f) o (x :: b)) with (dump_row o (firstn 16 (x :: b)) :: dump_rows f (o + 16) (skipn 16 (x :: b))) in H. destruct i as [|i].
  - injection H as <-. f_equal. lia.
  - cbn [nth_error] in H. apply IH in H as ->. f_equal; [lia|]. f_equal. replace (16 * S i)%nat with (16 + 16 * i)%nat by lia.
    generalize (16 * i)%nat (x :: b). clear. generalize 16%nat. intros m n b. rewrite Nat.add_comm. revert b. induction m as [|m IH]; intros b; [rewrite Nat.add_0_r; reflexivity|].
    destruct b; [rewrite !skipn_nil; reflexivity|]. replace (n + S m)%nat with (S (n + m)) by lia. cbn [skipn]. apply IH.
Qed.
Lemma nth_row b k (x : N) : nth_error b k = Some x -> nth_error (firstn 16 (skipn (16 * (k / 16)) b)) (k mod 16) = Some x.
Proof.
  intros H. assert (K : (k mod 16 < 16)%nat) by lia.
  assert (X : forall (l : bytes) n i, (i < n)%nat -> nth_error (firstn n l) i = nth_error l i).
  { induction l as [|y l IH]; intros [|n] [|i] L; cbn; try lia; try reflexivity. apply IH. lia. }
  rewrite X by exact K. clear X. rewrite <- H. replace k with (16 * (k / 16) + k mod 16)%nat at 3 by lia. generalize (16 * (k / 16))%nat (k mod 16)%nat. clear.
  intros n i. revert b. induction n as [|n IH]; intros b; [reflexivity|]. destruct b; cbn [skipn Nat.add nth_error]; [destruct i; reflexivity | apply IH].
Qed.
Lemma row_layout o row : (length row <= 16)%nat -> o < 65536 ->
  (exists A C, dump_row o row = A ++ C /\ length A = 8%nat /\ C = cells 0 row ++ blanks (length row) (16 - length row) ++ B "   " ++ map as_char row) /\
  length (cells 0 row ++ blanks (length row) (16 - length row)) = 50%nat.
Proof.
  intros L O. split.
  - exists (fmt_04x o ++ B ":   "), (cells 0 row ++ blanks (length row) (16 - length row) ++ B "   " ++ map as_char row). unfold dump_row. rewrite <- !app_assoc. split; [reflexivity|]. split; [|reflexivity].
    rewrite fmt_04x_small by exact O. reflexivity.
  - rewrite app_length. pose proof (cells_length row 0) as X. pose proof (blanks_length (16 - length row) (length row)) as Y. cbn [before Nat.add] in X.
    replace (length row + (16 - length row))%nat with 16%nat in Y by lia. change (before 16) with 50%nat in Y. lia.
Qed.
(* A dump has everything at its place: the number of bytes, and for each byte its digits and its character. *)
Theorem C114_dump_layout : forall b, u8s b -> dump_of b (pretty_hex b).
Proof.
  intros b U. split. set (n := N.of_nat (length b)). exists (fmt_dec n), (fmt_x n), (match dump_rows (length b) 0 b with [] => [[]] | ls => ls end).
  assert (T : ~ In 10 (B "Length: " ++ fmt_dec n ++ B " (0x" ++ fmt_x n ++ B ") bytes")).
  { rewrite !in_app_iff. intros [X|[X|[X|[X|X]]]]; try (cbn in X; intuition discriminate); eapply numeral_line; [|exact X | |exact X]; [apply fmt_dec_numeral | apply fmt_x_numeral]. }
  split; [|split; [apply fmt_dec_numeral|split; [apply fmt_x_numeral|]]].
  - replace (pretty_hex b) with ((B "Length: " ++ fmt_dec n ++ B " (0x" ++ fmt_x n ++ B ") bytes") ++ 10 :: joined (dump_rows (length b) 0 b))
      by (unfold pretty_hex; fold n; rewrite <- !app_assoc; reflexivity).
    apply more_lines; [exact T|].
    pose proof (rows_lines (length b) 0 b) as F. destruct (dump_rows (length b) 0 b) as [|l ls]; [apply one_line; intros []|]. apply joined_lines; [discriminate | exact F].
  - assert (R : b <> [] -> match dump_rows (length b) 0 b with [] => [[]] | ls => ls end = dump_rows (length b) 0 b).
    { intros N. destruct (dump_rows (length b) 0 b) eqn:E; [|reflexivity]. elim N. eapply rows_nil; [|exact E]. lia. }
    split; [intros ->; reflexivity|]. split; [intros N; rewrite R by exact N; apply rows_length; lia|]. split.
    + intros i row I N H. rewrite R in H by exact N. apply rows_nth in H as ->. rewrite N.add_0_l. set (o := N.of_nat (16 * i)). assert (O : o < 65536) by (subst o; lia).
      exists (hex_lower (o / 4096)), (hex_lower (o / 256 mod 16)), (hex_lower (o / 16 mod 16)), (hex_lower (o mod 16)), (o / 4096), (o / 256 mod 16), (o / 16 mod 16), (o mod 16).
      split; [|repeat split; try (apply hex_lower_is); lia].
      unfold dump_row. rewrite fmt_04x_small by exact O. eexists [], _. split; [reflexivity | reflexivity].
    + intros k x H K. assert (N : b <> []) by (intros ->; destruct k; discriminate H). rewrite R by exact N.
      assert (L : (k < length b)%nat) by (apply nth_error_Some; congruence).
      destruct (nth_error (dump_rows (length b) 0 b) (k / 16)) as [row|] eqn:Q; [|apply nth_error_None in Q; rewrite rows_length in Q by lia; lia].
      pose proof (rows_nth _ _ _ _ _ Q) as ->. rewrite N.add_0_l in *. pose proof (nth_row _ _ _ H) as X. set (bs := firstn 16 (skipn (16 * (k / 16)) b)) in *.
      set (o := N.of_nat (16 * (k / 16))) in *. assert (O : o < 65536) by (subst o; lia).
      assert (LB : length bs = Nat.min 16 (length b - 16 * (k / 16))) by (subst bs; rewrite firstn_length, skipn_length; reflexivity).
      assert (V : x < 256) by (apply nth_error_In in H; eapply Forall_forall in U; eauto).
      destruct (row_layout o bs ltac:(lia) O) as [(A & C & E & LA & EC) W]. exists (dump_row o bs), (hex_lower (x / 16)), (hex_lower (x mod 16)), (as_char x). split; [first [reflexivity | exact Q]|].
      split; [apply hex_lower_is; lia|]. split; [apply hex_lower_is; lia|]. rewrite E, EC. split; [|split; [apply as_char_shown|split]].
      * destruct (cell_at bs 0 (k mod 16) x X) as (A' & C' & E' & L'). rewrite E'. exists (A ++ A'). eexists. rewrite <- !app_assoc. split; [reflexivity|].
        rewrite app_length, LA. unfold byte_column. cbn [before Nat.add] in L'. lia.
      * destruct (nth_error_split (map as_char bs) (k mod 16) (map_nth_error as_char _ _ X)) as (l1 & l2 & EM & LM). rewrite EM.
        exists (A ++ (cells 0 bs ++ blanks (length bs) (16 - length bs)) ++ B "   " ++ l1), l2. rewrite <- !app_assoc. split; [reflexivity|].
        rewrite <- LM. unfold char_column. rewrite !app_length in *. change (length (B "   ")) with 3%nat. lia.
      * intros Z. unfold char_column. rewrite !app_length in *. rewrite map_length. change (length (B "   ")) with 3%nat. lia.
Qed.
(* Whatever follows it, a dump is that of no other bytes. *)
Theorem C114_dump_identifies : forall b b' r r', u8s b -> u8s b' -> pretty_hex b ++ r = pretty_hex b' ++ r' -> b = b'.
Proof. intros b b' r r' U U' E. eapply (proj2 pretty_hex_ok); eauto. Qed.

(* ---- what is written with dumps ---- *)
Lemma split_line (a : bytes) : forall a' r r', ~ In 10 a -> ~ In 10 a' -> a ++ 10 :: r = a' ++ 10 :: r' -> a = a' /\ r = r'.
Proof.
  induction a as [|x a IH]; intros [|y a'] r r' N N' E; cbn [app In] in *.
  - injection E as E. auto.
  - injection E as E _. elim N'. left. congruence.
  - injection E as E _. elim N. left. congruence.
  - injection E as -> E. destruct (IH _ _ _ (fun H => N (or_intror H)) (fun H => N' (or_intror H)) E) as [-> ->]. auto.
Qed.
Lemma plain_line s : plain s -> ~ In 10 (bytes_of_string s).
Proof. intros P X. apply plain_iff in P. rewrite Forall_forall in P. specialize (P _ X). unfold printable in P. change (ch " ") with 32 in P. lia. Qed.
(* Display of an invalid packet: the reason, and a dump of the bytes; together those of no other. *)
Theorem C114_invalid_packet_shown : forall src raw why rest, u8s src -> decode src = Ok (Some (PInvalid raw why), rest) ->
  let text := InvalidPacket_display pretty_hex raw why in
  (exists dump, text = B "invalid packet: " ++ bytes_of_string why ++ [10] ++ B "raw data:" ++ [10] ++ dump /\ dump_of raw dump) /\
  (exists rows, lines text ((B "invalid packet: " ++ bytes_of_string why) :: B "raw data:" :: rows)) /\
  forall src' raw' why' rest' r r', u8s src' -> decode src' = Ok (Some (PInvalid raw' why'), rest') ->
    text ++ r = InvalidPacket_display pretty_hex raw' why' ++ r' -> raw = raw' /\ why = why'.
Proof.
  intros src raw why rest U D text. pose proof (decoded_told _ _ _ U D) as [UR P]. split; [|split].
  - exists (pretty_hex raw). split; [reflexivity | apply C114_dump_layout, UR].
  - destruct (C114_dump_layout raw UR) as [(d & h & rows & LS & _)]. eexists. subst text. unfold InvalidPacket_display. rewrite app_assoc. cbn [app].
    apply (more_lines (B "invalid packet: " ++ bytes_of_string why)).
    + rewrite in_app_iff. intros [X|X]; [cbn in X; intuition discriminate | exact (plain_line _ P X)].
    + apply (more_lines (B "raw data:")); [cbn; intuition discriminate | exact LS].
  - intros src' raw' why' rest' r r' U' D' E. pose proof (decoded_told _ _ _ U' D') as [UR' P']. subst text. unfold InvalidPacket_display in E. rewrite <- !app_assoc in E.
    apply app_inv_head in E. cbn [app] in E. apply split_line in E as [EW E]; [|apply plain_line; assumption ..]. apply string_bytes_inj in EW as ->.
    apply (app_inv_head (B "raw data:" ++ [10])) in E. split; [|reflexivity]. eapply C114_dump_identifies; [exact UR | exact UR' | exact E].
Qed.
(* Display of an RP packet is a dump of its data. *)
Theorem C114_rp_packet_shown : forall d, u8s d -> dump_of d (RpPacket_display pretty_hex d) /\
  forall d' r r', u8s d' -> RpPacket_display pretty_hex d ++ r = RpPacket_display pretty_hex d' ++ r' -> d = d'.
Proof. intros d U. split; [apply C114_dump_layout; exact U|]. intros d' r r' U' E. eapply C114_dump_identifies; eauto. Qed.
(* With these dumps the log identifies events, and the output of read the file, as in C84. *)
Theorem C114_log_identifies : 
  (forall l p1 t1 p1' r1 w1 e1 d1 p2 t2 p2' r2 w2 e2 d2 r r',
     reachable p1 -> poll_next t1 p1 = Ok (p1', r1, w1) -> yields r1 e1 -> Event_dbg e1 = Ok d1 ->
     reachable p2 -> poll_next t2 p2 = Ok (p2', r2, w2) -> yields r2 e2 -> Event_dbg e2 = Ok d2 ->
     dbg_text pretty_hex l d1 ++ 10 :: r = dbg_text pretty_hex l d2 ++ 10 :: r' -> e1 = e2 /\ r = r') /\
  (forall data data', u8s data -> u8s data' ->
     exists text text', read_text pretty_hex data = Ok text /\ read_text pretty_hex data' = Ok text' /\ (text = text' -> data = data')).
Proof.
  split.
  - intros l p1 t1 p1' r1 w1 e1 d1 p2 t2 p2' r2 w2 e2 d2 r r'. apply C84_text_identifies_event. exact pretty_hex_ok.
  - intros data data'. apply C84_output_identifies_file. exact pretty_hex_ok.
Qed.

(* The example of pretty_hex's documentation, and an invalid packet. *)
Example C114_example :
  pretty_hex [107; 78; 26; 195; 175; 3; 210; 30; 126; 115; 186; 200; 189; 132; 15; 131; 137; 213; 207; 144; 35; 103; 75; 72; 219; 177; 188; 53; 191; 238] =
    B "Length: 30 (0x1e) bytes" ++ nl ++
    B "0000:   6b 4e 1a c3  af 03 d2 1e  7e 73 ba c8  bd 84 0f 83   kN......~s......" ++ nl ++
    B "0010:   89 d5 cf 90  23 67 4b 48  db b1 bc 35  bf ee         ....#gKH...5.." /\
  exists raw why rest, decode (B "08ZC007900" ++ [13; 10]) = Ok (Some (PInvalid raw why), rest) /\
    InvalidPacket_display pretty_hex raw why =
      B "invalid packet: ASCII packet doesn't have expected checksum 2B" ++ nl ++ B "raw data:" ++ nl ++
      B "Length: 12 (0xc) bytes" ++ nl ++ B "0000:   30 38 5a 43  30 30 37 39  30 30 0d 0a                08ZC007900..".
Proof. split; [reflexivity|]. eexists _, _, _. split; reflexivity. Qed.

Print Assumptions C114_dump_layout.
Print Assumptions C114_dump_identifies.
Print Assumptions C114_invalid_packet_shown.
Print Assumptions C114_rp_packet_shown.
Print Assumptions C114_log_identifies.
