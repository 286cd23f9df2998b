(* CrcFacts.v: the table-driven CRC of Pkt.v is division by the XMODEM polynomial. *)
From Verif Require Import Pkt SpecPkt BaseFacts.
From Coq Require Import ZifyBool ZifyNat ZifyN.
Ltac Zify.zify_post_hook ::= Z.div_mod_to_equations.

(* ---- polynomial arithmetic ---- *)
Lemma pmul_double n g : pmul (N.double n) g = N.double (pmul n g).
Proof. destruct n; reflexivity. Qed.
Lemma pmul_succ_double n g : pmul (N.succ_double n) g = N.lxor g (N.double (pmul n g)).
Proof. destruct n; cbn; [rewrite N.lxor_0_r|]; reflexivity. Qed.

Lemma double_lxor a b : N.double (N.lxor a b) = N.lxor (N.double a) (N.double b).
Proof.
  rewrite !N.double_spec.
  replace (2 * N.lxor a b) with (N.shiftl (N.lxor a b) 1) by (rewrite N.shiftl_mul_pow2; lia).
  replace (2 * a) with (N.shiftl a 1) by (rewrite N.shiftl_mul_pow2; lia).
  replace (2 * b) with (N.shiftl b 1) by (rewrite N.shiftl_mul_pow2; lia).
  apply N.shiftl_lxor.
Qed.

Lemma lxor_swap4 a b c d : N.lxor (N.lxor a b) (N.lxor c d) = N.lxor (N.lxor a c) (N.lxor b d).
Proof. rewrite !N.lxor_assoc. f_equal. rewrite <- !N.lxor_assoc. f_equal. apply N.lxor_comm. Qed.

Lemma pmul_lxor p q g : pmul (N.lxor p q) g = N.lxor (pmul p g) (pmul q g).
Proof.
  destruct p as [|p]; [reflexivity|]. revert q.
  induction p as [p IH|p IH|]; intros [|q]; try (cbn [N.lxor pmul]; rewrite ?N.lxor_0_r; reflexivity).
  - destruct q as [q|q|].
    + change (N.lxor (N.pos p~1) (N.pos q~1)) with (N.double (N.lxor (N.pos p) (N.pos q))).
      rewrite pmul_double, IH. cbn [pmul pmul_pos]. rewrite double_lxor.
      rewrite lxor_swap4, N.lxor_nilpotent, N.lxor_0_l. reflexivity.
    + change (N.lxor (N.pos p~1) (N.pos q~0)) with (N.succ_double (N.lxor (N.pos p) (N.pos q))).
      rewrite pmul_succ_double, IH. cbn [pmul pmul_pos]. rewrite double_lxor. symmetry. apply N.lxor_assoc.
    + change (N.lxor (N.pos p~1) 1) with (N.double (N.pos p)).
      rewrite pmul_double. cbn [pmul pmul_pos].
      rewrite (N.lxor_comm g), N.lxor_assoc, N.lxor_nilpotent, N.lxor_0_r. reflexivity.
  - destruct q as [q|q|].
    + change (N.lxor (N.pos p~0) (N.pos q~1)) with (N.succ_double (N.lxor (N.pos p) (N.pos q))).
      rewrite pmul_succ_double, IH. cbn [pmul pmul_pos]. rewrite double_lxor.
      rewrite <- !N.lxor_assoc. f_equal. apply N.lxor_comm.
    + change (N.lxor (N.pos p~0) (N.pos q~0)) with (N.double (N.lxor (N.pos p) (N.pos q))).
      rewrite pmul_double, IH. cbn [pmul pmul_pos]. apply double_lxor.
    + change (N.lxor (N.pos p~0) 1) with (N.succ_double (N.pos p)).
      rewrite pmul_succ_double. cbn [pmul pmul_pos]. apply N.lxor_comm.
  - destruct q as [q|q|].
    + change (N.lxor 1 (N.pos q~1)) with (N.double (N.pos q)).
      rewrite pmul_double. cbn [pmul pmul_pos].
      rewrite <- N.lxor_assoc, N.lxor_nilpotent, N.lxor_0_l. reflexivity.
    + change (N.lxor 1 (N.pos q~0)) with (N.succ_double (N.pos q)).
      rewrite pmul_succ_double. cbn [pmul pmul_pos]. reflexivity.
    + cbn. symmetry. apply N.lxor_nilpotent.
Qed.

Lemma shiftl1_double n : N.shiftl n 1 = N.double n.
Proof. rewrite N.shiftl_mul_pow2, N.double_spec. lia. Qed.

Lemma pmul_shiftl n k g : pmul (N.shiftl n (N.of_nat k)) g = N.shiftl (pmul n g) (N.of_nat k).
Proof.
  induction k as [|k IH]; [rewrite !N.shiftl_0_r; reflexivity|].
  rewrite Nat2N.inj_succ, !N.shiftl_succ_r, pmul_double, IH. reflexivity.
Qed.

Lemma pmul_log2 p g : 0 < g ->
  pmul_pos p g <> 0 /\ N.log2 (pmul_pos p g) = N.log2 (N.pos p) + N.log2 g.
Proof.
  intros Hg. induction p as [p [Hr IH]|p [Hr IH]|].
  - change (N.pos p~1) with (N.succ_double (N.pos p)). rewrite N.succ_double_spec.
    rewrite N.log2_succ_double by lia. cbn [pmul_pos].
    set (r := pmul_pos p g) in *.
    assert (Hd : N.log2 (N.double r) = N.succ (N.log2 r)) by (rewrite N.double_spec; apply N.log2_double; lia).
    assert (Hlt : N.log2 g < N.log2 (N.double r)) by (rewrite Hd, IH; lia).
    replace (N.succ (N.log2 (N.pos p)) + N.log2 g) with (N.log2 (N.double r)) by (rewrite Hd, IH; lia).
    assert (T : N.testbit (N.lxor g (N.double r)) (N.log2 (N.double r)) = true).
    { rewrite N.lxor_spec, (N.bits_above_log2 g) by exact Hlt. rewrite N.bit_log2; [reflexivity|].
      rewrite N.double_spec. lia. }
    split; [intros Z; rewrite Z, N.bits_0 in T; discriminate|].
    apply N.log2_bits_unique; [exact T|].
    intros m Hm. rewrite N.lxor_spec, !N.bits_above_log2 by lia. reflexivity.
  - change (N.pos p~0) with (N.double (N.pos p)). cbn [pmul_pos]. rewrite !N.double_spec.
    rewrite !N.log2_double by lia. rewrite IH. lia.
  - split; [cbn; lia | reflexivity].
Qed.

Lemma lt_pow2_log2 c k : c < 2 ^ k -> c <> 0 -> N.log2 c < k.
Proof. intros H Hn. apply N.log2_lt_pow2; lia. Qed.

Lemma lxor_lt a b k : a < 2 ^ k -> b < 2 ^ k -> N.lxor a b < 2 ^ k.
Proof.
  intros Ha Hb. destruct (N.eq_dec (N.lxor a b) 0) as [->|Hn]; [apply N.neq_0_lt_0, N.pow_nonzero; discriminate|].
  apply N.log2_lt_pow2; [lia|].
  pose proof (N.log2_lxor a b) as L.
  destruct (N.eq_dec a 0) as [->|Na].
  - rewrite N.lxor_0_l in *. apply lt_pow2_log2; auto.
  - destruct (N.eq_dec b 0) as [->|Nb].
    + rewrite N.lxor_0_r in *. apply lt_pow2_log2; auto.
    + pose proof (lt_pow2_log2 _ _ Ha Na). pose proof (lt_pow2_log2 _ _ Hb Nb). lia.
Qed.

(* remainders are unique *)
Lemma remainder_unique q q' c c' :
  c < 2 ^ 16 -> c' < 2 ^ 16 ->
  N.lxor (pmul q xmodem_poly) c = N.lxor (pmul q' xmodem_poly) c' -> c = c'.
Proof.
  intros Hc Hc' E.
  assert (E2 : pmul (N.lxor q q') xmodem_poly = N.lxor c c').
  { rewrite pmul_lxor. apply N.bits_inj. intros i. apply (f_equal (fun x => N.testbit x i)) in E.
    rewrite !N.lxor_spec in E |- *.
    destruct (N.testbit (pmul q _) i), (N.testbit (pmul q' _) i), (N.testbit c i), (N.testbit c' i); cbn in *; congruence. }
  pose proof (lxor_lt _ _ _ Hc Hc') as L. rewrite <- E2 in L.
  destruct (N.lxor q q') as [|p] eqn:Q.
  - cbn in E2. symmetry in E2. apply N.lxor_eq in E2. exact E2.
  - exfalso. cbn [pmul] in L.
    pose proof (pmul_log2 p xmodem_poly ltac:(vm_compute; reflexivity)) as [Z P].
    assert (N.log2 xmodem_poly = 16) as G by (vm_compute; reflexivity).
    pose proof (lt_pow2_log2 _ _ L Z). lia.
Qed.

(* ---- one bit, one byte ---- *)
Lemma lxor_shift k a b : b < 2 ^ k -> N.lxor (N.shiftl a k) b = a * 2 ^ k + b.
Proof.
  intros Hb. rewrite N.shiftl_mul_pow2.
  assert (E : N.land (a * 2 ^ k) b = 0).
  { apply N.bits_inj; intros i; rewrite N.land_spec, N.bits_0. destruct (N.lt_ge_cases i k).
    - rewrite N.mul_pow2_bits_low by assumption; reflexivity.
    - replace b with (b mod 2 ^ k) by (apply N.mod_small; assumption).
      rewrite N.mod_pow2_bits_high by assumption. apply andb_false_r. }
  rewrite <- N.add_nocarry_lxor by exact E. reflexivity.
Qed.
Lemma lxor_byte a b : b < 256 -> N.lxor (N.shiftl a 8) b = a * 256 + b.
Proof. apply (lxor_shift 8). Qed.

Lemma crc_bit_div z : z < 65536 ->
  crc_bit z < 65536 /\
  N.shiftl z 1 = N.lxor (if N.testbit z 15 then xmodem_poly else 0) (crc_bit z).
Proof.
  intros H. unfold crc_bit.
  assert (B : (N.land z 32768 =? 0) = negb (N.testbit z 15)).
  { destruct (N.testbit z 15) eqn:T.
    - apply N.eqb_neq. intros E. apply (f_equal (fun x => N.testbit x 15)) in E.
      rewrite N.land_spec, T, N.bits_0 in E. discriminate.
    - apply N.eqb_eq. change 32768 with (2 ^ 15). apply N.bits_inj. intros i. rewrite N.land_spec, N.bits_0.
      destruct (N.eq_dec i 15) as [->|Hi]; [rewrite T; reflexivity|].
      rewrite N.pow2_bits_false by congruence. apply andb_false_r. }
  rewrite B. rewrite N.shiftl_mul_pow2. change (2 ^ 1) with 2.
  assert (T : N.testbit z 15 = (32768 <=? z)).
  { rewrite N.testbit_eqb. change (2 ^ 15) with 32768. destruct (N.leb_spec 32768 z).
    - apply N.eqb_eq. replace (z / 32768) with 1 by lia. reflexivity.
    - rewrite N.div_small by lia. reflexivity. }
  assert (M : z * 2 mod 65536 < 2 ^ 16) by (change (2 ^ 16) with 65536; lia).
  rewrite T. destruct (N.leb_spec 32768 z) as [L|L]; cbn [negb].
  - split; [apply (lxor_lt _ _ 16); [exact M | vm_compute; reflexivity]|].
    replace xmodem_poly with (N.lxor (N.shiftl 1 16) 4129) by (vm_compute; reflexivity).
    rewrite (N.lxor_comm (_ mod _)), N.lxor_assoc, <- (N.lxor_assoc 4129), N.lxor_nilpotent, N.lxor_0_l.
    rewrite lxor_shift by exact M. change (2 ^ 16) with 65536. lia.
  - rewrite N.lxor_0_r, N.lxor_0_l. rewrite N.mod_small by lia. lia.
Qed.

Lemma crc_bits_div k z : z < 65536 ->
  crc_bits k z < 65536 /\ exists q, N.shiftl z (N.of_nat k) = N.lxor (pmul q xmodem_poly) (crc_bits k z).
Proof.
  revert z; induction k as [|k IH]; intros z Hz; cbn [crc_bits].
  - split; [exact Hz|]. exists 0. rewrite N.shiftl_0_r. reflexivity.
  - destruct (crc_bit_div z Hz) as (H1 & H2').
    assert (exists q1, N.shiftl z 1 = N.lxor (pmul q1 xmodem_poly) (crc_bit z)) as [q1 H2]
      by (destruct (N.testbit z 15); [exists 1 | exists 0]; exact H2'). destruct (IH _ H1) as (H3 & q2 & H4).
    split; [exact H3|].
    exists (N.lxor (N.shiftl q1 (N.of_nat k)) q2).
    replace (N.of_nat (S k)) with (1 + N.of_nat k) by lia.
    rewrite <- N.shiftl_shiftl, H2, N.shiftl_lxor, H4, pmul_lxor, pmul_shiftl, N.lxor_assoc. reflexivity.
Qed.

Lemma crc_bits_lxor k x y : x < 65536 -> y < 65536 ->
  crc_bits k (N.lxor x y) = N.lxor (crc_bits k x) (crc_bits k y).
Proof.
  intros Hx Hy.
  assert (Hxy : N.lxor x y < 65536) by (apply (lxor_lt x y 16); assumption).
  destruct (crc_bits_div k x Hx) as [X1 [qx X2]].
  destruct (crc_bits_div k y Hy) as [Y1 [qy Y2]].
  destruct (crc_bits_div k _ Hxy) as [Z1 [qz Z2]].
  apply (remainder_unique qz (N.lxor qx qy)); [exact Z1 | apply (lxor_lt _ _ 16); assumption |].
  rewrite <- Z2, N.shiftl_lxor, X2, Y2, pmul_lxor. apply lxor_swap4.
Qed.


Lemma crc_bits8_low : forallb (fun l => crc_bits 8 l =? N.shiftl l 8) (Nseq 256) = true.
Proof. vm_compute. reflexivity. Qed.
Lemma crc_bits8_high :
  forallb (fun h => crc_bits 8 (N.shiftl h 8) =? nth (N.to_nat h) TABLE 0) (Nseq 256) = true.
Proof. vm_compute. reflexivity. Qed.
Lemma z_facts z : z < 65536 ->
  crc_bits 8 z = N.lxor (nth (N.to_nat (N.shiftr z 8)) TABLE 0) (N.shiftl z 8 mod 65536).
Proof.
  intros H. set (h := z / 256). set (l := z mod 256).
  assert (Hh : h < 256) by (unfold h; lia). assert (Hl : l < 256) by (unfold l; lia).
  assert (E : z = N.lxor (N.shiftl h 8) l) by (rewrite lxor_byte by exact Hl; unfold h, l; lia).
  assert (Lh : N.shiftl h 8 < 65536) by (rewrite N.shiftl_mul_pow2; change (2 ^ 8) with 256; lia).
  rewrite E at 1. rewrite crc_bits_lxor by lia.
  pose proof (sweep _ 256 crc_bits8_low l ltac:(lia)) as S1. cbv beta in S1. apply N.eqb_eq in S1.
  pose proof (sweep _ 256 crc_bits8_high h ltac:(lia)) as S2. cbv beta in S2. apply N.eqb_eq in S2.
  rewrite S1, S2. f_equal.
  - f_equal. f_equal. rewrite N.shiftr_div_pow2. reflexivity.
  - rewrite !N.shiftl_mul_pow2. change (2 ^ 8) with 256. unfold l. lia.
Qed.

Lemma crc_step_bits s b : s < 65536 -> b < 256 ->
  crc_step s b = crc_bits 8 (N.lxor s (N.shiftl b 8)) /\ N.lxor s (N.shiftl b 8) < 65536.
Proof.
  intros Hs Hb.
  assert (L : N.lxor s (N.shiftl b 8) < 65536).
  { change 65536 with (2 ^ 16). apply lxor_lt; [exact Hs|]. rewrite N.shiftl_mul_pow2. change (2 ^ 8) with 256. lia. }
  split; [|exact L].
  rewrite (z_facts _ L). unfold crc_step. cbv zeta. f_equal.
  - f_equal. f_equal. rewrite N.shiftr_lxor, N.shiftr_shiftl_r by lia. rewrite N.sub_diag, N.shiftr_0_r.
    f_equal. apply N.mod_small. rewrite N.shiftr_div_pow2. change (2 ^ 8) with 256. lia.
  - rewrite N.shiftl_lxor, N.shiftl_shiftl. change 65536 with (2 ^ 16).
    rewrite <- !N.land_ones.
    apply N.bits_inj. intros i. rewrite !N.land_spec, N.lxor_spec.
    destruct (N.lt_ge_cases i 16).
    + rewrite (N.shiftl_spec_low b) by lia. rewrite xorb_false_r. reflexivity.
    + rewrite N.ones_spec_high by assumption. rewrite !andb_false_r. reflexivity.
Qed.

Lemma crc_step_div s b : s < 65536 -> b < 256 ->
  crc_step s b < 65536 /\
  exists q, N.lxor (N.shiftl s 8) (N.shiftl b 16) = N.lxor (pmul q xmodem_poly) (crc_step s b).
Proof.
  intros Hs Hb. destruct (crc_step_bits s b Hs Hb) as [-> L].
  destruct (crc_bits_div 8 _ L) as [H1 [q H2]]. split; [exact H1|]. exists q. rewrite <- H2.
  rewrite N.shiftl_lxor, N.shiftl_shiftl. reflexivity.
Qed.

Lemma crc_fold d acc s : u8s d -> s < 65536 ->
  (exists q, N.shiftl acc 16 = N.lxor (pmul q xmodem_poly) s) ->
  fold_left crc_step d s < 65536 /\
  exists q, N.shiftl (poly_of_bytes acc d) 16 = N.lxor (pmul q xmodem_poly) (fold_left crc_step d s).
Proof.
  revert acc s; induction d as [|b d IH]; intros acc s Hd Hs [q Hq]; cbn [fold_left poly_of_bytes].
  - split; [exact Hs | exists q; exact Hq].
  - inversion Hd as [|? ? Hb Hd']; subst.
    destruct (crc_step_div s b Hs Hb) as [H1 [q1 H2]].
    apply IH; [exact Hd' | exact H1 |].
    exists (N.lxor (N.shiftl q 8) q1).
    rewrite <- lxor_byte by exact Hb. rewrite N.shiftl_lxor, N.shiftl_shiftl.
    replace (8 + 16) with (16 + 8) by reflexivity. rewrite <- N.shiftl_shiftl, Hq, N.shiftl_lxor.
    rewrite pmul_lxor. change 8 with (N.of_nat 8) at 3. rewrite pmul_shiftl. change (N.of_nat 8) with 8.
    rewrite N.lxor_assoc, H2, N.lxor_assoc. reflexivity.
Qed.

Lemma crc_lt d : u8s d -> crc d < 65536.
Proof. intros H. apply (crc_fold d 0 0 H); [lia|]. exists 0. reflexivity. Qed.

Lemma crc_correct d c : u8s d -> crc16_xmodem d c <-> c = crc d.
Proof.
  intros H. destruct (crc_fold d 0 0 H) as [L [q Hq]]; [lia | exists 0; reflexivity |].
  fold (crc d) in L, Hq. split.
  - intros [Hc [q' Hq']]. rewrite Hq in Hq'. symmetry in Hq'. eapply remainder_unique; eauto.
  - intros ->. split; [exact L | exists q; exact Hq].
Qed.

Lemma crc16_unique d c c' : crc16_xmodem d c -> crc16_xmodem d c' -> c = c'.
Proof. intros [L [q H]] [L' [q' H']]. rewrite H in H'. eapply remainder_unique; eauto. Qed.

(* ---- injectivity of a step in the state and in the byte ---- *)
Lemma crc_fold_lt d s : u8s d -> s < 65536 -> fold_left crc_step d s < 65536.
Proof.
  revert s; induction d as [|b d IH]; intros s Hd Hs; [exact Hs|]. inversion Hd; subst.
  cbn. apply IH; auto. apply crc_step_div; auto.
Qed.

(* 0 is the only register value mapped to 0, since the generator is odd *)
Lemma crc_bit_zero z : z < 65536 -> crc_bit z = 0 -> z = 0.
Proof.
  intros H E. destruct (crc_bit_div z H) as [_ D]. rewrite E, N.lxor_0_r, N.shiftl_mul_pow2 in D.
  change (2 ^ 1) with 2 in D. destruct (N.testbit z 15); [|lia].
  change xmodem_poly with 69665 in D. lia.
Qed.
Lemma crc_bits_zero k z : z < 65536 -> crc_bits k z = 0 -> z = 0.
Proof.
  revert z; induction k as [|k IH]; intros z H E; [exact E|]. cbn in E.
  apply IH in E; [|apply crc_bit_div; exact H]. apply crc_bit_zero; assumption.
Qed.

Lemma crc_bits8_inj x y : x < 65536 -> y < 65536 -> crc_bits 8 x = crc_bits 8 y -> x = y.
Proof.
  intros Hx Hy E. apply N.lxor_eq.
  assert (Hxy : N.lxor x y < 65536) by (apply (lxor_lt x y 16); assumption).
  apply (crc_bits_zero 8 _ Hxy). rewrite crc_bits_lxor, E, N.lxor_nilpotent by assumption. reflexivity.
Qed.

Lemma lxor_cancel_r a b c : N.lxor a c = N.lxor b c -> a = b.
Proof.
  intros E. apply (f_equal (fun x => N.lxor x c)) in E.
  rewrite !N.lxor_assoc, N.lxor_nilpotent, !N.lxor_0_r in E. exact E.
Qed.
Lemma crc_step_inj_state s t b : s < 65536 -> t < 65536 -> b < 256 -> crc_step s b = crc_step t b -> s = t.
Proof.
  intros Hs Ht Hb. destruct (crc_step_bits s b Hs Hb) as [-> L1]. destruct (crc_step_bits t b Ht Hb) as [-> L2].
  intros E. apply crc_bits8_inj in E; auto. eapply lxor_cancel_r; eauto.
Qed.
Lemma crc_step_inj_byte s a b : s < 65536 -> a < 256 -> b < 256 -> crc_step s a = crc_step s b -> a = b.
Proof.
  intros Hs Ha Hb. destruct (crc_step_bits s a Hs Ha) as [-> L1]. destruct (crc_step_bits s b Hs Hb) as [-> L2].
  intros E. apply crc_bits8_inj in E; auto.
  rewrite (N.lxor_comm s (N.shiftl a 8)), (N.lxor_comm s (N.shiftl b 8)) in E. apply lxor_cancel_r in E.
  rewrite !N.shiftl_mul_pow2 in E. change (2 ^ 8) with 256 in E. lia.
Qed.
Lemma crc_fold_inj d s t : u8s d -> s < 65536 -> t < 65536 ->
  fold_left crc_step d s = fold_left crc_step d t -> s = t.
Proof.
  revert s t; induction d as [|b d IH]; intros s t Hd Hs Ht; cbn; [auto|].
  inversion Hd as [|? ? Hb Hd']; subst. intros E.
  apply IH in E; auto; try (apply crc_step_div; assumption).
  eapply crc_step_inj_state; eauto.
Qed.
Lemma crc_one_byte x a b y : u8s x -> u8s y -> a < 256 -> b < 256 -> a <> b ->
  crc (x ++ a :: y) <> crc (x ++ b :: y).
Proof.
  intros Hx Hy Ha Hb Hn E. unfold crc in E. rewrite !fold_left_app in E. cbn [fold_left] in E.
  assert (L : fold_left crc_step x 0 < 65536) by (apply crc_fold_lt; [exact Hx | lia]).
  apply crc_fold_inj in E; auto; try (apply crc_step_div; assumption).
  apply crc_step_inj_byte in E; auto.
Qed.
