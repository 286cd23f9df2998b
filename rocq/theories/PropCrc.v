(* PropCrc.v: property C70, which errors in RP frames the checksum detects. *)
From Verif Require Import Base BaseFacts Pkt SpecPkt CrcFacts PktFacts DecodeFacts.
From Coq Require Import ZifyBool ZifyNat ZifyN.
Ltac Zify.zify_post_hook ::= Z.div_mod_to_equations.

(* ---- what is sent, as bits ----
   The body and the checksum, as one number: first byte first, most significant bit first. *)
Definition codeword (d : bytes) (hi lo : N) : N := poly_of_bytes 0 (d ++ [hi; lo]).
(* the bits that two codewords differ in *)
Definition errors (d : bytes) (hi lo : N) (d' : bytes) (hi' lo' : N) : N := N.lxor (codeword d hi lo) (codeword d' hi' lo').
(* all wrong bits within 16 neighbouring ones *)
Definition burst (e : N) : Prop := exists k b, 0 < b < 2 ^ 16 /\ e = b * 2 ^ k.
Fixpoint ones_pos (p : positive) : nat := match p with xH => 1 | xO p' => ones_pos p' | xI p' => S (ones_pos p') end.
(* the number of wrong bits *)
Definition ones (n : N) : nat := match n with N0 => 0 | Npos p => ones_pos p end.

(* ---- multiples of the generator ---- *)
Lemma poly_app a d e : poly_of_bytes a (d ++ e) = poly_of_bytes (poly_of_bytes a d) e.
Proof. revert a. induction d as [|b d IH]; intros a; cbn; [reflexivity|]. apply IH. Qed.
Lemma codeword_multiple d hi lo : u8s d -> hi < 256 -> lo < 256 -> crc d = hi * 256 + lo -> exists q, codeword d hi lo = pmul q xmodem_poly.
Proof.
  intros U H L E. destruct (proj2 (crc_correct d (crc d) U) eq_refl) as [_ [q Hq]]. exists q. unfold codeword. rewrite poly_app. cbn [poly_of_bytes].
  rewrite E in Hq. replace ((poly_of_bytes 0 d * 256 + hi) * 256 + lo) with (poly_of_bytes 0 d * 2 ^ 16 + (hi * 256 + lo)) by (change (2 ^ 16) with 65536; lia).
  rewrite <- lxor_shift by (change (2 ^ 16) with 65536; lia). rewrite Hq, N.lxor_assoc, N.lxor_nilpotent, N.lxor_0_r. reflexivity.
Qed.
Lemma pmul_halves q m : pmul q xmodem_poly = 2 * m -> exists q', pmul q' xmodem_poly = m.
Proof.
  intros E. destruct (N.odd q) eqn:O.
  - exfalso. assert (X : q = N.succ_double (N.div2 q)) by (rewrite N.succ_double_spec; rewrite (N.div2_odd q) at 1; rewrite O; cbn; lia).
    rewrite X, pmul_succ_double in E. apply (f_equal (fun x => N.testbit x 0)) in E. rewrite N.lxor_spec, N.double_spec, !N.testbit_even_0 in E. discriminate.
  - assert (X : q = N.double (N.div2 q)) by (rewrite N.double_spec; rewrite (N.div2_odd q) at 1; rewrite O; cbn; lia).
    exists (N.div2 q). rewrite X, pmul_double, N.double_spec in E. lia.
Qed.
Lemma pmul_strip k : forall q m, pmul q xmodem_poly = m * 2 ^ N.of_nat k -> exists q', pmul q' xmodem_poly = m.
Proof.
  induction k as [|k IH]; intros q m E; [exists q; rewrite E; cbn; lia|].
  rewrite Nat2N.inj_succ, N.pow_succ_r' in E. destruct (pmul_halves q (m * 2 ^ N.of_nat k)) as (q' & H); [rewrite E; lia | eauto].
Qed.
Lemma multiple_large q : pmul q xmodem_poly <> 0 -> 2 ^ 16 <= pmul q xmodem_poly.
Proof.
  intros NZ. destruct q as [|p]; [elim NZ; reflexivity|]. cbn [pmul] in *. destruct (pmul_log2 p xmodem_poly) as [_ L]; [vm_compute; reflexivity|].
  assert (G : N.log2 xmodem_poly = 16) by (vm_compute; reflexivity). rewrite G in L.
  etransitivity; [|apply (N.log2_spec (pmul_pos p xmodem_poly)); lia]. apply N.pow_le_mono_r; lia.
Qed.
Lemma burst_no_multiple q : ~ burst (pmul q xmodem_poly).
Proof.
  intros (k & b & B & E). rewrite <- (N2Nat.id k) in E. apply pmul_strip in E as (q' & E). pose proof (multiple_large q') as M. rewrite E in M. lia.
Qed.

(* ---- parity ---- *)
Lemma ones_double n : ones (N.double n) = ones n.
Proof. destruct n; reflexivity. Qed.
Lemma ones_succ_double n : ones (N.succ_double n) = S (ones n).
Proof. destruct n; reflexivity. Qed.
Definition parity (n : N) : bool := Nat.odd (ones n).
Lemma parity_double n : parity (N.double n) = parity n.
Proof. unfold parity. rewrite ones_double. reflexivity. Qed.
Lemma parity_succ_double n : parity (N.succ_double n) = negb (parity n).
Proof. unfold parity. rewrite ones_succ_double, Nat.odd_succ, <- Nat.negb_odd. reflexivity. Qed.
Lemma parity_lxor a b : parity (N.lxor a b) = xorb (parity a) (parity b).
Proof.
  destruct a as [|p]; [cbn [N.lxor]; destruct (parity b); reflexivity|]. revert b. induction p as [p IH|p IH|]; intros [|q]; try (rewrite N.lxor_0_r; symmetry; apply xorb_false_r).
  - destruct q as [q|q|].
    + change (N.lxor (N.pos p~1) (N.pos q~1)) with (N.double (N.lxor (N.pos p) (N.pos q))). change (N.pos p~1) with (N.succ_double (N.pos p)). change (N.pos q~1) with (N.succ_double (N.pos q)).
      rewrite parity_double, !parity_succ_double, IH. destruct (parity (N.pos p)), (parity (N.pos q)); reflexivity.
    + change (N.lxor (N.pos p~1) (N.pos q~0)) with (N.succ_double (N.lxor (N.pos p) (N.pos q))). change (N.pos p~1) with (N.succ_double (N.pos p)). change (N.pos q~0) with (N.double (N.pos q)).
      rewrite parity_double, !parity_succ_double, IH. destruct (parity (N.pos p)), (parity (N.pos q)); reflexivity.
    + change (N.lxor (N.pos p~1) 1) with (N.double (N.pos p)). change (N.pos p~1) with (N.succ_double (N.pos p)).
      rewrite parity_double, !parity_succ_double. destruct (parity (N.pos p)); reflexivity.
  - destruct q as [q|q|].
    + change (N.lxor (N.pos p~0) (N.pos q~1)) with (N.succ_double (N.lxor (N.pos p) (N.pos q))). change (N.pos p~0) with (N.double (N.pos p)). change (N.pos q~1) with (N.succ_double (N.pos q)).
      rewrite parity_double, !parity_succ_double, IH. destruct (parity (N.pos p)), (parity (N.pos q)); reflexivity.
    + change (N.lxor (N.pos p~0) (N.pos q~0)) with (N.double (N.lxor (N.pos p) (N.pos q))). change (N.pos p~0) with (N.double (N.pos p)). change (N.pos q~0) with (N.double (N.pos q)).
      rewrite !parity_double, IH. reflexivity.
    + change (N.lxor (N.pos p~0) 1) with (N.succ_double (N.pos p)). change (N.pos p~0) with (N.double (N.pos p)).
      rewrite parity_double, !parity_succ_double. destruct (parity (N.pos p)); reflexivity.
  - destruct q as [q|q|].
    + change (N.lxor 1 (N.pos q~1)) with (N.double (N.pos q)). change (N.pos q~1) with (N.succ_double (N.pos q)). rewrite parity_double, parity_succ_double. destruct (parity (N.pos q)); reflexivity.
    + change (N.lxor 1 (N.pos q~0)) with (N.succ_double (N.pos q)). change (N.pos q~0) with (N.double (N.pos q)). rewrite parity_double, parity_succ_double. destruct (parity (N.pos q)); reflexivity.
    + reflexivity.
Qed.
Lemma multiple_even q : parity (pmul q xmodem_poly) = false.
Proof.
  destruct q as [|p]; [reflexivity|]. induction p as [p IH|p IH|]; cbn [pmul pmul_pos] in *; [|rewrite parity_double; exact IH | reflexivity].
  rewrite parity_lxor, parity_double, IH. reflexivity.
Qed.

(* ---- two bits ---- *)
(* x^n is not 1 modulo the generator, for as many bits as a frame has *)
Fixpoint never_one (n : nat) (z : N) : bool := match n with O => true | S n' => let z' := crc_bit z in negb (z' =? 1) && never_one n' z' end.
Definition max_bits : nat := N.to_nat 8192.
Lemma never_one_frame : never_one max_bits 1 = true.
Proof. vm_compute. reflexivity. Qed.
Lemma never_one_spec n : forall z k, never_one n z = true -> (1 <= k <= n)%nat -> crc_bits k z <> 1.
Proof.
  induction n as [|n IH]; intros z k H L; [lia|]. cbn [never_one] in H. apply andb_prop in H as [H1 H2]. destruct k as [|k]; [lia|]. cbn [crc_bits].
  destruct k as [|k]; [cbn [crc_bits]; destruct (N.eqb_spec (crc_bit z) 1); [discriminate | assumption]|]. apply IH; [exact H2 | lia].
Qed.
Lemma two_no_multiple q i n : (1 <= n <= max_bits)%nat -> pmul q xmodem_poly <> (1 + 2 ^ N.of_nat n) * 2 ^ N.of_nat i.
Proof.
  intros L E. apply pmul_strip in E as (q' & E). destruct (crc_bits_div n 1) as [C1 (q2 & C2)]; [lia|].
  apply (never_one_spec _ 1 n never_one_frame L). apply (remainder_unique q2 q'); [exact C1 | vm_compute; reflexivity|].
  rewrite <- C2, E. replace (1 + 2 ^ N.of_nat n) with (1 * 2 ^ N.of_nat n + 1) by lia. rewrite <- lxor_shift; [|].
  - rewrite N.lxor_assoc, N.lxor_nilpotent, N.lxor_0_r. reflexivity.
  - apply N.pow_gt_1; lia.
Qed.
(* a number with two ones *)
Lemma ones_0 n : ones n = 0%nat -> n = 0.
Proof. destruct n as [|p]; [reflexivity|]. cbn. induction p; cbn; try discriminate. intros H. specialize (IHp H). discriminate. Qed.
Lemma ones_1 n : ones n = 1%nat -> exists i, n = 2 ^ N.of_nat i.
Proof.
  destruct n as [|p]; [discriminate|]. cbn. induction p as [p IH|p IH|]; cbn; intros H.
  - injection H as H. pose proof (ones_0 (N.pos p) H) as X. discriminate X.
  - destruct (IH H) as (i & E). exists (S i). rewrite Nat2N.inj_succ, N.pow_succ_r', <- E. reflexivity.
  - exists 0%nat. reflexivity.
Qed.
Lemma ones_2 n : ones n = 2%nat -> exists i k, (1 <= k)%nat /\ n = (1 + 2 ^ N.of_nat k) * 2 ^ N.of_nat i.
Proof.
  destruct n as [|p]; [discriminate|]. cbn. induction p as [p IH|p IH|]; cbn; intros H; [| |discriminate].
  - injection H as H. destruct (ones_1 (N.pos p) H) as (k & E). exists 0%nat, (S k). split; [lia|]. rewrite Nat2N.inj_succ, N.pow_succ_r', <- E. cbn. lia.
  - destruct (IH H) as (i & k & L & E). exists (S i), k. split; [exact L|]. rewrite (Nat2N.inj_succ i), N.pow_succ_r'. change (N.pos p~0) with (2 * N.pos p). rewrite E. lia.
Qed.

(* ---- codewords are short, and tell bodies apart ---- *)
Lemma poly_bound d : forall a n, a < 2 ^ n -> u8s d -> poly_of_bytes a d < 2 ^ (n + 8 * N.of_nat (length d)).
Proof.
  induction d as [|b d IH]; intros a n Ha U; cbn [poly_of_bytes length]; [rewrite N.mul_0_r, N.add_0_r; exact Ha|]. inversion U as [|? ? Hb U']; subst.
  replace (n + 8 * N.of_nat (S (length d))) with (n + 8 + 8 * N.of_nat (length d)) by lia. apply IH; [|exact U'].
  rewrite N.pow_add_r. change (2 ^ 8) with 256. nia.
Qed.
Lemma poly_inj d : forall d' a a', length d = length d' -> u8s d -> u8s d' -> poly_of_bytes a d = poly_of_bytes a' d' -> a = a' /\ d = d'.
Proof.
  induction d as [|b d IH]; intros [|b' d'] a a' L U U' E; try discriminate; [auto|]. inversion U as [|? ? Hb Ud]; subst. inversion U' as [|? ? Hb' Ud']; subst. cbn in L, E.
  apply IH in E as [E ->]; auto. assert (a = a' /\ b = b') as [-> ->] by lia. auto.
Qed.
Lemma body_length d : (length d <= length (dle_double d))%nat.
Proof. induction d as [|b d IH]; cbn; [lia|]. destruct (b =? 16); cbn; lia. Qed.
Lemma errors_bound d hi lo d' hi' lo' : u8s d -> u8s d' -> hi < 256 -> lo < 256 -> hi' < 256 -> lo' < 256 ->
  length d = length d' -> errors d hi lo d' hi' lo' < 2 ^ (8 * (N.of_nat (length d) + 2)).
Proof.
  intros U U' H1 H2 H3 H4 L.
  assert (C : forall x h l, u8s x -> h < 256 -> l < 256 -> codeword x h l < 2 ^ (8 * (N.of_nat (length x) + 2))).
  { intros x h l Ux Hh Hl. unfold codeword. replace (8 * (N.of_nat (length x) + 2)) with (0 + 8 * N.of_nat (length (x ++ [h; l]))) by (rewrite app_length; cbn [length]; lia).
    apply poly_bound; [reflexivity|]. apply u8s_app. split; [exact Ux | repeat constructor; assumption]. }
  unfold errors. apply lxor_lt; [auto | rewrite L; auto].
Qed.
Lemma errors_0 d hi lo d' hi' lo' : u8s d -> u8s d' -> hi < 256 -> lo < 256 -> hi' < 256 -> lo' < 256 ->
  length d = length d' -> errors d hi lo d' hi' lo' = 0 -> (d, hi, lo) = (d', hi', lo').
Proof.
  intros U U' H1 H2 H3 H4 L E. apply N.lxor_eq in E. unfold codeword in E.
  apply poly_inj in E as [_ E]; [| rewrite !app_length, L; reflexivity | apply u8s_app; split; [assumption | repeat constructor; assumption] ..].
  apply app_inj_len in E as [-> E]; [|exact L]. injection E as -> ->. reflexivity.
Qed.
Lemma multiple_crc d hi lo q : u8s d -> hi < 256 -> lo < 256 -> codeword d hi lo = pmul q xmodem_poly -> crc d = hi * 256 + lo.
Proof.
  intros U H L E. symmetry. apply (crc_correct d _ U). split; [change (2 ^ 16) with 65536; lia|]. exists q. rewrite <- E. unfold codeword. rewrite poly_app. cbn [poly_of_bytes].
  replace ((poly_of_bytes 0 d * 256 + hi) * 256 + lo) with (poly_of_bytes 0 d * 2 ^ 16 + (hi * 256 + lo)) by (change (2 ^ 16) with 65536; lia).
  rewrite <- lxor_shift by (change (2 ^ 16) with 65536; lia). rewrite N.lxor_assoc, N.lxor_nilpotent, N.lxor_0_r. reflexivity.
Qed.
Definition rp_sent (d : bytes) (hi lo : N) : bytes := [16; 2] ++ dle_double d ++ [16; 3] ++ [hi; lo].
Lemma rp_frame_sent d hi lo : u8s d -> hi < 256 -> lo < 256 -> rp_frame d (rp_sent d hi lo) <-> crc d = hi * 256 + lo.
Proof.
  intros U H L. split.
  - intros (h & l & c & Hc & Ec & Hh & Hl & E). apply (crc_correct d c U) in Hc. unfold rp_sent in E. do 2 (apply app_inj_len in E as [_ E]; [|reflexivity]). injection E as -> ->. lia.
  - intros E. exists hi, lo, (crc d). repeat split; auto; apply (crc_correct d (crc d) U); reflexivity.
Qed.
Lemma rp_good_crc d hi lo s : rp_body d -> hi < 256 -> lo < 256 -> crc d = hi * 256 + lo -> u8s s -> decode (rp_sent d hi lo ++ s) = Ok (Some (PRp d), s).
Proof.
  intros [U L] Hh Hl E Us. apply decode_exact.
  - unfold rp_sent. pose proof (proj2 (dle_double_u8s d) U).
    assert (u8s [16; 2] /\ u8s [16; 3] /\ u8s [hi; lo]) as (? & ? & ?) by (repeat split; repeat constructor; lia).
    repeat (apply u8s_app; split); assumption.
  - apply (D_rp PAscii PRp invalid_of d); [apply rp_frame_sent; assumption|]. unfold rp_sent. rewrite !app_length. cbn [length]. lia.
Qed.
Lemma sent_crc d hi lo : rp_body d -> hi < 256 -> lo < 256 -> encode (PRp d) [] = Ok (rp_sent d hi lo) -> crc d = hi * 256 + lo.
Proof.
  intros [U _] Hh Hl E. cbn [encode] in E. rewrite rp_encode_eq in E. apply (rp_frame_sent d hi lo U Hh Hl). apply (rp_frame_iff d _ U). assert (X : forall a b : bytes, Ok a = Ok b -> b = a) by congruence. exact (X _ _ E).
Qed.

(* ------------------------------------------------------------------ C70 *)
(* A frame is sent; what arrives has the same number of body bytes, but other bits.  It is accepted
   exactly when the wrong bits, as a polynomial, are a multiple of the generator; else it is reported
   as an invalid packet, whole, and the bytes behind it are untouched. *)
Theorem C70_accepted_iff : forall d hi lo d' hi' lo' s,
  rp_body d -> rp_body d' -> hi < 256 -> lo < 256 -> hi' < 256 -> lo' < 256 -> u8s s ->
  encode (PRp d) [] = Ok (rp_sent d hi lo) ->
  (decode (rp_sent d' hi' lo' ++ s) = Ok (Some (PRp d'), s) <-> exists q, errors d hi lo d' hi' lo' = pmul q xmodem_poly) /\
  (~ (exists q, errors d hi lo d' hi' lo' = pmul q xmodem_poly) ->
   exists why, decode (rp_sent d' hi' lo' ++ s) = Ok (Some (PInvalid (rp_sent d' hi' lo') why), s)).
Proof.
  intros d hi lo d' hi' lo' s V V' H1 H2 H3 H4 Us E. pose proof (sent_crc _ _ _ V H1 H2 E) as C. destruct V as [U _]. destruct V' as [U' L'].
  destruct (codeword_multiple d hi lo U H1 H2 C) as (q & Q).
  assert (X : crc d' = hi' * 256 + lo' <-> exists q, errors d hi lo d' hi' lo' = pmul q xmodem_poly).
  { split.
    - intros C'. destruct (codeword_multiple d' hi' lo' U' H3 H4 C') as (q' & Q'). exists (N.lxor q q'). unfold errors. rewrite Q, Q', pmul_lxor. reflexivity.
    - intros (x & Hx). apply (multiple_crc d' hi' lo' (N.lxor q x) U' H3 H4). rewrite pmul_lxor, <- Hx, <- Q. unfold errors. rewrite <- N.lxor_assoc, N.lxor_nilpotent, N.lxor_0_l. reflexivity. }
  destruct (N.eq_dec (crc d') (hi' * 256 + lo')) as [C'|C'].
  - rewrite <- X. rewrite (rp_good_crc d' hi' lo' s) by (try split; assumption). split; [split; auto | intros K; contradiction].
  - rewrite <- X. destruct (rp_bad_crc d' hi' lo' s) as (why & D); auto. fold (rp_sent d' hi' lo') in D. rewrite D.
    split; [split; [intros K; discriminate | intros K; contradiction] | intros _; exists why; reflexivity].
Qed.

(* In particular every burst of at most 16 bits, every odd number of wrong bits, and every two wrong
   bits are detected.
   Missing from C70: errors that make or remove a DLE, which the receiver takes as other framing; see
   C70_one_bit_refuted. *)
Theorem C70_errors_detected_partial : forall d hi lo d' hi' lo' s,
  rp_body d -> rp_body d' -> length d' = length d -> hi < 256 -> lo < 256 -> hi' < 256 -> lo' < 256 -> u8s s ->
  encode (PRp d) [] = Ok (rp_sent d hi lo) ->
  let e := errors d hi lo d' hi' lo' in
  burst e \/ Nat.Odd (ones e) \/ ones e = 2%nat ->
  exists why, decode (rp_sent d' hi' lo' ++ s) = Ok (Some (PInvalid (rp_sent d' hi' lo') why), s).
Proof.
  intros d hi lo d' hi' lo' s V V' Ld H1 H2 H3 H4 Us E e He. apply (C70_accepted_iff d hi lo d' hi' lo' s V V' H1 H2 H3 H4 Us E). fold e. intros (q & Q).
  destruct He as [He | [He | He]].
  - rewrite Q in He. exact (burst_no_multiple q He).
  - apply Nat.odd_spec in He. rewrite Q in He. pose proof (multiple_even q) as P. unfold parity in P. congruence.
  - destruct (ones_2 e He) as (i & k & K & Ee). assert (LK : (k <= max_bits)%nat).
    { pose proof (errors_bound d hi lo d' hi' lo' (proj1 V) (proj1 V') H1 H2 H3 H4 (eq_sym Ld)) as Bd. fold e in Bd. rewrite Ee in Bd.
      assert (2 ^ N.of_nat k < 2 ^ (8 * (N.of_nat (length d) + 2))).
      { eapply N.le_lt_trans; [|exact Bd]. pose proof (N.pow_nonzero 2 (N.of_nat i)) as Z. nia. }
      apply N.pow_lt_mono_r_iff in H; [|lia]. destruct V as [_ V]. pose proof (body_length d). unfold max_bits. lia. }
    apply (two_no_multiple q i k); [lia|]. rewrite <- Q. exact Ee.
Qed.

(* Two different frames of the same body length differ in at least four bits of body and checksum. *)
Theorem C70_distance : forall d d' hi lo hi' lo',
  rp_body d -> rp_body d' -> length d' = length d -> d <> d' -> hi < 256 -> lo < 256 -> hi' < 256 -> lo' < 256 ->
  encode (PRp d) [] = Ok (rp_sent d hi lo) -> encode (PRp d') [] = Ok (rp_sent d' hi' lo') ->
  (4 <= ones (errors d hi lo d' hi' lo'))%nat.
Proof.
  intros d d' hi lo hi' lo' V V' Ld N H1 H2 H3 H4 E E'. pose proof (sent_crc _ _ _ V' H3 H4 E') as C'.
  pose proof (rp_good_crc d' hi' lo' [] V' H3 H4 C' (Forall_nil _)) as D.
  assert (Z : errors d hi lo d' hi' lo' <> 0) by (intros Z; apply errors_0 in Z; [congruence | apply V | apply V' | auto ..]).
  destruct (ones (errors d hi lo d' hi' lo')) as [|[|[|[|n]]]] eqn:O; [|exfalso .. | lia].
  - exfalso. apply Z, ones_0, O.
  - destruct (C70_errors_detected_partial d hi lo d' hi' lo' [] V V' Ld H1 H2 H3 H4 (Forall_nil _) E) as (why & W); [right; left; rewrite O; exists 0%nat; reflexivity | congruence].
  - destruct (C70_errors_detected_partial d hi lo d' hi' lo' [] V V' Ld H1 H2 H3 H4 (Forall_nil _) E) as (why & W); [right; right; exact O | congruence].
  - destruct (C70_errors_detected_partial d hi lo d' hi' lo' [] V V' Ld H1 H2 H3 H4 (Forall_nil _) E) as (why & W); [right; left; rewrite O; exists 1%nat; reflexivity | congruence].
Qed.

(* False of the bytes on the wire: one wrong bit can end the frame early, and the bytes of the body
   where the checksum is then looked for may be the right ones.  For every body P whose checksum does
   not begin with a DLE there is a longer packet that one wrong bit turns into P. *)
Theorem C70_one_bit_refuted : forall P hi lo, rp_body P -> (length (dle_double P) + 11 <= N.to_nat 1024)%nat ->
  hi < 256 -> lo < 256 -> hi <> 16 -> encode (PRp P) [] = Ok (rp_sent P hi lo) ->
  exists d f f' A x y Z rest, rp_body d /\ (length P < length d)%nat /\ encode (PRp d) [] = Ok f /\
    f = A ++ x :: Z /\ f' = A ++ y :: Z /\ ones (N.lxor x y) = 1%nat /\
    decode f' = Ok (Some (PRp P), rest).
Proof.
  intros P hi lo V L Hh Hl Hn E. pose proof (sent_crc _ _ _ V Hh Hl E) as C. set (d := P ++ [17; 3; hi; lo]).
  assert (T : exists t, dle_double [lo] = lo :: t /\ (length t <= 1)%nat /\ u8s t).
  { cbn [dle_double]. destruct (N.eqb_spec lo 16) as [->|]; [exists [16] | exists []]; repeat split; cbn; try lia; repeat constructor; lia. }
  destruct T as (t & T & Lt & Ut).
  assert (Ed : dle_double d = dle_double P ++ 17 :: 3 :: hi :: lo :: t).
  { unfold d. rewrite dle_double_app. change [17; 3; hi; lo] with ([17; 3] ++ [hi] ++ [lo]). rewrite !dle_double_app, T. cbn [dle_double]. destruct (N.eqb_spec hi 16); [contradiction | reflexivity]. }
  assert (Ud : u8s d) by (unfold d; apply u8s_app; split; [apply V | repeat constructor; lia]).
  assert (Vd : rp_body d) by (split; [exact Ud | rewrite Ed, app_length; cbn [length]; lia]).
  pose proof (crc_lt d Ud) as CL. set (h2 := crc d / 256). set (l2 := crc d mod 256).
  assert (H2 : h2 < 256) by (unfold h2; lia). assert (L2 : l2 < 256) by (unfold l2; lia).
  assert (F : rp_frame d (rp_sent d h2 l2)) by (apply rp_frame_sent; auto; unfold h2, l2; lia).
  exists d, (rp_sent d h2 l2), ([16; 2] ++ dle_double P ++ 16 :: 3 :: hi :: lo :: t ++ [16; 3; h2; l2]), ([16; 2] ++ dle_double P), 17, 16, (3 :: hi :: lo :: t ++ [16; 3; h2; l2]), (t ++ [16; 3; h2; l2]).
  split; [exact Vd|]. split; [unfold d; rewrite app_length; cbn [length]; lia|].
  split. { cbn [encode]. rewrite rp_encode_eq. apply (rp_frame_iff d _ Ud) in F. rewrite F. reflexivity. }
  split; [unfold rp_sent; rewrite Ed, <- !app_assoc; reflexivity|]. split; [rewrite <- app_assoc; reflexivity|]. split; [reflexivity|].
  replace ([16; 2] ++ dle_double P ++ 16 :: 3 :: hi :: lo :: t ++ [16; 3; h2; l2]) with (rp_sent P hi lo ++ t ++ [16; 3; h2; l2]) by (unfold rp_sent; rewrite <- !app_assoc; reflexivity).
  apply rp_good_crc; auto. apply u8s_app. split; [exact Ut | repeat constructor; lia].
Qed.

(* ---- examples ---- *)
(* a frame; the same with a burst of ten wrong bits across body and checksum; and with four wrong bits,
   a multiple of the generator, which passes *)
Example C70_example :
  rp_body [1; 16; 0; 7] /\ encode (PRp [1; 16; 0; 7]) [] = Ok (rp_sent [1; 16; 0; 7] 69 48) /\
  burst (errors [1; 16; 0; 7] 69 48 [1; 16; 0; 5] 68 48) /\
  (exists why, decode (rp_sent [1; 16; 0; 5] 68 48 ++ [48]) = Ok (Some (PInvalid (rp_sent [1; 16; 0; 5] 68 48) why), [48])) /\
  errors [1; 16; 0; 7] 69 48 [1; 16; 0; 6] 85 17 = xmodem_poly /\
  decode (rp_sent [1; 16; 0; 6] 85 17) = Ok (Some (PRp [1; 16; 0; 6]), []).
Proof.
  split; [split; [repeat constructor; lia | cbn; lia]|]. split; [vm_compute; reflexivity|]. split; [exists 8, 513; split; [cbn; lia | vm_compute; reflexivity]|].
  split; [eexists; vm_compute; reflexivity|]. split; vm_compute; reflexivity.
Qed.
Example C70_one_bit_example : exists f, encode (PRp [7; 17; 3; 112; 231]) [] = Ok f /\
  decode ([16; 2; 7; 17; 3; 112; 231] ++ skipn 7 f) = Ok (Some (PRp [7; 17; 3; 112; 231]), []) /\
  decode ([16; 2; 7; 16; 3; 112; 231] ++ skipn 7 f) = Ok (Some (PRp [7]), skipn 7 f).
Proof. eexists. split; [vm_compute; reflexivity|]. split; vm_compute; reflexivity. Qed.

Print Assumptions C70_accepted_iff.
Print Assumptions C70_errors_detected_partial.
Print Assumptions C70_distance.
Print Assumptions C70_one_bit_refuted.
