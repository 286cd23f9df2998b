(* PktFacts.v: proofs about Pkt.v. *)
From Verif Require Import Pkt SpecPkt BaseFacts CrcFacts.
From Coq Require Import ZifyBool ZifyNat ZifyN.
Ltac Zify.zify_post_hook ::= Z.div_mod_to_equations.

Lemma INVALID_MAX_LEN_val : INVALID_MAX_LEN = N.to_nat 1024. Proof. reflexivity. Qed.
Lemma RP_MAX_LEN_val : RP_MAX_LEN = N.to_nat 1024. Proof. reflexivity. Qed.
Global Opaque INVALID_MAX_LEN RP_MAX_LEN.
Ltac maxlen := rewrite ?INVALID_MAX_LEN_val, ?RP_MAX_LEN_val in *.

(* ------------------------------------------------------------------ hex digits *)

Lemma hex_nibble_in_range n : (N.to_nat (N.land n 15) < length HEX_CHARS)%nat.
Proof.
  change 15 with (N.ones 4). rewrite N.land_ones. change (length HEX_CHARS) with 16%nat.
  assert (n mod 2 ^ 4 < 16) by (apply N.mod_lt; discriminate). lia.
Qed.

Lemma hex_nibble_spec n : hex_digit (N.to_nat (n mod 16)) (hex_nibble n).
Proof.
  unfold hex_digit, hex_nibble. change 15 with (N.ones 4). rewrite N.land_ones.
  change (2 ^ 4) with 16. change HEX_CHARS with (B "0123456789ABCDEF").
  apply nth_error_nth'. change (length (B "0123456789ABCDEF")) with 16%nat.
  assert (n mod 16 < 16) by (apply N.mod_lt; discriminate). lia.
Qed.

Lemma hex_digit_lt i c : hex_digit i c -> (i < 16)%nat.
Proof. unfold hex_digit. intros H. apply (nth_error_Some (B "0123456789ABCDEF") i). congruence. Qed.

Lemma hex_digit_cases i c : hex_digit i c ->
  (48 <= c <= 57 /\ i = N.to_nat (c - 48)) \/ (65 <= c <= 70 /\ i = N.to_nat (c - 55)).
Proof.
  intros H. pose proof (hex_digit_lt _ _ H) as L. unfold hex_digit in H.
  do 16 (destruct i as [|i]; [cbn in H; injection H as <-; cbn; (left; split; [lia|reflexivity]) || (right; split; [lia|reflexivity])|]).
  lia.
Qed.

Lemma dehex_nibble_spec c v : dehex_nibble c = Ok v <-> hex_digit (N.to_nat v) c.
Proof.
  unfold dehex_nibble. split.
  - intros H.
    destruct ((48 <=? c) && (c <=? 57)) eqn:E1; [|destruct ((65 <=? c) && (c <=? 70)) eqn:E2; [|discriminate]].
    + injection H as <-.
      assert (P : forallb (fun d => match nth_error (B "0123456789ABCDEF") (N.to_nat d) with Some x => x =? d + 48 | None => false end) (Nseq 10) = true) by (vm_compute; reflexivity).
      pose proof (sweep _ 10 P (c - 48)) as Q. cbv beta in Q. unfold hex_digit.
      destruct (nth_error _ (N.to_nat (c - 48))) as [x|]; [|assert (false = true) by (apply Q; lia); discriminate].
      f_equal. assert (x =? c - 48 + 48 = true) by (apply Q; lia). lia.
    + injection H as <-.
      assert (P : forallb (fun d => match nth_error (B "0123456789ABCDEF") (N.to_nat (d + 10)) with Some x => x =? d + 65 | None => false end) (Nseq 6) = true) by (vm_compute; reflexivity).
      pose proof (sweep _ 6 P (c - 65)) as Q. cbv beta in Q. unfold hex_digit.
      destruct (nth_error _ (N.to_nat (c - 65 + 10))) as [x|]; [|assert (false = true) by (apply Q; lia); discriminate].
      f_equal. assert (x =? c - 65 + 65 = true) by (apply Q; lia). lia.
  - intros H. apply hex_digit_cases in H as [[H1 H2]|[H1 H2]].
    + destruct ((48 <=? c) && (c <=? 57)) eqn:E1; [f_equal; lia | lia].
    + destruct ((48 <=? c) && (c <=? 57)) eqn:E1; [lia|].
      destruct ((65 <=? c) && (c <=? 70)) eqn:E2; [f_equal; lia | lia].
Qed.

Lemma dehex_nibble_ok_iff c : is_ok (dehex_nibble c) = true <-> is_hex_digit c.
Proof.
  split.
  - destruct (dehex_nibble c) as [v| |] eqn:E; try discriminate. intros _.
    exists (N.to_nat v). apply dehex_nibble_spec. exact E.
  - intros [i Hi]. assert (E : dehex_nibble c = Ok (N.of_nat i)) by (apply dehex_nibble_spec; rewrite Nat2N.id; exact Hi).
    rewrite E. reflexivity.
Qed.

Lemma dehex_nibble_nopanic c : dehex_nibble c = Err "" \/ exists v, dehex_nibble c = Ok v.
Proof. unfold dehex_nibble. destruct (_ && _); [eauto|]. destruct (_ && _); eauto. Qed.

Lemma lor_nibbles h l : h < 16 -> l < 16 -> N.lor (N.shiftl h 4 mod 256) l = 16 * h + l.
Proof.
  intros H1 H2.
  assert (P : forallb (fun h => forallb (fun l => N.lor (N.shiftl h 4 mod 256) l =? 16 * h + l) (Nseq 16)) (Nseq 16) = true) by (vm_compute; reflexivity).
  pose proof (sweep _ 16 P h ltac:(lia)) as Q. cbv beta in Q.
  pose proof (sweep _ 16 Q l ltac:(lia)) as R. cbv beta in R. apply N.eqb_eq in R. exact R.
Qed.

Lemma dehex_byte_spec a b n : dehex_byte a b = Ok n <-> hex2 n [a; b].
Proof.
  unfold dehex_byte, hex2. split.
  - intros H. apply bind_inv in H as (h & Hh & H). apply bind_inv in H as (l & Hl & H).
    injection H as <-. apply dehex_nibble_spec in Hh, Hl.
    pose proof (hex_digit_lt _ _ Hh). pose proof (hex_digit_lt _ _ Hl).
    exists (N.to_nat h), (N.to_nat l), a, b. repeat split; auto.
    rewrite lor_nibbles by lia. lia.
  - intros (i & j & a' & b' & Hi & Hj & -> & E). injection E as <- <-.
    pose proof (hex_digit_lt _ _ Hi). pose proof (hex_digit_lt _ _ Hj).
    assert (Ea : dehex_nibble a = Ok (N.of_nat i)) by (apply dehex_nibble_spec; rewrite Nat2N.id; exact Hi).
    assert (Eb : dehex_nibble b = Ok (N.of_nat j)) by (apply dehex_nibble_spec; rewrite Nat2N.id; exact Hj).
    rewrite Ea, Eb. cbn [bind]. f_equal. apply lor_nibbles; lia.
Qed.

Lemma dehex_byte_nopanic a b : dehex_byte a b = Err "" \/ exists n, dehex_byte a b = Ok n.
Proof.
  unfold dehex_byte.
  destruct (dehex_nibble_nopanic a) as [->|[v ->]]; cbn; auto.
  destruct (dehex_nibble_nopanic b) as [->|[w ->]]; cbn; eauto.
Qed.

Lemma hex2_lt n s : hex2 n s -> n < 256 /\ length s = 2%nat.
Proof.
  intros (i & j & a & b & Hi & Hj & -> & ->).
  pose proof (hex_digit_lt _ _ Hi). pose proof (hex_digit_lt _ _ Hj). split; [lia|reflexivity].
Qed.

Lemma hex_digit_inj i j c : hex_digit i c -> hex_digit j c -> i = j.
Proof. intros H1 H2. apply hex_digit_cases in H1, H2. lia. Qed.
Lemma hex_digit_fun i c d : hex_digit i c -> hex_digit i d -> c = d.
Proof. unfold hex_digit. congruence. Qed.

Lemma hex2_inj n m s : hex2 n s -> hex2 m s -> n = m.
Proof.
  intros (i & j & a & b & Hi & Hj & -> & ->) (i' & j' & a' & b' & Hi' & Hj' & -> & E).
  injection E as <- <-. rewrite (hex_digit_inj _ _ _ Hi Hi'), (hex_digit_inj _ _ _ Hj Hj'). reflexivity.
Qed.
Lemma hex2_fun n s t : hex2 n s -> hex2 n t -> s = t.
Proof.
  intros (i & j & a & b & Hi & Hj & -> & ->) (i' & j' & a' & b' & Hi' & Hj' & E & ->).
  pose proof (hex_digit_lt _ _ Hi). pose proof (hex_digit_lt _ _ Hj).
  pose proof (hex_digit_lt _ _ Hi'). pose proof (hex_digit_lt _ _ Hj').
  assert (i = i') as <- by lia. assert (j = j') as <- by lia.
  rewrite (hex_digit_fun _ _ _ Hi Hi'), (hex_digit_fun _ _ _ Hj Hj'). reflexivity.
Qed.
Lemma hex_byte_spec n : n < 256 -> hex2 n (hex_byte n).
Proof.
  intros H. unfold hex_byte, hex2.
  exists (N.to_nat (N.shiftr n 4 mod 16)), (N.to_nat (n mod 16)), (hex_nibble (N.shiftr n 4)), (hex_nibble n).
  repeat split; try apply hex_nibble_spec.
  rewrite N.shiftr_div_pow2. change (2 ^ 4) with 16. lia.
Qed.
Lemma hex2_hex_byte n s : hex2 n s -> s = hex_byte n.
Proof. intros H. pose proof (hex2_lt _ _ H) as [L _]. apply (hex2_fun n); [exact H | apply hex_byte_spec; exact L]. Qed.

Lemma hex_digit_printable i c : hex_digit i c -> 48 <= c <= 70.
Proof. intros H. apply hex_digit_cases in H. lia. Qed.
Lemma hex2_range n s : hex2 n s -> Forall (fun c => 48 <= c <= 70) s.
Proof.
  intros (i & j & a & b & Hi & Hj & _ & ->).
  repeat constructor; apply hex_digit_printable in Hi, Hj; lia.
Qed.

(* ------------------------------------------------------------------ checksum *)

Lemma byte_sum_app s t : byte_sum (s ++ t) = byte_sum s + byte_sum t.
Proof. induction s as [|b s IH]; cbn; [reflexivity|]. rewrite IH. lia. Qed.

Lemma checksum_fold s acc : u8s s -> acc < 256 ->
  fold_left (fun a b => wrapping_sub8 a b) s acc < 256 /\
  (fold_left (fun a b => wrapping_sub8 a b) s acc + byte_sum s) mod 256 = acc mod 256.
Proof.
  revert acc; induction s as [|b s IH]; intros acc Hs Ha; cbn [fold_left byte_sum].
  - split; [exact Ha|]. f_equal. lia.
  - inversion Hs as [|? ? Hb Hs']; subst.
    assert (W : wrapping_sub8 acc b < 256) by (unfold wrapping_sub8; lia).
    destruct (IH _ Hs' W) as [H1 H2]. split; [exact H1|].
    unfold wrapping_sub8 in *. lia.
Qed.
Lemma checksum_spec s : u8s s -> checksum s < 256 /\ (checksum s + byte_sum s) mod 256 = 0.
Proof. intros H. apply (checksum_fold s 0 H). lia. Qed.
Lemma checksum_unique s c : u8s s -> c < 256 -> (byte_sum s + c) mod 256 = 0 -> c = checksum s.
Proof. intros H Hc E. destruct (checksum_spec s H) as [H1 H2]. lia. Qed.
Lemma checksum_app s t : u8s s -> u8s t -> wrapping_add8 (checksum s) (checksum t) = checksum (s ++ t).
Proof.
  intros Hs Ht. apply checksum_unique; [apply Forall_app; auto | unfold wrapping_add8; lia |].
  destruct (checksum_spec s Hs), (checksum_spec t Ht). rewrite byte_sum_app. unfold wrapping_add8. lia.
Qed.

(* ------------------------------------------------------------------ try_from *)

Lemma printable_byte_iff b : printable_byte b = true <-> printable b.
Proof. unfold printable_byte, printable. lia. Qed.
Lemma check_printable_spec s : check_printable s = Ok tt <-> Forall printable s.
Proof.
  unfold check_printable. rewrite <- (Forall_forallb printable printable_byte s printable_byte_iff).
  destruct (forallb printable_byte s); split; congruence.
Qed.
Lemma check_printable_err s : ~ Forall printable s -> exists e, check_printable s = Err e.
Proof.
  unfold check_printable. rewrite <- (Forall_forallb printable printable_byte s printable_byte_iff).
  destruct (forallb printable_byte s); [congruence | eauto].
Qed.
Lemma ascii_try_from_spec s t : ascii_try_from s = Ok t <-> ascii_body s /\ t = s.
Proof.
  unfold ascii_try_from, ascii_body. rewrite <- check_printable_spec.
  destruct (check_printable s) as [[]|e|w]; cbn [bind].
  - destruct (Nat.ltb_spec (length s) 2); destruct (Nat.ltb_spec 253 (length s)); cbn; split; intros H1; try discriminate;
      try lia.
    + injection H1 as <-. repeat split; auto; lia.
    + destruct H1 as [_ ->]. reflexivity.
  - split; [discriminate | intros [[H _] _]; discriminate].
  - split; [discriminate | intros [[H _] _]; discriminate].
Qed.
Lemma ascii_try_from_dec s : ascii_try_from s = Ok s \/ exists e, ascii_try_from s = Err e.
Proof.
  unfold ascii_try_from, check_printable. destruct (forallb _ s); cbn; eauto.
  destruct (_ || _); eauto.
Qed.

Lemma printable_u8 s : Forall printable s -> u8s s.
Proof. apply Forall_impl. unfold printable. lia. Qed.
Lemma hexrange_u8 s : Forall (fun c => 48 <= c <= 70) s -> u8s s.
Proof. apply Forall_impl. lia. Qed.

Lemma u8s_app s t : u8s (s ++ t) <-> u8s s /\ u8s t.
Proof. apply Forall_app. Qed.

(* ------------------------------------------------------------------ ASCII encode *)

Lemma ascii_encode_spec body : ascii_body body ->
  exists frame, (forall to, ascii_encode body to = Ok (to ++ frame)) /\ ascii_frame body frame.
Proof.
  intros [Hp HL]. unfold ascii_encode, add8, as_u8.
  rewrite N.mod_small by lia.
  replace (2 + N.of_nat (length body) <? 256) with true by lia. cbn [bind].
  set (n := 2 + N.of_nat (length body)).
  assert (Hn : hex2 n (hex_byte n)) by (apply hex_byte_spec; lia).
  pose proof (hexrange_u8 _ (hex2_range _ _ Hn)) as U.
  rewrite checksum_app by (auto using printable_u8).
  eexists; split; [intros to; reflexivity|].
  exists (hex_byte n), (hex_byte (checksum (hex_byte n ++ body))), (checksum (hex_byte n ++ body)).
  assert (U2 : u8s (hex_byte n ++ body)) by (apply u8s_app; auto using printable_u8).
  destruct (checksum_spec _ U2) as [C1 C2].
  repeat split.
  - replace (N.of_nat (length body) + 2) with n by lia. exact Hn.
  - apply hex_byte_spec. exact C1.
  - rewrite N.add_comm. exact C2.
Qed.

Lemma ascii_frame_fun body f g : ascii_body body -> ascii_frame body f -> ascii_frame body g -> f = g.
Proof.
  intros [Hp _] (nn & cc & c & H1 & H2 & H3 & ->) (nn' & cc' & c' & H1' & H2' & H3' & ->).
  pose proof (hex2_fun _ _ _ H1 H1') as <-.
  assert (U : u8s (nn ++ body)) by (apply u8s_app; split; [eapply hexrange_u8, hex2_range; eauto | auto using printable_u8]).
  pose proof (hex2_lt _ _ H2) as [L _]. pose proof (hex2_lt _ _ H2') as [L' _].
  assert (c = c') as <- by (rewrite (checksum_unique _ c U L H3); rewrite (checksum_unique _ c' U L' H3'); reflexivity).
  pose proof (hex2_fun _ _ _ H2 H2') as <-. reflexivity.
Qed.

Lemma ascii_frame_length body f : ascii_frame body f -> length f = (length body + 6)%nat.
Proof.
  intros (nn & cc & c & H1 & H2 & _ & ->). apply hex2_lt in H1 as [_ H1], H2 as [_ H2].
  rewrite !app_length, H1, H2. cbn. lia.
Qed.

(* ------------------------------------------------------------------ ASCII decode *)

Lemma ends_with_spec s suf : ends_with s suf = true <-> exists t, s = t ++ suf.
Proof.
  unfold ends_with. rewrite andb_true_iff, Nat.leb_le, beq_eq. split.
  - intros [L E]. exists (firstn (length s - length suf) s). rewrite <- E at 2. symmetry. apply firstn_skipn.
  - intros [t ->]. rewrite app_length. split; [lia|].
    replace (length t + length suf - length suf)%nat with (length t) by lia.
    apply skipn_exact. reflexivity.
Qed.

(* the part of ascii_decode after splitting raw *)
Lemma ascii_decode_split d hi lo :
  (4 <= length d)%nat ->
  ascii_decode (d ++ [hi; lo] ++ CRLF) =
  match dehex_byte hi lo with
  | Ok actual =>
      if actual =? checksum d then ascii_try_from (skipn 2 d) else Err ("ASCII packet doesn't have expected checksum " ++ show_hex2 (checksum d))
  | Err _ => Err "ASCII packet has unparseable checksum"
  | Panic w => Panic w
  end.
Proof.
  intros L. unfold ascii_decode.
  rewrite (proj2 (ends_with_spec _ _)) by (exists (d ++ [hi; lo]); rewrite <- app_assoc; reflexivity).
  rewrite !app_length. cbn [length CRLF].
  replace (4 + 4 <=? length d + (2 + 2))%nat with true by lia.
  cbv zeta. replace (length d + (2 + 2) - 4)%nat with (length d) by lia.
  rewrite slice_to by (rewrite app_length; lia). rewrite firstn_exact by reflexivity. cbn [bind].
  change (d ++ [hi; lo] ++ CRLF) with (d ++ hi :: lo :: CRLF).
  rewrite index_app by reflexivity. cbn [bind].
  replace (d ++ hi :: lo :: CRLF) with ((d ++ [hi]) ++ lo :: CRLF) by (rewrite <- app_assoc; reflexivity).
  rewrite index_app by (rewrite app_length; reflexivity). cbn [bind].
  destruct (dehex_byte hi lo); try reflexivity.
  rewrite slice_from by lia. cbn [bind]. reflexivity.
Qed.

Lemma ascii_decode_total raw : (exists b, ascii_decode raw = Ok b) \/ (exists e, ascii_decode raw = Err e).
Proof.
  unfold ascii_decode. destruct (ends_with raw CRLF) eqn:E; [|eauto].
  destruct (4 + 4 <=? length raw)%nat eqn:L; [|eauto].
  cbv zeta. rewrite slice_to by lia. cbn [bind].
  destruct (index_ok raw (length raw - 4)) as (x & -> & _); [lia|]. cbn [bind].
  destruct (index_ok raw (length raw - 4 + 1)) as (y & -> & _); [lia|]. cbn [bind].
  destruct (dehex_byte_nopanic x y) as [->|[n ->]]; [eauto|].
  destruct (_ =? _); [|eauto].
  rewrite slice_from by (rewrite firstn_length; lia). cbn [bind].
  destruct (ascii_try_from_dec (skipn 2 (firstn (length raw - 4) raw))) as [->|[e ->]]; eauto.
Qed.

Lemma ascii_decode_sound raw len body :
  u8s raw -> (2 <= length raw)%nat ->
  hex2 len (firstn 2 raw) -> length raw = (4 + N.to_nat len)%nat ->
  ascii_decode raw = Ok body -> ascii_body body /\ ascii_frame body raw.
Proof.
  intros U L2 Hlen HL H.
  assert (E : ends_with raw CRLF = true) by (unfold ascii_decode in H; destruct (ends_with raw CRLF); [reflexivity|discriminate]).
  assert (L8 : (8 <= length raw)%nat).
  { unfold ascii_decode in H; rewrite E in H. destruct (4 + 4 <=? length raw)%nat eqn:L8; [lia|discriminate]. }
  apply ends_with_spec in E as [t Et].
  assert (Lt : length raw = (length t + 2)%nat) by (rewrite Et, app_length; reflexivity).
  destruct (rev t) as [|lo [|hi dr]] eqn:R; [apply (f_equal (@length N)) in R; rewrite rev_length in R; cbn in R; lia
    | apply (f_equal (@length N)) in R; rewrite rev_length in R; cbn in R; lia |].
  assert (Er : t = rev dr ++ [hi; lo]) by (rewrite <- (rev_involutive t), R; cbn; rewrite <- app_assoc; reflexivity).
  set (d := rev dr) in *. subst t.
  assert (Ed : raw = d ++ [hi; lo] ++ CRLF) by (rewrite Et, <- app_assoc; reflexivity).
  clear Et R. rewrite app_length in Lt. cbn [length] in Lt.
  rewrite Ed in H. rewrite ascii_decode_split in H by lia.
  destruct (dehex_byte hi lo) as [c| |] eqn:Ec; try discriminate.
  destruct (N.eqb_spec c (checksum d)) as [->|]; [|discriminate].
  apply ascii_try_from_spec in H as [HB ->]. split; [exact HB|].
  assert (U2 : u8s d) by (rewrite Ed in U; apply Forall_app in U; tauto).
  exists (firstn 2 raw), [hi; lo], (checksum d).
  assert (F2 : firstn 2 raw = firstn 2 d) by (rewrite Ed; apply firstn_app_l; lia).
  repeat split.
  - replace (N.of_nat (length (skipn 2 d)) + 2) with len; [exact Hlen|]. rewrite skipn_length. lia.
  - apply dehex_byte_spec. exact Ec.
  - rewrite F2, firstn_skipn. rewrite N.add_comm. apply checksum_spec. exact U2.
  - rewrite F2, app_assoc, firstn_skipn. exact Ed.
Qed.

Lemma ascii_decode_complete body raw : ascii_body body -> ascii_frame body raw -> ascii_decode raw = Ok body.
Proof.
  intros HB (nn & cc & c & H1 & H2 & H3 & ->).
  destruct H2 as (i & j & a & b & Hi & Hj & Ec & ->).
  pose proof HB as [Hp HL].
  assert (Ln : length nn = 2%nat) by (apply hex2_lt in H1; tauto).
  rewrite (app_assoc nn body). rewrite ascii_decode_split by (rewrite app_length; lia).
  assert (D : dehex_byte a b = Ok c) by (apply dehex_byte_spec; exists i, j, a, b; auto).
  rewrite D.
  assert (U : u8s (nn ++ body)) by (apply u8s_app; split; [eapply hexrange_u8, hex2_range; eauto | auto using printable_u8]).
  pose proof (hex_digit_lt _ _ Hi). pose proof (hex_digit_lt _ _ Hj).
  rewrite <- (checksum_unique _ c U) by (auto; lia). rewrite N.eqb_refl.
  rewrite skipn_exact by auto. apply ascii_try_from_spec. auto.
Qed.

(* ------------------------------------------------------------------ DLE escaping *)

Lemma dle_double_app x y : dle_double (x ++ y) = dle_double x ++ dle_double y.
Proof. induction x as [|b x IH]; cbn; [reflexivity|]. destruct (b =? 16); cbn; rewrite IH; reflexivity. Qed.
Lemma dle_double_nodle x : ~ In 16 x -> dle_double x = x.
Proof.
  induction x as [|b x IH]; cbn; intros H; [reflexivity|].
  destruct (N.eqb_spec b 16) as [->|]; [tauto|]. rewrite IH; tauto.
Qed.
Lemma dle_double_length d : length (dle_double d) = (length d + length (filter (fun b => N.eqb b 16) d))%nat.
Proof. induction d as [|b d IH]; cbn; [reflexivity|]. destruct (b =? 16); cbn; lia. Qed.
Lemma dle_double_u8s d : u8s (dle_double d) <-> u8s d.
Proof.
  induction d as [|b d IH]; cbn; [split; constructor|].
  destruct (N.eqb_spec b 16) as [->|]; split; intros H.
  - inversion H as [|? ? _ H']; inversion H' as [|? ? _ H'']; subst. constructor; [lia | apply IH; exact H''].
  - inversion H as [|? ? _ H']; subst. repeat constructor; try lia. apply IH; exact H'.
  - inversion H as [|? ? ? H']; subst. constructor; [assumption | apply IH; exact H'].
  - inversion H as [|? ? ? H']; subst. constructor; [assumption | apply IH; exact H'].
Qed.

(* what can follow an escaped body: nothing, a lone DLE, or a DLE not followed by a DLE *)
Definition tail_ok (t : bytes) : Prop :=
  match t with [] => True | a :: t' => a = 16 /\ match t' with [] => True | b :: _ => b <> 16 end end.
Lemma esc_unique d d' t t' : tail_ok t -> tail_ok t' ->
  dle_double d ++ t = dle_double d' ++ t' -> d = d' /\ t = t'.
Proof.
  intros Ht Ht'. revert d'; induction d as [|b d IH]; intros [|b' d'] E.
  - auto.
  - exfalso. cbn in E. subst t. destruct (N.eqb_spec b' 16) as [->|Hn]; cbn in Ht; [tauto | tauto].
  - exfalso. cbn in E. destruct (N.eqb_spec b 16) as [->|Hn]; cbn in E; rewrite <- E in Ht'; cbn in Ht'; tauto.
  - cbn in E. destruct (N.eqb_spec b 16) as [->|Hn]; destruct (N.eqb_spec b' 16) as [->|Hn']; cbn in E.
    + injection E as E. apply IH in E as [-> ->]. auto.
    + injection E as E1 E2. congruence.
    + injection E as E1 E2. congruence.
    + injection E as -> E. apply IH in E as [-> ->]. auto.
Qed.

Lemma nth_error_at {A} (x : list A) y z i : i = length x -> nth_error (x ++ y :: z) i = Some y.
Proof. intros ->. rewrite nth_error_app2, Nat.sub_diag by lia. reflexivity. Qed.

(* The loop of RpPacket::decode, case by case on the bytes from pos on. *)
Lemma rp_loop_cases fuel : forall src buf pos data pre t,
  buf = pre ++ t -> pos = length pre -> (length t < fuel)%nat ->
  (exists d tail, (tail = [] \/ tail = [16]) /\ t = dle_double d ++ tail /\
     rp_loop fuel src buf pos data = rp_decode_unfinished src) \/
  (exists d r, t = dle_double d ++ 16 :: 3 :: r /\ (length r < 2)%nat /\
     rp_loop fuel src buf pos data = Ok (RpOk None, src)) \/
  (exists d hi lo r, t = dle_double d ++ 16 :: 3 :: hi :: lo :: r /\
     rp_loop fuel src buf pos data =
       (src' <- advance src (length pre + length (dle_double d) + 4) ;;
        if crc (data ++ d) =? hi * 256 + lo then Ok (RpOk (Some (data ++ d)), src')
        else Ok (RpErr (pre ++ dle_double d ++ [16; 3; hi; lo]) ("RP packet doesn't have expected CRC " ++ show_hex2 (crc (data ++ d))), src'))) \/
  (exists d b r, t = dle_double d ++ 16 :: b :: r /\ b <> 16 /\ b <> 3 /\
     rp_loop fuel src buf pos data =
       (raw <- slice src 0 (length pre + length (dle_double d) + 1) ;;
        src' <- advance src (length pre + length (dle_double d) + 1) ;;
        Ok (RpErr raw ("RP packet has bad sequence DTS " ++ show_hex2 b), src'))).
Proof.
  induction fuel as [|fuel IH]; intros src buf pos data pre t Eb Ep L; [lia|].
  cbn [rp_loop]. rewrite slice_from by (subst; rewrite app_length; lia).
  replace (skipn pos buf) with t by (subst; rewrite skipn_exact; reflexivity). cbn [bind].
  destruct (memchr 16 t) as [rel|] eqn:M.
  2:{ left. exists t, []. rewrite app_nil_r, dle_double_nodle by (apply memchr_none; exact M). auto. }
  apply memchr_some in M as (x & y & Et & Ex & Hx).
  pose proof (dle_double_nodle x Hx) as Dx.
  destruct y as [|e y].
  { left. exists x, [16]. rewrite Dx. repeat split; auto.
    replace (nth_error buf (pos + rel + 1)) with (@None N); [reflexivity|].
    symmetry. apply nth_error_None. subst. rewrite !app_length. cbn. lia. }
  replace (nth_error buf (pos + rel + 1)) with (Some e).
  2:{ symmetry. subst. rewrite app_assoc. replace ((pre ++ x) ++ 16 :: e :: y) with ((pre ++ x ++ [16]) ++ e :: y) by (rewrite <- !app_assoc; reflexivity).
      apply nth_error_at. rewrite !app_length. cbn. lia. }
  destruct (N.eqb_spec e 16) as [->|He].
  - (* escaped DLE *)
    replace (slice buf pos (pos + rel + 1)) with (Ok (x ++ [16])).
    2:{ symmetry. subst. replace (pre ++ x ++ 16 :: 16 :: y) with (pre ++ (x ++ [16]) ++ 16 :: y) by (rewrite <- !app_assoc; reflexivity).
        apply slice_app; [reflexivity | rewrite app_length; cbn; lia]. }
    cbn [bind].
    specialize (IH src buf (pos + rel + 2)%nat (data ++ x ++ [16]) (pre ++ x ++ [16; 16]) y).
    assert (DD : forall d, dle_double (x ++ 16 :: d) = x ++ 16 :: 16 :: dle_double d)
      by (intros d; rewrite dle_double_app, Dx; reflexivity).
    assert (LD : forall d, length (dle_double (x ++ 16 :: d)) = (length x + 2 + length (dle_double d))%nat)
      by (intros d; rewrite DD, app_length; cbn; lia).
    assert (LP : length (pre ++ x ++ [16; 16]) = (length pre + length x + 2)%nat) by (rewrite !app_length; cbn; lia).
    destruct IH as [IH|[IH|[IH|IH]]].
    + subst. rewrite <- !app_assoc. reflexivity.
    + subst. rewrite LP. lia.
    + rewrite Et in L. rewrite app_length in L. cbn in L. lia.
    + destruct IH as (d & tail & Htl & Ey & IH). left. exists (x ++ 16 :: d), tail.
      split; [exact Htl|]. split; [rewrite DD, Et, Ey, <- !app_assoc; reflexivity | exact IH].
    + destruct IH as (d & r & Ey & Hr & IH). right; left. exists (x ++ 16 :: d), r.
      split; [rewrite DD, Et, Ey, <- !app_assoc; reflexivity | split; [exact Hr | exact IH]].
    + destruct IH as (d & hi & lo & r & Ey & IH). right; right; left. exists (x ++ 16 :: d), hi, lo, r.
      split; [rewrite DD, Et, Ey, <- !app_assoc; reflexivity|].
      rewrite IH, LD, LP, DD.
      replace (length pre + length x + 2 + length (dle_double d) + 4)%nat with (length pre + (length x + 2 + length (dle_double d)) + 4)%nat by lia.
      rewrite <- !app_assoc. reflexivity.
    + destruct IH as (d & b & r & Ey & Hb1 & Hb2 & IH). right; right; right. exists (x ++ 16 :: d), b, r.
      split; [rewrite DD, Et, Ey, <- !app_assoc; reflexivity|]. split; [exact Hb1|]. split; [exact Hb2|].
      rewrite IH, LD, LP.
      replace (length pre + length x + 2 + length (dle_double d) + 1)%nat with (length pre + (length x + 2 + length (dle_double d)) + 1)%nat by lia.
      reflexivity.
  - destruct (N.eqb_spec e 3) as [->|He3].
    + (* DLE ETX *)
      replace (slice buf pos (pos + rel)) with (Ok x).
      2:{ symmetry. subst. apply slice_app; reflexivity. }
      cbn [bind]. cbv zeta.
      destruct (get_to buf (pos + rel + 4)) as [frame|] eqn:G.
      * apply get_to_some in G as [G1 G2].
        destruct y as [|hi [|lo y]];
          [subst; rewrite !app_length in G1; cbn in G1; lia | subst; rewrite !app_length in G1; cbn in G1; lia |].
        assert (EF : frame = pre ++ x ++ [16; 3; hi; lo]).
        { subst frame. subst buf t. replace (pre ++ x ++ 16 :: 3 :: hi :: lo :: y) with ((pre ++ x ++ [16; 3; hi; lo]) ++ y) by (rewrite <- !app_assoc; reflexivity).
          apply firstn_exact. rewrite !app_length. cbn. lia. }
        right; right; left. exists x, hi, lo, y. split; [rewrite Dx; exact Et|]. rewrite Dx.
        replace (index frame (pos + rel + 2)) with (Ok hi).
        2:{ symmetry. rewrite EF. replace (pre ++ x ++ [16; 3; hi; lo]) with ((pre ++ x ++ [16; 3]) ++ hi :: [lo]) by (rewrite <- !app_assoc; reflexivity).
            apply index_app. rewrite !app_length. cbn. lia. }
        replace (index frame (pos + rel + 3)) with (Ok lo).
        2:{ symmetry. rewrite EF. replace (pre ++ x ++ [16; 3; hi; lo]) with ((pre ++ x ++ [16; 3; hi]) ++ lo :: []) by (rewrite <- !app_assoc; reflexivity).
            apply index_app. rewrite !app_length. cbn. lia. }
        cbn [bind]. rewrite EF. replace (pos + rel + 4)%nat with (length pre + length x + 4)%nat by lia. reflexivity.
      * apply get_to_none in G. right; left. exists x, y. rewrite Dx. split; [exact Et|]. split; [|reflexivity].
        subst. rewrite !app_length in G. cbn in G. lia.
    + right; right; right. exists x, e, y. rewrite Dx. split; [exact Et|]. split; [exact He|]. split; [exact He3|].
      replace (pos + rel + 1)%nat with (length pre + length x + 1)%nat by lia. reflexivity.
Qed.

(* ------------------------------------------------------------------ RP encode *)

Lemma rp_escape_spec fuel : forall data pre t, data = pre ++ t -> (length t < fuel)%nat ->
  rp_escape fuel data (length pre) = Ok (dle_double t).
Proof.
  induction fuel as [|fuel IH]; intros data pre t E L; [lia|].
  cbn [rp_escape]. rewrite slice_from by (subst; rewrite app_length; lia).
  replace (skipn (length pre) data) with t by (subst; rewrite skipn_exact; reflexivity). cbn [bind].
  destruct (memchr 16 t) as [off|] eqn:M.
  - apply memchr_some in M as (x & y & Et & Ex & Hx).
    replace (slice data (length pre) (length pre + off + 1)) with (Ok (x ++ [16])).
    2:{ symmetry. subst. replace (pre ++ x ++ 16 :: y) with (pre ++ (x ++ [16]) ++ y) by (rewrite <- !app_assoc; reflexivity).
        apply slice_app; [reflexivity | rewrite app_length; cbn; lia]. }
    cbn [bind].
    replace (length pre + off + 1)%nat with (length (pre ++ x ++ [16])) by (rewrite !app_length; cbn; lia).
    rewrite (IH data (pre ++ x ++ [16]) y).
    + cbn [bind]. rewrite Et, dle_double_app, (dle_double_nodle x Hx). cbn. rewrite <- app_assoc. reflexivity.
    + subst. rewrite <- !app_assoc. reflexivity.
    + rewrite Et, app_length in L. cbn in L. lia.
  - rewrite dle_double_nodle by (apply memchr_none; exact M). reflexivity.
Qed.

Lemma rp_encode_eq d to :
  rp_encode d to = Ok (to ++ [16; 2] ++ dle_double d ++ [16; 3] ++ [crc d / 256; crc d mod 256]).
Proof.
  unfold rp_encode. change 0%nat with (length (@nil N)). rewrite (rp_escape_spec _ d [] d) by (auto; lia).
  reflexivity.
Qed.

Lemma rp_frame_iff d f : u8s d ->
  rp_frame d f <-> f = [16; 2] ++ dle_double d ++ [16; 3] ++ [crc d / 256; crc d mod 256].
Proof.
  intros U. pose proof (crc_lt d U) as L. split.
  - intros (hi & lo & c & Hc & E & Hh & Hl & ->). apply (crc_correct d c U) in Hc. subst c.
    assert (hi = crc d / 256 /\ lo = crc d mod 256) as [-> ->] by lia. reflexivity.
  - intros ->. exists (crc d / 256), (crc d mod 256), (crc d). repeat split; try lia.
    apply crc_correct; auto.
Qed.

Lemma rp_try_from_spec d t : u8s d -> rp_try_from d = Ok t <-> rp_body d /\ t = d.
Proof.
  intros U. unfold rp_try_from, rp_body. cbv zeta. rewrite RP_MAX_LEN_val, dle_double_length.
  destruct (Nat.ltb_spec (N.to_nat 1024) (6 + length d + length (filter (fun b => N.eqb b 16) d))) as [H|H].
  - split; [discriminate|]. intros [[_ H'] _]. lia.
  - split; [intros [= <-]; repeat split; auto; lia | intros [_ ->]; reflexivity].
Qed.

(* ------------------------------------------------------------------ decode: all cases *)

Definition reason (c : complaint) (raw : bytes) : string :=
  match c with
  | BadAsciiFrame => match ascii_decode raw with Err e => e | _ => "" end
  | BadCrc c => "RP packet doesn't have expected CRC " ++ show_hex2 c
  | BadSequence c => "RP packet has bad sequence DTS " ++ show_hex2 c
  | TooLong => "RP packet has no DLE EXT after 1024 bytes"
  | NoPrefix => "bytes without ASCII length or RP prefix"
  end%string.
Definition invalid_of (c : complaint) (raw : bytes) : packet := PInvalid raw (reason c raw).
Notation decodes := (SpecPkt.decodes PAscii PRp invalid_of).

Lemma is_ok_dehex_byte a b : is_ok (dehex_byte a b) = true <-> is_hex_digit a /\ is_hex_digit b.
Proof.
  destruct (dehex_byte_nopanic a b) as [E|[n E]]; rewrite E; cbn; split; try discriminate; auto.
  - intros [[i Hi] [j Hj]]. exfalso.
    assert (dehex_byte a b = Ok (16 * N.of_nat i + N.of_nat j)) by (apply dehex_byte_spec; exists i, j, a, b; auto).
    congruence.
  - intros _. apply dehex_byte_spec in E as (i & j & a' & b' & Hi & Hj & _ & E). injection E as <- <-.
    split; eexists; eauto.
Qed.

Lemma begins_packet_iff s : begins_packet s <->
  starts_with s RP_HEADER = true \/ exists a b t, s = a :: b :: t /\ is_ok (dehex_byte a b) = true.
Proof.
  unfold begins_packet. rewrite starts_with_spec. change RP_HEADER with [16; 2].
  split; (intros [H|(a & b & t & E & H)]; [left; exact H | right; exists a, b, t]).
  - split; [exact E | apply is_ok_dehex_byte; exact H].
  - split; [exact E | apply is_ok_dehex_byte; exact H].
Qed.

Lemma begins_packet_app s t : begins_packet s -> begins_packet (s ++ t).
Proof.
  intros [[u ->]|(a & b & u & -> & H)]; [left; exists (u ++ t); rewrite <- app_assoc; reflexivity|].
  right. exists a, b, (u ++ t). rewrite <- app_assoc. auto.
Qed.
Lemma begins_packet_app_inv s t : (2 <= length s)%nat -> begins_packet (s ++ t) -> begins_packet s.
Proof.
  intros L H. destruct s as [|x [|y s]]; cbn in L; try lia.
  destruct H as [[u E]|(a & b & u & E & H)].
  - injection E as -> -> E. left. exists s. reflexivity.
  - injection E as -> -> E. right. exists a, b, s. auto.
Qed.
Lemma begins_packet_length s : begins_packet s -> (2 <= length s)%nat.
Proof. intros [[u ->]|(a & b & u & -> & H)]; rewrite app_length; cbn; lia. Qed.

Lemma scan_cases fuel : forall pos src, (2 <= length src)%nat -> (pos + 2 <= length src)%nat ->
  (pos <= INVALID_MAX_LEN)%nat -> (INVALID_MAX_LEN - pos < fuel)%nat ->
  (forall i, (i < pos)%nat -> ~ begins_packet (skipn i src)) ->
  (scan fuel pos src = Ok None /\ (length src - 2 < INVALID_MAX_LEN)%nat /\
     (forall i, (i + 2 < length src)%nat -> ~ begins_packet (skipn i src))) \/
  (exists p, scan fuel pos src = Ok (Some p) /\ (pos <= p)%nat /\ (p + 2 <= length src)%nat /\
     (forall i, (i < p)%nat -> ~ begins_packet (skipn i src)) /\
     ((p < INVALID_MAX_LEN)%nat /\ begins_packet (skipn p src) /\ (p + 2 < length src)%nat \/ p = INVALID_MAX_LEN)).
Proof.
  induction fuel as [|fuel IH]; intros pos src L2 L Lm Lf Hno; [lia|].
  cbn [scan]. destruct (Nat.ltb_spec pos INVALID_MAX_LEN) as [Hlt|Hge].
  2:{ right. exists pos. repeat split; auto; lia. }
  destruct (Nat.eqb_spec (pos + 2) (length src)) as [He|Hne].
  { left. split; [reflexivity|]. split; [lia|]. intros i Hi. apply Hno. lia. }
  rewrite slice_from by lia. cbn [bind].
  destruct (starts_with (skipn pos src) RP_HEADER) eqn:SW.
  { right. exists pos. repeat split; auto; try lia. left. repeat split; auto; try lia.
    apply begins_packet_iff. left. exact SW. }
  destruct (index_ok src pos) as (a & Ea & Na); [lia|]. rewrite Ea. cbn [bind].
  destruct (index_ok src (pos + 1)) as (b & Eb & Nb); [lia|]. rewrite Eb. cbn [bind].
  assert (ES : exists t, skipn pos src = a :: b :: t).
  { destruct (skipn pos src) as [|x [|y t]] eqn:S.
    - apply (f_equal (@length N)) in S. rewrite skipn_length in S. cbn in S. lia.
    - apply (f_equal (@length N)) in S. rewrite skipn_length in S. cbn in S. lia.
    - exists t. rewrite <- (firstn_skipn pos src) in Na, Nb. rewrite S in Na, Nb.
      rewrite nth_error_app2 in Na, Nb by (rewrite firstn_length; lia).
      rewrite firstn_length in Na, Nb.
      replace (pos - Nat.min pos (length src))%nat with 0%nat in Na by lia.
      replace (pos + 1 - Nat.min pos (length src))%nat with 1%nat in Nb by lia.
      cbn in Na, Nb. congruence. }
  destruct ES as [t ES].
  destruct (is_ok (dehex_byte a b)) eqn:D.
  { right. exists pos. repeat split; auto; try lia. left. repeat split; auto; try lia.
    apply begins_packet_iff. right. exists a, b, t. auto. }
  assert (Hno' : forall i, (i < pos + 1)%nat -> ~ begins_packet (skipn i src)).
  { intros i Hi. destruct (Nat.eq_dec i pos) as [->|]; [|apply Hno; lia].
    rewrite begins_packet_iff. intros [H|(a' & b' & t' & E & H)]; [congruence|].
    rewrite ES in E. injection E as <- <- <-. congruence. }
  destruct (IH (pos + 1)%nat src) as [H|(p & H & H2 & H3)]; auto; try lia.
  right. exists p. repeat split; try apply H3; auto; lia.
Qed.

Lemma decodes_ascii_or n a b t rest : u8s ([a; b] ++ t) -> hex2 n [a; b] -> N.of_nat (length t) = n + 2 ->
  exists p, decodes (([a; b] ++ t) ++ rest) (Some p) rest /\
    match ascii_decode ([a; b] ++ t) with
    | Ok body => p = PAscii body
    | Err e => p = PInvalid ([a; b] ++ t) e
    | Panic w => False
    end.
Proof.
  intros U Hx L.
  destruct (ascii_decode_total ([a; b] ++ t)) as [[body E]|[e E]]; rewrite E.
  - eexists. split; [|reflexivity].
    destruct (ascii_decode_sound ([a; b] ++ t) n body) as [HB HF]; auto.
    + cbn; lia.
    + cbn [app length]. lia.
    + apply D_ascii; assumption.
  - exists (invalid_of BadAsciiFrame ([a; b] ++ t)).
    split; [|unfold invalid_of, reason; rewrite E; reflexivity]. eapply D_ascii_bad; eauto.
    intros body HB HF. rewrite (ascii_decode_complete body _ HB HF) in E. discriminate.
Qed.

Lemma decode_cases src : u8s src -> exists o rest, decode src = Ok (o, rest) /\ decodes src o rest.
Proof.
  intros U. unfold decode.
  destruct (Nat.ltb_spec (length src) 2) as [Hs|Hs].
  { exists None, src. split; [reflexivity | apply D_short; exact Hs]. }
  destruct (starts_with src RP_HEADER) eqn:SW.
  - (* RP *)
    unfold rp_decode. destruct (Nat.ltb_spec (length src) 2); [lia|]. rewrite SW. cbn [negb]. cbv zeta.
    apply starts_with_spec in SW as [t0 Es].
    set (buf := firstn (Nat.min (length src) RP_MAX_LEN) src).
    assert (Lb : length buf = Nat.min (length src) RP_MAX_LEN) by (unfold buf; rewrite firstn_length; lia).
    pose proof RP_MAX_LEN_val as RM.
    set (w := skipn (length buf) src).
    assert (Esw : src = buf ++ w) by (unfold w; rewrite Lb; unfold buf; symmetry; apply firstn_skipn).
    assert (Hb : exists t, buf = [16; 2] ++ t).
    { exists (firstn (length buf - 2) t0). unfold buf at 1. rewrite <- Lb, Es.
      rewrite firstn_app. change (length RP_HEADER) with 2%nat. rewrite (firstn_all2 RP_HEADER) by (change (length RP_HEADER) with 2%nat; lia). reflexivity. }
    destruct Hb as [t Hb].
    assert (Lt : length buf = (2 + length t)%nat) by (rewrite Hb; reflexivity).
    destruct (rp_loop_cases (S (length buf)) src buf 2 [] [16; 2] t) as [H1|[H1|[H1|H1]]]; auto; try lia.
    + destruct H1 as (d & tail & Htl & Et & ->). unfold rp_decode_unfinished.
      destruct (Nat.leb_spec RP_MAX_LEN (length src)) as [HL|HL].
      * rewrite slice_to by lia. rewrite advance_ok by lia. cbn [bind].
        eexists (Some (invalid_of TooLong _)), _. split; [reflexivity|].
        assert (EB : buf = firstn RP_MAX_LEN src) by (unfold buf; f_equal; lia).
        assert (EW : w = skipn RP_MAX_LEN src) by (unfold w; f_equal; lia).
        rewrite <- EB, <- EW. rewrite Esw at 1. rewrite Hb, Et.
        apply D_rp_long; auto. rewrite <- Et, <- Hb. lia.
      * assert (w = []) as W by (unfold w; apply skipn_all2; lia). rewrite W, app_nil_r in Esw.
        cbn [bind]. eexists _, _. split; [reflexivity|]. rewrite Esw, Hb, Et.
        apply D_rp_wait; auto. rewrite <- Et, <- Hb, <- Esw. lia.
    + destruct H1 as (d & r & Et & Hr & ->). cbn [bind]. eexists _, _. split; [reflexivity|].
      destruct (Nat.leb_spec RP_MAX_LEN (length src)) as [HL|HL].
      * assert (LBM : length buf = RP_MAX_LEN) by lia.
        set (head := [16; 2] ++ dle_double d ++ [16; 3]).
        replace src with (head ++ (r ++ w))
          by (unfold head; rewrite Esw, Hb, Et, <- !app_assoc; reflexivity).
        assert (Lq : length buf = (length head + length r)%nat)
          by (unfold head; rewrite Hb, Et, !app_length; change (length [16; 3]) with 2%nat; cbn [length]; lia).
        apply D_rp_stall; fold head; [|lia].
        rewrite app_length, app_length. rewrite Esw, app_length in HL. lia.
      * assert (w = []) as W by (unfold w; apply skipn_all2; lia). rewrite W, app_nil_r in Esw.
        rewrite Esw, Hb, Et. apply (D_rp_wait_crc PAscii PRp invalid_of d r Hr).
        change ([16; 3] ++ r) with (16 :: 3 :: r). rewrite <- Et, <- Hb, <- Esw. lia.
    + destruct H1 as (d & hi & lo & r & Et & ->).
      set (frame := [16; 2] ++ dle_double d ++ [16; 3] ++ [hi; lo]).
      assert (Lf : (length RP_HEADER + length (dle_double d) + 4)%nat = length frame)
        by (unfold frame; rewrite !app_length; change (length RP_HEADER) with 2%nat; cbn [length]; lia).
      assert (Ef : src = frame ++ r ++ w)
        by (unfold frame; rewrite Esw, Hb, Et, <- !app_assoc; reflexivity).
      assert (Lfb : (length frame <= N.to_nat 1024)%nat)
        by (pose proof (f_equal (@length N) Et) as Q; rewrite app_length in Q; cbn [length] in Q; unfold frame; rewrite !app_length; cbn [length]; lia).
      change (length [16; 2]) with (length RP_HEADER). rewrite Lf, advance_ok by (rewrite Ef, app_length; lia). cbn [bind].
      rewrite Ef. rewrite skipn_exact by reflexivity.
      assert (Ud : u8s d /\ hi < 256 /\ lo < 256).
      { rewrite Ef in U. apply u8s_app in U as [U _]. unfold frame in U.
        apply u8s_app in U as [_ U]. apply u8s_app in U as [U1 U]. apply u8s_app in U as [_ U].
        split; [apply dle_double_u8s; exact U1|]. inversion U as [|? ? ? U']; inversion U'; subst; auto. }
      destruct Ud as (Ud & Hhi & Hlo).
      cbn [app].
      destruct (N.eqb_spec (crc d) (hi * 256 + lo)) as [Ec|Ec].
      * eexists _, _. split; [reflexivity|]. apply D_rp; [|exact Lfb].
        exists hi, lo, (crc d). repeat split; auto; [apply crc_lt; exact Ud | apply (crc_correct d _ Ud); reflexivity].
      * eexists (Some (invalid_of (BadCrc (crc d)) _)), _. split; [reflexivity|].
        apply (D_rp_crc PAscii PRp invalid_of d hi lo (crc d)); [|exact Lfb|apply (crc_correct d _ Ud); reflexivity].
        intros F. apply (rp_frame_iff d _ Ud) in F.
        apply app_inj_len in F as [_ F]; [|reflexivity]. apply app_inj_len in F as [_ F]; [|reflexivity].
        injection F as -> ->. pose proof (crc_lt d Ud). lia.
    + destruct H1 as (d & b & r & Et & Hb16 & Hb3 & ->).
      set (junk := [16; 2] ++ dle_double d ++ [16]).
      assert (Lj : (length RP_HEADER + length (dle_double d) + 1)%nat = length junk)
        by (unfold junk; rewrite !app_length; change (length RP_HEADER) with 2%nat; cbn [length]; lia).
      assert (Ej : src = junk ++ b :: r ++ w)
        by (unfold junk; rewrite Esw, Hb, Et, <- !app_assoc; reflexivity).
      change (length [16; 2]) with (length RP_HEADER). rewrite Lj. rewrite slice_to by (rewrite Ej, app_length; lia). rewrite advance_ok by (rewrite Ej, app_length; lia).
      cbn [bind]. rewrite Ej. rewrite firstn_exact, skipn_exact by reflexivity.
      eexists (Some (invalid_of (BadSequence b) _)), _. split; [reflexivity|]. apply D_rp_seq; auto.
      fold junk. change (length RP_HEADER) with 2%nat in Lj. pose proof (f_equal (@length N) Et) as Q. rewrite app_length in Q; cbn [length] in Q. lia.
  - destruct src as [|a [|b t]]; cbn in Hs; try lia.
    cbn [index nth_error bind].
    destruct (dehex_byte_nopanic a b) as [E|[n E]]; rewrite E.
    + (* garbage *)
      assert (NB : ~ begins_packet (a :: b :: t)).
      { rewrite begins_packet_iff. intros [H|(a' & b' & t' & Eq & H)]; [congruence|].
        injection Eq as <- <- <-. rewrite E in H. discriminate. }
      pose proof INVALID_MAX_LEN_val as IM. remember (a :: b :: t) as src.
      assert (Ls : (2 <= length src)%nat) by (subst src; cbn; lia).
      destruct (scan_cases (S INVALID_MAX_LEN) 0 src) as [(-> & H1 & H2)|(p & -> & H1 & H2 & H3 & H4)]; try lia; try (intros; lia).
      * cbn [bind]. eexists _, _. split; [reflexivity|]. apply D_garbage_wait; [lia|].
        intros i [->|Hi]; [exact NB | apply H2; exact Hi].
      * cbn [bind]. rewrite slice_to by lia. rewrite advance_ok by lia. cbn [bind].
        eexists (Some (invalid_of NoPrefix _)), _. split; [reflexivity|].
        rewrite <- (firstn_skipn p src) at 1.
        assert (Lp : length (firstn p src) = p) by (rewrite firstn_length; lia).
        apply D_garbage.
        -- intros Z. apply (f_equal (@length N)) in Z. rewrite Lp in Z. cbn in Z. subst p.
           destruct H4 as [(_ & H4 & _)|H4]; [exact (NB H4) | lia].
        -- rewrite Lp, firstn_skipn. exact H3.
        -- rewrite Lp, skipn_length. destruct H4 as [(H4 & H5 & H6)|H4]; [left | right]; repeat split; auto; lia.
    + apply dehex_byte_spec in E. cbv zeta.
      destruct (get_to (a :: b :: t) (4 + N.to_nat n)) as [raw|] eqn:G.
      * apply get_to_some in G as [G1 G2]. cbn [length] in G1.
        assert (ER : raw = [a; b] ++ firstn (N.to_nat n + 2) t)
          by (rewrite G2; replace (4 + N.to_nat n)%nat with (S (S (N.to_nat n + 2))) by lia; reflexivity).
        set (t1 := firstn (N.to_nat n + 2) t) in *. set (rest := skipn (N.to_nat n + 2) t).
        assert (Et : t = t1 ++ rest) by (symmetry; apply firstn_skipn).
        assert (Lt1 : length t1 = (N.to_nat n + 2)%nat) by (unfold t1; rewrite firstn_length; lia).
        rewrite advance_ok by (cbn [length]; lia).
        replace (skipn (4 + N.to_nat n) (a :: b :: t)) with rest
          by (replace (4 + N.to_nat n)%nat with (S (S (N.to_nat n + 2))) by lia; reflexivity).
        assert (U1 : u8s ([a; b] ++ t1)).
        { rewrite Et in U. change (a :: b :: t1 ++ rest) with (([a; b] ++ t1) ++ rest) in U. apply u8s_app in U. tauto. }
        destruct (decodes_ascii_or n a b t1 rest U1 E) as (p & Hp & Hq); [lia|].
        exists (Some p), rest. rewrite Et. split; [|exact Hp]. rewrite ER.
        destruct (ascii_decode ([a; b] ++ t1)); cbn [bind]; [rewrite Hq | rewrite Hq | destruct Hq]; reflexivity.
      * apply get_to_none in G. cbn [length] in G. eexists _, _. split; [reflexivity|].
        apply (D_ascii_wait PAscii PRp invalid_of n a b t E). lia.
Qed.

(* ------------------------------------------------------------------ the cases are exclusive *)

Definition rp_out (t : bytes) (o : option packet) (rest : bytes) : Prop :=
  let src := [16; 2] ++ t in
  exists d tail, tail_ok tail /\ firstn (N.to_nat 1022) t = dle_double d ++ tail /\
  (((tail = [] \/ tail = [16]) /\
     ((N.to_nat 1024 <= length src)%nat /\ rest = skipn (N.to_nat 1024) src /\ o = Some (invalid_of TooLong (firstn (N.to_nat 1024) src))
      \/ (length src < N.to_nat 1024)%nat /\ o = None /\ rest = src)) \/
   (exists hi lo r, tail = 16 :: 3 :: hi :: lo :: r /\
     let frame := [16; 2] ++ dle_double d ++ [16; 3] ++ [hi; lo] in
     src = frame ++ rest /\
     (rp_frame d frame /\ o = Some (PRp d) \/ exists right, ~ rp_frame d frame /\ crc16_xmodem d right /\ o = Some (invalid_of (BadCrc right) frame))) \/
   (exists r, tail = 16 :: 3 :: r /\ (length r < 2)%nat /\ o = None /\ rest = src) \/
   (exists c r, tail = 16 :: c :: r /\ c <> 16 /\ c <> 3 /\
     let junk := [16; 2] ++ dle_double d ++ [16] in
     src = junk ++ rest /\ o = Some (invalid_of (BadSequence c) junk))).
Definition hex_out (n a b : N) (t : bytes) (o : option packet) (rest : bytes) : Prop :=
  (N.of_nat (length t) < n + 2 /\ o = None /\ rest = [a; b] ++ t) \/
  (exists t1, t = t1 ++ rest /\ N.of_nat (length t1) = n + 2 /\
    ((exists body, ascii_body body /\ ascii_frame body ([a; b] ++ t1) /\ o = Some (PAscii body)) \/
     (forall body, ascii_body body -> ~ ascii_frame body ([a; b] ++ t1)) /\ o = Some (invalid_of BadAsciiFrame ([a; b] ++ t1)))).
Definition garb_out (src : bytes) (o : option packet) (rest : bytes) : Prop :=
  ((length src <= N.to_nat 1025)%nat /\ (forall i, (i + 2 < length src)%nat -> ~ begins_packet (skipn i src)) /\
     o = None /\ rest = src) \/
  (exists junk, src = junk ++ rest /\ o = Some (invalid_of NoPrefix junk) /\
     (forall i, (i < length junk)%nat -> ~ begins_packet (skipn i src)) /\
     ((length junk < N.to_nat 1024)%nat /\ begins_packet rest /\ (2 < length rest)%nat \/
      length junk = N.to_nat 1024 /\ (2 <= length rest)%nat)).

Lemma ascii_frame_hex2 body frame : ascii_frame body frame ->
  exists n a b t, frame = [a; b] ++ t /\ hex2 n [a; b] /\ N.of_nat (length t) = n + 2.
Proof.
  intros (nn & cc & c & H1 & H2 & _ & ->).
  pose proof H1 as (i & j & a & b & _ & _ & _ & ->).
  exists (N.of_nat (length body) + 2), a, b, (body ++ cc ++ [13; 10]).
  repeat split; [exact H1|]. rewrite !app_length. apply hex2_lt in H2 as [_ ->]. cbn [length]. lia.
Qed.

Ltac lens := repeat match goal with |- context [length ?x] => progress (rewrite ?app_length; cbn [length]) end.

Lemma firstn_window (p r : bytes) k : (length p <= k)%nat -> firstn k (p ++ r) = p ++ firstn (k - length p) r.
Proof. intros H. rewrite firstn_app, firstn_all2 by lia. reflexivity. Qed.

Lemma decodes_kind src o rest : decodes src o rest ->
  ((length src < 2)%nat /\ o = None /\ rest = src) \/
  (exists t, src = [16; 2] ++ t /\ rp_out t o rest) \/
  (exists n a b t, src = [a; b] ++ t /\ hex2 n [a; b] /\ hex_out n a b t o rest) \/
  ((2 <= length src)%nat /\ ~ begins_packet src /\ garb_out src o rest).
Proof.
  intros H. destruct H as
    [ src H | body frame rest HB HF | n a b t rest Hx HL Hno | n a b t Hx HL
    | d frame rest HF HL | d hi lo rt rest frame HF HL HC | d c rest junk Hc1 Hc2 HL
    | d tail rest junk Htl HL | d tail src Htl HL | d tail src Htl HL
    | d tail head src HL HL2 | junk rest Hne Hno Hcase | src HL Hno ].
  - left. auto.
  - right; right; left. destruct (ascii_frame_hex2 _ _ HF) as (n & a & b & t & -> & Hx & HL).
    exists n, a, b, (t ++ rest). rewrite <- app_assoc. repeat split; auto.
    right. exists t. repeat split; auto. left. eauto.
  - right; right; left. exists n, a, b, (t ++ rest). rewrite <- app_assoc. repeat split; auto.
    right. exists t. repeat split; auto.
  - right; right; left. exists n, a, b, t. repeat split; auto. left. auto.
  - right; left. pose proof HF as (hi & lo & c & H1 & H2 & H3 & H4 & E).
    exists (dle_double d ++ [16; 3] ++ [hi; lo] ++ rest). split; [rewrite E, <- !app_assoc; reflexivity|].
    exists d, ([16; 3] ++ [hi; lo] ++ firstn (N.to_nat 1022 - (length (dle_double d) + 4)) rest).
    assert (L : (length (dle_double d) + 6 <= N.to_nat 1024)%nat) by (rewrite E, !app_length in HL; cbn [length] in HL; lia).
    split; [cbn; split; [reflexivity|lia]|]. split.
    + replace (dle_double d ++ [16; 3] ++ [hi; lo] ++ rest) with ((dle_double d ++ [16; 3; hi; lo]) ++ rest) by (rewrite <- app_assoc; reflexivity).
      rewrite firstn_window by (rewrite app_length; cbn [length]; lia). rewrite app_length, <- app_assoc. reflexivity.
    + right; left. exists hi, lo. eexists. split; [reflexivity|]. cbv zeta. split; [rewrite <- !app_assoc; reflexivity|].
      left. rewrite <- E. auto.
  - right; left. exists (dle_double d ++ [16; 3] ++ [hi; lo] ++ rest). split; [unfold frame; rewrite <- !app_assoc; reflexivity|].
    exists d, ([16; 3] ++ [hi; lo] ++ firstn (N.to_nat 1022 - (length (dle_double d) + 4)) rest).
    assert (L : (length (dle_double d) + 6 <= N.to_nat 1024)%nat) by (unfold frame in HL; rewrite !app_length in HL; cbn [length] in HL; lia).
    split; [cbn; split; [reflexivity|lia]|]. split.
    + replace (dle_double d ++ [16; 3] ++ [hi; lo] ++ rest) with ((dle_double d ++ [16; 3; hi; lo]) ++ rest) by (rewrite <- app_assoc; reflexivity).
      rewrite firstn_window by (rewrite app_length; cbn [length]; lia). rewrite app_length, <- app_assoc. reflexivity.
    + right; left. exists hi, lo. eexists. split; [reflexivity|]. cbv zeta. split; [rewrite <- !app_assoc; reflexivity|].
      right. exists rt. fold frame. auto.
  - right; left. exists (dle_double d ++ [16; c] ++ rest). split; [unfold junk; rewrite <- !app_assoc; reflexivity|].
    exists d, ([16; c] ++ firstn (N.to_nat 1022 - (length (dle_double d) + 2)) rest).
    assert (L : (length (dle_double d) + 3 < N.to_nat 1024)%nat) by (unfold junk in HL; rewrite !app_length in HL; cbn [length] in HL; lia).
    split; [cbn; auto|]. split.
    + replace (dle_double d ++ [16; c] ++ rest) with ((dle_double d ++ [16; c]) ++ rest) by (rewrite <- app_assoc; reflexivity).
      rewrite firstn_window by (rewrite app_length; cbn [length]; lia). rewrite app_length, <- app_assoc. reflexivity.
    + right; right; right. exists c. eexists. split; [reflexivity|]. repeat split; auto.
      * rewrite <- !app_assoc. reflexivity.

  - right; left. exists (dle_double d ++ tail ++ rest). split; [unfold junk; rewrite <- !app_assoc; reflexivity|].
    exists d, tail. split; [destruct Htl as [-> | ->]; cbn; auto|].
    assert (L : (length (dle_double d ++ tail) = N.to_nat 1022)%nat) by (unfold junk in HL; rewrite app_length in HL; cbn [length] in HL; lia).
    split; [rewrite app_assoc; apply firstn_exact; congruence|].
    left. split; [exact Htl|]. left.
    replace ([16; 2] ++ dle_double d ++ tail ++ rest) with (junk ++ rest) by (unfold junk; rewrite <- !app_assoc; reflexivity).
    split; [rewrite app_length; lia|]. rewrite skipn_exact, firstn_exact by congruence. eauto.
  - right; left. exists (dle_double d ++ tail). split; [reflexivity|].
    exists d, tail. split; [destruct Htl as [-> | ->]; cbn; auto|].
    split; [apply firstn_all2; unfold src in HL; rewrite app_length in HL; cbn [length] in HL; lia|].
    left. split; [exact Htl|]. right. auto.
  - right; left. exists (dle_double d ++ [16; 3] ++ tail). split; [reflexivity|].
    exists d, ([16; 3] ++ tail). split; [cbn; split; [reflexivity|lia]|].
    split; [apply firstn_all2; unfold src in HL; rewrite app_length in HL; cbn [length] in HL; lia|].
    right; right; left. exists tail. auto.
  - right; left. exists (dle_double d ++ [16; 3] ++ tail). split; [unfold src, head; rewrite <- !app_assoc; reflexivity|].
    assert (Lh : length head = (length (dle_double d) + 4)%nat) by (unfold head; rewrite !app_length; cbn [length]; lia).
    exists d, ([16; 3] ++ firstn (N.to_nat 1022 - (length (dle_double d) + 2)) tail).
    split; [cbn; split; [reflexivity|lia]|]. split.
    + replace (dle_double d ++ [16; 3] ++ tail) with ((dle_double d ++ [16; 3]) ++ tail) by (rewrite <- app_assoc; reflexivity).
      rewrite firstn_window by (rewrite app_length; cbn [length]; lia). rewrite app_length, <- app_assoc. reflexivity.
    + right; right; left. eexists. split; [reflexivity|]. split; [rewrite firstn_length; lia|]. split; [reflexivity|].
      unfold src, head. rewrite <- !app_assoc. reflexivity.
  - right; right; right.
    assert (Lj : (1 <= length junk)%nat) by (destruct junk; [congruence | cbn; lia]).
    assert (Lr : (2 <= length rest)%nat) by (destruct Hcase as [(_ & _ & ?)|[_ ?]]; lia).
    split; [rewrite app_length; lia|]. split; [apply (Hno 0%nat); lia|].
    right. exists junk. auto.
  - right; right; right. split; [lia|]. split; [apply (Hno 0%nat); lia|].
    left. split; [lia|]. split; auto.
Qed.

Lemma hex2_begins n a b t : hex2 n [a; b] -> begins_packet ([a; b] ++ t).
Proof.
  intros (i & j & a' & b' & Hi & Hj & _ & E). injection E as <- <-. right. exists a, b, t.
  split; [reflexivity|]. split; eexists; eauto.
Qed.
Lemma hex2_not_header n a b t t' : hex2 n [a; b] -> [a; b] ++ t = [16; 2] ++ t' -> False.
Proof. intros H E. apply hex2_range in H. injection E as -> -> ->. inversion H; subst. lia. Qed.

Lemma rp_out_det t o o' rest rest' : rp_out t o rest -> rp_out t o' rest' -> rest = rest' /\ o = o'.
Proof.
  intros (d & tail & T & E & H) (d' & tail' & T' & E' & H').
  rewrite E in E'. destruct (esc_unique _ _ _ _ T T' E') as [<- <-]. clear E E' T T'.
  destruct H as [[Ht H]|[(hi & lo & r & Ht & H)|[(r & Ht & H)|(c & r & Ht & H)]]];
  destruct H' as [[Ht' H']|[(hi' & lo' & r' & Ht' & H')|[(r' & Ht' & H')|(c' & r' & Ht' & H')]]].
  - destruct H as [(L & -> & ->)|(L & -> & ->)]; destruct H' as [(L' & -> & ->)|(L' & -> & ->)]; try lia; auto.
  - exfalso. destruct Ht; subst; discriminate.
  - exfalso. destruct Ht; subst; discriminate.
  - exfalso. destruct Ht; subst; discriminate.
  - exfalso. destruct Ht'; subst; discriminate.
  - rewrite Ht in Ht'. injection Ht' as <- <- <-. cbv zeta in H, H'. destruct H as [E1 H], H' as [E2 H'].
    rewrite E1 in E2. apply app_inv_head in E2. split; [exact E2|].
    destruct H as [[H ->]|(rt & H & C & ->)]; destruct H' as [[H' ->]|(rt' & H' & C' & ->)]; try tauto. rewrite (crc16_unique _ _ _ C C'). reflexivity.
  - exfalso. rewrite Ht in Ht'. injection Ht' as <-. cbn in H'. lia.
  - exfalso. rewrite Ht in Ht'. injection Ht' as <- _. tauto.
  - exfalso. destruct Ht'; subst; discriminate.
  - exfalso. rewrite Ht' in Ht. injection Ht as <-. cbn in H. lia.
  - destruct H as (_ & -> & ->). destruct H' as (_ & -> & ->). auto.
  - exfalso. rewrite Ht in Ht'. injection Ht' as <- _. tauto.
  - exfalso. destruct Ht'; subst; discriminate.
  - exfalso. rewrite Ht' in Ht. injection Ht as <- _. tauto.
  - exfalso. rewrite Ht' in Ht. injection Ht as <- _. tauto.
  - destruct H as (_ & _ & E1 & ->). destruct H' as (_ & _ & E2 & ->). cbv zeta in E1, E2.
    rewrite E1 in E2. apply app_inv_head in E2. rewrite Ht in Ht'. injection Ht' as <- _. auto.
Qed.

Lemma ascii_frame_inj body body' f : ascii_frame body f -> ascii_frame body' f -> body = body'.
Proof.
  intros (nn & cc & c & H1 & H2 & _ & ->) (nn' & cc' & c' & H1' & H2' & _ & E).
  apply hex2_lt in H1 as [_ H1], H2 as [_ H2], H1' as [_ H1'], H2' as [_ H2'].
  apply app_inj_len in E as [_ E]; [|lia].
  pose proof (f_equal (@length N) E) as L. rewrite !app_length in L. cbn in L.
  apply app_inj_len in E as [E _]; [|lia]. exact E.
Qed.

Lemma hex_out_det n a b t o o' rest rest' : hex_out n a b t o rest -> hex_out n a b t o' rest' ->
  rest = rest' /\ o = o'.
Proof.
  intros [(L & -> & ->)|(t1 & E & L & H)] [(L' & -> & ->)|(t1' & E' & L' & H')].
  - auto.
  - exfalso. rewrite E', app_length in L. lia.
  - exfalso. rewrite E, app_length in L'. lia.
  - rewrite E in E'. apply app_inj_len in E' as [<- <-]; [|lia]. split; [reflexivity|].
    destruct H as [(body & HB & HF & ->)|[Hno ->]]; destruct H' as [(body' & HB' & HF' & ->)|[Hno' ->]].
    + rewrite (ascii_frame_inj _ _ _ HF HF'). reflexivity.
    + exfalso. exact (Hno' _ HB HF).
    + exfalso. exact (Hno _ HB' HF').
    + reflexivity.
Qed.

Lemma garb_out_det src o o' rest rest' : garb_out src o rest -> garb_out src o' rest' ->
  rest = rest' /\ o = o'.
Proof.
  assert (X : forall src o rest rest' junk,
    (length src <= N.to_nat 1025)%nat /\ (forall i, (i + 2 < length src)%nat -> ~ begins_packet (skipn i src)) /\ o = None /\ rest = src ->
    src = junk ++ rest' ->
     ((length junk < N.to_nat 1024)%nat /\ begins_packet rest' /\ (2 < length rest')%nat \/
      length junk = N.to_nat 1024 /\ (2 <= length rest')%nat) -> @None packet = o -> False).
  { clear. intros src o rest rest' junk (L & Hno & _ & _) E Hc _.
    destruct Hc as [(H1 & H2 & H3)|[H1 H2]].
    - apply (Hno (length junk)); [rewrite E, app_length; lia|]. rewrite E, skipn_exact by reflexivity. exact H2.
    - rewrite E, app_length in L. lia. }
  assert (Y : forall junk junk' rest rest' : bytes, junk ++ rest = junk' ++ rest' -> (length junk < length junk')%nat ->
     (forall i, (i < length junk')%nat -> ~ begins_packet (skipn i (junk ++ rest))) ->
     (length junk' <= N.to_nat 1024)%nat ->
     ((length junk < N.to_nat 1024)%nat /\ begins_packet rest /\ (2 < length rest)%nat \/
      length junk = N.to_nat 1024 /\ (2 <= length rest)%nat) -> False).
  { clear. intros junk junk' rest rest' E L Hno L' Hc. destruct Hc as [(H1 & H2 & H3)|[H1 H2]]; [|lia].
    apply (Hno (length junk) L). rewrite skipn_exact by reflexivity. exact H2. }
  intros [H|(junk & E & -> & Hno & Hc)] [H'|(junk' & E' & -> & Hno' & Hc')].
  - destruct H as (_ & _ & -> & ->), H' as (_ & _ & -> & ->). auto.
  - exfalso. eapply (X src o rest rest' junk'); eauto. symmetry. apply H.
  - exfalso. eapply (X src o' rest' rest junk); eauto. symmetry. apply H'.
  - rewrite E in E', Hno, Hno'.
    assert (length junk <= N.to_nat 1024)%nat by (destruct Hc as [(? & _)|[? _]]; lia).
    assert (length junk' <= N.to_nat 1024)%nat by (destruct Hc' as [(? & _)|[? _]]; lia).
    destruct (Nat.lt_trichotomy (length junk) (length junk')) as [L|[L|L]].
    + exfalso. exact (Y _ _ _ _ E' L Hno' H0 Hc).
    + apply app_inj_len in E' as [<- <-]; [|exact L]. auto.
    + exfalso. symmetry in E'. refine (Y _ _ _ _ E' L _ H Hc'). rewrite E'. exact Hno.
Qed.

Lemma decodes_det src o o' rest rest' : decodes src o rest -> decodes src o' rest' ->
  rest = rest' /\ o = o'.
Proof.
  intros H H'. apply decodes_kind in H, H'.
  destruct H as [(L & -> & ->)|[(t & E & H)|[(n & a & b & t & E & Hx & H)|(L & Hn & H)]]];
  destruct H' as [(L' & -> & ->)|[(t' & E' & H')|[(n' & a' & b' & t' & E' & Hx' & H')|(L' & Hn' & H')]]].
  - auto.
  - exfalso. rewrite E', app_length in L. cbn in L. lia.
  - exfalso. rewrite E', app_length in L. cbn in L. lia.
  - exfalso. lia.
  - exfalso. rewrite E, app_length in L'. cbn in L'. lia.
  - rewrite E in E'. apply app_inv_head in E' as <-. eapply rp_out_det; eauto.
  - exfalso. rewrite E in E'. symmetry in E'. eapply hex2_not_header; eauto.
  - exfalso. apply Hn'. left. eauto.
  - exfalso. rewrite E, app_length in L'. cbn in L'. lia.
  - exfalso. rewrite E in E'. eapply hex2_not_header; eauto.
  - rewrite E in E'. injection E' as <- <- <-. rewrite (hex2_inj _ _ _ Hx' Hx) in H'. eapply hex_out_det; eauto.
  - exfalso. apply Hn'. rewrite E. eapply hex2_begins; eauto.
  - exfalso. lia.
  - exfalso. apply Hn. left. eauto.
  - exfalso. apply Hn. rewrite E'. eapply hex2_begins; eauto.
  - eapply garb_out_det; eauto.
Qed.

Lemma decode_exact src o rest : u8s src -> decodes src o rest -> decode src = Ok (o, rest).
Proof.
  intros U H. destruct (decode_cases src U) as (o' & rest' & E & H').
  destruct (decodes_det _ _ _ _ _ H H') as [<- <-]. exact E.
Qed.
Lemma decode_inv src o rest : u8s src -> decode src = Ok (o, rest) -> decodes src o rest.
Proof.
  intros U E. destruct (decode_cases src U) as (o' & rest' & E' & H). rewrite E in E'. injection E' as <- <-. exact H.
Qed.
