(* JsonFacts.v: reading and writing JSON text, against the grammar of SpecJson.v. *)
From Verif Require Import Base BaseFacts Serde JsonText SpecJson.
From Coq Require Import ZifyBool ZifyNat ZifyN.
Ltac Zify.zify_post_hook ::= Z.div_mod_to_equations.

(* ---- white space ---- *)
Lemma is_ws_spec c : is_ws c = true <-> In c [32; 9; 10; 13].
Proof. unfold is_ws. cbn [In]. lia. Qed.
Lemma skip_ws_split s : exists w, s = w ++ skip_ws s /\ ws w /\ match skip_ws s with [] => True | c :: _ => is_ws c = false end.
Proof.
  induction s as [|c s (w & E & W & H)]; [exists []; repeat constructor|]. cbn [skip_ws]. destruct (is_ws c) eqn:EC.
  - exists (c :: w). cbn [app]. split; [congruence|]. split; [|exact H]. constructor; [apply is_ws_spec; exact EC | exact W].
  - exists []. repeat split; [constructor | exact EC].
Qed.
Lemma skip_ws_app w s : ws w -> skip_ws (w ++ s) = skip_ws s.
Proof. induction 1 as [|c w H W IH]; [reflexivity|]. cbn [app skip_ws]. apply is_ws_spec in H. rewrite H. exact IH. Qed.
Lemma skip_ws_head c s : is_ws c = false -> skip_ws (c :: s) = c :: s.
Proof. intros H. cbn. rewrite H. reflexivity. Qed.
Lemma skip_ws_ws w : ws w -> skip_ws w = [].
Proof. intros W. rewrite <- (app_nil_r w), skip_ws_app by exact W. reflexivity. Qed.
Lemma skip_ws_length s : (length (skip_ws s) <= length s)%nat.
Proof. induction s as [|c s IH]; cbn; [lia|]. destruct (is_ws c); cbn; lia. Qed.

(* ---- numbers ---- *)
Lemma is_digit_spec c : is_digit c = true <-> digit c.
Proof. unfold is_digit, between, digit. cbn. lia. Qed.
Lemma dec_value_acc t : forall a, Forall digit t -> fold_left (fun v c => v * 10 + (c - ch "0")) t a = a * 10 ^ N.of_nat (length t) + place_value t.
Proof.
  induction t as [|c t IH]; intros a H; cbn [fold_left place_value length]; [cbn; lia|]. inversion H; subst. rewrite IH by assumption.
  rewrite Nat2N.inj_succ, N.pow_succ_r by lia. ring.
Qed.
Lemma dec_place t : Forall digit t -> dec_value t = place_value t.
Proof. intros H. unfold dec_value. rewrite dec_value_acc by exact H. lia. Qed.
Definition no_digit (r : bytes) : Prop := match r with [] => True | c :: _ => ~ digit c end.
Lemma read_digits_split s : exists d r, read_digits s = (d, r) /\ s = d ++ r /\ Forall digit d /\ no_digit r.
Proof.
  induction s as [|c s (d & r & E & S & D & N)]; [exists [], []; repeat constructor|]. cbn [read_digits]. destruct (is_digit c) eqn:EC.
  - rewrite E. exists (c :: d), r. split; [reflexivity|]. split; [cbn; congruence|]. split; [constructor; [apply is_digit_spec; exact EC | exact D] | exact N].
  - exists [], (c :: s). repeat split; [constructor|]. cbn. rewrite <- is_digit_spec. congruence.
Qed.
Lemma read_digits_app d r : Forall digit d -> no_digit r -> read_digits (d ++ r) = (d, r).
Proof.
  induction 1 as [|c d H D IH]; intros N; cbn [app read_digits].
  - destruct r as [|c r]; [reflexivity|]. cbn in *. rewrite <- is_digit_spec in N. destruct (is_digit c); [congruence | reflexivity].
  - apply is_digit_spec in H. rewrite H, (IH N). reflexivity.
Qed.
Lemma read_digits1_inv s d r : read_digits1 s = Ok (d, r) -> s = d ++ r /\ digits1 d /\ no_digit r.
Proof.
  unfold read_digits1. destruct (read_digits_split s) as (d' & r' & -> & S & D & N). destruct d' as [|c d']; [discriminate|].
  intros [= <- <-]. split; [exact S|]. split; [split; [discriminate | exact D] | exact N].
Qed.
Lemma read_digits1_app d r : digits1 d -> no_digit r -> read_digits1 (d ++ r) = Ok (d, r).
Proof. intros [NE D] N. unfold read_digits1. rewrite read_digits_app by assumption. destruct d; [congruence | reflexivity]. Qed.
(* what may follow a number *)
Definition num_end (r : bytes) : Prop := match r with [] => True | c :: _ => ~ digit c /\ c <> ch "." /\ c <> ch "e" /\ c <> ch "E" end.
Lemma int_digits t : int_part t -> digits1 t.
Proof. intros [->|[H _]]; [|exact H]. split; [discriminate|]. repeat constructor; cbn; lia. Qed.

Lemma read_num_sound s v r : read_num s = Ok (v, r) -> exists t, s = t ++ r /\ denotes_num v t.
Proof.
  unfold read_num.
  assert (Hn : exists minus, s = minus ++ snd (read_sign s) /\ (minus = [] /\ fst (read_sign s) = false \/ minus = B "-" /\ fst (read_sign s) = true)).
  { unfold read_sign. destruct s as [|c s]; [exists []; auto|]. destruct (c =? ch "-") eqn:E; [|exists []; auto].
    exists (B "-"). cbn in *. split; [f_equal; lia | auto]. }
  destruct (read_sign s) as [ng s1]. cbn [fst snd] in Hn. destruct Hn as (minus & Es & Hm). intros E.
  apply bind_inv in E as ([int s2] & E1 & E). apply bind_inv in E as ([frac s3] & E2 & E). apply bind_inv in E as ([exp s4] & E3 & E).
  assert (H1 : s1 = int ++ s2 /\ int_part int).
  { unfold read_int in E1. destruct s1 as [|c s1]; [discriminate|]. destruct (c =? ch "0") eqn:EC.
    - assert (int = [c] /\ s2 = s1) as [-> ->] by (destruct s1 as [|d s1]; [|destruct (is_digit d); [discriminate|]]; injection E1 as <- <-; auto).
      split; [reflexivity|]. left. cbn in *. f_equal. lia.
    - apply read_digits1_inv in E1 as (E1 & D & _). split; [exact E1|]. right. split; [exact D|]. intros c' t' ->. injection E1 as <- _. cbn in *. lia. }
  assert (H2 : exists f, s2 = f ++ s3 /\ frac_part f /\ (frac = false <-> f = [])).
  { unfold read_frac in E2. destruct s2 as [|c s2]; [injection E2 as <- <-; exists []; repeat split; left; reflexivity|]. destruct (c =? ch ".") eqn:EC.
    - apply bind_inv in E2 as ([d r'] & E2 & E2'). injection E2' as <- <-. apply read_digits1_inv in E2 as (-> & D & _).
      exists (c :: d). split; [reflexivity|]. split; [|split; discriminate]. right. exists d. split; [f_equal; cbn in *; lia | exact D].
    - injection E2 as <- <-. exists []. repeat split. left. reflexivity. }
  assert (H3 : exists x, s3 = x ++ s4 /\ exp_part x /\ (exp = false <-> x = [])).
  { unfold read_exp, skip_sign in E3. destruct s3 as [|c s3]; [injection E3 as <- <-; exists []; repeat split; left; reflexivity|]. destruct ((c =? ch "e") || (c =? ch "E")) eqn:EC.
    - apply bind_inv in E3 as ([d r'] & E3 & E3'). injection E3' as <- <-. apply read_digits1_inv in E3 as (E3 & D & _).
      assert (Hs : exists sign, s3 = sign ++ d ++ r' /\ (sign = [] \/ sign = B "+" \/ sign = B "-")).
      { destruct s3 as [|x s3]; [exists []; auto|]. destruct ((x =? ch "+") || (x =? ch "-")) eqn:EX; [|exists []; auto].
        exists [x]. cbn [app]. split; [f_equal; exact E3|]. right. cbn in *. destruct (x =? 43) eqn:E4; [left | right]; f_equal; lia. }
      destruct Hs as (sign & -> & Hs). exists (c :: sign ++ d). split; [cbn; rewrite <- app_assoc; reflexivity|]. split; [|split; discriminate].
      right. exists c, sign, d. split; [reflexivity|]. split; [cbn in *; lia|]. auto.
    - injection E3 as <- <-. exists []. repeat split. left. reflexivity. }
  destruct H1 as [-> H1]. destruct H2 as (f & -> & H2 & F2). destruct H3 as (x & -> & H3 & F3). injection E as <- <-.
  rewrite dec_place by apply int_digits, H1. change 18446744073709551616 with (2 ^ 64).
  exists (minus ++ int ++ f ++ x). split; [rewrite Es, !app_assoc; reflexivity|].
  destruct (ng || frac || exp || negb (place_value int <? 2 ^ 64)) eqn:EB.
  - apply dn_other; auto; [tauto|]. apply orb_prop in EB as [EB|EB]; [apply orb_prop in EB as [EB|EB]; [apply orb_prop in EB as [EB|EB]|]|].
    + left. destruct Hm as [[_ Hm]|[-> _]]; [congruence | discriminate].
    + right. left. intros ->. destruct F2 as [_ F2]. rewrite F2 in EB by reflexivity. discriminate.
    + right. right. left. intros ->. destruct F3 as [_ F3]. rewrite F3 in EB by reflexivity. discriminate.
    + right. right. right. lia.
  - apply orb_false_elim in EB as [EB EB4]. apply orb_false_elim in EB as [EB EB3]. apply orb_false_elim in EB as [EB1 EB2].
    apply F2 in EB2. apply F3 in EB3. subst f x. destruct Hm as [[-> _]|[_ Hm]]; [|congruence]. cbn [app]. rewrite !app_nil_r.
    apply dn_natural; [exact H1 | lia].
Qed.
Lemma read_num_parts minus i f x r : minus = [] \/ minus = B "-" -> int_part i -> frac_part f -> exp_part x -> num_end r ->
  read_num (minus ++ i ++ f ++ x ++ r) =
    Ok (if (match minus with [] => false | _ => true end) || (match f with [] => false | _ => true end) || (match x with [] => false | _ => true end)
           || negb (place_value i <? 2 ^ 64) then VOther else VNum (place_value i), r).
Proof.
  intros Hm Hi Hf Hx Hr. unfold read_num.
  assert (E0 : read_sign (minus ++ i ++ f ++ x ++ r) = (match minus with [] => false | _ => true end, i ++ f ++ x ++ r)).
  { unfold read_sign. destruct Hm as [-> | ->]; [|reflexivity]. cbn [app]. destruct (int_digits _ Hi) as [NE D]. destruct i as [|c i]; [congruence|]. cbn [app].
    inversion D as [|? ? Dc _]; subst. replace (c =? ch "-") with false by (unfold digit in Dc; cbn in *; lia). reflexivity. }
  rewrite E0. clear E0.
  assert (N3 : forall q, no_digit (x ++ r) -> q = x ++ r -> no_digit q) by (intros; subst; auto).
  assert (Nx : no_digit (x ++ r)).
  { destruct Hx as [->|(e & sg & d & -> & He & _)]; cbn [app]; [destruct r; [exact I | apply Hr]|]. cbn in *. unfold digit. cbn. lia. }
  assert (Nf : no_digit (f ++ x ++ r)).
  { destruct Hf as [->|(d & -> & _)]; [exact Nx|]. cbn. unfold digit. cbn. lia. }
  assert (E1 : read_int (i ++ f ++ x ++ r) = Ok (i, f ++ x ++ r)).
  { unfold read_int. destruct Hi as [->|[D NZ]].
    - cbn [app]. change (B "0") with [48]. cbn [app]. change (48 =? ch "0") with true. cbv iota. destruct (f ++ x ++ r) as [|d q]; [reflexivity|].
      cbn in Nf. rewrite <- is_digit_spec in Nf. destruct (is_digit d); [congruence | reflexivity].
    - destruct i as [|c i]; [destruct D; congruence|]. cbn [app]. specialize (NZ c i eq_refl). replace (c =? ch "0") with false by lia.
      change (c :: i ++ f ++ x ++ r) with ((c :: i) ++ f ++ x ++ r). apply read_digits1_app; auto. }
  rewrite E1. clear E1. cbn [bind].
  assert (E2 : read_frac (f ++ x ++ r) = Ok (match f with [] => false | _ => true end, x ++ r)).
  { unfold read_frac. destruct Hf as [->|(d & -> & D)].
    - cbn [app]. destruct (x ++ r) as [|c q] eqn:EQ; [reflexivity|]. replace (c =? ch ".") with false; [reflexivity|].
      destruct Hx as [->|(e & sg & d & -> & He & _)]; cbn [app] in EQ.
      + subst r. cbn in Hr. cbn. lia.
      + injection EQ as <- _. cbn in *. lia.
    - cbn [app]. change (ch "." =? ch ".") with true. cbv iota. rewrite read_digits1_app by auto. reflexivity. }
  rewrite E2. clear E2. cbn [bind].
  assert (E3 : read_exp (x ++ r) = Ok (match x with [] => false | _ => true end, r)).
  { unfold read_exp. destruct Hx as [->|(e & sg & d & -> & He & Hs & D)].
    - cbn [app]. destruct r as [|c r]; [reflexivity|]. cbn in Hr. replace ((c =? ch "e") || (c =? ch "E")) with false by (cbn; lia). reflexivity.
    - cbn [app]. replace ((e =? ch "e") || (e =? ch "E")) with true by (cbn in *; lia).
      assert (Nr : no_digit r) by (destruct r; [exact I | apply Hr]).
      assert (Eq : skip_sign ((sg ++ d) ++ r) = d ++ r).
      { unfold skip_sign. rewrite <- app_assoc. destruct Hs as [-> | [-> | ->]]; [|reflexivity..]. cbn [app]. destruct D as [NE D]. destruct d as [|y d]; [congruence|].
        cbn [app]. inversion D as [|? ? Dy _]; subst. unfold digit in Dy. replace ((y =? ch "+") || (y =? ch "-")) with false by (cbn in *; lia). reflexivity. }
      rewrite Eq, read_digits1_app by assumption. reflexivity. }
  rewrite E3. cbn [bind]. rewrite dec_place by apply int_digits, Hi. reflexivity.
Qed.
Lemma read_num_complete v t r : denotes_num v t -> num_end r -> read_num (t ++ r) = Ok (v, r).
Proof.
  intros D Hr. destruct D as [t Hi Hv|minus i f x Hm Hi Hf Hx Ho].
  - pose proof (read_num_parts [] t [] [] r (or_introl eq_refl) Hi (or_introl eq_refl) (or_introl eq_refl) Hr) as E. cbn [app orb] in E. rewrite E.
    replace (place_value t <? 2 ^ 64) with true by lia. reflexivity.
  - rewrite <- !app_assoc. rewrite read_num_parts by assumption. f_equal. f_equal.
    destruct Hm as [->| ->]; [|reflexivity]. destruct f; [|reflexivity]. destruct x; [|reflexivity]. cbn [orb].
    replace (place_value i <? 2 ^ 64) with false by (destruct Ho as [? | [? | [? | ?]]]; try congruence; lia). reflexivity.
Qed.

(* ---- strings ---- *)
Lemma hex_val_spec c v : hex_val c = Ok v <-> hex_digit c v.
Proof.
  unfold hex_val, hex_digit, digit, between. cbn. destruct ((48 <=? c) && (c <=? 57)) eqn:E1; [|destruct ((97 <=? c) && (c <=? 102)) eqn:E2; [|destruct ((65 <=? c) && (c <=? 70)) eqn:E3]].
  - split; [intros [= <-]; left; lia|]. intros [H|[H|H]]; f_equal; lia.
  - split; [intros [= <-]; right; right; lia|]. intros [H|[H|H]]; f_equal; lia.
  - split; [intros [= <-]; right; left; lia|]. intros [H|[H|H]]; f_equal; lia.
  - split; [discriminate|]. intros [H|[H|H]]; lia.
Qed.
Lemma hex4_spec a b c d n : hex4 a b c d = Ok n <-> hex_quad [a; b; c; d] n.
Proof.
  unfold hex4, hex_quad. split.
  - intros E. apply bind_inv in E as (va & A & E). apply bind_inv in E as (vb & Eb & E). apply bind_inv in E as (vc & Ec & E). apply bind_inv in E as (vd & Ed & E).
    injection E as <-. exists a, b, c, d, va, vb, vc, vd. rewrite <- !hex_val_spec. split; [reflexivity|]. do 4 (split; [assumption|]). lia.
  - intros (a' & b' & c' & d' & va & vb & vc & vd & [= <- <- <- <-] & A & Eb & Ec & Ed & ->).
    apply hex_val_spec in A. apply hex_val_spec in Eb. apply hex_val_spec in Ec. apply hex_val_spec in Ed. rewrite A, Eb, Ec, Ed. cbn [bind]. f_equal. lia.
Qed.
Lemma hex_quad_lt t n : hex_quad t n -> n < 65536.
Proof.
  intros (a & b & c & d & va & vb & vc & vd & _ & A & Eb & Ec & Ed & ->). unfold hex_digit, digit in *. cbn in *. lia.
Qed.
Lemma hex_quad_form t n : hex_quad t n -> exists a b c d, t = [a; b; c; d].
Proof. intros (a & b & c & d & va & vb & vc & vd & -> & _). eauto. Qed.
Lemma lor_low a b k : b < 2 ^ k -> N.lor (a * 2 ^ k) b = a * 2 ^ k + b.
Proof.
  intros H. assert (L : N.land (a * 2 ^ k) b = 0).
  { apply N.bits_inj. intros i. rewrite N.land_spec, N.bits_0. destruct (i <? k) eqn:E.
    - rewrite N.mul_pow2_bits_low by lia. reflexivity.
    - assert (T : N.testbit b i = false).
      { destruct (N.eq_dec b 0) as [->|NZ]; [apply N.bits_0|]. apply N.bits_above_log2. apply N.log2_lt_pow2 in H; lia. }
      rewrite T. apply andb_false_r. }
  rewrite N.add_nocarry_lxor by exact L. symmetry. apply N.lxor_lor. exact L.
Qed.
Lemma encode_spec n u : n < 1114112 -> (encode_utf8 n = u <-> utf8_form n u).
Proof.
  intros H. unfold encode_utf8. rewrite !N.shiftr_div_pow2. change 63 with (N.ones 6). rewrite !N.land_ones.
  change (2 ^ 6) with 64. change (2 ^ 12) with 4096. change (2 ^ 18) with 262144.
  pose proof (fun a b => lor_low a b 6) as L6. pose proof (fun a b => lor_low a b 4) as L4. pose proof (fun a b => lor_low a b 3) as L3. pose proof (fun a b => lor_low a b 5) as L5.
  change (2 ^ 6) with 64 in L6. change (2 ^ 4) with 16 in L4. change (2 ^ 3) with 8 in L3. change (2 ^ 5) with 32 in L5.
  assert (Lc : forall x, N.lor 128 (x mod 64) = 128 + x mod 64) by (intros x; apply (L6 2); lia). rewrite !Lc.
  destruct (n <? 128) eqn:E1; [|destruct (n <? 2048) eqn:E2; [|destruct (n <? 65536) eqn:E3]].
  - split; [intros <-; constructor; lia|]. intros F. inversion F; subst; try lia. reflexivity.
  - change 192 with (6 * 32). rewrite L5 by lia. change (6 * 32) with 192. split.
    + intros <-. apply uf2; lia.
    + intros F. inversion F; subst; try lia. repeat (f_equal; try lia).
  - change 224 with (14 * 16). rewrite L4 by lia. change (14 * 16) with 224. split.
    + intros <-. apply uf3; lia.
    + intros F. inversion F; subst; try lia. repeat (f_equal; try lia).
  - change 240 with (30 * 8). rewrite L3 by lia. change (30 * 8) with 240. split.
    + intros <-. apply uf4; lia.
    + intros F. inversion F; subst; try lia. repeat (f_equal; try lia).
Qed.
Lemma unescape_spec k c : unescape k = Some c <-> In (k, c) escapes.
Proof.
  unfold unescape, escapes. cbn [In]. cbn.
  repeat match goal with |- context [if k =? ?x then _ else _] => destruct (N.eqb_spec k x) as [->|]; [split; [intros [= <-]; tauto | intros H; repeat (destruct H as [H|H]; [congruence|]); destruct H]|] end.
  split; [discriminate|]. intros H. repeat (destruct H as [H|H]; [congruence|]). destruct H.
Qed.
Lemma read_chars_complete e s t r : denotes_chars e s t -> read_chars (t ++ ch """" :: r) = Ok (e, s, r).
Proof.
  induction 1 as [|c e s t H1 H2 H3 D IH|k c e s t H D IH|h n u e s t Hh Hn Hu D IH|h n h' m u e s t Hh Hn Hh' Hm Hu D IH].
  - reflexivity.
  - cbn [app read_chars]. replace (c =? ch """") with false by lia. replace (c =? ch "\") with false by lia. replace (c <? 32) with false by lia.
    rewrite IH. reflexivity.
  - cbn [app read_chars]. change (ch "\" =? ch """") with false. change (ch "\" =? ch "\") with true. cbv iota.
    replace (k =? ch "u") with false by (unfold escapes in H; cbn in *; repeat (destruct H as [H|H]; [injection H as <- <-; reflexivity|]); destruct H).
    apply unescape_spec in H. rewrite H, IH. reflexivity.
  - pose proof (hex_quad_lt _ _ Hh) as L. destruct (hex_quad_form _ _ Hh) as (h1 & h2 & h3 & h4 & ->). apply hex4_spec in Hh.
    change (B "\u") with [ch "\"; ch "u"]. cbn [app read_chars]. change (ch "\" =? ch """") with false. change (ch "\" =? ch "\") with true. change (ch "u" =? ch "u") with true. cbv iota.
    rewrite Hh. cbn [bind]. unfold between. replace ((56320 <=? n) && (n <=? 57343)) with false by lia. replace ((55296 <=? n) && (n <=? 56319)) with false by lia.
    rewrite IH. cbn [bind]. apply encode_spec in Hu; [|lia]. rewrite Hu. reflexivity.
  - pose proof (hex_quad_lt _ _ Hh) as L. destruct (hex_quad_form _ _ Hh) as (h1 & h2 & h3 & h4 & ->). apply hex4_spec in Hh.
    destruct (hex_quad_form _ _ Hh') as (g1 & g2 & g3 & g4 & ->). apply hex4_spec in Hh'.
    change (B "\u") with [ch "\"; ch "u"]. cbn [app read_chars]. change (ch "\" =? ch """") with false. change (ch "\" =? ch "\") with true. change (ch "u" =? ch "u") with true. cbv iota.
    rewrite Hh. cbn [bind]. unfold between at 1 2. replace ((56320 <=? n) && (n <=? 57343)) with false by lia. replace ((55296 <=? n) && (n <=? 56319)) with true by lia.
    cbn [andb]. rewrite Hh'. cbn [bind]. unfold between. replace ((56320 <=? m) && (m <=? 57343)) with true by lia. rewrite IH. cbn [bind].
    replace (N.lor (N.shiftl (n - 55296) 10) (m - 56320) + 65536) with (65536 + (n - 55296) * 1024 + (m - 56320)).
    + apply encode_spec in Hu; [|lia]. rewrite Hu. reflexivity.
    + rewrite N.shiftl_mul_pow2, lor_low by (cbn; lia). change (2 ^ 10) with 1024. lia.
Qed.
Lemma read_chars_sound n : forall s e b r, (length s <= n)%nat -> read_chars s = Ok (e, b, r) ->
  exists t, s = t ++ ch """" :: r /\ denotes_chars e b t.
Proof.
  induction n as [|n IH]; intros s e b r L E; (destruct s as [|c s1]; [discriminate E|]); [cbn in L; lia|]. cbn [length] in L. cbn [read_chars] in E.
  destruct (N.eqb_spec c (ch """")) as [->|N1]; [injection E as <- <- <-; exists []; split; [reflexivity | constructor]|].
  destruct (N.eqb_spec c (ch "\")) as [->|N2].
  - destruct s1 as [|k s2]; [discriminate E|]. destruct (N.eqb_spec k (ch "u")) as [->|N3].
    + destruct s2 as [|h1 [|h2 [|h3 [|h4 s3]]]]; try discriminate E. apply bind_inv in E as (x & Ex & E). apply hex4_spec in Ex. pose proof (hex_quad_lt _ _ Ex) as Lx.
      unfold between in E. destruct ((56320 <=? x) && (x <=? 57343)) eqn:E1; [discriminate E|]. destruct ((55296 <=? x) && (x <=? 56319)) eqn:E2.
      * destruct s3 as [|y [|z [|g1 [|g2 [|g3 [|g4 s4]]]]]]; try discriminate E. destruct ((y =? ch "\") && (z =? ch "u")) eqn:E3; [|discriminate E].
        apply bind_inv in E as (m & Em & E). apply hex4_spec in Em. destruct ((56320 <=? m) && (m <=? 57343)) eqn:E4; [|discriminate E].
        apply bind_inv in E as ([[e' b'] r'] & E5 & E). injection E as <- <- <-. cbn [length] in L.
        destruct (IH s4 _ _ _ ltac:(lia) E5) as (t & -> & D).
        exists (B "\u" ++ [h1; h2; h3; h4] ++ B "\u" ++ [g1; g2; g3; g4] ++ t). split; [cbn in *; repeat (f_equal; try lia)|].
        eapply dc_pair; eauto; try lia. apply encode_spec; [lia|]. f_equal. rewrite N.shiftl_mul_pow2, lor_low by (cbn; lia). change (2 ^ 10) with 1024. lia.
      * apply bind_inv in E as ([[e' b'] r'] & E5 & E). injection E as <- <- <-. cbn [length] in L.
        destruct (IH s3 _ _ _ ltac:(lia) E5) as (t & -> & D). exists (B "\u" ++ [h1; h2; h3; h4] ++ t). split; [reflexivity|].
        eapply dc_unicode; eauto; [lia|]. apply encode_spec; [lia | reflexivity].
    + destruct (unescape k) as [x|] eqn:EU; [|discriminate E]. apply bind_inv in E as ([[e' b'] r'] & E5 & E). injection E as <- <- <-. cbn [length] in L.
      destruct (IH s2 _ _ _ ltac:(lia) E5) as (t & -> & D). exists (ch "\" :: k :: t). split; [reflexivity|]. eapply dc_escape; eauto. apply unescape_spec. exact EU.
  - destruct (c <? 32) eqn:E1; [discriminate E|]. apply bind_inv in E as ([[e' b'] r'] & E5 & E). injection E as <- <- <-.
    destruct (IH s1 _ _ _ ltac:(lia) E5) as (t & -> & D). exists (c :: t). split; [reflexivity|]. apply dc_char; auto. lia.
Qed.
Lemma read_str_sound s e b r : read_str s = Ok (e, b, r) -> exists t, ch """" :: s = t ++ r /\ denotes_str e b t.
Proof.
  unfold read_str. intros E. apply bind_inv in E as ([[e' b'] r'] & E1 & E). destruct (utf8_valid b') eqn:EU; [|discriminate E]. injection E as <- <- <-.
  destruct (read_chars_sound _ _ _ _ _ (le_n _) E1) as (t & -> & D). exists ([ch """"] ++ t ++ [ch """"]). split; [rewrite <- !app_assoc; reflexivity|].
  exists t. auto.
Qed.
Lemma read_str_complete e s t r : denotes_str e s t -> exists t', t ++ r = ch """" :: t' /\ read_str t' = Ok (e, s, r).
Proof.
  intros (t' & -> & D & U). exists (t' ++ ch """" :: r). split; [rewrite <- !app_assoc; reflexivity|]. unfold read_str.
  rewrite (read_chars_complete _ _ _ _ D). cbn [bind]. rewrite U. reflexivity.
Qed.

(* ---- values ---- *)
Lemma literal_sound word : forall s r, literal word s = Ok r -> s = word ++ r.
Proof.
  induction word as [|c word IH]; intros s r E; [injection E as <-; reflexivity|]. destruct s as [|x s]; [discriminate|]. cbn [literal] in E.
  destruct (N.eqb_spec x c) as [->|]; [|discriminate]. cbn [app]. f_equal. apply IH. exact E.
Qed.
Lemma literal_complete word r : literal word (word ++ r) = Ok r.
Proof. induction word as [|c word IH]; [reflexivity|]. cbn [app literal]. rewrite N.eqb_refl. exact IH. Qed.
Lemma num_head v t : denotes_num v t -> exists c t', t = c :: t' /\ (c = ch "-" \/ digit c).
Proof.
  intros [t' Hi _|minus i f x Hm Hi _ _ _].
  - destruct (int_digits _ Hi) as [NE D]. destruct t' as [|c t']; [congruence|]. inversion D; subst. eauto.
  - destruct Hm as [->| ->]; [|cbn; eauto]. destruct (int_digits _ Hi) as [NE D]. destruct i as [|c i]; [congruence|]. inversion D; subst. cbn. eauto.
Qed.
Lemma value_head v t : denotes_value v t -> exists c t', t = c :: t' /\ is_ws c = false /\ c <> ch "]" /\ c <> ch "}" /\ c <> ch ",".
Proof.
  intros D. destruct D as [| | |v t D|e s t (t' & -> & _)|w _|l t _|w _|l t _]; try (eexists _, _; split; [reflexivity|]; cbn; split; [reflexivity|]; lia).
  destruct (num_head _ _ D) as (c & t' & -> & Hc). exists c, t'. split; [reflexivity|]. unfold is_ws, digit in *. cbn in *. lia.
Qed.
Lemma ws_end w r : ws w -> num_end r -> num_end (w ++ r).
Proof. intros W R. destruct W as [|c w H W]; [exact R|]. cbn [app num_end]. unfold digit. cbn in *. lia. Qed.

Lemma read_sound n :
  (forall s v r, read_value n s = Ok (v, r) -> exists w t, s = w ++ t ++ r /\ ws w /\ denotes_value v t) /\
  (forall s l r, read_elems n s = Ok (l, r) -> exists t, s = t ++ [ch "]"] ++ r /\ denotes_elems l t) /\
  (forall s l r, read_members n s = Ok (l, r) -> exists t, s = t ++ [ch "}"] ++ r /\ denotes_members l t).
Proof.
  induction n as [|n (IHv & IHe & IHm)]; [repeat split; discriminate|]. split; [|split].
  - intros s v r E. cbn [read_value] in E. destruct (skip_ws_split s) as (w & Es & W & Hc). destruct (skip_ws s) as [|c s1]; [discriminate E|].
    assert (G : forall t, c :: s1 = t ++ r -> denotes_value v t -> exists w t, s = w ++ t ++ r /\ ws w /\ denotes_value v t).
    { intros t Et D. exists w, t. split; [congruence|]. auto. }
    destruct (N.eqb_spec c (ch "n")) as [->|_]; [apply bind_inv in E as (r' & E1 & [= <- <-]); apply literal_sound in E1 as ->; apply (G (B "null")); [reflexivity | constructor]|].
    destruct (N.eqb_spec c (ch "t")) as [->|_]; [apply bind_inv in E as (r' & E1 & [= <- <-]); apply literal_sound in E1 as ->; apply (G (B "true")); [reflexivity | constructor]|].
    destruct (N.eqb_spec c (ch "f")) as [->|_]; [apply bind_inv in E as (r' & E1 & [= <- <-]); apply literal_sound in E1 as ->; apply (G (B "false")); [reflexivity | constructor]|].
    destruct (N.eqb_spec c (ch """")) as [->|_].
    { apply bind_inv in E as ([[e b] r'] & E1 & [= <- <-]). apply read_str_sound in E1 as (t & Et & D). apply (G t Et). apply dv_str. exact D. }
    destruct (N.eqb_spec c (ch "[")) as [->|_].
    { destruct (skip_ws_split s1) as (w1 & Es1 & W1 & _). destruct (skip_ws s1) as [|d r1]; [discriminate E|]. destruct (N.eqb_spec d (ch "]")) as [->|_].
      - injection E as <- <-. apply (G ([ch "["] ++ w1 ++ [ch "]"])); [rewrite Es1, <- !app_assoc; reflexivity | constructor; exact W1].
      - apply bind_inv in E as ([l r'] & E1 & [= <- <-]). apply IHe in E1 as (t & Et & D).
        apply (G ([ch "["] ++ t ++ [ch "]"])); [rewrite Et, <- !app_assoc; reflexivity | constructor; exact D]. }
    destruct (N.eqb_spec c (ch "{")) as [->|_].
    { destruct (skip_ws_split s1) as (w1 & Es1 & W1 & _). destruct (skip_ws s1) as [|d r1]; [discriminate E|]. destruct (N.eqb_spec d (ch "}")) as [->|_].
      - injection E as <- <-. apply (G ([ch "{"] ++ w1 ++ [ch "}"])); [rewrite Es1, <- !app_assoc; reflexivity | constructor; exact W1].
      - apply bind_inv in E as ([l r'] & E1 & [= <- <-]). apply IHm in E1 as (t & Et & D).
        apply (G ([ch "{"] ++ t ++ [ch "}"])); [rewrite Et, <- !app_assoc; reflexivity | constructor; exact D]. }
    destruct ((c =? ch "-") || is_digit c); [|discriminate E]. apply read_num_sound in E as (t & Et & D). apply (G t Et). apply dv_num. exact D.
  - intros s l r E. cbn [read_elems] in E. apply bind_inv in E as ([v r1] & E1 & E). apply IHv in E1 as (w & t & -> & W & D).
    destruct (skip_ws_split r1) as (w' & Er & W' & _). destruct (skip_ws r1) as [|d r2]; [discriminate E|]. destruct (N.eqb_spec d (ch ",")) as [->|_].
    + apply bind_inv in E as ([l' r3] & E2 & [= <- <-]). apply IHe in E2 as (t' & -> & D'). exists (w ++ t ++ w' ++ [ch ","] ++ t').
      split; [rewrite Er, <- !app_assoc; reflexivity | apply de_more; assumption].
    + destruct (N.eqb_spec d (ch "]")) as [->|_]; [|discriminate E]. injection E as <- <-. exists (w ++ t ++ w').
      split; [rewrite Er, <- !app_assoc; reflexivity | apply de_one; assumption].
  - intros s l r E. cbn [read_members] in E. destruct (skip_ws_split s) as (w1 & Es & W1 & _). destruct (skip_ws s) as [|q s1]; [discriminate E|].
    destruct (N.eqb_spec q (ch """")) as [->|_]; [|discriminate E]. apply bind_inv in E as ([[e k] s2] & E1 & E). apply read_str_sound in E1 as (tk & Et & Dk).
    destruct (skip_ws_split s2) as (w2 & Es2 & W2 & _). destruct (skip_ws s2) as [|d s3]; [discriminate E|].
    destruct (N.eqb_spec d (ch ":")) as [->|_]; [|discriminate E]. apply bind_inv in E as ([v r1] & E1 & E). apply IHv in E1 as (w3 & t & -> & W3 & D).
    destruct (skip_ws_split r1) as (w4 & Er & W4 & _). destruct (skip_ws r1) as [|x r2]; [discriminate E|].
    set (m := w1 ++ tk ++ w2 ++ [ch ":"] ++ w3 ++ t ++ w4).
    assert (Dm : denotes_member k v m) by (eapply dm_intro; eauto).
    assert (Em : forall y, s = m ++ x :: r2 -> s ++ y = m ++ x :: r2 ++ y) by (intros y ->; rewrite <- app_assoc; reflexivity).
    assert (Es' : s = m ++ x :: r2).
    { unfold m. rewrite Es, Et, Es2, Er, <- !app_assoc. reflexivity. }
    destruct (N.eqb_spec x (ch ",")) as [->|_].
    + apply bind_inv in E as ([l' r3] & E2 & [= <- <-]). apply IHm in E2 as (t' & -> & D'). exists (m ++ [ch ","] ++ t').
      split; [rewrite Es', <- !app_assoc; reflexivity | apply dm_more; assumption].
    + destruct (N.eqb_spec x (ch "}")) as [->|_]; [|discriminate E]. injection E as <- <-. exists m.
      split; [rewrite Es'; reflexivity | apply dm_one; assumption].
Qed.

Lemma read_complete :
  (forall v t, denotes_value v t -> forall f w r, ws w -> num_end r -> (2 * length t + 1 <= f)%nat -> read_value f (w ++ t ++ r) = Ok (v, r)) /\
  (forall l t, denotes_elems l t -> forall f r, (2 * length t + 2 <= f)%nat -> read_elems f (t ++ ch "]" :: r) = Ok (l, r)) /\
  (forall l t, denotes_members l t -> forall f r, (2 * length t + 2 <= f)%nat -> read_members f (t ++ ch "}" :: r) = Ok (l, r)) /\
  (forall k v m, denotes_member k v m -> forall f d r, d = ch "," \/ d = ch "}" -> (2 * length m + 2 <= S f)%nat ->
     read_members (S f) (m ++ d :: r) = if d =? ch "," then ' (l, r'') <- read_members f r ;; Ok ((k, v) :: l, r'') else Ok ([(k, v)], r)).
Proof.
  apply denotes_ind.
  - intros f w r W R L. destruct f; [lia|]. cbn [read_value]. rewrite skip_ws_app by exact W. reflexivity.
  - intros f w r W R L. destruct f; [lia|]. cbn [read_value]. rewrite skip_ws_app by exact W. reflexivity.
  - intros f w r W R L. destruct f; [lia|]. cbn [read_value]. rewrite skip_ws_app by exact W. reflexivity.
  - intros v t D f w r W R L. destruct f; [lia|]. cbn [read_value]. rewrite skip_ws_app by exact W.
    destruct (num_head _ _ D) as (c & t' & -> & Hc). cbn [app].
    assert (Hw : is_ws c = false) by (unfold is_ws, digit in *; cbn in *; lia). rewrite skip_ws_head by exact Hw.
    assert (HD : (c =? ch "-") || is_digit c = true) by (unfold is_digit, between, digit in *; cbn in *; lia).
    assert (K : forall x, In x (B "ntf""[{") -> (c =? x) = false) by (intros x Hx; unfold digit in *; cbn in *; lia).
    rewrite (K (ch "n")), (K (ch "t")), (K (ch "f")), (K (ch """")), (K (ch "[")), (K (ch "{")), HD by (cbn; tauto).
    change (c :: t' ++ r) with ((c :: t') ++ r). apply read_num_complete; assumption.
  - intros e s t D f w r W R L. destruct f; [lia|]. cbn [read_value]. rewrite skip_ws_app by exact W.
    destruct (read_str_complete _ _ _ r D) as (t' & -> & E). rewrite skip_ws_head by reflexivity. 
    change (ch """" =? ch "n") with false. change (ch """" =? ch "t") with false. change (ch """" =? ch "f") with false. change (ch """" =? ch """") with true. cbv iota.
    rewrite E. reflexivity.
  - intros w0 W0 f w r W R L. destruct f; [lia|]. cbn [read_value]. rewrite skip_ws_app by exact W. rewrite <- !app_assoc. cbn [app]. rewrite skip_ws_head by reflexivity.
    change (ch "[" =? ch "n") with false. change (ch "[" =? ch "t") with false. change (ch "[" =? ch "f") with false. change (ch "[" =? ch """") with false. change (ch "[" =? ch "[") with true. cbv iota.
    rewrite skip_ws_app by exact W0. reflexivity.
  - intros l t D IH f w r W R L. destruct f; [lia|]. cbn [read_value]. rewrite skip_ws_app by exact W. rewrite <- !app_assoc. cbn [app]. rewrite skip_ws_head by reflexivity.
    change (ch "[" =? ch "n") with false. change (ch "[" =? ch "t") with false. change (ch "[" =? ch "f") with false. change (ch "[" =? ch """") with false. change (ch "[" =? ch "[") with true. cbv iota.
    rewrite !app_length in L. cbn [length] in L. specialize (IH f r ltac:(lia)). rewrite IH.
    assert (H : exists d q, skip_ws (t ++ ch "]" :: r) = d :: q /\ d <> ch "]").
    { destruct D as [v w1 t1 w2 W1 D1 W2|v w1 t1 w2 l t2 W1 D1 W2 D2]; rewrite <- app_assoc, skip_ws_app by exact W1; destruct (value_head _ _ D1) as (c & q & -> & Hc & Hd & _);
        cbn [app]; rewrite skip_ws_head by exact Hc; eauto. }
    destruct H as (d & q & -> & Hd). replace (d =? ch "]") with false by lia. reflexivity.
  - intros w0 W0 f w r W R L. destruct f; [lia|]. cbn [read_value]. rewrite skip_ws_app by exact W. rewrite <- !app_assoc. cbn [app]. rewrite skip_ws_head by reflexivity.
    change (ch "{" =? ch "n") with false. change (ch "{" =? ch "t") with false. change (ch "{" =? ch "f") with false. change (ch "{" =? ch """") with false. change (ch "{" =? ch "[") with false.
    change (ch "{" =? ch "{") with true. cbv iota. rewrite skip_ws_app by exact W0. reflexivity.
  - intros l t D IH f w r W R L. destruct f; [lia|]. cbn [read_value]. rewrite skip_ws_app by exact W. rewrite <- !app_assoc. cbn [app]. rewrite skip_ws_head by reflexivity.
    change (ch "{" =? ch "n") with false. change (ch "{" =? ch "t") with false. change (ch "{" =? ch "f") with false. change (ch "{" =? ch """") with false. change (ch "{" =? ch "[") with false.
    change (ch "{" =? ch "{") with true. cbv iota. rewrite !app_length in L. cbn [length] in L. specialize (IH f r ltac:(lia)). rewrite IH.
    assert (H : exists q, skip_ws (t ++ ch "}" :: r) = ch """" :: q).
    { assert (M : forall k v m y, denotes_member k v m -> exists q, skip_ws (m ++ y) = ch """" :: q).
      { intros k v m y [e k' tk v' t1 w1 w2 w3 w4 Dk _ W1 _ _ _]. rewrite <- app_assoc, skip_ws_app by exact W1. destruct Dk as (t' & -> & _).
        rewrite <- !app_assoc. cbn [app]. rewrite skip_ws_head by reflexivity. eauto. }
      destruct D as [k v m Dm|k v m l t2 Dm _]; [|rewrite <- app_assoc]; eapply M; exact Dm. }
    destruct H as (q & ->). reflexivity.
  - intros v w t w' W D IH W' f r L. destruct f; [lia|]. cbn [read_elems]. rewrite !app_length in L.
    rewrite <- !app_assoc. rewrite IH; [|exact W|apply ws_end; [exact W' | cbn; unfold digit; cbn; lia]|lia]. cbn [bind].
    rewrite skip_ws_app by exact W'. reflexivity.
  - intros v w t w' l t' W D IH W' D' IH' f r L. destruct f; [lia|]. cbn [read_elems]. rewrite !app_length in L. cbn [length] in L.
    rewrite <- !app_assoc. rewrite IH; [|exact W|apply ws_end; [exact W' | cbn; unfold digit; cbn; lia]|lia]. cbn [bind].
    rewrite skip_ws_app by exact W'. cbn [app]. rewrite skip_ws_head by reflexivity. change (ch "," =? ch ",") with true. cbv iota. rewrite IH' by lia. reflexivity.
  - intros k v m D IH f r L. destruct f; [lia|]. rewrite IH by (auto; lia). reflexivity.
  - intros k v m l t D IH D' IH' f r L. destruct f; [lia|]. rewrite !app_length in L. cbn [length] in L. rewrite <- !app_assoc. cbn [app].
    rewrite IH by (auto; lia). change (ch "," =? ch ",") with true. cbv iota. rewrite IH' by lia. reflexivity.
  - intros e k tk v t w1 w2 w3 w4 Dk D IH W1 W2 W3 W4 f d r Hd L. rewrite !app_length in L. cbn [length] in L. cbn [read_members].
    rewrite <- !app_assoc, skip_ws_app by exact W1. destruct (read_str_complete _ _ _ (w2 ++ [ch ":"] ++ w3 ++ t ++ w4 ++ d :: r) Dk) as (t' & -> & E).
    rewrite skip_ws_head by reflexivity. change (ch """" =? ch """") with true. cbv iota. rewrite E. cbn [bind]. rewrite skip_ws_app by exact W2.
    cbn [app]. rewrite skip_ws_head by reflexivity. change (ch ":" =? ch ":") with true. cbv iota.
    rewrite IH; [|exact W3|apply ws_end; [exact W4 | destruct Hd as [->| ->]; cbn; unfold digit; cbn; lia]|lia]. cbn [bind].
    rewrite skip_ws_app by exact W4. destruct Hd as [->| ->]; reflexivity.
Qed.
Lemma from_slice_spec s v : from_slice s = Ok v <-> denotes v s.
Proof.
  unfold from_slice. split.
  - intros E. apply bind_inv in E as ([v' r] & E1 & E). apply (proj1 (read_sound _)) in E1 as (w & t & -> & W & D).
    destruct (skip_ws_split r) as (w' & Er & W' & _). destruct (skip_ws r); [|discriminate E]. injection E as ->. rewrite app_nil_r in Er. subst r.
    exists w, t, w'. auto.
  - intros (w & t & w' & -> & W & D & W'). rewrite (proj1 read_complete v t D); [|exact W| |].
    + cbn [bind]. rewrite skip_ws_ws by exact W'. reflexivity.
    + rewrite <- (app_nil_r w'). apply ws_end; [exact W' | exact I].
    + rewrite !app_length. lia.
Qed.

(* ---- no panic: the fuel is enough ---- *)
Definition safe {A} (r : res A) : Prop := match r with Panic _ => False | _ => True end.
Lemma safe_bind {A C} (m : res A) (k : A -> res C) : safe m -> (forall x, m = Ok x -> safe (k x)) -> safe (bind m k).
Proof. intros Hm Hk. destruct m; cbn in *; auto. Qed.
Lemma safe_literal word : forall s, safe (literal word s).
Proof. induction word as [|c word IH]; intros s; [exact I|]. cbn [literal]. destruct s as [|x s]; [exact I|]. destruct (x =? c); [apply IH | exact I]. Qed.
Lemma safe_hex4 a b c d : safe (hex4 a b c d).
Proof. assert (H : forall x, safe (hex_val x)) by (intros x; unfold hex_val; repeat destruct (between _ _ x); exact I). unfold hex4. repeat (apply safe_bind; [apply H|intros ? _]). exact I. Qed.
Lemma safe_chars n : forall s, (length s <= n)%nat -> safe (read_chars s).
Proof.
  induction n as [|n IH]; intros s L; destruct s as [|c s1]; try exact I; cbn [length] in L; [lia|]. cbn [read_chars]. destruct (c =? ch """"); [exact I|].
  assert (G : forall s (k : bool -> bytes -> bytes -> res (bool * bytes * bytes)), (length s <= n)%nat -> (forall e r q, safe (k e r q)) -> safe (' (e, r, q) <- read_chars s ;; k e r q)).
  { intros s k Hs Hk. apply safe_bind; [apply IH; exact Hs|]. intros [[e r] q] _. apply Hk. }
  destruct (c =? ch "\").
  - destruct s1 as [|k s2]; [exact I|]. cbn [length] in L. destruct (k =? ch "u").
    + do 4 (destruct s2 as [|? s2]; [exact I|]). cbn [length] in L. apply safe_bind; [apply safe_hex4|]. intros x _. destruct (between 56320 57343 x); [exact I|].
      destruct (between 55296 56319 x).
      * do 6 (destruct s2 as [|? s2]; [exact I|]). cbn [length] in L. destruct (_ && _); [|exact I]. apply safe_bind; [apply safe_hex4|]. intros y _.
        destruct (between 56320 57343 y); [|exact I]. apply G; [lia | intros; exact I].
      * apply G; [lia | intros; exact I].
    + destruct (unescape k); [|exact I]. apply G; [lia | intros; exact I].
  - destruct (c <? 32); [exact I|]. apply G; [lia | intros; exact I].
Qed.
Lemma safe_str s : safe (read_str s).
Proof. unfold read_str. apply safe_bind; [eapply safe_chars; reflexivity|]. intros [[e b] r] _. destruct (utf8_valid b); exact I. Qed.
Lemma safe_num s : safe (read_num s).
Proof.
  assert (D : forall s, safe (read_digits1 s)) by (intros x; unfold read_digits1; destruct (read_digits x) as [[|] ?]; exact I).
  unfold read_num. destruct (read_sign s) as [neg s1]. apply safe_bind.
  { unfold read_int. destruct s1 as [|c s1]; [exact I|]. destruct (c =? ch "0"); [|apply D]. destruct s1 as [|d s1]; [exact I|]. destruct (is_digit d); exact I. }
  intros [int s2] _. apply safe_bind.
  { unfold read_frac. destruct s2 as [|c s2]; [exact I|]. destruct (c =? ch "."); [|exact I]. apply safe_bind; [apply D|]. intros [? ?] _. exact I. }
  intros [frac s3] _. apply safe_bind.
  { unfold read_exp. destruct s3 as [|c s3]; [exact I|]. destruct (_ || _); [|exact I]. apply safe_bind; [apply D|]. intros [? ?] _. exact I. }
  intros [x s4] _. exact I.
Qed.
Lemma read_safe n :
  (forall s, (2 * length s + 1 <= n)%nat -> safe (read_value n s)) /\
  (forall s, (2 * length s + 2 <= n)%nat -> safe (read_elems n s)) /\
  (forall s, (2 * length s + 2 <= n)%nat -> safe (read_members n s)).
Proof.
  induction n as [|n (IHv & IHe & IHm)]; [repeat split; intros; lia|].
  assert (SH : forall s v r, read_value n s = Ok (v, r) -> (length r < length s)%nat).
  { intros s v r E. apply (proj1 (read_sound _)) in E as (w & t & -> & _ & D). destruct (value_head _ _ D) as (c & t' & -> & _). rewrite !app_length. cbn. lia. }
  split; [|split]; intros s L.
  - cbn [read_value]. pose proof (skip_ws_length s) as K. destruct (skip_ws s) as [|c s1]; [exact I|]. cbn [length] in K.
    repeat (match goal with |- safe (if ?b then _ else _) => destruct b end); try exact I;
      try (apply safe_bind; [apply safe_literal | intros; exact I]).
    + apply safe_bind; [apply safe_str|]. intros [[e b] r] _. exact I.
    + destruct (skip_ws s1) as [|d r]; [exact I|]. destruct (d =? ch "]"); [exact I|]. apply safe_bind; [apply IHe; lia|]. intros [l r'] _. exact I.
    + destruct (skip_ws s1) as [|d r]; [exact I|]. destruct (d =? ch "}"); [exact I|]. apply safe_bind; [apply IHm; lia|]. intros [l r'] _. exact I.
    + apply safe_num.
  - cbn [read_elems]. apply safe_bind; [apply IHv; lia|]. intros [v r] E. apply SH in E. pose proof (skip_ws_length r) as K. destruct (skip_ws r) as [|d r']; [exact I|]. cbn [length] in K.
    destruct (d =? ch ","); [|destruct (d =? ch "]"); exact I]. apply safe_bind; [apply IHe; lia|]. intros [l r''] _. exact I.
  - cbn [read_members]. pose proof (skip_ws_length s) as K. destruct (skip_ws s) as [|q s1]; [exact I|]. cbn [length] in K. destruct (q =? ch """"); [|exact I].
    apply safe_bind; [apply safe_str|]. intros [[e k] s2] E. apply read_str_sound in E as (tk & Et & (tk' & -> & _)). pose proof (f_equal (@length N) Et) as EL.
    rewrite !app_length in EL. cbn [length] in EL. pose proof (skip_ws_length s2) as K2. destruct (skip_ws s2) as [|d s3]; [exact I|]. cbn [length] in K2.
    destruct (d =? ch ":"); [|exact I]. apply safe_bind; [apply IHv; lia|]. intros [v r] E. apply SH in E.
    pose proof (skip_ws_length r) as K3. destruct (skip_ws r) as [|d' r']; [exact I|]. cbn [length] in K3.
    destruct (d' =? ch ","); [|destruct (d' =? ch "}"); exact I]. apply safe_bind; [apply IHm; lia|]. intros [l r''] _. exact I.
Qed.
Lemma from_slice_safe s w : from_slice s <> Panic w.
Proof.
  intros E. assert (H : safe (from_slice s)); [|rewrite E in H; exact H].
  unfold from_slice. apply safe_bind; [apply read_safe; lia|]. intros [v r] _. destruct (skip_ws r); exact I.
Qed.
