(* PropSum.v: property C73, which errors in ASCII frames the checksum detects. *)
From Verif Require Import Base BaseFacts Pkt Msg SpecPkt SpecMsg CrcFacts PktFacts DecodeFacts WireFacts MsgFacts.
From Coq Require Import Permutation.
From Coq Require Import ZifyBool ZifyNat ZifyN.
Ltac Zify.zify_post_hook ::= Z.div_mod_to_equations.

(* What is sent: length, body, checksum and the end of the line. *)
Definition ascii_sent (nn body : bytes) (hi lo : N) : bytes := nn ++ body ++ [hi; lo] ++ [13; 10].
(* Every byte of the second is at least the corresponding byte of the first. *)
Definition risen (s t : bytes) : Prop := Forall2 N.le s t.
(* The wrong bit i of a byte. *)
Definition flip (i a : N) : N := N.lxor a (2 ^ i).

Lemma app_inj_length {A} (x y u v : list A) : length x = length u -> x ++ y = u ++ v -> x = u /\ y = v.
Proof. revert u. induction x as [|a x IH]; intros [|b u] L E; cbn in *; try discriminate; [auto|]. injection E as -> E. destruct (IH u) as [-> ->]; auto; lia. Qed.
Lemma sent_frame body nn hi lo : ascii_body body -> length nn = 2%nat -> encode (PAscii body) [] = Ok (ascii_sent nn body hi lo) ->
  exists c, hex2 (N.of_nat (length body) + 2) nn /\ hex2 c [hi; lo] /\ (byte_sum (nn ++ body) + c) mod 256 = 0.
Proof.
  intros HB Ln E. destruct (encode_valid (PAscii body) HB) as (f & (nn' & cc & c & H1 & H2 & H3 & F) & E'). rewrite (E' []) in E.
  assert (X : f = ascii_sent nn body hi lo) by (cbn [app] in E; congruence). rewrite F in X. unfold ascii_sent in X. pose proof (hex2_lt _ _ H1) as [_ L1]. pose proof (hex2_lt _ _ H2) as [_ L2].
  apply app_inj_length in X as [<- X]; [|lia]. apply app_inj_length in X as [_ X]; [|reflexivity]. apply app_inj_length in X as [<- _]; [|exact L2].
  eauto.
Qed.
Lemma received_frame body' nn hi' lo' s : hex2 (N.of_nat (length body') + 2) nn -> u8s body' -> hi' < 256 -> lo' < 256 -> u8s s ->
  let r := ascii_sent nn body' hi' lo' in
  (decode (r ++ s) = Ok (Some (PAscii body'), s) /\ ascii_body body' /\ ascii_frame body' r) \/
  ((exists why, decode (r ++ s) = Ok (Some (PInvalid r why), s)) /\ ~ (ascii_body body' /\ ascii_frame body' r)).
Proof.
  intros Hn U H1 H2 Us r. assert (Ur : u8s r).
  { unfold r, ascii_sent. apply hex2_range in Hn. apply hexrange_u8 in Hn. unfold u8s in *. rewrite !Forall_app. repeat split; auto; repeat constructor; lia. }
  destruct Hn as (i & j & a & b & Hi & Hj & En & ->). set (n := N.of_nat (length body') + 2) in *. assert (Hn : hex2 n [a; b]) by (exists i, j, a, b; auto).
  set (t := body' ++ [hi'; lo'] ++ [13; 10]). assert (Er : r = [a; b] ++ t) by reflexivity.
  assert (Lt : N.of_nat (length t) = n + 2) by (unfold t, n; rewrite app_length; cbn [app length]; lia).
  destruct (decodes_ascii_or n a b t s) as (p & D & A); [rewrite <- Er; exact Ur | exact Hn | exact Lt|]. rewrite <- Er in *.
  apply decode_exact in D; [|apply u8s_app; auto].
  destruct (ascii_decode r) as [b0|e|w] eqn:AD; [|right; subst p|contradiction].
  - left. subst p. destruct (ascii_decode_sound r n b0 Ur) as [HB HF]; [cbn; lia | exact Hn | rewrite Er, app_length; cbn [length]; lia | exact AD|].
    assert (b0 = body') as ->; [|auto]. destruct HF as (nn0 & cc0 & c0 & G1 & G2 & _ & G4). pose proof (hex2_lt _ _ G1) as [_ L1]. pose proof (hex2_lt _ _ G2) as [_ L2].
    unfold r, ascii_sent in G4. apply app_inj_length in G4 as [_ G4]; [|cbn; lia].
    symmetry. refine (proj1 (app_inj_length _ _ _ _ _ G4)). apply (f_equal (@length N)) in G4. rewrite !app_length, L2 in G4. cbn [length] in G4. lia.
  - split; [eauto|]. intros [HB HF]. rewrite (ascii_decode_complete _ _ HB HF) in AD. discriminate.
Qed.

(* ---- C73 ---- *)
(* Exactly when a frame whose length field and line end arrived intact is accepted: the body is
   printable, the checksum is two hexadigits, and body plus checksum changed by a multiple of 256. *)
Theorem C73_accepted_iff : forall body nn hi lo body' hi' lo' s,
  ascii_body body -> length nn = 2%nat -> encode (PAscii body) [] = Ok (ascii_sent nn body hi lo) ->
  length body' = length body -> u8s body' -> hi' < 256 -> lo' < 256 -> u8s s ->
  (decode (ascii_sent nn body' hi' lo' ++ s) = Ok (Some (PAscii body'), s) <->
   Forall printable body' /\
   exists c c', hex2 c [hi; lo] /\ hex2 c' [hi'; lo'] /\ (byte_sum body + c) mod 256 = (byte_sum body' + c') mod 256) /\
  (~ (Forall printable body' /\
      exists c c', hex2 c [hi; lo] /\ hex2 c' [hi'; lo'] /\ (byte_sum body + c) mod 256 = (byte_sum body' + c') mod 256) ->
   exists why, decode (ascii_sent nn body' hi' lo' ++ s) = Ok (Some (PInvalid (ascii_sent nn body' hi' lo') why), s)).
Proof.
  intros body nn hi lo body' hi' lo' s HB Ln E L U H1 H2 Us. destruct (sent_frame body nn hi lo HB Ln E) as (c & Hn & Hc & S).
  assert (W : (Forall printable body' /\ exists c c', hex2 c [hi; lo] /\ hex2 c' [hi'; lo'] /\ (byte_sum body + c) mod 256 = (byte_sum body' + c') mod 256) <->
    ascii_body body' /\ ascii_frame body' (ascii_sent nn body' hi' lo')).
  { rewrite byte_sum_app in S. split.
    - intros (P & c0 & c' & G1 & G2 & G3). assert (c0 = c) as -> by (eapply hex2_inj; eauto). split; [split; [exact P | rewrite L; apply HB]|].
      exists nn, [hi'; lo'], c'. rewrite L, byte_sum_app. repeat split; auto. lia.
    - intros ([P _] & nn0 & cc0 & c0 & G1 & G2 & G3 & G4). pose proof (hex2_lt _ _ G1) as [_ L1]. pose proof (hex2_lt _ _ G2) as [_ L2].
      unfold ascii_sent in G4. apply app_inj_length in G4 as [<- G4]; [|lia]. apply app_inj_length in G4 as [_ G4]; [|reflexivity]. apply app_inj_length in G4 as [<- _]; [|symmetry; exact L2].
      split; [exact P|]. exists c, c0. repeat split; auto. rewrite byte_sum_app in G3. lia. }
  rewrite W. rewrite <- L in Hn.
  destruct (received_frame body' nn hi' lo' s Hn U H1 H2 Us) as [(D & X) | ((why & D) & X)]; rewrite D.
  - split; [split; auto | intros N; contradiction].
  - split; [split; [discriminate | intros K; contradiction] | eauto].
Qed.

(* With the checksum intact too: *)
Lemma intact body nn hi lo body' s :
  ascii_body body -> length nn = 2%nat -> encode (PAscii body) [] = Ok (ascii_sent nn body hi lo) ->
  length body' = length body -> u8s body' -> u8s s ->
  (decode (ascii_sent nn body' hi lo ++ s) = Ok (Some (PAscii body'), s) <-> Forall printable body' /\ byte_sum body mod 256 = byte_sum body' mod 256) /\
  (~ (Forall printable body' /\ byte_sum body mod 256 = byte_sum body' mod 256) ->
   exists why, decode (ascii_sent nn body' hi lo ++ s) = Ok (Some (PInvalid (ascii_sent nn body' hi lo) why), s)).
Proof.
  intros HB Ln E L U Us. destruct (sent_frame body nn hi lo HB Ln E) as (c & Hn & Hc & S).
  pose proof (hex2_range _ _ Hc) as R. inversion R as [|? ? R1 R']; subst. inversion R' as [|? ? R2 _]; subst.
  assert (W : (Forall printable body' /\ byte_sum body mod 256 = byte_sum body' mod 256) <->
    (Forall printable body' /\ exists c c', hex2 c [hi; lo] /\ hex2 c' [hi; lo] /\ (byte_sum body + c) mod 256 = (byte_sum body' + c') mod 256)).
  { split; intros (P & X); split; auto.
    - exists c, c. repeat split; auto. lia.
    - destruct X as (c1 & c2 & X1 & X2 & X). assert (c1 = c2) as -> by (eapply hex2_inj; eauto). lia. }
  rewrite W. apply (C73_accepted_iff body nn hi lo body' hi lo s); auto; lia.
Qed.
Lemma land_pow2 a i : N.testbit a i = false -> N.land a (2 ^ i) = 0.
Proof.
  intros H. apply N.bits_inj. intros k. rewrite N.land_spec, N.pow2_bits_eqb, N.bits_0. destruct (N.eqb_spec i k) as [<-|]; [rewrite H; reflexivity | apply andb_false_r].
Qed.
Lemma flip_clear i a : N.testbit a i = false -> flip i a = a + 2 ^ i.
Proof. intros H. unfold flip. symmetry. apply N.add_nocarry_lxor, land_pow2, H. Qed.
Lemma flip_set i a : N.testbit a i = true -> flip i a + 2 ^ i = a.
Proof.
  intros H. rewrite <- flip_clear.
  - unfold flip. rewrite N.lxor_assoc, N.lxor_nilpotent. apply N.lxor_0_r.
  - unfold flip. rewrite N.lxor_spec, H, N.pow2_bits_true. reflexivity.
Qed.
Lemma flip_u8 i a : a < 256 -> i < 8 -> flip i a < 256.
Proof.
  intros H I. destruct (N.eq_dec (flip i a) 0) as [->|Z]; [lia|]. apply (N.log2_lt_pow2 _ 8); [lia|]. unfold flip in *.
  eapply N.le_lt_trans; [apply N.log2_lxor|]. rewrite N.log2_pow2 by lia. apply N.max_lub_lt; [|exact I].
  destruct (N.eq_dec a 0) as [->|]; [cbn; lia|]. apply N.log2_lt_pow2; [lia | exact H].
Qed.

(* What is detected.  First, two wrong bits in the body, unless they are the same bit of two characters, one
   set and the other cleared.  Second, any number of wrong bits that were all cleared, or all set, as long as the sum of the
   bytes changes by less than 256.  (One wrong byte: C08.)
   Missing from C73: the other errors, see C73_reordered_refuted. *)
Theorem C73_two_bits : forall nn hi lo P a Q b R i j s,
  let body := P ++ a :: Q ++ b :: R in
  let body' := P ++ flip i a :: Q ++ flip j b :: R in
  ascii_body body -> length nn = 2%nat -> encode (PAscii body) [] = Ok (ascii_sent nn body hi lo) ->
  i < 8 -> j < 8 -> u8s s ->
  (decode (ascii_sent nn body' hi lo ++ s) = Ok (Some (PAscii body'), s) <->
   i = j /\ N.testbit a i <> N.testbit b j /\ printable (flip i a) /\ printable (flip j b)) /\
  (~ (i = j /\ N.testbit a i <> N.testbit b j /\ printable (flip i a) /\ printable (flip j b)) ->
   exists why, decode (ascii_sent nn body' hi lo ++ s) = Ok (Some (PInvalid (ascii_sent nn body' hi lo) why), s)).
Proof.
  intros nn hi lo P a Q b R i j s body body' HB Ln E Hi Hj Us. assert (HP := proj1 HB). unfold body in HP. rewrite Forall_app in HP. destruct HP as (P1 & HP).
  inversion HP as [|? ? P2 HP']; subst. rewrite Forall_app in HP'. destruct HP' as (P3 & HP'). inversion HP' as [|? ? P4 P5]; subst.
  assert (W : (Forall printable body' /\ byte_sum body mod 256 = byte_sum body' mod 256) <-> i = j /\ N.testbit a i <> N.testbit b j /\ printable (flip i a) /\ printable (flip j b)).
  { assert (F : Forall printable body' <-> printable (flip i a) /\ printable (flip j b)).
    { unfold body'. rewrite Forall_app, Forall_cons_iff, Forall_app, Forall_cons_iff. tauto. }
    rewrite F. assert (M : printable (flip i a) -> printable (flip j b) -> (byte_sum body mod 256 = byte_sum body' mod 256 <-> i = j /\ N.testbit a i <> N.testbit b j)); [|tauto].
    intros G1 G2. unfold body, body'. rewrite !byte_sum_app. cbn [byte_sum]. rewrite !byte_sum_app. cbn [byte_sum]. unfold printable in *.
    assert (A : if N.testbit a i then flip i a + 2 ^ i = a else flip i a = a + 2 ^ i) by (destruct (N.testbit a i) eqn:T; [apply flip_set | apply flip_clear]; exact T).
    assert (C : if N.testbit b j then flip j b + 2 ^ j = b else flip j b = b + 2 ^ j) by (destruct (N.testbit b j) eqn:T; [apply flip_set | apply flip_clear]; exact T).
    generalize dependent (flip i a). intros x. generalize dependent (flip j b). intros y. intros.
    assert (Ei : i = 0 \/ i = 1 \/ i = 2 \/ i = 3 \/ i = 4 \/ i = 5 \/ i = 6 \/ i = 7) by lia.
    assert (Ej : j = 0 \/ j = 1 \/ j = 2 \/ j = 3 \/ j = 4 \/ j = 5 \/ j = 6 \/ j = 7) by lia.
    set (p := 2 ^ i) in *. set (q := 2 ^ j) in *.
    assert (Ep : p = q <-> i = j). { unfold p, q. split; [intros K; apply (f_equal N.log2) in K; rewrite !N.log2_pow2 in K; lia | intros ->; reflexivity]. }
    assert (Bp : p <= 128) by (unfold p; change 128 with (2 ^ 7); apply N.pow_le_mono_r; lia). assert (Bq : q <= 128) by (unfold q; change 128 with (2 ^ 7); apply N.pow_le_mono_r; lia).
    assert (Zp : 0 < p) by (unfold p; destruct (N.eq_dec (2 ^ i) 0) as [K|]; [apply N.pow_nonzero in K; lia | lia]).
    assert (Zq : 0 < q) by (unfold q; destruct (N.eq_dec (2 ^ j) 0) as [K|]; [apply N.pow_nonzero in K; lia | lia]).
    rewrite <- Ep. clear -A C G1 G2 P2 P4 Bp Bq Zp Zq.
    destruct (N.testbit a i), (N.testbit b j); (split; [intros K; split; [lia | try discriminate; exfalso; lia] | intros [K1 K2]; try congruence; lia]). }
  rewrite <- W. apply intact; auto.
  - unfold body, body'. rewrite !app_length. cbn [length]. rewrite !app_length. reflexivity.
  - unfold body'. apply u8s_app. split; [apply printable_u8; exact P1|]. constructor; [apply flip_u8; unfold printable in *; lia|]. apply u8s_app. split; [apply printable_u8; exact P3|].
    constructor; [apply flip_u8; unfold printable in *; lia | apply printable_u8; exact P5].
Qed.
Lemma risen_sum s t : risen s t -> byte_sum s <= byte_sum t /\ (byte_sum s = byte_sum t -> s = t).
Proof. unfold risen. intros F. induction F as [|x y s t H F (I1 & I2)]; cbn; [split; [lia | auto]|]. split; [lia|]. intros E. assert (x = y) as -> by lia. rewrite I2 by lia. reflexivity. Qed.
Theorem C73_one_direction_partial : forall nn hi lo body body' s,
  ascii_body body -> length nn = 2%nat -> encode (PAscii body) [] = Ok (ascii_sent nn body hi lo) ->
  u8s body' -> u8s s -> body' <> body ->
  risen body body' /\ byte_sum body' < byte_sum body + 256 \/ risen body' body /\ byte_sum body < byte_sum body' + 256 ->
  exists why, decode (ascii_sent nn body' hi lo ++ s) = Ok (Some (PInvalid (ascii_sent nn body' hi lo) why), s).
Proof.
  intros nn hi lo body body' s HB Ln E U Us N D.
  assert (L : length body' = length body).
  { assert (X : forall s t, risen s t -> length s = length t) by (induction 1; cbn; auto). destruct D as [[D _]|[D _]]; apply X in D; auto. }
  apply (intact body nn hi lo body' s HB Ln E L U Us). intros [_ K].
  destruct D as [[D B]|[D B]]; apply risen_sum in D as [D1 D2]; [apply N, eq_sym, D2 | apply N, D2]; lia.
Qed.

(* False in general: the sum does not see the order.  The characters of the body in any other order
   pass. *)
Theorem C73_reordered_refuted : forall nn hi lo body body' s,
  ascii_body body -> length nn = 2%nat -> encode (PAscii body) [] = Ok (ascii_sent nn body hi lo) -> u8s s ->
  Permutation body body' -> decode (ascii_sent nn body' hi lo ++ s) = Ok (Some (PAscii body'), s).
Proof.
  intros nn hi lo body body' s HB Ln E Us P. assert (P' : Forall printable body') by (eapply Permutation_Forall; [exact P | apply HB]).
  apply (intact body nn hi lo body' s HB Ln E); auto; [symmetry; apply Permutation_length, P | apply printable_u8; exact P'|].
  split; [exact P'|]. f_equal. clear -P. induction P; cbn; lia.
Qed.

(* ---- messages ----
   Two neighbouring characters exchanged in a request to arm: it asks for another level in another area. *)
Definition exchanged (s t : bytes) : Prop := exists x a b y, s = x ++ a :: b :: y /\ t = x ++ b :: a :: y.
Theorem C73_arm_request_refuted : forall l m n l' code, ArmLevel_u8 l = ch "0" + n -> ArmLevel_u8 l' = ch "0" + m ->
  1 <= n <= 8 -> 1 <= m <= 8 -> arm_code_ok code ->
  exists b b' nn hi lo,
    to_pkt (MArmRequest (mkArmRequest m l code)) = Ok (PAscii b) /\ encode (PAscii b) [] = Ok (ascii_sent nn b hi lo) /\
    exchanged b b' /\
    decode (ascii_sent nn b' hi lo) = Ok (Some (PAscii b'), []) /\
    parse (PAscii b') = Ok (Some (MArmRequest (mkArmRequest n l' code))).
Proof.
  intros l m n l' code El Em Hn Hm Hc.
  assert (W : wf_message (MArmRequest (mkArmRequest m l code))) by (split; [split; cbn; lia | exact Hc]).
  assert (W' : wf_message (MArmRequest (mkArmRequest n l' code))) by (split; [split; cbn; lia | exact Hc]).
  destruct (to_pkt_spec _ W) as (b & T & _ & V & _). destruct (to_pkt_spec _ W') as (b' & T' & _ & _ & P').
  assert (X : forall k v, 1 <= k <= 8 -> forall b, to_pkt (MArmRequest (mkArmRequest k v code)) = Ok (PAscii b) -> b = [ch "a"; ArmLevel_u8 v; ch "0" + k] ++ code ++ B "00").
  { intros k v Hk b0 H. unfold to_pkt in H. cbn [to_ascii] in H. unfold ArmRequest_to_ascii in H. cbn [ar_area ar_level ar_code] in H. unfold add8 in H.
    replace (k + ch "0" <? 256) with true in H by (symmetry; apply N.ltb_lt; cbn; lia). cbn [bind] in H. replace (k + ch "0") with (ch "0" + k) in H by lia.
    destruct (ascii_try_from _) as [z|z|z] eqn:A; cbn [expect bind] in H; try discriminate. apply ascii_try_from_spec in A as [_ ->]. injection H as <-. reflexivity. }
  pose proof (X _ _ Hm _ T) as Eb. pose proof (X _ _ Hn _ T') as Eb'. rewrite El in Eb. rewrite Em in Eb'.
  destruct (encode_valid (PAscii b) V) as (f & (nn & cc & c & G1 & G2 & G3 & G4) & E). destruct G2 as (i & j & hi & lo & G2). destruct G2 as (_ & _ & _ & ->).
  exists b, b', nn, hi, lo. assert (E' : encode (PAscii b) [] = Ok (ascii_sent nn b hi lo)) by (rewrite E, G4; reflexivity).
  assert (Q : exchanged b b') by (exists [ch "a"], (ch "0" + n), (ch "0" + m), (code ++ B "00"); subst; auto).
  split; [exact T|]. split; [exact E'|]. split; [exact Q|]. split; [|exact P'].
  rewrite <- (app_nil_r (ascii_sent _ _ _ _)). apply C73_reordered_refuted with (body := b); auto; [apply (hex2_lt _ _ G1) | constructor|].
  destruct Q as (x & a0 & b0 & y & -> & ->). apply Permutation_app_head. constructor.
Qed.

(* ---- examples ---- *)
(* "arm to stay, area 1": the level and the area exchanged make "arm away, area 2"; two wrong bits elsewhere are seen *)
Example C73_example :
  ascii_body (B "a2112345600") /\ encode (PAscii (B "a2112345600")) [] = Ok (ascii_sent (B "0D") (B "a2112345600") (ch "3") (ch "3")) /\
  decode (ascii_sent (B "0D") (B "a1212345600") (ch "3") (ch "3")) = Ok (Some (PAscii (B "a1212345600")), []) /\
  parse (PAscii (B "a2112345600")) = Ok (Some (MArmRequest (mkArmRequest 1 AL_ArmedStay (B "123456")))) /\
  parse (PAscii (B "a1212345600")) = Ok (Some (MArmRequest (mkArmRequest 2 AL_ArmedAway (B "123456")))) /\
  flip 0 (ch "2") = ch "3" /\ flip 1 (ch "1") = ch "3" /\
  (exists why, decode (ascii_sent (B "0D") (B "a3312345600") (ch "3") (ch "3") ++ [48]) = Ok (Some (PInvalid (ascii_sent (B "0D") (B "a3312345600") (ch "3") (ch "3")) why), [48])) /\
  flip 0 (ch "2") = ch "3" /\ flip 0 (ch "1") = ch "0" /\
  decode (ascii_sent (B "0D") (B "a3012345600") (ch "3") (ch "3") ++ [48]) = Ok (Some (PAscii (B "a3012345600")), [48]) /\
  risen (B "a2112345600") (B "c3112345601").
Proof.
  split; [split; [repeat constructor; cbn; discriminate | cbn; lia]|]. do 5 (split; [vm_compute; reflexivity|]). split; [reflexivity|]. split; [eexists; vm_compute; reflexivity|].
  split; [reflexivity|]. split; [reflexivity|]. split; [vm_compute; reflexivity|]. repeat constructor; cbn; discriminate.
Qed.

Print Assumptions C73_accepted_iff.
Print Assumptions C73_two_bits.
Print Assumptions C73_one_direction_partial.
Print Assumptions C73_reordered_refuted.
Print Assumptions C73_arm_request_refuted.
