(* PropReason.v: the properties C81 and C82: what error texts say.
   Statements use SpecPkt.v, SpecMsg.v and SpecReason.v. *)
From Verif Require Import Base BaseFacts Pkt SpecPkt CrcFacts PktFacts DecodeFacts Msg SpecMsg DecFacts MsgFacts ShowFacts SpecReason ReasonFacts PropPkt.
From Coq Require Import ZifyBool ZifyNat ZifyN.

(* ------------------------------------------------------------------ C81 *)
(* An invalid packet gives the one text that explains it. *)
Theorem C81_reason_exact : forall src raw why rest, u8s src -> decode src = Ok (Some (PInvalid raw why), rest) ->
  src = raw ++ rest /\ forall w, explains raw rest w <-> w = why.
Proof.
  intros src raw why rest U E. destruct (decode_explained _ _ _ _ U E) as [-> X]. split; [reflexivity|]. intros w. split; [|intros ->; exact X].
  intros X'. destruct (explains_decode _ _ _ U X') as [E' | [-> NB]]; [congruence|].
  destruct X as [(n & a & b & t & -> & H & _) _|? (n & a & b & t & -> & H & _) _ _|? ? ? (n & a & b & t & -> & H & _) _ _ _|? ? ? ? ? (n & a & b & t & -> & H & _) _ _ _ _ _ _|? ? ? ? ? ? ? (n & a & b & t & -> & H & _) _ _ _ _ _ _ _ _|? ? ? ? ? -> _ _ _ _|? ? ? ? -> _ _ _ _ _|? ? -> _ _|_];
    try (destruct NB; rewrite <- app_assoc; eapply hex2_begins; exact H); [| | |reflexivity]; destruct NB; left; eexists; rewrite <- app_assoc; reflexivity.
Qed.

(* Putting the named checksum in place of the wrong one makes the frame right, up to characters that are not printable. *)
Theorem C81_checksum_cures : forall src raw cc rest, u8s src -> u8s cc ->
  decode src = Ok (Some (PInvalid raw (says "ASCII packet doesn't have expected checksum " cc)), rest) ->
  exists d wrong, raw = d ++ wrong ++ [13; 10] /\ length wrong = 2%nat /\ wrong <> cc /\
    ((exists body, decode ((d ++ cc ++ [13; 10]) ++ rest) = Ok (Some (PAscii body), rest) /\ ascii_frame body (d ++ cc ++ [13; 10])) \/
     (exists i, decode ((d ++ cc ++ [13; 10]) ++ rest) = Ok (Some (PInvalid (d ++ cc ++ [13; 10]) (says "non-printable character at index " i)), rest))).
Proof.
  intros src raw cc rest U Uc E. destruct (decode_explained _ _ _ _ U E) as [-> X].
  inversion X as [An H | t An E0 L | d a b An E0 L H | d wr c rcc rc An E0 L H1 H2 S Ne EW | nn x b y wr c i An E0 L H S L2 F NP Nu | d hi lo rc s E0 L C Ne HN | d c rest' s E0 L E2 N1 N2 HN | d tail E0 T L | NB].
  pose proof (hex2_range _ _ H2) as R2. apply string_of_bytes_inj in EW; [|apply hexrange_u8; exact R2 | exact Uc]. subst rcc raw. clear X E.
  exists d, wr. split; [reflexivity|]. split; [apply (hex2_lt _ _ H1)|]. split; [intros ->; apply Ne; eapply hex2_inj; eassumption|].
  assert (LC : length cc = 2%nat) by apply (hex2_lt _ _ H2). assert (LW : length wr = 2%nat) by apply (hex2_lt _ _ H1).
  pose proof U as U'. apply u8s_app in U' as [U1 U2]. apply u8s_app in U1 as [Ud _]. assert (Un : u8s (d ++ cc ++ [13; 10])) by (apply u8s_app; split; [exact Ud|]; apply u8s_app; split; [exact Uc | repeat constructor]).
  destruct An as (n & a & b & t & E & H & Lt). destruct d as [|d0 [|d1 d]]; cbn [length] in L; try lia. injection E as -> -> E.
  assert (A2 : announced ((a :: b :: d) ++ cc ++ [13; 10])).
  { exists n, a, b, (d ++ cc ++ [13; 10]). split; [reflexivity|]. split; [exact H|]. rewrite <- Lt, <- E, !app_length, LC, LW. reflexivity. }
  assert (Lx : N.of_nat (length (d ++ cc ++ [13; 10])) = n + 2) by (rewrite <- Lt, <- E, !app_length, LC, LW; reflexivity).
  destruct (decodes_ascii_or n a b (d ++ cc ++ [13; 10]) rest Un H Lx) as (p & D & Q).
  apply decode_exact in D; [|apply u8s_app; split; assumption].
  change ([a; b] ++ d ++ cc ++ [13; 10]) with ((a :: b :: d) ++ cc ++ [13; 10]) in D, Q.
  destruct (ascii_decode_total ((a :: b :: d) ++ cc ++ [13; 10])) as [[body Eb] | [e Ee]].
  - left. rewrite Eb in Q. subst p. exists body. split; [exact D|].
    apply (ascii_decode_sound ((a :: b :: d) ++ cc ++ [13; 10]) n body); auto; [cbn; lia|]. cbn [app length]. lia.
  - right. rewrite Ee in Q. subst p. pose proof (ascii_explained _ rest e Un A2 Ee) as X.
    assert (TI : forall (x y : bytes) p q, x ++ p ++ [13; 10] = y ++ q ++ [13; 10] -> length p = 2%nat -> length q = 2%nat -> x = y /\ p = q).
    { intros x y p q Eq Lp Lq. rewrite !app_assoc in Eq. apply app_inv_tail in Eq. assert (Lx2 : length x = length y) by (apply (f_equal (@length N)) in Eq; rewrite !app_length in Eq; lia).
      apply app_same in Eq; auto. }
    inversion X as [An H0 | t0 An E0 L0 | d' a' b' An E0 L0 H0 | d' wr' c' rcc' rc' An E0 L0 H1' H2' S' Ne' EW | nn x b' y wr' c' i An E0 L0 H0 S' L2 F NP Nu | d' hi lo rc' s E0 L0 C Ne' HN | d' c' rest' s E0 L0 E2 N1 N2 HN | d' tail E0 T L0 | NB]; subst e.
    + destruct (H0 ((a :: b :: d) ++ cc)). rewrite <- app_assoc. reflexivity.
    + rewrite !app_length, LC in L0. cbn [length] in L0. lia.
    + apply (TI (a :: b :: d) d' cc [a'; b']) in E0 as [_ ->]; [|exact LC | reflexivity]. destruct H0. destruct H2 as (i & j & ? & ? & Hi & Hj & _ & [= <- <-]). split; eexists; eassumption.
    + apply (TI (a :: b :: d) d' cc wr') in E0 as [<- <-]; [|exact LC | apply (hex2_lt _ _ H1')].
      pose proof (hex2_inj _ _ _ H2 H1'). subst c'. pose proof (proj1 (hex2_lt _ _ H2)). pose proof (proj1 (hex2_lt _ _ H2')).
      destruct Ne'. rewrite <- (checksum_is _ _ Ud (proj1 (hex2_lt _ _ H2)) S). apply (checksum_is _ _ Ud (proj1 (hex2_lt _ _ H2')) S').
    + exists i. exact D.
    + exfalso. injection E0 as -> -> _. eapply (hex2_not_header n 16 2 [] []); [exact H | reflexivity].
    + exfalso. injection E0 as -> -> _. eapply (hex2_not_header n 16 2 [] []); [exact H | reflexivity].
    + exfalso. injection E0 as -> -> _. eapply (hex2_not_header n 16 2 [] []); [exact H | reflexivity].
    + exfalso. apply NB. rewrite <- app_assoc. eapply hex2_begins. exact H.
Qed.
(* Likewise for the CRC of an RP packet. *)
Theorem C81_crc_cures : forall src raw s rest, u8s src -> u8s s ->
  decode src = Ok (Some (PInvalid raw (says "RP packet doesn't have expected CRC " s)), rest) ->
  exists d hi lo c, raw = [16; 2] ++ dle_double d ++ [16; 3] ++ [hi; lo] /\ hex_value s c /\ hi * 256 + lo <> c /\
    decode (([16; 2] ++ dle_double d ++ [16; 3] ++ [c / 256; c mod 256]) ++ rest) = Ok (Some (PRp d), rest).
Proof.
  intros src raw s rest U Us E. destruct (decode_explained _ _ _ _ U E) as [-> X].
  inversion X as [An H | t An E0 L | d a b An E0 L H | d wr c rcc rc An E0 L H1 H2 S Ne EW | nn x b y wr c i An E0 L H S L2 F NP Nu | d hi lo rc s' E0 L C Ne HN EW | d c rest' s' E0 L E2 N1 N2 HN | d tail E0 T L | NB].
  apply string_of_bytes_inj in EW; [|eapply hex_value_u8s; apply HN | exact Us]. subst s' raw. exists d, hi, lo, rc. split; [reflexivity|]. split; [apply HN|]. split; [exact Ne|].
  destruct (proj1 (u8s_app _ _) U) as [Ur Ut]. assert (Ud : u8s d) by (apply (u8s_app [16; 2]) in Ur as [_ V]; apply u8s_app in V as [V _]; apply dle_double_u8s; exact V).
  pose proof C as [B16 _]. change (2 ^ 16) with 65536 in B16.
  apply decode_exact.
  - apply u8s_app. split; [|exact Ut]. apply u8s_app. split; [repeat constructor|]. apply u8s_app. split; [apply dle_double_u8s; exact Ud|]. apply (u8s_app [16; 3]). split; [repeat constructor|]. repeat constructor; lia.
  - apply D_rp; [|rewrite !app_length in L |- *; cbn [length] in L |- *; exact L]. exists (rc / 256), (rc mod 256), rc. split; [exact C|]. repeat split; lia.
Qed.
(* What AsciiPacket::try_from and RpPacket::try_from say. *)
Theorem C81_try_from_reasons : forall s,
  (forall why, ascii_try_from s = Err why <->
    (exists before b after, s = before ++ b :: after /\ Forall printable before /\ ~ printable b /\
       why = says "non-printable character at index " (fmt_dec (N.of_nat (length before)))) \/
    (Forall printable s /\ ~ (2 <= length s <= 253)%nat /\
     why = ("ASCII packet body length " ++ show_len s ++ " not in [2, 253]." ++ string_of_bytes [10] ++ "body:" ++ string_of_bytes [10] ++ show_str s)%string)) /\
  (forall why, rp_try_from s = Err why <->
    (1024 < 6 + length (dle_double s))%nat /\
    why = (show_len s ++ "-byte body that requires " ++ show_dec (N.of_nat (length (dle_double s) - length s)) ++ " escapes exceeds maximum framed length 1024")%string).
Proof.
  intros s. split; intros why.
  - unfold ascii_try_from, check_printable. destruct (forallb printable_byte s) eqn:F; cbn [bind].
    + assert (FP : Forall printable s) by (apply Forall_forall; intros x Hx; rewrite forallb_forall in F; apply printable_byte_iff; auto).
      destruct ((length s <? 2)%nat || (253 <? length s)%nat)%bool eqn:L.
      * split; [intros [= <-]; right; repeat split; [exact FP | lia]|]. intros [(x & b & y & -> & _ & NP & _) | (_ & _ & ->)]; [|reflexivity]. rewrite Forall_app in FP. destruct FP as [_ FP]. inversion FP; contradiction.
      * split; [discriminate|]. intros [(x & b & y & -> & _ & NP & _) | (_ & H & _)]; [|lia]. rewrite Forall_app in FP. destruct FP as [_ FP]. inversion FP; contradiction.
    + assert (NF : ~ Forall printable s).
      { intros FP. rewrite Forall_forall in FP. assert (forallb printable_byte s = true); [|congruence]. apply forallb_forall. intros x Hx. apply printable_byte_iff. auto. }
      split.
      * intros [= <-]. left. destruct (position_split s NF) as (x & b & y & E & Fx & NP & P). exists x, b, y. rewrite P. auto.
      * intros [(x & b & y & -> & Fx & NP & ->) | (FP & _)]; [|contradiction]. rewrite position_at by assumption. reflexivity.
  - unfold rp_try_from. cbv zeta. rewrite RP_MAX_LEN_val, dle_double_length. replace (length s + length (filter (fun b => N.eqb b 16) s) - length s)%nat with (length (filter (fun b => N.eqb b 16) s)) by lia.
    destruct (Nat.ltb_spec (N.to_nat 1024) (6 + length s + length (filter (fun b => N.eqb b 16) s))) as [H|H].
    + split; [intros [= <-]; split; [lia | reflexivity] | intros (_ & ->); reflexivity].
    + split; [discriminate | lia].
Qed.

(* ------------------------------------------------------------------ C82 *)
(* A message is refused exactly with the text of the first requirement it does not meet. *)
Theorem C82_malformed_exact : forall body why, parse (PAscii body) = Err why <-> malformed body why.
Proof. exact malformed_iff. Qed.
(* There is one such text at most, so no other reason is ever given. *)
Theorem C82_one_reason : forall body why why', malformed body why -> malformed body why' -> why = why'.
Proof. intros body why why' H H'. apply malformed_iff in H. apply malformed_iff in H'. congruence. Qed.
(* Likewise for a date in ISO 8601: its text is that of the first requirement not met, and it is read if all are met. *)
Theorem C82_iso_exact : forall s, Forall (fun c => c < 128) s ->
  (forall why, from_iso_8601 s = Err why <-> first_violated (iso_checks s) why) /\
  ((exists dt, from_iso_8601 s = Ok dt) <-> Forall fst (iso_checks s)).
Proof. intros s A. pose proof (iso_follows s A) as F. split; [intros why; apply follows_err; exact F | apply (follows_ok _ _ F)]. Qed.
(* What the texts show: a number by its digits, a length as a number, a printable character between quotes, and a field as the list of its bytes. *)
Theorem C82_prints :
  (forall n s, numeral n s <-> u8s s /\ show_dec n = string_of_bytes s) /\
  (forall (s : bytes), show_len s = show_dec (N.of_nat (length s))) /\
  (forall c, printable c ->
     show_char c = string_of_bytes ([ch "'"] ++ (if existsb (N.eqb c) (B "'\") then [ch "\"; c] else [c]) ++ [ch "'"])) /\
  show_slice [] = "[]"%string /\
  (forall n t, show_slice (n :: t) = ("[" ++ show_dec n ++ fold_right (fun x r => ", " ++ show_dec x ++ r) "]" t)%string).
Proof.
  split; [|split; [reflexivity|split; [|split; [reflexivity|]]]].
  - intros n s. rewrite numeral_shown. split; [intros ->; split; [apply fmt_dec_u8s | reflexivity]|].
    intros [U E]. apply string_of_bytes_inj; [exact U | apply fmt_dec_u8s | symmetry; exact E].
  - intros c P. unfold show_char, escape_char. unfold printable in P. cbn [existsb map list_ascii_of_string].
    change (ch "'") with 39. change (ch "\") with 92. change (N_of_ascii "'") with 39. change (N_of_ascii "\") with 92.
    replace (c =? 0) with false by lia. replace (c =? 9) with false by lia. replace (c =? 10) with false by lia. replace (c =? 13) with false by lia.
    destruct (N.eqb_spec c 39) as [->|N1]; [reflexivity|]. destruct (N.eqb_spec c 92) as [->|N2]; [reflexivity|].
    replace ((32 <=? c) && (c <=? 126))%bool with true by lia. reflexivity.
  - assert (AA : forall x y z, ((x ++ y) ++ z)%string = (x ++ y ++ z)%string) by (induction x; intros; cbn; [|f_equal]; auto).
    intros n t. unfold show_slice. cbn [map]. cbn [String.append]. f_equal. revert n. induction t as [|m t IH]; intros n; [reflexivity|].
    cbn [map fold_right]. change (String.concat ", " (show_dec n :: show_dec m :: map show_dec t)) with (show_dec n ++ ", " ++ String.concat ", " (show_dec m :: map show_dec t))%string.
    rewrite !AA. f_equal. cbn [String.append]. do 2 f_equal. apply IH.
Qed.
(* What a text says about lengths is so, except for descriptions (SD): the command was sent with n bytes of data, fewer than k, and
   is never accepted with fewer than k. *)
Theorem C82_lengths_true_partial : forall cmd data k n, length cmd = 2%nat -> cmd <> B "SD" ->
  parse (PAscii (cmd ++ data)) = Err ("expected at least " ++ show_dec k ++ " bytes, got " ++ show_dec n) ->
  n = N.of_nat (length data) /\ n < k /\ forall data' m, parse (PAscii (cmd ++ data')) = Ok (Some m) -> k <= N.of_nat (length data').
Proof.
  intros cmd data k n L NS E. apply C82_malformed_exact in E.
  inversion E as [H EW | lvl c d w Eb HL Hl V EW | cmd' d l w Eb Hl HI V EW].
  - exfalso. subst w. destruct cmd as [|c0 [|c1 [|? ?]]]; try discriminate. injection Eb as -> -> <-. inversion V as [P w l NP | P o l w HP V']; subst; try discriminate.
    apply fv_in in V'. cbn in V'. repeat destruct V' as [V' | V']; try discriminate; try contradiction.
    apply show_dec_led in V'. cbn in V'. lia.
  - subst w. assert (cmd' = cmd /\ d = data) as [-> ->].
    { assert (length cmd' = 2%nat) by (cbn [checks_of In] in HI; repeat destruct HI as [HI | HI]; try contradiction; injection HI as <- _; reflexivity).
      apply app_same in Eb as [-> ->]; [auto | congruence]. }
    assert (T : forall k0 (l0 : bytes -> list check), (forall d, (2 <= length d)%nat -> In (cmd, at_least k0 d :: l0 d) (checks_of d)) -> l = at_least k0 data :: l0 data ->
      (forall t, ~ In ("expected at least " ++ t)%string (map snd (l0 data))) ->
      n = N.of_nat (length data) /\ n < k /\ forall data' m, parse (PAscii (cmd ++ data')) = Ok (Some m) -> k <= N.of_nat (length data')).
    { intros k0 l0 HC -> HO. inversion V as [P w l NP EP EW | P o l w HP V' EP]; subst.
      - apply dec_stop in EW as [<- EW]. assert (EN : n = N.of_nat (length data)).
        { apply show_dec_inj. symmetry. apply (f_equal (skipn 11)) in EW. exact EW. }
        split; [exact EN|]. split; [lia|]. intros data' m Hp. destruct (Nat.lt_ge_cases (length data') k0) as [Hs|Hs]; [exfalso | lia].
        assert (M : exists w, malformed (cmd ++ data') w).
        { destruct (Nat.lt_ge_cases (length data') 2) as [H2|H2]; [exists "malformed ASCII message: too short"%string; apply MF_short; rewrite app_length; lia|].
          eexists. eapply MF_other; [reflexivity | exact H2 | apply HC; exact H2 | apply FV_here; lia]. }
        destruct M as (w & M). apply C82_malformed_exact in M. congruence.
      - exfalso. apply fv_in in V'. eapply HO. exact V'. }
    cbn [checks_of In] in HI. repeat destruct HI as [HI | HI]; try contradiction; injection HI as <- <-.
    Ltac other := intros t HI; cbn in HI; repeat destruct HI as [HI | HI]; try discriminate; try contradiction; try (apply show_dec_led in HI; cbn in HI; lia).
    + exfalso. inversion V as [P w l NP EP EW | P o l w HP V' EP]; subst; [|apply fv_in in V'; revert V'; generalize (show_dec k ++ " bytes, got " ++ show_dec n)%string; other].
      change "26 data"%string with (show_dec 26 ++ " data")%string in EW. apply dec_stop in EW as [_ EW]. discriminate.
    + eapply (T 10%nat (fun d => tl (ee_checks d))); [intros; cbn; auto 12 | reflexivity | other].
    + eapply (T 19%nat (fun d => tl (ic_checks d))); [intros; cbn; auto 12 | reflexivity | other].
    + exfalso. inversion V as [P w l NP EP EW | P o l w HP V' EP]; subst. apply fv_in in V'. revert V'. generalize (show_dec k ++ " bytes, got " ++ show_dec n)%string. other.
    + eapply (T 5%nat (fun d => tl (sdq_checks d))); [intros; cbn; auto 12 | reflexivity | other].
    + congruence.
    + eapply (T 3%nat (fun d => tl (task_checks d))); [intros; cbn; auto 12 | reflexivity | other].
    + eapply (T 3%nat (fun d => tl (task_checks d))); [intros; cbn; auto 12 | reflexivity | other].
    + exfalso. inversion V as [P w l NP EP EW | P o l w HP V' EP]; subst. apply fv_in in V'. revert V'. generalize (show_dec k ++ " bytes, got " ++ show_dec n)%string. other.
    + eapply (T 4%nat (fun d => tl (zc_checks d))); [intros; cbn; auto 12 | reflexivity | other].
    + eapply (T 208%nat (fun d => tl (zs_checks d))); [intros; cbn; auto 12 | reflexivity|]. intros t HI. unfold zs_checks in HI. cbn [tl] in HI. rewrite map_map in HI. apply in_map_iff in HI as (i & HI & _). discriminate.
Qed.
(* Without the exception of SD it is false: 20 bytes of data are refused for being fewer than 5 (msg.rs:1420). *)
Theorem C82_sd_length_text_refuted : exists cmd data k n, length cmd = 2%nat /\
  parse (PAscii (cmd ++ data)) = Err ("expected at least " ++ show_dec k ++ " bytes, got " ++ show_dec n) /\ ~ n < k.
Proof. exists (B "SD"), (B "00001Front Door   00"), 5, 20. split; [reflexivity|]. split; [reflexivity | lia]. Qed.
(* A number of three digits is called a number below 255 when refused, but 255 is accepted (msg.rs:21-30). *)
Theorem C82_range_text_refuted : exists bad good w m,
  parse (PAscii bad) = Err ("timer1 expected to be decimal in [0, 255); got " ++ w) /\
  parse (PAscii good) = Ok (Some (MSendTimeData m)) /\ ~ ee_timer1 m < 255.
Proof.
  exists (B "EE10256000100"), (B "EE10255000100"), "[50, 53, 54]"%string. eexists. split; [reflexivity|]. split; [reflexivity|]. cbn. lia.
Qed.

(* ------------------------------------------------------------------ cases *)
Example C81_checksum_example :
  decode (B "06as0000" ++ [13; 10; 7]) = Ok (Some (PInvalid (B "06as0000" ++ [13; 10]) "ASCII packet doesn't have expected checksum 66"), [7]) /\
  decode (B "06as0066" ++ [13; 10; 7]) = Ok (Some (PAscii (B "as00")), [7]).
Proof. split; reflexivity. Qed.
Example C81_others_example :
  decode (B "06as006612") = Ok (Some (PInvalid (B "06as006612") "ASCII packet must end with CRLF"), []) /\
  decode (B "03a66" ++ [13; 10]) = Ok (Some (PInvalid (B "03a66" ++ [13; 10]) "ASCII packet too short"), []) /\
  decode (B "06as00xy" ++ [13; 10]) = Ok (Some (PInvalid (B "06as00xy" ++ [13; 10]) "ASCII packet has unparseable checksum"), []) /\
  decode (B "06a" ++ [7] ++ B "00D2" ++ [13; 10]) = Ok (Some (PInvalid (B "06a" ++ [7] ++ B "00D2" ++ [13; 10]) "non-printable character at index 1"), []) /\
  decode [16; 2; 1; 2; 16; 3; 0; 0; 9] = Ok (Some (PInvalid [16; 2; 1; 2; 16; 3; 0; 0] "RP packet doesn't have expected CRC 1373"), [9]) /\
  decode [16; 2; 1; 2; 16; 3; 19; 115; 9] = Ok (Some (PRp [1; 2]), [9]) /\
  decode [16; 2; 1; 2; 16; 7; 0; 0; 9] = Ok (Some (PInvalid [16; 2; 1; 2; 16] "RP packet has bad sequence DTS 07"), [7; 0; 0; 9]).
Proof. repeat split; reflexivity. Qed.
Example C81_try_from_example :
  ascii_try_from (B "a" ++ [7]) = Err "non-printable character at index 1" /\
  ascii_try_from (B "a") = Err ("ASCII packet body length 1 not in [2, 253]." ++ String (ascii_of_N 10) "body:" ++ String (ascii_of_N 10) """a""") /\
  rp_try_from (repeat 16 510) = Err "510-byte body that requires 510 escapes exceeds maximum framed length 1024".
Proof. repeat split; vm_compute; reflexivity. Qed.
Example C82_example :
  parse (PAscii (B "ZC001")) = Err "expected at least 4 bytes, got 3" /\
  parse (PAscii (B "ZC001x00")) = Err "bad zone status 'x'" /\
  parse (PAscii (B "ZC209200")) = Err "209 not in expected t range of [1, 208]" /\
  parse (PAscii (B "ZC2x9200")) = Err "zone expected to be decimal in [0, 255); got [50, 120, 57]" /\
  parse (PAscii (B "EE90010000100")) = Err "expected area in [1, 8], got 57" /\
  parse (PAscii (B "EE1'010000100")) = Err "bad TimeDataType '\''" /\
  from_iso_8601 (B "2021-13-01T00:00:00") = Err "month 13 out of range" /\
  from_iso_8601 (B "2021-12-01 00:00:00") = Err "bad date-time separator".
Proof. repeat split; reflexivity. Qed.

Print Assumptions C81_reason_exact.
Print Assumptions C81_checksum_cures.
Print Assumptions C81_crc_cures.
Print Assumptions C81_try_from_reasons.
Print Assumptions C82_malformed_exact.
Print Assumptions C82_one_reason.
Print Assumptions C82_iso_exact.
Print Assumptions C82_prints.
Print Assumptions C82_lengths_true_partial.
Print Assumptions C82_sd_length_text_refuted.
Print Assumptions C82_range_text_refuted.
