(* PropLiteral.v: C121: bytes and texts in errors and in the log are shown as Rust literals. *)
From Verif Require Import Base BaseFacts Pkt SpecPkt PktFacts DecodeFacts Msg SpecMsg DecFacts MsgFacts WireFacts IsoFacts FmtMsg Layout ShowFacts SpecReason ReasonFacts PropReason SpecJson SpecLiteral.
From Coq Require Import ZifyBool ZifyNat ZifyN.
Ltac Zify.zify_post_hook ::= Z.div_mod_to_equations.

Lemma hex_lower d : d < 16 -> hex_digit (if d <? 10 then ch "0" + d else ch "a" + (d - 10)) d.
Proof.
  intros H. unfold hex_digit, digit. change (ch "0") with 48. change (ch "9") with 57. change (ch "a") with 97. change (ch "f") with 102. destruct (N.ltb_spec d 10); [left | right; right]; lia.
Qed.
Lemma escape_spells q c : q = ch "'" \/ q = ch """" -> c < 256 -> spells q c (escape_char q c) /\ on_a_line (escape_char q c).
Proof.
  intros Q L. unfold escape_char.
  assert (E : forall k, In (k, c) literal_escapes -> 32 <= k <= 126 -> spells q c [ch "\"; k] /\ on_a_line [ch "\"; k]).
  { intros k H K. split; [apply sp_escape; exact H|]. change (ch "\") with 92. repeat constructor; lia. }
  destruct (N.eqb_spec c 0) as [->|N0]; [apply (E (ch "0")); [cbn [literal_escapes In]; tauto | cbn; lia]|].
  destruct (N.eqb_spec c 9) as [->|N1]; [apply (E (ch "t")); [cbn [literal_escapes In]; tauto | cbn; lia]|].
  destruct (N.eqb_spec c 10) as [->|N2]; [apply (E (ch "n")); [cbn [literal_escapes In]; tauto | cbn; lia]|].
  destruct (N.eqb_spec c 13) as [->|N3]; [apply (E (ch "r")); [cbn [literal_escapes In]; tauto | cbn; lia]|].
  destruct (N.eqb_spec c q) as [->|N4]; [apply (E q); [destruct Q as [-> | ->]; cbn [literal_escapes In]; tauto | destruct Q as [-> | ->]; cbn; lia]|].
  destruct (N.eqb_spec c (ch "\")) as [->|N5]; [apply (E (ch "\")); [cbn [literal_escapes In]; tauto | cbn; lia]|].
  assert (NI : ~ In c [q; ch "\"; 9; 10; 13]) by (cbn [In]; intuition congruence).
  destruct ((32 <=? c) && (c <=? 126)) eqn:E1; [split; [apply sp_itself; [exact NI | apply uf1; lia] | repeat constructor; lia]|].
  assert (H1 := hex_lower (c / 16 mod 16) ltac:(lia)). assert (H2 := hex_lower (c mod 16) ltac:(lia)). cbv zeta.
  assert (P : forall d, d < 16 -> 32 <= (if d <? 10 then ch "0" + d else ch "a" + (d - 10)) /\ (if d <? 10 then ch "0" + d else ch "a" + (d - 10)) <> 127).
  { intros d Hd. change (ch "0") with 48. change (ch "a") with 97. destruct (N.ltb_spec d 10); lia. }
  assert (P1 := P (c / 16 mod 16) ltac:(lia)). assert (P2 := P (c mod 16) ltac:(lia)).
  destruct ((c <? 161) || (c =? 173)) eqn:E2.
  - destruct (N.ltb_spec c 16) as [S|S]; cbn [app].
    + split; [apply (sp_unicode q c [_] [c mod 16]); [constructor; [exact H2 | constructor] | cbn; lia | unfold hex_number; cbn [fold_left]; lia]|].
      repeat (apply Forall_cons; [first [exact P2 | cbn; lia]|]); constructor.
    + split; [apply (sp_unicode q c [_; _] [c / 16 mod 16; c mod 16]); [constructor; [exact H1 | constructor; [exact H2 | constructor]] | cbn; lia | unfold hex_number; cbn [fold_left]; lia]|].
      repeat (apply Forall_cons; [first [exact P1 | exact P2 | cbn; lia]|]); constructor.
  - split; [apply sp_itself; [exact NI|]|repeat constructor; lia]. replace (194 + c / 64 mod 2) with (192 + (2 + c / 64 mod 2)) by lia. apply uf2; lia.
Qed.
Lemma u8_line q c : q = ch "'" \/ q = ch """" -> u8s (escape_char q c).
Proof. intros Q. apply escape_char_text. unfold printable. destruct Q as [-> | ->]; cbn; lia. Qed.
Lemma shown_char c : c < 256 -> exists t, show_char c = string_of_bytes t /\ char_literal c t /\ on_a_line t /\ u8s t.
Proof.
  intros L. destruct (escape_spells (ch "'") c (or_introl eq_refl) L) as [S O]. eexists. split; [reflexivity|]. split; [eexists; split; [exact S | reflexivity]|].
  split; repeat (apply Forall_app; split); try exact O; try apply u8_line; auto; repeat constructor; cbn; lia.
Qed.
Lemma quoted_literal s : u8s s -> string_literal s (quoted s) /\ on_a_line (quoted s) /\ u8s (quoted s).
Proof.
  intros U. assert (X : exists xs, Forall2 (spells (ch """")) s xs /\ flat_map (escape_char (ch """")) s = concat xs /\ on_a_line (concat xs) /\ u8s (concat xs)).
  { induction U as [|c s L U (xs & F & E & O & V)]; [exists []; repeat split; constructor|]. destruct (escape_spells (ch """") c (or_intror eq_refl) ltac:(lia)) as [S1 O1].
    exists (escape_char (ch """") c :: xs). cbn [flat_map concat]. rewrite E. split; [constructor; assumption|]. split; [reflexivity|]. split; apply Forall_app; split; auto. apply u8_line. auto. }
  destruct X as (xs & F & E & O & V). unfold quoted. rewrite E. split; [exists xs; auto|]. split; repeat (apply Forall_app; split); auto; repeat constructor; cbn; lia.
Qed.

(* A literal stands for one character: it cannot be read in two ways. *)
Lemma utf8_start c t : utf8_form c t -> exists b r, t = b :: r /\ (b < 128 -> b = c /\ r = []).
Proof. intros [H|a b H E Hb|a b d H E Hb Hd|a b d e H E Hb Hd He]; eexists _, _; (split; [reflexivity|]); intros; try lia. auto. Qed.
Lemma cons_eq (x y : N) l l' : x :: l = y :: l' -> x = y /\ l = l'.
Proof. intros E. injection E as -> ->. auto. Qed.
Lemma utf8_prefix c t c' t' r r' : utf8_form c t -> utf8_form c' t' -> t ++ r = t' ++ r' -> c = c' /\ t = t'.
Proof.
  intros [H|a b H E Hb|a b d H E Hb Hd|a b d e H E Hb Hd He] [H'|a' b' H' E' Hb'|a' b' d' H' E' Hb' Hd'|a' b' d' e' H' E' Hb' Hd' He'] X; cbn [app] in X;
    repeat (apply cons_eq in X as [? X]); try lia.
  - subst. auto.
  - assert (a = a') by lia. assert (b = b') by lia. subst. auto.
  - assert (a = a') by lia. assert (b = b') by lia. assert (d = d') by lia. subst. auto.
  - assert (a = a') by lia. assert (b = b') by lia. assert (d = d') by lia. assert (e = e') by lia. subst. auto.
Qed.
Lemma hex_digit_fun c v v' : hex_digit c v -> hex_digit c v' -> v = v'.
Proof. unfold hex_digit, digit. change (ch "0") with 48. change (ch "9") with 57. change (ch "a") with 97. change (ch "f") with 102. change (ch "A") with 65. change (ch "F") with 70. lia. Qed.
Lemma hex_digits_end hs vs : Forall2 hex_digit hs vs -> forall hs' vs' r r', Forall2 hex_digit hs' vs' -> hs ++ B "}" ++ r = hs' ++ B "}" ++ r' -> hs = hs' /\ vs = vs'.
Proof.
  assert (NB : forall v, ~ hex_digit 125 v) by (unfold hex_digit, digit; change (ch "0") with 48; change (ch "9") with 57; change (ch "a") with 97; change (ch "f") with 102; change (ch "A") with 65; change (ch "F") with 70; lia).
  induction 1 as [|h v hs vs H F IH]; intros hs' vs' r r' F' E; destruct F' as [|h' v' hs' vs' H' F']; auto.
  - injection E as <- _. elim (NB _ H').
  - injection E as -> _. elim (NB _ H).
  - injection E as <- E. destruct (IH _ _ _ _ F' E) as [-> ->]. rewrite (hex_digit_fun _ _ _ H H'). auto.
Qed.
Lemma escapes_fun k c c' : In (k, c) literal_escapes -> In (k, c') literal_escapes -> c = c'.
Proof. cbn. intuition congruence. Qed.
Lemma no_u k c : In (k, c) literal_escapes -> k <> 117.
Proof. cbn. intuition congruence. Qed.
Lemma spells_prefix q c t c' t' r r' : spells q c t -> spells q c' t' -> t ++ r = t' ++ r' -> c = c' /\ t = t'.
Proof.
  assert (R : forall c t k, ~ In c [q; ch "\"; 9; 10; 13] -> utf8_form c t -> forall r r', t ++ r = ch "\" :: k ++ r' -> False).
  { intros x t0 k N U s s' E. destruct (utf8_start _ _ U) as (b & u & -> & Hb). cbn [app] in E. apply cons_eq in E as [Eb _]. destruct (Hb ltac:(rewrite Eb; reflexivity)) as [Ec _]. apply N. right. left. congruence. }
  intros [t1 N U|k I|hs vs F L E] [t2 N' U'|k' I'|hs' vs' F' L' E'] X.
  - eapply utf8_prefix; eauto.
  - exfalso. apply (R c t1 [k'] N U r r'). exact X.
  - exfalso. eapply (R c t1 _ N U r). rewrite X. reflexivity.
  - exfalso. apply (R c' t2 [k] N' U' r' r). symmetry. exact X.
  - injection X as -> _. split; [eapply escapes_fun; eauto | reflexivity].
  - exfalso. injection X as -> _. eapply no_u; eauto.
  - exfalso. eapply (R c' t2 _ N' U' r'). rewrite <- X. reflexivity.
  - exfalso. injection X as <- _. eapply no_u; [exact I' | reflexivity].
  - rewrite <- !app_assoc in X. do 3 (apply cons_eq in X as [_ X]). destruct (hex_digits_end _ _ F _ _ _ _ F' X) as [-> ->]. subst. auto.
Qed.

Theorem C121_one_reading : (forall c c' t r r', char_literal c t -> forall t', char_literal c' t' -> t ++ r = t' ++ r' -> c = c' /\ t = t') /\
  (forall cs cs' t t' r r', string_literal cs t -> string_literal cs' t' -> t ++ r = t' ++ r' -> cs = cs' /\ t = t').
Proof.
  split.
  - intros c c' t r r' (x & S & ->) t' (x' & S' & ->) E. cbn [app] in E. apply cons_eq in E as [_ E]. rewrite <- !app_assoc in E. destruct (spells_prefix _ _ _ _ _ _ _ S S' E) as [-> ->]. auto.
  - assert (NQ : forall c t, spells (ch """") c t -> exists b u, t = b :: u /\ b <> ch """").
    { intros c t [t0 N U|k I|hs vs F L E]; [|eexists _, _; split; [reflexivity | discriminate]|eexists _, _; split; [reflexivity | discriminate]].
      destruct (utf8_start _ _ U) as (b & u & -> & Hb). exists b, u. split; [reflexivity|]. intros ->. destruct (Hb ltac:(reflexivity)) as [Ec _]. apply N. left. congruence. }
    intros cs cs' t t' r r' (xs & F & ->) (xs' & F' & ->) E. cbn [app] in E. apply cons_eq in E as [_ E]. rewrite <- !app_assoc in E.
    assert (X : cs = cs' /\ xs = xs'); [|destruct X as [-> ->]; auto]. revert cs' xs' F' E. induction F as [|c x cs xs S F IH]; intros cs' xs' F' E; destruct F' as [|c' x' cs' xs' S' F']; auto.
    + exfalso. destruct (NQ _ _ S') as (b & u & -> & N). cbn [concat app] in E. apply cons_eq in E as [E _]. congruence.
    + exfalso. destruct (NQ _ _ S) as (b & u & -> & N). cbn [concat app] in E. apply cons_eq in E as [E _]. congruence.
    + cbn [concat] in E. rewrite <- !app_assoc in E. destruct (spells_prefix _ _ _ _ _ _ _ S S' E) as [-> ->]. apply app_inv_head in E. destruct (IH _ _ F' E) as [-> ->]. auto.
Qed.
(* A byte that is no value of the type is shown in the error as the literal of the character, whatever byte it is. *)
Definition bad_byte {A : Type} (name : string) (f : N -> res A) : Prop := forall b, b < 256 ->
  (exists v, f b = Ok v) \/ exists t, f b = Err ("bad " ++ name ++ " " ++ string_of_bytes t)%string /\ char_literal b t /\ on_a_line t.
Theorem C121_bad_bytes : bad_byte "ArmLevel" ArmLevel_try_from /\ bad_byte "TimeDataType" TimeDataType_try_from /\ bad_byte "ArmedState" ArmedState_try_from /\
  bad_byte "Weekday" Weekday_try_from /\ bad_byte "ClockDisplayMode" ClockDisplayMode_try_from /\ bad_byte "DateDisplayMode" DateDisplayMode_try_from /\
  bad_byte "ArmingStatus" ArmingStatus_try_from /\ bad_byte "ArmUpState" ArmUpState_try_from /\ bad_byte "AlarmState" AlarmState_try_from.
Proof.
  repeat split; intros b L; destruct (shown_char b L) as (t & ET & C & O & _);
    unfold ArmLevel_try_from, TimeDataType_try_from, ArmedState_try_from, Weekday_try_from, ClockDisplayMode_try_from, DateDisplayMode_try_from, ArmingStatus_try_from, ArmUpState_try_from, AlarmState_try_from;
    rewrite ET; repeat (destruct (b =? _); [left; eexists; reflexivity|]); right; exists t; split; try reflexivity; auto.
Qed.
(* A text of printable characters that is too short or too long for a packet is quoted in the error. *)
Theorem C121_bad_text : forall s why, Forall printable s -> ascii_try_from s = Err why ->
  exists n t, numeral (N.of_nat (length s)) n /\ why = ("ASCII packet body length " ++ string_of_bytes n ++ " not in [2, 253]." ++ string_of_bytes [10] ++ "body:" ++ string_of_bytes [10] ++ string_of_bytes t)%string /\
    string_literal s t /\ on_a_line t.
Proof.
  intros s why P E. apply (proj1 (C81_try_from_reasons s)) in E as [(x & b & y & -> & _ & NP & _)|(_ & _ & ->)]; [rewrite Forall_app in P; destruct P as [_ P]; inversion P; contradiction|].
  exists (fmt_dec (N.of_nat (length s))), (quoted s). split; [apply numeral_shown; reflexivity|]. split; [reflexivity|]. destruct (quoted_literal s) as (H & O & _); [|auto].
  revert P. apply Forall_impl. unfold printable. intros; lia.
Qed.
(* In the log, ASCII packets, names and codes are quoted: as is every text in Debug. *)
Theorem C121_logged_text : forall hex l s, u8s s -> string_literal s (dbg_text hex l (DStr s)) /\ on_a_line (dbg_text hex l (DStr s)).
Proof. intros hex l s U. cbn [dbg_text]. destruct (quoted_literal s U) as (H & O & _). auto. Qed.

Example C121_example :
  ArmLevel_try_from 0 = Err "bad ArmLevel '\0'"%string /\ ArmLevel_try_from 39 = Err "bad ArmLevel '\''"%string /\ ArmLevel_try_from 34 = Err "bad ArmLevel '""'"%string /\
  ArmLevel_try_from 27 = Err "bad ArmLevel '\u{1b}'"%string /\ (exists v, ArmLevel_try_from 49 = Ok v) /\
  Forall printable (B "'") /\ (exists why, ascii_try_from (B "'") = Err why) /\
  dbg_text (fun x => x) None (AsciiPacket_dbg (B "a""\'")) = B "AsciiPacket(""a\""\\'"")" /\
  spells (ch "'") 233 [195; 169] /\ spells (ch "'") 233 (B "\u{e9}").
Proof.
  repeat (split; [first [reflexivity | eexists; reflexivity | repeat constructor; cbn; lia]|]). split.
  - apply sp_itself; [cbn; intuition discriminate | apply (uf2 233 3 41); lia].
  - apply (sp_unicode (ch "'") 233 (B "e9") [14; 9]); [|cbn; lia | reflexivity].
    constructor; [right; right; cbn; lia|]. constructor; [left; unfold digit; cbn; lia | constructor].
Qed.

Print Assumptions C121_one_reading.
Print Assumptions C121_bad_bytes.
Print Assumptions C121_bad_text.
Print Assumptions C121_logged_text.
