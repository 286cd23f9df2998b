(* PropUnsafe.v: C122: the one unchecked conversion in the library (pkt.rs:291) only ever makes text of text. *)
From Verif Require Import Base BaseFacts Pkt SpecPkt PktFacts DecodeFacts Msg SpecMsg DecFacts MsgFacts ShowFacts SpecJson SpecUtf8 PropLiteral.
From Coq Require Import ZifyBool ZifyNat ZifyN.
Ltac Zify.zify_post_hook ::= Z.div_mod_to_equations.

Lemma text_nil : is_text [].
Proof. exists [], []. repeat split; constructor. Qed.
Lemma text_cons c t s : utf8_form c t -> scalar c -> is_text s -> is_text (t ++ s).
Proof. intros U S (cs & ts & F & G & ->). exists (c :: cs), (t :: ts). repeat split; try constructor; auto. Qed.

Lemma valid_text n : forall s, (length s <= n)%nat -> utf8_valid s = true -> is_text s.
Proof.
  induction n as [|n IH]; intros [|a s1] L V; try apply text_nil; cbn [length] in L; try lia.
  cbn [utf8_valid] in V. unfold is_cont, between in V.
  destruct (a <? 128) eqn:E1; [apply (text_cons a [a]); [apply uf1; lia | left; lia | apply IH; [lia | exact V]]|].
  destruct s1 as [|b s2]; [discriminate V|]. cbn [length] in L.
  destruct ((194 <=? a) && (a <=? 223)) eqn:E2.
  { apply andb_prop in V as [V1 V]. apply (text_cons ((a - 192) * 64 + (b - 128)) [a; b]); [|left; lia | apply IH; [lia | exact V]].
    replace [a; b] with [192 + (a - 192); 128 + (b - 128)] by (repeat f_equal; lia). apply uf2; lia. }
  destruct s2 as [|c s3]; [discriminate V|]. cbn [length] in L.
  assert (T3 : 224 <= a <= 239 -> 128 <= b <= 191 -> 128 <= c <= 191 -> (a = 224 -> 160 <= b) -> (a = 237 -> b <= 159) -> utf8_valid s3 = true -> is_text (a :: b :: c :: s3)).
  { intros A Bb Cc O1 O2 V3. apply (text_cons ((a - 224) * 4096 + (b - 128) * 64 + (c - 128)) [a; b; c]); [|unfold scalar; lia | apply IH; [lia | exact V3]].
    replace [a; b; c] with [224 + (a - 224); 128 + (b - 128); 128 + (c - 128)] by (repeat f_equal; lia). apply uf3; lia. }
  destruct (a =? 224) eqn:E3; [apply andb_prop in V as [V1 V]; apply T3; try exact V; lia|].
  destruct (((225 <=? a) && (a <=? 236)) || ((238 <=? a) && (a <=? 239))) eqn:E4; [apply andb_prop in V as [V1 V]; apply T3; try exact V; lia|].
  destruct (a =? 237) eqn:E5; [apply andb_prop in V as [V1 V]; apply T3; try exact V; lia|].
  destruct s3 as [|d s4]; [discriminate V|]. cbn [length] in L.
  assert (T4 : 240 <= a <= 244 -> 128 <= b <= 191 -> 128 <= c <= 191 -> 128 <= d <= 191 -> (a = 240 -> 144 <= b) -> (a = 244 -> b <= 143) -> utf8_valid s4 = true -> is_text (a :: b :: c :: d :: s4)).
  { intros A Bb Cc Dd O1 O2 V4. apply (text_cons ((a - 240) * 262144 + (b - 128) * 4096 + (c - 128) * 64 + (d - 128)) [a; b; c; d]); [|unfold scalar; lia | apply IH; [lia | exact V4]].
    replace [a; b; c; d] with [240 + (a - 240); 128 + (b - 128); 128 + (c - 128); 128 + (d - 128)] by (repeat f_equal; lia). apply uf4; lia. }
  destruct (a =? 240) eqn:E6; [apply andb_prop in V as [V1 V]; apply T4; try exact V; lia|].
  destruct ((241 <=? a) && (a <=? 243)) eqn:E7; [apply andb_prop in V as [V1 V]; apply T4; try exact V; lia|].
  destruct (a =? 244) eqn:E8; [apply andb_prop in V as [V1 V]; apply T4; try exact V; lia | discriminate V].
Qed.
Lemma form_valid c t s : utf8_form c t -> scalar c -> utf8_valid (t ++ s) = utf8_valid s.
Proof.
  unfold scalar. intros [H|a b H E Hb|a b d H E Hb Hd|a b d e H E Hb Hd He] S; cbn [app utf8_valid]; unfold is_cont, between.
  - replace (c <? 128) with true by lia. reflexivity.
  - replace (192 + a <? 128) with false by lia. replace ((194 <=? 192 + a) && (192 + a <=? 223)) with true by lia. replace ((128 <=? 128 + b) && (128 + b <=? 191)) with true by lia. reflexivity.
  - replace (224 + a <? 128) with false by lia. replace ((194 <=? 224 + a) && (224 + a <=? 223)) with false by lia.
    replace ((128 <=? 128 + d) && (128 + d <=? 191)) with true by lia.
    destruct (224 + a =? 224) eqn:E1; [replace ((160 <=? 128 + b) && (128 + b <=? 191)) with true by lia; reflexivity|].
    destruct (((225 <=? 224 + a) && (224 + a <=? 236)) || ((238 <=? 224 + a) && (224 + a <=? 239))) eqn:E2; [replace ((128 <=? 128 + b) && (128 + b <=? 191)) with true by lia; reflexivity|].
    replace (224 + a =? 237) with true by lia. replace ((128 <=? 128 + b) && (128 + b <=? 159)) with true by lia. reflexivity.
  - replace (240 + a <? 128) with false by lia. replace ((194 <=? 240 + a) && (240 + a <=? 223)) with false by lia. replace (240 + a =? 224) with false by lia.
    replace (((225 <=? 240 + a) && (240 + a <=? 236)) || ((238 <=? 240 + a) && (240 + a <=? 239))) with false by lia. replace (240 + a =? 237) with false by lia.
    replace ((128 <=? 128 + d) && (128 + d <=? 191)) with true by lia. replace ((128 <=? 128 + e) && (128 + e <=? 191)) with true by lia.
    destruct (240 + a =? 240) eqn:E1; [replace ((144 <=? 128 + b) && (128 + b <=? 191)) with true by lia; reflexivity|].
    destruct ((241 <=? 240 + a) && (240 + a <=? 243)) eqn:E2; [replace ((128 <=? 128 + b) && (128 + b <=? 191)) with true by lia; reflexivity|].
    replace (240 + a =? 244) with true by lia. replace ((128 <=? 128 + b) && (128 + b <=? 143)) with true by lia. reflexivity.
Qed.

(* The checked conversion (msg.rs:30, 406, 1330, main.rs:302) accepts exactly the texts, and a text has one reading. *)
Theorem C122_checked_is_exact s :
  (utf8_valid s = true <-> is_text s) /\ (forall cs cs', text_of cs s -> text_of cs' s -> cs = cs').
Proof.
  split; [split|].
  - apply (valid_text (length s)). lia.
  - intros (cs & ts & F & G & ->). revert G. induction F as [|c t cs ts U F IH]; intros G; [reflexivity|]. inversion G; subst. cbn [concat]. rewrite (form_valid c) by assumption. auto.
  - intros cs cs' (ts & F & _ & ->) (ts' & F' & _ & E). revert cs' ts' F' E. induction F as [|c t cs ts U F IH]; intros cs' ts' F' E; inversion F' as [|c' t' cs1 ts1 U' F1]; subst; cbn [concat] in E.
    + reflexivity.
    + destruct (utf8_start _ _ U') as (b & r & -> & _). discriminate E.
    + destruct (utf8_start _ _ U) as (b & r & -> & _). discriminate E.
    + destruct (utf8_prefix _ _ _ _ _ _ U U' E) as [-> ->]. f_equal. apply app_inv_head in E. eauto.
Qed.

Lemma printable_text s : Forall printable s -> text_of s s.
Proof.
  intros F. exists (map (fun b => [b]) s). induction F as [|b s P F (A & S & E)]; [repeat split; constructor|]. unfold printable in P.
  cbn [map concat app]. repeat split; [constructor; [apply uf1; lia | exact A] | constructor; [left; lia | exact S] | congruence].
Qed.
Lemma printable_cuts s : Forall printable s -> forall k, is_text (firstn k s) /\ is_text (skipn k s).
Proof. intros F k. rewrite <- (firstn_skipn k s) in F. apply Forall_app in F as [F1 F2]. split; eexists; apply printable_text; eassumption. Qed.

(* What check_printable lets through to the unchecked conversion is text, each byte of it one character: so it can also be cut anywhere. *)
Theorem C122_unchecked_is_sound s :
  check_printable s = Ok tt -> text_of s s /\ forall k, is_text (firstn k s) /\ is_text (skipn k s).
Proof. intros E. apply check_printable_spec in E. split; [apply printable_text | apply printable_cuts]; exact E. Qed.

Lemma printed m b : to_ascii m = Ok b -> ascii_body b.
Proof.
  assert (X : forall s w, expect (ascii_try_from s) w = Ok b -> ascii_body b).
  { intros s w H. destruct (ascii_try_from s) as [x| |] eqn:E; cbn [expect] in H; try discriminate H. injection H as ->.
    apply ascii_try_from_spec in E as [E ->]. exact E. }
  intros H. destruct m; cbn [to_ascii] in H;
    unfold ArmRequest_to_ascii, ArmingStatusRequest_to_ascii, ArmingStatusReport_to_ascii, SendTimeData_to_ascii, SendCode_to_ascii, RtcRequest_to_ascii, RtcResponse_to_ascii, SdReq_to_ascii, SdResp_to_ascii, ActivateTask_to_ascii, TaskChange_to_ascii, Heartbeat_to_ascii, ZoneChange_to_ascii, ZoneStatusRequest_to_ascii, ZoneStatusReport_to_ascii in H;
    try (apply X in H; exact H); apply bind_inv in H as (? & _ & H); apply X in H; exact H.
Qed.

(* So every ASCII packet holds text: one made from bytes, one decoded from the wire, and one made from a message, whatever its fields hold. *)
Theorem C122_packets_are_text :
  (forall s b, ascii_try_from s = Ok b -> b = s /\ text_of b b) /\
  (forall src b rest, u8s src -> decode src = Ok (Some (PAscii b), rest) -> text_of b b) /\
  (forall m b, to_pkt m = Ok (PAscii b) -> text_of b b).
Proof.
  split; [|split].
  - intros s b E. apply ascii_try_from_spec in E as [[F _] ->]. split; [reflexivity | apply printable_text; exact F].
  - intros src b rest U E. destruct (decode_some_inv _ _ _ U E) as (raw & _ & _ & _ & _ & F & _). apply printable_text. exact F.
  - intros m b E. unfold to_pkt in E. apply bind_inv in E as (b' & E & H). injection H as ->. apply printed in E as [F _]. apply printable_text. exact F.
Qed.

(* The check matters: bytes that it stops are not text, or are text that cannot be cut anywhere. *)
Example C122_example :
  (check_printable (B "XK~ ") = Ok tt /\ ascii_try_from (B "XK~ ") = Ok (B "XK~ ")) /\
  (text_of [ch "S"; 233] (B "S" ++ [195; 169]) /\ ~ is_text (firstn 2 (B "S" ++ [195; 169])) /\ check_printable (B "S" ++ [195; 169]) <> Ok tt) /\
  (~ is_text [237; 160; 128] /\ ~ is_text [192; 128]).
Proof.
  assert (N : forall s, utf8_valid s = false -> ~ is_text s) by (intros s E T; apply C122_checked_is_exact in T; congruence).
  split; [split; reflexivity|]. split; [|split; apply N; reflexivity]. split; [|split; [apply N; reflexivity | discriminate]].
  exists [[ch "S"]; [192 + 3; 128 + 41]]. split; [|split; [repeat constructor; cbn; lia | reflexivity]].
  constructor; [apply uf1; cbn; lia|]. constructor; [apply uf2; lia | constructor].
Qed.

Print Assumptions C122_checked_is_exact.
Print Assumptions C122_unchecked_is_sound.
Print Assumptions C122_packets_are_text.
Print Assumptions C122_example.
