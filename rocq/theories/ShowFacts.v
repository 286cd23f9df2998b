(* ShowFacts.v: lemmas about the texts of errors (Base.v). *)
From Verif Require Import Base BaseFacts SpecPkt SpecMsg DecFacts WireFacts.
From Coq Require Import ZifyBool ZifyNat ZifyN.
Ltac Zify.zify_post_hook ::= Z.div_mod_to_equations.

(* ---- strings and their bytes ---- *)
Lemma bytes_string s : u8s s -> bytes_of_string (string_of_bytes s) = s.
Proof.
  intros U. unfold bytes_of_string, string_of_bytes. rewrite list_ascii_of_string_of_list_ascii, map_map.
  induction U as [|c s H _ IH]; [reflexivity|]. cbn [map]. rewrite N_ascii_embedding by exact H. rewrite IH. reflexivity.
Qed.
Lemma bytes_append a b : bytes_of_string (a ++ b)%string = bytes_of_string a ++ bytes_of_string b.
Proof. unfold bytes_of_string. induction a as [|c a IH]; [reflexivity|]. cbn [String.append list_ascii_of_string map app]. rewrite IH. reflexivity. Qed.
Lemma append_bytes a b : string_of_bytes (a ++ b) = (string_of_bytes a ++ string_of_bytes b)%string.
Proof. unfold string_of_bytes. induction a as [|c a IH]; [reflexivity|]. cbn [map app string_of_list_ascii String.append]. rewrite IH. reflexivity. Qed.

(* ---- UTF-8 ---- *)
Lemma utf8_app_n n : forall a b, (length a <= n)%nat -> utf8_valid a = true -> utf8_valid b = true -> utf8_valid (a ++ b) = true.
Proof.
  induction n as [|n IH]; intros a b L A Bv; (destruct a as [|x a]; [exact Bv|]); cbn [length] in L; [lia|].
  cbn [app utf8_valid] in A |- *. destruct (x <? 128); [apply IH; [lia | exact A | exact Bv]|].
  destruct a as [|y a]; [discriminate|]. cbn [app length] in *. destruct (between 194 223 x).
  { apply andb_prop in A as [-> A]. cbn [andb]. apply IH; [lia | exact A | exact Bv]. }
  destruct a as [|z a]; [discriminate|]. cbn [app length] in *.
  destruct (x =? 224); [apply andb_prop in A as [-> A]; apply IH; [lia | exact A | exact Bv]|].
  destruct (between 225 236 x || between 238 239 x)%bool; [apply andb_prop in A as [-> A]; apply IH; [lia | exact A | exact Bv]|].
  destruct (x =? 237); [apply andb_prop in A as [-> A]; apply IH; [lia | exact A | exact Bv]|].
  destruct a as [|u a]; [discriminate|]. cbn [app length] in *.
  destruct (x =? 240); [apply andb_prop in A as [-> A]; apply IH; [lia | exact A | exact Bv]|].
  destruct (between 241 243 x); [apply andb_prop in A as [-> A]; apply IH; [lia | exact A | exact Bv]|].
  destruct (x =? 244); [apply andb_prop in A as [-> A]; apply IH; [lia | exact A | exact Bv]|]. discriminate.
Qed.
Lemma utf8_app a b : utf8_valid a = true -> utf8_valid b = true -> utf8_valid (a ++ b) = true.
Proof. apply (utf8_app_n (length a)). lia. Qed.
Lemma printable_u8s s : Forall printable s -> u8s s.
Proof. apply Forall_impl. unfold printable. lia. Qed.
Lemma printable_string s : Forall printable s -> utf8_valid (bytes_of_string (string_of_bytes s)) = true.
Proof. intros H. rewrite bytes_string by (apply printable_u8s; exact H). apply utf8_printable. exact H. Qed.
Definition text (s : string) : Prop := utf8_valid (bytes_of_string s) = true.
Lemma text_append a b : text a -> text b -> text (a ++ b).
Proof. unfold text. rewrite bytes_append. apply utf8_app. Qed.
Lemma text_dec n : text (show_dec n).
Proof. apply printable_string, printable_digits, fmt_dec_spec. Qed.
Lemma text_len {A} (s : list A) : text (show_len s).
Proof. apply text_dec. Qed.
Lemma hex_upper_printable d : d < 16 -> printable (hex_upper d).
Proof. intros H. unfold printable, hex_upper. change (ch "0") with 48. change (ch "A") with 65. destruct (N.ltb_spec d 10); lia. Qed.
Lemma hex_digits_printable fuel : forall n, Forall printable (hex_digits fuel n).
Proof.
  induction fuel as [|f IH]; intros n; cbn [hex_digits]; [constructor|]. apply Forall_app. split; [destruct (n <? 16); [constructor | apply IH]|].
  apply printable_1, hex_upper_printable. lia.
Qed.
Lemma text_hex2 n : text (show_hex2 n).
Proof.
  apply printable_string. apply Forall_app. split; [|apply hex_digits_printable]. apply Forall_forall. intros c H. apply repeat_spec in H as ->. unfold printable. lia.
Qed.
Lemma text_slice s : text (show_slice s).
Proof.
  unfold show_slice. apply text_append; [reflexivity|]. apply text_append; [|reflexivity].
  induction s as [|c s IH]; [reflexivity|]. cbn [map String.concat]. destruct (map show_dec s) eqn:E; [apply text_dec|].
  apply text_append; [apply text_dec|]. apply text_append; [reflexivity | exact IH].
Qed.
Lemma escape_char_text q c : printable q -> u8s (escape_char q c) /\ utf8_valid (escape_char q c) = true.
Proof.
  intros Hq. unfold printable in Hq. assert (P : forall s, Forall printable s -> u8s s /\ utf8_valid s = true) by (intros s H; split; [apply printable_u8s | apply utf8_printable]; exact H).
  assert (D : forall d, d < 16 -> printable (if d <? 10 then ch "0" + d else ch "a" + (d - 10))).
  { intros d H. unfold printable. change (ch "0") with 48. change (ch "a") with 97. destruct (N.ltb_spec d 10); lia. }
  unfold escape_char. destruct (c =? 0); [apply P; repeat constructor; unfold printable; cbn; lia|].
  destruct (c =? 9); [apply P; repeat constructor; cbn; lia|]. destruct (c =? 10); [apply P; repeat constructor; cbn; lia|]. destruct (c =? 13); [apply P; repeat constructor; cbn; lia|].
  destruct (N.eqb_spec c q) as [-> |_]; [apply P; repeat constructor; cbn; lia|]. destruct (c =? _); [apply P; repeat constructor; cbn; lia|].
  destruct ((32 <=? c) && (c <=? 126))%bool eqn:E; [apply P; repeat constructor; lia|].
  destruct ((c <? 161) || (c =? 173))%bool eqn:E2.
  - apply P. apply Forall_app. split; [repeat constructor; cbn; lia|]. apply Forall_app. split; [destruct (c <? 16); [constructor | apply printable_1, D; lia]|].
    apply Forall_app. split; [apply printable_1, D; lia | repeat constructor; cbn; lia].
  - split; [repeat constructor; lia|]. cbn [utf8_valid]. replace (194 + c / 64 mod 2 <? 128) with false by lia.
    unfold between, is_cont. unfold between. replace ((194 <=? 194 + c / 64 mod 2) && (194 + c / 64 mod 2 <=? 223))%bool with true by lia. lia.
Qed.
Lemma text_char c : text (show_char c).
Proof.
  unfold text, show_char. destruct (escape_char_text 39 c) as [U V]; [unfold printable; lia|].
  rewrite bytes_string by (repeat (apply Forall_app; split); [repeat constructor; lia | exact U | repeat constructor; lia]).
  apply utf8_app; [reflexivity|]. apply utf8_app; [exact V | reflexivity].
Qed.
Lemma text_str s : text (show_str s).
Proof.
  unfold text, show_str. assert (X : u8s (flat_map (escape_char 34) s) /\ utf8_valid (flat_map (escape_char 34) s) = true).
  { induction s as [|c s [U V]]; [split; [constructor | reflexivity]|]. cbn [flat_map]. destruct (escape_char_text 34 c) as [U1 V1]; [unfold printable; lia|].
    split; [apply Forall_app; auto | apply utf8_app; assumption]. }
  destruct X as [U V]. rewrite bytes_string by (apply Forall_cons; [lia|]; apply Forall_app; split; [exact U | repeat constructor; lia]).
  apply utf8_app; [reflexivity|]. apply utf8_app; [exact V | reflexivity].
Qed.
