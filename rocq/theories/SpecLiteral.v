(* SpecLiteral.v: character and string literals (The Rust Reference, "Tokens"), for C121. *)
From Verif Require Import Base SpecJson.

(* what can follow a backslash, and the character it stands for *)
Definition literal_escapes : list (N * N) :=
  [(ch "0", 0); (ch "t", 9); (ch "n", 10); (ch "r", 13); (ch "\", ch "\"); (ch "'", ch "'"); (ch """", ch """")].
(* the number that hexadecimal digits stand for *)
Definition hex_number (vs : list N) : N := fold_left (fun n v => 16 * n + v) vs 0.
(* between quotes q, the text t stands for the character with code point c *)
Inductive spells (q c : N) : bytes -> Prop :=
| sp_itself t : ~ In c [q; ch "\"; 9; 10; 13] -> utf8_form c t -> spells q c t
| sp_escape k : In (k, c) literal_escapes -> spells q c [ch "\"; k]
| sp_unicode hs vs : Forall2 hex_digit hs vs -> (1 <= length hs <= 6)%nat -> c = hex_number vs -> spells q c (B "\u{" ++ hs ++ B "}").
Definition char_literal (c : N) (t : bytes) : Prop := exists x, spells (ch "'") c x /\ t = [ch "'"] ++ x ++ [ch "'"].
Definition string_literal (cs : list N) (t : bytes) : Prop := exists xs, Forall2 (spells (ch """")) cs xs /\ t = [ch """"] ++ concat xs ++ [ch """"].
(* can be shown on a line: no control characters *)
Definition on_a_line (t : bytes) : Prop := Forall (fun b => 32 <= b /\ b <> 127) t.
