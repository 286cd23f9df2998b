(* SpecHex.v: how a hex dump is to be read, by lines and columns. *)
From Verif Require Import Base SpecPkt.

(* A text and its lines. *)
Inductive lines : bytes -> list bytes -> Prop :=
| one_line t : ~ In 10 t -> lines t [t]
| more_lines t s ls : ~ In 10 t -> lines s ls -> lines (t ++ 10 :: s) (t :: ls).
(* The digits. *)
Definition is_low_digit (c d : N) : Prop := nth_error (B "0123456789abcdef") (N.to_nat d) = Some c.
(* Numbers in some base, without leading zeros. *)
Inductive numeral_of (base : N) : bytes -> N -> Prop :=
| num_one c d : d < base -> is_low_digit c d -> numeral_of base [c] d
| num_more s n c d : numeral_of base s n -> n <> 0 -> d < base -> is_low_digit c d -> numeral_of base (s ++ [c]) (n * base + d).
(* The text has this at that column (the first is column 0). *)
Definition at_column {A : Type} (k : nat) (x : list A) (text : list A) : Prop := exists before after, text = before ++ x ++ after /\ length before = k.

(* Where the byte number j of a line is: three columns for each byte, and one more for each group of four. *)
Definition byte_column (j : nat) : nat := (8 + 3 * j + j / 4)%nat.
Definition char_column (j : nat) : nat := (61 + j)%nat.
Definition shown_as (x c : N) : Prop := (32 <= x <= 126 /\ c = x) \/ (~ 32 <= x <= 126 /\ c = ch ".").

(* The text is a dump of these bytes: the title has their number, and there are 16 on each further line. *)
Record dump_of (b text : bytes) : Prop := mkDump {
  dump_title : exists d h rows, lines text ((B "Length: " ++ d ++ B " (0x" ++ h ++ B ") bytes") :: rows) /\
    numeral_of 10 d (N.of_nat (length b)) /\ numeral_of 16 h (N.of_nat (length b)) /\
    (b = [] -> rows = [[]]) /\ (b <> [] -> length rows = ((length b + 15) / 16)%nat) /\
    (* every line starts with the number of its first byte *)
    (forall i row, N.of_nat i < 4096 -> b <> [] -> nth_error rows i = Some row ->
       exists c3 c2 c1 c0 d3 d2 d1 d0, at_column 0 [c3; c2; c1; c0; ch ":"] row /\ is_low_digit c3 d3 /\ is_low_digit c2 d2 /\ is_low_digit c1 d1 /\ is_low_digit c0 d0 /\
         d3 * 4096 + d2 * 256 + d1 * 16 + d0 = N.of_nat (16 * i)) /\
    (* every byte is where it belongs, in hexadecimal and as a character *)
    (forall k x, nth_error b k = Some x -> N.of_nat k < 65536 ->
       exists row hi lo c, nth_error rows (k / 16) = Some row /\
         is_low_digit hi (x / 16) /\ is_low_digit lo (x mod 16) /\ at_column (byte_column (k mod 16)) [hi; lo] row /\
         shown_as x c /\ at_column (char_column (k mod 16)) [c] row /\
         (* and nothing after the last character *)
         (S k = length b \/ (k mod 16 = 15)%nat -> length row = S (char_column (k mod 16)))) }.
