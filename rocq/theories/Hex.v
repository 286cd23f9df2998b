(* Hex.v: what pretty_hex's hex_dump() writes with `{:?}`, and the Display implementations that use it: /repo/elkm1/src/pkt.rs.  Definitions only.

   pretty_hex is not in the sandbox; modelled from its documentation (0.4, HexConfig::default: a title, 16 bytes to a line, groups of 4, characters).
   Everything elsewhere that has to do with dumps is proved for any dump with the properties in SpecLog.v; this is one. *)
From Verif Require Import Base JsonText.

(* {:x} and {:04x} of a usize; in the dumps of pkt.rs:140, 151, 468, 474 *)
Fixpoint low_digits (fuel : nat) (n : N) : bytes :=
  match fuel with
  | O => []
  | S f => (if n <? 16 then [] else low_digits f (n / 16)) ++ [hex_lower (n mod 16)]
  end.
(* {:x}; in the dumps of pkt.rs:140, 151, 468, 474 *)
Definition fmt_x (n : N) : bytes := low_digits (S (N.size_nat n)) n.
(* {:04x}; in the dumps of pkt.rs:140, 151, 468, 474 *)
Definition fmt_04x (n : N) : bytes := let s := fmt_x n in repeat (ch "0") (4 - length s) ++ s.
(* what goes before the byte in column j of a line; in the dumps of pkt.rs:140, 151, 468, 474 *)
Definition gap (j : nat) : bytes := match j with O => [] | S _ => if (j mod 4 =? 0)%nat then B "  " else B " " end.
(* the bytes of a line from column j on, {:02x} each; in the dumps of pkt.rs:140, 151, 468, 474 *)
Fixpoint cells (j : nat) (row : bytes) : bytes :=
  match row with [] => [] | x :: row' => gap j ++ [hex_lower (x / 16); hex_lower (x mod 16)] ++ cells (S j) row' end.
(* blanks for the n columns from column j on; in the dumps of pkt.rs:140, 151, 468, 474 *)
Fixpoint blanks (j n : nat) : bytes := match n with O => [] | S n' => gap j ++ B "  " ++ blanks (S j) n' end.
(* a byte as a character; in the dumps of pkt.rs:140, 151, 468, 474 *)
Definition as_char (x : N) : N := if between 32 126 x then x else ch ".".
(* a line, of the bytes from this offset on; in the dumps of pkt.rs:140, 151, 468, 474 *)
Definition dump_row (offset : N) (row : bytes) : bytes :=
  fmt_04x offset ++ B ":   " ++ cells 0 row ++ blanks (length row) (16 - length row) ++ B "   " ++ map as_char row.
(* the lines; fuel: the number of bytes.  In the dumps of pkt.rs:140, 151, 468, 474 *)
Fixpoint dump_rows (fuel : nat) (offset : N) (b : bytes) : list bytes :=
  match fuel, b with
  | S f, _ :: _ => dump_row offset (firstn 16 b) :: dump_rows f (offset + 16) (skipn 16 b)
  | _, _ => []
  end.
(* lines with newlines between them; in the dumps of pkt.rs:140, 151, 468, 474 *)
Fixpoint joined (ls : list bytes) : bytes := match ls with [] => [] | [l] => l | l :: ls' => l ++ [10] ++ joined ls' end.
(* pkt.rs:140, 151, 468, 474, elkm1-cli/src/main.rs:67 *)
Definition pretty_hex (b : bytes) : bytes :=
  B "Length: " ++ fmt_dec (N.of_nat (length b)) ++ B " (0x" ++ fmt_x (N.of_nat (length b)) ++ B ") bytes" ++ [10] ++ joined (dump_rows (length b) 0 b).

(* pkt.rs:146-156 InvalidPacket Display *)
Definition InvalidPacket_display (hex : bytes -> bytes) (raw : bytes) (reason : string) : bytes :=
  B "invalid packet: " ++ bytes_of_string reason ++ [10] ++ B "raw data:" ++ [10] ++ hex raw.
(* pkt.rs:466-470 RpPacket Display *)
Definition RpPacket_display (hex : bytes -> bytes) (data : bytes) : bytes := hex data.
