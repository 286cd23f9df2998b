(* Layout.v: the characters std's Formatter makes of the structures of FmtMsg.v: `{:?}` on one line, `{:#?}` indented.  Definitions only.

   Modelled from std's documentation (core::fmt::builders and PadAdapter), not code of /repo.  hex is pretty_hex's hex_dump() in that layout.
   Strings are escaped as for characters below U+0100 (escape_char in Base.v). *)
From Verif Require Import Base FmtMsg.

(* how to lay out: None is `{:?}`, Some n is `{:#?}` inside n enclosing structures; `{:?}`: elkm1-cli/src/main.rs:64, 67, state.rs:176; `{:#?}`: elkm1-mqtt/src/main.rs:361, elkm1-cli/src/main.rs:88 (debug_alt) *)
Definition layout := option nat.
(* a new line inside n structures; reached from elkm1-mqtt/src/main.rs:361 *)
Definition new_line (n : nat) : bytes := 10 :: concat (repeat (B "    ") n).
(* PadAdapter: text of several lines inside n structures; reached from elkm1-mqtt/src/main.rs:361 *)
Definition indented (l : layout) (s : bytes) : bytes :=
  match l with
  | None => s
  | Some n => flat_map (fun c => if c =? 10 then new_line n else [c]) s
  end.
(* what goes between the brackets: on one line, or one line each with a comma after each.  pad: " " inside the braces of a struct; reached from elkm1-cli/src/main.rs:64 *)
Fixpoint commas (xs : list bytes) : bytes :=
  match xs with [] => [] | [x] => x | x :: xs' => x ++ B ", " ++ commas xs' end.
(* reached from elkm1-cli/src/main.rs:64 *)
Definition items (l : layout) (pad : bytes) (xs : list bytes) : bytes :=
  match xs with
  | [] => []
  | _ :: _ =>
      match l with
      | None => pad ++ commas xs ++ pad
      | Some n => flat_map (fun x => new_line (S n) ++ x ++ B ",") xs ++ new_line n
      end
  end.
(* Debug of str; reached from msg.rs:408, 1396-1400 *)
Definition quoted (s : bytes) : bytes := B """" ++ flat_map (escape_char (ch """")) s ++ B """".

(* reached from state.rs:176, elkm1-cli/src/main.rs:64 *)
Fixpoint dbg_text (hex : bytes -> bytes) (l : layout) (d : dbg) : bytes :=
  let inner := option_map S l in
  match d with
  | DNum n => fmt_dec n
  | DBool b => if b then B "true" else B "false"
  | DStr s => quoted s
  | DText s => quoted (bytes_of_string s)
  | DHex b => indented l (hex b)
  | DWord name => bytes_of_string name
  | DTuple name [] => bytes_of_string name
  | DTuple name fs => bytes_of_string name ++ B "(" ++ items l [] (map (dbg_text hex inner) fs) ++ B ")"
  | DStruct name [] => bytes_of_string name
  | DStruct name fs => bytes_of_string name ++ B " {" ++
      items l (B " ") (map (fun f => bytes_of_string (fst f) ++ B ": " ++ dbg_text hex inner (snd f)) fs) ++ B "}"
  | DList ds => B "[" ++ items l [] (map (dbg_text hex inner) ds) ++ B "]"
  | DMap es => B "{" ++ items l [] (map (fun e => fmt_dec (fst e) ++ B ": " ++ dbg_text hex inner (snd e)) es) ++ B "}"
  end.
