(* Base.v: the Rust primitives the model is written in.  Definitions only.

   These model the Rust language and standard library operations the code in /repo uses,
   not code of /repo itself; each comment says which operation and where it is used. *)
From Coq Require Export String Ascii NArith ZArith Lia Bool List.
Export ListNotations.
Open Scope N_scope.
Open Scope list_scope.

(* Literals: [ch "0"] is the byte value of a character (Rust b'0'); [B "EE"] is the byte string
   (Rust b"EE").  Both are expanded to numerals when parsed. *)
Notation ch x := (ltac:(let v := eval vm_compute in (N_of_ascii x%char) in exact v)) (only parsing).
Notation B x := (ltac:(let v := eval vm_compute in
  (List.map N_of_ascii (list_ascii_of_string x%string)) in exact v)) (only parsing).

(* A byte string: &[u8], Vec<u8>, BytesMut, and (as its UTF-8 bytes) &str and String.  Used at pkt.rs:41 (BytesMut), 203 (String), 353-354 (Vec<u8>), msg.rs:588 (&str) *)
Definition bytes := list N.
(* pkt.rs:41, the range of a u8 *)
Definition is_u8 (b : N) : bool := b <? 256.
(* pkt.rs:41 *)
Definition all_u8 (s : bytes) : bool := forallb is_u8 s.

(* The outcome of running Rust code: Ok, Err (Rust's Result::Err) or a panic.  Used at e.g. pkt.rs:210, 359, msg.rs:29 *)
Inductive res (A : Type) : Type :=
| Ok (a : A)
| Err (e : string)
| Panic (why : string).
Arguments Ok {A} a.
Arguments Err {A} e%string.
Arguments Panic {A} why%string.

(* Sequencing; on Err this is Rust's `?` operator, on Panic it is unwinding.  Used at e.g. msg.rs:592-627, pkt.rs:217 *)
Definition bind {A C : Type} (m : res A) (f : A -> res C) : res C :=
  match m with
  | Ok a => f a
  | Err e => Err e
  | Panic w => Panic w
  end.
Notation "x <- m ;; k" := (bind m (fun x => k)) (at level 61, m at next level, right associativity).
Notation "' p <- m ;; k" := (bind m (fun p => k))
  (at level 61, p pattern, m at next level, right associativity).

(* Result::expect / unwrap: Err becomes a panic.  Used at e.g. msg.rs:846, 1043, state.rs:197, 328 *)
Definition expect {A : Type} (m : res A) (why : string) : res A :=
  match m with Err _ => Panic why | _ => m end.
Arguments expect {A} m why%string.

(* Result::is_ok; used at pkt.rs:70 *)
Definition is_ok {A : Type} (m : res A) : bool := match m with Ok _ => true | _ => false end.

(* s[i]: panics when out of range.  Used at e.g. pkt.rs:49, 70, msg.rs:744 *)
Definition index {A : Type} (s : list A) (i : nat) : res A :=
  match nth_error s i with Some x => Ok x | None => Panic "index out of range" end.

(* &s[a..b]: panics unless a <= b <= len.  Used at e.g. pkt.rs:69, 366, msg.rs:722-740 *)
Definition slice {A : Type} (s : list A) (a b : nat) : res (list A) :=
  if (a <=? b)%nat && (b <=? length s)%nat
  then Ok (firstn (b - a) (skipn a s))
  else Panic "slice out of range".

(* s.get(..n); used at pkt.rs:51, 375 *)
Definition get_to {A : Type} (s : list A) (n : nat) : option (list A) :=
  if (n <=? length s)%nat then Some (firstn n s) else None.

(* buf.advance(n): panics when n exceeds the remaining bytes (bytes::Buf::advance).  Used at pkt.rs:60, 77, 388, 400, 413 *)
Definition advance (s : bytes) (n : nat) : res bytes :=
  if (n <=? length s)%nat then Ok (skipn n s) else Panic "advance past end".

(* Equality of byte strings.  Used at e.g. pkt.rs:161, elkm1-mqtt/src/main.rs:293, 303-306 *)
Fixpoint beq (s t : bytes) : bool :=
  match s, t with
  | [], [] => true
  | x :: s', y :: t' => (x =? y) && beq s' t'
  | _, _ => false
  end.

(* s.starts_with(p); used at pkt.rs:45, 69 *)
Fixpoint starts_with (s p : bytes) : bool :=
  match p, s with
  | [], _ => true
  | y :: p', x :: s' => (x =? y) && starts_with s' p'
  | _ :: _, [] => false
  end.

(* The slice pattern [.., suf]: s ends with suf.  Used at pkt.rs:210-226 *)
Definition ends_with (s suf : bytes) : bool :=
  (length suf <=? length s)%nat && beq (skipn (length s - length suf) s) suf.

(* memchr::memchr(b, s): index of the first occurrence.  Used at pkt.rs:366, 426 *)
Fixpoint memchr (b : N) (s : bytes) : option nat :=
  match s with
  | [] => None
  | x :: s' => if x =? b then Some O
               else match memchr b s' with Some i => Some (S i) | None => None end
  end.

(* u8 arithmetic.  Used at pkt.rs:232 *)
Definition wrapping_add8 (a b : N) : N := (a + b) mod 256.
(* pkt.rs:243 *)
Definition wrapping_sub8 (a b : N) : N := (a + 256 - b) mod 256.
(* a + b on u8 with overflow checks; used at e.g. pkt.rs:230, msg.rs:1056 *)
Definition add8 (a b : N) : res N :=
  if a + b <? 256 then Ok (a + b) else Panic "attempt to add with overflow".
(* n as u8 for a usize; used at pkt.rs:230, state.rs:188 *)
Definition as_u8 (n : nat) : N := N.of_nat n mod 256.

(* u8::is_ascii_digit: msg.rs:436 *)
Definition is_digit (b : N) : bool := (ch "0" <=? b) && (b <=? ch "9").

(* core::num: <uN as FromStr>::from_str.  An optional leading '+', then one or more ASCII digits;
   the value must not exceed [max].  '-' is not accepted for unsigned types.  Used at msg.rs:32, 592-627 *)
Fixpoint parse_digits (max acc : N) (s : bytes) : option N :=
  match s with
  | [] => Some acc
  | d :: s' =>
      if is_digit d
      then let acc' := acc * 10 + (d - ch "0") in
           if acc' <=? max then parse_digits max acc' s' else None
      else None
  end.
(* msg.rs:32, 592-627 *)
Definition from_str_dec (max : N) (s : bytes) : option N :=
  match s with
  | [] => None
  | c :: s' =>
      if c =? ch "+"
      then match s' with [] => None | _ => parse_digits max 0 s' end
      else parse_digits max 0 s
  end.

(* core::fmt: decimal digits of n, most significant first; at least one digit.  Used at msg.rs:643, 770, 839, 954, 1306, 1429, 1462, 1479 *)
Fixpoint dec_digits (fuel : nat) (n : N) : bytes :=
  match fuel with
  | O => []
  | S f => (if n <? 10 then [] else dec_digits f (n / 10)) ++ [ch "0" + n mod 10]
  end.
(* the same, and msg.rs:367, 541-545 *)
Definition fmt_dec (n : N) : bytes := dec_digits (S (N.size_nat n)) n.
(* {:0w}; used at msg.rs:643, 770, 839, 954, 1251, 1306, 1429, 1462, 1479 *)
Definition fmt_pad (w : nat) (n : N) : bytes :=
  let s := fmt_dec n in repeat (ch "0") (w - length s) ++ s.
(* {:1X} of a u8; used at msg.rs:954 *)
Definition hex_upper (d : N) : N := if d <? 10 then ch "0" + d else ch "A" + (d - 10).
(* msg.rs:954 *)
Definition fmt_hex8 (n : N) : bytes :=
  if n <? 16 then [hex_upper n] else [hex_upper (n / 16); hex_upper (n mod 16)].

(* ---- the texts of errors ----
   A Rust String inside an Err is a Coq string, of its UTF-8 bytes.  Used at e.g. msg.rs:18-19, pkt.rs:120 *)
Definition bytes_of_string (s : string) : bytes := map N_of_ascii (list_ascii_of_string s).
(* e.g. msg.rs:18-19, pkt.rs:120 *)
Definition string_of_bytes (s : bytes) : string := string_of_list_ascii (map ascii_of_N s).
(* {} of an unsigned number; used at e.g. msg.rs:367, 594 *)
Definition show_dec (n : N) : string := string_of_bytes (fmt_dec n).
(* e.g. pkt.rs:294 *)
Definition show_len {A : Type} (s : list A) : string := show_dec (N.of_nat (length s)).
(* {:02X} of a u8 or u16: at least two digits; used at pkt.rs:221, 383, 403 *)
Fixpoint hex_digits (fuel : nat) (n : N) : bytes :=
  match fuel with
  | O => []
  | S f => (if n <? 16 then [] else hex_digits f (n / 16)) ++ [hex_upper (n mod 16)]
  end.
(* pkt.rs:221, 383, 403 *)
Definition show_hex2 (n : N) : string :=
  let s := hex_digits 4 n in string_of_bytes (repeat (ch "0") (2 - length s) ++ s).
(* {:?} of a &[u8]; used at msg.rs:33 *)
Definition show_slice (s : bytes) : string := ("[" ++ String.concat ", " (map show_dec s) ++ "]")%string.
(* {:?} of a char below U+0100 (char::from of a u8): char::escape_debug, in single quotes.  U+00A0 and U+00AD count as
   unprintable.  Used at msg.rs:324, 878 *)
Definition escape_char (quote c : N) : bytes :=
  if c =? 0 then B "\0" else if c =? 9 then B "\t" else if c =? 10 then B "\n" else if c =? 13 then B "\r"
  else if c =? quote then [ch "\"; c] else if c =? ch "\" then B "\\"
  else if (32 <=? c) && (c <=? 126) then [c]
  else if (c <? 161) || (c =? 173) then
    B "\u{" ++ (if c <? 16 then [] else [let d := c / 16 mod 16 in if d <? 10 then ch "0" + d else ch "a" + (d - 10)])
            ++ [let d := c mod 16 in if d <? 10 then ch "0" + d else ch "a" + (d - 10)] ++ B "}"
  else [194 + c / 64 mod 2; 128 + c mod 64].
(* msg.rs:324, 878 *)
Definition show_char (c : N) : string := string_of_bytes (B "'" ++ escape_char (ch "'") c ++ B "'").
(* {:?} of a str of ASCII characters; used at pkt.rs:294 *)
Definition show_str (s : bytes) : string := string_of_bytes ([ch """"] ++ flat_map (escape_char (ch """")) s ++ [ch """"]).
(* s.iter().position(f), where it is known that there is one; used at pkt.rs:276-281 *)
Fixpoint position (f : N -> bool) (s : bytes) : nat :=
  match s with [] => O | b :: s' => if f b then O else S (position f s') end.

(* core::str::from_utf8: well-formedness as in RFC 3629 (no overlong forms, no surrogates).  Used at msg.rs:30 *)
Definition between (lo hi b : N) : bool := (lo <=? b) && (b <=? hi).
(* msg.rs:30 *)
Definition is_cont (b : N) : bool := between 128 191 b.
(* msg.rs:30, 406, 1330, elkm1-mqtt/src/main.rs:302 *)
Fixpoint utf8_valid (s : bytes) : bool :=
  match s with
  | [] => true
  | a :: s1 =>
      if a <? 128 then utf8_valid s1
      else match s1 with
      | [] => false
      | b :: s2 =>
          if between 194 223 a then is_cont b && utf8_valid s2
          else match s2 with
          | [] => false
          | c :: s3 =>
              if a =? 224 then between 160 191 b && is_cont c && utf8_valid s3
              else if between 225 236 a || between 238 239 a
                   then is_cont b && is_cont c && utf8_valid s3
              else if a =? 237 then between 128 159 b && is_cont c && utf8_valid s3
              else match s3 with
              | [] => false
              | d :: s4 =>
                  if a =? 240 then between 144 191 b && is_cont c && is_cont d && utf8_valid s4
                  else if between 241 243 a
                       then is_cont b && is_cont c && is_cont d && utf8_valid s4
                  else if a =? 244 then between 128 143 b && is_cont c && is_cont d && utf8_valid s4
                  else false
              end
          end
      end
  end.

(* str::is_char_boundary and &val[a..b] on a str: panics off a character boundary.  Used at msg.rs:588-639 *)
Definition is_char_boundary (s : bytes) (i : nat) : bool :=
  match i with
  | O => true
  | _ => match nth_error s i with
         | Some b => negb (is_cont b)
         | None => (i =? length s)%nat
         end
  end.
(* msg.rs:592-627 *)
Definition str_slice (s : bytes) (a b : nat) : res bytes :=
  if is_char_boundary s a && is_char_boundary s b then slice s a b
  else Panic "byte index is not a char boundary".

(* str::trim_end_matches(' '); used at msg.rs:1334 *)
Fixpoint trim_end (s : bytes) : bytes :=
  match s with
  | [] => []
  | b :: s' => match trim_end s' with
               | [] => if b =? ch " " then [] else [b]
               | t => b :: t
               end
  end.

(* A for-loop collecting fallible results, stopping at the first Err or Panic.  Used at e.g. msg.rs:988-990 *)
Fixpoint mapM {A C : Type} (f : A -> res C) (l : list A) : res (list C) :=
  match l with
  | [] => Ok []
  | x :: l' => y <- f x ;; ys <- mapM f l' ;; Ok (y :: ys)
  end.

(* a[i] = x on an array or slice: panics when out of range.  Used at e.g. msg.rs:989, 1156-1158, state.rs:231 *)
Fixpoint set_nth {A : Type} (l : list A) (i : nat) (x : A) : res (list A) :=
  match l, i with
  | [], _ => Panic "index out of range"
  | _ :: l', O => Ok (x :: l')
  | y :: l', S i' => t <- set_nth l' i' x ;; Ok (y :: t)
  end.
