(* JsonText.v: the JSON text that serde_json writes and reads for a value of Serde.v.

   serde_json 1.0 is not in the sandbox; this follows its documentation and the way it is called: serde_json::to_string_pretty
   (elkm1-mqtt/src/main.rs:252, 274, 453) and serde_json::from_slice (main.rs:379).  Error texts are not modelled.
   Simplifications: in members that are ignored serde_json's ignore_str does not check UTF-8 or surrogates; here every string
   is checked.  An object's keys lose the mark of an escape, so a number key written with escapes is a number key here.
   serde_json limits the nesting of typed values to 128, which these types never reach; ignored values have no limit. *)
From Verif Require Export Base Serde.

(* ---- writing: serde_json::to_string_pretty, PrettyFormatter with two spaces ---- *)
(* reached from elkm1-mqtt/src/main.rs:252, 274, 453 *)
Definition hex_lower (d : N) : N := if d <? 10 then ch "0" + d else ch "a" + (d - 10).
(* format_escaped_str: the escape of one byte; reached from elkm1-mqtt/src/main.rs:252, 274, 453 *)
Definition escape (c : N) : bytes :=
  if c =? ch """" then [ch "\"; ch """"]
  else if c =? ch "\" then [ch "\"; ch "\"]
  else if c =? 8 then [ch "\"; ch "b"]
  else if c =? 9 then [ch "\"; ch "t"]
  else if c =? 10 then [ch "\"; ch "n"]
  else if c =? 12 then [ch "\"; ch "f"]
  else if c =? 13 then [ch "\"; ch "r"]
  else if c <? 32 then B "\u00" ++ [hex_lower (c / 16); hex_lower (c mod 16)]
  else [c].
(* reached from elkm1-mqtt/src/main.rs:252, 274, 453 *)
Definition write_str (s : bytes) : bytes := ch """" :: flat_map escape s ++ [ch """"].
(* reached from elkm1-mqtt/src/main.rs:252, 274, 453 *)
Fixpoint indent (n : nat) : bytes := match n with O => [] | S n => B "  " ++ indent n end.
(* begin_array_value, begin_object_key: a line break before every element, a comma before all but the first; reached from elkm1-mqtt/src/main.rs:252, 274, 453 *)
Definition separator (first : bool) (n : nat) : bytes := (if first then [10] else [ch ","; 10]) ++ indent n.
(* reached from elkm1-mqtt/src/main.rs:252, 274, 453 *)
Fixpoint pretty (n : nat) (v : value) : bytes :=
  match v with
  | VNull => B "null"
  | VBool true => B "true"
  | VBool false => B "false"
  | VNum k => fmt_dec k
  | VOther => B "0.0"                       (* nothing serialised here contains such a number *)
  | VStr _ s => write_str s
  | VArr [] => B "[]"
  | VArr l =>
      [ch "["] ++
      (fix go (first : bool) (l : list value) : bytes :=
         match l with [] => [] | x :: l' => separator first (S n) ++ pretty (S n) x ++ go false l' end) true l
      ++ [10] ++ indent n ++ [ch "]"]
  | VObj [] => B "{}"
  | VObj l =>
      [ch "{"] ++
      (fix go (first : bool) (l : list (bytes * value)) : bytes :=
         match l with
         | [] => []
         | (k, x) :: l' => separator first (S n) ++ write_str k ++ B ": " ++ pretty (S n) x ++ go false l'
         end) true l
      ++ [10] ++ indent n ++ [ch "}"]
  end.
(* reached from elkm1-mqtt/src/main.rs:252, 274, 453 *)
Definition to_string_pretty (v : value) : bytes := pretty 0 v.

(* ---- reading: serde_json::from_slice ---- *)
(* Deserializer::parse_whitespace; reached from elkm1-mqtt/src/main.rs:379 *)
Definition is_ws (c : N) : bool := (c =? 32) || (c =? 10) || (c =? 9) || (c =? 13).
(* reached from elkm1-mqtt/src/main.rs:379 *)
Fixpoint skip_ws (s : bytes) : bytes :=
  match s with [] => [] | c :: s' => if is_ws c then skip_ws s' else s end.
(* parse_ident; reached from elkm1-mqtt/src/main.rs:379 *)
Fixpoint literal (word : bytes) (s : bytes) : res bytes :=
  match word, s with
  | [], _ => Ok s
  | c :: word', x :: s' => if x =? c then literal word' s' else Err "expected ident"
  | _ :: _, [] => Err "EOF while parsing a value"
  end.
(* decode_hex_escape; reached from elkm1-mqtt/src/main.rs:379 *)
Definition hex_val (c : N) : res N :=
  if between (ch "0") (ch "9") c then Ok (c - ch "0")
  else if between (ch "a") (ch "f") c then Ok (c - ch "a" + 10)
  else if between (ch "A") (ch "F") c then Ok (c - ch "A" + 10)
  else Err "invalid escape".
(* reached from elkm1-mqtt/src/main.rs:379 *)
Definition hex4 (a b c d : N) : res N :=
  a <- hex_val a ;; b <- hex_val b ;; c <- hex_val c ;; d <- hex_val d ;; Ok (((a * 16 + b) * 16 + c) * 16 + d).
(* char::encode_utf8; reached from elkm1-mqtt/src/main.rs:379 *)
Definition encode_utf8 (n : N) : bytes :=
  if n <? 128 then [n]
  else if n <? 2048 then [N.lor 192 (N.shiftr n 6); N.lor 128 (N.land n 63)]
  else if n <? 65536 then [N.lor 224 (N.shiftr n 12); N.lor 128 (N.land (N.shiftr n 6) 63); N.lor 128 (N.land n 63)]
  else [N.lor 240 (N.shiftr n 18); N.lor 128 (N.land (N.shiftr n 12) 63); N.lor 128 (N.land (N.shiftr n 6) 63); N.lor 128 (N.land n 63)].
(* parse_escape, other than \u; reached from elkm1-mqtt/src/main.rs:379 *)
Definition unescape (k : N) : option N :=
  if k =? ch """" then Some (ch """") else if k =? ch "\" then Some (ch "\") else if k =? ch "/" then Some (ch "/")
  else if k =? ch "b" then Some 8 else if k =? ch "f" then Some 12 else if k =? ch "n" then Some 10
  else if k =? ch "r" then Some 13 else if k =? ch "t" then Some 9 else None.
(* SliceRead::parse_str_bytes and parse_unicode_escape, from after the opening quote: whether there are escapes, the bytes, and
   what follows the closing quote; reached from elkm1-mqtt/src/main.rs:379 *)
Fixpoint read_chars (s : bytes) : res (bool * bytes * bytes) :=
  match s with
  | [] => Err "EOF while parsing a string"
  | c :: s1 =>
      if c =? ch """" then Ok (false, [], s1)
      else if c =? ch "\" then
        match s1 with
        | [] => Err "EOF while parsing a string"
        | k :: s2 =>
            if k =? ch "u" then
              match s2 with
              | h1 :: h2 :: h3 :: h4 :: s3 =>
                  n <- hex4 h1 h2 h3 h4 ;;
                  if between 56320 57343 n then Err "lone leading surrogate in hex escape"
                  else if between 55296 56319 n then
                    match s3 with
                    | x :: y :: g1 :: g2 :: g3 :: g4 :: s4 =>
                        if (x =? ch "\") && (y =? ch "u") then
                          m <- hex4 g1 g2 g3 g4 ;;
                          if between 56320 57343 m then
                            ' (_, r, rest) <- read_chars s4 ;;
                            Ok (true, encode_utf8 (N.lor (N.shiftl (n - 55296) 10) (m - 56320) + 65536) ++ r, rest)
                          else Err "lone leading surrogate in hex escape"
                        else Err "unexpected end of hex escape"
                    | _ => Err "unexpected end of hex escape"
                    end
                  else
                    ' (_, r, rest) <- read_chars s3 ;; Ok (true, encode_utf8 n ++ r, rest)
              | _ => Err "EOF while parsing a string"
              end
            else
              match unescape k with
              | Some b => ' (_, r, rest) <- read_chars s2 ;; Ok (true, b :: r, rest)
              | None => Err "invalid escape"
              end
        end
      else if c <? 32 then Err "control character (\u0000-\u001F) found while parsing a string"
      else ' (e, r, rest) <- read_chars s1 ;; Ok (e, c :: r, rest)
  end.
(* then core::str::from_utf8; reached from elkm1-mqtt/src/main.rs:379 *)
Definition read_str (s : bytes) : res (bool * bytes * bytes) :=
  ' (e, b, r) <- read_chars s ;; if utf8_valid b then Ok (e, b, r) else Err "invalid unicode code point".
(* reached from elkm1-mqtt/src/main.rs:379 *)
Definition is_digit (c : N) : bool := between (ch "0") (ch "9") c.
(* reached from elkm1-mqtt/src/main.rs:379 *)
Fixpoint read_digits (s : bytes) : bytes * bytes :=
  match s with
  | [] => ([], [])
  | c :: s' => if is_digit c then let '(d, r) := read_digits s' in (c :: d, r) else ([], s)
  end.
(* at least one digit; reached from elkm1-mqtt/src/main.rs:379 *)
Definition read_digits1 (s : bytes) : res (bytes * bytes) :=
  let '(d, r) := read_digits s in match d with [] => Err "invalid number" | _ => Ok (d, r) end.
(* reached from elkm1-mqtt/src/main.rs:379 *)
Definition dec_value (ds : bytes) : N := fold_left (fun v c => v * 10 + (c - ch "0")) ds 0.
(* reached from elkm1-mqtt/src/main.rs:379 *)
Definition read_sign (s : bytes) : bool * bytes :=
  match s with c :: s' => if c =? ch "-" then (true, s') else (false, s) | [] => (false, s) end.
(* parse_integer; reached from elkm1-mqtt/src/main.rs:379 *)
Definition read_int (s : bytes) : res (bytes * bytes) :=
  match s with
  | c :: s' =>
      if c =? ch "0" then
        match s' with
        | d :: _ => if is_digit d then Err "invalid number" else Ok ([c], s')
        | [] => Ok ([c], s')
        end
      else read_digits1 s
  | [] => Err "EOF while parsing a value"
  end.
(* parse_decimal: whether there is one; reached from elkm1-mqtt/src/main.rs:379 *)
Definition read_frac (s : bytes) : res (bool * bytes) :=
  match s with
  | c :: s' => if c =? ch "." then ' (_, r) <- read_digits1 s' ;; Ok (true, r) else Ok (false, s)
  | [] => Ok (false, s)
  end.
(* parse_exponent; reached from elkm1-mqtt/src/main.rs:379 *)
Definition skip_sign (s : bytes) : bytes :=
  match s with x :: r => if (x =? ch "+") || (x =? ch "-") then r else s | [] => s end.
(* reached from elkm1-mqtt/src/main.rs:379 *)
Definition read_exp (s : bytes) : res (bool * bytes) :=
  match s with
  | c :: s' =>
      if (c =? ch "e") || (c =? ch "E") then ' (_, r) <- read_digits1 (skip_sign s') ;; Ok (true, r) else Ok (false, s)
  | [] => Ok (false, s)
  end.
(* A number that is not a natural number below 2^64 is read as i64 or f64. reached from elkm1-mqtt/src/main.rs:379 *)
Definition read_num (s : bytes) : res (value * bytes) :=
  let '(neg, s1) := read_sign s in
  ' (int, s2) <- read_int s1 ;;
  ' (frac, s3) <- read_frac s2 ;;
  ' (exp, s4) <- read_exp s3 ;;
  Ok (if neg || frac || exp || negb (dec_value int <? 18446744073709551616) then VOther else VNum (dec_value int), s4).

(* parse_value, SeqAccess, MapAccess.  read_elems starts where an element may start, read_members where a key may. reached from elkm1-mqtt/src/main.rs:379 *)
Fixpoint read_value (fuel : nat) (s : bytes) : res (value * bytes) :=
  match fuel with
  | O => Panic "out of fuel"
  | S fuel =>
      match skip_ws s with
      | [] => Err "EOF while parsing a value"
      | c :: s1 =>
          if c =? ch "n" then r <- literal (B "ull") s1 ;; Ok (VNull, r)
          else if c =? ch "t" then r <- literal (B "rue") s1 ;; Ok (VBool true, r)
          else if c =? ch "f" then r <- literal (B "alse") s1 ;; Ok (VBool false, r)
          else if c =? ch """" then ' (e, b, r) <- read_str s1 ;; Ok (VStr e b, r)
          else if c =? ch "[" then
            match skip_ws s1 with
            | [] => Err "EOF while parsing a list"
            | d :: r => if d =? ch "]" then Ok (VArr [], r) else ' (l, r) <- read_elems fuel s1 ;; Ok (VArr l, r)
            end
          else if c =? ch "{" then
            match skip_ws s1 with
            | [] => Err "EOF while parsing an object"
            | d :: r => if d =? ch "}" then Ok (VObj [], r) else ' (l, r) <- read_members fuel s1 ;; Ok (VObj l, r)
            end
          else if (c =? ch "-") || is_digit c then read_num (c :: s1)
          else Err "expected value"
      end
  end
with read_elems (fuel : nat) (s : bytes) : res (list value * bytes) :=
  match fuel with
  | O => Panic "out of fuel"
  | S fuel =>
      ' (v, r) <- read_value fuel s ;;
      match skip_ws r with
      | [] => Err "EOF while parsing a list"
      | d :: r' =>
          if d =? ch "," then ' (l, r'') <- read_elems fuel r' ;; Ok (v :: l, r'')
          else if d =? ch "]" then Ok ([v], r')
          else Err "expected `,` or `]`"
      end
  end
with read_members (fuel : nat) (s : bytes) : res (list (bytes * value) * bytes) :=
  match fuel with
  | O => Panic "out of fuel"
  | S fuel =>
      match skip_ws s with
      | [] => Err "EOF while parsing an object"
      | q :: s1 =>
          if q =? ch """" then
            ' (_, k, s2) <- read_str s1 ;;
            match skip_ws s2 with
            | [] => Err "EOF while parsing an object"
            | d :: s3 =>
                if d =? ch ":" then
                  ' (v, r) <- read_value fuel s3 ;;
                  match skip_ws r with
                  | [] => Err "EOF while parsing an object"
                  | d :: r' =>
                      if d =? ch "," then ' (l, r'') <- read_members fuel r' ;; Ok ((k, v) :: l, r'')
                      else if d =? ch "}" then Ok ([(k, v)], r')
                      else Err "expected `,` or `}`"
                  end
                else Err "expected `:`"
            end
          else Err "key must be a string"
      end
  end.
(* from_slice, up to the conversion of the value: nothing but white space may follow (Deserializer::end); reached from elkm1-mqtt/src/main.rs:379 *)
Definition from_slice (s : bytes) : res value :=
  ' (v, r) <- read_value (2 * length s + 2) s ;;
  match skip_ws r with [] => Ok v | _ => Err "trailing characters" end.
