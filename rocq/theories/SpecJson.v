(* SpecJson.v: which value a JSON text denotes, after the grammar of RFC 8259 (section numbers below), as relations.
   A value is Serde.v's: numbers other than natural numbers below 2^64 are VOther; strings carry whether the text has escapes. *)
From Verif Require Import Base Serde.

(* section 2 *)
Definition ws (t : bytes) : Prop := Forall (fun c => In c [32; 9; 10; 13]) t.

(* section 6 *)
Definition digit (c : N) : Prop := ch "0" <= c <= ch "9".
Definition digits1 (t : bytes) : Prop := t <> [] /\ Forall digit t.
(* int = zero / ( digit1-9 *DIGIT ), and what it denotes: place values *)
Definition int_part (t : bytes) : Prop := t = B "0" \/ digits1 t /\ forall c t', t = c :: t' -> c <> ch "0".
Fixpoint place_value (t : bytes) : N :=
  match t with [] => 0 | c :: t' => (c - ch "0") * 10 ^ N.of_nat (length t') + place_value t' end.
Definition frac_part (t : bytes) : Prop := t = [] \/ exists d, t = ch "." :: d /\ digits1 d.
Definition exp_part (t : bytes) : Prop :=
  t = [] \/ exists e sign d, t = e :: sign ++ d /\ In e (B "eE") /\ (sign = [] \/ sign = B "+" \/ sign = B "-") /\ digits1 d.
Inductive denotes_num : value -> bytes -> Prop :=
| dn_natural t : int_part t -> place_value t < 2 ^ 64 -> denotes_num (VNum (place_value t)) t
| dn_other minus i f e : minus = [] \/ minus = B "-" -> int_part i -> frac_part f -> exp_part e ->
    minus <> [] \/ f <> [] \/ e <> [] \/ 2 ^ 64 <= place_value i ->
    denotes_num VOther (minus ++ i ++ f ++ e).

(* section 7 *)
Definition hex_digit (c v : N) : Prop :=
  digit c /\ v = c - ch "0" \/ ch "A" <= c <= ch "F" /\ v = c - ch "A" + 10 \/ ch "a" <= c <= ch "f" /\ v = c - ch "a" + 10.
Definition hex_quad (t : bytes) (n : N) : Prop :=
  exists a b c d va vb vc vd, t = [a; b; c; d] /\ hex_digit a va /\ hex_digit b vb /\ hex_digit c vc /\ hex_digit d vd /\
    n = va * 4096 + vb * 256 + vc * 16 + vd.
(* the UTF-8 form of a code point (RFC 3629, section 3) *)
Inductive utf8_form (n : N) : bytes -> Prop :=
| uf1 : n < 128 -> utf8_form n [n]
| uf2 a b : 128 <= n < 2048 -> n = a * 64 + b -> b < 64 -> utf8_form n [192 + a; 128 + b]
| uf3 a b c : 2048 <= n < 65536 -> n = a * 4096 + b * 64 + c -> b < 64 -> c < 64 -> utf8_form n [224 + a; 128 + b; 128 + c]
| uf4 a b c d : 65536 <= n < 1114112 -> n = a * 262144 + b * 4096 + c * 64 + d -> b < 64 -> c < 64 -> d < 64 ->
    utf8_form n [240 + a; 128 + b; 128 + c; 128 + d].
(* the characters that can follow a backslash, and what they stand for *)
Definition escapes : list (N * N) :=
  [(ch """", ch """"); (ch "\", ch "\"); (ch "/", ch "/"); (ch "b", 8); (ch "f", 12); (ch "n", 10); (ch "r", 13); (ch "t", 9)].
(* denotes_chars escaped s t: the text t between two quotes denotes the bytes s *)
Inductive denotes_chars : bool -> bytes -> bytes -> Prop :=
| dc_nil : denotes_chars false [] []
| dc_char c e s t : 32 <= c -> c <> ch """" -> c <> ch "\" -> denotes_chars e s t -> denotes_chars e (c :: s) (c :: t)
| dc_escape k c e s t : In (k, c) escapes -> denotes_chars e s t -> denotes_chars true (c :: s) (ch "\" :: k :: t)
| dc_unicode h n u e s t : hex_quad h n -> n < 55296 \/ 57344 <= n -> utf8_form n u -> denotes_chars e s t ->
    denotes_chars true (u ++ s) (B "\u" ++ h ++ t)
| dc_pair h n h' m u e s t : hex_quad h n -> 55296 <= n < 56320 -> hex_quad h' m -> 56320 <= m < 57344 ->
    utf8_form (65536 + (n - 55296) * 1024 + (m - 56320)) u -> denotes_chars e s t ->
    denotes_chars true (u ++ s) (B "\u" ++ h ++ B "\u" ++ h' ++ t).
Definition denotes_str (e : bool) (s t : bytes) : Prop :=
  exists t', t = [ch """"] ++ t' ++ [ch """"] /\ denotes_chars e s t' /\ utf8_valid s = true.

(* sections 3 to 5 *)
Inductive denotes_value : value -> bytes -> Prop :=
| dv_null : denotes_value VNull (B "null")
| dv_true : denotes_value (VBool true) (B "true")
| dv_false : denotes_value (VBool false) (B "false")
| dv_num v t : denotes_num v t -> denotes_value v t
| dv_str e s t : denotes_str e s t -> denotes_value (VStr e s) t
| dv_arr0 w : ws w -> denotes_value (VArr []) ([ch "["] ++ w ++ [ch "]"])
| dv_arr l t : denotes_elems l t -> denotes_value (VArr l) ([ch "["] ++ t ++ [ch "]"])
| dv_obj0 w : ws w -> denotes_value (VObj []) ([ch "{"] ++ w ++ [ch "}"])
| dv_obj l t : denotes_members l t -> denotes_value (VObj l) ([ch "{"] ++ t ++ [ch "}"])
with denotes_elems : list value -> bytes -> Prop :=
| de_one v w t w' : ws w -> denotes_value v t -> ws w' -> denotes_elems [v] (w ++ t ++ w')
| de_more v w t w' l t' : ws w -> denotes_value v t -> ws w' -> denotes_elems l t' -> denotes_elems (v :: l) (w ++ t ++ w' ++ [ch ","] ++ t')
with denotes_members : list (bytes * value) -> bytes -> Prop :=
| dm_one k v m : denotes_member k v m -> denotes_members [(k, v)] m
| dm_more k v m l t : denotes_member k v m -> denotes_members l t -> denotes_members ((k, v) :: l) (m ++ [ch ","] ++ t)
with denotes_member : bytes -> value -> bytes -> Prop :=
| dm_intro e k tk v t w1 w2 w3 w4 : denotes_str e k tk -> denotes_value v t -> ws w1 -> ws w2 -> ws w3 -> ws w4 ->
    denotes_member k v (w1 ++ tk ++ w2 ++ [ch ":"] ++ w3 ++ t ++ w4).
(* JSON-text = ws value ws *)
Definition denotes (v : value) (s : bytes) : Prop := exists w t w', s = w ++ t ++ w' /\ ws w /\ denotes_value v t /\ ws w'.
Scheme denotes_value_mut := Minimality for denotes_value Sort Prop
with denotes_elems_mut := Minimality for denotes_elems Sort Prop
with denotes_members_mut := Minimality for denotes_members Sort Prop
with denotes_member_mut := Minimality for denotes_member Sort Prop.
Combined Scheme denotes_ind from denotes_value_mut, denotes_elems_mut, denotes_members_mut, denotes_member_mut.

(* what JSON can express: strings of Unicode characters, and no numbers but the natural ones considered here; the flag of a string
   says whether it contains a character that has to be escaped (section 7) *)
Definition must_escape (s : bytes) : bool := existsb (fun c => (c <? 32) || (c =? ch """") || (c =? ch "\")) s.
Inductive writable : value -> Prop :=
| wr_null : writable VNull
| wr_bool b : writable (VBool b)
| wr_num n : n < 2 ^ 64 -> writable (VNum n)
| wr_str s : utf8_valid s = true -> writable (VStr (must_escape s) s)
| wr_arr l : Forall writable l -> writable (VArr l)
| wr_obj l : Forall (fun kv => utf8_valid (fst kv) = true /\ writable (snd kv)) l -> writable (VObj l).
