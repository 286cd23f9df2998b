(* SpecPkt.v: what a framed packet is, written independently of the model in Pkt.v.
   Sources: the doc comments pkt.rs:165-200 and pkt.rs:337-351, and the Elk checksum rule quoted at
   pkt.rs:239-241.  Only byte strings (list N) and ordinary arithmetic are used. *)
From Verif Require Import Base.
From Verif Require Pkt.  (* only for the type Pkt.packet *)

Definition u8s (s : bytes) : Prop := Forall (fun b => b < 256) s.

(* The i-th uppercase hexadigit. *)
Definition hex_digit (i : nat) (c : N) : Prop := nth_error (B "0123456789ABCDEF") i = Some c.

(* [s] is the two uppercase hexadigits of n, most significant first. *)
Definition hex2 (n : N) (s : bytes) : Prop :=
  exists i j a b, hex_digit i a /\ hex_digit j b /\ n = 16 * N.of_nat i + N.of_nat j /\ s = [a; b].

Definition is_hex_digit (c : N) : Prop := exists i, hex_digit i c.

Fixpoint byte_sum (s : bytes) : N := match s with [] => 0 | b :: s' => b + byte_sum s' end.

(* pkt.rs:188-193: printable ASCII, length within [2, 253]. *)
Definition printable (b : N) : Prop := 32 <= b <= 126.
Definition ascii_body (body : bytes) : Prop :=
  Forall printable body /\ (2 <= length body <= 253)%nat.

(* pkt.rs:170-186: NN body CC CR LF.  NN counts body and checksum; the sum of all bytes before the
   checksum plus the checksum is 0 modulo 256. *)
Definition ascii_frame (body frame : bytes) : Prop :=
  exists nn cc c,
    hex2 (N.of_nat (length body) + 2) nn /\
    hex2 c cc /\
    (byte_sum (nn ++ body) + c) mod 256 = 0 /\
    frame = nn ++ body ++ cc ++ [13; 10].

(* ---- CRC-16/XMODEM as polynomial division over GF(2) ----
   A polynomial is an N: bit i is the coefficient of x^i.  Addition is xor, multiplication by x^k a
   shift. *)
Fixpoint pmul_pos (p : positive) (q : N) : N :=
  match p with
  | xH => q
  | xO p' => N.double (pmul_pos p' q)
  | xI p' => N.lxor q (N.double (pmul_pos p' q))
  end.
Definition pmul (p q : N) : N := match p with N0 => 0 | Npos p' => pmul_pos p' q end.

(* The message as a polynomial: its bits, first byte first, most significant bit first. *)
Fixpoint poly_of_bytes (acc : N) (d : bytes) : N :=
  match d with [] => acc | b :: d' => poly_of_bytes (acc * 256 + b) d' end.

(* x^16 + x^12 + x^5 + 1 *)
Definition xmodem_poly : N := 2 ^ 16 + 2 ^ 12 + 2 ^ 5 + 1.

(* c is the remainder of d(x) * x^16 divided by the generator. *)
Definition crc16_xmodem (d : bytes) (c : N) : Prop :=
  c < 2 ^ 16 /\
  exists q, N.shiftl (poly_of_bytes 0 d) 16 = N.lxor (pmul q xmodem_poly) c.

(* pkt.rs:341-349: DLE STX, body with every DLE doubled, DLE ETX, CRC big-endian; at most 1024 bytes. *)
Fixpoint dle_double (d : bytes) : bytes :=
  match d with
  | [] => []
  | b :: d' => if b =? 16 then 16 :: 16 :: dle_double d' else b :: dle_double d'
  end.
Definition rp_frame (d frame : bytes) : Prop :=
  exists hi lo c,
    crc16_xmodem d c /\ c = hi * 256 + lo /\ hi < 256 /\ lo < 256 /\
    frame = [16; 2] ++ dle_double d ++ [16; 3] ++ [hi; lo].

(* The framed length limit of pkt.rs:348-349, as enforced by RpPacket::try_from. *)
Definition rp_body (d : bytes) : Prop :=
  u8s d /\ (length (dle_double d) + 6 <= N.to_nat 1024)%nat.

(* ---- What the decoder does with a buffer, case by case ----
   [decodes src o rest]: on the buffer src the decoder answers o (None = "need more bytes") and
   leaves rest in the buffer.  The packet type and its three constructors are parameters; an invalid
   packet is built from the kind of complaint (with the right CRC, or the byte after a lone DLE) and the offending bytes. *)
Inductive complaint : Type := BadAsciiFrame | BadCrc (right : N) | BadSequence (c : N) | TooLong | NoPrefix.

Definition begins_packet (s : bytes) : Prop :=
  (exists t, s = [16; 2] ++ t) \/
  (exists a b t, s = [a; b] ++ t /\ is_hex_digit a /\ is_hex_digit b).

Section Decodes.
Context {packet : Type} (ascii rp : bytes -> packet) (invalid : complaint -> bytes -> packet).
Let limit : nat := N.to_nat 1024.

Inductive decodes : bytes -> option packet -> bytes -> Prop :=
(* fewer than two bytes *)
| D_short src : (length src < 2)%nat -> decodes src None src
(* two hex digits: an ASCII frame of the announced length *)
| D_ascii body frame rest :
    ascii_body body -> ascii_frame body frame -> decodes (frame ++ rest) (Some (ascii body)) rest
| D_ascii_bad n a b t rest :
    hex2 n [a; b] -> N.of_nat (length t) = n + 2 ->
    (forall body, ascii_body body -> ~ ascii_frame body ([a; b] ++ t)) ->
    decodes (([a; b] ++ t) ++ rest) (Some (invalid BadAsciiFrame ([a; b] ++ t))) rest
| D_ascii_wait n a b t :
    hex2 n [a; b] -> N.of_nat (length t) < n + 2 -> decodes ([a; b] ++ t) None ([a; b] ++ t)
(* DLE STX: an RP frame *)
| D_rp d frame rest :
    rp_frame d frame -> (length frame <= limit)%nat -> decodes (frame ++ rest) (Some (rp d)) rest
| D_rp_crc d hi lo right rest :
    let frame := [16; 2] ++ dle_double d ++ [16; 3] ++ [hi; lo] in
    ~ rp_frame d frame -> (length frame <= limit)%nat -> crc16_xmodem d right ->
    decodes (frame ++ rest) (Some (invalid (BadCrc right) frame)) rest
| D_rp_seq d c rest :
    let junk := [16; 2] ++ dle_double d ++ [16] in
    c <> 16 -> c <> 3 -> (length junk < limit)%nat ->
    decodes (junk ++ c :: rest) (Some (invalid (BadSequence c) junk)) (c :: rest)
| D_rp_long d tail rest :
    let junk := [16; 2] ++ dle_double d ++ tail in
    tail = [] \/ tail = [16] -> length junk = limit ->
    decodes (junk ++ rest) (Some (invalid TooLong junk)) rest
| D_rp_wait d tail :
    let src := [16; 2] ++ dle_double d ++ tail in
    tail = [] \/ tail = [16] -> (length src < limit)%nat -> decodes src None src
| D_rp_wait_crc d tail :
    let src := [16; 2] ++ dle_double d ++ [16; 3] ++ tail in
    (length tail < 2)%nat -> (length src < limit)%nat -> decodes src None src
(* DLE ETX in the last bytes of the 1024-byte window: the decoder waits, however much follows *)
| D_rp_stall d tail :
    let head := [16; 2] ++ dle_double d ++ [16; 3] in
    let src := head ++ tail in
    (limit <= length src)%nat -> (limit - 1 <= length head <= limit)%nat -> decodes src None src
(* anything else is skipped up to the next possible packet start, or to the limit *)
| D_garbage junk rest :
    junk <> [] ->
    (forall i, (i < length junk)%nat -> ~ begins_packet (skipn i (junk ++ rest))) ->
    ((length junk < limit)%nat /\ begins_packet rest /\ (2 < length rest)%nat \/
     length junk = limit /\ (2 <= length rest)%nat) ->
    decodes (junk ++ rest) (Some (invalid NoPrefix junk)) rest
| D_garbage_wait src :
    (2 <= length src <= limit + 1)%nat ->
    (forall i, (i = 0 \/ i + 2 < length src)%nat -> ~ begins_packet (skipn i src)) ->
    decodes src None src.
End Decodes.

(* The packets that TryFrom accepts, and the frame of each packet. *)
Definition valid_packet (p : Pkt.packet) : Prop :=
  match p with
  | Pkt.PAscii b => ascii_body b
  | Pkt.PRp d => rp_body d
  | Pkt.PInvalid _ _ => False
  end.
Definition frame_of (p : Pkt.packet) (f : bytes) : Prop :=
  match p with
  | Pkt.PAscii b => ascii_frame b f
  | Pkt.PRp d => rp_frame d f
  | Pkt.PInvalid raw _ => f = raw
  end.
