(* SpecLog.v: what is assumed of pretty_hex (outside /repo) where the texts of packets are concerned. *)
From Verif Require Import Base SpecPkt.

(* A dump starts with its length, and tells the bytes whatever follows it.  (pretty_hex writes "Length: n (0x..) bytes" and then, line by line,
   every byte in hexadecimal.) *)
Definition dump_ok (hex : bytes -> bytes) : Prop :=
  (forall b, exists t, hex b = B "Length:" ++ t) /\ (forall b b' r r', u8s b -> u8s b' -> hex b ++ r = hex b' ++ r' -> b = b').
