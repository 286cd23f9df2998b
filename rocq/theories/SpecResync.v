(* SpecResync.v: bytes that bring a decoder back in step.  For C136. *)
From Verif Require Import Base SpecPkt.

(* bytes no packet begins with: neither an uppercase hex digit nor DLE; CR and LF, for instance *)
Definition filler (g : bytes) : Prop := Forall (fun b => b < 256 /\ ~ is_hex_digit b /\ b <> 16) g.
(* an RP packet that has no room for its CRC in the 1024 bytes a packet may have *)
Definition stuck (b : bytes) : Prop :=
  exists d tail, b = [16; 2] ++ dle_double d ++ [16; 3] ++ tail /\ (length (dle_double d) = N.to_nat 1019 \/ length (dle_double d) = N.to_nat 1020).
(* there is one somewhere in b *)
Definition has_stuck (b : bytes) : Prop := exists x y, b = x ++ y /\ stuck y.
