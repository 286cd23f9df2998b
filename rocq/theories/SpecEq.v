(* SpecEq.v: when packets and names count as equal.  For C96. *)
From Verif Require Import Base Pkt SpecPkt.

Definition alike (p q : packet) : Prop :=
  match p, q with
  | PAscii a, PAscii b => a = b
  | PRp a, PRp b => a = b
  | PInvalid a _, PInvalid b _ => a = b   (* whatever the reasons *)
  | _, _ => False
  end.
(* an RP packet cut short after a DLE that neither doubles nor ends; the next byte tells why *)
Definition cut_at_dle (raw : bytes) : Prop := exists d, raw = [16; 2] ++ dle_double d ++ [16].
