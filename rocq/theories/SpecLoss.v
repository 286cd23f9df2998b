(* SpecLoss.v: a byte that arrives wrong, not at all, or in addition.  For C132 and C133. *)
From Verif Require Import Base Pkt SpecPkt Msg SpecMsg.

(* f' is f with another byte at index i *)
Definition wrong_at (i : nat) (f f' : bytes) : Prop :=
  exists x a v y, f = x ++ a :: y /\ f' = x ++ v :: y /\ length x = i /\ v <> a /\ v < 256.
(* f' is f without the byte at index i *)
Definition lost_at (i : nat) (f f' : bytes) : Prop := exists x a y, f = x ++ a :: y /\ f' = x ++ y /\ length x = i.
(* f' is f with one more byte, which is at index i *)
Definition added_at (i : nat) (f f' : bytes) : Prop := exists x v y, f = x ++ y /\ f' = x ++ v :: y /\ length x = i /\ v < 256.
(* an invalid packet *)
Definition refused (p : packet) : Prop := exists raw why, p = PInvalid raw why.
(* f is m on the wire *)
Definition carries (f : bytes) (m : message) : Prop := exists p, to_pkt m = Ok p /\ encode p [] = Ok f.
(* a report that one of the zones 1 to 99 has changed *)
Definition zone_report (m : message) : Prop := exists z s, m = MZoneChange (mkZC z s) /\ z < 100 /\ wf_message m.
