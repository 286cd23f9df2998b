(* SpecSettle.v: nothing changes any more.  For C124. *)
From Verif Require Import Base Pkt SpecPkt Msg SpecMsg State SpecState Mqtt SpecMqtt Wake WakeBridge SpecHost SpecShown SpecTruth.

(* the panel does something by which nothing changes: it tells what is so already, or sends something else *)
Definition idle (t : truth) (d : deed) : Prop :=
  match d with
  | DZone z s _ => s = zone_now t z
  | DArm a _ => a = arming_now t
  | DSpurious _ _ _ _ => False
  | DZones _ _ | DOther _ => True
  end.
(* time passes, without end *)
Definition time_passes (ts : nat -> hosted) : Prop := forall T, exists m, T <= h_now (t_host (ts m)).
(* the bridge gets to rest again and again *)
Definition gets_to_rest (ts : nat -> hosted) : Prop := forall n, exists m, (n <= m)%nat /\ listening (t_host (ts m)).
