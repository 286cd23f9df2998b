(* SpecTruth.v: an Elk M1 that is what it says, but for the fault that /repo/elkm1/src/state.rs:60-68 describes: when an area is armed with an exit delay,
   it first sends a report in which the area is fully armed, and directly after it the right one.  For C117. *)
From Verif Require Import Base Pkt SpecPkt Msg SpecMsg State SpecState.

(* how things are: the arming of the areas, and the zones' statuses *)
Record truth : Type := mkTruth { arming_now : ArmingStatusReport; zone_now : N -> N }.
(* what the panel does, with the packets it sends then *)
Inductive deed : Type :=
| DZone (z s : N) (x : packet)                                      (* a zone changes its status, or may; it tells so *)
| DArm (a : ArmingStatusReport) (x : packet)                        (* the arming of areas changes, or may; it tells so *)
| DSpurious (f a : ArmingStatusReport) (x y : packet)               (* it changes to a; it tells f, and then a *)
| DZones (zs : list N) (x : packet)                                 (* it tells all zones' statuses *)
| DOther (x : packet).                                              (* it sends something else *)
Definition sent1 (d : deed) : list packet := match d with DZone _ _ x | DArm _ x | DZones _ x | DOther x => [x] | DSpurious _ _ x y => [x; y] end.
Definition sent (ds : list deed) : list packet := concat (map sent1 ds).
Definition after1 (t : truth) (d : deed) : truth :=
  match d with
  | DZone z s _ => mkTruth (arming_now t) (fun z' => if z' =? z then s else zone_now t z')
  | DArm a _ | DSpurious _ a _ _ => mkTruth a (zone_now t)
  | DZones _ _ | DOther _ => t
  end.
Definition after (t : truth) (ds : list deed) : truth := fold_left after1 ds t.
(* f is right about how the areas are armed, but has one that was disarmed as fully armed already *)
Definition spurious (t : truth) (f a : ArmingStatusReport) : Prop := became_fully_armed (arming_now t) f /\ arming_status f = arming_status a.
Definition fits (t : truth) (d : deed) : Prop :=
  match d with
  | DZone z s x => message_of x = Some (MZoneChange (mkZC z s))
  | DArm a x => message_of x = Some (MArmingStatusReport a)
  | DSpurious f a x y => message_of x = Some (MArmingStatusReport f) /\ message_of y = Some (MArmingStatusReport a) /\ spurious t f a
  | DZones zs x => message_of x = Some (MZoneStatusReport zs) /\ forall z, zone_ok z -> nth_error zs (N.to_nat (z - 1)) = Some (zone_now t z)
  | DOther x => match message_of x with Some (MZoneChange _) | Some (MArmingStatusReport _) | Some (MZoneStatusReport _) => False | _ => True end
  end.
(* the panel does ds, beginning with t *)
Definition does (t : truth) (ds : list deed) : Prop := forall ds1 d ds2, ds = ds1 ++ d :: ds2 -> fits (after t ds1) d.

(* no spurious report comes directly after a right one by which an area has become fully armed from disarmed *)
Definition spaced (ds : list deed) : Prop := forall ds1 f a x y ds2 rs r r', ds = ds1 ++ DSpurious f a x y :: ds2 -> reports_in (sent ds1) = rs ++ [r; r'] -> ~ became_fully_armed r r'.
(* ps is what was sent until after ds1; or until in the middle of a correction that follows, which leaves things as they were after ds1 *)
Definition up_to (ds1 ds2 : list deed) (ps : list packet) : Prop :=
  ps = sent ds1 \/ exists f a x y ds3, ds2 = DSpurious f a x y :: ds3 /\ ps = sent ds1 ++ [x].
(* no waiting is over (an event without packet is due) in the middle of a correction *)
Definition in_time (ds : list deed) (ps0 : list packet) (es : list Event) : Prop :=
  forall es1 e es2, es = es1 ++ e :: es2 -> deferred e -> exists ds1 ds2, ds = ds1 ++ ds2 /\ ps0 ++ packets es1 = sent ds1.
