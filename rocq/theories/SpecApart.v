(* SpecApart.v: what concerns one area, or one zone.  For C128. *)
From Verif Require Import Base Pkt SpecPkt Msg SpecMsg Tokio SpecConn State SpecState SpecAgree.

(* area a's part of a report (a counted from 0, as in it) *)
Definition part (a : nat) (r : ArmingStatusReport) : option ArmingStatus * option ArmUpState * option AlarmState :=
  (nth_error (arming_status r) a, nth_error (up_state r) a, nth_error (alarm_state r) a).
(* what arming_status() says of area a *)
Definition area_is (p : Panel) (a : nat) (v : option ArmingStatus * option ArmUpState * option AlarmState) : Prop := exists r, status_is p r /\ part a r = v.
Definition same_area (p q : Panel) (a : nat) : Prop := forall v, area_is p a v <-> area_is q a v.
(* what some packets say of area a, and of zone z *)
Definition area_news (a : nat) (ps : list packet) := map (part a) (reports_in ps).
Definition of_zone (z : N) (m : message) : option N :=
  match m with MZoneChange c => if zc_zone c =? z then Some (zc_status c) else None | MZoneStatusReport zs => nth_error zs (N.to_nat (z - 1)) | _ => None end.
Definition zone_news (z : N) (ps : list packet) : list N := catMaybes (map (of_zone z) (messages_in ps)).
(* by none of these reports in turn, starting from x, does any area become fully armed from disarmed *)
Definition none_at_once (x : ArmingStatusReport) (rs : list ArmingStatusReport) : Prop :=
  forall l r r' l', x :: rs = l ++ r :: r' :: l' -> ~ became_fully_armed r r'.
