(* SpecAgree.v: two clients of one panel.  For C126. *)
From Verif Require Import Base Pkt SpecPkt Msg SpecMsg Tokio SpecConn State SpecState.

(* the arming report in effect, or held back *)
Definition newest (p : Panel) (x : ArmingStatusReport) : Prop := held p = Some x \/ (held p = None /\ status_is p x).
Definition same_newest (p q : Panel) : Prop := forall x, newest p x <-> newest q x.
Definition same_status (p q : Panel) : Prop := forall x, status_is p x <-> status_is q x.
Definition same_zone (p q : Panel) (z : N) : Prop := forall s, zone_status_is p z s <-> zone_status_is q z s.
(* m says something about zone z *)
Definition about (z : N) (m : message) : Prop :=
  match m with MZoneChange c => zc_zone c = z | MZoneStatusReport _ => True | _ => False end.
(* there is nothing left for p to read *)
Definition all_read (p : Panel) : Prop := exists c, conn_poll_next (p_conn p) = Ok (c, Pending).
(* p and q, having as much unread, have each been used in some way, while the same bytes came from the panel; each has read all of them *)
Definition same_news (p0 q0 p q : Panel) (ps : list packet) : Prop :=
  exists h g bs cs, reachable p0 /\ reachable q0 /\ Forall op_ok h /\ Forall op_ok g /\ run p0 h = Ok (p, bs) /\ run q0 g = Ok (q, cs) /\
    unread (p_conn p0) ++ arrived h = unread (p_conn q0) ++ arrived g /\ all_read p /\ all_read q /\ ps = packets (events bs).
