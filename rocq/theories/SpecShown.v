(* SpecShown.v: when the bridge's task has done all it can do for now, and how long ago that was.  For C102. *)
From Verif Require Import Base Pkt Msg Tokio State Mqtt Wake WakeBridge.

(* it is connected, is not due and is not sending a command: it waits for the panel and for publishes *)
Definition listening (h : host) : Prop := h_due h = false /\ exists u, h_bridge h = Up u /\ u_mode u = Selecting.
Definition no_arrival (a : hact) : Prop := match a with HArrive _ => False | _ => True end.
(* since l1, nothing has come from the panel for at least five seconds *)
Definition quiet_for_5s (cl : client) (cfg : Cfg) (l1 l2 : list hact) : Prop :=
  Forall no_arrival l2 /\ h_now (hrun cl cfg l1) + 5000 <= h_now (hrun cl cfg (l1 ++ l2)).
