(* SpecRest.v: how often the bridge's task has to be run.  For C101. *)
From Verif Require Import Base Pkt Msg Tokio SpecConn State Mqtt SpecMqtt Wake WakeBridge SpecHost.

Definition ended (h : host) : Prop := exists log why, h_bridge h = Dead log why.
(* a run that the executor makes because the task is due *)
Definition needed (h : host) (a : hact) : bool :=
  match a with HRun _ => match h_bridge h with Dead _ _ => false | _ => h_due h end | _ => false end.
Fixpoint runs_needed (cl : client) (cfg : Cfg) (h : host) (l : list hact) : nat :=
  match l with [] => 0%nat | a :: l' => ((if needed h a then 1 else 0) + runs_needed cl cfg (hstep cl cfg h a) l')%nat end.
(* the times anything else happened *)
Definition happenings (l : list hact) : nat := length (filter (fun a => match a with HRun _ => false | _ => true end) l).
(* bytes from the panel and publishes that the bridge has not used yet *)
Definition bytes_left (h : host) : nat :=
  match h_bridge h with
  | Connecting (IRun _ _ p) _ => length (unread (p_conn p))
  | Up u => length (unread (p_conn (u_panel u)))
  | _ => 0%nat
  end.
Definition mail_left (h : host) : nat := match h_bridge h with Connecting _ rx => length rx | Up u => length (u_rx u) | Dead _ _ => 0%nat end.
