(* SpecCalm.v: how often the task of `elkm1-cli watch` has to be run.  For C110. *)
From Verif Require Import Base Pkt Msg Tokio SpecConn State Cli WakeWatch SpecView.

Definition over (v : viewer) : Prop := (exists log, y_watch v = WDone log) \/ exists log why, y_watch v = WCrash log why.
(* a run that the executor makes because the task is due; one that has ended is not run *)
Definition run_needed (v : viewer) (a : yact) : bool :=
  match a with YRun => match y_watch v with WDone _ | WCrash _ _ => false | _ => y_due v end | _ => false end.
Fixpoint needed_runs (v : viewer) (l : list yact) : nat :=
  match l with [] => 0%nat | a :: l' => ((if run_needed v a then 1 else 0) + needed_runs (ystep v a) l')%nat end.
(* the times anything else happened *)
Definition occurrences (l : list yact) : nat := length (filter (fun a => match a with YRun => false | _ => true end) l).
Definition y_bytes (l : list yact) : bytes := concat (map (fun a => match a with YArrive x => arrival_data x | _ => [] end) l).
(* bytes from the panel that have not been used yet *)
Definition unused (v : viewer) : nat :=
  match y_watch v with WConnecting (IRun _ _ p) => length (unread (p_conn p)) | WLoop p _ => length (unread (p_conn p)) | _ => 0%nat end.
