(* Fmt.v: what the Debug implementations of state.rs write, as FmtMsg.v has those of msg.rs and pkt.rs.  Definitions only. *)
From Verif Require Export FmtMsg.
From Verif Require Import Base Pkt Msg State.
From Coq Require Import String.
Open Scope string_scope.
Open Scope N_scope.
Open Scope list_scope.

(* ---- state.rs ---- *)
(* state.rs:490-505 Change *)
Definition Change_dbg (c : Change) : res dbg :=
  match c with
  | CZoneChange z s => d <- ZoneStatus_dbg s ;; Ok (DStruct "ZoneChange" [("zone", limited_dbg z); ("prior", d)])
  | CArmingStatus r => Ok (DStruct "ArmingStatus" [("prior", ArmingStatusReport_dbg r)])
  end.
(* state.rs:472-480 Event *)
Definition Event_dbg (e : Event) : res dbg :=
  p <- dbg_option (fun p => Ok (Packet_dbg p)) (e_pkt e) ;;
  m <- dbg_option Outcome_dbg (e_msg e) ;;
  c <- dbg_option Message_dbg (e_completes e) ;;
  x <- dbg_option Change_dbg (e_change e) ;;
  Ok (DStruct "Event" [("pkt", p); ("msg", m); ("completes", c); ("change", x)]).
(* state.rs:507-511 Command *)
Definition Command_dbg (c : Command) : res dbg :=
  match c with
  | CmdArm m => d <- ArmRequest_dbg m ;; Ok (DTuple "Arm" [d])
  | CmdActivateTask t => Ok (DTuple "ActivateTask" [ActivateTask_dbg t])
  end.
(* state.rs:422-429 PanelState *)
Definition PanelState_dbg (s : PanelState) : res dbg :=
  a <- dbg_option (fun r => Ok (ArmingStatusReport_dbg r)) (s_arming s) ;;
  z <- dbg_option ZoneStatusReport_dbg (s_zones s) ;;
  n <- TextDescriptions_dbg (zone_names s) ;;
  r <- TextDescriptions_dbg (area_names s) ;;
  t <- TextDescriptions_dbg (task_names s) ;;
  Ok (DStruct "PanelState" [("arming_status", a); ("zone_statuses", z); ("zone_names", n); ("area_names", r); ("task_names", t)]).
