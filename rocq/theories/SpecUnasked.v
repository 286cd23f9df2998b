(* SpecUnasked.v: what the panel can be asked for without anybody having asked.  For C129. *)
From Verif Require Import Base Pkt SpecPkt Msg SpecMsg Tokio SpecConn State SpecState Serde Mqtt SpecMqtt SpecInit.

(* a request that asks what is so, and changes nothing *)
Definition query (m : message) : Prop :=
  match m with MArmingStatusRequest | MZoneStatusRequest | MStringDescriptionRequest _ => True | _ => False end.
(* what was given to the panel's socket: what it has taken, and what is buffered for it *)
Definition given (p : Panel) : bytes := sent (p_conn p) ++ wbuf (p_conn p).
Definition given_to_socket (b : bridge) : bytes :=
  match b with
  | Connecting (IRun _ _ p) _ | Connecting (IDone p) _ => given p
  | Up u => given (u_panel u)
  | _ => []
  end.
(* the commands some MQTT messages ask for, in order *)
Definition asked_for (cfg : Cfg) (ms : list (bytes * bytes)) (cs : list Command) : Prop :=
  exists os, Forall2 (asked cfg) ms os /\ catMaybes os = cs.
(* the messages that a panel reading d understands: every packet in it is one *)
Definition understood (d : bytes) (ms : list message) : Prop :=
  exists ps left, drain d = Ok (ps, left) /\ map message_of ps = map Some ms.
