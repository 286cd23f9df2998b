(* SpecAny.v: the bridge with a panel, the network and MQTT clients as in SpecProgram.v and SpecHost.v, but with clients that publish
   whenever they like, also while commands asked for before are not complete.  For C104.
   The bridge is the one of Mqtt.v and WakeBridge.v; the rest is not code of the repository. *)
From Verif Require Import Base Pkt SpecPkt Msg SpecMsg Tokio SpecConn State SpecState Serde Mqtt SpecMqtt SpecInit SpecSend SpecServe SpecProgram Wake WakeBridge SpecHost.

Section Any.
Variables (nm : naming) (cl : client) (cfg : Cfg) (may : packet -> Prop).
(* polled at will, as in SpecProgram.v *)
Inductive goes_any (v : service) : pmove -> service -> Prop :=
| Y_goes a v' : goes nm cl cfg may v a v' -> goes_any v a v'
| Y_mqtt t pl o : readable cfg (t, pl) -> asked cfg (t, pl) o ->
    goes_any v (PDo (SMqtt t pl)) (mkService (bstep cl cfg (v_bridge v) (MqttArrive t pl)) (v_net v) (v_replied v) (v_asked v ++ catMaybes [o]) (v_events v)).
Inductive gets_to_any : service -> Prop :=
| Y_new : gets_to_any program_new
| Y_move v a v' : gets_to_any v -> goes_any v a v' -> gets_to_any v'.
Definition any_on (vs : nat -> service) (acts : nat -> pmove) : Prop :=
  vs 0%nat = program_new /\ forall n, goes_any (vs n) (acts n) (vs (S n)).
(* run only when woken, as in SpecHost.v *)
Inductive turns_any (t : hosted) : hturn -> hosted -> Prop :=
| W_turns a t' : hturns nm cl cfg may t a t' -> turns_any t a t'
| W_mqtt topic pl o : readable cfg (topic, pl) -> asked cfg (topic, pl) o ->
    turns_any t (UMqtt topic pl) (mkHosted (hstep cl cfg (t_host t) (HMqtt topic pl)) (t_net t) (t_replied t) (t_asked t ++ catMaybes [o]) (t_events t)).
Inductive turns_to_any : hosted -> Prop :=
| W_new : turns_to_any hosted_new
| W_turn t a t' : turns_to_any t -> turns_any t a t' -> turns_to_any t'.
Definition host_any (ts : nat -> hosted) (acts : nat -> hturn) : Prop :=
  ts 0%nat = hosted_new /\ forall n, turns_any (ts n) (acts n) (ts (S n)).
End Any.
(* a command is to be sent while another is not complete *)
Definition overlaps (b : bridge) : Prop := exists u c, b = Up u /\ u_mode u = Feeding c /\ outstanding (u_panel u) <> [].
(* as C99_in_order and C99_what_is_written have it: what was asked for is what is complete, what the panel was sent, what is to be sent,
   and what the channel holds; and what is written is requests for states and names, then the commands complete or under way *)
Definition in_line (cfg : Cfg) (v : service) (u : up) : Prop :=
  (exists os, Forall2 (asked cfg) (u_rx u) os /\
    map into_msg (v_asked v) = completed (v_events v) ++ outstanding (u_panel u) ++ map into_msg (waiting u ++ catMaybes os)) /\
  exists qs fs cs gs later, Forall2 request_frame qs fs /\ in_order qs /\ Forall2 command_frame cs gs /\
    sent (p_conn (u_panel u)) ++ wbuf (p_conn (u_panel u)) = concat fs ++ concat gs /\ v_asked v = cs ++ later /\
    map into_msg cs = completed (v_events v) ++ outstanding (u_panel u).
(* from v to v' the bridge did nothing: it sent, completed and published nothing; all that happened is that further messages are in the channel *)
Definition frozen (cfg : Cfg) (v v' : service) : Prop := exists u u', v_bridge v = Up u /\ v_bridge v' = Up u' /\ u_mode u' = u_mode u /\
  outstanding (u_panel u') = outstanding (u_panel u) /\ u_log u' = u_log u /\
  sent (p_conn (u_panel u')) ++ wbuf (p_conn (u_panel u')) = sent (p_conn (u_panel u)) ++ wbuf (p_conn (u_panel u)) /\ v_events v' = v_events v /\
  exists more os, u_rx u' = u_rx u ++ more /\ Forall2 (asked cfg) more os /\ v_asked v' = v_asked v ++ catMaybes os.
