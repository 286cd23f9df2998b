(* SpecServe.v: the MQTT bridge, a panel that answers, the network between them and MQTT clients that wait for one command to be
   completed before they publish the next, together, as a transition system; what a fair execution is.  For C98.
   The bridge is the one of Mqtt.v; the rest is not code of the repository. *)
From Verif Require Import Base Pkt SpecPkt Msg SpecMsg Tokio SpecConn State SpecState Serde Mqtt SpecMqtt SpecInit SpecSend.

(* the bridge; the bytes the panel has sent that are not delivered yet; how many commands the panel has answered; the commands
   asked for by MQTT messages that have arrived; the events the bridge has been given by Panel *)
Record service : Type := mkService { v_bridge : bridge; v_net : bytes; v_replied : nat; v_asked : list Command; v_events : list Event }.
Definition service_new (u : up) (net : bytes) : service := mkService (Up u) net 0 [] [].
(* the commands that events say are complete *)
Definition completed (es : list Event) : list message := catMaybes (map e_completes es).
(* the event, if any, that select! gets by polling panel.next() *)
Definition yielded_by (b : bridge) (now : N) : list Event :=
  match b with
  | Up u => match u_mode u, poll_next now (u_panel u) with Selecting, Ok (_, Ready (Some (IoOk e)), _) => [e] | _, _ => [] end
  | _ => []
  end.
Definition put_by (b : bridge) : bytes := match b with Up u => sent (p_conn (u_panel u)) | Connecting i _ => client_sent i | Dead _ _ => [] end.
(* as in SpecSend.v: the panel can answer q next *)
Definition next_request (base : bytes) (v : service) (q : message) : Prop :=
  exists qs fs rest, Forall2 request_frame (qs ++ [q]) fs /\ put_by (v_bridge v) = base ++ concat fs ++ rest /\ length qs = v_replied v.
(* not a zone status report, which makes the bridge panic: C51, C56 *)
Definition harmless (pkt : packet) : Prop := forall z, message_of pkt <> Some (MZoneStatusReport z).
(* a payload that is not UTF-8 on a command topic makes the bridge panic: C51 *)
Definition readable (cfg : Cfg) (m : bytes * bytes) : Prop :=
  utf8_valid (snd m) = true \/ forall area name, In (area, name) (areas cfg) -> fst m <> topic_prefix cfg ++ B "/area/" ++ name ++ B "/ha_command".

Inductive smove : Type :=
| SPanel (now : N) | SRx | SSend (ws : list wr)    (* the bridge's task polls panel.next(), rx.recv(), panel.send(..), if it is there *)
| SMqtt (topic pl : bytes)                         (* a publish arrives *)
| SUnasked | SReply | SDeliver | SIdle.            (* as in SpecSend.v *)
Inductive serves (cl : client) (cfg : Cfg) (may : packet -> Prop) (base : bytes) (v : service) : smove -> service -> Prop :=
| S_panel now : serves cl cfg may base v (SPanel now)
    (mkService (bstep cl cfg (v_bridge v) (PollPanel now)) (v_net v) (v_replied v) (v_asked v) (v_events v ++ yielded_by (v_bridge v) now))
| S_rx : serves cl cfg may base v SRx (mkService (bstep cl cfg (v_bridge v) PollRx) (v_net v) (v_replied v) (v_asked v) (v_events v))
| S_send ws : Forall write_ok ws -> serves cl cfg may base v (SSend ws)
    (mkService (bstep cl cfg (v_bridge v) (PollSend ws)) (v_net v) (v_replied v) (v_asked v) (v_events v))
(* any publish; one that asks for a command only when all commands asked for before are complete *)
| S_mqtt t pl o : readable cfg (t, pl) -> asked cfg (t, pl) o -> (o <> None -> length (v_asked v) = length (completed (v_events v))) ->
    serves cl cfg may base v (SMqtt t pl)
    (mkService (bstep cl cfg (v_bridge v) (MqttArrive t pl)) (v_net v) (v_replied v) (v_asked v ++ catMaybes [o]) (v_events v))
| S_unasked pkt f : valid_packet pkt -> may pkt -> harmless pkt -> frame_of pkt f ->
    serves cl cfg may base v SUnasked (mkService (v_bridge v) (v_net v ++ f) (v_replied v) (v_asked v) (v_events v))
| S_reply q m body f : next_request base v q -> replies m q -> grammar m body -> ascii_body body -> ascii_frame body f ->
    serves cl cfg may base v SReply (mkService (v_bridge v) (v_net v ++ f) (S (v_replied v)) (v_asked v) (v_events v))
| S_deliver a b : v_net v = a ++ b -> a <> [] ->
    serves cl cfg may base v SDeliver (mkService (bstep cl cfg (v_bridge v) (NetArrive (Bytes a))) b (v_replied v) (v_asked v) (v_events v))
| S_idle : serves cl cfg may base v SIdle v.
Inductive comes_to (cl : client) (cfg : Cfg) (may : packet -> Prop) (base : bytes) (v0 : service) : service -> Prop :=
| V_new : comes_to cl cfg may base v0 v0
| V_move v a v' : comes_to cl cfg may base v0 v -> serves cl cfg may base v a v' -> comes_to cl cfg may base v0 v'.

(* where it starts: the bridge is in its loop, no command is under way, and what is on its way from the panel are whole packets *)
Definition ready_to_serve (cl : client) (cfg : Cfg) (u : up) (net : bytes) : Prop :=
  (exists is, bridge_after cl cfg is (Up u)) /\ topic_ok cl (topic_prefix cfg ++ B "/event") = true /\ distinct_area_names cfg /\
  u_mode u = Selecting /\ u_rx u = [] /\ outstanding (u_panel u) = [] /\ exists pk, under_way (u_panel u) net pk /\ Forall harmless pk.

(* ---- fair executions ---- *)
Definition keeps_on (cl : client) (cfg : Cfg) (may : packet -> Prop) (base : bytes) (v0 : service) (vs : nat -> service) (acts : nat -> smove) : Prop :=
  vs 0%nat = v0 /\ forall n, serves cl cfg may base (vs n) (acts n) (vs (S n)).
Definition fair_service (base : bytes) (vs : nat -> service) (acts : nat -> smove) : Prop :=
  (* the task keeps being run: it polls the panel, the channel, and what it sends, with a socket that takes at least a byte *)
  (forall n, exists m now, (n <= m)%nat /\ acts m = SPanel now) /\
  (forall n, exists m, (n <= m)%nat /\ acts m = SRx) /\
  (forall n, exists m k ws, (n <= m)%nat /\ acts m = SSend (WAccept (S k) :: ws)) /\
  (* a command received is eventually answered *)
  (forall n, exists m, (n <= m)%nat /\ (acts m = SReply \/ forall q, ~ next_request base (vs m) q)) /\
  (* bytes sent are eventually delivered *)
  (forall n, exists m, (n <= m)%nat /\ (acts m = SDeliver \/ v_net (vs m) = [])).
