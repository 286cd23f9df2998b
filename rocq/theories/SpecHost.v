(* SpecHost.v: what it means that the bridge, run only when it is woken, has nothing to do; and that bridge with a panel that answers,
   the network between them and MQTT clients, as in SpecProgram.v.  For C100.
   The task is the one of WakeBridge.v; the rest is not code of the repository. *)
From Verif Require Import Base Pkt SpecPkt Msg SpecMsg Tokio SpecConn State SpecState Serde Mqtt SpecMqtt SpecInit SpecSend SpecServe SpecProgram Wake WakeBridge.

Definition hact_ok (a : hact) : Prop := match a with HArrive x => arrival_u8 x | _ => True end.
(* the publishes that arrived, and the bytes from the panel *)
Definition h_mail (l : list hact) : list (bytes * bytes) := catMaybes (map (fun a => match a with HMqtt t p => Some (t, p) | _ => None end) l).
Definition h_bytes (l : list hact) : bytes := concat (map (fun a => match a with HArrive x => arrival_data x | _ => [] end) l).
(* all that has arrived from the panel is used up *)
Definition heard_all (c : conn) : Prop := decode (unread c) = Ok (None, unread c) /\ rq c = [] /\ peer_closed c = false.
(* bytes are left to write and the socket takes none *)
Definition stuffed (h : host) (c : conn) : Prop := wbuf c <> [] /\ h_room h = 0%nat /\ h_broken h = None.
(* there is nothing the bridge could do *)
Definition nothing_to_do (h : host) : Prop :=
  match h_bridge h with
  | Connecting i _ => exists s ph p, i = IRun s ph p /\ (wbuf (p_conn p) = [] /\ heard_all (p_conn p) \/ stuffed h (p_conn p))
  | Up u =>
      let c := p_conn (u_panel u) in
      match u_mode u with
      | Selecting => u_rx u = [] /\ heard_all c /\ forall d r, pending_arm (u_panel u) = Some (d, r) -> h_now h < d
      | Feeding _ => stuffed h c \/ outstanding (u_panel u) <> []       (* the command before is not complete *)
      | Flushing => stuffed h c
      end
  | Dead _ _ => False
  end.
(* what makes it due again *)
Definition would_wake (cl : client) (cfg : Cfg) (h : host) (a : hact) : Prop := h_due (hstep cl cfg h a) = true.
Definition can_be_woken (cl : client) (cfg : Cfg) (h : host) : Prop :=
  let by_panel := forall x, would_wake cl cfg h (HArrive x) in
  let by_room := (forall n, would_wake cl cfg h (HRoom (S n))) /\ forall e, would_wake cl cfg h (HBreak e) in
  match h_bridge h with
  | Connecting i _ => exists s ph p, i = IRun s ph p /\ (wbuf (p_conn p) = [] -> by_panel) /\ (wbuf (p_conn p) <> [] -> by_room)
  | Up u =>
      match u_mode u with
      | Selecting => by_panel /\ (forall t pl, would_wake cl cfg h (HMqtt t pl)) /\
          forall d r w, pending_arm (u_panel u) = Some (d, r) -> d <= h_now h + w -> would_wake cl cfg h (HWait w)
      | Feeding _ => outstanding (u_panel u) = [] \/ stuffed h (p_conn (u_panel u)) -> by_room
      | Flushing => by_room
      end
  | Dead _ _ => False
  end.
(* a command is to be sent while another is not complete *)
Definition awaits_reply (h : host) : Prop := exists u c, h_bridge h = Up u /\ u_mode u = Feeding c /\ outstanding (u_panel u) <> [].

(* ---- with a panel and MQTT clients ---- *)
(* as in SpecServe.v *)
Record hosted : Type := mkHosted { t_host : host; t_net : bytes; t_replied : nat; t_asked : list Command; t_events : list Event }.
Definition service_of (t : hosted) : service := mkService (h_bridge (t_host t)) (t_net t) (t_replied t) (t_asked t) (t_events t).
Definition hosted_new : hosted := mkHosted host_new [] 0 [] [].
(* the event the bridge gets from panel.next(), if a run polls it *)
Definition got (h : host) (first : bool) : list Event :=
  match h_bridge h with
  | Up u => if h_due h && (first || match u_rx u with [] => true | _ => false end) then yielded_by (Up u) (h_now h) else []
  | _ => []
  end.
Inductive hturn : Type :=
| URun (first : bool)            (* the executor runs the task if it is due *)
| URoom (n : nat)                (* the network takes n bytes out of the socket's send buffer *)
| UWait (d : N)                  (* time passes *)
| UWake                          (* the task is woken for no reason *)
| UMqtt (topic pl : bytes)       (* a publish arrives *)
| UUnasked | UReply | UDeliver.  (* as in SpecProgram.v *)
Section Turns.
Variables (nm : naming) (cl : client) (cfg : Cfg) (may : packet -> Prop).
Definition by_act (t : hosted) (a : hact) : hosted := mkHosted (hstep cl cfg (t_host t) a) (t_net t) (t_replied t) (t_asked t) (t_events t).
Inductive hturns (t : hosted) : hturn -> hosted -> Prop :=
| U_run first : hturns t (URun first)
    (mkHosted (hstep cl cfg (t_host t) (HRun first)) (t_net t) (t_replied t) (t_asked t) (t_events t ++ got (t_host t) first))
| U_room n : hturns t (URoom n) (by_act t (HRoom n))
| U_wait d : hturns t (UWait d) (by_act t (HWait d))
| U_wake : hturns t UWake (by_act t HWake)
| U_mqtt topic pl o : readable cfg (topic, pl) -> asked cfg (topic, pl) o -> (o <> None -> length (t_asked t) = length (completed (t_events t))) ->
    hturns t (UMqtt topic pl)
    (mkHosted (hstep cl cfg (t_host t) (HMqtt topic pl)) (t_net t) (t_replied t) (t_asked t ++ catMaybes [o]) (t_events t))
| U_unasked pkt f : valid_packet pkt -> may pkt -> harmless pkt -> (connecting (h_bridge (t_host t)) -> ~ is_name_reply pkt) -> frame_of pkt f ->
    hturns t UUnasked (mkHosted (t_host t) (t_net t ++ f) (t_replied t) (t_asked t) (t_events t))
| U_reply q m body f : next_request [] (service_of t) q -> answered nm q m -> grammar m body -> ascii_body body -> ascii_frame body f ->
    hturns t UReply (mkHosted (t_host t) (t_net t ++ f) (S (t_replied t)) (t_asked t) (t_events t))
| U_deliver a b : t_net t = a ++ b -> a <> [] ->
    hturns t UDeliver (mkHosted (hstep cl cfg (t_host t) (HArrive (Bytes a))) b (t_replied t) (t_asked t) (t_events t)).
Inductive turns_to : hosted -> Prop :=
| U_new : turns_to hosted_new
| U_turn t a t' : turns_to t -> hturns t a t' -> turns_to t'.
Definition turns_on (ts : nat -> hosted) (acts : nat -> hturn) : Prop :=
  ts 0%nat = hosted_new /\ forall n, hturns (ts n) (acts n) (ts (S n)).
End Turns.
(* ---- fair executions ---- *)
Definition fair_host (ts : nat -> hosted) (acts : nat -> hturn) : Prop :=
  (* the task, if due, is eventually run, and select! does not prefer one branch for ever; it need not be run otherwise *)
  (forall first n, exists m, (n <= m)%nat /\ (acts m = URun first \/ h_due (t_host (ts m)) = false)) /\
  (* there is eventually room in the socket *)
  (forall n, exists m, (n <= m)%nat /\ h_room (t_host (ts m)) <> 0%nat) /\
  (* whatever the panel receives is eventually answered *)
  (forall n, exists m, (n <= m)%nat /\ (acts m = UReply \/ forall q, ~ next_request [] (service_of (ts m)) q)) /\
  (* bytes sent are eventually delivered *)
  (forall n, exists m, (n <= m)%nat /\ (acts m = UDeliver \/ t_net (ts m) = [])).
