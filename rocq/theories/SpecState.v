(* SpecState.v: vocabulary for the properties of Panel: what a history did, as seen by its caller. *)
From Verif Require Import Base Pkt SpecPkt Msg SpecMsg Tokio SpecConn State.

(* ---- reachable panels ---- *)
Definition op_ok (o : op) : Prop :=
  match o with
  | Arrive a => arrival_u8 a
  | StartSend c => wf_message (into_msg c)   (* the fields of a Command are within their types' ranges *)
  | _ => True
  end.
Definition iop_ok (o : iop) : Prop := match o with IArrive a => arrival_u8 a | IStep _ _ => True end.
(* p is a panel returned by a successful connect, whatever the network did *)
Definition connected (p : Panel) : Prop := exists h, Forall iop_ok h /\ irun conn_new h = IDone p.
(* p' is that panel after some calls *)
Definition reachable (p : Panel) : Prop :=
  exists p0 h bs, connected p0 /\ Forall op_ok h /\ run p0 h = Ok (p, bs).

(* ---- what the caller saw ---- *)
Definition event_of (b : obs) : option Event := match b with ONext (Ready (Some (IoOk e))) _ => Some e | _ => None end.
Fixpoint catMaybes {A : Type} (l : list (option A)) : list A :=
  match l with [] => [] | Some x :: l' => x :: catMaybes l' | None :: l' => catMaybes l' end.
Definition events (bs : list obs) : list Event := catMaybes (map event_of bs).
Definition packets (es : list Event) : list packet := catMaybes (map e_pkt es).
Definition message_of (p : packet) : option message := match parse p with Ok (Some m) => Some m | _ => None end.
Definition completions (bs : list obs) : list message := catMaybes (map e_completes (events bs)).
(* a deferred event: one without packet *)
Definition deferred (e : Event) : Prop := e_pkt e = None.

Definition accepted (h : list op) : list Command :=
  catMaybes (map (fun o => match o with StartSend c => Some c | _ => None end) h).
Definition arrived (h : list op) : bytes :=
  concat (map (fun o => match o with Arrive a => arrival_data a | _ => [] end) h).
Definition iarrived (h : list iop) : bytes :=
  concat (map (fun o => match o with IArrive a => arrival_data a | _ => [] end) h).
Definition as_report (m : message) : option ArmingStatusReport := match m with MArmingStatusReport r => Some r | _ => None end.
(* the messages among some packets, and the arming reports among those *)
Definition messages_in (ps : list packet) : list message := catMaybes (map message_of ps).
Definition reports_in (ps : list packet) : list ArmingStatusReport := catMaybes (map as_report (messages_in ps)).
(* the messages received, in order *)
Definition messages (bs : list obs) : list message := messages_in (packets (events bs)).
Definition as_reports (bs : list obs) : list ArmingStatusReport := reports_in (packets (events bs)).
(* what Message::parse says about the packet of an event *)
Definition parse_result (pkt : packet) : option (message + string) :=
  match parse pkt with Ok (Some m) => Some (inl m) | Err e => Some (inr e) | _ => None end.
(* r is the answer of a poll that yields event e *)
Definition yields (r : poll (option (io Event))) (e : Event) : Prop := r = Ready (Some (IoOk e)).

(* ---- what accessors return ---- *)
Definition status_is (p : Panel) (r : ArmingStatusReport) : Prop := panel_arming_status p = Ok r.
Definition zone_status_is (p : Panel) (z s : N) : Prop :=
  exists zs, panel_zone_statuses p = Ok zs /\ nth_error zs (N.to_nat (z - 1)) = Some s.
Definition held (p : Panel) : option ArmingStatusReport := option_map snd (pending_arm p).
Definition outstanding (p : Panel) : list message := match cmd_state p with Busy m _ _ => [m] | Idle => [] end.

(* the most recent status of zone z: the last ZS report or ZC change covering it *)
Definition zone_after (z : N) (s : N) (ms : list message) : N :=
  fold_left (fun s m => match m with
    | MZoneStatusReport zs => nth (N.to_nat (z - 1)) zs s
    | MZoneChange c => if zc_zone c =? z then zc_status c else s
    | _ => s
    end) ms s.

(* the bytes of a command on the wire *)
Definition command_frame (c : Command) (f : bytes) : Prop :=
  exists body, wire (into_msg c) body /\ ascii_frame body f.
