(* Log.v: what is logged: every tracing call of elkm1/src/tokio.rs, elkm1/src/state.rs and elkm1-mqtt/src/main.rs, except the one for
   other traffic of the MQTT event loop (main.rs:335).  Definitions only.

   Each function here gives the lines of the function of Tokio.v, State.v or Mqtt.v it is named after, in the same state and with the
   same arguments.  A line is its level, its text and its fields in the order recorded; all levels are given.  Not modelled: time stamp,
   thread name, target and the span of state.rs:134, which tracing-subscriber adds.  Panic: the fmt of a field panics. *)
From Verif Require Export Fmt.
From Verif Require Import Base Pkt Msg Tokio State Mqtt.

(* e.g. tokio.rs:44, state.rs:162, 275, main.rs:288 *)
Inductive level : Type := Trace | Debug | Info | Warn.
(* ?field and string fields, or %field; used at e.g. state.rs:275-281, main.rs:297-301 *)
Inductive shown : Type := ByDebug (d : dbg) | ByDisplay (s : bytes).
(* e.g. state.rs:275-281 *)
Record entry : Type := mkEntry { en_level : level; en_text : string; en_fields : list (string * shown) }.

(* ---- elkm1 ---- *)
(* tokio.rs:44 *)
Definition line_received (pkt : packet) : entry := mkEntry Trace "received packet" [("pkt"%string, ByDebug (Packet_dbg pkt))].
(* tokio.rs:65 *)
Definition line_sending (pkt : packet) : entry := mkEntry Trace "sending packet" [("pkt"%string, ByDebug (Packet_dbg pkt))].
Definition as_field (name : string) (r : ArmingStatusReport) : string * shown := (name, ByDebug (ArmingStatusReport_dbg r)).
(* state.rs:275-281 *)
Definition line_again (prior pending new : ArmingStatusReport) : entry :=
  mkEntry Warn "next arming report after suspicious transition is also suspicious; applying anyway"
    [as_field "prior" prior; as_field "pending" pending; as_field "new" new].
(* state.rs:284-288 *)
Definition line_delaying (prior pending : ArmingStatusReport) : entry :=
  mkEntry Debug "delaying arming status transition suspected to be spurious" [as_field "prior" prior; as_field "pending" pending].
(* state.rs:335 *)
Definition line_deferred (prior pending : ArmingStatusReport) : entry :=
  mkEntry Warn "deferred arming status taking effect" [as_field "prior" prior; as_field "pending" pending].

(* state.rs:259-301 interpret_arming_status *)
Definition log_arming (p : Panel) (m : ArmingStatusReport) : list entry :=
  match s_arming (p_state p) with
  | None => []
  | Some prior =>
      match pending_arm p with
      | Some (_, pending) => if is_transition_suspicious prior m then [line_again prior pending m] else []
      | None => if is_transition_suspicious prior m then [line_delaying prior m] else []
      end
  end.
(* state.rs:212-257 interpret *)
Definition log_interpret (p : Panel) (pkt : packet) : list entry :=
  match parse pkt with
  | Ok (Some (MArmingStatusReport m)) => log_arming p m
  | _ => []
  end.
(* state.rs:307-345 poll_next, with tokio.rs:38-47 *)
Definition log_poll_next (now : N) (p : Panel) : res (list entry) :=
  ' (_, r) <- conn_poll_next (p_conn p) ;;
  match r with
  | Ready (Some (IoOk pkt)) => Ok (line_received pkt :: log_interpret p pkt)
  | Pending =>
      match pending_arm p with
      | Some (deadline, pending) =>
          if deadline <=? now then
            match s_arming (p_state p) with
            | None => Panic "have prior arming_status when transition pending"
            | Some prior => Ok [line_deferred prior pending]
            end
          else Ok []
      | None => Ok []
      end
  | _ => Ok []
  end.
(* state.rs:378-390 start_send: 382, then tokio.rs:65 *)
Definition log_start_send (c : Command) (p : Panel) : res (list entry) :=
  match cmd_state p with
  | Busy _ _ _ => Panic "assertion failed: matches!(this.cmd_state, CmdState::Idle)"
  | Idle =>
      d <- Message_dbg (into_msg c) ;;
      pkt <- to_pkt (into_msg c) ;;
      Ok [mkEntry Debug "sending message" [("msg"%string, ByDebug d)]; line_sending pkt]
  end.
Definition log_step (p : Panel) (o : op) : res (list entry) :=
  match o with
  | PollNext now => log_poll_next now p
  | StartSend c => log_start_send c p
  | _ => Ok []
  end.
Fixpoint log_run (p : Panel) (os : list op) : res (list entry) :=
  match os with
  | [] => Ok []
  | o :: os' => l <- log_step p o ;; ' (p1, _) <- step p o ;; ls <- log_run p1 os' ;; Ok (l ++ ls)
  end.

(* state.rs:162, at the start of init_req *)
Definition log_init_req (s : stage) : res (list entry) :=
  d <- Message_dbg (stage_msg s) ;; Ok [mkEntry Debug "sending initialization message" [("msg"%string, ByDebug d)]].
(* a step of connecting: state.rs:161-179 init_req, up to the start of the next one *)
Definition log_istep (now : N) (ws : list wr) (i : istate) : res (list entry) :=
  match i with
  | IRun s PhReady p =>
      let '(c, _, r) := conn_poll_ready (p_conn p) ws in
      match r with
      | Ready (IoOk _) => pkt <- to_pkt (stage_msg s) ;; Ok [line_sending pkt]
      | _ => Ok []
      end
  | IRun s PhWait p =>
      ' (c, r) <- conn_poll_next (p_conn p) ;;
      match r with
      | Ready (Some (IoOk pkt)) =>
          ' (p', event, _) <- interpret now (with_conn p c) pkt ;;
          let l := line_received pkt :: log_interpret p pkt in
          match e_msg event with
          | Some (inl m) =>
              d <- Event_dbg event ;;
              if is_response_to m (stage_msg s) then
                let l := l ++ [mkEntry Debug "received reply" [("msg"%string, ByDebug d)]] in
                match after_reply s p' m with
                | IRun s' _ _ => l' <- log_init_req s' ;; Ok (l ++ l')
                | _ => Ok l
                end
              else Ok (l ++ [mkEntry Debug "received unrelated message while awaiting reply" [("msg"%string, ByDebug d)]])
          | _ => Ok l
          end
      | _ => Ok []
      end
  | _ => Ok []
  end.
Definition log_iop (i : istate) (o : iop) : res (list entry) :=
  match o with IArrive _ => Ok [] | IStep now ws => log_istep now ws i end.
Fixpoint log_iops (i : istate) (os : list iop) : res (list entry) :=
  match os with
  | [] => Ok []
  | o :: os' => l <- log_iop i o ;; ls <- log_iops (iop_step i o) os' ;; Ok (l ++ ls)
  end.
(* all that connecting logs *)
Definition log_irun (os : list iop) : res (list entry) :=
  l <- log_init_req St_as ;; ls <- log_iops (init_start conn_new) os ;; Ok (l ++ ls).

(* ---- elkm1-mqtt ---- *)
(* How rumqttc writes a Publish with ?, by topic and payload, and how bytes writes a payload, are parameters.  Used at main.rs:288 *)
Record foreign : Type := mkForeign { publish_dbg : bytes -> bytes -> dbg; payload_dbg : bytes -> dbg }.
(* main.rs:281-327 handle_publish, up to the send *)
Fixpoint log_matching (prefix : bytes) (areas : list (N * bytes)) (topic pl : bytes) : list entry :=
  match areas with
  | [] => [mkEntry Warn "ignoring publish to unknown topic" [("publish.topic"%string, ByDebug (DStr topic))]]
  | (_, name) :: areas' =>
      if negb (beq topic (area_command_topic prefix name)) then log_matching prefix areas' topic pl
      else
        mkEntry Info "matched to known area" [("area.name"%string, ByDisplay name); ("publish.topic"%string, ByDebug (DStr topic))] ::
        (if negb (utf8_valid pl) then []
         else if beq pl (B "DISARM") || beq pl (B "ARM_AWAY") || beq pl (B "ARM_HOME") then []
         else [mkEntry Warn "ignoring unknown level" [("ha_level"%string, ByDebug (DStr pl))]])
  end.
Definition log_handle_publish (f : foreign) (prefix : bytes) (areas : list (N * bytes)) (topic pl : bytes) : list entry :=
  mkEntry Info "received mqtt publish" [("publish"%string, ByDebug (publish_dbg f topic pl)); ("payload"%string, ByDebug (payload_dbg f pl))] ::
  log_matching prefix areas topic pl.
Definition log_bstep (f : foreign) (cfg : Cfg) (b : bridge) (i : input) : res (list entry) :=
  match b, i with
  | Connecting s rx, PollConnect now ws =>
      l <- log_istep now ws s ;;
      Ok (l ++ match s, istep now ws s with
               | IRun _ _ _, IDone _ => [mkEntry Info "panel initialized" []]   (* main.rs:419 *)
               | _, _ => []
               end)
  | Up u, PollPanel now =>
      match u_mode u with
      | Selecting =>
          l <- log_poll_next now (u_panel u) ;;
          match poll_next now (u_panel u) with
          | Ok (_, Ready (Some (IoOk e)), _) =>   (* main.rs:448 *)
              d <- Event_dbg e ;; Ok (l ++ [mkEntry Info "panel event" [("panel_event"%string, ByDebug d)]])
          | _ => Ok l
          end
      | _ => Ok []
      end
  | Up u, PollRx =>
      match u_mode u, u_rx u with
      | Selecting, (topic, pl) :: _ => Ok (log_handle_publish f (topic_prefix cfg) (areas cfg) topic pl)
      | _, _ => Ok []
      end
  | Up u, PollSend ws =>
      match u_mode u with
      | Feeding c =>
          match poll_ready TASK ws (u_panel u) with
          | (p, Ready (IoOk _)) => log_start_send c p
          | _ => Ok []
          end
      | _ => Ok []
      end
  | _, _ => Ok []
  end.
Fixpoint log_bsteps (f : foreign) (cl : client) (cfg : Cfg) (b : bridge) (is : list input) : res (list entry) :=
  match is with
  | [] => Ok []
  | i :: is' => l <- log_bstep f cfg b i ;; ls <- log_bsteps f cl cfg (bstep cl cfg b i) is' ;; Ok (l ++ ls)
  end.
(* all that the bridge logs *)
Definition log_brun (f : foreign) (cl : client) (cfg : Cfg) (is : list input) : res (list entry) :=
  l <- log_init_req St_as ;; ls <- log_bsteps f cl cfg (Connecting (init_start conn_new) []) is ;; Ok (l ++ ls).
