(* State.v: model of /repo/elkm1/src/state.rs (Panel).  Definitions only.

   Time is in milliseconds (N) and is given to every poll; a Sleep is its deadline and is ready when
   polled at or after it.  Wakers are numbers; will_wake is equality.  Logging is not modelled. *)
From Verif Require Export Base Pkt Msg Tokio.
From Verif Require FmtMsg Layout.

(* state.rs:92 SUSPICIOUS_TRANSITION_DELAY = 5 s *)
Definition SUSPICIOUS_TRANSITION_DELAY : N := 5000.

(* state.rs:423-429 PanelState *)
Record PanelState : Type := mkState {
  s_arming : option ArmingStatusReport;
  s_zones : option (list N);
  zone_names : list bytes; area_names : list bytes; task_names : list bytes }.
(* state.rs:455-465 Default; msg.rs:1352 TextDescriptions::ALL_EMPTY *)
Definition PanelState_default : PanelState :=
  mkState None None (repeat TextDescription_EMPTY NUM_ZONES) (repeat TextDescription_EMPTY NUM_AREAS)
    (repeat TextDescription_EMPTY NUM_TASKS).

(* state.rs:523-532 CmdState *)
Inductive CmdState : Type :=
| Idle
| Busy (request : message) (flushed : bool) (waker : option nat).

(* state.rs:94-99 Panel *)
Record Panel : Type := mkPanel {
  p_conn : conn; p_state : PanelState;
  pending_arm : option (N * ArmingStatusReport);
  cmd_state : CmdState }.

(* state.rs:496-505 Change *)
Inductive Change : Type :=
| CZoneChange (zone prior : N)
| CArmingStatus (prior : ArmingStatusReport).
(* state.rs:473-480 Event; msg is Option<Result<Message, Error>> *)
Record Event : Type := mkEvent {
  e_pkt : option packet; e_msg : option (message + string);
  e_completes : option message; e_change : option Change }.
(* state.rs:508-511 Command and 514-519 into_msg *)
Inductive Command : Type := CmdArm (m : ArmRequest) | CmdActivateTask (task : N).
Definition into_msg (c : Command) : message :=
  match c with CmdArm m => MArmRequest m | CmdActivateTask t => MActivateTask t end.

(* ---- accessors (state.rs:112-132) ---- *)
Definition panel_zone_name (p : Panel) (zone : N) : res bytes :=
  i <- to_index zone ;; index (zone_names (p_state p)) i.
Definition panel_area_names (p : Panel) : list bytes := area_names (p_state p).
Definition panel_arming_status (p : Panel) : res ArmingStatusReport :=
  match s_arming (p_state p) with Some r => Ok r | None => Panic "arming_status is set post-init" end.
Definition panel_zone_statuses (p : Panel) : res (list N) :=
  match s_zones (p_state p) with Some z => Ok z | None => Panic "zone_status is set post-init" end.

(* ---- record updates ---- *)
(* `self.conn`: state.rs:94-99 *)
Definition with_conn (p : Panel) (c : conn) : Panel := mkPanel c (p_state p) (pending_arm p) (cmd_state p).
(* `self.state`: state.rs:94-99 *)
Definition with_state (p : Panel) (s : PanelState) : Panel := mkPanel (p_conn p) s (pending_arm p) (cmd_state p).
(* `self.pending_arm`: state.rs:94-99 *)
Definition with_pending (p : Panel) (x : option (N * ArmingStatusReport)) : Panel :=
  mkPanel (p_conn p) (p_state p) x (cmd_state p).
(* `self.cmd_state`: state.rs:94-99 *)
Definition with_cmd (p : Panel) (x : CmdState) : Panel := mkPanel (p_conn p) (p_state p) (pending_arm p) x.
(* state.rs:423-429 *)
Definition with_arming (p : Panel) (r : ArmingStatusReport) : Panel :=
  let s := p_state p in
  with_state p (mkState (Some r) (s_zones s) (zone_names s) (area_names s) (task_names s)).
(* state.rs:423-429 *)
Definition with_zones (p : Panel) (z : list N) : Panel :=
  let s := p_state p in
  with_state p (mkState (s_arming s) (Some z) (zone_names s) (area_names s) (task_names s)).

(* state.rs:259-301 interpret_arming_status *)
Definition interpret_arming_status (now : N) (p : Panel) (m : ArmingStatusReport) : Panel * option Change :=
  match s_arming (p_state p) with
  | None => (with_arming p m, None)
  | Some prior =>
      let apply (p : Panel) :=
        if ArmingStatusReport_eqb prior m then (p, None)
        else (with_arming p m, Some (CArmingStatus prior)) in
      match pending_arm p with
      | Some _ => apply (with_pending p None)
      | None =>
          if is_transition_suspicious prior m
          then (with_pending p (Some (now + SUSPICIOUS_TRANSITION_DELAY, m)), None)
          else apply p
      end
  end.

(* state.rs:217-238, the match on the message *)
Definition interpret_msg (now : N) (p : Panel) (m : message) : res (Panel * option Change) :=
  match m with
  | MArmingStatusReport r => Ok (interpret_arming_status now p r)
  | MZoneChange z =>
      match s_zones (p_state p) with
      | None => Ok (p, None)
      | Some zs =>
          i <- to_index (zc_zone z) ;;
          s <- index zs i ;;
          zs' <- set_nth zs i (zc_status z) ;;
          Ok (with_zones p zs',
              if s =? zc_status z then None else Some (CZoneChange (zc_zone z) s))
      end
  | MZoneStatusReport zs => Ok (with_zones p zs, None)
  | _ => Ok (p, None)
  end.

(* state.rs:239-249, the match on cmd_state; also returns the waker that is woken *)
Definition interpret_reply (p : Panel) (m : message) : Panel * option message * option nat :=
  match cmd_state p with
  | Busy request _ waker =>
      if is_response_to m request then (with_cmd p Idle, Some request, waker) else (p, None, None)
  | Idle => (p, None, None)
  end.

(* state.rs:212-257 interpret.  Message::parse(&pkt).transpose() turns Ok(None) into None. *)
Definition interpret (now : N) (p : Panel) (pkt : packet) : res (Panel * Event * option nat) :=
  match parse pkt with
  | Panic w => Panic w
  | Ok None => Ok (p, mkEvent (Some pkt) None None None, None)
  | Err e => Ok (p, mkEvent (Some pkt) (Some (inr e)) None None, None)
  | Ok (Some m) =>
      ' (p1, change) <- interpret_msg now p m ;;
      let '(p2, reply_to, woken) := interpret_reply p1 m in
      Ok (p2, mkEvent (Some pkt) (Some (inl m)) reply_to change, woken)
  end.

(* state.rs:307-345 <Panel as Stream>::poll_next; also returns the waker that is woken *)
Definition poll_next (now : N) (p : Panel) : res (Panel * poll (option (io Event)) * option nat) :=
  ' (c, r) <- conn_poll_next (p_conn p) ;;
  let p := with_conn p c in
  match r with
  | Ready (Some (IoErr e)) => Ok (p, Ready (Some (IoErr e)), None)
  | Ready None => Ok (p, Ready None, None)
  | Ready (Some (IoOk pkt)) =>
      ' (p', event, woken) <- interpret now p pkt ;;
      Ok (p', Ready (Some (IoOk event)), woken)
  | Pending =>
      match pending_arm p with
      | Some (deadline, pending) =>
          if deadline <=? now then
            match s_arming (p_state p) with
            | None => Panic "have prior arming_status when transition pending"
            | Some prior =>
                Ok (with_pending (with_arming p pending) None,
                    Ready (Some (IoOk (mkEvent None None None (Some (CArmingStatus prior))))), None)
            end
          else Ok (p, Pending, None)
      | None => Ok (p, Pending, None)
      end
  end.

(* state.rs:352-376 <Panel as Sink>::poll_ready, for the task whose waker is w *)
Definition poll_ready (w : nat) (ws : list wr) (p : Panel) : Panel * poll (io unit) :=
  match cmd_state p with
  | Idle => (p, Ready (IoOk tt))
  | Busy request flushed waker =>
      let waiting (p : Panel) := (with_cmd p (Busy request true (Some w)), Pending) in
      if flushed then waiting p
      else
        let '(c, _, r) := conn_poll_flush (p_conn p) ws in
        let p := with_conn p c in
        match r with
        | Ready (IoOk _) => waiting p
        | o => (p, o)
        end
  end.

(* state.rs:378-390 <Panel as Sink>::start_send *)
Definition start_send (c : Command) (p : Panel) : res Panel :=
  match cmd_state p with
  | Busy _ _ _ => Panic "assertion failed: matches!(this.cmd_state, CmdState::Idle)"
  | Idle =>
      let msg := into_msg c in
      pkt <- to_pkt msg ;;
      conn <- conn_start_send (p_conn p) pkt ;;
      Ok (with_cmd (with_conn p conn) (Busy msg false None))
  end.

(* state.rs:392-408 <Panel as Sink>::poll_flush *)
Definition panel_flush (ws : list wr) (p : Panel) : Panel * list wr * poll (io unit) :=
  match cmd_state p with
  | Busy request false waker =>
      let '(c, ws', r) := conn_poll_flush (p_conn p) ws in
      let p := with_conn p c in
      match r with
      | Ready (IoOk _) => (with_cmd p (Busy request true waker), ws', Ready (IoOk tt))
      | o => (p, ws', o)
      end
  | _ => (p, ws, Ready (IoOk tt))
  end.
Definition poll_flush (ws : list wr) (p : Panel) : Panel * poll (io unit) :=
  let '(p', _, r) := panel_flush ws p in (p', r).

(* state.rs:410-419 <Panel as Sink>::poll_close *)
Definition poll_close (ws : list wr) (p : Panel) : Panel * poll (io unit) :=
  let '(p', ws', r) := panel_flush ws p in
  match r with
  | Ready (IoOk _) =>
      let '(c, _, r') := conn_poll_close (p_conn p') ws' in (with_conn p' c, r')
  | o => (p', o)
  end.

(* ---- histories: any calls on the Panel, with the network delivering anything in between ---- *)
(* the calls of state.rs:304-420 *)
Inductive op : Type :=
| Arrive (a : arrival)
| PollNext (now : N)
| PollReady (w : nat) (ws : list wr)
| StartSend (c : Command)
| PollFlush (ws : list wr)
| PollClose (ws : list wr).
(* what the caller sees; what state.rs:304-420 return *)
Inductive obs : Type :=
| ONone
| ONext (r : poll (option (io Event))) (woken : option nat)
| OSink (r : poll (io unit)).
(* the calls of state.rs:304-420 *)
Definition step (p : Panel) (o : op) : res (Panel * obs) :=
  match o with
  | Arrive a => Ok (with_conn p (arrive (p_conn p) a), ONone)
  | PollNext now => ' (p', r, woken) <- poll_next now p ;; Ok (p', ONext r woken)
  | PollReady w ws => let '(p', r) := poll_ready w ws p in Ok (p', OSink r)
  | StartSend c => p' <- start_send c p ;; Ok (p', ONone)
  | PollFlush ws => let '(p', r) := poll_flush ws p in Ok (p', OSink r)
  | PollClose ws => let '(p', r) := poll_close ws p in Ok (p', OSink r)
  end.
(* the calls of state.rs:304-420 *)
Fixpoint run (p : Panel) (os : list op) : res (Panel * list obs) :=
  match os with
  | [] => Ok (p, [])
  | o :: os' => ' (p1, b) <- step p o ;; ' (p2, bs) <- run p1 os' ;; Ok (p2, b :: bs)
  end.

(* ---- initialisation (state.rs:135-209) as a step machine ----
   with_connection is a sequence of requests; each is sent (SinkExt::send: poll_ready, start_send,
   poll_flush) and then its reply is awaited.  A poll of the future is some number of the steps below, up
   to one that leaves the state unchanged because the connection is Pending. *)
Inductive stage : Type :=
| St_as                                                        (* init_req as: state.rs:142 *)
| St_zs                                                        (* init_req zs: state.rs:143 *)
| St_sd (ty : TextDescriptionType) (max unfilled_i : nat).     (* inside send_sds: state.rs:181-209 *)
Inductive phase : Type := PhReady | PhFlush | PhWait.
Inductive istate : Type :=
| IRun (s : stage) (ph : phase) (p : Panel)
| IDone (p : Panel)
| IFail (e : string)
| ICrash (why : string).

(* state.rs:142-149: what follows; send_sds's loop condition (state.rs:187) is checked here *)
Definition stage_msg (s : stage) : message :=
  match s with
  | St_as => MArmingStatusRequest
  | St_zs => MZoneStatusRequest
  | St_sd ty _ i => MStringDescriptionRequest (mkSdReq ty ((N.of_nat i mod 256) + 1))
  end.
(* state.rs:144-149: after send_sds for one type, the next *)
Definition after_sds (ty : TextDescriptionType) (p : Panel) : istate :=
  match ty with
  | TT_Area => IRun (St_sd TT_Task NUM_TASKS 0) PhReady p
  | TT_Task => IRun (St_sd TT_Zone NUM_ZONES 0) PhReady p
  | _ => IDone p
  end.
(* state.rs:444-451 names_mut *)
Definition names_of (s : PanelState) (ty : TextDescriptionType) : option (list bytes) :=
  match ty with
  | TT_Area => Some (area_names s)
  | TT_Task => Some (task_names s)
  | TT_Zone => Some (zone_names s)
  | _ => None
  end.
Definition set_names (s : PanelState) (ty : TextDescriptionType) (l : list bytes) : PanelState :=
  match ty with
  | TT_Area => mkState (s_arming s) (s_zones s) (zone_names s) l (task_names s)
  | TT_Task => mkState (s_arming s) (s_zones s) (zone_names s) (area_names s) l
  | TT_Zone => mkState (s_arming s) (s_zones s) l (area_names s) (task_names s)
  | _ => s
  end.

(* state.rs:192-206: what send_sds does with the reply *)
Definition sds_reply (ty : TextDescriptionType) (max unfilled_i : nat) (p : Panel) (m : message) : istate :=
  match m with
  | MStringDescriptionResponse r =>
      if negb (TextDescriptionType_eqb ty (sd_ty r)) then ICrash "debug_assert_eq!(ty, reply.ty)"
      else
        match names_of (p_state p) ty with
        | None => ICrash "have names for ty"
        | Some names =>
            if sd_num r =? 0 then after_sds ty p
            else
              let reply_i := N.to_nat (sd_num r - 1) in
              if (reply_i <? unfilled_i)%nat then ICrash "assertion failed: reply_i >= unfilled_i"
              else
                match set_nth names reply_i (sd_text r) with
                | Ok names' =>
                    let p' := with_state p (set_names (p_state p) ty names') in
                    if (reply_i + 1 <? max)%nat
                    then IRun (St_sd ty max (reply_i + 1)) PhReady p'
                    else after_sds ty p'
                | Err e => ICrash e
                | Panic w => ICrash w
                end
        end
  | _ => ICrash "only SD should be accepted as reply to sd"
  end.

(* state.rs:161-178 init_req, after the reply: on to the next request *)
Definition after_reply (s : stage) (p : Panel) (m : message) : istate :=
  match s with
  | St_as => IRun St_zs PhReady p
  | St_zs => IRun (St_sd TT_Area NUM_AREAS 0) PhReady p
  | St_sd ty max i => sds_reply ty max i p m
  end.

(* state.rs:174-177: the error for an end of the stream; requests contain nothing that is shown as a hex dump *)
Definition await_eof (s : stage) : istate :=
  match FmtMsg.Message_dbg (stage_msg s) with
  | Ok d => IFail (string_of_bytes (B "EOF while expecting reply to " ++ Layout.dbg_text (fun b => b) None d))
  | Err e => ICrash e
  | Panic w => ICrash w
  end.

(* One step; ws are the outcomes of the writes it does, now is the time.  Used at state.rs:135-209 *)
Definition istep (now : N) (ws : list wr) (i : istate) : istate :=
  match i with
  | IRun s PhReady p =>
      let '(c, _, r) := conn_poll_ready (p_conn p) ws in
      let p := with_conn p c in
      match r with
      | Pending => IRun s PhReady p
      | Ready (IoErr e) => IFail e
      | Ready (IoOk _) =>
          match (pkt <- to_pkt (stage_msg s) ;; conn_start_send c pkt) with
          | Ok c' => IRun s PhFlush (with_conn p c')
          | Err e => ICrash e
          | Panic w => ICrash w
          end
      end
  | IRun s PhFlush p =>
      let '(c, _, r) := conn_poll_flush (p_conn p) ws in
      let p := with_conn p c in
      match r with
      | Pending => IRun s PhFlush p
      | Ready (IoErr e) => IFail e
      | Ready (IoOk _) => IRun s PhWait p
      end
  | IRun s PhWait p =>
      match conn_poll_next (p_conn p) with
      | Panic w => ICrash w
      | Err e => ICrash e
      | Ok (c, r) =>
          let p := with_conn p c in
          match r with
          | Pending => IRun s PhWait p
          | Ready None => await_eof s
          | Ready (Some (IoErr e)) => IFail e
          | Ready (Some (IoOk pkt)) =>
              match interpret now p pkt with
              | Ok (p', event, _) =>
                  match e_msg event with
                  | Some (inl m) =>
                      if is_response_to m (stage_msg s) then after_reply s p' m else IRun s PhWait p'
                  | _ => IRun s PhWait p'
                  end
              | Err e => ICrash e
              | Panic w => ICrash w
              end
          end
      end
  | _ => i
  end.

(* state.rs:135-141 with_connection: the start *)
Definition init_start (c : conn) : istate := IRun St_as PhReady (mkPanel c PanelState_default None Idle).

(* the network delivers something while connecting; the socket of state.rs:164 *)
Definition iarrive (a : arrival) (i : istate) : istate :=
  match i with
  | IRun s ph p => IRun s ph (with_conn p (arrive (p_conn p) a))
  | IDone p => IDone (with_conn p (arrive (p_conn p) a))
  | _ => i
  end.
(* state.rs:135-209 *)
Inductive iop : Type := IArrive (a : arrival) | IStep (now : N) (ws : list wr).
(* state.rs:135-209 *)
Definition iop_step (i : istate) (o : iop) : istate :=
  match o with IArrive a => iarrive a i | IStep now ws => istep now ws i end.
(* state.rs:107-110, 135-209 *)
Definition irun (c : conn) (os : list iop) : istate := fold_left iop_step os (init_start c).
