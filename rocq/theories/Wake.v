(* Wake.v: which tasks are woken.  The calls of Panel again, this time with the task that makes them, the wakers they leave
   with the socket, with the timer and in Panel, and the clock and the socket that use those wakers. *)
From Verif Require Import Base Pkt Msg Tokio State.

(* The waker that the socket keeps for reading and the one that it keeps for writing (tokio's TcpStream keeps the last of
   each), and the waker that the Sleep inside pending_arm keeps.  The fourth waker is in CmdState (state.rs:523-532). *)
Record regs : Type := mkRegs { g_read : option nat; g_write : option nat; g_timer : option nat }.
Definition set_reader (g : regs) (t : nat) : regs := mkRegs (Some t) (g_write g) (g_timer g).
Definition set_writer (g : regs) (t : nat) : regs := mkRegs (g_read g) (Some t) (g_timer g).
Definition set_timer (g : regs) (o : option nat) : regs := mkRegs (g_read g) (g_write g) o.

(* tokio.rs:37-47 <Connection as Stream>::poll_next.  Framed answers Pending only when the socket's poll_read does (the last
   thing it calls), and then the socket keeps the waker. *)
Definition conn_poll_next_cx (t : nat) (c : conn) (g : regs) : res (conn * poll (option (io packet)) * regs) :=
  ' (c', r) <- conn_poll_next c ;; Ok (c', r, match r with Pending => set_reader g t | _ => g end).
(* tokio.rs:70-75 <Connection as Sink>::poll_flush: Pending only when the socket's poll_write is *)
Definition conn_poll_flush_cx (t : nat) (c : conn) (ws : list wr) (g : regs) : conn * list wr * poll (io unit) * regs :=
  let '(c', ws', r) := conn_poll_flush c ws in (c', ws', r, match r with Pending => set_writer g t | _ => g end).
(* tokio.rs:78-83 *)
Definition conn_poll_close_cx := conn_poll_flush_cx.

(* A Sleep that is dropped forgets its waker, and a new one has none (state.rs:259-301 takes and creates them). *)
Definition timer_after (before after : option (N * ArmingStatusReport)) (g : regs) : regs :=
  match before, after with Some _, Some _ => g | _, _ => set_timer g None end.

(* state.rs:307-345 <Panel as Stream>::poll_next, by task t *)
Definition poll_next_cx (t : nat) (now : N) (p : Panel) (g : regs) : res (Panel * poll (option (io Event)) * option nat * regs) :=
  ' (c, r, g) <- conn_poll_next_cx t (p_conn p) g ;;
  let p := with_conn p c in
  match r with
  | Ready (Some (IoErr e)) => Ok (p, Ready (Some (IoErr e)), None, g)
  | Ready None => Ok (p, Ready None, None, g)
  | Ready (Some (IoOk pkt)) =>
      ' (p', event, woken) <- interpret now p pkt ;;
      Ok (p', Ready (Some (IoOk event)), woken, timer_after (pending_arm p) (pending_arm p') g)
  | Pending =>
      match pending_arm p with
      | Some (deadline, pending) =>
          if deadline <=? now then
            match s_arming (p_state p) with
            | Some prior =>
                Ok (with_pending (with_arming p pending) None,
                    Ready (Some (IoOk (mkEvent None None None (Some (CArmingStatus prior))))), None, set_timer g None)
            | None => Panic "have prior arming_status when transition pending"
            end
          else Ok (p, Pending, None, set_timer g (Some t))            (* s.as_mut().poll(cx) keeps the waker *)
      | None => Ok (p, Pending, None, g)
      end
  end.

(* state.rs:352-376 <Panel as Sink>::poll_ready, by task t *)
Definition poll_ready_cx (t : nat) (ws : list wr) (p : Panel) (g : regs) : Panel * poll (io unit) * regs :=
  match cmd_state p with
  | Idle => (p, Ready (IoOk tt), g)
  | Busy request flushed waker =>
      let waiting (p : Panel) (g : regs) := (with_cmd p (Busy request true (Some t)), Pending, g) in
      if flushed then waiting p g
      else
        let '(c, _, r, g) := conn_poll_flush_cx t (p_conn p) ws g in
        let p := with_conn p c in
        match r with
        | Ready (IoOk _) => waiting p g
        | o => (p, o, g)
        end
  end.
(* state.rs:392-408 <Panel as Sink>::poll_flush, by task t *)
Definition panel_flush_cx (t : nat) (ws : list wr) (p : Panel) (g : regs) : Panel * list wr * poll (io unit) * regs :=
  match cmd_state p with
  | Busy request false waker =>
      let '(c, ws', r, g) := conn_poll_flush_cx t (p_conn p) ws g in
      let p := with_conn p c in
      match r with
      | Ready (IoOk _) => (with_cmd p (Busy request true waker), ws', Ready (IoOk tt), g)
      | o => (p, ws', o, g)
      end
  | _ => (p, ws, Ready (IoOk tt), g)
  end.
Definition poll_flush_cx (t : nat) (ws : list wr) (p : Panel) (g : regs) : Panel * poll (io unit) * regs :=
  let '(p', _, r, g') := panel_flush_cx t ws p g in (p', r, g').
(* state.rs:410-419 <Panel as Sink>::poll_close, by task t *)
Definition poll_close_cx (t : nat) (ws : list wr) (p : Panel) (g : regs) : Panel * poll (io unit) * regs :=
  let '(p', ws', r, g) := panel_flush_cx t ws p g in
  match r with
  | Ready (IoOk _) => let '(c, _, r', g) := conn_poll_close_cx t (p_conn p') ws' g in (with_conn p' c, r', g)
  | o => (p', o, g)
  end.

(* ---- the calls and what they run on ---- *)
(* a panel, the wakers, the clock, how many bytes the socket takes before it has to wait, and whether writing to it fails; the calls of state.rs:304-420 *)
Record world : Type := mkWorld { w_panel : Panel; w_regs : regs; w_now : N; w_room : nat; w_broken : option string }.
(* the calls of state.rs:304-420 *)
Inductive act : Type :=
| WArrive (a : arrival)        (* the network delivers something *)
| WRoom (n : nat)              (* the network takes n bytes out of the socket's send buffer *)
| WBreak (e : string)          (* from now on writing fails *)
| WWait (d : N)                (* time passes *)
| WNext (t : nat)              (* task t calls poll_next *)
| WReady (t : nat)
| WSend (c : Command)
| WFlush (t : nat)
| WClose (t : nat).
(* state.rs:241-243 *)
Definition tasks (o : option nat) : list nat := match o with Some t => [t] | None => [] end.
(* what the socket answers to the writes of one call; reached from tokio.rs:58-82 *)
Definition writes (w : world) : list wr :=
  match w_broken w with
  | Some e => [WErr e]
  | None => match w_room w with O => [WPending] | S n => [WAccept (S n); WPending] end
  end.
(* after a call of the sending side; used at state.rs:352-419 *)
Definition sunk (w : world) (p : Panel) (g : regs) : world :=
  mkWorld p g (w_now w) (w_room w - (length (sent (p_conn p)) - length (sent (p_conn (w_panel w))))) (w_broken w).
(* one step: the world after it, what the caller sees, and the tasks woken; the calls of state.rs:304-420 *)
Definition wstep (w : world) (a : act) : res (world * obs * list nat) :=
  let g := w_regs w in
  match a with
  | WArrive x => Ok (mkWorld (with_conn (w_panel w) (arrive (p_conn (w_panel w)) x)) (mkRegs None (g_write g) (g_timer g))
                       (w_now w) (w_room w) (w_broken w), ONone, tasks (g_read g))
  | WRoom O => Ok (w, ONone, [])
  | WRoom n => Ok (mkWorld (w_panel w) (mkRegs (g_read g) None (g_timer g)) (w_now w) (w_room w + n) (w_broken w), ONone, tasks (g_write g))
  | WBreak e => Ok (mkWorld (w_panel w) (mkRegs (g_read g) None (g_timer g)) (w_now w) (w_room w) (Some e), ONone, tasks (g_write g))
  | WWait d =>
      let now := w_now w + d in
      match pending_arm (w_panel w) with
      | Some (deadline, _) =>
          if deadline <=? now
          then Ok (mkWorld (w_panel w) (set_timer g None) now (w_room w) (w_broken w), ONone, tasks (g_timer g))
          else Ok (mkWorld (w_panel w) g now (w_room w) (w_broken w), ONone, [])
      | None => Ok (mkWorld (w_panel w) g now (w_room w) (w_broken w), ONone, [])
      end
  | WNext t => ' (p, r, woken, g') <- poll_next_cx t (w_now w) (w_panel w) g ;;
      Ok (mkWorld p g' (w_now w) (w_room w) (w_broken w), ONext r woken, tasks woken)
  | WReady t => let '(p, r, g') := poll_ready_cx t (writes w) (w_panel w) g in Ok (sunk w p g', OSink r, [])
  | WSend c => p <- start_send c (w_panel w) ;; Ok (sunk w p g, ONone, [])
  | WFlush t => let '(p, r, g') := poll_flush_cx t (writes w) (w_panel w) g in Ok (sunk w p g', OSink r, [])
  | WClose t => let '(p, r, g') := poll_close_cx t (writes w) (w_panel w) g in Ok (sunk w p g', OSink r, [])
  end.
(* the calls of state.rs:304-420 *)
Fixpoint wrun (w : world) (h : list act) : res (world * list obs * list nat) :=
  match h with
  | [] => Ok (w, [], [])
  | a :: h' =>
      ' (w1, b, k) <- wstep w a ;;
      ' (w2, bs, ks) <- wrun w1 h' ;; Ok (w2, b :: bs, k ++ ks)
  end.
