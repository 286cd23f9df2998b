(* WakeInit.v: connecting as a task: when Panel::connect waits, what wakes it, and the executor that runs it only when woken.
   /repo/elkm1/src/state.rs:134-209 again, as istep of State.v, with the wakers.  Definitions only.

   The task is one future; while it runs nothing else of the model does, but the network may act between two steps.  The Sleep of a held
   report (state.rs:284-294) is not polled while connecting, so the clock wakes nobody.  Socket and wakers are as in Wake.v. *)
From Verif Require Import Base Pkt Msg Tokio State.

(* what a step ends up waiting for, if it has to wait; used at state.rs:163, 164 *)
Inductive side : Type := Reading | Writing.
(* state.rs:161-178 *)
Definition iwaits (ws : list wr) (i : istate) : option side :=
  match i with
  | IRun _ PhReady p => match conn_poll_ready (p_conn p) ws with (_, _, Pending) => Some Writing | _ => None end    (* state.rs:163, SinkExt::send *)
  | IRun _ PhFlush p => match conn_poll_flush (p_conn p) ws with (_, _, Pending) => Some Writing | _ => None end
  | IRun _ PhWait p => match conn_poll_next (p_conn p) with Ok (_, Pending) => Some Reading | _ => None end         (* state.rs:164 *)
  | _ => None
  end.

(* the task, whether it is to be run, whether the socket keeps its waker for reading and for writing, the clock, how many bytes the
   socket takes before it has to wait, and whether writing to it fails; the task of state.rs:107-110 *)
Record client : Type := mkClient { k_state : istate; k_runnable : bool; k_reader : bool; k_writer : bool; k_now : N; k_room : nat; k_broken : option string }.
(* a task just spawned; used at state.rs:107-110, 135-141 *)
Definition client_new : client := mkClient (init_start conn_new) true false false 0 0 None.
(* state.rs:107-209 *)
Inductive cact : Type :=
| CArrive (a : arrival)        (* the network delivers something *)
| CRoom (n : nat)              (* the network takes n bytes out of the socket's send buffer *)
| CBreak (e : string)          (* from now on writing fails *)
| CWait (d : N)                (* time passes *)
| CWake                        (* the task is woken for no reason *)
| CRun.                        (* the executor runs the task, if it is to be run *)
(* what the socket answers to the writes of one call; reached from state.rs:163 *)
Definition cwrites (k : client) : list wr :=
  match k_broken k with
  | Some e => [WErr e]
  | None => match k_room k with O => [WPending] | S n => [WAccept (S n); WPending] end
  end.
(* reached from state.rs:163 *)
Definition taken (i : istate) : nat := match i with IRun _ _ p | IDone p => length (sent (p_conn p)) | _ => 0%nat end.
(* state.rs:107-209 *)
Definition cstep (k : client) (a : cact) : client :=
  let '(mkClient i run rd wt now room broken) := k in
  match a with
  | CArrive x => mkClient (iarrive x i) (run || rd) false wt now room broken
  | CRoom O => k
  | CRoom n => mkClient i (run || wt) rd false now (room + n) broken
  | CBreak e => mkClient i (run || wt) rd false now room (Some e)
  | CWait d => mkClient i run rd wt (now + d) room broken
  | CWake => mkClient i true rd wt now room broken
  | CRun =>
      if run then
        let i' := istep now (cwrites k) i in
        let room' := (room - (taken i' - taken i))%nat in
        match iwaits (cwrites k) i with
        | None => mkClient i' true rd wt now room' broken
        | Some Reading => mkClient i' false true wt now room' broken
        | Some Writing => mkClient i' false rd true now room' broken
        end
      else k
  end.
(* state.rs:107-209 *)
Definition crun (h : list cact) : client := fold_left cstep h client_new.
