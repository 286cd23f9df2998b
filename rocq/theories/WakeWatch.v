(* WakeWatch.v: `elkm1-cli watch` as a task: when it waits, what wakes it, and the executor that runs it only when woken.
   /repo/elkm1-cli/src/main.rs:18-58 again, as wstep of Cli.v, with the wakers.  Definitions only.

   main has one task (main.rs:97-103), which is watch.  Connecting is the task of WakeInit.v; from then on panel.next() is the call of
   Wake.v.  The network may act between any two polls of one run. *)
From Verif Require Import Base Pkt Msg Tokio State Cli.
From Verif Require WakeInit Wake.

(* the task: main.rs:101 *)
Definition WATCH : nat := 0.
(* watch, the wakers kept by the socket and by the Sleep of a held report, whether the task is to be run, the clock, how many bytes the
   socket takes before it has to wait, and whether writing to it fails; the task of main.rs:97-103 *)
Record viewer : Type := mkViewer { y_watch : watcher; y_regs : Wake.regs; y_due : bool; y_now : N; y_room : nat; y_broken : option string }.
(* when the task starts: main.rs:101 *)
Definition viewer_new : viewer := mkViewer (WConnecting (init_start conn_new)) (Wake.mkRegs None None None) true 0 0 None.
(* main.rs:18-58 *)
Inductive yact : Type :=
| YArrive (a : arrival)        (* the network delivers something *)
| YRoom (n : nat)              (* the network takes n bytes out of the socket's send buffer *)
| YBreak (e : string)          (* from now on writing fails *)
| YWait (d : N)                (* time passes *)
| YWake                        (* the task is woken for no reason *)
| YRun.                        (* the executor runs the task, if it is to be run *)

(* while connecting, main.rs:19: the task of WakeInit.v and back *)
Definition is_kept (o : option nat) : bool := match o with Some _ => true | None => false end.
Definition to_keep (b : bool) : option nat := if b then Some WATCH else None.
(* main.rs:19 *)
Definition connect_task (v : viewer) (i : istate) : WakeInit.client :=
  WakeInit.mkClient i (y_due v) (is_kept (Wake.g_read (y_regs v))) (is_kept (Wake.g_write (y_regs v))) (y_now v) (y_room v) (y_broken v).
(* main.rs:19-22: unwrap() of the result of connecting *)
Definition connect_result (i : istate) : watcher :=
  match i with IRun _ _ _ => WConnecting i | IDone p => WLoop p [] | IFail e => WCrash [] e | ICrash why => WCrash [] why end.
(* main.rs:19 *)
Definition connect_move (v : viewer) (i : istate) (a : WakeInit.cact) : viewer :=
  let k := WakeInit.cstep (connect_task v i) a in
  mkViewer (connect_result (WakeInit.k_state k)) (Wake.mkRegs (to_keep (WakeInit.k_reader k)) (to_keep (WakeInit.k_writer k)) (Wake.g_timer (y_regs v)))
    (WakeInit.k_runnable k) (WakeInit.k_now k) (WakeInit.k_room k) (WakeInit.k_broken k).

(* from then on, main.rs:21-57: Panel, socket and clock as in Wake.v and back *)
Definition loop_world (v : viewer) (p : Panel) : Wake.world := Wake.mkWorld p (y_regs v) (y_now v) (y_room v) (y_broken v).
(* main.rs:21-57 *)
Definition loop_put (w : watcher) (x : Wake.world) (due : bool) : viewer := mkViewer w (Wake.w_regs x) due (Wake.w_now x) (Wake.w_room x) (Wake.w_broken x).
(* main.rs:22: the network or the clock does something *)
Definition loop_outside (v : viewer) (p : Panel) (log : list line) (a : Wake.act) : viewer :=
  match Wake.wstep (loop_world v p) a with
  | Ok (x, _, ks) => loop_put (WLoop (Wake.w_panel x) log) x (y_due v || existsb (Nat.eqb WATCH) ks)
  | _ => v
  end.
(* main.rs:22-57: a poll of panel.next() and, if it is ready, the body of the loop; the task goes on until it has to wait *)
Definition loop_poll (v : viewer) (p : Panel) (log : list line) : viewer :=
  let w := wstep (WLoop p log) (IStep (y_now v) []) in
  match Wake.wstep (loop_world v p) (Wake.WNext WATCH) with
  | Ok (x, ONext Pending _, _) => loop_put w x false
  | Ok (x, _, _) => loop_put w x true
  | _ => loop_put w (loop_world v p) true
  end.
(* main.rs:18-58 *)
Definition ystep (v : viewer) (a : yact) : viewer :=
  match y_watch v with
  | WConnecting i =>
      connect_move v i (match a with YArrive x => WakeInit.CArrive x | YRoom n => WakeInit.CRoom n | YBreak e => WakeInit.CBreak e
                        | YWait d => WakeInit.CWait d | YWake => WakeInit.CWake | YRun => WakeInit.CRun end)
  | WLoop p log =>
      match a with
      | YArrive x => loop_outside v p log (Wake.WArrive x)
      | YRoom n => loop_outside v p log (Wake.WRoom n)
      | YBreak e => loop_outside v p log (Wake.WBreak e)
      | YWait d => loop_outside v p log (Wake.WWait d)
      | YWake => mkViewer (y_watch v) (y_regs v) true (y_now v) (y_room v) (y_broken v)
      | YRun => if y_due v then loop_poll v p log else v
      end
  | WDone _ | WCrash _ _ => v
  end.
(* main.rs:97-103 *)
Definition yrun (l : list yact) : viewer := fold_left ystep l viewer_new.
