(* WakeBridge.v: the MQTT bridge as a task: when it waits, what wakes it, and the executor that runs it only when woken.
   /repo/elkm1-mqtt/src/main.rs:369-475 again, as bstep of Mqtt.v, with the wakers.  Definitions only.

   main has one task (main.rs:369), which holds the event loop of the MQTT client and inner side by side (main.rs:406-409), so that a
   waker left by either gets both polled.  Modelled are the wakers that inner leaves: with the panel's socket, with the Sleep of a held
   report, in Panel, and with the channel.  Whatever else gets the task polled, such as the socket to the broker, is HWake.
   The network may act between any two polls of one run.  As in Mqtt.v the broker is taken to keep up. *)
From Verif Require Import Base Pkt Msg Tokio State Mqtt Wake.
From Verif Require WakeInit.

(* inner, the wakers kept by the panel's socket and by the Sleep, whether the channel keeps the task's waker, whether the task is to be
   run, the clock, how many bytes the socket takes before it has to wait, and whether writing to it fails; the task of main.rs:369-410 *)
Record host : Type := mkHost { h_bridge : bridge; h_regs : regs; h_chan : bool; h_due : bool; h_now : N; h_room : nat; h_broken : option string }.
(* main.rs:404-409, when the task starts *)
Definition host_new : host := mkHost (Connecting (init_start conn_new) []) (mkRegs None None None) false true 0 0 None.
(* main.rs:369-475 *)
Inductive hact : Type :=
| HArrive (a : arrival)        (* the network delivers something from the panel *)
| HRoom (n : nat)              (* the network takes n bytes out of the socket's send buffer *)
| HBreak (e : string)          (* from now on writing to the panel fails *)
| HWait (d : N)                (* time passes *)
| HMqtt (topic pl : bytes)     (* the event loop puts a publish into the channel: main.rs:333-341 *)
| HFail                        (* eventloop.poll() fails: main.rs:334 *)
| HWake                        (* the task is woken for no reason *)
| HRun (first : bool).         (* the executor runs the task, if it is to be run; select! polls panel.next() first, or rx.recv() *)

(* while connecting, main.rs:418: the task of WakeInit.v and back *)
Definition kept (o : option nat) : bool := match o with Some _ => true | None => false end.
Definition keep (b : bool) : option nat := if b then Some TASK else None.
(* main.rs:418 *)
Definition client_of (h : host) (i : istate) : WakeInit.client :=
  WakeInit.mkClient i (h_due h) (kept (g_read (h_regs h))) (kept (g_write (h_regs h))) (h_now h) (h_room h) (h_broken h).
(* main.rs:418 *)
Definition connect_step (cl : client) (cfg : Cfg) (h : host) (i : istate) (rx : list (bytes * bytes)) (a : WakeInit.cact) : host :=
  let k := WakeInit.cstep (client_of h i) a in
  mkHost (after_connect cl cfg (WakeInit.k_state k) rx) (mkRegs (keep (WakeInit.k_reader k)) (keep (WakeInit.k_writer k)) (g_timer (h_regs h)))
    (h_chan h) (WakeInit.k_runnable k) (WakeInit.k_now k) (WakeInit.k_room k) (WakeInit.k_broken k).

(* from then on, main.rs:443-474: Panel, socket and clock as in Wake.v and back *)
Definition world_of (h : host) (u : up) : world := mkWorld (u_panel u) (h_regs h) (h_now h) (h_room h) (h_broken h).
(* main.rs:443-474 *)
Definition put (b : bridge) (w : world) (chan due : bool) : host := mkHost b (w_regs w) chan due (w_now w) (w_room w) (w_broken w).
(* main.rs:443-474: the network or the clock does something *)
Definition outside (h : host) (u : up) (a : act) : host :=
  match wstep (world_of h u) a with
  | Ok (w, _, ks) => put (Up (set_panel u (w_panel w))) w (h_chan h) (h_due h || existsb (Nat.eqb TASK) ks)
  | _ => h
  end.
(* main.rs:446: select! polls panel.next(); true if it is ready.  What that wakes is the task itself, which is running. *)
Definition select_panel (cl : client) (cfg : Cfg) (h : host) (u : up) : host * bool :=
  let b := bstep cl cfg (Up u) (PollPanel (h_now h)) in
  match wstep (world_of h u) (WNext TASK) with
  | Ok (w, ONext Pending _, _) => (put b w (h_chan h) false, false)
  | Ok (w, _, _) => (put b w (h_chan h) true, true)
  | _ => (put b (world_of h u) (h_chan h) true, true)
  end.
(* main.rs:469: select! polls rx.recv(); when the channel is empty it keeps the waker *)
Definition select_rx (cl : client) (cfg : Cfg) (h : host) (u : up) : host * bool :=
  match u_rx u with
  | [] => (put (Up u) (world_of h u) true false, false)
  | _ => (put (bstep cl cfg (Up u) PollRx) (world_of h u) (h_chan h) true, true)
  end.
(* main.rs:445: select! polls its branches in an order chosen at random, until one is ready *)
Definition select (cl : client) (cfg : Cfg) (first : bool) (h : host) (u : up) : host :=
  let '(h1, ready) := (if first then select_panel else select_rx) cl cfg h u in
  if ready then h1
  else match h_bridge h1 with
       | Up u1 => fst ((if first then select_rx else select_panel) cl cfg h1 u1)
       | _ => h1
       end.
(* main.rs:315-322: the flush of panel.send(..); true if it is ready *)
Definition run_flush (w : world) : world * bool :=
  match wstep w (WFlush TASK) with
  | Ok (w', OSink Pending, _) => (w', false)
  | Ok (w', _, _) => (w', true)
  | _ => (w, true)
  end.
(* main.rs:315-322: a poll of panel.send(..); true if it is ready *)
Definition run_send (w : world) (m : mode) : world * bool :=
  match m with
  | Feeding c =>
      match wstep w (WReady TASK) with
      | Ok (w1, OSink Pending, _) => (w1, false)
      | Ok (w1, OSink (Ready (IoOk _)), _) => match wstep w1 (WSend c) with Ok (w2, _, _) => run_flush w2 | _ => (w1, true) end
      | Ok (w1, _, _) => (w1, true)
      | _ => (w, true)
      end
  | _ => run_flush w
  end.
(* main.rs:412-475, 329-342 *)
Definition hstep (cl : client) (cfg : Cfg) (h : host) (a : hact) : host :=
  match h_bridge h with
  | Dead _ _ => h
  | b =>
      match a with
      | HMqtt t pl => mkHost (bstep cl cfg b (MqttArrive t pl)) (h_regs h) false (h_due h || h_chan h) (h_now h) (h_room h) (h_broken h)
      | HFail => mkHost (bstep cl cfg b MqttFail) (h_regs h) (h_chan h) true (h_now h) (h_room h) (h_broken h)
      | HWake => mkHost b (h_regs h) (h_chan h) true (h_now h) (h_room h) (h_broken h)
      | _ =>
          match b with
          | Connecting i rx =>
              match a with
              | HArrive x => connect_step cl cfg h i rx (WakeInit.CArrive x)
              | HRoom n => connect_step cl cfg h i rx (WakeInit.CRoom n)
              | HBreak e => connect_step cl cfg h i rx (WakeInit.CBreak e)
              | HWait d => connect_step cl cfg h i rx (WakeInit.CWait d)
              | _ => connect_step cl cfg h i rx WakeInit.CRun
              end
          | Up u =>
              match a with
              | HArrive x => outside h u (WArrive x)
              | HRoom n => outside h u (WRoom n)
              | HBreak e => outside h u (WBreak e)
              | HWait d => outside h u (WWait d)
              | HRun first =>
                  if h_due h then
                    match u_mode u with
                    | Selecting => select cl cfg first h u
                    | m => let '(w, ready) := run_send (world_of h u) m in put (bstep cl cfg b (PollSend (writes (world_of h u)))) w (h_chan h) ready
                    end
                  else h
              | _ => h
              end
          | Dead _ _ => h
          end
      end
  end.
(* main.rs:404-409 *)
Definition hrun (cl : client) (cfg : Cfg) (l : list hact) : host := fold_left (hstep cl cfg) l host_new.
