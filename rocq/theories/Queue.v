(* Queue.v: the bridge of Mqtt.v with the bounded channel between `inner` and the MQTT event loop (main.rs:404
   AsyncClient::new(mqtt_opts, 10)).  Definitions only.

   Mqtt.v lets every publish and subscribe take effect at once.  Here a request first waits for a free place in the channel
   (main.rs:152-160, 178-186, 244-255, 266-277, 433-442, 449-454: `.await`); meanwhile `inner` does nothing else.  The event loop takes the requests out
   one by one and sends them to the broker (main.rs:329-342); how rumqttc does that, its acknowledgements and its limit of
   unacknowledged requests are not modelled: it may take a request at any time or not at all.  Requests that are in the
   channel when the process ends are lost. *)
From Verif Require Export Mqtt.

(* main.rs:404 *)
Definition CHANNEL : nat := 10.

(* main.rs:404-409 *)
Record qstate : Type := mkQ {
  q_inner : bridge;           (* inner once the requests in q_todo are made; its log includes them *)
  q_todo : list action;       (* the requests left to make before that: inner is waiting in the first one's `.await` *)
  q_chan : list action;       (* in the channel *)
  q_sent : list action }.     (* sent to the broker *)

(* main.rs:329-342, 412-475 *)
Inductive qinput : Type :=
| QIn (i : input)             (* as in Mqtt.v *)
| QMake                       (* inner's `.await` is polled *)
| QTake.                      (* the event loop takes a request *)

(* the process has ended: a panic in inner or in run_eventloop ends both (main.rs:406-409) *)
Definition crashed (s : qstate) : bool :=
  match q_todo s, q_inner s with [], Dead _ _ => true | _, _ => false end.
(* what a step of inner added to its log *)
Definition added (b b' : bridge) : list action := skipn (length (blog b)) (blog b').

(* main.rs:404-409 *)
Definition qstep (cl : client) (cfg : Cfg) (s : qstate) (i : qinput) : qstate :=
  if crashed s then s else
  match i with
  | QMake =>
      match q_todo s with
      | a :: todo => if (length (q_chan s) <? CHANNEL)%nat then mkQ (q_inner s) todo (q_chan s ++ [a]) (q_sent s) else s
      | [] => s
      end
  | QTake =>
      match q_chan s with
      | a :: chan => mkQ (q_inner s) (q_todo s) chan (q_sent s ++ [a])
      | [] => s
      end
  | QIn MqttFail => mkQ (Dead (q_sent s ++ q_chan s) "called `Result::unwrap()` on an `Err` value") [] (q_chan s) (q_sent s)
  | QIn i =>
      match i, q_todo s with
      | NetArrive _, _ | MqttArrive _ _, _ => mkQ (bstep cl cfg (q_inner s) i) (q_todo s) (q_chan s) (q_sent s)
      | _, [] => let b := bstep cl cfg (q_inner s) i in mkQ b (added (q_inner s) b) (q_chan s) (q_sent s)
      | _, _ :: _ => s
      end
  end.
(* main.rs:404-409 *)
Definition qstart : qstate := mkQ (Connecting (init_start conn_new) []) [] [] [].
(* main.rs:404-409 *)
Definition qrun (cl : client) (cfg : Cfg) (is : list qinput) : qstate := fold_left (qstep cl cfg) is qstart.
