(* SpecTasks.v: the caller of SpecSend.v as two tasks, or two halves of one, that are only run when they have been woken.  For C97.
   Panel is the one of Wake.v, with its wakers, the clock and a socket that has room for so many bytes. *)
From Verif Require Import Base Pkt SpecPkt Msg SpecMsg Tokio SpecConn State SpecState SpecSend Wake.

(* ---- the tasks ---- *)
(* Panel, socket and clock; as in SpecSend.v what is left to send, whether the last command is still being flushed, what has been
   completed and whether anything went wrong; and whether the sending and the reading task are due to run. *)
Record crew : Type := mkCrew { u_world : world; u_todo : list Command; u_flushing : bool; u_done : list message; u_failed : bool;
                               u_send_due : bool; u_read_due : bool }.
Definition caller_of (u : crew) : sending := mkSending (w_panel (u_world u)) (u_todo u) (u_flushing u) (u_done u) (u_failed u).
(* the tasks named in ks are woken; s is the name of the sending task, r that of the reading one: the same name if both are
   halves of one task, as when it awaits their join! *)
Definition named (t : nat) (ks : list nat) : bool := existsb (Nat.eqb t) ks.
Definition wake (s r : nat) (ks : list nat) (u : crew) : crew :=
  mkCrew (u_world u) (u_todo u) (u_flushing u) (u_done u) (u_failed u) (u_send_due u || named s ks) (u_read_due u || named r ks).
(* the executor runs the sending task, if it is due: a poll_flush, or a poll_ready and, if that is answered, the start_send.  It
   stays due until it is told to wait or has nothing left to do. *)
Definition run_send (s r : nat) (u : crew) : crew :=
  let '(mkCrew w todo flushing done failed sd rd) := u in
  if sd then
    if flushing then
      match wstep w (WFlush s) with
      | Ok (w', OSink Pending, ks) => wake s r ks (mkCrew w' todo true done failed false rd)
      | Ok (w', OSink (Ready (IoOk _)), ks) => wake s r ks (mkCrew w' todo false done failed true rd)
      | Ok (w', _, ks) => wake s r ks (mkCrew w' todo true done true true rd)
      | _ => mkCrew w todo true done true true rd
      end
    else
      match todo with
      | [] => mkCrew w [] false done failed false rd
      | c :: rest =>
          match wstep w (WReady s) with
          | Ok (w', OSink Pending, ks) => wake s r ks (mkCrew w' todo false done failed false rd)
          | Ok (w', OSink (Ready (IoOk _)), ks) =>
              match wstep w' (WSend c) with
              | Ok (w2, _, ks2) => wake s r (ks ++ ks2) (mkCrew w2 rest true done failed true rd)
              | _ => wake s r ks (mkCrew w' todo false done true true rd)
              end
          | Ok (w', _, ks) => wake s r ks (mkCrew w' todo false done true true rd)
          | _ => mkCrew w todo false done true true rd
          end
      end
  else u.
(* the executor runs the reading task, if it is due: a poll_next *)
Definition run_read (s r : nat) (u : crew) : crew :=
  let '(mkCrew w todo flushing done failed sd rd) := u in
  if rd then
    match wstep w (WNext r) with
    | Ok (w', ONext Pending _, ks) => wake s r ks (mkCrew w' todo flushing done failed sd false)
    | Ok (w', ONext (Ready (Some (IoOk e))) _, ks) =>
        wake s r ks (mkCrew w' todo flushing (match e_completes e with Some q => done ++ [q] | None => done end) failed sd true)
    | Ok (w', _, ks) => wake s r ks (mkCrew w' todo flushing done true sd true)
    | _ => mkCrew w todo flushing done true sd true
    end
  else u.
(* the network or the clock does something *)
Definition outside (s r : nat) (a : act) (u : crew) : crew :=
  match wstep (u_world u) a with
  | Ok (w', _, ks) => wake s r ks (mkCrew w' (u_todo u) (u_flushing u) (u_done u) (u_failed u) (u_send_due u) (u_read_due u))
  | _ => u
  end.
(* the sending task is given another command, which wakes it *)
Definition hand (c : Command) (u : crew) : crew :=
  mkCrew (u_world u) (u_todo u ++ [c]) (u_flushing u) (u_done u) (u_failed u) true (u_read_due u).

(* ---- tasks, panel and network ---- *)
Record play : Type := mkPlay { y_crew : crew; y_net : bytes; y_replied : nat }.
Definition exchange_of (y : play) : exchange := mkExchange (caller_of (y_crew y)) (y_net y) (y_replied y).
Inductive turn : Type :=
| TSend | TRead              (* the executor runs a task if it is due *)
| TRoom (n : nat)            (* the network takes n bytes out of the socket's send buffer *)
| TWait (d : N)              (* time passes *)
| TWake (t : nat)            (* task t is woken for no reason *)
| TUnasked | TReply | TDeliver | TGive (c : Command).   (* as in SpecSend.v *)
Definition handed (a : turn) : list Command := match a with TGive c => [c] | _ => [] end.
Inductive turns (s r : nat) (may : packet -> Prop) (base : bytes) (y : play) : turn -> play -> Prop :=
| T_send : turns s r may base y TSend (mkPlay (run_send s r (y_crew y)) (y_net y) (y_replied y))
| T_read : turns s r may base y TRead (mkPlay (run_read s r (y_crew y)) (y_net y) (y_replied y))
| T_room n : turns s r may base y (TRoom n) (mkPlay (outside s r (WRoom n) (y_crew y)) (y_net y) (y_replied y))
| T_wait d : turns s r may base y (TWait d) (mkPlay (outside s r (WWait d) (y_crew y)) (y_net y) (y_replied y))
| T_wake t : turns s r may base y (TWake t) (mkPlay (wake s r [t] (y_crew y)) (y_net y) (y_replied y))
| T_unasked pkt f : valid_packet pkt -> may pkt -> frame_of pkt f ->
    turns s r may base y TUnasked (mkPlay (y_crew y) (y_net y ++ f) (y_replied y))
| T_reply q m body f : next_command base (exchange_of y) q -> replies m q -> grammar m body -> ascii_body body -> ascii_frame body f ->
    turns s r may base y TReply (mkPlay (y_crew y) (y_net y ++ f) (S (y_replied y)))
| T_deliver a b : y_net y = a ++ b -> a <> [] ->
    turns s r may base y TDeliver (mkPlay (outside s r (WArrive (Bytes a)) (y_crew y)) b (y_replied y))
| T_give c : wf_message (into_msg c) -> turns s r may base y (TGive c) (mkPlay (hand c (y_crew y)) (y_net y) (y_replied y)).
(* where it starts: both tasks just spawned; g: what wakers are around, room: the room in the socket *)
Definition play_new (p : Panel) (g : regs) (now : N) (room : nat) (net : bytes) (cs : list Command) : play :=
  mkPlay (mkCrew (mkWorld p g now room None) cs false [] false true true) net 0.
Inductive reaches (s r : nat) (may : packet -> Prop) (base : bytes) (y0 : play) : play -> Prop :=
| Y_new : reaches s r may base y0 y0
| Y_turn y a y' : reaches s r may base y0 y -> turns s r may base y a y' -> reaches s r may base y0 y'.

(* ---- fair executions ---- *)
Definition goes_on (s r : nat) (may : packet -> Prop) (base : bytes) (y0 : play) (ys : nat -> play) (acts : nat -> turn) : Prop :=
  ys 0%nat = y0 /\ forall n, turns s r may base (ys n) (acts n) (ys (S n)).
(* the commands given in the first n turns *)
Fixpoint given_by (acts : nat -> turn) (n : nat) : list Command := match n with O => [] | S n' => given_by acts n' ++ handed (acts n') end.
Definition woken_run (base : bytes) (ys : nat -> play) (acts : nat -> turn) : Prop :=
  (* a task that is due is eventually run; it need not be run otherwise *)
  (forall n, exists m, (n <= m)%nat /\ (acts m = TSend \/ u_send_due (y_crew (ys m)) = false)) /\
  (forall n, exists m, (n <= m)%nat /\ (acts m = TRead \/ u_read_due (y_crew (ys m)) = false)) /\
  (* there is eventually room in the socket *)
  (forall n, exists m, (n <= m)%nat /\ w_room (u_world (y_crew (ys m))) <> 0%nat) /\
  (* a command received is eventually answered *)
  (forall n, exists m, (n <= m)%nat /\ (acts m = TReply \/ forall q, ~ next_command base (exchange_of (ys m)) q)) /\
  (* bytes sent are eventually delivered *)
  (forall n, exists m, (n <= m)%nat /\ (acts m = TDeliver \/ y_net (ys m) = [])).
