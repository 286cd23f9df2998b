(* SpecSend.v: sending commands to a panel that answers: a caller that sends the commands it is given one after the other while it
   goes on reading events, the panel and the network together, as a transition system; what a fair execution is.  For C93.
   Nothing here is code of the repository: the caller uses Panel through Sink and Stream as futures' SinkExt::send and
   StreamExt::next do. *)
From Verif Require Import Base Pkt SpecPkt Msg SpecMsg Tokio SpecConn State SpecState SpecInit.

(* ---- the caller ---- *)
(* the panel; the commands not sent yet; whether the last one sent is still being flushed; the commands reported complete so
   far; whether anything went wrong *)
Record sending : Type := mkSending { s_panel : Panel; s_todo : list Command; s_flushing : bool; s_done : list message; s_failed : bool }.
Definition sending_new (p : Panel) (cs : list Command) : sending := mkSending p cs false [] false.
(* the sending task, woken as t: poll_flush until the last command is flushed, then poll_ready and start_send the next *)
Definition send_task (t : nat) (ws : list wr) (s : sending) : sending :=
  let '(mkSending p todo flushing done failed) := s in
  if flushing then
    let '(p', r) := poll_flush ws p in
    match r with
    | Pending => mkSending p' todo true done failed
    | Ready (IoOk _) => mkSending p' todo false done failed
    | Ready (IoErr _) => mkSending p' todo true done true
    end
  else
    match todo with
    | [] => s
    | c :: rest =>
        let '(p', r) := poll_ready t ws p in
        match r with
        | Pending => mkSending p' todo false done failed
        | Ready (IoOk _) => match start_send c p' with
                            | Ok p2 => mkSending p2 rest true done failed
                            | _ => mkSending p' todo false done true
                            end
        | Ready (IoErr _) => mkSending p' todo false done true
        end
    end.
(* the reading task: poll_next, noting the command an event completes *)
Definition read_task (now : N) (s : sending) : sending :=
  let '(mkSending p todo flushing done failed) := s in
  match poll_next now p with
  | Ok (p', Pending, _) => mkSending p' todo flushing done failed
  | Ok (p', Ready (Some (IoOk e)), _) =>
      mkSending p' todo flushing (match e_completes e with Some q => done ++ [q] | None => done end) failed
  | Ok (p', _, _) => mkSending p' todo flushing done true
  | _ => mkSending p todo flushing done true
  end.
(* it is given another command to send *)
Definition give (c : Command) (s : sending) : sending :=
  mkSending (s_panel s) (s_todo s ++ [c]) (s_flushing s) (s_done s) (s_failed s).
Definition with_panel (s : sending) (p : Panel) : sending :=
  mkSending p (s_todo s) (s_flushing s) (s_done s) (s_failed s).

(* ---- caller, panel and network ---- *)
(* the caller; the bytes the panel has sent that are not delivered yet; how many commands the panel has answered *)
Record exchange : Type := mkExchange { x_caller : sending; x_net : bytes; x_replied : nat }.
Inductive move : Type :=
| MSend (t : nat) (ws : list wr)   (* the sending task runs *)
| MRead (now : N)                  (* the reading task runs *)
| MUnasked                         (* the panel sends a packet of its own accord *)
| MReply                           (* the panel answers the next command *)
| MDeliver                         (* the network delivers some bytes *)
| MGive (c : Command)              (* the caller is given another command *)
| MIdle.                           (* something else happens *)
Definition given_in (a : move) : list Command := match a with MGive c => [c] | _ => [] end.
Definition put (x : exchange) : bytes := sent (p_conn (s_panel (x_caller x))).
(* the panel can answer q next: it has received it, all of it, after the bytes base, and answered all before it *)
Definition next_command (base : bytes) (x : exchange) (q : message) : Prop :=
  exists qs fs rest, Forall2 request_frame (qs ++ [q]) fs /\ put x = base ++ concat fs ++ rest /\ length qs = x_replied x.
(* may: the packets the panel may send of its own accord *)
Inductive moves (may : packet -> Prop) (base : bytes) (x : exchange) : move -> exchange -> Prop :=
| M_send t ws : Forall write_ok ws ->
    moves may base x (MSend t ws) (mkExchange (send_task t ws (x_caller x)) (x_net x) (x_replied x))
| M_read now : moves may base x (MRead now) (mkExchange (read_task now (x_caller x)) (x_net x) (x_replied x))
| M_unasked pkt f : valid_packet pkt -> may pkt -> frame_of pkt f ->
    moves may base x MUnasked (mkExchange (x_caller x) (x_net x ++ f) (x_replied x))
| M_reply q m body f : next_command base x q -> replies m q -> grammar m body -> ascii_body body -> ascii_frame body f ->
    moves may base x MReply (mkExchange (x_caller x) (x_net x ++ f) (S (x_replied x)))
| M_deliver a b : x_net x = a ++ b -> a <> [] ->
    moves may base x MDeliver
      (mkExchange (with_panel (x_caller x) (with_conn (s_panel (x_caller x)) (arrive (p_conn (s_panel (x_caller x))) (Bytes a)))) b (x_replied x))
| M_give c : wf_message (into_msg c) -> moves may base x (MGive c) (mkExchange (give c (x_caller x)) (x_net x) (x_replied x))
| M_idle : moves may base x MIdle x.
(* where it starts: a panel with no command outstanding; what it has not read yet and what is under way (net) are the whole
   packets pk *)
Definition exchange_new (p : Panel) (net : bytes) (cs : list Command) : exchange := mkExchange (sending_new p cs) net 0.
Definition under_way (p : Panel) (net : bytes) (pk : list packet) : Prop :=
  exists pf, Forall valid_packet pk /\ Forall2 frame_of pk pf /\ unread (p_conn p) ++ net = concat pf.
(* the bytes of the commands follow what is written already, or waiting to be *)
Definition base_of (p : Panel) : bytes := sent (p_conn p) ++ wbuf (p_conn p).
(* the state after some moves in which the commands l were given *)
Inductive after (may : packet -> Prop) (base : bytes) (x0 : exchange) : list Command -> exchange -> Prop :=
| A_new : after may base x0 [] x0
| A_move l x a x' : after may base x0 l x -> moves may base x a x' -> after may base x0 (l ++ given_in a) x'.

(* ---- fair executions ---- *)
Definition unfolds (may : packet -> Prop) (base : bytes) (x0 : exchange) (xs : nat -> exchange) (acts : nat -> move) : Prop :=
  xs 0%nat = x0 /\ forall n, moves may base (xs n) (acts n) (xs (S n)).
(* the commands given in the first n moves *)
Fixpoint given (acts : nat -> move) (n : nat) : list Command := match n with O => [] | S n' => given acts n' ++ given_in (acts n') end.
Definition sends (a : move) : Prop := match a with MSend _ (WAccept (S _) :: _) => True | _ => False end.
Definition reads (a : move) : Prop := match a with MRead _ => True | _ => False end.
Definition just (base : bytes) (xs : nat -> exchange) (acts : nat -> move) : Prop :=
  (* both tasks keep being run, the sending one with a socket that takes at least a byte *)
  (forall n, exists m, (n <= m)%nat /\ sends (acts m)) /\
  (forall n, exists m, (n <= m)%nat /\ reads (acts m)) /\
  (* a command received is eventually answered *)
  (forall n, exists m, (n <= m)%nat /\ (acts m = MReply \/ forall q, ~ next_command base (xs m) q)) /\
  (* bytes sent are eventually delivered *)
  (forall n, exists m, (n <= m)%nat /\ (acts m = MDeliver \/ x_net (xs m) = [])).

(* pkt would do as the reply to one of the commands cs *)
Definition answers_one (cs : list Command) (pkt : packet) : Prop :=
  exists m c, message_of pkt = Some m /\ In c cs /\ replies m (into_msg c).
