(* SpecWakeInit.v: connecting to a panel that answers, by a task that is only run when it has been woken.  For C95. *)
From Verif Require Import Base Pkt SpecPkt Msg SpecMsg Tokio SpecConn State SpecState SpecInit WakeInit.

Definition cact_ok (a : cact) : Prop := match a with CArrive x => arrival_u8 x | _ => True end.
(* nothing can be done: all that has arrived is used up and the request is out, or there is no room for what remains of the request *)
Definition at_rest (k : client) (p : Panel) : Prop :=
  (wbuf (p_conn p) = [] /\ decode (unread (p_conn p)) = Ok (None, unread (p_conn p)) /\ rq (p_conn p) = [] /\ peer_closed (p_conn p) = false) \/
  (wbuf (p_conn p) <> [] /\ k_room k = 0%nat /\ k_broken k = None).

(* the task, with the panel and the network of SpecInit.v *)
Record xworld : Type := mkX { x_client : client; x_out : list packet; x_net : bytes; x_replied : nat }.
Definition xworld_new : xworld := mkX client_new [] [] 0.
Definition world_of (x : xworld) : world := mkWorld (k_state (x_client x)) (x_out x) (x_net x) (x_replied x).
Inductive xact : Type :=
| XTask (a : cact)           (* the task is run, or the socket, the clock or the executor does something *)
| XUnrelated | XReply | XDeliver.
Definition local (a : cact) : Prop := match a with CArrive _ | CBreak _ => False | _ => True end.
Inductive xhappens (nm : naming) (x : xworld) : xact -> xworld -> Prop :=
| X_task a : local a -> xhappens nm x (XTask a) (mkX (cstep (x_client x) a) (x_out x) (x_net x) (x_replied x))
| X_unrelated p f : valid_packet p -> ~ is_name_reply p -> frame_of p f ->
    xhappens nm x XUnrelated (mkX (x_client x) (x_out x ++ [p]) (x_net x ++ f) (x_replied x))
| X_reply q m body f : next_request (world_of x) q -> answers nm q m -> grammar m body -> ascii_body body -> ascii_frame body f ->
    xhappens nm x XReply (mkX (x_client x) (x_out x ++ [PAscii body]) (x_net x ++ f) (S (x_replied x)))
| X_deliver a b : x_net x = a ++ b -> a <> [] ->
    xhappens nm x XDeliver (mkX (cstep (x_client x) (CArrive (Bytes a))) (x_out x) b (x_replied x)).
Definition xexecution (nm : naming) (xs : nat -> xworld) (acts : nat -> xact) : Prop :=
  xs 0%nat = xworld_new /\ forall n, xhappens nm (xs n) (acts n) (xs (S n)).
Definition xfair (xs : nat -> xworld) (acts : nat -> xact) : Prop :=
  (* a task that has been woken is eventually run; it need not be run otherwise *)
  (forall n, exists m, (n <= m)%nat /\ (acts m = XTask CRun \/ k_runnable (x_client (xs m)) = false)) /\
  (* there is eventually room in the socket *)
  (forall n, exists m, (n <= m)%nat /\ k_room (x_client (xs m)) <> 0%nat) /\
  (* a request received is eventually answered *)
  (forall n, exists m, (n <= m)%nat /\ (acts m = XReply \/ forall q, ~ next_request (world_of (xs m)) q)) /\
  (* bytes sent are eventually delivered *)
  (forall n, exists m, (n <= m)%nat /\ (acts m = XDeliver \/ x_net (xs m) = [])).

(* the same task, but run at every opportunity whether it has been woken or not *)
Definition bstep (k : client) (a : cact) : client :=
  match a with CRun => cstep (mkClient (k_state k) true (k_reader k) (k_writer k) (k_now k) (k_room k) (k_broken k)) CRun | _ => cstep k a end.
Definition brun (h : list cact) : client := fold_left bstep h client_new.

(* the task with any network; what has arrived; what is fair to the task *)
Definition cexecution (ks : nat -> client) (acts : nat -> cact) : Prop :=
  ks 0%nat = client_new /\ forall n, cact_ok (acts n) /\ ks (S n) = cstep (ks n) (acts n).
Definition carrivals (acts : nat -> cact) (n : nat) : list arrival := flat_map (fun j => match acts j with CArrive a => [a] | _ => [] end) (seq 0 n).
Definition cfair (ks : nat -> client) (acts : nat -> cact) : Prop :=
  (forall n, exists m, (n <= m)%nat /\ (acts m = CRun \/ k_runnable (ks m) = false)) /\
  (* there is eventually room in the socket, or writing to it fails *)
  (forall n, exists m, (n <= m)%nat /\ (k_room (ks m) <> 0%nat \/ k_broken (ks m) <> None)).
