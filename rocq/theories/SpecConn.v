(* SpecConn.v: what a Connection owes its reader, in terms of what arrived on the socket. *)
From Verif Require Import Base Pkt SpecPkt Tokio.

(* What a Ready result of poll_next says. *)
Inductive outcome : Type := Packet (p : packet) | Error (e : string) | End.
Definition ready_of (o : outcome) : poll (option (io packet)) :=
  match o with Packet p => Ready (Some (IoOk p)) | Error e => Ready (Some (IoErr e)) | End => Ready None end.

(* What is owed for a sequence of arrivals, starting with b buffered: the packets of the byte stream,
   each as soon as it is complete, each read error followed by one End.  left is the incomplete rest. *)
Inductive owed : bytes -> list arrival -> list outcome -> bytes -> Prop :=
| Owed_nil b : owed b [] [] b
| Owed_bytes b c ps l a os left : drain (b ++ c) = Ok (ps, l) -> owed l a os left ->
    owed b (Bytes c :: a) (map Packet ps ++ os) left
| Owed_error b e a os left : owed b a os left -> owed b (ReadError e :: a) (Error e :: End :: os) left.

(* The bytes received that have not been turned into packets yet: in the buffer, or queued in the socket. *)
Definition rd_data (r : rd) : bytes := match r with RData c => c | RErr _ => [] end.
Definition qdata (q : list rd) : bytes := concat (map rd_data q).
Definition unread (c : conn) : bytes := rbuf c ++ qdata (rq c).

Definition arrival_u8 (a : arrival) : Prop := match a with Bytes b => u8s b | _ => True end.
Definition arrival_data (a : arrival) : bytes := match a with Bytes b => b | _ => [] end.

(* The network's side of a history: chunks of bytes and read errors, then possibly the peer closes. *)
Definition arrival_ok (a : arrival) : Prop :=
  match a with Bytes c => c <> [] /\ Forall (fun b => b < 256) c | ReadError _ => True | PeerClose => False end.

(* The k-th answer owed (counting from 0) when the arrivals so far owe os and leave left. *)
Definition answer (os : list outcome) (left : bytes) (closed : bool) (k : nat) : poll (option (io packet)) :=
  match nth_error os k with
  | Some o => ready_of o
  | None =>
      if closed then
        match left with
        | _ :: _ => if (k =? length os)%nat then ready_of (Error "bytes remaining on stream") else ready_of End
        | [] => ready_of End
        end
      else Pending
  end.

(* Histories of a connection: arrivals (None: the peer closes) and polls, in any order. *)
Inductive cop : Type := CArrive (a : arrival) | CPoll.
Fixpoint crun (c : conn) (os : list cop) : res (conn * list (poll (option (io packet)))) :=
  match os with
  | [] => Ok (c, [])
  | CArrive a :: os' => crun (arrive c a) os'
  | CPoll :: os' => ' (c1, r) <- conn_poll_next c ;; ' (c2, rs) <- crun c1 os' ;; Ok (c2, r :: rs)
  end.
Definition arrivals (os : list cop) : list arrival :=
  flat_map (fun o => match o with CArrive a => [a] | CPoll => [] end) os.
Definition is_ready {A : Type} (r : poll A) : bool := match r with Ready _ => true | Pending => false end.
Definition ready_count {A : Type} (rs : list (poll A)) : nat := length (filter is_ready rs).
