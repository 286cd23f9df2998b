(* Pair.v: two Connections at the two ends of a TCP connection, as in /repo/elkm1/src/tokio.rs:108-124 (testutil::socketpair).
   Definitions only.

   The line between them is reliable, as TCP is: what an end's socket has taken arrives at the other end in order, in chunks of any
   sizes, after any delay; when an end is dropped, the other end sees the end of the stream after all that was sent.  (That a
   dropped end which has not read everything resets the connection is not modelled.) *)
From Verif Require Export Base Pkt Tokio.

(* one end, with what has happened there: the packets accepted for sending, the answers of poll_next, and how many of the
   other end's bytes have arrived; one Connection of tokio.rs:122 *)
Record endpoint : Type := mkEnd {
  ep : conn; given : list packet; seen : list (poll (option (io packet))); arrived_at : nat; gone : bool }.
(* tokio.rs:122 *)
Record pair : Type := mkPair { left_end : endpoint; right_end : endpoint }.
(* tokio.rs:120, 121 *)
Definition end_new : endpoint := mkEnd conn_new [] [] 0 false.
(* tokio.rs:113-123 *)
Definition socketpair : pair := mkPair end_new end_new.
(* the two ends are called true and false *)
Definition at_end (s : bool) (P : pair) : endpoint := if s then left_end P else right_end P.
Definition put_end (s : bool) (P : pair) (e : endpoint) : pair :=
  if s then mkPair e (right_end P) else mkPair (left_end P) e.
Definition set_ep (e : endpoint) (c : conn) : endpoint := mkEnd c (given e) (seen e) (arrived_at e) (gone e).

(* the calls of tokio.rs:34-84 *)
Inductive pop : Type :=
| PReady (s : bool) (ws : list wr)        (* calls on the end s *)
| PSend (s : bool) (p : packet)
| PFlush (s : bool) (ws : list wr)
| PClose (s : bool) (ws : list wr)
| PNext (s : bool)
| PDrop (s : bool)
| PCarry (s : bool) (n : nat)             (* the next bytes that s has sent arrive at the other end, n + 1 at most *)
| PEnd (s : bool).                        (* the end of the stream from s, which was dropped, arrives *)

(* the calls of tokio.rs:34-84 *)
Definition pstep (P : pair) (o : pop) : res pair :=
  match o with
  | PReady s ws =>
      let e := at_end s P in
      if gone e then Ok P else let '(c, _, _) := conn_poll_ready (ep e) ws in Ok (put_end s P (set_ep e c))
  | PSend s p =>
      let e := at_end s P in
      if gone e then Ok P
      else c <- conn_start_send (ep e) p ;; Ok (put_end s P (mkEnd c (given e ++ [p]) (seen e) (arrived_at e) (gone e)))
  | PFlush s ws =>
      let e := at_end s P in
      if gone e then Ok P else let '(c, _, _) := conn_poll_flush (ep e) ws in Ok (put_end s P (set_ep e c))
  | PClose s ws =>
      let e := at_end s P in
      if gone e then Ok P else let '(c, _, _) := conn_poll_close (ep e) ws in Ok (put_end s P (set_ep e c))
  | PNext s =>
      let e := at_end s P in
      if gone e then Ok P
      else ' (c, r) <- conn_poll_next (ep e) ;; Ok (put_end s P (mkEnd c (given e) (seen e ++ [r]) (arrived_at e) (gone e)))
  | PDrop s =>
      let e := at_end s P in Ok (put_end s P (mkEnd (ep e) (given e) (seen e) (arrived_at e) true))
  | PCarry s n =>
      let e := at_end (negb s) P in
      match firstn (S n) (skipn (arrived_at e) (sent (ep (at_end s P)))) with
      | [] => Ok P
      | chunk => Ok (put_end (negb s) P
                   (mkEnd (arrive (ep e) (Bytes chunk)) (given e) (seen e) (arrived_at e + length chunk) (gone e)))
      end
  | PEnd s =>
      let e := at_end (negb s) P in
      if gone (at_end s P) && (arrived_at e =? length (sent (ep (at_end s P))))%nat && negb (peer_closed (ep e))
      then Ok (put_end (negb s) P (set_ep e (arrive (ep e) PeerClose)))
      else Ok P
  end.
(* the calls of tokio.rs:34-84 *)
Fixpoint psteps (P : pair) (os : list pop) : res pair :=
  match os with [] => Ok P | o :: os' => P' <- pstep P o ;; psteps P' os' end.
