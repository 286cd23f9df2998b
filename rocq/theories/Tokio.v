(* Tokio.v: model of /repo/elkm1/src/tokio.rs (Connection), on top of tokio_util 0.7's Framed (the
   version in /repo/Cargo.lock is 0.7.18), whose source is not in the sandbox: its FramedImpl is modelled from its documented
   behaviour, see DESIGN.md.  Definitions only.

   The socket is a queue of outcomes of future reads (filled by the environment), and every write
   call is answered by an outcome the caller of the model supplies.  Nothing is assumed about either. *)
From Verif Require Export Base Pkt.

(* std::task::Poll and std::io::Result (errors are strings); used at tokio.rs:38-83 *)
Inductive poll (A : Type) : Type := Pending | Ready (a : A).
Arguments Pending {A}.
Arguments Ready {A} a.
(* tokio.rs:35, 51 *)
Inductive io (A : Type) : Type := IoOk (a : A) | IoErr (e : string).
Arguments IoOk {A} a.
Arguments IoErr {A} e%string.

(* What a read of the socket returns: RData c puts the bytes c in the buffer (c = [] is a read of 0
   bytes, the end of stream), RErr is an error.  With none queued the read returns 0 bytes if the
   peer has closed, and Pending otherwise. reached from tokio.rs:42 *)
Inductive rd : Type := RData (c : bytes) | RErr (e : string).
(* What a write of the socket returns: WAccept n takes the first n bytes offered (all, if fewer). reached from tokio.rs:58-82 *)
Inductive wr : Type := WAccept (n : nat) | WPending | WErr (e : string).

(* tokio.rs:24 Connection(Framed<TcpStream, Codec>): the read and write halves of Framed's state, the
   socket's queued reads, and two ghost fields: the bytes the socket has taken, and whether it
   was shut down for writing. *)
Record conn : Type := mkConn {
  rbuf : bytes; c_eof : bool; is_readable : bool; has_errored : bool;
  rq : list rd; peer_closed : bool;
  wbuf : bytes; sent : bytes; shut : bool }.

(* tokio.rs:30 Framed::new: everything empty *)
Definition conn_new : conn := mkConn [] false false false [] false [] [] false.

(* tokio.rs:93-95 Codec::decode; the default Decoder::decode_eof of tokio_util: as decode, but
   an error if bytes are left. *)
Definition codec_decode (src : bytes) : res (option packet * bytes) := decode src.
Definition codec_decode_eof (src : bytes) : res (io (option packet) * bytes) :=
  ' (o, rest) <- codec_decode src ;;
  match o with
  | Some p => Ok (IoOk (Some p), rest)
  | None => match rest with
            | [] => Ok (IoOk None, rest)
            | _ :: _ => Ok (IoErr "bytes remaining on stream", rest)
            end
  end.

(* reached from tokio.rs:42 *)
Definition set_read (c : conn) (buf : bytes) (eof readable errored : bool) (q : list rd) : conn :=
  mkConn buf eof readable errored q (peer_closed c) (wbuf c) (sent c) (shut c).

(* tokio_util FramedImpl::poll_next.  fuel: every iteration that does not return uses up a queued read,
   or sees the end of stream for the first time. what tokio.rs:42 calls *)
Fixpoint framed_loop (fuel : nat) (c : conn) : res (conn * poll (option (io packet))) :=
  match fuel with
  | O => Panic "out of fuel"
  | S fuel' =>
      (* reading: append to the buffer, then try to decode again *)
      let read (c : conn) :=
        let got (chunk : bytes) (q : list rd) :=
          match chunk with
          | [] => if c_eof c
                  then Ok (set_read c (rbuf c) true false false q, Ready None)
                  else framed_loop fuel' (set_read c (rbuf c) true true false q)
          | _ :: _ => framed_loop fuel' (set_read c (rbuf c ++ chunk) false true false q)
          end in
        match rq c with
        | [] => if peer_closed c then got [] [] else Ok (c, Pending)
        | RErr e :: q => Ok (set_read c (rbuf c) (c_eof c) false true q, Ready (Some (IoErr e)))
        | RData chunk :: q => got chunk q
        end in
      if has_errored c then Ok (set_read c (rbuf c) (c_eof c) false false (rq c), Ready None)
      else if is_readable c then
        if c_eof c then
          ' (r, rest) <- codec_decode_eof (rbuf c) ;;
          match r with
          | IoErr e => Ok (set_read c rest true true true (rq c), Ready (Some (IoErr e)))
          | IoOk None => Ok (set_read c rest true false false (rq c), Ready None)
          | IoOk (Some p) => Ok (set_read c rest true true false (rq c), Ready (Some (IoOk p)))
          end
        else
          ' (o, rest) <- codec_decode (rbuf c) ;;
          match o with
          | Some p => Ok (set_read c rest false true false (rq c), Ready (Some (IoOk p)))
          | None => read (set_read c rest false false false (rq c))
          end
      else read c
  end.

(* tokio.rs:38-47 <Connection as Stream>::poll_next (the trace! call is not modelled) *)
Definition conn_poll_next (c : conn) : res (conn * poll (option (io packet))) :=
  framed_loop (2 + length (rq c)) c.

(* tokio_util FramedImpl::poll_flush: write until the buffer is empty.  Also returns the write outcomes
   not used.  TcpStream::poll_flush does nothing. what tokio.rs:74, 82 call *)
Fixpoint framed_flush (ws : list wr) (buf out : bytes) : bytes * bytes * list wr * poll (io unit) :=
  match buf with
  | [] => (buf, out, ws, Ready (IoOk tt))
  | _ :: _ =>
      match ws with
      | [] => (buf, out, [], Pending)
      | WPending :: ws' => (buf, out, ws', Pending)
      | WErr e :: ws' => (buf, out, ws', Ready (IoErr e))
      | WAccept O :: ws' => (buf, out, ws', Ready (IoErr "failed to write frame to transport"))
      | WAccept (S n) :: ws' => framed_flush ws' (skipn (S n) buf) (out ++ firstn (S n) buf)
      end
  end.
(* reached from tokio.rs:58-82 *)
Definition set_write (c : conn) (buf out : bytes) : conn :=
  mkConn (rbuf c) (c_eof c) (is_readable c) (has_errored c) (rq c) (peer_closed c) buf out (shut c).

(* tokio.rs:70-75 <Connection as Sink>::poll_flush *)
Definition conn_poll_flush (c : conn) (ws : list wr) : conn * list wr * poll (io unit) :=
  let '(buf, out, ws', r) := framed_flush ws (wbuf c) (sent c) in (set_write c buf out, ws', r).

(* tokio_util's default backpressure boundary (8 KiB); reached from tokio.rs:58 *)
Definition BACKPRESSURE : N := 8192.
(* tokio.rs:54-59 <Connection as Sink>::poll_ready *)
Definition conn_poll_ready (c : conn) (ws : list wr) : conn * list wr * poll (io unit) :=
  if BACKPRESSURE <=? N.of_nat (length (wbuf c)) then conn_poll_flush c ws else (c, ws, Ready (IoOk tt)).

(* tokio.rs:61-67 <Connection as Sink>::start_send and tokio.rs:102-105 Codec::encode *)
Definition conn_start_send (c : conn) (p : packet) : res conn :=
  buf <- encode p (wbuf c) ;; Ok (set_write c buf (sent c)).

(* tokio.rs:78-83 <Connection as Sink>::poll_close: it calls poll_flush, not Framed's poll_close *)
Definition conn_poll_close (c : conn) (ws : list wr) : conn * list wr * poll (io unit) :=
  conn_poll_flush c ws.
(* What Framed's own poll_close does (flush, then shut the socket down).  Connection never calls it;
   it is here to show that [shut] is a meaningful field. *)
Definition framed_poll_close (c : conn) (ws : list wr) : conn * list wr * poll (io unit) :=
  let '(c', ws', r) := conn_poll_flush c ws in
  match r with
  | Ready (IoOk _) =>
      (mkConn (rbuf c') (c_eof c') (is_readable c') (has_errored c') (rq c') (peer_closed c')
         (wbuf c') (sent c') true, ws', r)
  | _ => (c', ws', r)
  end.

(* The environment: the network delivers something to the socket. the TcpStream of tokio.rs:24, 29 *)
Inductive arrival : Type := Bytes (c : bytes) | ReadError (e : string) | PeerClose.
(* the TcpStream of tokio.rs:24, 29 *)
Definition arrive (c : conn) (a : arrival) : conn :=
  let q := match a with Bytes b => rq c ++ [RData b] | ReadError e => rq c ++ [RErr e] | PeerClose => rq c end in
  mkConn (rbuf c) (c_eof c) (is_readable c) (has_errored c) q
    (match a with PeerClose => true | _ => peer_closed c end) (wbuf c) (sent c) (shut c).
