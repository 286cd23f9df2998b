(* SpecFail.v: why connecting may fail, in terms of what the network and the socket did.  For C85. *)
From Verif Require Import Base Pkt SpecPkt Msg SpecMsg Tokio SpecConn State SpecState SpecInit SpecReason.

(* what arrived while connecting, in order *)
Definition iarrivals (h : list iop) : list arrival := flat_map (fun o => match o with IArrive a => [a] | IStep _ _ => [] end) h.
(* the network's side: chunks of bytes and read errors, then possibly the peer closes *)
Definition network (h : list iop) (a : list arrival) (closed : bool) : Prop :=
  Forall arrival_ok a /\ iarrivals h = a ++ (if closed then [PeerClose] else []).
Definition running (i : istate) : Prop := exists s ph p, i = IRun s ph p.

(* the text for a connection that ends while a reply is awaited; it names the request *)
Definition type_name (ty : TextDescriptionType) : string :=
  match ty with TT_Area => "Area" | TT_Task => "Task" | TT_Zone => "Zone" | _ => "" end%string.
Inductive eof_text : message -> string -> Prop :=
| EOF_as : eof_text MArmingStatusRequest "EOF while expecting reply to ArmingStatusRequest(ArmingStatusRequest)"%string
| EOF_zs : eof_text MZoneStatusRequest "EOF while expecting reply to ZoneStatusRequest(ZoneStatusRequest)"%string
| EOF_sd ty n d : In ty [TT_Area; TT_Task; TT_Zone] -> numeral n (bytes_of_string d) ->
    eof_text (MStringDescriptionRequest (mkSdReq ty n))
      ("EOF while expecting reply to StringDescriptionRequest(StringDescriptionRequest { ty: " ++ type_name ty ++ ", num: " ++ d ++ " })")%string.

(* the requests sent, of which q is the last; all have gone out *)
Definition last_sent (i : istate) (q : message) : Prop :=
  exists qs fs, Forall2 request_frame (qs ++ [q]) fs /\ client_sent i = concat fs.

(* why a step fails with error e: h is all that happened before it, ws the outcomes of its writes *)
Inductive fails_because (h : list iop) (ws : list wr) : string -> Prop :=
(* the socket refuses to write *)
| F_write e : In (WErr e) ws -> fails_because h ws e
| F_write_zero : In (WAccept 0) ws -> fails_because h ws "failed to write frame to transport"%string
(* a read error, the first, after some packets *)
| F_read a closed ps e os rest : network h a closed -> owed [] a (map Packet ps ++ Error e :: os) rest -> fails_because h ws e
(* the panel closed the connection in the middle of a packet *)
| F_partial a ps rest : network h a true -> owed [] a (map Packet ps) rest -> rest <> [] -> fails_because h ws "bytes remaining on stream"%string
(* or between packets, before the reply to the last request sent *)
| F_end a ps q e : network h a true -> owed [] a (map Packet ps) [] -> last_sent (irun conn_new h) q -> eof_text q e -> fails_because h ws e.

(* a step with a socket that takes what it is offered, in whatever pieces *)
Definition good_step (o : iop) : Prop :=
  match o with IStep _ ws => Forall (fun w => exists n, w = WAccept (S n)) ws /\ (15 <= length ws)%nat | IArrive _ => False end.
(* no write of the history fails *)
Definition writes_ok (o : iop) : Prop := match o with IStep _ ws => Forall write_ok ws | IArrive _ => True end.
