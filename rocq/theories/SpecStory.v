(* SpecStory.v: what `elkm1-cli watch` is to tell, in terms of what the panel has sent.  For C106 and C107. *)
From Coq Require Import Sorting.Sorted.
From Verif Require Import Base Pkt SpecPkt Msg SpecMsg Tokio SpecConn State SpecState SpecFail Cli SpecCli.

(* The lines for an event about zones, given all packets received before: one if a zone that has changed was not in that state already. *)
Definition zone_part (p0 : Panel) (before : list packet) (e : Event) (ls : list line) : Prop :=
  match match e_pkt e with Some pkt => message_of pkt | None => None end with
  | Some (MZoneChange (mkZC z new)) => exists prior, (forall s, zone_after z s (messages_in before) = prior) /\
      (prior = new /\ ls = [] \/
       prior <> new /\ exists name shown, panel_zone_name p0 z = Ok name /\ trimmed name shown /\ ls = [LZone shown prior new])
  | _ => ls = []
  end.
(* one line for each area whose state differs, in order *)
Definition area_lines (p0 : Panel) (r r' : ArmingStatusReport) (ls : list line) : Prop :=
  exists as_, StronglySorted N.lt as_ /\ (forall area, In area as_ <-> 1 <= area <= 8 /\ area_differs r r' area) /\ Forall2 (area_line p0 r r') as_ ls.
(* The lines for an event about areas, given the report in effect and the one held, if any; and which are after it. *)
Definition arming_part (p0 : Panel) (r : ArmingStatusReport) (h : option ArmingStatusReport) (e : Event) (ls : list line)
    (r' : ArmingStatusReport) (h' : option ArmingStatusReport) : Prop :=
  match e_pkt e with
  | None => h = Some r' /\ h' = None /\ area_lines p0 r r' ls       (* the time is up *)
  | Some pkt =>
      match message_of pkt with
      | Some (MArmingStatusReport x) =>
          h = None /\ became_fully_armed r x /\ r' = r /\ h' = Some x /\ ls = [] \/
          (h <> None \/ ~ became_fully_armed r x) /\ r' = x /\ h' = None /\ area_lines p0 r x ls
      | _ => r' = r /\ h' = h /\ ls = []
      end
  end.
(* The lines for the events es, one after the other.  Before them the packets ps have been received, r is in effect and h is held;
   names are those p0 knows.  The lines are determined by this. *)
Inductive narrates (p0 : Panel) (ps : list packet) (r : ArmingStatusReport) (h : option ArmingStatusReport) :
    list Event -> list line -> ArmingStatusReport -> option ArmingStatusReport -> Prop :=
| Nar_start : narrates p0 ps r h [] [] r h
| Nar_event es ls r1 h1 e zl al r2 h2 : narrates p0 ps r h es ls r1 h1 -> zone_part p0 (ps ++ packets es) e zl -> arming_part p0 r1 h1 e al r2 h2 ->
    narrates p0 ps r h (es ++ [e]) (ls ++ zl ++ al) r2 h2.
(* what happens to the panel once watch is connected *)
Definition as_call (o : iop) : op := match o with IArrive a => Arrive a | IStep now _ => PollNext now end.
(* The story up to the history h: connecting ended with panel p0, having turned the packets ps of what had arrived into events.
   Polling it since has led to panel p and yielded the events es, for which log has the lines. *)
Definition followed (h : list iop) (p0 : Panel) (ps : list packet) (p : Panel) (es : list Event) (log : list line) : Prop :=
  exists h0 h1 bs r0 r, h = h0 ++ h1 /\ irun conn_new h0 = IDone p0 /\ run p0 (map as_call h1) = Ok (p, bs) /\ es = events bs /\
    (exists us left, drain (unread (p_conn p0)) = Ok (us, left) /\ drain (iarrived h0) = Ok (ps ++ us, left)) /\
    (exists us left, drain (unread (p_conn p)) = Ok (us, left) /\ drain (iarrived h) = Ok (ps ++ packets es ++ us, left)) /\
    status_is p0 r0 /\ status_is p r /\ narrates p0 ps r0 (held p0) es log r (held p).

(* watch has returned or panicked *)
Definition ended (w : watcher) : Prop := match w with WDone _ | WCrash _ _ => True | _ => False end.
(* how watch ends in a step after the history h with outcomes ws of its writes *)
Inductive ends_because (h : list iop) (now : N) (ws : list wr) : watcher -> Prop :=
(* connecting fails, for one of the reasons of C85; or panics *)
| E_fail e : irun conn_new (h ++ [IStep now ws]) = IFail e -> fails_because h ws e -> ends_because h now ws (WCrash [] e)
| E_crash why : irun conn_new (h ++ [IStep now ws]) = ICrash why -> ends_because h now ws (WCrash [] why)
(* the panel closed the connection between packets *)
| E_done a p0 ps p es log : network h a true -> owed [] a (map Packet (ps ++ packets es)) [] -> watch h = WLoop p log -> followed h p0 ps p es log ->
    ends_because h now ws (WDone log)
(* or in the middle of one *)
| E_partial a p0 ps p es log rest : network h a true -> owed [] a (map Packet (ps ++ packets es)) rest -> rest <> [] -> watch h = WLoop p log -> followed h p0 ps p es log ->
    ends_because h now ws (WCrash log "bytes remaining on stream"%string)
(* a read error, the first *)
| E_read a closed p0 ps p es log e os rest : network h a closed -> owed [] a (map Packet (ps ++ packets es) ++ Error e :: os) rest -> watch h = WLoop p log -> followed h p0 ps p es log ->
    ends_because h now ws (WCrash log e).
