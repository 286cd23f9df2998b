(* SpecWatch.v: which lines `elkm1-cli watch` is to log.  For C94. *)
From Verif Require Import Base Pkt Msg Tokio State SpecState Cli SpecCli Mqtt SpecMqtt Fmt Log SpecTrace.

(* an event is shown *)
Definition says_seen (e : Event) (l : entry) : Prop :=
  exists d, Event_dbg e = Ok d /\ l = mkEntry Debug "received packet" [("pkt"%string, ByDebug d)].
(* a change (see SpecCli.v) is shown *)
Definition says_change (c : line) (l : entry) : Prop :=
  match c with
  | LZone name prior new => exists d d', ZoneStatus_dbg prior = Ok d /\ ZoneStatus_dbg new = Ok d' /\
      l = mkEntry Info "zone change" [("zone.name"%string, ByDisplay name); ("prior.state"%string, ByDebug d); ("new.state"%string, ByDebug d')]
  | LArea name s u a s' u' a' =>
      l = mkEntry Info "arming status change"
        [("area.name"%string, ByDisplay name); ("prior.arming_status"%string, ByDebug (ArmingStatus_dbg s)); ("prior.up_state"%string, ByDebug (ArmUpState_dbg u));
         ("prior.alarm_state"%string, ByDebug (AlarmState_dbg a)); ("new.arming_status"%string, ByDebug (ArmingStatus_dbg s'));
         ("new.up_state"%string, ByDebug (ArmUpState_dbg u')); ("new.alarm_state"%string, ByDebug (AlarmState_dbg a'))]
  end.
Definition tracking : entry := mkEntry Info "tracking changes" [].
(* The changes told of and the lines logged while the panel goes from p to p': for each event the library's lines, then that of the
   event, then those of the changes. *)
Inductive diary : Panel -> list iop -> Panel -> list line -> list entry -> Prop :=
| Di_start p : diary p [] p [] []
| Di_arrive p h p1 cs es a : diary p h p1 cs es -> diary p (h ++ [IArrive a]) (with_conn p1 (arrive (p_conn p1) a)) cs es
| Di_wait p h p1 cs es now ws p2 w : diary p h p1 cs es -> poll_next now p1 = Ok (p2, Pending, w) -> diary p (h ++ [IStep now ws]) p2 cs es
| Di_event p h p1 cs es now ws p2 w e cs' l1 l2 l3 : diary p h p1 cs es -> poll_next now p1 = Ok (p2, Ready (Some (IoOk e)), w) ->
    poll_says p1 p2 (Ready (Some (IoOk e))) l1 -> says_seen e l2 -> tells p1 p2 e cs' -> Forall2 says_change cs' l3 ->
    diary p (h ++ [IStep now ws]) p2 (cs ++ cs') (es ++ l1 ++ l2 :: l3).

(* the lines of watch itself and those of the library: they differ in level or text *)
Definition is_change (l : entry) : bool := String.eqb (en_text l) "zone change" || String.eqb (en_text l) "arming status change".
Definition is_seen (l : entry) : bool := match en_level l with Debug => String.eqb (en_text l) "received packet" | _ => false end.
Definition library_line (l : entry) : bool := negb (is_change l || is_seen l || String.eqb (en_text l) "tracking changes").
(* what happens to the panel *)
Definition as_op (o : iop) : op := match o with IArrive a => Arrive a | IStep now _ => PollNext now end.
