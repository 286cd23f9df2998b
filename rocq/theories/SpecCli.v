(* SpecCli.v: vocabulary for the properties of the command-line tool. *)
From Coq Require Import Sorting.Sorted.
From Verif Require Import Base Pkt SpecPkt PktFacts Msg SpecMsg Tokio State SpecState Cli.

(* what read prints for a file: one line per packet, and one for what is left over, if anything *)
Inductive reads : bytes -> list out_line -> Prop :=
| R_end : reads [] []
| R_left left : left <> [] -> decodes left None left -> reads left [OIncomplete left]
| R_packet data p rest ls : decodes data (Some p) rest -> reads rest ls -> reads data (OPacket p :: ls).
(* the bytes a line stands for *)
Definition stands_for (l : out_line) (f : bytes) : Prop :=
  match l with OPacket p => frame_of p f | OIncomplete l => f = l end.

(* the state of an area in a report *)
Definition area_is (r : ArmingStatusReport) (area : N) (x : ArmingStatus * ArmUpState * AlarmState) : Prop :=
  let i := N.to_nat (area - 1) in
  nth_error (arming_status r) i = Some (fst (fst x)) /\ nth_error (up_state r) i = Some (snd (fst x)) /\ nth_error (alarm_state r) i = Some (snd x).
Definition area_differs (r r' : ArmingStatusReport) (area : N) : Prop := exists x x', area_is r area x /\ area_is r' area x' /\ x <> x'.
(* the line about an area whose state went from the one in r to the one in r' *)
Definition area_line (p : Panel) (r r' : ArmingStatusReport) (area : N) (l : line) : Prop :=
  exists name shown s u a s' u' a', nth_error (panel_area_names p) (N.to_nat (area - 1)) = Some name /\ trimmed name shown /\
    area_is r area (s, u, a) /\ area_is r' area (s', u', a') /\ l = LArea shown s u a s' u' a'.
(* the lines for a poll of panel p that yields event e and leaves it as p' *)
Definition tells (p p' : Panel) (e : Event) (ls : list line) : Prop :=
  exists r r' zl al, status_is p r /\ status_is p' r' /\ ls = zl ++ al /\
    (exists as_, StronglySorted N.lt as_ /\ (forall area, In area as_ <-> 1 <= area <= 8 /\ area_differs r r' area) /\ Forall2 (area_line p r r') as_ al) /\
    ((exists zone prior new name shown, e_msg e = Some (inl (MZoneChange (mkZC zone new))) /\ zone_status_is p zone prior /\ zone_status_is p' zone new /\
        prior <> new /\ panel_zone_name p zone = Ok name /\ trimmed name shown /\ zl = [LZone shown prior new]) \/
     ((forall zone prior new, e_msg e = Some (inl (MZoneChange (mkZC zone new))) -> zone_status_is p zone prior -> prior = new) /\ zl = [])).
(* the lines logged while the panel goes from p to p' *)
Inductive told : Panel -> list iop -> Panel -> list line -> Prop :=
| T_start p : told p [] p []
| T_arrive p h p1 log a : told p h p1 log -> told p (h ++ [IArrive a]) (with_conn p1 (arrive (p_conn p1) a)) log
| T_wait p h p1 log now ws p2 w : told p h p1 log -> poll_next now p1 = Ok (p2, Pending, w) -> told p (h ++ [IStep now ws]) p2 log
| T_event p h p1 log now ws p2 w e ls : told p h p1 log -> poll_next now p1 = Ok (p2, Ready (Some (IoOk e)), w) -> tells p1 p2 e ls ->
    told p (h ++ [IStep now ws]) p2 (log ++ ls).
