(* SpecTrace.v: which lines are to be logged, in terms of what the caller of a Panel sees.  For C86-C90. *)
From Verif Require Import Base Pkt SpecPkt Msg SpecMsg Tokio SpecConn State SpecState Mqtt SpecMqtt Log.

(* shown by default: both programs log at INFO unless told otherwise *)
Definition loud (e : entry) : bool := match en_level e with Info | Warn => true | _ => false end.
Definition report_field (name : string) (r : ArmingStatusReport) (f : string * shown) : Prop := f = (name, ByDebug (ArmingStatusReport_dbg r)).

(* the packet received is shown *)
Definition says_received (pkt : packet) (l : entry) : Prop := l = mkEntry Trace "received packet" [("pkt"%string, ByDebug (Packet_dbg pkt))].
(* report x, which would follow report a, is put on hold *)
Definition says_delaying (a x : ArmingStatusReport) (l : entry) : Prop :=
  exists f g, report_field "prior" a f /\ report_field "pending" x g /\
    l = mkEntry Debug "delaying arming status transition suspected to be spurious" [f; g].
(* report x takes effect at once although it is suspicious too, and m, on hold till now, is dropped *)
Definition says_again (a m x : ArmingStatusReport) (l : entry) : Prop :=
  exists f g h, report_field "prior" a f /\ report_field "pending" m g /\ report_field "new" x h /\
    l = mkEntry Warn "next arming report after suspicious transition is also suspicious; applying anyway" [f; g; h].
(* report x takes effect now *)
Definition says_deferred (a x : ArmingStatusReport) (l : entry) : Prop :=
  exists f g, report_field "prior" a f /\ report_field "pending" x g /\ l = mkEntry Warn "deferred arming status taking effect" [f; g].

(* e brings report x *)
Definition brings (e : Event) (x : ArmingStatusReport) : Prop := e_msg e = Some (inl (MArmingStatusReport x)).
(* What a poll that takes the panel from p to p' and answers r logs.  The cases exclude each other. *)
Inductive poll_says (p p' : Panel) (r : poll (option (io Event))) : list entry -> Prop :=
| Says_nothing : (forall e, ~ yields r e) -> poll_says p p' r []
| Says_deferred e a x l : yields r e -> e_pkt e = None -> status_is p a -> held p = Some x -> status_is p' x -> held p' = None ->
    says_deferred a x l -> poll_says p p' r [l]
| Says_delaying e pkt a x l l' : yields r e -> e_pkt e = Some pkt -> brings e x -> status_is p a -> became_fully_armed a x ->
    held p = None -> status_is p' a -> held p' = Some x -> says_received pkt l -> says_delaying a x l' -> poll_says p p' r [l; l']
| Says_again e pkt a m x l l' : yields r e -> e_pkt e = Some pkt -> brings e x -> status_is p a -> became_fully_armed a x ->
    held p = Some m -> status_is p' x -> held p' = None -> says_received pkt l -> says_again a m x l' -> poll_says p p' r [l; l']
| Says_received e pkt l : yields r e -> e_pkt e = Some pkt -> (forall a x, brings e x -> status_is p a -> ~ became_fully_armed a x) ->
    says_received pkt l -> poll_says p p' r [l].

(* ---- the whole of a log ---- *)
(* the lines with this text *)
Definition about (text : string) (ls : list entry) : list entry := filter (fun l => String.eqb (en_text l) text) ls.
Definition says_sending (pkt : packet) (l : entry) : Prop := l = mkEntry Trace "sending packet" [("pkt"%string, ByDebug (Packet_dbg pkt))].
(* f is the frame of pkt *)
Definition framed (pkt : packet) (f : bytes) : Prop := exists body, pkt = PAscii body /\ ascii_body body /\ ascii_frame body f.
(* ls records what came in and went out: from the stream of bytes received, ps were taken and they are shown;
   what was written, out, is the frames of the packets shown as sent. *)
Definition records (ls : list entry) (stream : bytes) (ps : list packet) (out : bytes) : Prop :=
  Forall2 says_received ps (about "received packet" ls) /\
  (exists qs left, drain stream = Ok (ps ++ qs, left)) /\
  exists os fs, Forall2 says_sending os (about "sending packet" ls) /\ Forall2 framed os fs /\ out = concat fs.
(* the command accepted is shown *)
Definition says_command (c : Command) (l : entry) : Prop :=
  exists d, Message_dbg (into_msg c) = Ok d /\ l = mkEntry Debug "sending message" [("msg"%string, ByDebug d)].
(* the library's own lines *)
Definition tame (l : entry) : Prop := loud l = true -> exists a x, says_deferred a x l \/ exists m, says_again a m x l.

(* ---- the lines about arming ---- *)
Definition arming_text (t : string) : Prop :=
  t = "delaying arming status transition suspected to be spurious"%string \/ t = "deferred arming status taking effect"%string \/
  t = "next arming report after suspicious transition is also suspicious; applying anyway"%string.
(* A log in which they come in order; Some (a, x): the last of them says that x, after a, was put on hold. *)
Inductive story : option (ArmingStatusReport * ArmingStatusReport) -> list entry -> Prop :=
| Story_begins : story None []
| Story_other o ls l : story o ls -> ~ arming_text (en_text l) -> story o (ls ++ [l])
| Story_delaying ls a x l : story None ls -> says_delaying a x l -> story (Some (a, x)) (ls ++ [l])
| Story_deferred ls a x l : story (Some (a, x)) ls -> says_deferred a x l -> story None (ls ++ [l])
| Story_again ls a m x l : story (Some (a, m)) ls -> says_again a m x l -> story None (ls ++ [l])
| Story_dropped o ls : story o ls -> story None ls.   (* by a report that is not suspicious: nothing is logged *)
(* the last line about arming in pre announced that x, after a, is put on hold *)
Definition announced (a x : ArmingStatusReport) (pre : list entry) : Prop :=
  exists pre1 l pre2, pre = pre1 ++ l :: pre2 /\ says_delaying a x l /\ Forall (fun l => ~ arming_text (en_text l)) pre2.

(* ---- elkm1-mqtt ---- *)
Definition says_event (e : Event) (l : entry) : Prop :=
  exists d, Event_dbg e = Ok d /\ l = mkEntry Info "panel event" [("panel_event"%string, ByDebug d)].
Definition says_publish (f : foreign) (m : bytes * bytes) (l : entry) : Prop :=
  l = mkEntry Info "received mqtt publish" [("publish"%string, ByDebug (publish_dbg f (fst m) (snd m))); ("payload"%string, ByDebug (payload_dbg f (snd m)))].
Definition names_area (cfg : Cfg) (m : bytes * bytes) (name : bytes) : Prop :=
  (exists area, In (area, name) (areas cfg)) /\ fst m = topic_prefix cfg ++ B "/area/" ++ name ++ B "/ha_command".
Definition says_matched (m : bytes * bytes) (name : bytes) (l : entry) : Prop :=
  l = mkEntry Info "matched to known area" [("area.name"%string, ByDisplay name); ("publish.topic"%string, ByDebug (DStr (fst m)))].
(* what handling the message m logs.  The cases exclude each other. *)
Inductive publish_says (f : foreign) (cfg : Cfg) (m : bytes * bytes) : list entry -> Prop :=
| Publish_unknown l : (forall n, ~ names_area cfg m n) -> says_publish f m l ->
    publish_says f cfg m [l; mkEntry Warn "ignoring publish to unknown topic" [("publish.topic"%string, ByDebug (DStr (fst m)))]]
| Publish_command l l' n level : names_area cfg m n -> In (snd m, level) payload_levels -> says_publish f m l -> says_matched m n l' ->
    publish_says f cfg m [l; l']
| Publish_not_text l l' n : names_area cfg m n -> utf8_valid (snd m) = false -> says_publish f m l -> says_matched m n l' ->
    publish_says f cfg m [l; l']
| Publish_other l l' n : names_area cfg m n -> utf8_valid (snd m) = true -> (forall level, ~ In (snd m, level) payload_levels) ->
    says_publish f m l -> says_matched m n l' ->
    publish_says f cfg m [l; l'; mkEntry Warn "ignoring unknown level" [("ha_level"%string, ByDebug (DStr (snd m)))]].
(* the bridge's own lines, and the others: those of the library *)
Definition bridge_texts : list string := ["panel initialized"; "panel event"; "received mqtt publish"; "matched to known area"; "ignoring unknown level";
  "ignoring publish to unknown topic"]%string.
Definition by_library (ls : list entry) : list entry := filter (fun l => negb (existsb (String.eqb (en_text l)) bridge_texts)) ls.
(* Two lines that are the same, but possibly for the code: in the command an event completes, in the command sent, or in its packet. *)
Inductive same_line (cfg cfg' : Cfg) : entry -> entry -> Prop :=
| Same_all l : same_line cfg cfg' l l
| Same_event pkt m change area level k k' l l' : dec_canon 6 (code cfg) k -> dec_canon 6 (code cfg') k' ->
    says_event (mkEvent pkt m (Some (MArmRequest (mkArmRequest area level k))) change) l ->
    says_event (mkEvent pkt m (Some (MArmRequest (mkArmRequest area level k'))) change) l' -> same_line cfg cfg' l l'
| Same_command area level k k' l l' : dec_canon 6 (code cfg) k -> dec_canon 6 (code cfg') k' ->
    says_command (CmdArm (mkArmRequest area level k)) l -> says_command (CmdArm (mkArmRequest area level k')) l' -> same_line cfg cfg' l l'
| Same_packet area level k k' body body' l l' : dec_canon 6 (code cfg) k -> dec_canon 6 (code cfg') k' ->
    wire (MArmRequest (mkArmRequest area level k)) body -> wire (MArmRequest (mkArmRequest area level k')) body' ->
    says_sending (PAscii body) l -> says_sending (PAscii body') l' -> same_line cfg cfg' l l'.

(* ---- connecting ---- *)
(* how far the request q has got, or that there is none *)
Inductive turn : Type := Announced (q : message) | Asked (q : message) | Over.
Definition says_request (q : message) (l : entry) : Prop :=
  exists d, Message_dbg q = Ok d /\ l = mkEntry Debug "sending initialization message" [("msg"%string, ByDebug d)].
(* what came with pkt, shown with the given text *)
Definition says_came (text : string) (pkt : packet) (m : message) (l : entry) : Prop :=
  exists change d, Event_dbg (mkEvent (Some pkt) (Some (inl m)) None change) = Ok d /\ l = mkEntry Debug text [("msg"%string, ByDebug d)].
(* what is logged about arming when m comes *)
Inductive arming_lines (m : message) : list entry -> Prop :=
| Arming_none : arming_lines m []
| Arming_delaying a x l : m = MArmingStatusReport x -> says_delaying a x l -> arming_lines m [l]
| Arming_again a y x l : m = MArmingStatusReport x -> says_again a y x l -> arming_lines m [l].
(* The log of connecting after the requests qs have been answered. *)
Inductive chronicle : list message -> turn -> list entry -> Prop :=
| Chron_begins l : says_request MArmingStatusRequest l -> chronicle [] (Announced MArmingStatusRequest) [l]
| Chron_sent qs q ls body l : chronicle qs (Announced q) ls -> wire q body -> says_sending (PAscii body) l -> chronicle qs (Asked q) (ls ++ [l])
| Chron_other qs q ls pkt l : chronicle qs (Asked q) ls -> message_of pkt = None -> says_received pkt l -> chronicle qs (Asked q) (ls ++ [l])
| Chron_unrelated qs q ls pkt m l la l' : chronicle qs (Asked q) ls -> message_of pkt = Some m -> ~ replies m q ->
    says_received pkt l -> arming_lines m la -> says_came "received unrelated message while awaiting reply" pkt m l' ->
    chronicle qs (Asked q) (ls ++ l :: la ++ [l'])
| Chron_last qs q ls pkt m l la l' : chronicle qs (Asked q) ls -> message_of pkt = Some m -> replies m q ->
    says_received pkt l -> arming_lines m la -> says_came "received reply" pkt m l' -> chronicle (qs ++ [q]) Over (ls ++ l :: la ++ [l'])
| Chron_next qs ls q l : chronicle qs Over ls -> says_request q l -> chronicle qs (Announced q) (ls ++ [l]).
(* for the examples *)
Definition brief (r : res (list entry)) : list (level * string) := match r with Ok ls => map (fun l => (en_level l, en_text l)) ls | _ => [] end.
