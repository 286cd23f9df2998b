(* SpecView.v: `elkm1-cli watch` as a task that is only run when it has been woken, with any network, and with a panel that answers.  For C108 and C109. *)
From Verif Require Import Base Pkt SpecPkt Msg SpecMsg Tokio SpecConn State SpecState SpecInit Cli SpecCli SpecStory WakeWatch.

Definition yact_ok (a : yact) : Prop := match a with YArrive x => arrival_u8 x | _ => True end.
(* what has arrived *)
Definition y_arrivals (l : list yact) : list arrival := flat_map (fun a => match a with YArrive x => [x] | _ => [] end) l.
(* there is nothing that watch could do now: it waits for the panel to say something and there is nothing to decode and no held report whose
   time is up; or, while connecting, there is no room for what remains of its request *)
Definition nothing_to_read (c : conn) : Prop := decode (unread c) = Ok (None, unread c) /\ rq c = [] /\ peer_closed c = false.
Definition nothing_to_do (v : viewer) : Prop :=
  match y_watch v with
  | WConnecting (IRun _ _ p) => wbuf (p_conn p) = [] /\ nothing_to_read (p_conn p) \/ wbuf (p_conn p) <> [] /\ y_room v = 0%nat /\ y_broken v = None
  | WLoop p _ => nothing_to_read (p_conn p) /\ match pending_arm p with Some (d, _) => y_now v < d | None => True end
  | _ => False
  end.
(* run, woken or not *)
Definition run_anyway (v : viewer) : viewer := ystep (mkViewer (y_watch v) (y_regs v) true (y_now v) (y_room v) (y_broken v)) YRun.

(* ---- executions with any network ---- *)
Definition yexecution (vs : nat -> viewer) (acts : nat -> yact) : Prop := vs 0%nat = viewer_new /\ forall n, yact_ok (acts n) /\ vs (S n) = ystep (vs n) (acts n).
Definition yfair (vs : nat -> viewer) (acts : nat -> yact) : Prop :=
  (* a task that has been woken is eventually run; it need not be run otherwise *)
  (forall n, exists m, (n <= m)%nat /\ (acts m = YRun \/ y_due (vs m) = false)) /\
  (* there is eventually room in the socket, or writing to it fails *)
  (forall n, exists m, (n <= m)%nat /\ (y_room (vs m) <> 0%nat \/ y_broken (vs m) <> None)).

(* ---- with the panel and the network of SpecInit.v ---- *)
(* the task; what the panel has sent so far; the bytes of that not delivered yet; how many requests are answered *)
Record scene : Type := mkScene { c_viewer : viewer; c_out : list packet; c_net : bytes; c_replied : nat }.
Definition scene_new : scene := mkScene viewer_new [] [] 0.
Definition connecting (v : viewer) : Prop := match y_watch v with WConnecting _ => True | _ => False end.
Definition istate_of (w : watcher) : istate :=
  match w with WConnecting i => i | WLoop p _ => IDone p | WDone _ => IFail "" | WCrash _ why => ICrash why end.
Definition world_at (c : scene) : world := mkWorld (istate_of (y_watch (c_viewer c))) (c_out c) (c_net c) (c_replied c).
Inductive sact : Type :=
| STask (a : yact)           (* the task is run, or the socket, the clock or the executor does something *)
| SUnrelated | SReply | SDeliver.
Definition ylocal (a : yact) : Prop := match a with YArrive _ | YBreak _ => False | _ => True end.
Inductive shappens (nm : naming) (c : scene) : sact -> scene -> Prop :=
| S_task a : ylocal a -> shappens nm c (STask a) (mkScene (ystep (c_viewer c) a) (c_out c) (c_net c) (c_replied c))
(* the panel sends something of its own accord; while watch is connecting, no names *)
| S_unrelated p f : valid_packet p -> (connecting (c_viewer c) -> ~ is_name_reply p) -> frame_of p f ->
    shappens nm c SUnrelated (mkScene (c_viewer c) (c_out c ++ [p]) (c_net c ++ f) (c_replied c))
| S_reply q m body f : next_request (world_at c) q -> answers nm q m -> grammar m body -> ascii_body body -> ascii_frame body f ->
    shappens nm c SReply (mkScene (c_viewer c) (c_out c ++ [PAscii body]) (c_net c ++ f) (S (c_replied c)))
| S_deliver a b : c_net c = a ++ b -> a <> [] ->
    shappens nm c SDeliver (mkScene (ystep (c_viewer c) (YArrive (Bytes a))) (c_out c) b (c_replied c)).
Definition sexecution (nm : naming) (cs : nat -> scene) (acts : nat -> sact) : Prop :=
  cs 0%nat = scene_new /\ forall n, shappens nm (cs n) (acts n) (cs (S n)).
Definition sfair (cs : nat -> scene) (acts : nat -> sact) : Prop :=
  (forall n, exists m, (n <= m)%nat /\ (acts m = STask YRun \/ y_due (c_viewer (cs m)) = false)) /\
  (forall n, exists m, (n <= m)%nat /\ y_room (c_viewer (cs m)) <> 0%nat) /\
  (* a request received is eventually answered *)
  (forall n, exists m, (n <= m)%nat /\ (acts m = SReply \/ forall q, ~ next_request (world_at (cs m)) q)) /\
  (* bytes sent are eventually delivered *)
  (forall n, exists m, (n <= m)%nat /\ (acts m = SDeliver \/ c_net (cs m) = [])).
(* time does not stand still *)
Definition time_passes (cs : nat -> scene) : Prop := forall n t, exists m, (n <= m)%nat /\ t <= y_now (c_viewer (cs m)).
(* Watch is connected at n0 for the first time, with panel p0, which knows the panel's names, and r0 in effect; of what the panel has sent, ps has become
   events by then, and the rest is unread or under way. *)
Definition begun (nm : naming) (cs : nat -> scene) (n0 : nat) (p0 : Panel) (ps : list packet) (r0 : ArmingStatusReport) : Prop :=
  (forall n, (n < n0)%nat -> connecting (c_viewer (cs n))) /\ y_watch (c_viewer (cs n0)) = WLoop p0 [] /\ names_known nm p0 /\ status_is p0 r0 /\
  exists us fs, c_out (cs n0) = ps ++ us /\ Forall2 frame_of us fs /\ concat fs = unread (p_conn p0) ++ c_net (cs n0).
(* Watch is in its loop.  Since it has connected it has had the events es, for which it has told the lines log that are to be told; r is in effect now,
   and h held back, if any.  Of what the panel has sent, us is not told yet. *)
Definition story (p0 : Panel) (ps : list packet) (r0 : ArmingStatusReport) (c : scene) (es : list Event) (log : list line) (r : ArmingStatusReport) (h : option ArmingStatusReport) (us : list packet) : Prop :=
  exists p, y_watch (c_viewer c) = WLoop p log /\ status_is p r /\ held p = h /\ narrates p0 ps r0 (held p0) es log r h /\ c_out c = ps ++ packets es ++ us.
