(* SpecInit.v: connecting to a panel that answers: the panel, the network and the client together, as a transition
   system; what a fair execution is; what the client should have learned.  For C36. *)
From Verif Require Import Base Pkt SpecPkt Msg SpecMsg Tokio SpecConn State SpecState.

(* ---- the panel ---- *)
(* its names: nm ty n is the name of the area, task or zone number n (from 1) *)
Definition naming : Type := TextDescriptionType -> N -> bytes.
(* how many there are of each *)
Definition count_of (ty : TextDescriptionType) : N := match ty with TT_Area => 8 | TT_Task => 32 | _ => 208 end.
(* a name that starts with a space is not sent *)
Definition is_shown (s : bytes) : Prop := nth_error s 0 <> Some (ch " ").
(* the answer to a request for names from n on: the first name shown, or number 0 if there is none (with any text) *)
Definition answers (nm : naming) (q m : message) : Prop :=
  match q, m with
  | MArmingStatusRequest, MArmingStatusReport _ => True
  | MZoneStatusRequest, MZoneStatusReport _ => True
  | MStringDescriptionRequest q, MStringDescriptionResponse r =>
      sd_ty r = sdq_ty q /\
      (sdq_num q <= sd_num r <= count_of (sd_ty r) /\ sd_text r = nm (sd_ty r) (sd_num r) /\ is_shown (sd_text r) /\
         (forall j, sdq_num q <= j < sd_num r -> ~ is_shown (nm (sd_ty r) j))
       \/ sd_num r = 0 /\ forall j, sdq_num q <= j <= count_of (sd_ty r) -> ~ is_shown (nm (sd_ty r) j))
  | _, _ => False
  end.
Definition is_name_reply (p : packet) : Prop := exists r, message_of p = Some (MStringDescriptionResponse r).
(* a request on the wire *)
Definition request_frame (q : message) (f : bytes) : Prop :=
  wf_message q /\ exists body, wire q body /\ ascii_frame body f.

(* ---- the three together ---- *)
(* the client; what the panel has sent so far, as packets; the bytes of that not delivered yet; how many requests are answered *)
Record world : Type := mkWorld { w_client : istate; w_out : list packet; w_net : bytes; w_replied : nat }.
Definition world_new : world := mkWorld (init_start conn_new) [] [] 0.
(* what the socket has taken from the client *)
Definition client_sent (i : istate) : bytes :=
  match i with IRun _ _ p => sent (p_conn p) | IDone p => sent (p_conn p) | _ => [] end.
Inductive act : Type :=
| AClient (now : N) (ws : list wr)  (* the client runs *)
| AUnrelated                        (* the panel sends a packet of its own accord *)
| AReply                            (* the panel answers the next request *)
| ADeliver.                         (* the network delivers some bytes *)
Definition write_ok (w : wr) : Prop := match w with WAccept n => n <> O | WPending => True | WErr _ => False end.
(* the panel can answer q next: it has received it, and answered all before it *)
Definition next_request (w : world) (q : message) : Prop :=
  exists qs fs rest, Forall2 request_frame (qs ++ [q]) fs /\ client_sent (w_client w) = concat fs ++ rest /\ length qs = w_replied w.
Inductive happens (nm : naming) (w : world) : act -> world -> Prop :=
| H_client now ws : Forall write_ok ws ->
    happens nm w (AClient now ws) (mkWorld (istep now ws (w_client w)) (w_out w) (w_net w) (w_replied w))
| H_unrelated p f : valid_packet p -> ~ is_name_reply p -> frame_of p f ->
    happens nm w AUnrelated (mkWorld (w_client w) (w_out w ++ [p]) (w_net w ++ f) (w_replied w))
| H_reply q m body f : next_request w q -> answers nm q m -> grammar m body -> ascii_body body -> ascii_frame body f ->
    happens nm w AReply (mkWorld (w_client w) (w_out w ++ [PAscii body]) (w_net w ++ f) (S (w_replied w)))
| H_deliver a b : w_net w = a ++ b -> a <> [] ->
    happens nm w ADeliver (mkWorld (iarrive (Bytes a) (w_client w)) (w_out w) b (w_replied w)).
Inductive possible (nm : naming) : world -> Prop :=
| P_new : possible nm world_new
| P_step w a w' : possible nm w -> happens nm w a w' -> possible nm w'.

(* ---- fair executions ---- *)
Definition execution (nm : naming) (ws : nat -> world) (acts : nat -> act) : Prop :=
  ws 0%nat = world_new /\ forall n, happens nm (ws n) (acts n) (ws (S n)).
(* the client keeps being run, with a socket that takes at least a byte *)
Definition runs (a : act) : Prop := match a with AClient _ (WAccept (S _) :: _) => True | _ => False end.
Definition fair (ws : nat -> world) (acts : nat -> act) : Prop :=
  (forall n, exists m, (n <= m)%nat /\ runs (acts m)) /\
  (* a request received is eventually answered *)
  (forall n, exists m, (n <= m)%nat /\ (acts m = AReply \/ forall q, ~ next_request (ws m) q)) /\
  (* bytes sent are eventually delivered *)
  (forall n, exists m, (n <= m)%nat /\ (acts m = ADeliver \/ w_net (ws m) = [])).

(* ---- what the client should know ---- *)
Definition name_known (nm : naming) (p : Panel) (ty : TextDescriptionType) (n : N) : Prop :=
  exists names s, names_of (p_state p) ty = Some names /\ nth_error names (N.to_nat (n - 1)) = Some s /\
    (is_shown (nm ty n) /\ s = nm ty n \/ ~ is_shown (nm ty n) /\ s = repeat (ch " ") 16).
Definition names_known (nm : naming) (p : Panel) : Prop :=
  forall ty n, In ty [TT_Area; TT_Task; TT_Zone] -> 1 <= n <= count_of ty -> name_known nm p ty n.

(* the requests in the order they may be made, each at most once *)
Definition ordinal (q : message) : option nat :=
  match q with
  | MArmingStatusRequest => Some 0%nat
  | MZoneStatusRequest => Some 1%nat
  | MStringDescriptionRequest r =>
      let k (base : nat) := if (1 <=? sdq_num r) && (sdq_num r <=? count_of (sdq_ty r)) then Some (base + N.to_nat (sdq_num r))%nat else None in
      match sdq_ty r with
      | TT_Area => k 1%nat
      | TT_Task => k 9%nat
      | TT_Zone => k 41%nat
      | _ => None
      end
  | _ => None
  end.
Definition in_order (qs : list message) : Prop :=
  exists ks, map ordinal qs = map Some ks /\ forall i j a b, (i < j)%nat -> nth_error ks i = Some a -> nth_error ks j = Some b -> (a < b)%nat.
