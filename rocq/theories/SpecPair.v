(* SpecPair.v: what two Connections at the ends of a line owe each other. *)
From Verif Require Import Base Pkt SpecPkt Tokio SpecConn Pair.

(* b is a piece of the stream of frames fs from its start: the first j frames and a strict part, left, of the next one *)
Definition cut (fs : list bytes) (b : bytes) (j : nat) (left : bytes) : Prop :=
  (j <= length fs)%nat /\ b = concat (firstn j fs) ++ left /\
  (left = [] \/ exists more, more <> [] /\ nth_error fs j = Some (left ++ more)).

(* The packets sent are ones TryFrom made; everything else is arbitrary. *)
Definition pop_ok (o : pop) : Prop := match o with PSend _ p => valid_packet p | _ => True end.

(* The packets given to the end s, before it was dropped. *)
Fixpoint offered (s : bool) (h : list pop) : list packet :=
  match h with
  | [] => []
  | PSend s' p :: h' => if Bool.eqb s s' then p :: offered s h' else offered s h'
  | PDrop s' :: h' => if Bool.eqb s s' then [] else offered s h'
  | _ :: h' => offered s h'
  end.
(* The packets that poll_next returned. *)
Definition received (e : endpoint) : list packet :=
  flat_map (fun r => match r with Ready (Some (IoOk p)) => [p] | _ => [] end) (seen e).
Definition got (p : packet) : poll (option (io packet)) := Ready (Some (IoOk p)).
