(* SpecBuffer.v: for C91. *)
From Verif Require Import Base Pkt SpecPkt Msg SpecMsg Tokio SpecConn State SpecState.

(* o, called in state p, answers b: an event that completes a command, while not everything accepted for sending is written *)
Definition is_early (p : Panel) (b : obs) : bool :=
  match b, wbuf (p_conn p) with
  | ONext (Ready (Some (IoOk e))) _, _ :: _ => match e_completes e with Some _ => true | None => false end
  | _, _ => false
  end.
(* how often that happens *)
Fixpoint early (p : Panel) (h : list op) : nat :=
  match h with
  | [] => 0
  | o :: h' => match step p o with Ok (p', b) => ((if is_early p b then 1 else 0) + early p' h')%nat | _ => 0%nat end
  end.
(* the bytes start with an RP frame of which the decoder waits for more than it accepts: see C07 *)
Definition stalled (src : bytes) : Prop := exists d tail, src = [16; 2] ++ dle_double d ++ [16; 3] ++ tail /\
  (length (dle_double d) = N.to_nat 1019 \/ length (dle_double d) = N.to_nat 1020).
