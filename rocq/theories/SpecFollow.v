(* SpecFollow.v: somebody who sees a panel's events, and nothing else, and keeps account of what they say.  For C125. *)
From Verif Require Import Base Pkt Msg SpecMsg State SpecState.

(* what they know: the arming status, the last arming report they have seen, and the statuses of zones *)
Record knowledge : Type := mkKnowledge {
  k_arming : option ArmingStatusReport; k_last : option ArmingStatusReport; k_zone : N -> option N }.
Definition nothing : knowledge := mkKnowledge None None (fun _ => None).
Definition the_report (e : Event) : option ArmingStatusReport :=
  match e_msg e with Some (inl (MArmingStatusReport x)) => Some x | _ => None end.
(* A change of the arming status is to the report in the same event, or, if there is none, to the last report seen.  Zones are as
   in the last message about them. *)
Definition learn (k : knowledge) (e : Event) : knowledge :=
  let last := match the_report e with Some x => Some x | None => k_last k end in
  mkKnowledge
    (match e_change e with Some (CArmingStatus _) => last | _ => k_arming k end)
    last
    (fun z => match e_msg e with
              | Some (inl (MZoneChange c)) => if zc_zone c =? z then Some (zc_status c) else k_zone k z
              | Some (inl (MZoneStatusReport zs)) => nth_error zs (N.to_nat (z - 1))
              | _ => k_zone k z
              end).
Definition learn_all (k : knowledge) (es : list Event) : knowledge := fold_left learn es k.

(* what they know is so; if the panel holds a report back, it is the last one they have seen *)
Definition right (k : knowledge) (p : Panel) : Prop :=
  (forall a, k_arming k = Some a -> status_is p a) /\
  (forall x y, held p = Some x -> k_last k = Some y -> x = y) /\
  (forall z s, 1 <= z <= 208 -> k_zone k z = Some s -> zone_status_is p z s).
(* they know all there is to know *)
Definition whole (k : knowledge) (p : Panel) : Prop :=
  k_arming k <> None /\ (held p <> None -> k_last k <> None) /\ (forall z, 1 <= z <= 208 -> k_zone k z <> None).
(* what the accessors of a panel tell *)
Definition told_at_first (a : ArmingStatusReport) (zs : list N) : knowledge :=
  mkKnowledge (Some a) None (fun z => nth_error zs (N.to_nat (z - 1))).
