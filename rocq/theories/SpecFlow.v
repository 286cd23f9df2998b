(* SpecFlow.v: a panel with an input buffer, and how much waits in it.  For C119.
   /repo/elkm1/src/state.rs:8-13: "The M1's incoming buffer can hold up to 250 characters", so one is to wait for a response after each command. *)
From Verif Require Import Base Pkt SpecPkt Msg SpecMsg State SpecState SpecInit.

(* what the panel does with its buffer and its line *)
Inductive pdeed : Type :=
| Takes (q : message) (r : option packet)    (* it takes the request q out of its input buffer, and sends the answer r, if any *)
| Tells (x : packet).                        (* it sends x of its own accord *)
Definition out1 (d : pdeed) : list packet := match d with Takes _ (Some x) | Tells x => [x] | Takes _ None => [] end.
Definition put_out (ds : list pdeed) : list packet := concat (map out1 ds).
Definition taken_out (ds : list pdeed) : list message := concat (map (fun d => match d with Takes q _ => [q] | Tells _ => [] end) ds).
Definition own (ds : list pdeed) : list packet := concat (map (fun d => match d with Tells x => [x] | _ => [] end) ds).
(* The client has got the bytes w through to the panel, which has done ds; then rest is what is in the input buffer. *)
Definition in_buffer (w : bytes) (ds : list pdeed) (rest : bytes) : Prop :=
  exists fs, Forall2 request_frame (taken_out ds) fs /\ w = concat fs ++ rest.

(* what can be taken for an answer: to the request for the arming status; for the zones' statuses; for a name; to a command *)
Definition arming_like (x : packet) : bool := match message_of x with Some (MArmingStatusReport _) => true | _ => false end.
Definition zones_like (x : packet) : bool := match message_of x with Some (MZoneStatusReport _) => true | _ => false end.
Definition name_like (x : packet) : bool := match message_of x with Some (MStringDescriptionResponse _) => true | _ => false end.
Definition command_like (x : packet) : bool := match message_of x with Some (MSendCode _) | Some (MTaskChange _) => true | _ => false end.
Definition some_of (f : packet -> bool) (ps : list packet) : nat := if existsb f ps then 1 else 0.
Definition count (f : packet -> bool) (ps : list packet) : nat := length (filter f ps).
(* how often the client can be misled by ps: the two reports can each only be once *)
Definition misleading (ps : list packet) : nat := some_of arming_like ps + some_of zones_like ps + count name_like ps + count command_like ps.
