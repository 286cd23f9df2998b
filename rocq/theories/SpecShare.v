(* SpecShare.v: vocabulary for C138, several bridges that use one broker. *)
From Verif Require Import Base.

(* The levels of p are the first levels of q (levels end with a slash). *)
Definition within (p q : bytes) : Prop := exists r, q ++ B "/" = (p ++ B "/") ++ r.
(* Neither of two topic prefixes is within the other. *)
Definition apart (p q : bytes) : Prop := ~ within p q /\ ~ within q p.
(* a text without slashes *)
Definition one_level (s : bytes) : Prop := ~ In (ch "/") s.
(* l is made of l1 and l2, each in its order. *)
Inductive merged {A : Type} : list A -> list A -> list A -> Prop :=
| merged_nil : merged [] [] []
| merged_left a l1 l2 l : merged l1 l2 l -> merged (a :: l1) l2 (a :: l)
| merged_right a l1 l2 l : merged l1 l2 l -> merged l1 (a :: l2) (a :: l).
