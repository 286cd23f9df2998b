(* SpecListen.v: vocabulary for C139: which topics a filter stands for (MQTT 3.1.1, section 4.7). *)
From Verif Require Import Base Mqtt.

(* the levels of a topic or filter: what is between the slashes *)
Fixpoint levels (s : bytes) : list bytes :=
  match s with
  | [] => [[]]
  | c :: s' => if c =? ch "/" then [] :: levels s' else match levels s' with [] => [[c]] | l :: ls => (c :: l) :: ls end
  end.
(* "+" stands for one level, "#" for all that remain, also none *)
Inductive level_match : list bytes -> list bytes -> Prop :=
| match_end : level_match [] []
| match_same l f t : level_match f t -> level_match (l :: f) (l :: t)
| match_plus l f t : level_match f t -> level_match (B "+" :: f) (l :: t)
| match_hash t : level_match [B "#"] t.
Definition filter_matches (f t : bytes) : Prop := level_match (levels f) (levels t).
(* no wildcards *)
Definition plain_topic (t : bytes) : Prop := ~ In (ch "+") t /\ ~ In (ch "#") t.
(* The client publishes to no topic with wildcards in it, as the protocol has it (section 3.3.2.1); what else it refuses is left open. *)
Definition no_wildcards_published (cl : client) : Prop := forall t, topic_ok cl t = true -> plain_topic t.
