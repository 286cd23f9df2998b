(* SpecTraffic.v: vocabulary for C146, about which and how many publications an event causes. *)
From Verif Require Import Base Msg State Mqtt SpecMqtt.

(* the topics on which the state is told anew after an event *)
Definition told_on (cfg : Cfg) (e : Event) (topics : list bytes) : Prop :=
  match e_change e with
  | None => topics = []
  | Some (CArmingStatus _) => topics = map (fun x => topic_prefix cfg ++ B "/area/" ++ snd x ++ B "/ha_state") (areas cfg)
  | Some (CZoneChange z _) =>
      (exists c, In (z, c) (zones cfg) /\ topics = [topic_prefix cfg ++ B "/zone/" ++ z_name c ++ B "/ha_state"]) \/
      ((forall c, ~ In (z, c) (zones cfg)) /\ topics = [])
  end.
(* a publication on this topic, retained or not *)
Definition on_topic (a : action) (t : bytes * bool) : Prop := exists pl, a = APublishQ AtLeastOnce (fst t) (snd t) pl.
