(* SpecMore.v: a configuration and a larger one.  For C131. *)
From Verif Require Import Base Pkt SpecPkt Msg SpecMsg Tokio SpecConn State SpecState Serde Mqtt SpecMqtt SpecOrder.

(* cfg' has all areas and zones of cfg, and perhaps more; nothing else is different *)
Definition extends (cfg cfg' : Cfg) : Prop :=
  serial_number cfg' = serial_number cfg /\ code cfg' = code cfg /\ incl (areas cfg) (areas cfg') /\ incl (zones cfg) (zones cfg') /\
  cfg_topic_prefix cfg' = cfg_topic_prefix cfg /\ ha_discovery_prefix cfg' = ha_discovery_prefix cfg.
(* no message asks for a command of the larger configuration only *)
Definition for_both (cfg cfg' : Cfg) (is : list input) : Prop := forall m c, In m (mqtt_in is) -> asks cfg' m c -> asks cfg m c.
(* the client accepts the subscription to the command topics of cfg *)
Definition accepts_filters (cl : client) (cfg : Cfg) : Prop :=
  filters_ok cl (map (fun x => topic_prefix cfg ++ B "/area/" ++ snd x ++ B "/ha_command") (areas cfg)) = true.
