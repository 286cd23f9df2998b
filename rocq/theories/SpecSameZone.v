(* SpecSameZone.v: vocabulary for C143, about configurations in which zones share a name. *)
From Verif Require Import Base Pkt SpecPkt Msg SpecMsg Tokio SpecConn State SpecState Serde Mqtt SpecMqtt.

(* a zone of the configuration that is called this *)
Definition called (cfg : Cfg) (name : bytes) (zone : N) : Prop := exists z, In (zone, z) (zones cfg) /\ z_name z = name.
(* what the broker keeps on the name's topic is what this zone's present state is shown as *)
Definition shows_zone_state_of (cfg : Cfg) (u : up) (name : bytes) (zone : N) : Prop :=
  exists t, zone_shown (u_panel u) zone t /\ holds (u_log u) (topic_prefix cfg ++ B "/zone/" ++ name ++ B "/ha_state") (PText t).
