(* SpecOrder.v: two bridges that differ in the order in which they go through their areas and zones.  For C130. *)
From Coq Require Export Permutation.
From Verif Require Import Base Pkt SpecPkt Msg SpecMsg Tokio SpecConn State SpecState Serde Mqtt SpecMqtt.

(* the same configuration, its two maps in another order *)
Definition reordered (cfg cfg' : Cfg) : Prop :=
  serial_number cfg' = serial_number cfg /\ code cfg' = code cfg /\ Permutation (areas cfg) (areas cfg') /\ Permutation (zones cfg) (zones cfg') /\
  cfg_topic_prefix cfg' = cfg_topic_prefix cfg /\ ha_discovery_prefix cfg' = ha_discovery_prefix cfg.
(* an MQTT client that does not care about the order of topics in a subscription *)
Definition any_order (cl : client) : Prop := forall fs fs', Permutation fs fs' -> filters_ok cl fs = filters_ok cl fs'.
(* the messages published to one topic, and the subscriptions *)
Definition on_topic (t : bytes) (a : action) : bool := match a with APublishQ _ t' _ _ => beq t t' | _ => false end.
Definition subscribed (l : list action) : list (qos * list bytes) := catMaybes (map (fun a => match a with ASubscribeQ q fs => Some (q, fs) | _ => None end) l).
(* on every topic the same messages in the same order, and the same subscriptions up to the order of their topics *)
Definition same_log (l l' : list action) : Prop :=
  (forall t, filter (on_topic t) l = filter (on_topic t) l') /\
  Forall2 (fun s s' => fst s = fst s' /\ Permutation (snd s) (snd s')) (subscribed l) (subscribed l').
(* it has said that it is available *)
Definition said_online (cfg : Cfg) (l : list action) : Prop :=
  exists q r, In (APublishQ q (topic_prefix cfg ++ B "/availability") r (PText (B "online"))) l.
Definition same_bridge (cfg : Cfg) (b b' : bridge) : Prop :=
  match b, b' with
  | Connecting i rx, Connecting i' rx' => i = i' /\ rx = rx'
  | Up u, Up u' => u_panel u = u_panel u' /\ u_code u = u_code u' /\ u_mode u = u_mode u' /\ u_rx u = u_rx u' /\ same_log (u_log u) (u_log u')
  | Dead l w, Dead l' w' => w = w' /\ (said_online cfg l \/ said_online cfg l' -> same_log l l')
  | _, _ => False
  end.
