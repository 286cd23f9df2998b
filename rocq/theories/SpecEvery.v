(* SpecEvery.v: in an execution of the bridge with a panel and MQTT clients as in SpecHost.v, the bytes that the panel has sent and those
   that have arrived.  For C103. *)
From Verif Require Import Base Pkt SpecPkt Msg SpecMsg State SpecState Serde Mqtt SpecMqtt Wake WakeBridge SpecHost.

(* the bytes delivered by a turn *)
Definition delivered (a : hturn) (t t' : hosted) : bytes :=
  match a with UDeliver => firstn (length (t_net t) - length (t_net t')) (t_net t) | _ => [] end.
(* what arrived in the first n turns *)
Fixpoint arrived_by (ts : nat -> hosted) (acts : nat -> hturn) (n : nat) : bytes :=
  match n with O => [] | S k => arrived_by ts acts k ++ delivered (acts k) (ts k) (ts (S k)) end.
(* what the panel sent in them: that, and what is still under way *)
Definition sent_by (ts : nat -> hosted) (acts : nat -> hturn) (n : nat) : bytes := arrived_by ts acts n ++ t_net (ts n).
(* the bytes are these packets *)
Definition spells (b : bytes) (ps : list packet) : Prop := exists fs, Forall valid_packet ps /\ Forall2 frame_of ps fs /\ b = concat fs.

(* What is on the broker when the bridge has taken up the packets ps and been given the events es: the events, and for each zone and each
   area its state after ps, as in C83. *)
Definition broker_shows (cfg : Cfg) (u : up) (ps : list packet) (es : list Event) : Prop :=
  let log := u_log u in
  Forall2 (fun e a => exists j, Event_ser e = Ok j /\ Event_de FromText j = Ok e /\ a = APublish (topic_prefix cfg ++ B "/event") false (PJson j))
    es (filter is_event_pub log) /\
  (forall zone z, In (zone, z) (zones cfg) -> exists t, (forall s, shows_zone (zone_after zone s (messages_in ps)) t) /\
     holds log (topic_prefix cfg ++ B "/zone/" ++ z_name z ++ B "/ha_state") (PText t)) /\
  exists rs latest shown, reports_in ps = rs ++ [latest] /\
    (shown = latest \/ (exists rs', rs = rs' ++ [shown]) /\ became_fully_armed shown latest) /\ (held (u_panel u) = None -> shown = latest) /\
    forall area name, In (area, name) (areas cfg) -> exists s up a t, area_in shown area s up a /\ shows_area s up a t /\
      holds log (topic_prefix cfg ++ B "/area/" ++ name ++ B "/ha_state") (PText t).
