(* SpecMqtt.v: vocabulary for the properties of the MQTT bridge. *)
From Verif Require Import Base Pkt SpecPkt Msg SpecMsg Tokio SpecConn State SpecState Serde Mqtt.

Definition input_ok (i : input) : Prop := match i with NetArrive a => arrival_u8 a | _ => True end.
(* The bridge has been started, and the inputs is have happened: b is its state. *)
Definition bridge_after (cl : client) (cfg : Cfg) (is : list input) (b : bridge) : Prop := Forall input_ok is /\ brun cl cfg is = b.

(* p is what the broker retains for topic t after these requests: the last retained publish on it *)
Definition holds (log : list action) (t : bytes) (p : payload) : Prop :=
  exists q l1 l2, log = l1 ++ APublishQ q t true p :: l2 /\ forall q' p', ~ In (APublishQ q' t true p') l2.
(* a publish without the retain flag *)
Definition is_event_pub (a : action) : bool := match a with APublishQ _ _ retain _ => negb retain | ASubscribeQ _ _ => false end.
Definition published (log : list action) (t : bytes) (p : payload) : Prop := exists q retain, In (APublishQ q t retain p) log.

(* configuration: map keys are unique (and u8) *)
Definition u8_keys {A : Type} (l : list (N * A)) : Prop := NoDup (map fst l) /\ Forall (fun x => fst x <= 255) l.
Definition cfg_ok (cfg : Cfg) : Prop := u8_keys (areas cfg) /\ u8_keys (zones cfg).
Definition distinct_area_names (cfg : Cfg) : Prop := NoDup (map snd (areas cfg)).
Definition distinct_zone_names (cfg : Cfg) : Prop := NoDup (map (fun x => z_name (snd x)) (zones cfg)).
(* every number is one the panel knows, and the code has at most six digits *)
Definition in_range (cfg : Cfg) : Prop :=
  Forall (fun x => area_ok (fst x)) (areas cfg) /\ Forall (fun x => zone_ok (fst x)) (zones cfg) /\ code cfg < 1000000.

(* ---- the Home Assistant states ---- *)
Definition mode_names : list (ArmingStatus * bytes) :=
  [(AST_Disarmed, B "disarmed"); (AST_ArmedAway, B "armed_away"); (AST_ArmedStay, B "armed_home");
   (AST_ArmedStayInstant, B "armed_home"); (AST_ArmedNight, B "armed_night"); (AST_ArmedNightInstant, B "armed_night");
   (AST_ArmedVacation, B "armed_vacation")].
(* what an area in these states should show, if [alarm] says which alarm states are alarms *)
Definition shows_area_if (alarm : AlarmState -> Prop) (s : ArmingStatus) (u : ArmUpState) (a : AlarmState) (t : bytes) : Prop :=
  (alarm a /\ t = B "triggered") \/
  (a = AA_AlarmAbortDelayActive /\ t = B "pending") \/
  (~ alarm a /\ a <> AA_AlarmAbortDelayActive /\ u = AU_ArmedWithExitTimer /\ t = B "arming") \/
  (~ alarm a /\ a <> AA_AlarmAbortDelayActive /\ u <> AU_ArmedWithExitTimer /\ In (s, t) mode_names).
(* what it should show, and what it does: a fire alarm is not shown (see C23, C47) *)
Definition should_show_area := shows_area_if is_alarm.
Definition shows_area := shows_area_if (fun a => is_alarm a /\ a <> AA_FireAlarm).
Definition area_in (r : ArmingStatusReport) (area : N) (s : ArmingStatus) (u : ArmUpState) (a : AlarmState) : Prop :=
  nth_error (arming_status r) (N.to_nat (area - 1)) = Some s /\ nth_error (up_state r) (N.to_nat (area - 1)) = Some u /\
  nth_error (alarm_state r) (N.to_nat (area - 1)) = Some a.
Definition area_shown (p : Panel) (area : N) (t : bytes) : Prop :=
  exists r s u a, status_is p r /\ area_in r area s u a /\ shows_area s u a t.
(* a zone by its logical status, the upper two bits *)
Definition shows_zone (status : N) (t : bytes) : Prop :=
  In (status / 4, t) [(0, B "off"); (1, B "offline"); (2, B "on"); (3, B "on")].
Definition zone_shown (p : Panel) (zone : N) (t : bytes) : Prop := exists s, zone_status_is p zone s /\ shows_zone s t.
Definition area_values : list bytes :=
  [B "triggered"; B "pending"; B "arming"; B "disarmed"; B "armed_home"; B "armed_away"; B "armed_night"; B "armed_vacation"].
Definition zone_values : list bytes := [B "off"; B "offline"; B "on"].

(* ---- commands ---- *)
Definition payload_levels : list (bytes * ArmLevel) :=
  [(B "DISARM", AL_Disarm); (B "ARM_AWAY", AL_ArmedAway); (B "ARM_HOME", AL_ArmedStay)].
(* a publish that asks for a command *)
Definition asks (cfg : Cfg) (m : bytes * bytes) (c : Command) : Prop :=
  exists area name level code', In (area, name) (areas cfg) /\ fst m = topic_prefix cfg ++ B "/area/" ++ name ++ B "/ha_command" /\
    In (snd m, level) payload_levels /\ dec_canon 6 (code cfg) code' /\ c = CmdArm (mkArmRequest area level code').
Definition asked (cfg : Cfg) (m : bytes * bytes) (o : option Command) : Prop :=
  match o with Some c => asks cfg m c | None => forall c, ~ asks cfg m c end.
Definition mqtt_in (is : list input) : list (bytes * bytes) :=
  catMaybes (map (fun i => match i with MqttArrive t p => Some (t, p) | _ => None end) is).
(* the bytes that came from the panel *)
Definition net_in (is : list input) : bytes :=
  concat (map (fun i => match i with NetArrive a => arrival_data a | _ => [] end) is).
(* the command the bridge is waiting to hand over to the panel *)
Definition waiting (u : up) : list Command := match u_mode u with Feeding c => [c] | _ => [] end.
