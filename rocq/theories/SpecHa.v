(* SpecHa.v: Home Assistant's side, after its documentation (MQTT discovery, alarm_control_panel.mqtt, binary_sensor.mqtt, all linked from
   /repo/elkm1-mqtt/src/main.rs:124, 188-189, 201, 212): what it takes from an announcement, and how it takes what it then gets and sends. *)
From Verif Require Import Base Msg Serde Mqtt SpecMqtt JsonText SpecJson BridgeText.

(* A member of a JSON object; the only one of this name. *)
Definition member (v : value) (k : bytes) (x : value) : Prop := exists fields, v = VObj fields /\ In (k, x) fields /\ forall y, In (k, y) fields -> y = x.
Definition text_member (v : value) (k s : bytes) : Prop := exists esc, member v k (VStr esc s).
Definition no_member (v : value) (k : bytes) : Prop := exists fields, v = VObj fields /\ ~ In k (map fst fields).
(* An option, which has a default. *)
Definition setting (v : value) (k default s : bytes) : Prop := text_member v k s \/ (no_member v k /\ s = default).

(* An entity is announced under <prefix>/<component>/<object id>/config by a JSON text; v is what it means.  The object id is made of letters, digits, _ and -. *)
Definition id_char (c : N) : Prop := ch "0" <= c <= ch "9" \/ ch "a" <= c <= ch "z" \/ ch "A" <= c <= ch "Z" \/ c = ch "_" \/ c = ch "-".
Definition announced (log : list action) (ha component id : bytes) (v : value) : Prop :=
  exists p, holds log (ha ++ B "/" ++ component ++ B "/" ++ id ++ B "/config") p /\ forall v', denotes v' (payload_text p) <-> v' = v.
(* Entities whose announcements have the same identifiers belong to one device. *)
Definition of_device (v : value) (maker model serial : bytes) : Prop := exists dev esc,
  member v (B "device") dev /\ text_member dev (B "manufacturer") maker /\ text_member dev (B "model") model /\ member dev (B "identifiers") (VArr [VStr esc serial]).
(* available, and not *)
Definition takes_available (v : value) (s : bytes) : Prop := setting v (B "payload_available") (B "online") s.
Definition takes_unavailable (v : value) (s : bytes) : Prop := setting v (B "payload_not_available") (B "offline") s.

(* alarm_control_panel: the states, and what is sent for each action.  (It offers all of them unless supported_features says otherwise.) *)
Definition alarm_states : list bytes :=
  [B "disarmed"; B "armed_home"; B "armed_away"; B "armed_night"; B "armed_vacation"; B "armed_custom_bypass"; B "pending"; B "triggered"; B "arming"; B "disarming"].
Definition alarm_actions : list (bytes * bytes) :=
  [(B "payload_disarm", B "DISARM"); (B "payload_arm_home", B "ARM_HOME"); (B "payload_arm_away", B "ARM_AWAY"); (B "payload_arm_night", B "ARM_NIGHT");
   (B "payload_arm_vacation", B "ARM_VACATION"); (B "payload_arm_custom_bypass", B "ARM_CUSTOM_BYPASS"); (B "payload_trigger", B "TRIGGER")].
Definition sends_for (v : value) (action s : bytes) : Prop := exists default, In (action, default) alarm_actions /\ setting v action default s.
Definition offers_all (v : value) : Prop := no_member v (B "supported_features").
(* binary_sensor: on and off *)
Definition takes_on (v : value) (s : bytes) : Prop := setting v (B "payload_on") (B "ON") s.
Definition takes_off (v : value) (s : bytes) : Prop := setting v (B "payload_off") (B "OFF") s.
(* what the bridge does of that *)
Definition honoured : list (bytes * ArmLevel) :=
  [(B "payload_disarm", AL_Disarm); (B "payload_arm_home", AL_ArmedStay); (B "payload_arm_away", AL_ArmedAway)].
