(* SpecConfig.v: vocabulary for the properties of the configuration. *)
From Verif Require Import Base Pkt SpecPkt Msg SpecMsg Tokio SpecConn State SpecState Serde Mqtt SpecMqtt Config.

(* ---- JSON ---- *)
(* an object has exactly one member k, and its value is v *)
Definition has (l : list (bytes * value)) (k : bytes) (v : value) : Prop :=
  exists l1 l2, l = l1 ++ (k, v) :: l2 /\ ~ In k (map fst l1) /\ ~ In k (map fst l2).
Definition lacks (l : list (bytes * value)) (k : bytes) : Prop := ~ In k (map fst l).
(* v is an object, or an array of the values of exactly these names; its member k is o *)
Definition member (names : list bytes) (v : value) (k : bytes) (o : option value) : Prop :=
  match v with
  | VObj l => match o with Some x => has l k x | None => lacks l k end
  | VArr l => length l = length names /\ exists i x, o = Some x /\ nth_error names i = Some k /\ nth_error l i = Some x
  | _ => False
  end.
Definition text_value (v : value) (s : bytes) : Prop := exists esc, v = VStr esc s.
Definition number_value (max : N) (v : value) (n : N) : Prop := v = VNum n /\ n <= max.
(* the member has to be there / may be left out, meaning d / may be left out or null, meaning none *)
Definition required {A : Type} (P : value -> A -> Prop) (o : option value) (x : A) : Prop := exists v, o = Some v /\ P v x.
Definition defaulted {A : Type} (d : A) (P : value -> A -> Prop) (o : option value) (x : A) : Prop :=
  (o = None /\ x = d) \/ required P o x.
Definition optional {A : Type} (P : value -> A -> Prop) (o : option value) (x : option A) : Prop :=
  match x with Some y => exists v, o = Some v /\ v <> VNull /\ P v y | None => o = None \/ o = Some VNull end.

(* a number as text: digits without a leading zero *)
Definition plain_number (s : bytes) (n : N) : Prop :=
  s <> [] /\ digits s /\ dec_value s = n /\ (hd 0 s = ch "0" -> s = [ch "0"]).
(* an object with numbers as keys: every member is good, the last member with a number counts *)
Definition numbered {A : Type} (P : value -> A -> Prop) (v : value) (m : list (N * A)) : Prop :=
  exists l, v = VObj l /\ NoDup (map fst m) /\
    (forall t w, In (t, w) l -> exists n x, n <= 255 /\ plain_number t n /\ P w x) /\
    (forall n x, In (n, x) m <-> exists l1 t w l2, l = l1 ++ (t, w) :: l2 /\ ~ In t (map fst l2) /\ plain_number t n /\ P w x).

(* ---- what a configuration file says ---- *)
Definition area_value (v : value) (name : bytes) : Prop :=
  exists o, member [B "name"] v (B "name") o /\ required text_value o name.
Definition zone_value (v : value) (z : ZoneCfg) : Prop :=
  let names := [B "name"; B "binarySensorDeviceClass"] in
  (exists o, member names v (B "name") o /\ required text_value o (z_name z)) /\
  (exists o, member names v (B "binarySensorDeviceClass") o /\ required text_value o (z_class z)).
Definition elk_value (v : value) (c : ElkCfg) : Prop :=
  let m := member [B "serialNumber"; B "code"; B "hostPort"; B "areas"; B "zones"] v in
  (exists o, m (B "serialNumber") o /\ required text_value o (k_serial_number c)) /\
  (exists o, m (B "code") o /\ required (number_value 4294967295) o (k_code c)) /\
  (exists o, m (B "hostPort") o /\ required text_value o (k_host_port c)) /\
  (exists o, m (B "areas") o /\ required (numbered area_value) o (k_areas c)) /\
  (exists o, m (B "zones") o /\ required (numbered zone_value) o (k_zones c)).
Definition mqtt_value (v : value) (c : MqttCfg) : Prop :=
  let m := member [B "clientId"; B "host"; B "port"; B "username"; B "password"; B "topicPrefix"; B "haDiscoveryPrefix"] v in
  (exists o, m (B "clientId") o /\ defaulted [] text_value o (m_client_id c)) /\
  (exists o, m (B "host") o /\ required text_value o (m_host c)) /\
  (exists o, m (B "port") o /\ defaulted 1883 (number_value 65535) o (m_port c)) /\
  (exists o, m (B "username") o /\ optional text_value o (m_username c)) /\
  (exists o, m (B "password") o /\ optional text_value o (m_password c)) /\
  (exists o, m (B "topicPrefix") o /\ optional text_value o (m_topic_prefix c)) /\
  (exists o, m (B "haDiscoveryPrefix") o /\ optional text_value o (m_ha_discovery_prefix c)).
Definition file_value (v : value) (c : FileCfg) : Prop :=
  let m := member [B "elk"; B "mqtt"] v in
  (exists o, m (B "elk") o /\ required elk_value o (f_elk c)) /\
  (exists o, m (B "mqtt") o /\ required mqtt_value o (f_mqtt c)).

(* the same configuration: the order of a map's entries does not matter *)
Definition same_elk (a b : ElkCfg) : Prop :=
  k_serial_number a = k_serial_number b /\ k_code a = k_code b /\ k_host_port a = k_host_port b /\
  (forall x, In x (k_areas a) <-> In x (k_areas b)) /\ (forall x, In x (k_zones a) <-> In x (k_zones b)).
Definition same_file (a b : FileCfg) : Prop := same_elk (f_elk a) (f_elk b) /\ f_mqtt a = f_mqtt b.
