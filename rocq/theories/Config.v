(* Config.v: model of the configuration file of elkm1-mqtt and of what `main` makes of it before connecting:
   /repo/elkm1-mqtt/src/main.rs:42-116 and 378-403.  Definitions only.

   The file is a JSON value (see Serde.v); its text is in BridgeText.v, reading it and the command line in Main.v.  Keys are
   taken to be written without escape sequences. *)
From Verif Require Export Mqtt.

(* ---- what the derives of main.rs:42-116 expand to ---- *)
(* #[serde(default)]: a missing field is d *)
Definition field_or {A : Type} (d : A) (de : value -> res A) (fs : list (option value)) (i : nat) : res A :=
  match nth_error fs i with Some (Some v) => de v | _ => Ok d end.
(* u16, u32 *)
Definition de_u16 (v : value) : res N :=
  match v with VNum n => if n <? 65536 then Ok n else Err "invalid value, expected u16" | _ => Err "invalid type, expected u16" end.
Definition de_u32 (v : value) : res N :=
  match v with VNum n => if n <? 4294967296 then Ok n else Err "invalid value, expected u32" | _ => Err "invalid type, expected u32" end.

(* the key of a HashMap<u8, _>: serde_json reads the text between the quotes as a JSON number, which has no leading zeros; used at main.rs:96-97 *)
Definition all_digits (s : bytes) : bool := forallb (fun c => (ch "0" <=? c) && (c <=? ch "9")) s.
(* main.rs:96-97 *)
Definition key_u8 (s : bytes) : res N :=
  match s with
  | [] => Err "invalid value: expected key to be a number in quotes"
  | c :: s' =>
      if negb (all_digits s) then Err "invalid type, expected u8"
      else if (c =? ch "0") && negb (length s' =? 0)%nat then Err "invalid number"
      else let n := fold_left (fun acc c => acc * 10 + (c - ch "0")) s 0 in
           if n <? 256 then Ok n else Err "invalid value, expected u8"
  end.
(* HashMap::insert; a HashMap is the list of its entries in some order; used at main.rs:96-97 *)
Fixpoint insert {A : Type} (k : N) (x : A) (m : list (N * A)) : list (N * A) :=
  match m with
  | [] => [(k, x)]
  | (k', y) :: m' => if k' =? k then (k, x) :: m' else (k', y) :: insert k x m'
  end.
(* HashMap<u8, T>: entries are inserted in the order of the text; used at main.rs:96-97 *)
Fixpoint de_entries {A : Type} (de : value -> res A) (m : list (N * A)) (l : list (bytes * value)) : res (list (N * A)) :=
  match l with
  | [] => Ok m
  | (k, v) :: l' => k <- key_u8 k ;; x <- de v ;; de_entries de (insert k x m) l'
  end.
(* main.rs:96-97 *)
Definition de_map {A : Type} (de : value -> res A) (v : value) : res (list (N * A)) :=
  match v with VObj l => de_entries de [] l | _ => Err "invalid type, expected a map" end.

(* main.rs:100-105 AreaCfg *)
Definition AreaCfg_names : list bytes := [B "name"].
Definition AreaCfg_de (v : value) : res bytes :=
  fs <- de_fields AreaCfg_names v ;; field de_str fs 0.
(* main.rs:107-116 ZoneCfg *)
Definition ZoneCfg_names : list bytes := [B "name"; B "binarySensorDeviceClass"].
Definition ZoneCfg_de (v : value) : res ZoneCfg :=
  fs <- de_fields ZoneCfg_names v ;;
  n <- field de_str fs 0 ;; c <- field de_str fs 1 ;; Ok (mkZoneCfg n c).
(* main.rs:77-98 ElkCfg *)
Record ElkCfg : Type := mkElkCfg {
  k_serial_number : bytes; k_code : N; k_host_port : bytes; k_areas : list (N * bytes); k_zones : list (N * ZoneCfg) }.
Definition ElkCfg_names : list bytes := [B "serialNumber"; B "code"; B "hostPort"; B "areas"; B "zones"].
Definition ElkCfg_de (v : value) : res ElkCfg :=
  fs <- de_fields ElkCfg_names v ;;
  s <- field de_str fs 0 ;; c <- field de_u32 fs 1 ;; h <- field de_str fs 2 ;;
  a <- field (de_map AreaCfg_de) fs 3 ;; z <- field (de_map ZoneCfg_de) fs 4 ;;
  Ok (mkElkCfg s c h a z).
(* main.rs:49-51 *)
Definition mqtt_default_port : N := 1883.
(* main.rs:53-75 MqttCfg *)
Record MqttCfg : Type := mkMqttCfg {
  m_client_id : bytes; m_host : bytes; m_port : N; m_username : option bytes; m_password : option bytes;
  m_topic_prefix : option bytes; m_ha_discovery_prefix : option bytes }.
Definition MqttCfg_names : list bytes :=
  [B "clientId"; B "host"; B "port"; B "username"; B "password"; B "topicPrefix"; B "haDiscoveryPrefix"].
Definition MqttCfg_de (v : value) : res MqttCfg :=
  fs <- de_fields MqttCfg_names v ;;
  i <- field_or [] de_str fs 0 ;; h <- field de_str fs 1 ;; p <- field_or mqtt_default_port de_u16 fs 2 ;;
  u <- field_opt de_str fs 3 ;; w <- field_opt de_str fs 4 ;; t <- field_opt de_str fs 5 ;; d <- field_opt de_str fs 6 ;;
  Ok (mkMqttCfg i h p u w t d).
(* main.rs:42-47 Cfg *)
Record FileCfg : Type := mkFileCfg { f_elk : ElkCfg; f_mqtt : MqttCfg }.
Definition FileCfg_names : list bytes := [B "elk"; B "mqtt"].
Definition FileCfg_de (v : value) : res FileCfg :=
  fs <- de_fields FileCfg_names v ;;
  e <- field ElkCfg_de fs 0 ;; m <- field MqttCfg_de fs 1 ;; Ok (mkFileCfg e m).

(* ---- main.rs:381-403 ---- *)
(* rumqttc::LastWill *)
Record LastWill : Type := mkLastWill { w_topic : bytes; w_message : bytes; w_qos : qos; w_retain : bool }.
(* rumqttc::MqttOptions, as far as main sets them *)
Record MqttOptions : Type := mkMqttOptions {
  o_client_id : bytes; o_host : bytes; o_port : N; o_credentials : option (bytes * bytes); o_last_will : LastWill }.
(* the fields that the bridge itself uses *)
Definition bridge_cfg (c : FileCfg) : Cfg :=
  mkCfg (k_serial_number (f_elk c)) (k_code (f_elk c)) (k_areas (f_elk c)) (k_zones (f_elk c))
        (m_topic_prefix (f_mqtt c)) (m_ha_discovery_prefix (f_mqtt c)).
(* how to reach the broker, how to reach the panel, and what to run *)
Definition main_setup (v : value) : res (MqttOptions * bytes * Cfg) :=
  c <- expect (FileCfg_de v) "called `Result::unwrap()` on an `Err` value" ;;
  let m := f_mqtt c in
  cred <- match m_username m, m_password m with
          | Some u, Some p => Ok (Some (u, p))
          | None, None => Ok None
          | _, _ => Panic "username without password or vice versa"
          end ;;
  let will := mkLastWill (availability_topic (topic_prefix (bridge_cfg c))) (B "offline") AtLeastOnce true in
  Ok (mkMqttOptions (m_client_id m) (m_host m) (m_port m) cred will, k_host_port (f_elk c), bridge_cfg c).

(* ---- what the broker retains ----
   The broker keeps the last retained publish of each topic; when the connection of a client ends without a DISCONNECT packet (as
   it does when the process ends: main never sends one), it publishes the client's last will.  Used at main.rs:398-403 *)
Definition broker_sees (w : LastWill) (b : bridge) : list action :=
  blog b ++ match b with Dead _ _ => [APublishQ (w_qos w) (w_topic w) (w_retain w) (PText (w_message w))] | _ => [] end.
