(* Mqtt.v: model of /repo/elkm1-mqtt/src/main.rs, the bridge between a Panel and an MQTT broker.  Definitions only.

   The MQTT client (rumqttc 0.25.1, not in the sandbox) is a parameter: which topics and filters it accepts is
   arbitrary, and a request it accepts takes effect.  That its channel may be full, so that `publish(..).await` waits for
   the event loop, is not modelled: the broker is taken to keep up.  Logging is not modelled. *)
From Verif Require Export State Serde.

(* ---- the client ---- *)
(* main.rs:404 *)
Record client : Type := mkClient { topic_ok : bytes -> bool; filters_ok : list bytes -> bool }.
(* a payload: a string, or the pretty-printed JSON of a value; used at main.rs:157, 183, 252, 274, 439, 453 *)
Inductive payload : Type := PText (s : bytes) | PJson (v : value).
(* rumqttc::QoS; the filters of one subscribe_many all have the same (main.rs:429-432) *)
Inductive qos : Type := AtMostOnce | AtLeastOnce | ExactlyOnce.
(* main.rs:433-454 *)
Inductive action : Type :=
| APublishQ (q : qos) (topic : bytes) (retain : bool) (p : payload)
| ASubscribeQ (q : qos) (filters : list bytes).
Notation APublish := (APublishQ AtLeastOnce).
Notation ASubscribe := (ASubscribeQ AtMostOnce).

(* An async function that talks to the client: what it did, then how it ended.  Used at e.g. main.rs:144-162 *)
Definition out (A : Type) : Type := (list action * res A)%type.
(* e.g. main.rs:144-162 *)
Definition done {A : Type} (a : A) : out A := ([], Ok a).
(* e.g. main.rs:420, 426 *)
Definition lift {A : Type} (m : res A) : out A := ([], m).
(* e.g. main.rs:144-162 *)
Definition obind {A C : Type} (m : out A) (f : A -> out C) : out C :=
  match m with
  | (l, Ok a) => let '(l', r) := f a in (l ++ l', r)
  | (l, Err e) => (l, Err e)
  | (l, Panic w) => (l, Panic w)
  end.
Notation "x <~ m ;; k" := (obind m (fun x => k)) (at level 61, m at next level, right associativity).
(* for x in l { .. }; used at main.rs:150, 235, 257, 425 *)
Fixpoint each {A : Type} (f : A -> out unit) (l : list A) : out unit :=
  match l with
  | [] => done tt
  | x :: l' => _ <~ f x ;; each f l'
  end.
(* mqtt_cli.publish(..).await.unwrap(); used at main.rs:152-160, 178-186, 244-255, 266-277, 434-442, 449-454 *)
Definition publish (cl : client) (q : qos) (topic : bytes) (retain : bool) (p : payload) : out unit :=
  if topic_ok cl topic then ([APublishQ q topic retain p], Ok tt) else ([], Panic "called `Result::unwrap()` on an `Err` value").
(* mqtt_cli.subscribe_many(..).await.unwrap(); used at main.rs:433 *)
Definition subscribe_many (cl : client) (q : qos) (fs : list bytes) : out unit :=
  if filters_ok cl fs then ([ASubscribeQ q fs], Ok tt) else ([], Panic "called `Result::unwrap()` on an `Err` value").

(* ---- configuration: main.rs:42-116 ----
   A HashMap is the list of its entries in iteration order (which does not change, as the map does not). The fields the bridge
   itself does not use (host names, credentials) are left out. *)
Record ZoneCfg : Type := mkZoneCfg { z_name : bytes; z_class : bytes }.
Record Cfg : Type := mkCfg {
  serial_number : bytes; code : N; areas : list (N * bytes); zones : list (N * ZoneCfg);
  cfg_topic_prefix : option bytes; ha_discovery_prefix : option bytes }.
(* main.rs:390-397 *)
Definition topic_prefix (cfg : Cfg) : bytes :=
  match cfg_topic_prefix cfg with Some p => p | None => B "elkm1/" ++ serial_number cfg end.

(* main.rs:154, 180, 237-239, 260, 292, 399, 430, 436, 450: the format!s of topics *)
Definition area_state_topic (prefix name : bytes) : bytes := prefix ++ B "/area/" ++ name ++ B "/ha_state".
Definition area_command_topic (prefix name : bytes) : bytes := prefix ++ B "/area/" ++ name ++ B "/ha_command".
Definition zone_state_topic (prefix name : bytes) : bytes := prefix ++ B "/zone/" ++ name ++ B "/ha_state".
Definition availability_topic (prefix : bytes) : bytes := prefix ++ B "/availability".
Definition event_topic (prefix : bytes) : bytes := prefix ++ B "/event".

(* main.rs:118-142 ha_area_state *)
Definition ha_area_state (report : ArmingStatusReport) (area : N) : res bytes :=
  i <- to_index area ;;
  s <- index (arming_status report) i ;;
  u <- index (up_state report) i ;;
  a <- index (alarm_state report) i ;;
  if is_firing a then Ok (B "triggered")
  else if AlarmState_eqb a AA_AlarmAbortDelayActive then Ok (B "pending")
  else if ArmUpState_eqb u AU_ArmedWithExitTimer then Ok (B "arming")
  else Ok match s with
          | AST_Disarmed => B "disarmed"
          | AST_ArmedStay | AST_ArmedStayInstant => B "armed_home"
          | AST_ArmedAway => B "armed_away"
          | AST_ArmedNight | AST_ArmedNightInstant => B "armed_night"
          | AST_ArmedVacation => B "armed_vacation"
          end.

(* main.rs:144-162 publish_area_states *)
Definition publish_area_states (cl : client) (panel : Panel) (prefix : bytes) (areas : list (N * bytes)) : out unit :=
  each (fun '(area_id, name) =>
    area <~ lift (expect (Area_try_from area_id) "called `Result::unwrap()` on an `Err` value") ;;
    report <~ lift (panel_arming_status panel) ;;
    s <~ lift (ha_area_state report area) ;;
    publish cl AtLeastOnce (area_state_topic prefix name) true (PText s)) areas.

(* main.rs:171-177 *)
Definition ha_zone_state (status : N) : res bytes :=
  l <- ZoneStatus_logical status ;;
  Ok match l with
     | ZL_Normal => B "off"
     | ZL_Trouble => B "offline"
     | ZL_Violated => B "on"
     | ZL_Bypassed => B "on"
     end.
(* main.rs:164-187 publish_zone_state *)
Definition publish_zone_state (cl : client) (panel : Panel) (prefix : bytes) (zone : N) (cfg : ZoneCfg) : out unit :=
  zs <~ lift (panel_zone_statuses panel) ;;
  i <~ lift (to_index zone) ;;
  status <~ lift (index zs i) ;;
  s <~ lift (ha_zone_state status) ;;
  publish cl AtLeastOnce (zone_state_topic prefix (z_name cfg)) true (PText s).

(* u8 as Display; used at main.rs:240, 261 *)
Definition show_u8 (n : N) : bytes :=
  if n <? 10 then [ch "0" + n]
  else if n <? 100 then [ch "0" + n / 10; ch "0" + n mod 10]
  else [ch "0" + n / 100; ch "0" + n / 10 mod 10; ch "0" + n mod 10].
(* main.rs:212-221: HaDeviceConfig with name: None, which is skipped *)
Definition device_json (cfg : Cfg) : value :=
  VObj [(B "manufacturer", ser_str (B "Elk Products")); (B "model", ser_str (B "M1"));
        (B "identifiers", VArr [ser_str (serial_number cfg)])].
(* main.rs:240, 261 *)
Definition area_unique_id (cfg : Cfg) (area : N) : bytes := B "elk-" ++ serial_number cfg ++ B "-area-" ++ show_u8 area.
Definition zone_unique_id (cfg : Cfg) (zone : N) : bytes := B "elk-" ++ serial_number cfg ++ B "-zone-" ++ show_u8 zone.
(* main.rs:191-199 HaAlarmPanelConfig *)
Definition area_discovery_json (prefix : bytes) (cfg : Cfg) (area : N) (name : bytes) : value :=
  VObj [(B "availability_topic", ser_str (availability_topic prefix));
        (B "state_topic", ser_str (area_state_topic prefix name));
        (B "command_topic", ser_str (area_command_topic prefix name));
        (B "unique_id", ser_str (area_unique_id cfg area));
        (B "name", ser_str name);
        (B "device", device_json cfg)].
(* main.rs:202-210 HaBinarySensorConfig *)
Definition zone_discovery_json (prefix : bytes) (cfg : Cfg) (zone : N) (z : ZoneCfg) : value :=
  VObj [(B "availability_topic", ser_str (availability_topic prefix));
        (B "state_topic", ser_str (zone_state_topic prefix (z_name z)));
        (B "unique_id", ser_str (zone_unique_id cfg zone));
        (B "name", ser_str (z_name z));
        (B "device", device_json cfg);
        (B "device_class", ser_str (z_class z))].
(* main.rs:223-279 publish_ha_discovery *)
Definition publish_ha_discovery (cl : client) (prefix ha_prefix : bytes) (cfg : Cfg) : out unit :=
  _ <~ each (fun '(area_id, name) =>
         publish cl AtLeastOnce (ha_prefix ++ B "/alarm_control_panel/" ++ area_unique_id cfg area_id ++ B "/config") true
           (PJson (area_discovery_json prefix cfg area_id name))) (areas cfg) ;;
  each (fun '(zone_id, z) =>
    publish cl AtLeastOnce (ha_prefix ++ B "/binary_sensor/" ++ zone_unique_id cfg zone_id ++ B "/config") true
      (PJson (zone_discovery_json prefix cfg zone_id z))) (zones cfg).

(* main.rs:290-325: what a message asks for; None is one of the two returns that ignore it *)
Fixpoint requested (prefix : bytes) (code : bytes) (areas : list (N * bytes)) (topic pl : bytes) : res (option Command) :=
  match areas with
  | [] => Ok None
  | (area_id, name) :: areas' =>
      if negb (beq topic (area_command_topic prefix name)) then requested prefix code areas' topic pl
      else if negb (utf8_valid pl) then Panic "called `Result::unwrap()` on an `Err` value"
      else
        let arm (level : ArmLevel) :=
          area <- expect (Area_try_from area_id) "called `Result::unwrap()` on an `Err` value" ;;
          Ok (Some (CmdArm (mkArmRequest area level code))) in
        if beq pl (B "DISARM") then arm AL_Disarm
        else if beq pl (B "ARM_AWAY") then arm AL_ArmedAway
        else if beq pl (B "ARM_HOME") then arm AL_ArmedStay
        else Ok None
  end.

(* main.rs:420-442 inner, from connecting to the loop: the code, or a crash *)
Definition start_up (cl : client) (cfg : Cfg) (panel : Panel) : out bytes :=
  let prefix := topic_prefix cfg in
  code <~ lift (expect (ArmCode_try_from_u32 (code cfg)) "called `Result::unwrap()` on an `Err` value") ;;
  _ <~ match ha_discovery_prefix cfg with
       | Some ha => publish_ha_discovery cl prefix ha cfg
       | None => done tt
       end ;;
  _ <~ publish_area_states cl panel prefix (areas cfg) ;;
  _ <~ each (fun '(zone_id, z) =>
         zone <~ lift (expect (Zone_try_from zone_id) "called `Result::unwrap()` on an `Err` value") ;;
         publish_zone_state cl panel prefix zone z) (zones cfg) ;;
  _ <~ subscribe_many cl AtMostOnce (map (fun '(_, name) => area_command_topic prefix name) (areas cfg)) ;;
  _ <~ publish cl AtLeastOnce (availability_topic prefix) true (PText (B "online")) ;;
  done code.

(* main.rs:449-467: the panel_event arm, after the two unwraps *)
Definition handle_event (cl : client) (cfg : Cfg) (panel : Panel) (e : Event) : out unit :=
  let prefix := topic_prefix cfg in
  v <~ lift (Event_ser e) ;;
  _ <~ publish cl AtLeastOnce (event_topic prefix) false (PJson v) ;;
  match e_change e with
  | Some (CArmingStatus _) => publish_area_states cl panel prefix (areas cfg)
  | Some (CZoneChange zone _) =>
      match find (fun '(k, _) => k =? zone) (zones cfg) with
      | None => done tt
      | Some (_, z) => publish_zone_state cl panel prefix zone z
      end
  | None => done tt
  end.

(* ---- the program as a machine ----
   Everything is one task (main.rs:369, 406-409), whose waker is TASK.  Used at main.rs:369 *)
Definition TASK : nat := 0.
(* where inner's loop is: in select!, or in the body of its second arm, in SinkExt::send, which is feed (poll_ready then
   start_send) and then flush; used at main.rs:444-474, 315-322 *)
Inductive mode : Type := Selecting | Feeding (c : Command) | Flushing.
(* main.rs:412-475 *)
Record up : Type := mkUp {
  u_panel : Panel; u_code : bytes; u_mode : mode; u_rx : list (bytes * bytes);   (* rx: topic and payload *)
  u_log : list action }.
(* main.rs:412-475 *)
Inductive bridge : Type :=
| Connecting (i : istate) (rx : list (bytes * bytes))   (* main.rs:418 *)
| Up (u : up)
| Dead (log : list action) (why : string).     (* a panic: the process ends *)

(* main.rs:329-342, 412-475 *)
Inductive input : Type :=
| NetArrive (a : arrival)                      (* the panel's socket *)
| MqttArrive (topic pl : bytes)                (* the event loop puts a publish into the channel: main.rs:333-341 *)
| MqttFail                                     (* eventloop.poll() fails: main.rs:334 *)
| PollConnect (now : N) (ws : list wr)         (* a step of Panel::connect *)
| PollPanel (now : N)                          (* select! polls panel.next() *)
| PollRx                                       (* select! polls rx.recv() *)
| PollSend (ws : list wr).                     (* a poll of panel.send(..) *)

(* main.rs:412-475: a panic ends the process *)
Definition settle {A : Type} (log : list action) (o : out A) (k : list action -> A -> bridge) : bridge :=
  match o with
  | (l, Ok a) => k (log ++ l) a
  | (l, Err e) => Dead (log ++ l) e
  | (l, Panic w) => Dead (log ++ l) w
  end.
(* main.rs:418: connect, then start up *)
Definition after_connect (cl : client) (cfg : Cfg) (i : istate) (rx : list (bytes * bytes)) : bridge :=
  match i with
  | IRun _ _ _ => Connecting i rx
  | IDone p => settle [] (start_up cl cfg p) (fun log code => Up (mkUp p code Selecting rx log))
  | IFail e => Dead [] e
  | ICrash w => Dead [] w
  end.
(* main.rs:443 *)
Definition set_panel (u : up) (p : Panel) : up := mkUp p (u_code u) (u_mode u) (u_rx u) (u_log u).
(* main.rs:444-474 *)
Definition set_mode (u : up) (m : mode) : up := mkUp (u_panel u) (u_code u) m (u_rx u) (u_log u).
(* the flush of SinkExt::send; then main.rs:322 unwraps *)
Definition poll_send_flush (ws : list wr) (u : up) : bridge :=
  let '(p, r) := poll_flush ws (u_panel u) in
  match r with
  | Pending => Up (set_mode (set_panel u p) Flushing)
  | Ready (IoOk _) => Up (set_mode (set_panel u p) Selecting)
  | Ready (IoErr e) => Dead (u_log u) e
  end.
(* main.rs:412-475 and 329-342 *)
Definition bstep (cl : client) (cfg : Cfg) (b : bridge) (i : input) : bridge :=
  match b with
  | Dead _ _ => b
  | Connecting s rx =>
      match i with
      | NetArrive a => Connecting (iarrive a s) rx
      | MqttArrive topic pl => Connecting s (rx ++ [(topic, pl)])
      | PollConnect now ws => after_connect cl cfg (istep now ws s) rx
      | MqttFail => Dead [] "called `Result::unwrap()` on an `Err` value"
      | _ => b
      end
  | Up u =>
      match i with
      | NetArrive a => Up (set_panel u (with_conn (u_panel u) (arrive (p_conn (u_panel u)) a)))
      | MqttArrive topic pl => Up (mkUp (u_panel u) (u_code u) (u_mode u) (u_rx u ++ [(topic, pl)]) (u_log u))
      | MqttFail => Dead (u_log u) "called `Result::unwrap()` on an `Err` value"
      | PollConnect _ _ => b
      | PollPanel now =>
          match u_mode u with
          | Selecting =>
              match poll_next now (u_panel u) with
              | Ok (p, Pending, _) => Up (set_panel u p)
              | Ok (p, Ready None, _) => Dead (u_log u) "called `Option::unwrap()` on a `None` value"
              | Ok (p, Ready (Some (IoErr e)), _) => Dead (u_log u) e
              | Ok (p, Ready (Some (IoOk e)), _) =>
                  settle (u_log u) (handle_event cl cfg p e) (fun log _ => Up (mkUp p (u_code u) Selecting (u_rx u) log))
              | Err e => Dead (u_log u) e
              | Panic w => Dead (u_log u) w
              end
          | _ => b
          end
      | PollRx =>
          match u_mode u, u_rx u with
          | Selecting, (topic, pl) :: rx =>
              match requested (topic_prefix cfg) (u_code u) (areas cfg) topic pl with
              | Ok None => Up (mkUp (u_panel u) (u_code u) Selecting rx (u_log u))
              | Ok (Some c) => Up (mkUp (u_panel u) (u_code u) (Feeding c) rx (u_log u))
              | Err e => Dead (u_log u) e
              | Panic w => Dead (u_log u) w
              end
          | _, _ => b
          end
      | PollSend ws =>
          match u_mode u with
          | Selecting => b
          | Flushing => poll_send_flush ws u
          | Feeding c =>
              let '(p, r) := poll_ready TASK ws (u_panel u) in
              match r with
              | Pending => Up (set_panel u p)
              | Ready (IoErr e) => Dead (u_log u) e
              | Ready (IoOk _) =>
                  match start_send c p with
                  | Ok p' => poll_send_flush ws (set_panel u p')
                  | Err e => Dead (u_log u) e
                  | Panic w => Dead (u_log u) w
                  end
              end
          end
      end
  end.
(* main.rs:404-409 *)
Definition brun (cl : client) (cfg : Cfg) (is : list input) : bridge :=
  fold_left (bstep cl cfg) is (Connecting (init_start conn_new) []).
(* what main.rs:144-279 and 433-454 have asked of the client *)
Definition blog (b : bridge) : list action :=
  match b with Connecting _ _ => [] | Up u => u_log u | Dead l _ => l end.
