(* SpecProgram.v: the MQTT bridge from the start of the program on, with a panel that answers everything it receives, the network
   between them and MQTT clients as in SpecServe.v; what a fair execution is.  For C99.
   The bridge is the one of Mqtt.v; the rest is not code of the repository. *)
From Verif Require Import Base Pkt SpecPkt Msg SpecMsg Tokio SpecConn State SpecState Serde Mqtt SpecMqtt SpecInit SpecSend SpecServe.

(* the bridge has just started to connect; nothing has been sent or asked for *)
Definition program_new : service := mkService (Connecting (init_start conn_new) []) [] 0 [] [].
Definition connecting (b : bridge) : Prop := exists i rx, b = Connecting i rx.
(* names are answered as in SpecInit.v, anything else by any answer to it *)
Definition answered (nm : naming) (q m : message) : Prop :=
  match q with MStringDescriptionRequest _ => answers nm q m | _ => replies m q end.
Inductive pmove : Type :=
| PConnect (now : N) (ws : list wr)   (* the bridge's task runs Panel::connect *)
| PDo (a : smove).                    (* as in SpecServe.v *)
Inductive goes (nm : naming) (cl : client) (cfg : Cfg) (may : packet -> Prop) (v : service) : pmove -> service -> Prop :=
| G_connect now ws : Forall write_ok ws -> goes nm cl cfg may v (PConnect now ws)
    (mkService (bstep cl cfg (v_bridge v) (PollConnect now ws)) (v_net v) (v_replied v) (v_asked v) (v_events v))
| G_serve a v' : a <> SUnasked -> a <> SReply -> serves cl cfg may [] v a v' -> goes nm cl cfg may v (PDo a) v'
(* while the bridge connects the panel sends no name it was not asked for *)
| G_unasked pkt f : valid_packet pkt -> may pkt -> harmless pkt -> (connecting (v_bridge v) -> ~ is_name_reply pkt) -> frame_of pkt f ->
    goes nm cl cfg may v (PDo SUnasked) (mkService (v_bridge v) (v_net v ++ f) (v_replied v) (v_asked v) (v_events v))
| G_reply q m body f : next_request [] v q -> answered nm q m -> grammar m body -> ascii_body body -> ascii_frame body f ->
    goes nm cl cfg may v (PDo SReply) (mkService (v_bridge v) (v_net v ++ f) (S (v_replied v)) (v_asked v) (v_events v)).
Inductive gets_to (nm : naming) (cl : client) (cfg : Cfg) (may : packet -> Prop) : service -> Prop :=
| G_new : gets_to nm cl cfg may program_new
| G_move v a v' : gets_to nm cl cfg may v -> goes nm cl cfg may v a v' -> gets_to nm cl cfg may v'.

(* the configuration is in range, area names are distinct, and the MQTT client accepts the topics it gives *)
Definition well_configured (cl : client) (cfg : Cfg) : Prop :=
  in_range cfg /\ distinct_area_names cfg /\
  topic_ok cl (topic_prefix cfg ++ B "/event") = true /\ topic_ok cl (topic_prefix cfg ++ B "/availability") = true /\
  Forall (fun x => topic_ok cl (topic_prefix cfg ++ B "/area/" ++ snd x ++ B "/ha_state") = true) (areas cfg) /\
  Forall (fun x => topic_ok cl (topic_prefix cfg ++ B "/zone/" ++ z_name (snd x) ++ B "/ha_state") = true) (zones cfg) /\
  filters_ok cl (map (fun x => topic_prefix cfg ++ B "/area/" ++ snd x ++ B "/ha_command") (areas cfg)) = true /\
  (forall ha, ha_discovery_prefix cfg = Some ha ->
     Forall (fun x => topic_ok cl (ha ++ B "/alarm_control_panel/" ++ area_unique_id cfg (fst x) ++ B "/config") = true) (areas cfg) /\
     Forall (fun x => topic_ok cl (ha ++ B "/binary_sensor/" ++ zone_unique_id cfg (fst x) ++ B "/config") = true) (zones cfg)).

(* ---- fair executions ---- *)
Definition goes_on (nm : naming) (cl : client) (cfg : Cfg) (may : packet -> Prop) (vs : nat -> service) (acts : nat -> pmove) : Prop :=
  vs 0%nat = program_new /\ forall n, goes nm cl cfg may (vs n) (acts n) (vs (S n)).
Definition fair_program (vs : nat -> service) (acts : nat -> pmove) : Prop :=
  (* the task keeps being run, with a socket that takes at least a byte *)
  (forall n, exists m, (n <= m)%nat /\ ((exists now k ws, acts m = PConnect now (WAccept (S k) :: ws)) \/ ~ connecting (v_bridge (vs m)))) /\
  (forall n, exists m now, (n <= m)%nat /\ acts m = PDo (SPanel now)) /\
  (forall n, exists m, (n <= m)%nat /\ acts m = PDo SRx) /\
  (forall n, exists m k ws, (n <= m)%nat /\ acts m = PDo (SSend (WAccept (S k) :: ws))) /\
  (* whatever the panel receives is eventually answered *)
  (forall n, exists m, (n <= m)%nat /\ (acts m = PDo SReply \/ forall q, ~ next_request [] (vs m) q)) /\
  (* bytes sent are eventually delivered *)
  (forall n, exists m, (n <= m)%nat /\ (acts m = PDo SDeliver \/ v_net (vs m) = [])).
