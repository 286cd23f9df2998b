(* SpecSame.v: vocabulary for C142, about configurations in which areas share a name. *)
From Verif Require Import Base Pkt SpecPkt Msg SpecMsg Tokio SpecConn State SpecState Serde Mqtt SpecMqtt.

(* area is the first (the last) with this name, in the order in which the bridge goes through its areas *)
Definition first_of (cfg : Cfg) (name : bytes) (area : N) : Prop :=
  exists l1 l2, areas cfg = l1 ++ (area, name) :: l2 /\ ~ In name (map snd l1).
Definition last_of (cfg : Cfg) (name : bytes) (area : N) : Prop :=
  exists l1 l2, areas cfg = l1 ++ (area, name) :: l2 /\ ~ In name (map snd l2).
(* a publish that asks for a command, for the first area of the name in its topic *)
Definition asks_first (cfg : Cfg) (m : bytes * bytes) (c : Command) : Prop :=
  exists area name level code', first_of cfg name area /\ fst m = topic_prefix cfg ++ B "/area/" ++ name ++ B "/ha_command" /\
    In (snd m, level) payload_levels /\ dec_canon 6 (code cfg) code' /\ c = CmdArm (mkArmRequest area level code').
Definition asked_first (cfg : Cfg) (m : bytes * bytes) (o : option Command) : Prop :=
  match o with Some c => asks_first cfg m c | None => forall c, ~ asks cfg m c end.
(* what is shown on a name's topic is the state of this area *)
Definition shows_state_of (cfg : Cfg) (u : up) (name : bytes) (area : N) : Prop :=
  exists t, area_shown (u_panel u) area t /\ holds (u_log u) (topic_prefix cfg ++ B "/area/" ++ name ++ B "/ha_state") (PText t).
(* from u1 to u2, what was taken from MQTT and what was written to the panel for it, with every command for the first area of its name *)
Definition sent_to_first (cfg : Cfg) (is : list input) (u1 u2 : up) : Prop :=
  exists handled os cs fs,
    u_rx u1 ++ mqtt_in is = handled ++ u_rx u2 /\ Forall2 (asked_first cfg) handled os /\
    waiting u1 ++ catMaybes os = cs ++ waiting u2 /\
    Forall2 command_frame cs fs /\ sent (p_conn (u_panel u2)) ++ wbuf (p_conn (u_panel u2)) = (sent (p_conn (u_panel u1)) ++ wbuf (p_conn (u_panel u1))) ++ concat fs.
