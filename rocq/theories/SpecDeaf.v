(* SpecDeaf.v: for C111. *)
From Verif Require Import Base Pkt SpecPkt Msg SpecMsg Tokio SpecConn State SpecState Mqtt SpecMqtt Cli SpecCli SpecBuffer.

(* whatever else is sent to it and however it is called, the panel never yields another packet *)
Definition deaf (p : Panel) : Prop := forall h p' bs, Forall op_ok h -> run p h = Ok (p', bs) -> packets (events bs) = [].
(* the event that announces a held report at last *)
Definition at_last (prior : ArmingStatusReport) : Event := mkEvent None None None (Some (CArmingStatus prior)).
(* From p to p' nothing has changed: es is empty; or es announces the report that was held, which is in effect now. *)
Definition no_news (p p' : Panel) (es : list Event) : Prop :=
  panel_zone_statuses p' = panel_zone_statuses p /\
  (es = [] /\ panel_arming_status p' = panel_arming_status p /\ held p' = held p \/
   exists prior r, es = [at_last prior] /\ status_is p prior /\ held p = Some r /\ status_is p' r /\ held p' = None).
(* what the bridge publishes, and watch tells, for a report held by p, if any *)
Definition last_words (cl : client) (cfg : Cfg) (p : Panel) (l : list action) : Prop :=
  l = [] \/ exists prior r p' o, status_is p prior /\ held p = Some r /\ status_is p' r /\ handle_event cl cfg p' (at_last prior) = (l, o).
Definition last_lines (p : Panel) (l : list line) : Prop :=
  l = [] \/ exists prior r p', status_is p prior /\ held p = Some r /\ status_is p' r /\ watch_event p' (at_last prior) = Ok l.
(* all that watch has told *)
Definition lines_of (w : watcher) : option (list line) := match w with WConnecting _ => None | WLoop _ log | WDone log | WCrash log _ => Some log end.
