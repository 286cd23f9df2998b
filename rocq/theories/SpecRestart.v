(* SpecRestart.v: the broker over several runs of the bridge, after MQTT: it keeps what was last published with the retain flag on each topic, also when the
   client is gone, and publishes the client's last will when the connection ends without a DISCONNECT, which /repo/elkm1-mqtt/src/main.rs never sends. *)
From Verif Require Import Base Mqtt SpecMqtt Config BridgeText.

Definition last_words (w : LastWill) : action := APublishQ (w_qos w) (w_topic w) (w_retain w) (PText (w_message w)).
(* What a run that is over has left with the broker: nothing, if it never reached it; else some of what the program asked for, since it may be killed at any
   time and what is then still queued is lost, and after that the last will. *)
Definition left_by (w : LastWill) (b : bridge) (l : list action) : Prop := l = [] \/ exists k, l = firstn k (blog b) ++ [last_words w].
(* The configurations of the runs so far, the latest first, and what the broker has got from them. *)
Inductive past : list Cfg -> list action -> Prop :=
| Past_none : past [] []
| Past_run cfgs log file o h cfg cl is b l :
    past cfgs log -> main_text file = Ok (o, h, cfg) -> bridge_after cl cfg is b -> left_by (o_last_will o) b l -> past (cfg :: cfgs) (log ++ l).
