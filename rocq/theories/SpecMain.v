(* SpecMain.v: what a user gives the bridge, and why it may refuse to start (/repo/elkm1-mqtt/src/main.rs:369-410).  For C112. *)
From Verif Require Import Base Pkt Msg State Serde Mqtt Config SpecMqtt SpecConfig SpecJson.

(* both or neither of user name and password *)
Definition paired (m : MqttCfg) : Prop := (m_username m = None <-> m_password m = None).
(* the command line is a program name and a path, and the file there is JSON for the configuration c *)
Definition file_says (files : bytes -> option bytes) (path : bytes) (c : FileCfg) : Prop :=
  exists text v, files path = Some text /\ denotes v text /\ file_value v c.
Definition given (args : list bytes) (files : bytes -> option bytes) (c : FileCfg) : Prop :=
  exists prog path, args = [prog; path] /\ file_says files path c /\ paired (f_mqtt c).
(* why it stops with this message *)
Inductive refuses (files : bytes -> option bytes) : list bytes -> string -> Prop :=
| R_nothing : refuses files [] "no argv[0]"
| R_no_path prog : refuses files [prog] "called `Option::unwrap()` on a `None` value"
| R_too_many prog path x l : refuses files (prog :: path :: x :: l) "extra argument after cfg"
| R_no_file prog path : files path = None -> refuses files [prog; path] "called `Result::unwrap()` on an `Err` value"
| R_no_configuration prog path text : files path = Some text -> (forall c, ~ file_says files path c) ->
    refuses files [prog; path] "called `Result::unwrap()` on an `Err` value"
| R_not_paired prog path c : file_says files path c -> ~ paired (f_mqtt c) ->
    refuses files [prog; path] "username without password or vice versa".
