(* BridgeText.v: the texts that elkm1-mqtt reads and publishes, in terms of the values of Config.v and Mqtt.v. *)
From Verif Require Export Config JsonText.

(* main.rs:378-403: the configuration file, read as bytes.  std::fs::read and the command line are in Main.v. *)
Definition main_text (file : bytes) : res (MqttOptions * bytes * Cfg) :=
  v <- expect (from_slice file) "called `Result::unwrap()` on an `Err` value" ;;
  main_setup v.
(* main.rs:252, 274, 453: what is published for a value is the pretty-printed text *)
Definition payload_text (p : payload) : bytes := match p with PText s => s | PJson v => to_string_pretty v end.
