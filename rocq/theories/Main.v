(* Main.v: how the two programs start: /repo/elkm1-mqtt/src/main.rs:369-410, /repo/elkm1-cli/src/main.rs:60-61.  Definitions only.

   args is what std::env::args_os yields, the program's name first; files is what std::fs::read yields for a path, None for an error
   of any kind.  Simplified: the error itself, which the panic message also shows, is left out; setup_tracing (main.rs:353-367) is
   not modelled.  clap's parsing of the arguments of elkm1-cli (elkm1-cli/src/main.rs:12-16, 100) is not modelled. *)
From Verif Require Import Base Pkt Cli FmtText.
From Verif Require Export BridgeText.

(* elkm1-mqtt/src/main.rs:372-403 *)
Definition main_args (args : list bytes) (files : bytes -> option bytes) : res (MqttOptions * bytes * Cfg) :=
  args1 <- match args with [] => Panic "no argv[0]" | _ :: l => Ok l end ;;
  ' (cfg_path, args2) <- match args1 with [] => Panic "called `Option::unwrap()` on a `None` value" | p :: l => Ok (p, l) end ;;
  _ <- match args2 with [] => Ok tt | _ :: _ => Panic "extra argument after cfg" end ;;
  file <- match files cfg_path with Some b => Ok b | None => Panic "called `Result::unwrap()` on an `Err` value" end ;;
  main_text file.

(* the process: it has panicked before it made its MQTT client, or runs with these options for the broker and this address of the panel;
   main.rs:369-410 *)
Inductive process : Type :=
| Stopped (why : string)
| Running (o : MqttOptions) (host_port : bytes) (cfg : Cfg) (b : bridge).
(* main.rs:369-410, after the inputs is *)
Definition main (cl : client) (args : list bytes) (files : bytes -> option bytes) (is : list input) : process :=
  match main_args args files with
  | Ok (o, h, cfg) => Running o h cfg (brun cl cfg is)
  | Err why | Panic why => Stopped why
  end.
(* main.rs:395-410: what the broker has got from the process: its requests and, when it has ended, its last will *)
Definition broker_gets (p : process) : list action :=
  match p with Stopped _ => [] | Running o _ _ b => broker_sees (o_last_will o) b end.

(* elkm1-cli/src/main.rs:60-69 read, given the path *)
Definition read_file (hex : bytes -> bytes) (files : bytes -> option bytes) (path : bytes) : res bytes :=
  data <- match files path with Some b => Ok b | None => Panic "called `Result::unwrap()` on an `Err` value" end ;;
  read_text hex data.
