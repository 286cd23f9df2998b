(* FmtText.v: what `elkm1-cli read` prints: /repo/elkm1-cli/src/main.rs:60-69, with Layout.v for the characters of `{:?}`.  Definitions only. *)
From Verif Require Export Layout.
From Verif Require Import Base Pkt Fmt Cli.

(* main.rs:64 println!("{:?}", pkt), main.rs:67 println!("incomplete data: {:?}", left.hex_dump()) *)
Definition line_text (hex : bytes -> bytes) (o : out_line) : bytes :=
  match o with
  | OPacket p => dbg_text hex None (Packet_dbg p) ++ [10]
  | OIncomplete rest => B "incomplete data: " ++ hex rest ++ [10]
  end.
(* main.rs:60-69 all that read prints, for a file with these contents *)
Definition read_text (hex : bytes -> bytes) (data : bytes) : res bytes :=
  ls <- cli_read data ;; Ok (concat (map (line_text hex) ls)).
