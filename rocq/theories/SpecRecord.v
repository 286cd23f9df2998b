(* SpecRecord.v: the lines that `elkm1-cli read` prints for packets and what is left over.  For C127. *)
From Verif Require Import Base Pkt Cli.
Definition lines_for (ps : list packet) (left : bytes) : list out_line :=
  map OPacket ps ++ match left with [] => [] | _ :: _ => [OIncomplete left] end.
