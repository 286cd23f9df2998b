(* SpecSize.v: vocabulary for C144, about the size of what is published for an event. *)
From Verif Require Import Base Pkt Msg State.

(* the largest MQTT packet that rumqttc 0.25 sends unless it is told otherwise, which main.rs does not: 10 KiB (from its documentation) *)
Definition client_limit : N := 10240.
(* a byte takes this many digits *)
Definition digits_of (b : N) : nat := if b <? 10 then 1%nat else if b <? 100 then 2%nat else 3%nat.
(* a list of bytes, each on a line of its own behind this many spaces and followed by a line feed, all but the last with a comma *)
Definition lines_of (spaces : nat) (bs : bytes) : nat := (list_sum (map (fun b => spaces + digits_of b + 2) bs) - 1)%nat.
(* the text for an event of an RP packet with this data *)
Definition rp_size (data : bytes) : nat := match data with [] => 85%nat | _ => (90 + lines_of 6 data)%nat end.
(* the text for an event of an invalid packet, with a reason that takes this many characters in JSON, the quotes included *)
Definition invalid_size (raw : bytes) (reason : nat) : nat := (136 + reason + lines_of 8 raw)%nat.
