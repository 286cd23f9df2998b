(* SpecModest.v: vocabulary for C145, about the size of what is published besides the events. *)
From Verif Require Import Base Mqtt BridgeText SpecSize.

(* every text in the configuration has at most 100 bytes *)
Definition modest (cfg : Cfg) : Prop :=
  (length (serial_number cfg) <= 100)%nat /\ (forall p, cfg_topic_prefix cfg = Some p -> (length p <= 100)%nat) /\
  (forall p, ha_discovery_prefix cfg = Some p -> (length p <= 100)%nat) /\ Forall (fun x => (length (snd x) <= 100)%nat) (areas cfg) /\
  Forall (fun x => (length (z_name (snd x)) <= 100)%nat /\ (length (z_class (snd x)) <= 100)%nat) (zones cfg).
(* a retained publication, its topic included, leaves 1000 bytes of the client's limit *)
Definition fits (a : action) : Prop :=
  match a with
  | APublishQ _ t retain p => retain = true -> N.of_nat (length t + length (payload_text p)) + 1000 <= client_limit
  | ASubscribeQ _ _ => True
  end.
