(* SpecOnce.v: vocabulary for C140: what a broker does with messages that were published with the retain flag (MQTT 3.1.1, 3.3.1.3). *)
From Verif Require Import Base Mqtt SpecMqtt SpecListen.

(* what somebody publishes *)
Record gmessage : Type := mkGiven { g_topic : bytes; g_payload : bytes; g_retain : bool }.
Definition content (m : gmessage) : bytes * bytes := (g_topic m, g_payload m).
(* After these were published the broker keeps m: the last with the retain flag on its topic, unless its payload is empty. *)
Definition keeps (log : list gmessage) (m : gmessage) : Prop :=
  exists l1 l2, log = l1 ++ m :: l2 /\ g_retain m = true /\ g_payload m <> [] /\ forall m', In m' l2 -> g_retain m' = true -> g_topic m' <> g_topic m.
Definition subscribed (fs : list bytes) (m : gmessage) : Prop := exists f, In f fs /\ filter_matches f (g_topic m).
(* A client that subscribes to fs gets what the broker keeps on matching topics. *)
Definition on_subscribing (log : list gmessage) (fs : list bytes) (ms : list gmessage) : Prop :=
  NoDup (map g_topic ms) /\ forall m, In m ms <-> keeps log m /\ subscribed fs m.
(* some of a list, in its order *)
Inductive some_of {A : Type} : list A -> list A -> Prop :=
| some_nil : some_of [] []
| some_take x l k : some_of l k -> some_of (x :: l) (x :: k)
| some_skip x l k : some_of l k -> some_of (x :: l) k.
(* One run of the bridge: [before] was published before it subscribed, [during] after that.  First it gets what was kept, then what is
   published, as far as it is delivered. *)
Definition one_run (cl : client) (cfg : Cfg) (before during : list gmessage) (is : list input) (b : bridge) : Prop :=
  bridge_after cl cfg is b /\
  exists is0 u0 is1 q fs kept got later, is = is0 ++ is1 /\ bridge_after cl cfg is0 (Up u0) /\ mqtt_in is0 = [] /\ In (ASubscribeQ q fs) (u_log u0) /\
    on_subscribing before fs kept /\ some_of during got /\ Forall (subscribed fs) got /\ map content (kept ++ got) = mqtt_in is1 ++ later.
