(* SpecGone.v: the panel has gone without closing the connection: nothing comes from it any more.  For C134. *)
From Verif Require Import Base Pkt SpecPkt Msg SpecMsg Tokio SpecConn State SpecState Mqtt SpecMqtt SpecInit SpecServe.

(* asked, the panel has nothing to tell, and asking changes nothing *)
Definition awaits (p : Panel) : Prop := exists now w, poll_next now p = Ok (p, Pending, w).
(* the stream of events has neither ended nor failed *)
Definition goes_on (bs : list obs) : Prop := forall r w, In (ONext (Ready r) w) bs -> exists e, r = Some (IoOk e).
(* nothing arrives from the panel *)
Definition silence (h : list op) : Prop := Forall (fun o => forall a, o <> Arrive a) h.
(* nothing arrives from the panel; all else may happen in any order and at any time: MQTT messages arrive, the bridge's task polls and writes what the socket takes, if anything *)
Definition silent (cfg : Cfg) (i : input) : Prop :=
  match i with NetArrive _ | MqttFail => False | MqttArrive t pl => readable cfg (t, pl) | PollSend ws => Forall write_ok ws | _ => True end.
(* the connection ends, or fails *)
Definition gone (a : arrival) : Prop := a = PeerClose \/ exists e, a = ReadError e.
(* connecting waits for a reply: to run it changes nothing, whatever the socket would take *)
Definition awaits_reply (i : istate) : Prop := exists now, forall ws, istep now ws i = i.
Definition connecting (i : istate) : Prop := (forall p, i <> IDone p) /\ (forall e, i <> IFail e) /\ forall w, i <> ICrash w.
