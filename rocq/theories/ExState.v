(* ExState.v: a concrete connected panel, for the non-vacuity examples and the counterexamples. *)
From Verif Require Import Base Pkt SpecPkt Msg SpecMsg Tokio SpecConn State SpecState.

(* the bytes of a message on the wire *)
Definition bytes_of (m : message) : bytes :=
  match to_pkt m with Ok p => match encode p [] with Ok f => f | _ => [] end | _ => [] end.
Definition ex_disarmed : ArmingStatusReport :=
  mkAS (repeat AST_Disarmed 8) (repeat AU_ReadyToArm 8) (repeat AA_NoAlarmActive 8) 0.
(* area 1 fully armed: suspicious after ex_disarmed *)
Definition ex_armed : ArmingStatusReport :=
  mkAS (AST_ArmedAway :: repeat AST_Disarmed 7) (AU_ArmedFully :: repeat AU_ReadyToArm 7) (repeat AA_NoAlarmActive 8) 0.
(* area 1 arming, on its exit timer *)
Definition ex_arming : ArmingStatusReport :=
  mkAS (AST_ArmedAway :: repeat AST_Disarmed 7) (AU_ArmedWithExitTimer :: repeat AU_ReadyToArm 7) (repeat AA_NoAlarmActive 8) 0.
Definition ex_zones : list N := 2 :: 9 :: repeat 0 206.
Definition ex_replies : list message :=
  [MArmingStatusReport ex_disarmed; MZoneChange (mkZC 2 1); MZoneStatusReport ex_zones;
   MStringDescriptionResponse (mkSdResp TT_Area 1 (B "House           ")); MStringDescriptionResponse (mkSdResp TT_Area 0 TextDescription_EMPTY);
   MStringDescriptionResponse (mkSdResp TT_Task 0 TextDescription_EMPTY);
   MStringDescriptionResponse (mkSdResp TT_Zone 2 (B "Front DoorKeypad")); MStringDescriptionResponse (mkSdResp TT_Zone 0 TextDescription_EMPTY)].
Definition ex_init : list iop :=
  map (fun m => IArrive (Bytes (bytes_of m))) ex_replies ++ repeat (IStep 0 [WAccept 100]) 22.
Definition ex_panel : Panel := Eval vm_compute in
  match irun conn_new ex_init with IDone p => p | _ => mkPanel conn_new PanelState_default None Idle end.
Definition summary (p : Panel) := (s_arming (p_state p), s_zones (p_state p), firstn 2 (zone_names (p_state p)),
  firstn 2 (area_names (p_state p)), pending_arm p, cmd_state p, unread (p_conn p)).
Lemma ex_init_ok : Forall iop_ok ex_init.
Proof.
  apply Forall_app. split; [|apply Forall_forall; intros x H; apply repeat_spec in H; subst x; exact I].
  apply Forall_forall. intros x H. apply in_map_iff in H as (m & <- & Hm).
  assert (X : forallb (fun m => forallb (fun b => b <? 256) (bytes_of m)) ex_replies = true) by (vm_compute; reflexivity).
  rewrite forallb_forall in X. specialize (X m Hm). cbn. apply Forall_forall. intros b Hb. rewrite forallb_forall in X.
  apply N.ltb_lt. auto.
Qed.
Lemma ex_connected : connected ex_panel.
Proof. exists ex_init. split; [exact ex_init_ok|]. vm_compute. reflexivity. Qed.
Example ex_panel_summary : summary ex_panel =
  (Some ex_disarmed, Some ex_zones, [TextDescription_EMPTY; B "Front DoorKeypad"], [B "House           "; TextDescription_EMPTY], None, Idle, []).
Proof. vm_compute. reflexivity. Qed.
