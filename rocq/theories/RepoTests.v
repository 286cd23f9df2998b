(* RepoTests.v: the unit tests of /repo, run on the model.  These are tests of the model, not proofs of properties: each says that
   the model computes what the repository's own test asserts of the code. *)
From Verif Require Import Base Pkt Msg Tokio State.

(* ---- pkt.rs:504-556 ---- *)
(* decode the whole buffer to one packet made by try_from, encode it again *)
Definition packet_test (as_bytes : bytes) (p : res packet) : Prop :=
  exists q, p = Ok q /\ decode as_bytes = Ok (Some q, []) /\ encode q [] = Ok as_bytes.
Definition ascii (s : bytes) : res packet := b <- ascii_try_from s ;; Ok (PAscii b).
Definition rp (s : bytes) : res packet := b <- rp_try_from s ;; Ok (PRp b).
(* pkt.rs:508-517 *)
Example valid_ascii : packet_test (B "0FEE11030000100EA" ++ CRLF) (ascii (B "EE11030000100")).
Proof. eexists. repeat split. Qed.
(* pkt.rs:519-529 *)
Example valid_rp : packet_test ([16; 2] ++ B "foo" ++ [16; 3; 175; 150]) (rp (B "foo")).
Proof. eexists. repeat split; vm_compute; reflexivity. Qed.
(* pkt.rs:531-541 *)
Example valid_rp_with_escape : packet_test ([16; 2] ++ B "foo" ++ [16; 16] ++ B "bar" ++ [16; 3; 124; 99]) (rp (B "foo" ++ [16] ++ B "bar")).
Proof. eexists. repeat split; vm_compute; reflexivity. Qed.
(* pkt.rs:543-555 *)
Example bad_prefix : exists raw reason left1 left2,
  decode ([222; 173; 190; 239] ++ B "0FEE11030000100EA" ++ CRLF ++ [222; 173; 190; 239]) = Ok (Some (PInvalid raw reason), left1) /\
  decode left1 = Ok (Some (PAscii (B "EE11030000100")), left2) /\
  decode left2 = Ok (None, left2).
Proof. eexists _, _, _, _. repeat split; vm_compute; reflexivity. Qed.

(* ---- msg.rs:1506-1668 ---- *)
Definition message_test (s : bytes) (m : message) : Prop :=
  exists q, ascii s = Ok q /\ parse q = Ok (Some m) /\ to_pkt m = Ok q.
Ltac test := eexists; repeat split; vm_compute; reflexivity.
(* msg.rs:1515-1529 *)
Example valid_as_report_with_timer : message_test (B "AS2000000031111111000000003B")
  (MArmingStatusReport (mkAS (AST_ArmedStay :: repeat AST_Disarmed 7) (AU_ArmedWithExitTimer :: repeat AU_ReadyToArm 7) (repeat AA_NoAlarmActive 8) 59)).
Proof. test. Qed.
(* msg.rs:1531-1546 *)
Example valid_old_ee_report : message_test (B "EE1103000000") (MSendTimeData (mkEE 1 TD_Entry 30 0 None)).
Proof. test. Qed.
(* msg.rs:1548-1563 *)
Example valid_new_ee_report : message_test (B "EE11030000100") (MSendTimeData (mkEE 1 TD_Entry 30 0 (Some ARS_ArmedAway))).
Proof. test. Qed.
(* msg.rs:1565-1578 *)
Example valid_new_ic_report : message_test (B "IC0000010203040000100") (MSendCode (mkIC [0; 0; 1; 2; 3; 4] 0 1)).
Proof. test. Qed.
(* msg.rs:1580-1592 *)
Example valid_sd_req : message_test (B "sd0100100") (MStringDescriptionRequest (mkSdReq TT_Area 1)).
Proof. test. Qed.
(* msg.rs:1594-1607 *)
Example valid_sd_report : exists t, TextDescription_new (B "Garage Door") = Ok t /\
  message_test (B "SD05001Garage Door     00") (MStringDescriptionResponse (mkSdResp TT_Task 1 t)).
Proof. eexists. split; [vm_compute; reflexivity|]. test. Qed.
(* msg.rs:1609-1621 *)
Example valid_zc_report : message_test (B "ZC016900") (MZoneChange (mkZC 16 (ZoneStatus_new ZL_Violated ZP_Open))).
Proof. test. Qed.
(* msg.rs:1623-1649 *)
Example suspicious :
  let disarmed := mkAS (repeat AST_Disarmed 8) (repeat AU_ReadyToArm 8) (repeat AA_NoAlarmActive 8) 0 in
  let arming := mkAS (AST_ArmedStay :: repeat AST_Disarmed 7) (AU_ArmedWithExitTimer :: repeat AU_ReadyToArm 7) (repeat AA_NoAlarmActive 8) 0 in
  let armed := mkAS (AST_ArmedStay :: repeat AST_Disarmed 7) (AU_ArmedFully :: repeat AU_ReadyToArm 7) (repeat AA_NoAlarmActive 8) 0 in
  is_transition_suspicious disarmed arming = false /\ is_transition_suspicious disarmed armed = true /\
  is_transition_suspicious arming armed = false /\ is_transition_suspicious armed disarmed = false.
Proof. repeat split. Qed.
(* msg.rs:1651-1667 *)
Example rtc : exists d, from_iso_8601 (B "2005-12-25T10:59:00") = Ok d /\
  let r := mkRtcData d WD_Sat true CD_TwelveHour DD_MonthFirst in
  RtcData_from_ascii (B "0059107251205110") = Ok r /\ RtcData_to_ascii r = B "0059107251205110".
Proof. eexists. split; [vm_compute; reflexivity|]. split; vm_compute; reflexivity. Qed.

(* ---- state.rs:535-779 ---- *)
Definition frame (s : bytes) : bytes := match ascii s with Ok p => match encode p [] with Ok f => f | _ => [] end | _ => [] end.
Definition frame_msg (m : message) : bytes := match to_pkt m with Ok p => match encode p [] with Ok f => f | _ => [] end | _ => [] end.
(* what a write that takes everything leaves for the server: the bytes sent after the first k *)
Definition received (k : nat) (c : conn) : option message :=
  match decode (skipn k (sent c)) with
  | Ok (Some p, _) => match parse p with Ok (Some m) => Some m | _ => None end
  | _ => None
  end.
(* state.rs:562-594 serve_init: the reply to a request, after an unrelated packet *)
Fixpoint next_name (fuel i : nat) (names : list bytes) : N * bytes :=
  match fuel with
  | O => (0, TextDescription_default)
  | S fuel' =>
      match nth_error names i with
      | None => (0, TextDescription_default)
      | Some t => match TextDescription_is_empty t with Ok true => next_name fuel' (S i) names | _ => (N.of_nat i + 1, t) end
      end
  end.
Definition serve (s : PanelState) (m : message) : bytes :=
  frame (B "XK384014409022200000") ++
  match m with
  | MArmingStatusRequest => match s_arming s with Some r => frame_msg (MArmingStatusReport r) | None => [] end
  | MZoneStatusRequest => match s_zones s with Some z => frame_msg (MZoneStatusReport z) | None => [] end
  | MStringDescriptionRequest r =>
      match names_of s (sdq_ty r) with
      | Some names => let '(num, text) := next_name 209 (N.to_nat (sdq_num r) - 1) names in
                      frame_msg (MStringDescriptionResponse (mkSdResp (sdq_ty r) num text))
      | None => []
      end
  | _ => []
  end.
(* n requests: three steps of the client send one, the server answers, two steps receive the unrelated packet and the reply *)
Fixpoint init_loop (n : nat) (s : PanelState) (k : nat) (i : istate) : istate :=
  match n with
  | O => i
  | S n' =>
      let i := istep 0 [WAccept 1000] (istep 0 [WAccept 1000] i) in
      match i with
      | IRun _ _ p =>
          match received k (p_conn p) with
          | Some m =>
              let i := istep 0 [] (istep 0 [] (iarrive (Bytes (serve s m)) i)) in
              init_loop n' s (length (sent (p_conn p))) i
          | None => i
          end
      | _ => i
      end
  end.
(* state.rs:596-624 *)
Definition init_state : PanelState :=
  mkState (Some (mkAS (repeat AST_Disarmed 8) (repeat AU_NotReadyToArm 8) (repeat AA_NoAlarmActive 8) 0))
    (Some (ZoneStatus_new ZL_Normal ZP_EOL :: repeat ZoneStatus_UNCONFIGURED 207))
    (TextDescription_EMPTY :: B "front door      " :: repeat TextDescription_EMPTY 206)
    (repeat TextDescription_EMPTY 8) (repeat TextDescription_EMPTY 32).
Example init : TextDescription_new (B "front door") = Ok (B "front door      ") /\
  match init_loop 6 init_state 0 (init_start conn_new) with IDone p => Some (p_state p) | _ => None end = Some init_state.
Proof. split; vm_compute; reflexivity. Qed.

(* state.rs:634-648 follow_activities: each packet arrives, the next poll yields its event *)
Definition activity (p : Panel) (s : bytes) : option (Panel * Event) :=
  match step p (Arrive (Bytes (frame s))) with
  | Ok (p1, _) => match step p1 (PollNext 0) with
                  | Ok (p2, ONext (Ready (Some (IoOk e))) _) =>
                      match e_pkt e with Some (PAscii b) => if beq b s then Some (p2, e) else None | _ => None end
                  | _ => None
                  end
  | _ => None
  end.
Fixpoint activities (p : Panel) (l : list bytes) : list (option (option Change) * bool * option ArmingStatusReport) :=
  match l with
  | [] => []
  | s :: l' =>
      match activity p s with
      | Some (p', e) => (Some (e_change e), match pending_arm p' with Some _ => true | None => false end, s_arming (p_state p')) :: activities p' l'
      | None => [(None, false, None)]
      end
  end.
Definition INITIAL : PanelState :=
  mkState (Some (mkAS (repeat AST_Disarmed 8) (repeat AU_ReadyToArm 8) (repeat AA_NoAlarmActive 8) 0))
    (Some (repeat ZoneStatus_UNCONFIGURED 208)) (repeat TextDescription_EMPTY 208) (repeat TextDescription_EMPTY 8) (repeat TextDescription_EMPTY 32).
Definition test_panel : Panel := mkPanel conn_new INITIAL None Idle.
(* state.rs:650-731: change, pending_arm.is_some(), arming status after each *)
Example follow_arm_with_delay :
  let before := mkAS (repeat AST_Disarmed 8) (repeat AU_ReadyToArm 8) (repeat AA_NoAlarmActive 8) 0 in
  let after := mkAS (AST_ArmedStay :: repeat AST_Disarmed 7) (AU_ArmedFully :: repeat AU_ReadyToArm 7) (repeat AA_NoAlarmActive 8) 0 in
  activities test_panel [B "IC0000000000000010200"; B "LD117300111354021400022200"; B "AS00000000111111110000000000"; B "AM00000000";
    B "AS20000000411111110000000000"; B "AM00000000"; B "AS20000000411111110000000000"] =
  [(Some None, false, Some before); (Some None, false, Some before); (Some None, false, Some before); (Some None, false, Some before);
   (Some None, true, Some before); (Some None, true, Some before); (Some (Some (CArmingStatus before)), false, Some after)].
Proof. vm_compute. reflexivity. Qed.
(* state.rs:733-778: send = poll_ready, start_send, poll_flush *)
Example arm_bad_code : exists code p1 p2 e w,
  ArmCode_try_from_u32 1234 = Ok code /\
  run test_panel [PollReady 0 []; StartSend (CmdArm (mkArmRequest 1 AL_ArmedStay code)); PollFlush [WAccept 1000]] =
    Ok (p1, [OSink (Ready (IoOk tt)); ONone; OSink (Ready (IoOk tt))]) /\
  received 0 (p_conn p1) = Some (MArmRequest (mkArmRequest 1 AL_ArmedStay code)) /\
  (exists r, cmd_state p1 = Busy r true None) /\
  run p1 [Arrive (Bytes (frame (B "IC0001020304140000100"))); PollNext 0] = Ok (p2, [ONone; ONext (Ready (Some (IoOk e))) w]) /\
  (exists c, e_msg e = Some (inl (MSendCode c))) /\ cmd_state p2 = Idle.
Proof.
  eexists _, _, _, _, _. split; [vm_compute; reflexivity|]. split; [vm_compute; reflexivity|]. split; [vm_compute; reflexivity|].
  split; [eexists; vm_compute; reflexivity|]. split; [vm_compute; reflexivity|]. split; [eexists; vm_compute; reflexivity|]. vm_compute. reflexivity.
Qed.
