(* FmtMsg.v: what the Debug and Display implementations of messages and packets write: /repo/elkm1/src/{msg,pkt}.rs.  Definitions only.

   The value is the structure handed to std's Formatter (names, fields, elements in order), not the characters: std's layout
   (`{:?}` on one line, `{:#?}` indented), its quoting of strings and pretty_hex's dumps are outside /repo (Layout.v has the first two).
   A derived implementation hands over the type's or variant's name and all fields in declaration order.
   A Panic is a panic inside `fmt`. *)
From Verif Require Import Base Pkt Msg.
From Coq Require Import String.
Open Scope string_scope.
Open Scope N_scope.
Open Scope list_scope.

(* what e.g. msg.rs:53, 860-867, 1027-1038, pkt.rs:136-145 hand to std *)
Inductive dbg : Type :=
| DNum (n : N)
| DBool (b : bool)
| DStr (s : bytes)                                   (* a str or String, quoted and escaped *)
| DText (s : string)                                 (* the same, for the texts that are Coq strings in the model *)
| DHex (b : bytes)                                   (* pretty_hex's hex_dump() *)
| DWord (name : string)                              (* a unit variant, or a struct without fields *)
| DTuple (name : string) (fields : list dbg)         (* debug_tuple *)
| DStruct (name : string) (fields : list (string * dbg))   (* debug_struct *)
| DList (l : list dbg)                               (* arrays *)
| DMap (l : list (N * dbg)).                         (* debug_map; the keys are numbers *)

(* Option and Result (std); used at state.rs:472-480 *)
Definition dbg_option {A : Type} (d : A -> res dbg) (o : option A) : res dbg :=
  match o with Some x => v <- d x ;; Ok (DTuple "Some" [v]) | None => Ok (DWord "None") end.

(* ---- msg.rs:309, 352 derive(Debug) on the enums that byte_enum! and num_enum! define ---- *)
(* msg.rs:374-397 *)
Definition ArmLevel_dbg (v : ArmLevel) : dbg :=
  DWord match v with
  | AL_Disarm => "Disarm"
  | AL_ArmedAway => "ArmedAway"
  | AL_ArmedStay => "ArmedStay"
  | AL_ArmedStayInstant => "ArmedStayInstant"
  | AL_ArmedNight => "ArmedNight"
  | AL_ArmedNightInstant => "ArmedNightInstant"
  | AL_ArmedVacation => "ArmedVacation"
  | AL_ArmToNextAwayMode => "ArmToNextAwayMode"
  | AL_ArmToNextStayMode => "ArmToNextStayMode"
  | AL_ForceArmToAway => "ForceArmToAway"
  | AL_ForceArmToStay => "ForceArmToStay"
  end.
(* msg.rs:457-463 *)
Definition TimeDataType_dbg (v : TimeDataType) : dbg :=
  DWord match v with
  | TD_Exit => "Exit"
  | TD_Entry => "Entry"
  end.
(* msg.rs:465-476 *)
Definition ArmedState_dbg (v : ArmedState) : dbg :=
  DWord match v with
  | ARS_Disarmed => "Disarmed"
  | ARS_ArmedAway => "ArmedAway"
  | ARS_ArmedStay => "ArmedStay"
  | ARS_ArmedStayInstant => "ArmedStayInstant"
  | ARS_ArmedNight => "ArmedNight"
  | ARS_ArmedNightInstant => "ArmedNightInstant"
  | ARS_ArmedVacation => "ArmedVacation"
  end.
(* msg.rs:478-489 *)
Definition Weekday_dbg (v : Weekday) : dbg :=
  DWord match v with
  | WD_Sun => "Sun"
  | WD_Mon => "Mon"
  | WD_Tue => "Tue"
  | WD_Wed => "Wed"
  | WD_Thu => "Thu"
  | WD_Fri => "Fri"
  | WD_Sat => "Sat"
  end.
(* msg.rs:491-497 *)
Definition ClockDisplayMode_dbg (v : ClockDisplayMode) : dbg :=
  DWord match v with
  | CD_TwentyFourHour => "TwentyFourHour"
  | CD_TwelveHour => "TwelveHour"
  end.
(* msg.rs:499-505 *)
Definition DateDisplayMode_dbg (v : DateDisplayMode) : dbg :=
  DWord match v with
  | DD_MonthFirst => "MonthFirst"
  | DD_DayFirst => "DayFirst"
  end.
(* msg.rs:1082-1093 *)
Definition ArmingStatus_dbg (v : ArmingStatus) : dbg :=
  DWord match v with
  | AST_Disarmed => "Disarmed"
  | AST_ArmedAway => "ArmedAway"
  | AST_ArmedStay => "ArmedStay"
  | AST_ArmedStayInstant => "ArmedStayInstant"
  | AST_ArmedNight => "ArmedNight"
  | AST_ArmedNightInstant => "ArmedNightInstant"
  | AST_ArmedVacation => "ArmedVacation"
  end.
(* msg.rs:1095-1106 *)
Definition ArmUpState_dbg (v : ArmUpState) : dbg :=
  DWord match v with
  | AU_NotReadyToArm => "NotReadyToArm"
  | AU_ReadyToArm => "ReadyToArm"
  | AU_ReadyToForceArm => "ReadyToForceArm"
  | AU_ArmedWithExitTimer => "ArmedWithExitTimer"
  | AU_ArmedFully => "ArmedFully"
  | AU_ForceArmedWithForceArmZoneViolated => "ForceArmedWithForceArmZoneViolated"
  | AU_ArmedWithBypass => "ArmedWithBypass"
  end.
(* msg.rs:1108-1131 *)
Definition AlarmState_dbg (v : AlarmState) : dbg :=
  DWord match v with
  | AA_NoAlarmActive => "NoAlarmActive"
  | AA_EntranceDelayActive => "EntranceDelayActive"
  | AA_AlarmAbortDelayActive => "AlarmAbortDelayActive"
  | AA_FireAlarm => "FireAlarm"
  | AA_MedicalAlarm => "MedicalAlarm"
  | AA_PoliceAlarm => "PoliceAlarm"
  | AA_BurglarAlarm => "BurglarAlarm"
  | AA_Aux1Alarm => "Aux1Alarm"
  | AA_Aux2Alarm => "Aux2Alarm"
  | AA_Aux3Alarm => "Aux3Alarm"
  | AA_Aux4Alarm => "Aux4Alarm"
  | AA_CarbonMonoxideAlarm => "CarbonMonoxideAlarm"
  | AA_EmergencyAlarm => "EmergencyAlarm"
  | AA_FreezeAlarm => "FreezeAlarm"
  | AA_GasAlarm => "GasAlarm"
  | AA_HeatAlarm => "HeatAlarm"
  | AA_WaterAlarm => "WaterAlarm"
  | AA_FireSupervisory => "FireSupervisory"
  | AA_VerifyFire => "VerifyFire"
  end.
(* msg.rs:1205-1229 *)
Definition TextDescriptionType_dbg (v : TextDescriptionType) : dbg :=
  DWord match v with
  | TT_Zone => "Zone"
  | TT_Area => "Area"
  | TT_User => "User"
  | TT_Keypad => "Keypad"
  | TT_Output => "Output"
  | TT_Task => "Task"
  | TT_Telephone => "Telephone"
  | TT_Light => "Light"
  | TT_AlarmDuration => "AlarmDuration"
  | TT_CustomSettings => "CustomSettings"
  | TT_Counter => "Counter"
  | TT_Thermostat => "Thermostat"
  | TT_FunctionKey1 => "FunctionKey1"
  | TT_FunctionKey2 => "FunctionKey2"
  | TT_FunctionKey3 => "FunctionKey3"
  | TT_FunctionKey4 => "FunctionKey4"
  | TT_FunctionKey5 => "FunctionKey5"
  | TT_FunctionKey6 => "FunctionKey6"
  | TT_AudioZone => "AudioZone"
  | TT_AudioSource => "AudioSource"
  end.

(* msg.rs:923-930 *)
Definition ZonePhysicalStatus_dbg (v : ZonePhysicalStatus) : dbg :=
  DWord match v with ZP_Unconfigured => "Unconfigured" | ZP_Open => "Open" | ZP_EOL => "EOL" | ZP_Short => "Short" end.
(* msg.rs:933-940 *)
Definition ZoneLogicalStatus_dbg (v : ZoneLogicalStatus) : dbg :=
  DWord match v with ZL_Normal => "Normal" | ZL_Trouble => "Trouble" | ZL_Violated => "Violated" | ZL_Bypassed => "Bypassed" end.

(* ---- msg.rs ---- *)
(* msg.rs:404-409 ArmCode.  `as_str.fmt(f)` is Debug's fmt: the trait being implemented is the one in scope. *)
Definition ArmCode_dbg (c : bytes) : res dbg :=
  if utf8_valid c then Ok (DStr c) else Panic "ArmCode is valid UTF-8".
(* msg.rs:535-539 limited_u8!, and u8 itself *)
Definition limited_dbg (n : N) : dbg := DNum n.
(* msg.rs:541-545 limited_u8! Display *)
Definition limited_display (n : N) : bytes := fmt_dec n.
(* msg.rs:693-697 DateTime *)
Definition DateTime_dbg (d : DateTime) : dbg := DStr (to_iso_8601 d).
(* msg.rs:699-703 DateTime Display *)
Definition DateTime_display (d : DateTime) : bytes := to_iso_8601 d.
(* msg.rs:706-715 RtcData *)
Definition RtcData_dbg (r : RtcData) : dbg :=
  DStruct "RtcData" [("datetime", DateTime_dbg (datetime r)); ("weekday", Weekday_dbg (weekday r)); ("dst", DBool (dst r));
    ("clock_display", ClockDisplayMode_dbg (clock_display r)); ("date_display", DateDisplayMode_dbg (date_display r))].
(* msg.rs:860-867 ZoneStatus *)
Definition ZoneStatus_dbg (s : N) : res dbg :=
  l <- ZoneStatus_logical s ;;
  p <- ZoneStatus_physical s ;;
  Ok (DTuple "ZoneStatus" [ZoneLogicalStatus_dbg l; ZonePhysicalStatus_dbg p]).
(* iter().enumerate().filter_map(..) into debug_map().entries(..): `skip` says which elements are left out, i is the index *)
Fixpoint dbg_entries {A : Type} (skip : A -> res bool) (d : A -> res dbg) (i : N) (l : list A) : res (list (N * dbg)) :=
  match l with
  | [] => Ok []
  | x :: l' =>
      b <- skip x ;;
      if b : bool then dbg_entries skip d (i + 1) l'
      else v <- d x ;; r <- dbg_entries skip d (i + 1) l' ;; Ok ((i + 1, v) :: r)
  end.
(* msg.rs:1027-1038 ZoneStatusReport *)
Definition ZoneStatusReport_dbg (zones : list N) : res dbg :=
  e <- dbg_entries (fun s => Ok (s =? 0)) ZoneStatus_dbg 0 zones ;; Ok (DMap e).
(* msg.rs:1396-1400 TextDescription, through Deref (:1402-1409) *)
Definition TextDescription_dbg (t : bytes) : res dbg :=
  s <- TextDescription_as_str t ;; Ok (DStr s).
(* msg.rs:1363-1374 TextDescriptions *)
Definition TextDescriptions_dbg (l : list bytes) : res dbg :=
  e <- dbg_entries TextDescription_is_empty TextDescription_dbg 0 l ;; Ok (DMap e).
(* msg.rs:114-119 ArmRequest *)
Definition ArmRequest_dbg (m : ArmRequest) : res dbg :=
  c <- ArmCode_dbg (ar_code m) ;;
  Ok (DStruct "ArmRequest" [("area", limited_dbg (ar_area m)); ("level", ArmLevel_dbg (ar_level m)); ("code", c)]).
(* msg.rs:128-135 ArmingStatusReport *)
Definition ArmingStatusReport_dbg (m : ArmingStatusReport) : dbg :=
  DStruct "ArmingStatusReport" [("arming_status", DList (map ArmingStatus_dbg (arming_status m)));
    ("up_state", DList (map ArmUpState_dbg (up_state m))); ("alarm_state", DList (map AlarmState_dbg (alarm_state m)));
    ("first_exit_time", DNum (first_exit_time m))].
(* msg.rs:138-149 SendTimeData *)
Definition SendTimeData_dbg (m : SendTimeData) : res dbg :=
  a <- dbg_option (fun s => Ok (ArmedState_dbg s)) (ee_armed_state m) ;;
  Ok (DStruct "SendTimeData" [("area", limited_dbg (ee_area m)); ("ty", TimeDataType_dbg (ee_ty m)); ("timer1", DNum (ee_timer1 m));
    ("timer2", DNum (ee_timer2 m)); ("armed_state", a)]).
(* msg.rs:152-168 SendCode *)
Definition SendCode_dbg (m : SendCode) : dbg :=
  DStruct "SendCode" [("code", DList (map DNum (ic_code m))); ("user", DNum (ic_user m)); ("keypad", limited_dbg (ic_keypad m))].
(* msg.rs:177-181 RtcResponse, :215-219 Heartbeat *)
Definition RtcResponse_dbg (r : RtcData) : dbg := DStruct "RtcResponse" [("rtc_data", RtcData_dbg r)].
Definition Heartbeat_dbg (r : RtcData) : dbg := DStruct "Heartbeat" [("rtc_data", RtcData_dbg r)].
(* msg.rs:184-189 StringDescriptionRequest *)
Definition StringDescriptionRequest_dbg (m : StringDescriptionRequest) : dbg :=
  DStruct "StringDescriptionRequest" [("ty", TextDescriptionType_dbg (sdq_ty m)); ("num", DNum (sdq_num m))].
(* msg.rs:192-198 StringDescriptionResponse *)
Definition StringDescriptionResponse_dbg (m : StringDescriptionResponse) : res dbg :=
  t <- TextDescription_dbg (sd_text m) ;;
  Ok (DStruct "StringDescriptionResponse" [("ty", TextDescriptionType_dbg (sd_ty m)); ("num", DNum (sd_num m)); ("text", t)]).
(* msg.rs:201-205 ActivateTask, :208-212 TaskChange *)
Definition ActivateTask_dbg (t : N) : dbg := DStruct "ActivateTask" [("task", limited_dbg t)].
Definition TaskChange_dbg (t : N) : dbg := DStruct "TaskChange" [("task", limited_dbg t)].
(* msg.rs:222-227 ZoneChange *)
Definition ZoneChange_dbg (m : ZoneChange) : res dbg :=
  s <- ZoneStatus_dbg (zc_status m) ;;
  Ok (DStruct "ZoneChange" [("zone", limited_dbg (zc_zone m)); ("status", s)]).
(* msg.rs:53-60 Message; :123-125, 171-174, 230-232 the structs without fields *)
Definition Message_dbg (m : message) : res dbg :=
  match m with
  | MArmRequest m => d <- ArmRequest_dbg m ;; Ok (DTuple "ArmRequest" [d])
  | MArmingStatusRequest => Ok (DTuple "ArmingStatusRequest" [DWord "ArmingStatusRequest"])
  | MArmingStatusReport m => Ok (DTuple "ArmingStatusReport" [ArmingStatusReport_dbg m])
  | MSendTimeData m => d <- SendTimeData_dbg m ;; Ok (DTuple "SendTimeData" [d])
  | MSendCode m => Ok (DTuple "SendCode" [SendCode_dbg m])
  | MRtcRequest => Ok (DTuple "RtcRequest" [DWord "RtcRequest"])
  | MRtcResponse r => Ok (DTuple "RtcResponse" [RtcResponse_dbg r])
  | MStringDescriptionRequest m => Ok (DTuple "StringDescriptionRequest" [StringDescriptionRequest_dbg m])
  | MStringDescriptionResponse m => d <- StringDescriptionResponse_dbg m ;; Ok (DTuple "StringDescriptionResponse" [d])
  | MActivateTask t => Ok (DTuple "ActivateTask" [ActivateTask_dbg t])
  | MTaskChange t => Ok (DTuple "TaskChange" [TaskChange_dbg t])
  | MHeartbeat r => Ok (DTuple "Heartbeat" [Heartbeat_dbg r])
  | MZoneChange m => d <- ZoneChange_dbg m ;; Ok (DTuple "ZoneChange" [d])
  | MZoneStatusRequest => Ok (DTuple "ZoneStatusRequest" [DWord "ZoneStatusRequest"])
  | MZoneStatusReport z => d <- ZoneStatusReport_dbg z ;; Ok (DTuple "ZoneStatusReport" [d])
  end.
(* msg.rs:17-19 Error(String) *)
Definition Error_dbg (e : string) : dbg := DTuple "Error" [DText e].
(* Result<Message, Error> *)
Definition Outcome_dbg (o : message + string) : res dbg :=
  match o with inl m => d <- Message_dbg m ;; Ok (DTuple "Ok" [d]) | inr e => Ok (DTuple "Err" [Error_dbg e]) end.

(* ---- pkt.rs ---- *)
(* pkt.rs:201-203 AsciiPacket(String), :472-476 RpPacket, :136-143 InvalidPacket, :19-29 Packet *)
Definition AsciiPacket_dbg (body : bytes) : dbg := DTuple "AsciiPacket" [DStr body].
Definition RpPacket_dbg (data : bytes) : dbg := DTuple "RpPacket" [DHex data].
Definition InvalidPacket_dbg (raw : bytes) (reason : string) : dbg :=
  DStruct "InvalidPacket" [("reason", DText reason); ("raw", DHex raw)].
Definition Packet_dbg (p : packet) : dbg :=
  match p with
  | PAscii b => DTuple "Ascii" [AsciiPacket_dbg b]
  | PRp d => DTuple "Rp" [RpPacket_dbg d]
  | PInvalid raw reason => DTuple "Invalid" [InvalidPacket_dbg raw reason]
  end.
