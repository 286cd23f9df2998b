(* Serde.v: model of what the derived and hand-written Serialize/Deserialize implementations of elkm1 do through serde_json
   (feature "serde").  Definitions only.

   serde and serde_json are not in the sandbox; the derives are modelled from serde's documentation (externally tagged enums,
   rename_all, transparent, Option, Result, arrays) and serde_json's acceptance of structs as either objects or arrays.
   Values stand for JSON text: object keys in order, strings with a flag saying whether the text contains escape sequences,
   numbers that are not natural numbers as VOther.  Error texts are not modelled, nor which of several failures is reported. *)
From Verif Require Export Base Pkt Msg State.

(* what the derives of msg.rs, pkt.rs and state.rs below make *)
Inductive value : Type :=
| VNull
| VBool (b : bool)
| VNum (n : N)
| VOther
| VStr (escaped : bool) (s : bytes)
| VArr (l : list value)
| VObj (l : list (bytes * value)).

(* Where the text is deserialised from: a &str or &[u8] lends out strings that have no escapes; a reader (or an owned Value)
   never does.  Used at msg.rs:683 borrows a &str *)
Inductive source : Type := FromText | FromReader.

(* ---- what serde's derives expand to ---- *)

(* serialising a str: serde_json escapes the quote, the backslash and control characters; reached from elkm1-mqtt/src/main.rs:453 *)
Definition needs_escape (s : bytes) : bool := existsb (fun c => (c <? 32) || (c =? ch """") || (c =? ch "\")) s.
(* e.g. msg.rs:667-675 *)
Definition ser_str (s : bytes) : value := VStr (needs_escape s) s.
(* String; used at e.g. msg.rs:18-19, pkt.rs:202-203 *)
Definition de_str (v : value) : res bytes := match v with VStr _ s => Ok s | _ => Err "invalid type, expected a string" end.
(* &str; used at msg.rs:683 *)
Definition de_borrowed (src : source) (v : value) : res bytes :=
  match src, v with FromText, VStr false s => Ok s | _, _ => Err "invalid type, expected a borrowed string" end.

(* msg.rs:711-715 *)
Definition de_bool (v : value) : res bool := match v with VBool b => Ok b | _ => Err "invalid type, expected a boolean" end.
(* u8; used at e.g. msg.rs:515, 854 *)
Definition de_u8 (v : value) : res N :=
  match v with VNum n => if n <? 256 then Ok n else Err "invalid value, expected u8" | _ => Err "invalid type, expected u8" end.

(* [T; n]; used at e.g. msg.rs:130-135 *)
Definition ser_list {A : Type} (ser : A -> value) (l : list A) : value := VArr (map ser l).
(* e.g. msg.rs:130-135, 401, 1313 *)
Definition de_array {A : Type} (n : nat) (de : value -> res A) (v : value) : res (list A) :=
  match v with
  | VArr l => if (length l =? n)%nat then mapM de l else Err "invalid length"
  | _ => Err "invalid type, expected an array"
  end.
(* Vec<T>; used at pkt.rs:113-122, 353 *)
Definition de_vec {A : Type} (de : value -> res A) (v : value) : res (list A) :=
  match v with VArr l => mapM de l | _ => Err "invalid type, expected a sequence" end.

(* Option<T>; None is null; used at state.rs:473-480 *)
Definition ser_opt {A : Type} (ser : A -> value) (o : option A) : value := match o with Some x => ser x | None => VNull end.
(* state.rs:473-480 *)
Definition de_opt {A : Type} (de : value -> res A) (v : value) : res (option A) :=
  match v with VNull => Ok None | _ => x <- de v ;; Ok (Some x) end.

(* struct { names }: an object with each name at most once, in any order, other keys ignored; or an array of all the fields.
   None is a missing field: an error, or None when the field is an Option.  Used at e.g. msg.rs:114-120 *)
Definition occurrences (k : bytes) (l : list (bytes * value)) : list value :=
  map snd (filter (fun kv => beq (fst kv) k) l).
(* e.g. msg.rs:114-120 *)
Definition de_fields (names : list bytes) (v : value) : res (list (option value)) :=
  match v with
  | VObj l =>
      mapM (fun k => match occurrences k l with
                     | [] => Ok None
                     | [x] => Ok (Some x)
                     | _ => Err "duplicate field"
                     end) names
  | VArr l => if (length l =? length names)%nat then Ok (map Some l) else Err "invalid length"
  | _ => Err "invalid type, expected a struct"
  end.
(* e.g. msg.rs:114-120 *)
Definition field {A : Type} (de : value -> res A) (fs : list (option value)) (i : nat) : res A :=
  match nth_error fs i with Some (Some v) => de v | _ => Err "missing field" end.
(* state.rs:473-480 *)
Definition field_opt {A : Type} (de : value -> res A) (fs : list (option value)) (i : nat) : res (option A) :=
  match nth_error fs i with Some (Some v) => de_opt de v | _ => Ok None end.

(* enum: "name" for a unit variant, {"name": contents} for the others; {"name": null} is also accepted for a unit variant; used at e.g. msg.rs:48-60, 304-308 *)
Definition de_variant (v : value) : res (bytes * option value) :=
  match v with
  | VStr _ s => Ok (s, None)
  | VObj [(k, x)] => Ok (k, Some x)
  | _ => Err "expected an enum"
  end.
(* msg.rs:304-308, 347-351 *)
Definition ser_unit {A : Type} (name : A -> bytes) (x : A) : value := ser_str (name x).
(* msg.rs:304-308, 347-351 *)
Definition de_unit {A : Type} (name : A -> bytes) (all : list A) (v : value) : res A :=
  ' (k, c) <- de_variant v ;;
  match find (fun x => beq (name x) k) all with
  | None => Err "unknown variant"
  | Some x => match c with None | Some VNull => Ok x | _ => Err "invalid type, expected unit variant" end
  end.
(* a newtype or struct variant needs contents; used at e.g. msg.rs:48-60 *)
Definition contents (c : option value) : res value := match c with Some v => Ok v | None => Err "invalid type: unit variant" end.
(* e.g. msg.rs:48-60 *)
Definition tagged (k : bytes) (v : value) : value := VObj [(k, v)].

(* ---- enums (rename_all = "camelCase", from the macros at msg.rs:290-372) ---- *)
(* msg.rs:374-397 ArmLevel *)
Definition ArmLevel_name (v : ArmLevel) : bytes :=
  match v with
  | AL_Disarm => B "disarm"
  | AL_ArmedAway => B "armedAway"
  | AL_ArmedStay => B "armedStay"
  | AL_ArmedStayInstant => B "armedStayInstant"
  | AL_ArmedNight => B "armedNight"
  | AL_ArmedNightInstant => B "armedNightInstant"
  | AL_ArmedVacation => B "armedVacation"
  | AL_ArmToNextAwayMode => B "armToNextAwayMode"
  | AL_ArmToNextStayMode => B "armToNextStayMode"
  | AL_ForceArmToAway => B "forceArmToAway"
  | AL_ForceArmToStay => B "forceArmToStay"
  end.
Definition ArmLevel_all : list ArmLevel :=
  [AL_Disarm; AL_ArmedAway; AL_ArmedStay; AL_ArmedStayInstant; AL_ArmedNight; AL_ArmedNightInstant; AL_ArmedVacation; AL_ArmToNextAwayMode; AL_ArmToNextStayMode; AL_ForceArmToAway; AL_ForceArmToStay].
Definition ArmLevel_ser : ArmLevel -> value := ser_unit ArmLevel_name.
Definition ArmLevel_de : value -> res ArmLevel := de_unit ArmLevel_name ArmLevel_all.

(* msg.rs:457-463 TimeDataType *)
Definition TimeDataType_name (v : TimeDataType) : bytes :=
  match v with
  | TD_Exit => B "exit"
  | TD_Entry => B "entry"
  end.
Definition TimeDataType_all : list TimeDataType :=
  [TD_Exit; TD_Entry].
Definition TimeDataType_ser : TimeDataType -> value := ser_unit TimeDataType_name.
Definition TimeDataType_de : value -> res TimeDataType := de_unit TimeDataType_name TimeDataType_all.

(* msg.rs:465-476 ArmedState *)
Definition ArmedState_name (v : ArmedState) : bytes :=
  match v with
  | ARS_Disarmed => B "disarmed"
  | ARS_ArmedAway => B "armedAway"
  | ARS_ArmedStay => B "armedStay"
  | ARS_ArmedStayInstant => B "armedStayInstant"
  | ARS_ArmedNight => B "armedNight"
  | ARS_ArmedNightInstant => B "armedNightInstant"
  | ARS_ArmedVacation => B "armedVacation"
  end.
Definition ArmedState_all : list ArmedState :=
  [ARS_Disarmed; ARS_ArmedAway; ARS_ArmedStay; ARS_ArmedStayInstant; ARS_ArmedNight; ARS_ArmedNightInstant; ARS_ArmedVacation].
Definition ArmedState_ser : ArmedState -> value := ser_unit ArmedState_name.
Definition ArmedState_de : value -> res ArmedState := de_unit ArmedState_name ArmedState_all.

(* msg.rs:478-489 Weekday *)
Definition Weekday_name (v : Weekday) : bytes :=
  match v with
  | WD_Sun => B "sun"
  | WD_Mon => B "mon"
  | WD_Tue => B "tue"
  | WD_Wed => B "wed"
  | WD_Thu => B "thu"
  | WD_Fri => B "fri"
  | WD_Sat => B "sat"
  end.
Definition Weekday_all : list Weekday :=
  [WD_Sun; WD_Mon; WD_Tue; WD_Wed; WD_Thu; WD_Fri; WD_Sat].
Definition Weekday_ser : Weekday -> value := ser_unit Weekday_name.
Definition Weekday_de : value -> res Weekday := de_unit Weekday_name Weekday_all.

(* msg.rs:491-497 ClockDisplayMode *)
Definition ClockDisplayMode_name (v : ClockDisplayMode) : bytes :=
  match v with
  | CD_TwentyFourHour => B "twentyFourHour"
  | CD_TwelveHour => B "twelveHour"
  end.
Definition ClockDisplayMode_all : list ClockDisplayMode :=
  [CD_TwentyFourHour; CD_TwelveHour].
Definition ClockDisplayMode_ser : ClockDisplayMode -> value := ser_unit ClockDisplayMode_name.
Definition ClockDisplayMode_de : value -> res ClockDisplayMode := de_unit ClockDisplayMode_name ClockDisplayMode_all.

(* msg.rs:499-505 DateDisplayMode *)
Definition DateDisplayMode_name (v : DateDisplayMode) : bytes :=
  match v with
  | DD_MonthFirst => B "monthFirst"
  | DD_DayFirst => B "dayFirst"
  end.
Definition DateDisplayMode_all : list DateDisplayMode :=
  [DD_MonthFirst; DD_DayFirst].
Definition DateDisplayMode_ser : DateDisplayMode -> value := ser_unit DateDisplayMode_name.
Definition DateDisplayMode_de : value -> res DateDisplayMode := de_unit DateDisplayMode_name DateDisplayMode_all.

(* msg.rs:1082-1093 ArmingStatus *)
Definition ArmingStatus_name (v : ArmingStatus) : bytes :=
  match v with
  | AST_Disarmed => B "disarmed"
  | AST_ArmedAway => B "armedAway"
  | AST_ArmedStay => B "armedStay"
  | AST_ArmedStayInstant => B "armedStayInstant"
  | AST_ArmedNight => B "armedNight"
  | AST_ArmedNightInstant => B "armedNightInstant"
  | AST_ArmedVacation => B "armedVacation"
  end.
Definition ArmingStatus_all : list ArmingStatus :=
  [AST_Disarmed; AST_ArmedAway; AST_ArmedStay; AST_ArmedStayInstant; AST_ArmedNight; AST_ArmedNightInstant; AST_ArmedVacation].
Definition ArmingStatus_ser : ArmingStatus -> value := ser_unit ArmingStatus_name.
Definition ArmingStatus_de : value -> res ArmingStatus := de_unit ArmingStatus_name ArmingStatus_all.

(* msg.rs:1095-1106 ArmUpState *)
Definition ArmUpState_name (v : ArmUpState) : bytes :=
  match v with
  | AU_NotReadyToArm => B "notReadyToArm"
  | AU_ReadyToArm => B "readyToArm"
  | AU_ReadyToForceArm => B "readyToForceArm"
  | AU_ArmedWithExitTimer => B "armedWithExitTimer"
  | AU_ArmedFully => B "armedFully"
  | AU_ForceArmedWithForceArmZoneViolated => B "forceArmedWithForceArmZoneViolated"
  | AU_ArmedWithBypass => B "armedWithBypass"
  end.
Definition ArmUpState_all : list ArmUpState :=
  [AU_NotReadyToArm; AU_ReadyToArm; AU_ReadyToForceArm; AU_ArmedWithExitTimer; AU_ArmedFully; AU_ForceArmedWithForceArmZoneViolated; AU_ArmedWithBypass].
Definition ArmUpState_ser : ArmUpState -> value := ser_unit ArmUpState_name.
Definition ArmUpState_de : value -> res ArmUpState := de_unit ArmUpState_name ArmUpState_all.

(* msg.rs:1108-1131 AlarmState *)
Definition AlarmState_name (v : AlarmState) : bytes :=
  match v with
  | AA_NoAlarmActive => B "noAlarmActive"
  | AA_EntranceDelayActive => B "entranceDelayActive"
  | AA_AlarmAbortDelayActive => B "alarmAbortDelayActive"
  | AA_FireAlarm => B "fireAlarm"
  | AA_MedicalAlarm => B "medicalAlarm"
  | AA_PoliceAlarm => B "policeAlarm"
  | AA_BurglarAlarm => B "burglarAlarm"
  | AA_Aux1Alarm => B "aux1Alarm"
  | AA_Aux2Alarm => B "aux2Alarm"
  | AA_Aux3Alarm => B "aux3Alarm"
  | AA_Aux4Alarm => B "aux4Alarm"
  | AA_CarbonMonoxideAlarm => B "carbonMonoxideAlarm"
  | AA_EmergencyAlarm => B "emergencyAlarm"
  | AA_FreezeAlarm => B "freezeAlarm"
  | AA_GasAlarm => B "gasAlarm"
  | AA_HeatAlarm => B "heatAlarm"
  | AA_WaterAlarm => B "waterAlarm"
  | AA_FireSupervisory => B "fireSupervisory"
  | AA_VerifyFire => B "verifyFire"
  end.
Definition AlarmState_all : list AlarmState :=
  [AA_NoAlarmActive; AA_EntranceDelayActive; AA_AlarmAbortDelayActive; AA_FireAlarm; AA_MedicalAlarm; AA_PoliceAlarm; AA_BurglarAlarm; AA_Aux1Alarm; AA_Aux2Alarm; AA_Aux3Alarm; AA_Aux4Alarm; AA_CarbonMonoxideAlarm; AA_EmergencyAlarm; AA_FreezeAlarm; AA_GasAlarm; AA_HeatAlarm; AA_WaterAlarm; AA_FireSupervisory; AA_VerifyFire].
Definition AlarmState_ser : AlarmState -> value := ser_unit AlarmState_name.
Definition AlarmState_de : value -> res AlarmState := de_unit AlarmState_name AlarmState_all.

(* msg.rs:1205-1229 TextDescriptionType *)
Definition TextDescriptionType_name (v : TextDescriptionType) : bytes :=
  match v with
  | TT_Zone => B "zone"
  | TT_Area => B "area"
  | TT_User => B "user"
  | TT_Keypad => B "keypad"
  | TT_Output => B "output"
  | TT_Task => B "task"
  | TT_Telephone => B "telephone"
  | TT_Light => B "light"
  | TT_AlarmDuration => B "alarmDuration"
  | TT_CustomSettings => B "customSettings"
  | TT_Counter => B "counter"
  | TT_Thermostat => B "thermostat"
  | TT_FunctionKey1 => B "functionKey1"
  | TT_FunctionKey2 => B "functionKey2"
  | TT_FunctionKey3 => B "functionKey3"
  | TT_FunctionKey4 => B "functionKey4"
  | TT_FunctionKey5 => B "functionKey5"
  | TT_FunctionKey6 => B "functionKey6"
  | TT_AudioZone => B "audioZone"
  | TT_AudioSource => B "audioSource"
  end.
Definition TextDescriptionType_all : list TextDescriptionType :=
  [TT_Zone; TT_Area; TT_User; TT_Keypad; TT_Output; TT_Task; TT_Telephone; TT_Light; TT_AlarmDuration; TT_CustomSettings; TT_Counter; TT_Thermostat; TT_FunctionKey1; TT_FunctionKey2; TT_FunctionKey3; TT_FunctionKey4; TT_FunctionKey5; TT_FunctionKey6; TT_AudioZone; TT_AudioSource].
Definition TextDescriptionType_ser : TextDescriptionType -> value := ser_unit TextDescriptionType_name.
Definition TextDescriptionType_de : value -> res TextDescriptionType := de_unit TextDescriptionType_name TextDescriptionType_all.

(* ---- transparent wrappers: the contents, without the checks of TryFrom ---- *)
(* msg.rs:515 limited_u8: Zone, Area, Keypad, Task *)
Definition limited_ser (v : N) : value := VNum v.
Definition limited_de : value -> res N := de_u8.
(* msg.rs:401 ArmCode([u8; 6]) *)
Definition ArmCode_ser (c : bytes) : value := ser_list VNum c.
Definition ArmCode_de : value -> res bytes := de_array 6 de_u8.
(* msg.rs:854 ZoneStatus(u8) *)
Definition ZoneStatus_ser (s : N) : value := VNum s.
Definition ZoneStatus_de : value -> res N := de_u8.
(* msg.rs:1313 TextDescription([u8; 16]) *)
Definition TextDescription_ser (t : bytes) : value := ser_list VNum t.
Definition TextDescription_de : value -> res bytes := de_array 16 de_u8.
(* msg.rs:18 Error(String) *)
Definition Error_ser (e : string) : value := ser_str (bytes_of_string e).
Definition Error_de (v : value) : res string := s <- de_str v ;; Ok (string_of_bytes s).
(* pkt.rs:202 AsciiPacket(String), pkt.rs:353 RpPacket(Vec<u8>) *)
Definition AsciiPacket_ser (body : bytes) : value := ser_str body.
Definition AsciiPacket_de : value -> res bytes := de_str.
Definition RpPacket_ser (data : bytes) : value := ser_list VNum data.
Definition RpPacket_de : value -> res bytes := de_vec de_u8.

(* ---- DateTime: msg.rs:667-691 ---- *)
Definition DateTime_ser (d : DateTime) : value := ser_str (to_iso_8601 d).
Definition DateTime_de (src : source) (v : value) : res DateTime := s <- de_borrowed src v ;; from_iso_8601 s.
(* ---- ZoneStatusReport: msg.rs:1007-1025, both todo!() ---- *)
Definition ZoneStatusReport_ser (z : list N) : res value := Panic "not yet implemented".
Definition ZoneStatusReport_de (v : value) : res (list N) := Panic "not yet implemented".

(* ---- structs ---- *)
(* msg.rs:707-715 RtcData: no rename_all *)
Definition RtcData_fields : list bytes := [B "datetime"; B "weekday"; B "dst"; B "clock_display"; B "date_display"].
Definition RtcData_ser (r : RtcData) : value :=
  VObj (combine RtcData_fields
    [DateTime_ser (datetime r); Weekday_ser (weekday r); VBool (dst r);
     ClockDisplayMode_ser (clock_display r); DateDisplayMode_ser (date_display r)]).
Definition RtcData_de (src : source) (v : value) : res RtcData :=
  fs <- de_fields RtcData_fields v ;;
  d <- field (DateTime_de src) fs 0 ;;
  w <- field Weekday_de fs 1 ;;
  b <- field de_bool fs 2 ;;
  cd <- field ClockDisplayMode_de fs 3 ;;
  dd <- field DateDisplayMode_de fs 4 ;;
  Ok (mkRtcData d w b cd dd).

(* msg.rs:115-120 *)
Definition ArmRequest_fields : list bytes := [B "area"; B "level"; B "code"].
Definition ArmRequest_ser (m : ArmRequest) : value :=
  VObj (combine ArmRequest_fields [limited_ser (ar_area m); ArmLevel_ser (ar_level m); ArmCode_ser (ar_code m)]).
Definition ArmRequest_de (v : value) : res ArmRequest :=
  fs <- de_fields ArmRequest_fields v ;;
  a <- field limited_de fs 0 ;;
  l <- field ArmLevel_de fs 1 ;;
  c <- field ArmCode_de fs 2 ;;
  Ok (mkArmRequest a l c).

(* msg.rs:124-125, 172-174, 230-232: the structs without fields *)
Definition empty_ser : value := VObj [].
Definition empty_de (v : value) : res unit := _ <- de_fields [] v ;; Ok tt.

(* msg.rs:129-135 *)
Definition ArmingStatusReport_fields : list bytes := [B "armingStatus"; B "upState"; B "alarmState"; B "firstExitTime"].
Definition ArmingStatusReport_ser (m : ArmingStatusReport) : value :=
  VObj (combine ArmingStatusReport_fields
    [ser_list ArmingStatus_ser (arming_status m); ser_list ArmUpState_ser (up_state m);
     ser_list AlarmState_ser (alarm_state m); VNum (first_exit_time m)]).
Definition ArmingStatusReport_de (v : value) : res ArmingStatusReport :=
  fs <- de_fields ArmingStatusReport_fields v ;;
  s <- field (de_array NUM_AREAS ArmingStatus_de) fs 0 ;;
  u <- field (de_array NUM_AREAS ArmUpState_de) fs 1 ;;
  a <- field (de_array NUM_AREAS AlarmState_de) fs 2 ;;
  t <- field de_u8 fs 3 ;;
  Ok (mkAS s u a t).

(* msg.rs:139-149 *)
Definition SendTimeData_fields : list bytes := [B "area"; B "ty"; B "timer1"; B "timer2"; B "armedState"].
Definition SendTimeData_ser (m : SendTimeData) : value :=
  VObj (combine SendTimeData_fields
    [limited_ser (ee_area m); TimeDataType_ser (ee_ty m); VNum (ee_timer1 m); VNum (ee_timer2 m);
     ser_opt ArmedState_ser (ee_armed_state m)]).
Definition SendTimeData_de (v : value) : res SendTimeData :=
  fs <- de_fields SendTimeData_fields v ;;
  a <- field limited_de fs 0 ;;
  ty <- field TimeDataType_de fs 1 ;;
  t1 <- field de_u8 fs 2 ;;
  t2 <- field de_u8 fs 3 ;;
  s <- field_opt ArmedState_de fs 4 ;;
  Ok (mkEE a ty t1 t2 s).

(* msg.rs:153-168 *)
Definition SendCode_fields : list bytes := [B "code"; B "user"; B "keypad"].
Definition SendCode_ser (m : SendCode) : value :=
  VObj (combine SendCode_fields [ser_list VNum (ic_code m); VNum (ic_user m); limited_ser (ic_keypad m)]).
Definition SendCode_de (v : value) : res SendCode :=
  fs <- de_fields SendCode_fields v ;;
  c <- field (de_array 6 de_u8) fs 0 ;;
  u <- field de_u8 fs 1 ;;
  k <- field limited_de fs 2 ;;
  Ok (mkIC c u k).

(* msg.rs:178-181 RtcResponse and 216-219 Heartbeat *)
Definition Rtc_fields : list bytes := [B "rtcData"].
Definition Rtc_ser (r : RtcData) : value := VObj (combine Rtc_fields [RtcData_ser r]).
Definition Rtc_de (src : source) (v : value) : res RtcData := fs <- de_fields Rtc_fields v ;; field (RtcData_de src) fs 0.

(* msg.rs:185-189 *)
Definition SdReq_fields : list bytes := [B "ty"; B "num"].
Definition SdReq_ser (m : StringDescriptionRequest) : value :=
  VObj (combine SdReq_fields [TextDescriptionType_ser (sdq_ty m); VNum (sdq_num m)]).
Definition SdReq_de (v : value) : res StringDescriptionRequest :=
  fs <- de_fields SdReq_fields v ;;
  ty <- field TextDescriptionType_de fs 0 ;;
  n <- field de_u8 fs 1 ;;
  Ok (mkSdReq ty n).

(* msg.rs:193-198 *)
Definition SdResp_fields : list bytes := [B "ty"; B "num"; B "text"].
Definition SdResp_ser (m : StringDescriptionResponse) : value :=
  VObj (combine SdResp_fields [TextDescriptionType_ser (sd_ty m); VNum (sd_num m); TextDescription_ser (sd_text m)]).
Definition SdResp_de (v : value) : res StringDescriptionResponse :=
  fs <- de_fields SdResp_fields v ;;
  ty <- field TextDescriptionType_de fs 0 ;;
  n <- field de_u8 fs 1 ;;
  t <- field TextDescription_de fs 2 ;;
  Ok (mkSdResp ty n t).

(* msg.rs:202-205 ActivateTask and 209-212 TaskChange *)
Definition Task_fields : list bytes := [B "task"].
Definition Task_ser (t : N) : value := VObj (combine Task_fields [limited_ser t]).
Definition Task_de (v : value) : res N := fs <- de_fields Task_fields v ;; field limited_de fs 0.

(* msg.rs:223-227 *)
Definition ZoneChange_fields : list bytes := [B "zone"; B "status"].
Definition ZoneChange_ser (m : ZoneChange) : value :=
  VObj (combine ZoneChange_fields [limited_ser (zc_zone m); ZoneStatus_ser (zc_status m)]).
Definition ZoneChange_de (v : value) : res ZoneChange :=
  fs <- de_fields ZoneChange_fields v ;;
  z <- field limited_de fs 0 ;;
  s <- field ZoneStatus_de fs 1 ;;
  Ok (mkZC z s).

(* ---- msg.rs:48-60 Message ---- *)
Definition Message_ser (m : message) : res value :=
  match m with
  | MArmRequest m => Ok (tagged (B "armRequest") (ArmRequest_ser m))
  | MArmingStatusRequest => Ok (tagged (B "armingStatusRequest") empty_ser)
  | MArmingStatusReport m => Ok (tagged (B "armingStatusReport") (ArmingStatusReport_ser m))
  | MSendTimeData m => Ok (tagged (B "sendTimeData") (SendTimeData_ser m))
  | MSendCode m => Ok (tagged (B "sendCode") (SendCode_ser m))
  | MRtcRequest => Ok (tagged (B "rtcRequest") empty_ser)
  | MRtcResponse m => Ok (tagged (B "rtcResponse") (Rtc_ser m))
  | MStringDescriptionRequest m => Ok (tagged (B "stringDescriptionRequest") (SdReq_ser m))
  | MStringDescriptionResponse m => Ok (tagged (B "stringDescriptionResponse") (SdResp_ser m))
  | MActivateTask t => Ok (tagged (B "activateTask") (Task_ser t))
  | MTaskChange t => Ok (tagged (B "taskChange") (Task_ser t))
  | MHeartbeat m => Ok (tagged (B "heartbeat") (Rtc_ser m))
  | MZoneChange m => Ok (tagged (B "zoneChange") (ZoneChange_ser m))
  | MZoneStatusRequest => Ok (tagged (B "zoneStatusRequest") empty_ser)
  | MZoneStatusReport z => v <- ZoneStatusReport_ser z ;; Ok (tagged (B "zoneStatusReport") v)
  end.
Definition Message_de (src : source) (v : value) : res message :=
  ' (k, c) <- de_variant v ;;
  if beq k (B "armRequest") then x <- contents c ;; m <- ArmRequest_de x ;; Ok (MArmRequest m)
  else if beq k (B "armingStatusRequest") then x <- contents c ;; _ <- empty_de x ;; Ok MArmingStatusRequest
  else if beq k (B "armingStatusReport") then x <- contents c ;; m <- ArmingStatusReport_de x ;; Ok (MArmingStatusReport m)
  else if beq k (B "sendTimeData") then x <- contents c ;; m <- SendTimeData_de x ;; Ok (MSendTimeData m)
  else if beq k (B "sendCode") then x <- contents c ;; m <- SendCode_de x ;; Ok (MSendCode m)
  else if beq k (B "rtcRequest") then x <- contents c ;; _ <- empty_de x ;; Ok MRtcRequest
  else if beq k (B "rtcResponse") then x <- contents c ;; m <- Rtc_de src x ;; Ok (MRtcResponse m)
  else if beq k (B "stringDescriptionRequest") then x <- contents c ;; m <- SdReq_de x ;; Ok (MStringDescriptionRequest m)
  else if beq k (B "stringDescriptionResponse") then x <- contents c ;; m <- SdResp_de x ;; Ok (MStringDescriptionResponse m)
  else if beq k (B "activateTask") then x <- contents c ;; m <- Task_de x ;; Ok (MActivateTask m)
  else if beq k (B "taskChange") then x <- contents c ;; m <- Task_de x ;; Ok (MTaskChange m)
  else if beq k (B "heartbeat") then x <- contents c ;; m <- Rtc_de src x ;; Ok (MHeartbeat m)
  else if beq k (B "zoneChange") then x <- contents c ;; m <- ZoneChange_de x ;; Ok (MZoneChange m)
  else if beq k (B "zoneStatusRequest") then x <- contents c ;; _ <- empty_de x ;; Ok MZoneStatusRequest
  else if beq k (B "zoneStatusReport") then x <- contents c ;; m <- ZoneStatusReport_de x ;; Ok (MZoneStatusReport m)
  else Err "unknown variant".

(* ---- packets: pkt.rs:19-29, 113-122 ---- *)
Definition InvalidPacket_fields : list bytes := [B "reason"; B "raw"].
Definition Packet_ser (p : packet) : value :=
  match p with
  | PAscii body => tagged (B "ascii") (AsciiPacket_ser body)
  | PRp data => tagged (B "rp") (RpPacket_ser data)
  | PInvalid raw reason =>
      tagged (B "invalid") (VObj (combine InvalidPacket_fields [ser_str (bytes_of_string reason); ser_list VNum raw]))
  end.
Definition InvalidPacket_de (v : value) : res packet :=
  fs <- de_fields InvalidPacket_fields v ;;
  reason <- field de_str fs 0 ;;
  raw <- field (de_vec de_u8) fs 1 ;;
  Ok (PInvalid raw (string_of_bytes reason)).
Definition Packet_de (v : value) : res packet :=
  ' (k, c) <- de_variant v ;;
  if beq k (B "ascii") then x <- contents c ;; s <- AsciiPacket_de x ;; Ok (PAscii s)
  else if beq k (B "rp") then x <- contents c ;; s <- RpPacket_de x ;; Ok (PRp s)
  else if beq k (B "invalid") then x <- contents c ;; InvalidPacket_de x
  else Err "unknown variant".

(* ---- state.rs:490-505 Change ---- *)
Definition CZone_fields : list bytes := [B "zone"; B "prior"].
Definition CArming_fields : list bytes := [B "prior"].
Definition Change_ser (c : Change) : value :=
  match c with
  | CZoneChange zone prior => tagged (B "zoneChange") (VObj (combine CZone_fields [limited_ser zone; ZoneStatus_ser prior]))
  | CArmingStatus prior => tagged (B "armingStatus") (VObj (combine CArming_fields [ArmingStatusReport_ser prior]))
  end.
Definition Change_de (v : value) : res Change :=
  ' (k, c) <- de_variant v ;;
  if beq k (B "zoneChange") then
    x <- contents c ;; fs <- de_fields CZone_fields x ;;
    z <- field limited_de fs 0 ;; p <- field ZoneStatus_de fs 1 ;; Ok (CZoneChange z p)
  else if beq k (B "armingStatus") then
    x <- contents c ;; fs <- de_fields CArming_fields x ;; p <- field ArmingStatusReport_de fs 0 ;; Ok (CArmingStatus p)
  else Err "unknown variant".

(* Result<Message, Error>: serde's own implementation, variants Ok and Err; used at state.rs:475 *)
Definition Outcome_ser (r : message + string) : res value :=
  match r with
  | inl m => v <- Message_ser m ;; Ok (tagged (B "Ok") v)
  | inr e => Ok (tagged (B "Err") (Error_ser e))
  end.
(* state.rs:475 *)
Definition Outcome_de (src : source) (v : value) : res (message + string) :=
  ' (k, c) <- de_variant v ;;
  if beq k (B "Ok") then x <- contents c ;; m <- Message_de src x ;; Ok (inl m)
  else if beq k (B "Err") then x <- contents c ;; e <- Error_de x ;; Ok (inr e)
  else Err "unknown variant".
(* state.rs:474-479 *)
Definition ser_opt_res {A : Type} (ser : A -> res value) (o : option A) : res value :=
  match o with Some x => ser x | None => Ok VNull end.

(* ---- state.rs:467-480 Event ---- *)
Definition Event_fields : list bytes := [B "pkt"; B "msg"; B "completes"; B "change"].
Definition Event_ser (e : Event) : res value :=
  m <- ser_opt_res Outcome_ser (e_msg e) ;;
  c <- ser_opt_res Message_ser (e_completes e) ;;
  Ok (VObj (combine Event_fields [ser_opt Packet_ser (e_pkt e); m; c; ser_opt Change_ser (e_change e)])).
Definition Event_de (src : source) (v : value) : res Event :=
  fs <- de_fields Event_fields v ;;
  p <- field_opt Packet_de fs 0 ;;
  m <- field_opt (Outcome_de src) fs 1 ;;
  c <- field_opt (Message_de src) fs 2 ;;
  ch <- field_opt Change_de fs 3 ;;
  Ok (mkEvent p m c ch).
