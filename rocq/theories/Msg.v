(* Msg.v: model of elkm1/src/msg.rs (messages and their ASCII encodings).  Definitions only.

   Representation: a value of a Rust type with private contents (Zone, ArmCode, ZoneStatus,
   TextDescription, DateTime, ...) is represented by its contents; the ranges that Rust's types or the
   checked constructors guarantee are stated separately, in SpecMsg.v (wf_message). *)
From Verif Require Export Pkt.

(* msg.rs:29-34 parse_u8_dec *)
Definition parse_u8_dec (name : string) (val : bytes) : res N :=
  if utf8_valid val then
    match from_str_dec 255 val with
    | Some n => Ok n
    | None => Err (name ++ " expected to be decimal in [0, 255); got " ++ show_slice val)
    end
  else Err (name ++ " expected to be decimal in [0, 255); was bad utf-8").
Arguments parse_u8_dec name%string val.

(* msg.rs:374-397 byte_enum ArmLevel, with its discriminants (`as u8`) and TryFrom<u8> *)
Inductive ArmLevel : Type :=
| AL_Disarm
| AL_ArmedAway
| AL_ArmedStay
| AL_ArmedStayInstant
| AL_ArmedNight
| AL_ArmedNightInstant
| AL_ArmedVacation
| AL_ArmToNextAwayMode
| AL_ArmToNextStayMode
| AL_ForceArmToAway
| AL_ForceArmToStay.
Definition ArmLevel_u8 (v : ArmLevel) : N :=
  match v with
  | AL_Disarm => ch "0"
  | AL_ArmedAway => ch "1"
  | AL_ArmedStay => ch "2"
  | AL_ArmedStayInstant => ch "3"
  | AL_ArmedNight => ch "4"
  | AL_ArmedNightInstant => ch "5"
  | AL_ArmedVacation => ch "6"
  | AL_ArmToNextAwayMode => ch "7"
  | AL_ArmToNextStayMode => ch "8"
  | AL_ForceArmToAway => ch "9"
  | AL_ForceArmToStay => ch ":"
  end.
Definition ArmLevel_try_from (b : N) : res ArmLevel :=
  if b =? ch "0" then Ok AL_Disarm
  else if b =? ch "1" then Ok AL_ArmedAway
  else if b =? ch "2" then Ok AL_ArmedStay
  else if b =? ch "3" then Ok AL_ArmedStayInstant
  else if b =? ch "4" then Ok AL_ArmedNight
  else if b =? ch "5" then Ok AL_ArmedNightInstant
  else if b =? ch "6" then Ok AL_ArmedVacation
  else if b =? ch "7" then Ok AL_ArmToNextAwayMode
  else if b =? ch "8" then Ok AL_ArmToNextStayMode
  else if b =? ch "9" then Ok AL_ForceArmToAway
  else if b =? ch ":" then Ok AL_ForceArmToStay
  else Err ("bad ArmLevel " ++ show_char b).
Definition ArmLevel_eqb (a b : ArmLevel) : bool := ArmLevel_u8 a =? ArmLevel_u8 b.

(* msg.rs:457-463 byte_enum TimeDataType, with its discriminants (`as u8`) and TryFrom<u8> *)
Inductive TimeDataType : Type :=
| TD_Exit
| TD_Entry.
Definition TimeDataType_u8 (v : TimeDataType) : N :=
  match v with
  | TD_Exit => ch "0"
  | TD_Entry => ch "1"
  end.
Definition TimeDataType_try_from (b : N) : res TimeDataType :=
  if b =? ch "0" then Ok TD_Exit
  else if b =? ch "1" then Ok TD_Entry
  else Err ("bad TimeDataType " ++ show_char b).
Definition TimeDataType_eqb (a b : TimeDataType) : bool := TimeDataType_u8 a =? TimeDataType_u8 b.

(* msg.rs:465-476 byte_enum ArmedState, with its discriminants (`as u8`) and TryFrom<u8> *)
Inductive ArmedState : Type :=
| ARS_Disarmed
| ARS_ArmedAway
| ARS_ArmedStay
| ARS_ArmedStayInstant
| ARS_ArmedNight
| ARS_ArmedNightInstant
| ARS_ArmedVacation.
Definition ArmedState_u8 (v : ArmedState) : N :=
  match v with
  | ARS_Disarmed => ch "0"
  | ARS_ArmedAway => ch "1"
  | ARS_ArmedStay => ch "2"
  | ARS_ArmedStayInstant => ch "3"
  | ARS_ArmedNight => ch "4"
  | ARS_ArmedNightInstant => ch "5"
  | ARS_ArmedVacation => ch "6"
  end.
Definition ArmedState_try_from (b : N) : res ArmedState :=
  if b =? ch "0" then Ok ARS_Disarmed
  else if b =? ch "1" then Ok ARS_ArmedAway
  else if b =? ch "2" then Ok ARS_ArmedStay
  else if b =? ch "3" then Ok ARS_ArmedStayInstant
  else if b =? ch "4" then Ok ARS_ArmedNight
  else if b =? ch "5" then Ok ARS_ArmedNightInstant
  else if b =? ch "6" then Ok ARS_ArmedVacation
  else Err ("bad ArmedState " ++ show_char b).
Definition ArmedState_eqb (a b : ArmedState) : bool := ArmedState_u8 a =? ArmedState_u8 b.

(* msg.rs:478-489 byte_enum Weekday, with its discriminants (`as u8`) and TryFrom<u8> *)
Inductive Weekday : Type :=
| WD_Sun
| WD_Mon
| WD_Tue
| WD_Wed
| WD_Thu
| WD_Fri
| WD_Sat.
Definition Weekday_u8 (v : Weekday) : N :=
  match v with
  | WD_Sun => ch "1"
  | WD_Mon => ch "2"
  | WD_Tue => ch "3"
  | WD_Wed => ch "4"
  | WD_Thu => ch "5"
  | WD_Fri => ch "6"
  | WD_Sat => ch "7"
  end.
Definition Weekday_try_from (b : N) : res Weekday :=
  if b =? ch "1" then Ok WD_Sun
  else if b =? ch "2" then Ok WD_Mon
  else if b =? ch "3" then Ok WD_Tue
  else if b =? ch "4" then Ok WD_Wed
  else if b =? ch "5" then Ok WD_Thu
  else if b =? ch "6" then Ok WD_Fri
  else if b =? ch "7" then Ok WD_Sat
  else Err ("bad Weekday " ++ show_char b).
Definition Weekday_eqb (a b : Weekday) : bool := Weekday_u8 a =? Weekday_u8 b.

(* msg.rs:491-497 byte_enum ClockDisplayMode, with its discriminants (`as u8`) and TryFrom<u8> *)
Inductive ClockDisplayMode : Type :=
| CD_TwentyFourHour
| CD_TwelveHour.
Definition ClockDisplayMode_u8 (v : ClockDisplayMode) : N :=
  match v with
  | CD_TwentyFourHour => ch "0"
  | CD_TwelveHour => ch "1"
  end.
Definition ClockDisplayMode_try_from (b : N) : res ClockDisplayMode :=
  if b =? ch "0" then Ok CD_TwentyFourHour
  else if b =? ch "1" then Ok CD_TwelveHour
  else Err ("bad ClockDisplayMode " ++ show_char b).
Definition ClockDisplayMode_eqb (a b : ClockDisplayMode) : bool := ClockDisplayMode_u8 a =? ClockDisplayMode_u8 b.

(* msg.rs:499-505 byte_enum DateDisplayMode, with its discriminants (`as u8`) and TryFrom<u8> *)
Inductive DateDisplayMode : Type :=
| DD_MonthFirst
| DD_DayFirst.
Definition DateDisplayMode_u8 (v : DateDisplayMode) : N :=
  match v with
  | DD_MonthFirst => ch "0"
  | DD_DayFirst => ch "1"
  end.
Definition DateDisplayMode_try_from (b : N) : res DateDisplayMode :=
  if b =? ch "0" then Ok DD_MonthFirst
  else if b =? ch "1" then Ok DD_DayFirst
  else Err ("bad DateDisplayMode " ++ show_char b).
Definition DateDisplayMode_eqb (a b : DateDisplayMode) : bool := DateDisplayMode_u8 a =? DateDisplayMode_u8 b.

(* msg.rs:1082-1093 byte_enum ArmingStatus, with its discriminants (`as u8`) and TryFrom<u8> *)
Inductive ArmingStatus : Type :=
| AST_Disarmed
| AST_ArmedAway
| AST_ArmedStay
| AST_ArmedStayInstant
| AST_ArmedNight
| AST_ArmedNightInstant
| AST_ArmedVacation.
Definition ArmingStatus_u8 (v : ArmingStatus) : N :=
  match v with
  | AST_Disarmed => ch "0"
  | AST_ArmedAway => ch "1"
  | AST_ArmedStay => ch "2"
  | AST_ArmedStayInstant => ch "3"
  | AST_ArmedNight => ch "4"
  | AST_ArmedNightInstant => ch "5"
  | AST_ArmedVacation => ch "6"
  end.
Definition ArmingStatus_try_from (b : N) : res ArmingStatus :=
  if b =? ch "0" then Ok AST_Disarmed
  else if b =? ch "1" then Ok AST_ArmedAway
  else if b =? ch "2" then Ok AST_ArmedStay
  else if b =? ch "3" then Ok AST_ArmedStayInstant
  else if b =? ch "4" then Ok AST_ArmedNight
  else if b =? ch "5" then Ok AST_ArmedNightInstant
  else if b =? ch "6" then Ok AST_ArmedVacation
  else Err ("bad ArmingStatus " ++ show_char b).
Definition ArmingStatus_eqb (a b : ArmingStatus) : bool := ArmingStatus_u8 a =? ArmingStatus_u8 b.

(* msg.rs:1095-1106 byte_enum ArmUpState, with its discriminants (`as u8`) and TryFrom<u8> *)
Inductive ArmUpState : Type :=
| AU_NotReadyToArm
| AU_ReadyToArm
| AU_ReadyToForceArm
| AU_ArmedWithExitTimer
| AU_ArmedFully
| AU_ForceArmedWithForceArmZoneViolated
| AU_ArmedWithBypass.
Definition ArmUpState_u8 (v : ArmUpState) : N :=
  match v with
  | AU_NotReadyToArm => ch "0"
  | AU_ReadyToArm => ch "1"
  | AU_ReadyToForceArm => ch "2"
  | AU_ArmedWithExitTimer => ch "3"
  | AU_ArmedFully => ch "4"
  | AU_ForceArmedWithForceArmZoneViolated => ch "5"
  | AU_ArmedWithBypass => ch "6"
  end.
Definition ArmUpState_try_from (b : N) : res ArmUpState :=
  if b =? ch "0" then Ok AU_NotReadyToArm
  else if b =? ch "1" then Ok AU_ReadyToArm
  else if b =? ch "2" then Ok AU_ReadyToForceArm
  else if b =? ch "3" then Ok AU_ArmedWithExitTimer
  else if b =? ch "4" then Ok AU_ArmedFully
  else if b =? ch "5" then Ok AU_ForceArmedWithForceArmZoneViolated
  else if b =? ch "6" then Ok AU_ArmedWithBypass
  else Err ("bad ArmUpState " ++ show_char b).
Definition ArmUpState_eqb (a b : ArmUpState) : bool := ArmUpState_u8 a =? ArmUpState_u8 b.

(* msg.rs:1108-1131 byte_enum AlarmState, with its discriminants (`as u8`) and TryFrom<u8> *)
Inductive AlarmState : Type :=
| AA_NoAlarmActive
| AA_EntranceDelayActive
| AA_AlarmAbortDelayActive
| AA_FireAlarm
| AA_MedicalAlarm
| AA_PoliceAlarm
| AA_BurglarAlarm
| AA_Aux1Alarm
| AA_Aux2Alarm
| AA_Aux3Alarm
| AA_Aux4Alarm
| AA_CarbonMonoxideAlarm
| AA_EmergencyAlarm
| AA_FreezeAlarm
| AA_GasAlarm
| AA_HeatAlarm
| AA_WaterAlarm
| AA_FireSupervisory
| AA_VerifyFire.
Definition AlarmState_u8 (v : AlarmState) : N :=
  match v with
  | AA_NoAlarmActive => ch "0"
  | AA_EntranceDelayActive => ch "1"
  | AA_AlarmAbortDelayActive => ch "2"
  | AA_FireAlarm => ch "3"
  | AA_MedicalAlarm => ch "4"
  | AA_PoliceAlarm => ch "5"
  | AA_BurglarAlarm => ch "6"
  | AA_Aux1Alarm => ch "7"
  | AA_Aux2Alarm => ch "8"
  | AA_Aux3Alarm => ch "9"
  | AA_Aux4Alarm => ch ":"
  | AA_CarbonMonoxideAlarm => ch ";"
  | AA_EmergencyAlarm => ch "<"
  | AA_FreezeAlarm => ch "="
  | AA_GasAlarm => ch ">"
  | AA_HeatAlarm => ch "?"
  | AA_WaterAlarm => ch "@"
  | AA_FireSupervisory => ch "A"
  | AA_VerifyFire => ch "B"
  end.
Definition AlarmState_try_from (b : N) : res AlarmState :=
  if b =? ch "0" then Ok AA_NoAlarmActive
  else if b =? ch "1" then Ok AA_EntranceDelayActive
  else if b =? ch "2" then Ok AA_AlarmAbortDelayActive
  else if b =? ch "3" then Ok AA_FireAlarm
  else if b =? ch "4" then Ok AA_MedicalAlarm
  else if b =? ch "5" then Ok AA_PoliceAlarm
  else if b =? ch "6" then Ok AA_BurglarAlarm
  else if b =? ch "7" then Ok AA_Aux1Alarm
  else if b =? ch "8" then Ok AA_Aux2Alarm
  else if b =? ch "9" then Ok AA_Aux3Alarm
  else if b =? ch ":" then Ok AA_Aux4Alarm
  else if b =? ch ";" then Ok AA_CarbonMonoxideAlarm
  else if b =? ch "<" then Ok AA_EmergencyAlarm
  else if b =? ch "=" then Ok AA_FreezeAlarm
  else if b =? ch ">" then Ok AA_GasAlarm
  else if b =? ch "?" then Ok AA_HeatAlarm
  else if b =? ch "@" then Ok AA_WaterAlarm
  else if b =? ch "A" then Ok AA_FireSupervisory
  else if b =? ch "B" then Ok AA_VerifyFire
  else Err ("bad AlarmState " ++ show_char b).
Definition AlarmState_eqb (a b : AlarmState) : bool := AlarmState_u8 a =? AlarmState_u8 b.

(* msg.rs:1205-1229 num_enum TextDescriptionType, with its discriminants (`as u8`) and TryFrom<u8> *)
Inductive TextDescriptionType : Type :=
| TT_Zone
| TT_Area
| TT_User
| TT_Keypad
| TT_Output
| TT_Task
| TT_Telephone
| TT_Light
| TT_AlarmDuration
| TT_CustomSettings
| TT_Counter
| TT_Thermostat
| TT_FunctionKey1
| TT_FunctionKey2
| TT_FunctionKey3
| TT_FunctionKey4
| TT_FunctionKey5
| TT_FunctionKey6
| TT_AudioZone
| TT_AudioSource.
Definition TextDescriptionType_u8 (v : TextDescriptionType) : N :=
  match v with
  | TT_Zone => 0
  | TT_Area => 1
  | TT_User => 2
  | TT_Keypad => 3
  | TT_Output => 4
  | TT_Task => 5
  | TT_Telephone => 6
  | TT_Light => 7
  | TT_AlarmDuration => 8
  | TT_CustomSettings => 9
  | TT_Counter => 10
  | TT_Thermostat => 11
  | TT_FunctionKey1 => 12
  | TT_FunctionKey2 => 13
  | TT_FunctionKey3 => 14
  | TT_FunctionKey4 => 15
  | TT_FunctionKey5 => 16
  | TT_FunctionKey6 => 17
  | TT_AudioZone => 18
  | TT_AudioSource => 19
  end.
Definition TextDescriptionType_try_from (b : N) : res TextDescriptionType :=
  if b =? 0 then Ok TT_Zone
  else if b =? 1 then Ok TT_Area
  else if b =? 2 then Ok TT_User
  else if b =? 3 then Ok TT_Keypad
  else if b =? 4 then Ok TT_Output
  else if b =? 5 then Ok TT_Task
  else if b =? 6 then Ok TT_Telephone
  else if b =? 7 then Ok TT_Light
  else if b =? 8 then Ok TT_AlarmDuration
  else if b =? 9 then Ok TT_CustomSettings
  else if b =? 10 then Ok TT_Counter
  else if b =? 11 then Ok TT_Thermostat
  else if b =? 12 then Ok TT_FunctionKey1
  else if b =? 13 then Ok TT_FunctionKey2
  else if b =? 14 then Ok TT_FunctionKey3
  else if b =? 15 then Ok TT_FunctionKey4
  else if b =? 16 then Ok TT_FunctionKey5
  else if b =? 17 then Ok TT_FunctionKey6
  else if b =? 18 then Ok TT_AudioZone
  else if b =? 19 then Ok TT_AudioSource
  else Err ("bad TextDescriptionType " ++ show_dec b).
Definition TextDescriptionType_eqb (a b : TextDescriptionType) : bool := TextDescriptionType_u8 a =? TextDescriptionType_u8 b.

(* msg.rs:787-790 *)
Definition NUM_AREAS : nat := 8.
Definition NUM_KEYPADS : nat := 16.
Definition NUM_TASKS : nat := 32.
Definition NUM_ZONES : nat := 208.

(* msg.rs:547-561 limited_u8 TryFrom<u8> (`stringify!(t)` is "t", not the name of the type), with the maxima of msg.rs:792-810 *)
Definition limited_try_from (max val : N) : res N :=
  if (1 <=? val) && (val <=? max) then Ok val else Err (show_dec val ++ " not in expected t range of [1, " ++ show_dec max ++ "]").
Definition Zone_MAX : N := 208.
Definition Area_MAX : N := 8.
Definition Keypad_MAX : N := 16.
Definition Task_MAX : N := 32.
Definition Zone_try_from := limited_try_from Zone_MAX.
Definition Area_try_from := limited_try_from Area_MAX.
Definition Keypad_try_from := limited_try_from Keypad_MAX.
Definition Task_try_from := limited_try_from Task_MAX.
(* msg.rs:519-521 to_index: `usize::from(self.0) - 1`, which underflows on 0 *)
Definition to_index (v : N) : res nat :=
  if v =? 0 then Panic "attempt to subtract with overflow" else Ok (N.to_nat v - 1)%nat.

(* msg.rs:412-424 ArmCode from a u32; copy_from_slice panics unless the lengths agree *)
Definition ArmCode_try_from_u32 (n : N) : res bytes :=
  if 1000000 <=? n then Err "code out of range"
  else let s := fmt_pad 6 n in
       if (length s =? 6)%nat then Ok s else Panic "copy_from_slice: length mismatch".

(* msg.rs:427-441 ArmCode from ASCII digits *)
Definition ArmCode_try_from_slice (value : bytes) : res bytes :=
  if negb (length value =? 6)%nat then Err "ArmCode must be of length 6"
  else if existsb (fun b => negb (is_digit b)) value then Err "ArmCode must be numeric"
  else Ok value.

(* msg.rs:577-584 *)
Record DateTime : Type := mkDateTime {
  year : N; month : N; day : N; hour : N; minute : N; second : N }.

(* uN::from_str(..).map_err(..); used at msg.rs:592, 599, 606, 613, 620, 627 *)
Definition parse_dec (max : N) (s : bytes) (e : string) : res N :=
  match from_str_dec max s with Some n => Ok n | None => Err e end.

(* (lo..=hi).contains(&x); used at msg.rs:593-630, 723-743 *)
Definition in_range (lo hi x : N) : bool := (lo <=? x) && (x <=? hi).

(* msg.rs:588-639 DateTime::from_iso_8601; val is the bytes of a &str.
   `(year - 2000) as u8` never truncates since year <= 2100. *)
Definition from_iso_8601 (val : bytes) : res DateTime :=
  if negb (length val =? 19)%nat then Err "wrong length" else
  s_year <- str_slice val 0 4 ;;
  y <- parse_dec 65535 s_year "bad year" ;;
  if negb (in_range 2000 2100 y) then Err ("year " ++ show_dec y ++ " out of range") else
  sep1 <- str_slice val 4 5 ;;
  if negb (beq sep1 (B "-")) then Err "bad year-month separator" else
  s_month <- str_slice val 5 7 ;;
  mo <- parse_dec 255 s_month "bad month" ;;
  if negb (in_range 1 12 mo) then Err ("month " ++ show_dec mo ++ " out of range") else
  sep2 <- str_slice val 7 8 ;;
  if negb (beq sep2 (B "-")) then Err "bad month-day separator" else
  s_day <- str_slice val 8 10 ;;
  d <- parse_dec 255 s_day "bad day" ;;
  if negb (in_range 1 31 d) then Err ("day " ++ show_dec d ++ " out of range") else
  sep3 <- str_slice val 10 11 ;;
  if negb (beq sep3 (B "T")) then Err "bad date-time separator" else
  s_hour <- str_slice val 11 13 ;;
  h <- parse_dec 255 s_hour "bad hour" ;;
  sep4 <- str_slice val 13 14 ;;
  if negb (beq sep4 (B ":")) then Err "bad hour-minute separator" else
  if 23 <? h then Err ("hour " ++ show_dec h ++ " out of range") else
  s_minute <- str_slice val 14 16 ;;
  mi <- parse_dec 255 s_minute "bad minute" ;;
  if 59 <? mi then Err ("minute " ++ show_dec mi ++ " out of range") else
  sep5 <- str_slice val 16 17 ;;
  if negb (beq sep5 (B ":")) then Err "bad minute-second separator" else
  s_second <- str_slice val 17 19 ;;
  se <- parse_dec 255 s_second "bad second" ;;
  if 59 <? se then Err "second out of range" else
  Ok (mkDateTime ((y - 2000) mod 256) mo d h mi se).

(* msg.rs:641-646 DateTime::to_iso_8601 *)
Definition to_iso_8601 (d : DateTime) : bytes :=
  B "20" ++ fmt_pad 2 (year d) ++ B "-" ++ fmt_pad 2 (month d) ++ B "-" ++ fmt_pad 2 (day d)
  ++ B "T" ++ fmt_pad 2 (hour d) ++ B ":" ++ fmt_pad 2 (minute d) ++ B ":" ++ fmt_pad 2 (second d).

(* msg.rs:709-715 *)
Record RtcData : Type := mkRtcData {
  datetime : DateTime;
  weekday : Weekday;
  dst : bool;
  clock_display : ClockDisplayMode;
  date_display : DateDisplayMode }.

(* msg.rs:718-766 RtcData::from_ascii *)
Definition RtcData_from_ascii (data : bytes) : res RtcData :=
  if (length data <? 16)%nat then Err "RTC data must be at least 16 bytes" else
  s_year <- slice data 11 13 ;;
  y <- parse_u8_dec "year" s_year ;;
  if negb (y <? 100) then Panic "debug_assert: year < 100" else
  s_month <- slice data 9 11 ;;
  mo <- parse_u8_dec "month" s_month ;;
  if negb (in_range 1 12 mo) then Err "month out of range" else
  s_day <- slice data 7 9 ;;
  d <- parse_u8_dec "day" s_day ;;
  if negb (in_range 1 31 d) then Err "day out of range" else
  s_hour <- slice data 4 6 ;;
  h <- parse_u8_dec "hour" s_hour ;;
  if 24 <=? h then Err "hour out of range" else
  s_minute <- slice data 2 4 ;;
  mi <- parse_u8_dec "minute" s_minute ;;
  if 60 <=? mi then Err "minute out of range" else
  s_second <- slice data 0 2 ;;
  se <- parse_u8_dec "second" s_second ;;
  if 60 <=? se then Err "second out of range" else
  b6 <- index data 6 ;;
  wd <- Weekday_try_from b6 ;;
  b13 <- index data 13 ;;
  ds <- (if b13 =? ch "0" then Ok false else if b13 =? ch "1" then Ok true else Err "bad dst flag") ;;
  b14 <- index data 14 ;;
  cd <- ClockDisplayMode_try_from b14 ;;
  b15 <- index data 15 ;;
  dd <- DateDisplayMode_try_from b15 ;;
  Ok (mkRtcData (mkDateTime y mo d h mi se) wd ds cd dd).

(* msg.rs:768-784 RtcData::to_ascii *)
Definition RtcData_to_ascii (r : RtcData) : bytes :=
  fmt_pad 2 (second (datetime r)) ++ fmt_pad 2 (minute (datetime r)) ++ fmt_pad 2 (hour (datetime r))
  ++ [Weekday_u8 (weekday r)]
  ++ fmt_pad 2 (day (datetime r)) ++ fmt_pad 2 (month (datetime r)) ++ fmt_pad 2 (year (datetime r))
  ++ fmt_pad 1 (if dst r then 1 else 0)
  ++ [ClockDisplayMode_u8 (clock_display r)] ++ [DateDisplayMode_u8 (date_display r)].

(* msg.rs:922-940 *)
Inductive ZonePhysicalStatus : Type := ZP_Unconfigured | ZP_Open | ZP_EOL | ZP_Short.
Definition ZonePhysicalStatus_u8 (p : ZonePhysicalStatus) : N :=
  match p with ZP_Unconfigured => 0 | ZP_Open => 1 | ZP_EOL => 2 | ZP_Short => 3 end.
Inductive ZoneLogicalStatus : Type := ZL_Normal | ZL_Trouble | ZL_Violated | ZL_Bypassed.
Definition ZoneLogicalStatus_u8 (l : ZoneLogicalStatus) : N :=
  match l with ZL_Normal => 0 | ZL_Trouble => 1 | ZL_Violated => 2 | ZL_Bypassed => 3 end.

(* msg.rs:855-858 ZoneStatus(u8), represented by the u8; :870 UNCONFIGURED *)
Definition ZoneStatus_UNCONFIGURED : N := 0.
(* msg.rs:872-874 ZoneStatus::new; `<<` binds tighter than `|` *)
Definition ZoneStatus_new (l : ZoneLogicalStatus) (p : ZonePhysicalStatus) : N :=
  N.lor (N.shiftl (ZoneLogicalStatus_u8 l) 2 mod 256) (ZonePhysicalStatus_u8 p).
(* msg.rs:876-880 *)
Definition ZoneStatus_from_ascii (c : N) : res N :=
  match dehex_nibble c with
  | Ok n => Ok n
  | Err _ => Err ("bad zone status " ++ show_char c)
  | Panic w => Panic w
  end.
(* msg.rs:882-884 *)
Definition ZoneStatus_to_ascii (s : N) : N := hex_nibble s.
(* msg.rs:886-894 *)
Definition ZoneStatus_logical (s : N) : res ZoneLogicalStatus :=
  let v := N.shiftr s 2 in
  if v =? 0 then Ok ZL_Normal
  else if v =? 1 then Ok ZL_Trouble
  else if v =? 2 then Ok ZL_Violated
  else if v =? 3 then Ok ZL_Bypassed
  else Panic "unreachable".
(* msg.rs:896-904 *)
Definition ZoneStatus_physical (s : N) : res ZonePhysicalStatus :=
  let v := N.land s 3 in
  if v =? 0 then Ok ZP_Unconfigured
  else if v =? 1 then Ok ZP_Open
  else if v =? 2 then Ok ZP_EOL
  else if v =? 3 then Ok ZP_Short
  else Panic "unreachable".

(* msg.rs:1311-1340, 1390-1394 TextDescription([u8; 16]), represented by its 16 bytes *)
Definition TextDescription_EMPTY : bytes := repeat (ch " ") 16.
Definition TextDescription_default : bytes := repeat (ch " ") 16.
(* msg.rs:1323-1325: for (b_in, b_out) in text.zip(this.iter_mut()) *)
Fixpoint overlay (text dst : bytes) : bytes :=
  match text, dst with
  | b :: text', _ :: dst' => b :: overlay text' dst'
  | _, dst => dst
  end.
(* msg.rs:1320-1327 TextDescription::new *)
Definition TextDescription_new (text : bytes) : res bytes :=
  _ <- check_printable text ;;
  Ok (overlay text TextDescription_default).
(* msg.rs:1329-1331 as_padded_str *)
Definition as_padded_str (t : bytes) : res bytes :=
  if utf8_valid t then Ok t else Panic "unwrap: invalid utf-8".
(* msg.rs:1333-1335 as_str; also Deref (:1402-1409), Display (:1342-1346) and the str that
   PartialEq<str> (:1411-1415) compares *)
Definition TextDescription_as_str (t : bytes) : res bytes :=
  s <- as_padded_str t ;; Ok (trim_end s).
(* msg.rs:1337-1339 *)
Definition TextDescription_is_empty (t : bytes) : res bool :=
  b <- index t 0 ;; Ok (b =? ch " ").

(* msg.rs:108-239: the message structs *)
Record ArmRequest : Type := mkArmRequest { ar_area : N; ar_level : ArmLevel; ar_code : bytes }.
Record ArmingStatusReport : Type := mkAS {
  arming_status : list ArmingStatus;
  up_state : list ArmUpState;
  alarm_state : list AlarmState;
  first_exit_time : N }.
Record SendTimeData : Type := mkEE {
  ee_area : N; ee_ty : TimeDataType; ee_timer1 : N; ee_timer2 : N; ee_armed_state : option ArmedState }.
Record SendCode : Type := mkIC { ic_code : bytes; ic_user : N; ic_keypad : N }.
Record StringDescriptionRequest : Type := mkSdReq { sdq_ty : TextDescriptionType; sdq_num : N }.
Record StringDescriptionResponse : Type := mkSdResp {
  sd_ty : TextDescriptionType; sd_num : N; sd_text : bytes }.
Record ZoneChange : Type := mkZC { zc_zone : N; zc_status : N }.

(* msg.rs:55-60 enum Message *)
Inductive message : Type :=
| MArmRequest (m : ArmRequest)
| MArmingStatusRequest
| MArmingStatusReport (m : ArmingStatusReport)
| MSendTimeData (m : SendTimeData)
| MSendCode (m : SendCode)
| MRtcRequest
| MRtcResponse (rtc_data : RtcData)
| MStringDescriptionRequest (m : StringDescriptionRequest)
| MStringDescriptionResponse (m : StringDescriptionResponse)
| MActivateTask (task : N)
| MTaskChange (task : N)
| MHeartbeat (rtc_data : RtcData)
| MZoneChange (m : ZoneChange)
| MZoneStatusRequest
| MZoneStatusReport (zones : list N).

(* ---- from_ascii ---- *)

(* msg.rs:1041-1053 ArmRequest::from_ascii *)
Definition ArmRequest_from_ascii (subtype : N) (data : bytes) : res ArmRequest :=
  level <- expect (ArmLevel_try_from subtype) "subtype must be valid" ;;
  if (length data <? 9)%nat then Err ("Expected ArmRequest to have at least 9 bytes of data, got " ++ show_len data) else
  s_area <- slice data 0 1 ;;
  a <- parse_u8_dec "area" s_area ;;
  area <- Area_try_from a ;;
  s_code <- slice data 1 7 ;;
  code <- ArmCode_try_from_slice s_code ;;
  Ok (mkArmRequest area level code).

(* msg.rs:1155-1159 the loop over the 8 areas *)
Definition AS_loop (data : bytes) : res (list (ArmingStatus * ArmUpState * AlarmState)) :=
  mapM (fun i =>
    b0 <- index data i ;;
    s <- ArmingStatus_try_from b0 ;;
    b1 <- index data (NUM_AREAS + i) ;;
    u <- ArmUpState_try_from b1 ;;
    b2 <- index data (2 * NUM_AREAS + i) ;;
    a <- AlarmState_try_from b2 ;;
    Ok (s, u, a)) (seq 0 8).

(* msg.rs:1148-1168 ArmingStatusReport::from_ascii_data *)
Definition ArmingStatusReport_from_ascii_data (data : bytes) : res ArmingStatusReport :=
  if (length data <? 26)%nat then Err ("expected at least " ++ show_dec 26 ++ " data") else
  l <- AS_loop data ;;
  b24 <- index data 24 ;;
  b25 <- index data 25 ;;
  t <- match dehex_byte b24 b25 with
       | Err _ => Err "bad first_exit_time"
       | r => r
       end ;;
  Ok (mkAS (map (fun x => fst (fst x)) l) (map (fun x => snd (fst x)) l) (map snd l) t).

(* msg.rs:813-836 SendTimeData::from_ascii_data *)
Definition SendTimeData_from_ascii_data (data : bytes) : res SendTimeData :=
  if (length data <? 10)%nat then Err ("expected at least 10 bytes, got " ++ show_len data) else
  b0 <- index data 0 ;;
  area <- (if (ch "1" <=? b0) && (b0 <=? ch "8") then Ok (b0 - ch "0") else Err ("expected area in [1, 8], got " ++ show_dec b0)) ;;
  b1 <- index data 1 ;;
  ty <- TimeDataType_try_from b1 ;;
  s1 <- slice data 2 5 ;;
  timer1 <- parse_u8_dec "timer1" s1 ;;
  s2 <- slice data 5 8 ;;
  timer2 <- parse_u8_dec "timer2" s2 ;;
  armed_state <- (if (length data <? 11)%nat then Ok None
                  else b8 <- index data 8 ;; s <- ArmedState_try_from b8 ;; Ok (Some s)) ;;
  Ok (mkEE area ty timer1 timer2 armed_state).

(* msg.rs:1232-1244 SendCode::from_ascii_data *)
Definition SendCode_from_ascii_data (data : bytes) : res SendCode :=
  if (length data <? 19)%nat then Err ("expected at least 19 bytes, got " ++ show_len data) else
  code <- mapM (fun i =>
            hi <- index data (2 * i) ;;
            lo <- index data (2 * i + 1) ;;
            match dehex_byte hi lo with
            | Err _ => Err "invalid hex code"
            | r => r
            end) (seq 0 6) ;;
  s_user <- slice data 12 15 ;;
  user <- parse_u8_dec "user" s_user ;;
  s_keypad <- slice data 15 17 ;;
  k <- parse_u8_dec "keypad" s_keypad ;;
  keypad <- Keypad_try_from k ;;
  Ok (mkIC code user keypad).

(* msg.rs:1294-1301 StringDescriptionRequest::from_ascii_data *)
Definition SdReq_from_ascii_data (data : bytes) : res StringDescriptionRequest :=
  if (length data <? 5)%nat then Err ("expected at least 5 bytes, got " ++ show_len data) else
  s_ty <- slice data 0 2 ;;
  t <- parse_u8_dec "type" s_ty ;;
  ty <- TextDescriptionType_try_from t ;;
  s_num <- slice data 2 5 ;;
  num <- parse_u8_dec "num" s_num ;;
  Ok (mkSdReq ty num).

(* msg.rs:1418-1426 StringDescriptionResponse::from_ascii_data; the slice 5..21 always has 16 bytes,
   so the slice->array expect cannot fail *)
Definition SdResp_from_ascii_data (data : bytes) : res StringDescriptionResponse :=
  if (length data <? 21)%nat then Err ("expected at least 5 bytes, got " ++ show_len data) else
  s_ty <- slice data 0 2 ;;
  t <- parse_u8_dec "type" s_ty ;;
  ty <- TextDescriptionType_try_from t ;;
  s_num <- slice data 2 5 ;;
  num <- parse_u8_dec "num" s_num ;;
  text <- slice data 5 21 ;;
  Ok (mkSdResp ty num text).

(* msg.rs:1454-1460 ActivateTask::from_ascii_data and :1471-1477 TaskChange::from_ascii_data *)
Definition ActivateTask_from_ascii_data (data : bytes) : res N :=
  if (length data <? 3)%nat then Err ("expected at least 3 bytes, got " ++ show_len data) else
  s <- slice data 0 3 ;;
  t <- parse_u8_dec "task" s ;;
  Task_try_from t.
Definition TaskChange_from_ascii_data (data : bytes) : res N :=
  if (length data <? 3)%nat then Err ("expected at least 3 bytes, got " ++ show_len data) else
  s <- slice data 0 3 ;;
  t <- parse_u8_dec "task" s ;;
  Task_try_from t.

(* msg.rs:943-952 ZoneChange::from_ascii_data *)
Definition ZoneChange_from_ascii_data (data : bytes) : res ZoneChange :=
  if (length data <? 4)%nat then Err ("expected at least 4 bytes, got " ++ show_len data) else
  s <- slice data 0 3 ;;
  z <- parse_u8_dec "zone" s ;;
  zone <- Zone_try_from z ;;
  b3 <- index data 3 ;;
  status <- ZoneStatus_from_ascii b3 ;;
  Ok (mkZC zone status).

(* msg.rs:979-992 ZoneStatusReport::from_ascii_data *)
Definition ZoneStatusReport_from_ascii_data (data : bytes) : res (list N) :=
  if (length data <? NUM_ZONES)%nat then Err ("expected at least " ++ show_dec 208 ++ " bytes, got " ++ show_len data) else
  mapM (fun i => b <- index data i ;; ZoneStatus_from_ascii b) (seq 0 NUM_ZONES).

(* msg.rs:250-280 Message::parse_ascii; Ok None is an unsupported command *)
Definition parse_ascii (payload : bytes) : res (option message) :=
  if (length payload <? 4)%nat then Err "malformed ASCII message: too short" else
  cmd <- slice payload 0 2 ;;
  data <- slice payload 2 (length payload) ;;
  if existsb (beq cmd) [B "a0"; B "a1"; B "a2"; B "a3"; B "a4"; B "a5"; B "a6"; B "a7"; B "a8"; B "a9"; B "a:"]
  then c1 <- index cmd 1 ;; m <- ArmRequest_from_ascii c1 data ;; Ok (Some (MArmRequest m))
  else if beq cmd (B "as") then Ok (Some MArmingStatusRequest)
  else if beq cmd (B "AS") then m <- ArmingStatusReport_from_ascii_data data ;; Ok (Some (MArmingStatusReport m))
  else if beq cmd (B "EE") then m <- SendTimeData_from_ascii_data data ;; Ok (Some (MSendTimeData m))
  else if beq cmd (B "IC") then m <- SendCode_from_ascii_data data ;; Ok (Some (MSendCode m))
  else if beq cmd (B "rr") then Ok (Some MRtcRequest)
  else if beq cmd (B "RR") then m <- RtcData_from_ascii data ;; Ok (Some (MRtcResponse m))
  else if beq cmd (B "sd") then m <- SdReq_from_ascii_data data ;; Ok (Some (MStringDescriptionRequest m))
  else if beq cmd (B "SD") then m <- SdResp_from_ascii_data data ;; Ok (Some (MStringDescriptionResponse m))
  else if beq cmd (B "tn") then m <- ActivateTask_from_ascii_data data ;; Ok (Some (MActivateTask m))
  else if beq cmd (B "TC") then m <- TaskChange_from_ascii_data data ;; Ok (Some (MTaskChange m))
  else if beq cmd (B "XK") then m <- RtcData_from_ascii data ;; Ok (Some (MHeartbeat m))
  else if beq cmd (B "ZC") then m <- ZoneChange_from_ascii_data data ;; Ok (Some (MZoneChange m))
  else if beq cmd (B "zs") then Ok (Some MZoneStatusRequest)
  else if beq cmd (B "ZS") then m <- ZoneStatusReport_from_ascii_data data ;; Ok (Some (MZoneStatusReport m))
  else Ok None.

(* msg.rs:242-248 Message::parse *)
Definition parse (pkt : packet) : res (option message) :=
  match pkt with
  | PAscii body => parse_ascii body
  | PRp _ => Ok None
  | PInvalid _ _ => Ok None
  end.

(* ---- to_ascii: the body, or a panic from `expect` or arithmetic ---- *)

(* msg.rs:1055-1063; `self.area.0 + b'0'` is checked u8 addition *)
Definition ArmRequest_to_ascii (m : ArmRequest) : res bytes :=
  a <- add8 (ar_area m) (ch "0") ;;
  expect (ascii_try_from ([ch "a"; ArmLevel_u8 (ar_level m); a] ++ ar_code m ++ B "00")) "ArmRequest invalid".

(* msg.rs:1074-1076 *)
Definition ArmingStatusRequest_to_ascii : res bytes :=
  expect (ascii_try_from (B "as00")) "ArmingStatusRequest invalid".

(* msg.rs:1169-1179 *)
Definition ArmingStatusReport_to_ascii (m : ArmingStatusReport) : res bytes :=
  expect (ascii_try_from (B "AS" ++ map ArmingStatus_u8 (arming_status m) ++ map ArmUpState_u8 (up_state m)
            ++ map AlarmState_u8 (alarm_state m) ++ hex_byte (first_exit_time m)))
         "ArmingStatusResponse valid ascii".

(* msg.rs:837-847 *)
Definition SendTimeData_to_ascii (m : SendTimeData) : res bytes :=
  expect (ascii_try_from (B "EE" ++ fmt_dec (ee_area m) ++ [TimeDataType_u8 (ee_ty m)]
            ++ fmt_pad 3 (ee_timer1 m) ++ fmt_pad 3 (ee_timer2 m)
            ++ match ee_armed_state m with Some s => [ArmedState_u8 s] | None => [] end
            ++ B "00"))
         "SendTimeData invalid".

(* msg.rs:1250-1259 *)
Definition SendCode_to_ascii (m : SendCode) : res bytes :=
  expect (ascii_try_from (B "IC" ++ flat_map hex_byte (ic_code m)
            ++ fmt_pad 3 (ic_user m) ++ fmt_pad 2 (ic_keypad m) ++ B "00"))
         "SendCode valid".

(* msg.rs:1266-1268 *)
Definition RtcRequest_to_ascii : res bytes := expect (ascii_try_from (B "rr00")) "RtcResponse valid".

(* msg.rs:1280-1287 *)
Definition RtcResponse_to_ascii (r : RtcData) : res bytes :=
  expect (ascii_try_from (B "RR" ++ RtcData_to_ascii r)) "RtcResponse valid".

(* msg.rs:1305-1308 *)
Definition SdReq_to_ascii (m : StringDescriptionRequest) : res bytes :=
  expect (ascii_try_from (B "sd" ++ fmt_pad 2 (TextDescriptionType_u8 (sdq_ty m)) ++ fmt_pad 3 (sdq_num m) ++ B "00"))
         "StringDescriptionRequest valid".

(* msg.rs:1427-1435 *)
Definition SdResp_to_ascii (m : StringDescriptionResponse) : res bytes :=
  text <- as_padded_str (sd_text m) ;;
  expect (ascii_try_from (B "SD" ++ fmt_pad 2 (TextDescriptionType_u8 (sd_ty m)) ++ fmt_pad 3 (sd_num m)
            ++ text ++ B "00"))
         "StringDescriptionResponse valid".

(* msg.rs:1461-1464, 1478-1481 *)
Definition ActivateTask_to_ascii (task : N) : res bytes :=
  expect (ascii_try_from (B "tn" ++ fmt_pad 3 task ++ B "00")) "Task valid".
Definition TaskChange_to_ascii (task : N) : res bytes :=
  expect (ascii_try_from (B "TC" ++ fmt_pad 3 task ++ B "000")) "Task valid".

(* msg.rs:1493-1500 *)
Definition Heartbeat_to_ascii (r : RtcData) : res bytes :=
  expect (ascii_try_from (B "XK" ++ RtcData_to_ascii r)) "Heartbeat valid".

(* msg.rs:953-956 *)
Definition ZoneChange_to_ascii (m : ZoneChange) : res bytes :=
  expect (ascii_try_from (B "ZC" ++ fmt_pad 3 (zc_zone m) ++ fmt_hex8 (zc_status m) ++ B "00"))
         "ZoneChange invalid".

(* msg.rs:966-968 *)
Definition ZoneStatusRequest_to_ascii : res bytes :=
  expect (ascii_try_from (B "zs00")) "ZoneStatusRequest invalid".

(* msg.rs:993-1001 *)
Definition ZoneStatusReport_to_ascii (zones : list N) : res bytes :=
  expect (ascii_try_from (B "ZS" ++ map ZoneStatus_to_ascii zones ++ B "00"))
         "ZoneStatusReport should be valid".

(* msg.rs:62-68 Message::to_pkt, through :98-103 From<&m> for Packet *)
Definition to_ascii (m : message) : res bytes :=
  match m with
  | MArmRequest m => ArmRequest_to_ascii m
  | MArmingStatusRequest => ArmingStatusRequest_to_ascii
  | MArmingStatusReport m => ArmingStatusReport_to_ascii m
  | MSendTimeData m => SendTimeData_to_ascii m
  | MSendCode m => SendCode_to_ascii m
  | MRtcRequest => RtcRequest_to_ascii
  | MRtcResponse m => RtcResponse_to_ascii m
  | MStringDescriptionRequest m => SdReq_to_ascii m
  | MStringDescriptionResponse m => SdResp_to_ascii m
  | MActivateTask t => ActivateTask_to_ascii t
  | MTaskChange t => TaskChange_to_ascii t
  | MHeartbeat m => Heartbeat_to_ascii m
  | MZoneChange m => ZoneChange_to_ascii m
  | MZoneStatusRequest => ZoneStatusRequest_to_ascii
  | MZoneStatusReport z => ZoneStatusReport_to_ascii z
  end.
Definition to_pkt (m : message) : res packet := b <- to_ascii m ;; Ok (PAscii b).

(* msg.rs:71-77 Message::is_response_to, dispatching to the per-message functions
   (:848-850, :957-959, :969-971, :1002-1004, :1065-1067, :1077-1079, :1180-1182, :1245-1249, :1269-1271,
   :1288-1290, :1302-1304, :1436-1450, :1465-1467, :1482-1484, :1501-1503) *)
Definition is_response_to (self request : message) : bool :=
  match self with
  | MArmRequest _ => false
  | MArmingStatusRequest => false
  | MArmingStatusReport _ => match request with MArmingStatusRequest => true | _ => false end
  | MSendTimeData _ => false
  | MSendCode _ => match request with MArmRequest _ => true | _ => false end
  | MRtcRequest => false
  | MRtcResponse _ => match request with MRtcRequest => true | _ => false end
  | MStringDescriptionRequest _ => false
  | MStringDescriptionResponse m =>
      match request with
      | MStringDescriptionRequest r =>
          TextDescriptionType_eqb (sd_ty m) (sdq_ty r) && ((sdq_num r <=? sd_num m) || (sd_num m =? 0))
      | _ => false
      end
  | MActivateTask _ => false
  | MTaskChange t => match request with MActivateTask t' => t' =? t | _ => false end
  | MHeartbeat _ => false
  | MZoneChange _ => false
  | MZoneStatusRequest => false
  | MZoneStatusReport _ => match request with MZoneStatusRequest => true | _ => false end
  end.

(* msg.rs:1135-1137 AlarmState::is_firing *)
Definition is_firing (a : AlarmState) : bool := AlarmState_u8 AA_FireAlarm <? AlarmState_u8 a.

(* msg.rs:1141-1144 ArmingStatus::has_entry_delay *)
Definition has_entry_delay (s : ArmingStatus) : bool :=
  match s with
  | AST_ArmedAway | AST_ArmedStay | AST_ArmedNight | AST_ArmedVacation => true
  | _ => false
  end.

(* msg.rs:1187-1202 is_transition_suspicious: the loop over the zipped arrays *)
Fixpoint suspicious_loop (l : list ((ArmingStatus * ArmingStatus) * ArmUpState)) : bool :=
  match l with
  | [] => false
  | ((f_s, t_s), t_u) :: l' =>
      if ArmingStatus_eqb f_s AST_Disarmed && has_entry_delay t_s && ArmUpState_eqb t_u AU_ArmedFully
      then true else suspicious_loop l'
  end.
Definition is_transition_suspicious (from to : ArmingStatusReport) : bool :=
  suspicious_loop (combine (combine (arming_status from) (arming_status to)) (up_state to)).

(* msg.rs:128, 576 etc.: derived PartialEq on the types compared by state.rs *)
Fixpoint list_eqb {A : Type} (eqb : A -> A -> bool) (l1 l2 : list A) : bool :=
  match l1, l2 with
  | [], [] => true
  | x :: l1', y :: l2' => eqb x y && list_eqb eqb l1' l2'
  | _, _ => false
  end.
Definition ArmingStatusReport_eqb (a b : ArmingStatusReport) : bool :=
  list_eqb ArmingStatus_eqb (arming_status a) (arming_status b)
  && list_eqb ArmUpState_eqb (up_state a) (up_state b)
  && list_eqb AlarmState_eqb (alarm_state a) (alarm_state b)
  && (first_exit_time a =? first_exit_time b).
