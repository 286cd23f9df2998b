(* Fuzz.v: the `arbitrary` feature of the library and the fuzz targets.
   /repo/elkm1/src/msg.rs (Arbitrary impls and derives), /repo/fuzz/fuzz_targets/{pkt,depkt,msg}.rs.
   Definitions only. *)
From Verif Require Import Base Pkt Msg Eq.

(* ---- arbitrary 1.4 `Unstructured`: the bytes that are left.  Not part of /repo; the methods that msg.rs and the derives use. ---- *)
(* `bytes(n)`: fails if fewer are left *)
Definition u_bytes (n : nat) (u : bytes) : res (bytes * bytes) :=
  if (length u <? n)%nat then Err "NotEnoughData" else Ok (firstn n u, skipn n u).
(* `fill_buffer`: pads with zeros *)
Definition u_fill (n : nat) (u : bytes) : bytes * bytes := (firstn n (u ++ repeat 0 n), skipn n u).
(* u8: `fill_buffer` of one byte *)
Definition gen_u8 (u : bytes) : res (N * bytes) :=
  match u with [] => Ok (0, []) | b :: u' => Ok (b, u') end.
(* bool: lowest bit of a u8 *)
Definition gen_bool (u : bytes) : res (bool * bytes) :=
  ' (b, u) <- gen_u8 u ;; Ok (N.land b 1 =? 1, u).
(* `int_in_range(lo..=hi)` at type u8: nothing is read if there is only one value, else one byte (0 if none is left), reduced *)
Definition int_in_range (lo hi : N) (u : bytes) : res (N * bytes) :=
  if hi <? lo then Panic "`arbitrary::Unstructured::int_in_range` requires a non-empty range"
  else if lo =? hi then Ok (lo, u)
  else ' (b, u) <- gen_u8 u ;; Ok (lo + b mod (hi - lo + 1), u).
(* u32: four bytes, little endian *)
Definition gen_u32 (u : bytes) : res (N * bytes) :=
  let '(b, u) := u_fill 4 u in Ok (fold_right (fun x acc => x + 256 * acc) 0 b, u).
(* derive(Arbitrary) on an enum: `(u64::from(u32::arbitrary(u)?) * count) >> 32` selects the variant *)
Definition gen_index (count : nat) (u : bytes) : res (nat * bytes) :=
  ' (n, u) <- gen_u32 u ;; Ok (N.to_nat (N.shiftr (n * N.of_nat count) 32), u).
(* derive(Arbitrary) on an enum without fields; `unreachable!()` past the last variant *)
Definition gen_enum {A : Type} (variants : list A) (u : bytes) : res (A * bytes) :=
  ' (i, u) <- gen_index (length variants) u ;;
  match nth_error variants i with Some v => Ok (v, u) | None => Panic "unreachable!()" end.
(* Option<T>: a bool, then the value *)
Definition gen_option {A : Type} (g : bytes -> res (A * bytes)) (u : bytes) : res (option A * bytes) :=
  ' (some, u) <- gen_bool u ;;
  if some : bool then ' (v, u) <- g u ;; Ok (Some v, u) else Ok (None, u).
(* [T; n]: the elements in order *)
Fixpoint gen_array {A : Type} (n : nat) (g : bytes -> res (A * bytes)) (u : bytes) : res (list A * bytes) :=
  match n with
  | O => Ok ([], u)
  | S n' => ' (v, u) <- g u ;; ' (l, u) <- gen_array n' g u ;; Ok (v :: l, u)
  end.

(* ---- msg.rs: the variants of the enums, in declaration order ---- *)
(* msg.rs:374-397 *)
Definition ArmLevel_variants : list ArmLevel :=
  [AL_Disarm; AL_ArmedAway; AL_ArmedStay; AL_ArmedStayInstant; AL_ArmedNight; AL_ArmedNightInstant; AL_ArmedVacation;
   AL_ArmToNextAwayMode; AL_ArmToNextStayMode; AL_ForceArmToAway; AL_ForceArmToStay].
(* msg.rs:457-463 *)
Definition TimeDataType_variants : list TimeDataType := [TD_Exit; TD_Entry].
(* msg.rs:465-476 *)
Definition ArmedState_variants : list ArmedState :=
  [ARS_Disarmed; ARS_ArmedAway; ARS_ArmedStay; ARS_ArmedStayInstant; ARS_ArmedNight; ARS_ArmedNightInstant; ARS_ArmedVacation].
(* msg.rs:478-489 *)
Definition Weekday_variants : list Weekday := [WD_Sun; WD_Mon; WD_Tue; WD_Wed; WD_Thu; WD_Fri; WD_Sat].
(* msg.rs:491-497 *)
Definition ClockDisplayMode_variants : list ClockDisplayMode := [CD_TwentyFourHour; CD_TwelveHour].
(* msg.rs:499-505 *)
Definition DateDisplayMode_variants : list DateDisplayMode := [DD_MonthFirst; DD_DayFirst].
(* msg.rs:1082-1093 *)
Definition ArmingStatus_variants : list ArmingStatus :=
  [AST_Disarmed; AST_ArmedAway; AST_ArmedStay; AST_ArmedStayInstant; AST_ArmedNight; AST_ArmedNightInstant; AST_ArmedVacation].
(* msg.rs:1095-1106 *)
Definition ArmUpState_variants : list ArmUpState :=
  [AU_NotReadyToArm; AU_ReadyToArm; AU_ReadyToForceArm; AU_ArmedWithExitTimer; AU_ArmedFully; AU_ForceArmedWithForceArmZoneViolated; AU_ArmedWithBypass].
(* msg.rs:1108-1131 *)
Definition AlarmState_variants : list AlarmState :=
  [AA_NoAlarmActive; AA_EntranceDelayActive; AA_AlarmAbortDelayActive; AA_FireAlarm; AA_MedicalAlarm; AA_PoliceAlarm; AA_BurglarAlarm;
   AA_Aux1Alarm; AA_Aux2Alarm; AA_Aux3Alarm; AA_Aux4Alarm; AA_CarbonMonoxideAlarm; AA_EmergencyAlarm; AA_FreezeAlarm; AA_GasAlarm;
   AA_HeatAlarm; AA_WaterAlarm; AA_FireSupervisory; AA_VerifyFire].
(* msg.rs:1205-1229 *)
Definition TextDescriptionType_variants : list TextDescriptionType :=
  [TT_Zone; TT_Area; TT_User; TT_Keypad; TT_Output; TT_Task; TT_Telephone; TT_Light; TT_AlarmDuration; TT_CustomSettings; TT_Counter;
   TT_Thermostat; TT_FunctionKey1; TT_FunctionKey2; TT_FunctionKey3; TT_FunctionKey4; TT_FunctionKey5; TT_FunctionKey6; TT_AudioZone;
   TT_AudioSource].

(* ---- msg.rs: Arbitrary impls ---- *)
(* `.map_err(|_| arbitrary::Error::IncorrectFormat)` *)
Definition or_incorrect {A : Type} (r : res A) : res A :=
  match r with Err _ => Err "IncorrectFormat" | _ => r end.
(* msg.rs:443-455 ArmCode; `<<` on a u32 drops the bits shifted out, there are none here *)
Definition gen_ArmCode (u : bytes) : res (bytes * bytes) :=
  ' (buf, u) <- u_bytes 3 u ;;
  b0 <- index buf 0 ;; b1 <- index buf 1 ;; b2 <- index buf 2 ;;
  c <- or_incorrect (ArmCode_try_from_u32 (N.lor (N.lor (N.shiftl b0 24) (N.shiftl b1 16)) b2)) ;;
  Ok (c, u).
(* msg.rs:524-533 limited_u8!: Zone, Area, Keypad, Task *)
Definition gen_limited (max : N) (u : bytes) : res (N * bytes) := int_in_range 1 max u.
(* msg.rs:649-665 DateTime *)
Definition gen_DateTime (u : bytes) : res (DateTime * bytes) :=
  ' (y, u) <- int_in_range 0 99 u ;;
  ' (mo, u) <- int_in_range 1 12 u ;;
  ' (d, u) <- int_in_range 1 31 u ;;
  ' (h, u) <- int_in_range 0 23 u ;;
  ' (mi, u) <- int_in_range 0 59 u ;;
  ' (s, u) <- int_in_range 0 59 u ;;
  Ok (mkDateTime y mo d h mi s, u).
(* msg.rs:708-715 derive on RtcData *)
Definition gen_RtcData (u : bytes) : res (RtcData * bytes) :=
  ' (dt, u) <- gen_DateTime u ;;
  ' (wd, u) <- gen_enum Weekday_variants u ;;
  ' (ds, u) <- gen_bool u ;;
  ' (cd, u) <- gen_enum ClockDisplayMode_variants u ;;
  ' (dd, u) <- gen_enum DateDisplayMode_variants u ;;
  Ok (mkRtcData dt wd ds cd dd, u).
(* msg.rs:907-921 ZoneStatus *)
Definition gen_ZoneStatus (u : bytes) : res (N * bytes) :=
  ' (buf, u) <- u_bytes 1 u ;;
  b <- index buf 0 ;;
  if negb (N.land b 240 =? 0) then Err "IncorrectFormat" else Ok (b, u).
(* msg.rs:1376-1388 TextDescription *)
Definition gen_TextDescription (u : bytes) : res (bytes * bytes) :=
  let '(buf, u) := u_fill 16 u in
  _ <- or_incorrect (check_printable buf) ;; Ok (buf, u).

(* what size_hint answers: how many bytes a value takes, at least and at most.  `<u8 as Arbitrary>::size_hint` is (1, Some(1)).
   msg.rs:451-454, 530-532, 662-664, 917-919, 1385-1387 *)
Definition hint : Type := (nat * option nat)%type.
Definition hint_ArmCode : hint := (3, Some 3)%nat.
Definition hint_limited : hint := (1, Some 1)%nat.
Definition hint_DateTime : hint := (6, None)%nat.
Definition hint_ZoneStatus : hint := (1, Some 1)%nat.
Definition hint_TextDescription : hint := (16, Some 16)%nat.

(* msg.rs:83 derive on the message structs, msg.rs:47 derive on Message (15 variants, :108-239) *)
Definition gen_message (u : bytes) : res (message * bytes) :=
  ' (i, u) <- gen_index 15 u ;;
  match i with
  | 0 => ' (a, u) <- gen_limited Area_MAX u ;; ' (l, u) <- gen_enum ArmLevel_variants u ;; ' (c, u) <- gen_ArmCode u ;;
         Ok (MArmRequest (mkArmRequest a l c), u)
  | 1 => Ok (MArmingStatusRequest, u)
  | 2 => ' (s, u) <- gen_array NUM_AREAS (gen_enum ArmingStatus_variants) u ;;
         ' (up, u) <- gen_array NUM_AREAS (gen_enum ArmUpState_variants) u ;;
         ' (al, u) <- gen_array NUM_AREAS (gen_enum AlarmState_variants) u ;;
         ' (t, u) <- gen_u8 u ;;
         Ok (MArmingStatusReport (mkAS s up al t), u)
  | 3 => ' (a, u) <- gen_limited Area_MAX u ;; ' (ty, u) <- gen_enum TimeDataType_variants u ;;
         ' (t1, u) <- gen_u8 u ;; ' (t2, u) <- gen_u8 u ;; ' (s, u) <- gen_option (gen_enum ArmedState_variants) u ;;
         Ok (MSendTimeData (mkEE a ty t1 t2 s), u)
  | 4 => ' (c, u) <- gen_array 6 gen_u8 u ;; ' (us, u) <- gen_u8 u ;; ' (k, u) <- gen_limited Keypad_MAX u ;;
         Ok (MSendCode (mkIC c us k), u)
  | 5 => Ok (MRtcRequest, u)
  | 6 => ' (r, u) <- gen_RtcData u ;; Ok (MRtcResponse r, u)
  | 7 => ' (ty, u) <- gen_enum TextDescriptionType_variants u ;; ' (n, u) <- gen_u8 u ;;
         Ok (MStringDescriptionRequest (mkSdReq ty n), u)
  | 8 => ' (ty, u) <- gen_enum TextDescriptionType_variants u ;; ' (n, u) <- gen_u8 u ;; ' (t, u) <- gen_TextDescription u ;;
         Ok (MStringDescriptionResponse (mkSdResp ty n t), u)
  | 9 => ' (t, u) <- gen_limited Task_MAX u ;; Ok (MActivateTask t, u)
  | 10 => ' (t, u) <- gen_limited Task_MAX u ;; Ok (MTaskChange t, u)
  | 11 => ' (r, u) <- gen_RtcData u ;; Ok (MHeartbeat r, u)
  | 12 => ' (z, u) <- gen_limited Zone_MAX u ;; ' (s, u) <- gen_ZoneStatus u ;; Ok (MZoneChange (mkZC z s), u)
  | 13 => Ok (MZoneStatusRequest, u)
  | 14 => ' (zs, u) <- gen_array NUM_ZONES gen_ZoneStatus u ;; Ok (MZoneStatusReport zs, u)
  | _ => Panic "unreachable!()"
  end%nat.

(* ---- the fuzz targets: Ok tt if the run neither panics nor violates an assertion ---- *)
(* `unwrap()` on an Option; used at fuzz_targets/pkt.rs:24, msg.rs:14 *)
Definition unwrap {A : Type} (o : option A) : res A :=
  match o with Some v => Ok v | None => Panic "called `Option::unwrap()` on a `None` value" end.
(* fuzz_targets/pkt.rs:24-25, depkt.rs:23, msg.rs:14 *)
Definition check (b : bool) : res unit := if b then Ok tt else Panic "assertion failed".
(* fuzz_targets/pkt.rs:12-26 *)
Definition pkt_target (data : bytes) : res unit :=
  let pkt := match data with
             | 0 :: body => Some (match ascii_try_from body with Ok b => Ok (PAscii b) | Err e => Err e | Panic w => Panic w end)
             | 1 :: body => Some (match rp_try_from body with Ok b => Ok (PRp b) | Err e => Err e | Panic w => Panic w end)
             | _ => None
             end in
  match pkt with
  | None | Some (Err _) => Ok tt
  | Some (Panic w) => Panic w
  | Some (Ok pkt) =>
      buf <- encode pkt [] ;;
      ' (o, buf) <- decode buf ;;
      q <- unwrap o ;;
      _ <- check (packet_eqb q pkt) ;;
      check (length buf =? 0)%nat
  end.
(* fuzz_targets/depkt.rs:13-24; fuel: every packet consumes at least one byte *)
Fixpoint depkt_loop (fuel : nat) (src out : bytes) : res (bytes * bytes) :=
  match fuel with
  | O => Panic "out of fuel"
  | S fuel' =>
      ' (o, src) <- decode src ;;
      match o with
      | None => Ok (src, out)
      | Some p =>
          _ <- match parse p with Panic w => Panic w | _ => Ok tt end ;;
          out <- encode p out ;;
          depkt_loop fuel' src out
      end
  end.
Definition depkt_target (data : bytes) : res unit :=
  ' (rest, out) <- depkt_loop (S (length data)) data [] ;;
  check (beq (out ++ rest) data).
(* fuzz_targets/msg.rs:12-15; an input from which no message can be made is skipped *)
Definition msg_target (data : bytes) : res unit :=
  match gen_message data with
  | Err _ => Ok tt
  | Panic w => Panic w
  | Ok (msg, _) =>
      pkt <- to_pkt msg ;;
      o <- expect (parse pkt) "called `Result::unwrap()` on an `Err` value" ;;
      m <- unwrap o ;;
      check (message_eqb msg m)
  end.
