(* Eq.v: `==` on messages: derive(PartialEq) on the types of /repo/elkm1/src/msg.rs, which compares discriminants and then fields in order.  Definitions only. *)
From Verif Require Import Base Msg.

(* msg.rs:576-584 DateTime *)
Definition DateTime_eqb (a b : DateTime) : bool :=
  (year a =? year b) && (month a =? month b) && (day a =? day b) && (hour a =? hour b) && (minute a =? minute b) && (second a =? second b).
(* msg.rs:706-716 RtcData *)
Definition RtcData_eqb (a b : RtcData) : bool :=
  DateTime_eqb (datetime a) (datetime b) && Weekday_eqb (weekday a) (weekday b) && Bool.eqb (dst a) (dst b)
  && ClockDisplayMode_eqb (clock_display a) (clock_display b) && DateDisplayMode_eqb (date_display a) (date_display b).
(* derive(PartialEq) on Option; at msg.rs:138-150 *)
Definition option_eqb {A : Type} (eqb : A -> A -> bool) (a b : option A) : bool :=
  match a, b with Some x, Some y => eqb x y | None, None => true | _, _ => false end.
(* msg.rs:114-121 ArmRequest; Area (513) and ArmCode (400) compare what they wrap *)
Definition ArmRequest_eqb (a b : ArmRequest) : bool :=
  (ar_area a =? ar_area b) && ArmLevel_eqb (ar_level a) (ar_level b) && beq (ar_code a) (ar_code b).
(* msg.rs:138-150 SendTimeData *)
Definition SendTimeData_eqb (a b : SendTimeData) : bool :=
  (ee_area a =? ee_area b) && TimeDataType_eqb (ee_ty a) (ee_ty b) && (ee_timer1 a =? ee_timer1 b) && (ee_timer2 a =? ee_timer2 b)
  && option_eqb ArmedState_eqb (ee_armed_state a) (ee_armed_state b).
(* msg.rs:152-169 SendCode *)
Definition SendCode_eqb (a b : SendCode) : bool := beq (ic_code a) (ic_code b) && (ic_user a =? ic_user b) && (ic_keypad a =? ic_keypad b).
(* msg.rs:184-190 StringDescriptionRequest *)
Definition StringDescriptionRequest_eqb (a b : StringDescriptionRequest) : bool := TextDescriptionType_eqb (sdq_ty a) (sdq_ty b) && (sdq_num a =? sdq_num b).
(* msg.rs:192-199 StringDescriptionResponse *)
Definition StringDescriptionResponse_eqb (a b : StringDescriptionResponse) : bool :=
  TextDescriptionType_eqb (sd_ty a) (sd_ty b) && (sd_num a =? sd_num b) && beq (sd_text a) (sd_text b).
(* msg.rs:222-228 ZoneChange; ZoneStatus (853) compares what it wraps *)
Definition ZoneChange_eqb (a b : ZoneChange) : bool := (zc_zone a =? zc_zone b) && (zc_status a =? zc_status b).
(* msg.rs:53-60 Message; the array of 208 zones at 235 *)
Definition message_eqb (a b : message) : bool :=
  match a, b with
  | MArmRequest x, MArmRequest y => ArmRequest_eqb x y
  | MArmingStatusRequest, MArmingStatusRequest => true
  | MArmingStatusReport x, MArmingStatusReport y => ArmingStatusReport_eqb x y
  | MSendTimeData x, MSendTimeData y => SendTimeData_eqb x y
  | MSendCode x, MSendCode y => SendCode_eqb x y
  | MRtcRequest, MRtcRequest => true
  | MRtcResponse x, MRtcResponse y => RtcData_eqb x y
  | MStringDescriptionRequest x, MStringDescriptionRequest y => StringDescriptionRequest_eqb x y
  | MStringDescriptionResponse x, MStringDescriptionResponse y => StringDescriptionResponse_eqb x y
  | MActivateTask x, MActivateTask y => x =? y
  | MTaskChange x, MTaskChange y => x =? y
  | MHeartbeat x, MHeartbeat y => RtcData_eqb x y
  | MZoneChange x, MZoneChange y => ZoneChange_eqb x y
  | MZoneStatusRequest, MZoneStatusRequest => true
  | MZoneStatusReport x, MZoneStatusReport y => beq x y
  | _, _ => false
  end.
