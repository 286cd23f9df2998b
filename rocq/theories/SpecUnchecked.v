(* SpecUnchecked.v: how a message that holds a value out of range is read at the other end, stated without the model's functions.
   Nothing here says how messages are written or read; the fields are those of Msg.v. *)
From Verif Require Import Base Msg.

(* the digits of a number of three digits, and of one of two or three *)
Definition three (n : N) : list N := [n / 100; n / 10 mod 10; n mod 10].
Definition all_digits (n : N) : list N := if n <? 100 then [n / 10; n mod 10] else three n.
(* the number that three digits stand for *)
Definition value3 (a b c : N) : N := 100 * a + 10 * b + c.
Definition type_digit (t : TimeDataType) : N := match t with TD_Exit => 0 | TD_Entry => 1 end.
(* an area of two or three digits moves all that follows: of the digits in a row the first is read as the area, the second as
   the type, three each as the timers, and the one behind as the armed state *)
Definition moved (a b : SendTimeData) : Prop :=
  exists d0 d1 d2 d3 d4 d5 d6 d7 d8 rest s,
    all_digits (ee_area a) ++ [type_digit (ee_ty a)] ++ three (ee_timer1 a) ++ three (ee_timer2 a) =
      d0 :: d1 :: d2 :: d3 :: d4 :: d5 :: d6 :: d7 :: d8 :: rest /\
    nth_error [ARS_Disarmed; ARS_ArmedAway; ARS_ArmedStay; ARS_ArmedStayInstant; ARS_ArmedNight; ARS_ArmedNightInstant; ARS_ArmedVacation] (N.to_nat d8) = Some s /\
    type_digit (ee_ty b) = d1 /\ b = mkEE d0 (ee_ty b) (value3 d2 d3 d4) (value3 d5 d6 d7) (Some s).
(* the same date and time, but for the year *)
Definition same_but_year (d e : DateTime) : Prop :=
  month d = month e /\ day d = day e /\ hour d = hour e /\ minute d = minute e /\ second d = second e.
(* the year 2100 takes three digits: the year is read as 2010, its last digit as the flag for daylight saving time, that
   flag as the clock, and the clock as the order of day and month *)
Definition shifted (r s : RtcData) : Prop :=
  year (datetime r) = 100 /\ year (datetime s) = 10 /\ same_but_year (datetime r) (datetime s) /\
  weekday r = weekday s /\ dst s = false /\
  clock_display s = (if dst r then CD_TwelveHour else CD_TwentyFourHour) /\
  date_display s = match clock_display r with CD_TwelveHour => DD_DayFirst | CD_TwentyFourHour => DD_MonthFirst end.
(* [m] was sent, another message [m'] is received *)
Definition mistaken (m m' : message) : Prop :=
  match m, m' with
  | MSendTimeData a, MSendTimeData b => 10 <= ee_area a /\ moved a b
  | MSendCode a, MSendCode b => 100 <= ic_keypad a /\ b = mkIC (ic_code a) (ic_user a) (ic_keypad a / 10)
  | MRtcResponse a, MRtcResponse b | MHeartbeat a, MHeartbeat b => shifted a b
  | MZoneChange a, MZoneChange b => 16 <= zc_status a /\ b = mkZC (zc_zone a) (zc_status a / 16)
  | _, _ => False
  end.
