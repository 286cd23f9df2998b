(* SpecMsg.v: what messages mean on the wire, stated without the model's functions.
   Only the types of Msg.v are used (Print: [message] and its records and enums). *)
From Verif Require Import Base Pkt SpecPkt Msg.

(* ---- decimal fields ---- *)
Definition digits (s : bytes) : Prop := Forall (fun c => ch "0" <= c <= ch "9") s.
Definition dec_value (s : bytes) : N := fold_left (fun acc c => acc * 10 + (c - ch "0")) s 0.
(* exactly w digits, value n *)
Definition dec_canon (w : nat) (n : N) (s : bytes) : Prop :=
  length s = w /\ digits s /\ dec_value s = n.
(* what is accepted on input: w characters, digits with an optional leading '+', value at most 255 *)
Definition dec_field (w : nat) (n : N) (s : bytes) : Prop :=
  length s = w /\ n <= 255 /\
  exists ds, (s = ds \/ s = ch "+" :: ds) /\ ds <> [] /\ digits ds /\ dec_value ds = n.

(* ---- enumerations: the documented values in order, the first one having the given character ---- *)
Definition coded {A : Type} (first : N) (l : list A) (v : A) (c : N) : Prop :=
  exists i, nth_error l i = Some v /\ c = first + N.of_nat i.

Definition arm_levels : list ArmLevel :=
  [AL_Disarm; AL_ArmedAway; AL_ArmedStay; AL_ArmedStayInstant; AL_ArmedNight; AL_ArmedNightInstant;
   AL_ArmedVacation; AL_ArmToNextAwayMode; AL_ArmToNextStayMode; AL_ForceArmToAway; AL_ForceArmToStay].
Definition arming_statuses : list ArmingStatus :=
  [AST_Disarmed; AST_ArmedAway; AST_ArmedStay; AST_ArmedStayInstant; AST_ArmedNight;
   AST_ArmedNightInstant; AST_ArmedVacation].
Definition arm_up_states : list ArmUpState :=
  [AU_NotReadyToArm; AU_ReadyToArm; AU_ReadyToForceArm; AU_ArmedWithExitTimer; AU_ArmedFully;
   AU_ForceArmedWithForceArmZoneViolated; AU_ArmedWithBypass].
Definition alarm_states : list AlarmState :=
  [AA_NoAlarmActive; AA_EntranceDelayActive; AA_AlarmAbortDelayActive; AA_FireAlarm; AA_MedicalAlarm;
   AA_PoliceAlarm; AA_BurglarAlarm; AA_Aux1Alarm; AA_Aux2Alarm; AA_Aux3Alarm; AA_Aux4Alarm;
   AA_CarbonMonoxideAlarm; AA_EmergencyAlarm; AA_FreezeAlarm; AA_GasAlarm; AA_HeatAlarm; AA_WaterAlarm;
   AA_FireSupervisory; AA_VerifyFire].
Definition armed_states : list ArmedState :=
  [ARS_Disarmed; ARS_ArmedAway; ARS_ArmedStay; ARS_ArmedStayInstant; ARS_ArmedNight;
   ARS_ArmedNightInstant; ARS_ArmedVacation].
Definition weekdays : list Weekday := [WD_Sun; WD_Mon; WD_Tue; WD_Wed; WD_Thu; WD_Fri; WD_Sat].
Definition text_types : list TextDescriptionType :=
  [TT_Zone; TT_Area; TT_User; TT_Keypad; TT_Output; TT_Task; TT_Telephone; TT_Light; TT_AlarmDuration;
   TT_CustomSettings; TT_Counter; TT_Thermostat; TT_FunctionKey1; TT_FunctionKey2; TT_FunctionKey3;
   TT_FunctionKey4; TT_FunctionKey5; TT_FunctionKey6; TT_AudioZone; TT_AudioSource].

Definition arm_level_code := coded (ch "0") arm_levels.
Definition arming_status_code := coded (ch "0") arming_statuses.
Definition arm_up_code := coded (ch "0") arm_up_states.
Definition alarm_code := coded (ch "0") alarm_states.
Definition armed_state_code := coded (ch "0") armed_states.
Definition weekday_code := coded (ch "1") weekdays.
Definition time_type_code := coded (ch "0") [TD_Exit; TD_Entry].
Definition bool_code := coded (ch "0") [false; true].
Definition clock_code := coded (ch "0") [CD_TwentyFourHour; CD_TwelveHour].
Definition date_code := coded (ch "0") [DD_MonthFirst; DD_DayFirst].
Definition text_type_number := coded 0 text_types.

(* ---- documented ranges ---- *)
Definition area_ok (n : N) : Prop := 1 <= n <= 8.
Definition keypad_ok (n : N) : Prop := 1 <= n <= 16.
Definition task_ok (n : N) : Prop := 1 <= n <= 32.
Definition zone_ok (n : N) : Prop := 1 <= n <= 208.
Definition arm_code_ok (s : bytes) : Prop := length s = 6%nat /\ digits s.
Definition text_ok (s : bytes) : Prop := length s = 16%nat /\ Forall printable s.
Definition datetime_ok (d : DateTime) : Prop :=
  year d < 100 /\ 1 <= month d <= 12 /\ 1 <= day d <= 31 /\ hour d < 24 /\ minute d < 60 /\ second d < 60.
Definition as_ok (r : ArmingStatusReport) : Prop :=
  length (arming_status r) = 8%nat /\ length (up_state r) = 8%nat /\ length (alarm_state r) = 8%nat /\
  first_exit_time r <= 255.
Definition zones_ok (z : list N) : Prop := length z = 208%nat /\ Forall (fun s => s < 16) z.

Definition wf_message (m : message) : Prop :=
  match m with
  | MArmRequest r => area_ok (ar_area r) /\ arm_code_ok (ar_code r)
  | MArmingStatusReport r => as_ok r
  | MSendTimeData r => area_ok (ee_area r) /\ ee_timer1 r <= 255 /\ ee_timer2 r <= 255
  | MSendCode r => length (ic_code r) = 6%nat /\ u8s (ic_code r) /\ ic_user r <= 255 /\ keypad_ok (ic_keypad r)
  | MRtcResponse r | MHeartbeat r => datetime_ok (datetime r)
  | MStringDescriptionRequest r => sdq_num r <= 255
  | MStringDescriptionResponse r => sd_num r <= 255 /\ text_ok (sd_text r)
  | MActivateTask t | MTaskChange t => task_ok t
  | MZoneChange r => zone_ok (zc_zone r) /\ zc_status r < 16
  | MZoneStatusReport z => zones_ok z
  | MArmingStatusRequest | MRtcRequest | MZoneStatusRequest => True
  end.

(* ---- layouts, parametrised by how decimal fields are written ---- *)
Section layout.
Context (dec : nat -> N -> bytes -> Prop).

Definition arm_layout (m : ArmRequest) (tail body : bytes) : Prop :=
  exists l a, body = [ch "a"; l] ++ a ++ ar_code m ++ tail /\
    arm_level_code (ar_level m) l /\ dec 1%nat (ar_area m) a /\ area_ok (ar_area m) /\ arm_code_ok (ar_code m).

Definition as_layout (m : ArmingStatusReport) (tail body : bytes) : Prop :=
  exists s u a t, body = B "AS" ++ s ++ u ++ a ++ t ++ tail /\
    Forall2 arming_status_code (arming_status m) s /\ length s = 8%nat /\
    Forall2 arm_up_code (up_state m) u /\ length u = 8%nat /\
    Forall2 alarm_code (alarm_state m) a /\ length a = 8%nat /\
    hex2 (first_exit_time m) t.

(* the final 's' is the optional armed state *)
Definition ee_layout (m : SendTimeData) (s tail body : bytes) : Prop :=
  exists a ty t1 t2, body = B "EE" ++ [a; ty] ++ t1 ++ t2 ++ s ++ tail /\
    area_ok (ee_area m) /\ a = ch "0" + ee_area m /\ time_type_code (ee_ty m) ty /\
    dec 3%nat (ee_timer1 m) t1 /\ dec 3%nat (ee_timer2 m) t2 /\
    match ee_armed_state m with
    | Some v => exists c, s = [c] /\ armed_state_code v c
    | None => s = []
    end.

Definition ic_layout (m : SendCode) (tail body : bytes) : Prop :=
  exists code u k, body = B "IC" ++ concat code ++ u ++ k ++ tail /\
    Forall2 hex2 (ic_code m) code /\ length code = 6%nat /\
    dec 3%nat (ic_user m) u /\ dec 2%nat (ic_keypad m) k /\ keypad_ok (ic_keypad m).

Definition rtc_layout (m : RtcData) (tail data : bytes) : Prop :=
  exists se mi h wd d mo y ds cd dd, data = se ++ mi ++ h ++ [wd] ++ d ++ mo ++ y ++ [ds; cd; dd] ++ tail /\
    dec 2%nat (second (datetime m)) se /\ dec 2%nat (minute (datetime m)) mi /\ dec 2%nat (hour (datetime m)) h /\
    weekday_code (weekday m) wd /\
    dec 2%nat (day (datetime m)) d /\ dec 2%nat (month (datetime m)) mo /\ dec 2%nat (year (datetime m)) y /\
    bool_code (dst m) ds /\ clock_code (clock_display m) cd /\ date_code (date_display m) dd /\
    datetime_ok (datetime m).

Definition sdq_layout (m : StringDescriptionRequest) (tail body : bytes) : Prop :=
  exists ty t n, body = B "sd" ++ t ++ n ++ tail /\
    text_type_number (sdq_ty m) ty /\ dec 2%nat ty t /\ dec 3%nat (sdq_num m) n.

Definition sd_layout (m : StringDescriptionResponse) (tail body : bytes) : Prop :=
  exists ty t n, body = B "SD" ++ t ++ n ++ sd_text m ++ tail /\
    text_type_number (sd_ty m) ty /\ dec 2%nat ty t /\ dec 3%nat (sd_num m) n /\ length (sd_text m) = 16%nat.

Definition task_layout (cmd : bytes) (task : N) (tail body : bytes) : Prop :=
  exists n, body = cmd ++ n ++ tail /\ dec 3%nat task n /\ task_ok task.

Definition zc_layout (m : ZoneChange) (tail body : bytes) : Prop :=
  exists n c, body = B "ZC" ++ n ++ [c] ++ tail /\ dec 3%nat (zc_zone m) n /\ zone_ok (zc_zone m) /\
    hex_digit (N.to_nat (zc_status m)) c.

Definition zs_layout (z : list N) (tail body : bytes) : Prop :=
  exists s, body = B "ZS" ++ s ++ tail /\ length s = 208%nat /\
    Forall2 (fun v c => hex_digit (N.to_nat v) c) z s.
End layout.

(* ---- output: the documented wire format, with the reserved zeros ---- *)
Definition wire (m : message) (body : bytes) : Prop :=
  match m with
  | MArmRequest m => arm_layout dec_canon m (B "00") body
  | MArmingStatusRequest => body = B "as00"
  | MArmingStatusReport m => as_layout m [] body
  | MSendTimeData m => exists s, ee_layout dec_canon m s (B "00") body
  | MSendCode m => ic_layout dec_canon m (B "00") body
  | MRtcRequest => body = B "rr00"
  | MRtcResponse m => exists d, body = B "RR" ++ d /\ rtc_layout dec_canon m [] d
  | MStringDescriptionRequest m => sdq_layout dec_canon m (B "00") body
  | MStringDescriptionResponse m => sd_layout dec_canon m (B "00") body
  | MActivateTask t => task_layout dec_canon (B "tn") t (B "00") body
  | MTaskChange t => task_layout dec_canon (B "TC") t (B "000") body
  | MHeartbeat m => exists d, body = B "XK" ++ d /\ rtc_layout dec_canon m [] d
  | MZoneChange m => zc_layout dec_canon m (B "00") body
  | MZoneStatusRequest => body = B "zs00"
  | MZoneStatusReport z => zs_layout z (B "00") body
  end.

(* ---- input: what parse accepts; reserved characters are not inspected ---- *)
Definition grammar (m : message) (body : bytes) : Prop :=
  exists tail,
  match m with
  | MArmRequest m => arm_layout dec_field m tail body /\ (2 <= length tail)%nat
  | MArmingStatusRequest => body = B "as" ++ tail /\ (2 <= length tail)%nat
  | MArmingStatusReport m => as_layout m tail body
  | MSendTimeData m => exists s, ee_layout dec_field m s tail body /\
      (* the armed state is present exactly when more than the two reserved characters follow *)
      match ee_armed_state m with
      | Some _ => (2 <= length tail)%nat
      | None => length tail = 2%nat
      end
  | MSendCode m => ic_layout dec_field m tail body /\ (2 <= length tail)%nat
  | MRtcRequest => body = B "rr" ++ tail /\ (2 <= length tail)%nat
  | MRtcResponse m => exists d, body = B "RR" ++ d /\ rtc_layout dec_field m tail d
  | MStringDescriptionRequest m => sdq_layout dec_field m tail body
  | MStringDescriptionResponse m => sd_layout dec_field m tail body
  | MActivateTask t => task_layout dec_field (B "tn") t tail body
  | MTaskChange t => task_layout dec_field (B "TC") t tail body
  | MHeartbeat m => exists d, body = B "XK" ++ d /\ rtc_layout dec_field m tail d
  | MZoneChange m => zc_layout dec_field m tail body
  | MZoneStatusRequest => body = B "zs" ++ tail /\ (2 <= length tail)%nat
  | MZoneStatusReport z => zs_layout z tail body
  end.

(* the supported commands *)
Definition supported (cmd : bytes) : Prop :=
  In cmd [B "as"; B "AS"; B "EE"; B "IC"; B "rr"; B "RR"; B "sd"; B "SD"; B "tn"; B "TC"; B "XK"; B "ZC"; B "zs"; B "ZS"]
  \/ exists l c, arm_level_code l c /\ cmd = [ch "a"; c].

(* ---- requests and replies ---- *)
Definition replies (m r : message) : Prop :=
  match m, r with
  | MArmingStatusReport _, MArmingStatusRequest => True
  | MZoneStatusReport _, MZoneStatusRequest => True
  | MRtcResponse _, MRtcRequest => True
  | MSendCode _, MArmRequest _ => True
  | MTaskChange t, MActivateTask t' => t = t'
  | MStringDescriptionResponse s, MStringDescriptionRequest q =>
      sd_ty s = sdq_ty q /\ (sd_num s = 0 \/ sdq_num q <= sd_num s)
  | _, _ => False
  end.

(* ---- ISO 8601 ---- *)
Definition two (n : N) (s : bytes) : Prop := dec_canon 2 n s.
Definition iso_of (d : DateTime) (s : bytes) : Prop :=
  exists y mo dd h mi se,
    s = B "20" ++ y ++ B "-" ++ mo ++ B "-" ++ dd ++ B "T" ++ h ++ B ":" ++ mi ++ B ":" ++ se /\
    two (year d) y /\ two (month d) mo /\ two (day d) dd /\ two (hour d) h /\ two (minute d) mi /\ two (second d) se.
(* what from_iso_8601 accepts: a four-digit year in 2000..2100, the other fields as two characters *)
Definition iso_accepts (d : DateTime) (s : bytes) : Prop :=
  exists Y y mo dd h mi se,
    s = y ++ B "-" ++ mo ++ B "-" ++ dd ++ B "T" ++ h ++ B ":" ++ mi ++ B ":" ++ se /\
    dec_canon 4 Y y /\ 2000 <= Y <= 2100 /\ year d = Y - 2000 /\
    dec_field 2 (month d) mo /\ 1 <= month d <= 12 /\ dec_field 2 (day d) dd /\ 1 <= day d <= 31 /\
    dec_field 2 (hour d) h /\ hour d <= 23 /\ dec_field 2 (minute d) mi /\ minute d <= 59 /\
    dec_field 2 (second d) se /\ second d <= 59.

(* ---- arming ---- *)
Definition entry_delay_modes : list ArmingStatus := [AST_ArmedAway; AST_ArmedStay; AST_ArmedNight; AST_ArmedVacation].
Definition became_fully_armed (from to : ArmingStatusReport) : Prop :=
  exists area mode,
    nth_error (arming_status from) area = Some AST_Disarmed /\
    nth_error (arming_status to) area = Some mode /\ In mode entry_delay_modes /\
    nth_error (up_state to) area = Some AU_ArmedFully.
(* the states that are an actual alarm *)
Definition is_alarm (a : AlarmState) : Prop :=
  ~ In a [AA_NoAlarmActive; AA_EntranceDelayActive; AA_AlarmAbortDelayActive].

(* ---- text ---- *)
(* t is s without its trailing spaces *)
Definition trimmed (s t : bytes) : Prop :=
  exists k, s = t ++ repeat (ch " ") k /\ forall t' c, t = t' ++ [c] -> c <> ch " ".

(* ---- C27: where the text of a date cannot be cut ---- *)
Definition part (s : bytes) (a b : nat) : bytes := firstn (b - a) (skipn a s).
Definition year_text (s : bytes) : Prop := exists y, dec_canon 4 y s /\ 2000 <= y <= 2100.
Definition number_text (lo hi : N) (s : bytes) : Prop := exists n, dec_field 2 n s /\ lo <= n <= hi.
(* the parts of the text in the order they are checked; the hour's range is checked after the separator behind it *)
Definition iso_parts : list (nat * nat * (bytes -> Prop)) :=
  [(0, 4, year_text); (4, 5, eq (B "-")); (5, 7, number_text 1 12); (7, 8, eq (B "-")); (8, 10, number_text 1 31);
   (10, 11, eq (B "T")); (11, 13, number_text 0 255); (13, 14, eq (B ":")); (11, 13, number_text 0 23);
   (14, 16, number_text 0 59); (16, 17, eq (B ":")); (17, 19, number_text 0 59)]%nat.
(* a part ends inside a character, and every part before it is as it should be *)
Definition iso_breaks (s : bytes) : Prop :=
  length s = 19%nat /\
  exists k a b ok c, nth_error iso_parts k = Some (a, b, ok) /\ nth_error s b = Some c /\ 128 <= c < 192 /\
    forall j a' b' ok', (j < k)%nat -> nth_error iso_parts j = Some (a', b', ok') -> ok' (part s a' b').
