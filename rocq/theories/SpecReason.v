(* SpecReason.v: what error texts say, written without the model's decoder and parser.
   Of Base.v only the printing of numbers, bytes and characters is used; PropReason.v says what they print. *)
From Verif Require Import Base Pkt SpecPkt Msg SpecMsg.

(* ---- numerals ---- *)
(* decimal: digits only, no leading zero *)
Definition numeral (n : N) (s : bytes) : Prop :=
  digits s /\ dec_value s = n /\ s <> [] /\ forall t, s = ch "0" :: t -> t = [].
(* hexadecimal: the digits of n, most significant first *)
Inductive hex_value : bytes -> N -> Prop :=
| HV_nil : hex_value [] 0
| HV_snoc s n i c : hex_value s n -> hex_digit i c -> hex_value (s ++ [c]) (16 * n + N.of_nat i).
(* with at least two digits, and no more than needed *)
Definition hex_numeral (n : N) (s : bytes) : Prop :=
  hex_value s n /\ (length s = 2%nat \/ (2 < length s)%nat /\ forall t, s <> ch "0" :: t).

(* ---- invalid packets ---- *)
(* [explains raw rest why]: why is the reason for reporting the bytes raw, which the bytes rest follow. *)
Definition says (intro : string) (rest : bytes) : string := (intro ++ string_of_bytes rest)%string.
(* raw begins with two hexadigits n and is of the length they announce *)
Definition announced (raw : bytes) : Prop :=
  exists n a b t, raw = [a; b] ++ t /\ hex2 n [a; b] /\ N.of_nat (length t) = n + 2.
Inductive explains (raw rest : bytes) : string -> Prop :=
| X_no_crlf : announced raw -> (forall t, raw <> t ++ [13; 10]) -> explains raw rest "ASCII packet must end with CRLF"
| X_too_short t : announced raw -> raw = t ++ [13; 10] -> (length raw < 8)%nat -> explains raw rest "ASCII packet too short"
| X_checksum_unreadable d a b : announced raw -> raw = d ++ [a; b] ++ [13; 10] -> (4 <= length d)%nat ->
    ~ (is_hex_digit a /\ is_hex_digit b) -> explains raw rest "ASCII packet has unparseable checksum"
| X_checksum_wrong d cc c right_cc right_c : announced raw -> raw = d ++ cc ++ [13; 10] -> (4 <= length d)%nat ->
    hex2 c cc -> hex2 right_c right_cc -> (byte_sum d + right_c) mod 256 = 0 -> c <> right_c ->
    explains raw rest (says "ASCII packet doesn't have expected checksum " right_cc)
| X_character nn before b after cc c i : announced raw -> raw = nn ++ (before ++ b :: after) ++ cc ++ [13; 10] ->
    length nn = 2%nat -> hex2 c cc -> (byte_sum (nn ++ before ++ b :: after) + c) mod 256 = 0 ->
    (1 <= length (before ++ after))%nat -> Forall printable before -> ~ printable b -> numeral (N.of_nat (length before)) i ->
    explains raw rest (says "non-printable character at index " i)
| X_crc d hi lo right_crc s : raw = [16; 2] ++ dle_double d ++ [16; 3] ++ [hi; lo] -> (length raw <= N.to_nat 1024)%nat ->
    crc16_xmodem d right_crc -> hi * 256 + lo <> right_crc -> hex_numeral right_crc s ->
    explains raw rest (says "RP packet doesn't have expected CRC " s)
| X_sequence d c rest' s : raw = [16; 2] ++ dle_double d ++ [16] -> (length raw < N.to_nat 1024)%nat ->
    rest = c :: rest' -> c <> 16 -> c <> 3 -> hex_numeral c s ->
    explains raw rest (says "RP packet has bad sequence DTS " s)
| X_too_long d tail : raw = [16; 2] ++ dle_double d ++ tail -> tail = [] \/ tail = [16] -> length raw = N.to_nat 1024 ->
    explains raw rest "RP packet has no DLE EXT after 1024 bytes"
| X_no_prefix : ~ begins_packet (raw ++ rest) -> explains raw rest "bytes without ASCII length or RP prefix".

(* ---- malformed messages ---- *)
(* What is required, in the order of checking, each with the text saying that it is not so. *)
Definition check : Type := (Prop * string)%type.
Notation req P why := (@pair Prop string P%type why%string).
(* why belongs to the first requirement that is not met *)
Inductive first_violated : list check -> string -> Prop :=
| FV_here (P : Prop) why l : ~ P -> first_violated (req P why :: l) why
| FV_later (P : Prop) other l why : P -> first_violated l why -> first_violated (req P other :: l) why.

Definition byte (i : nat) (data : bytes) : N := nth i data 0.
(* the number a decimal field stands for *)
Definition field_value (s : bytes) : N := dec_value (match s with c :: t => if c =? ch "+" then t else s | [] => s end).
Definition at_least (k : nat) (data : bytes) : check :=
  (req (k <= length data)%nat ("expected at least " ++ show_dec (N.of_nat k) ++ " bytes, got " ++ show_len data)).
Definition a_number (name : string) (s : bytes) : list check :=
  [(req (utf8_valid s = true) (name ++ " expected to be decimal in [0, 255); was bad utf-8"));
   (req (exists n, dec_field (length s) n s) (name ++ " expected to be decimal in [0, 255); got " ++ show_slice s))].
Definition limited (max : N) (s : bytes) : check :=
  (req (1 <= field_value s <= max) (show_dec (field_value s) ++ " not in expected t range of [1, " ++ show_dec max ++ "]")).
Definition one_of {A : Type} (code : A -> N -> Prop) (name : string) (c : N) : check :=
  (req (exists v, code v c) ("bad " ++ name ++ " " ++ show_char c)).
Definition hexadigit (c : N) : check := (req (is_hex_digit c) ("bad zone status " ++ show_char c)).

Definition arm_checks (data : bytes) : list check :=
  (req (9 <= length data)%nat ("Expected ArmRequest to have at least 9 bytes of data, got " ++ show_len data))
  :: a_number "area" (part data 0 1) ++ [limited 8 (part data 0 1); (req (digits (part data 1 7)) "ArmCode must be numeric")].
Definition as_checks (data : bytes) : list check :=
  (req (26 <= length data)%nat "expected at least 26 data")
  :: flat_map (fun i => [one_of arming_status_code "ArmingStatus" (byte i data); one_of arm_up_code "ArmUpState" (byte (8 + i) data);
                         one_of alarm_code "AlarmState" (byte (16 + i) data)]) (seq 0 8)
  ++ [(req (is_hex_digit (byte 24 data) /\ is_hex_digit (byte 25 data)) "bad first_exit_time")].
Definition ee_checks (data : bytes) : list check :=
  [at_least 10 data; (req (area_ok (byte 0 data - ch "0")) ("expected area in [1, 8], got " ++ show_dec (byte 0 data)));
   one_of time_type_code "TimeDataType" (byte 1 data)]
  ++ a_number "timer1" (part data 2 5) ++ a_number "timer2" (part data 5 8)
  ++ [(req ((11 <= length data)%nat -> exists v, armed_state_code v (byte 8 data)) ("bad ArmedState " ++ show_char (byte 8 data)))].
Definition ic_checks (data : bytes) : list check :=
  at_least 19 data :: (req (Forall is_hex_digit (part data 0 12)) "invalid hex code")
  :: a_number "user" (part data 12 15) ++ a_number "keypad" (part data 15 17) ++ [limited 16 (part data 15 17)].
Definition ranged (name : string) (s : bytes) (lo hi : N) : list check :=
  a_number name s ++ [req (lo <= field_value s <= hi) (name ++ " out of range")].
Definition rtc_checks (data : bytes) : list check :=
  (req (16 <= length data)%nat "RTC data must be at least 16 bytes")
  :: a_number "year" (part data 11 13) ++ ranged "month" (part data 9 11) 1 12 ++ ranged "day" (part data 7 9) 1 31
  ++ ranged "hour" (part data 4 6) 0 23 ++ ranged "minute" (part data 2 4) 0 59 ++ ranged "second" (part data 0 2) 0 59
  ++ [one_of weekday_code "Weekday" (byte 6 data); (req (exists v, bool_code v (byte 13 data)) "bad dst flag");
      one_of clock_code "ClockDisplayMode" (byte 14 data); one_of date_code "DateDisplayMode" (byte 15 data)].
Definition text_type (s : bytes) : check :=
  (req (exists v, text_type_number v (field_value s)) ("bad TextDescriptionType " ++ show_dec (field_value s))).
Definition sdq_checks (data : bytes) : list check :=
  at_least 5 data :: a_number "type" (part data 0 2) ++ [text_type (part data 0 2)] ++ a_number "num" (part data 2 5).
(* the text of the first is as it is, not as it should be *)
Definition sd_checks (data : bytes) : list check :=
  (req (21 <= length data)%nat ("expected at least 5 bytes, got " ++ show_len data))
  :: a_number "type" (part data 0 2) ++ [text_type (part data 0 2)] ++ a_number "num" (part data 2 5).
Definition task_checks (data : bytes) : list check :=
  at_least 3 data :: a_number "task" (part data 0 3) ++ [limited 32 (part data 0 3)].
Definition zc_checks (data : bytes) : list check :=
  at_least 4 data :: a_number "zone" (part data 0 3) ++ [limited 208 (part data 0 3); hexadigit (byte 3 data)].
Definition zs_checks (data : bytes) : list check :=
  at_least 208 data :: map (fun i => hexadigit (byte i data)) (seq 0 208).

Definition checks_of (data : bytes) : list (bytes * list check) :=
  [(B "AS", as_checks data); (B "EE", ee_checks data); (B "IC", ic_checks data); (B "RR", rtc_checks data); (B "sd", sdq_checks data);
   (B "SD", sd_checks data); (B "tn", task_checks data); (B "TC", task_checks data); (B "XK", rtc_checks data); (B "ZC", zc_checks data);
   (B "ZS", zs_checks data)].
Inductive malformed (body : bytes) : string -> Prop :=
| MF_short : (length body < 4)%nat -> malformed body "malformed ASCII message: too short"
| MF_arm lvl c data why : body = [ch "a"; c] ++ data -> arm_level_code lvl c -> (2 <= length data)%nat ->
    first_violated (arm_checks data) why -> malformed body why
| MF_other cmd data l why : body = cmd ++ data -> (2 <= length data)%nat -> In (cmd, l) (checks_of data) ->
    first_violated l why -> malformed body why.

(* ---- dates in ISO 8601 ---- *)
Definition decimal (s : bytes) : Prop := exists ds, (s = ds \/ s = ch "+" :: ds) /\ ds <> [] /\ digits ds.
Definition iso_number (name : string) (s : bytes) (lo hi : N) : list check :=
  [(req (exists n, dec_field (length s) n s) ("bad " ++ name)); (req (lo <= field_value s <= hi) (name ++ " " ++ show_dec (field_value s) ++ " out of range"))].
Definition separator (name : string) (sep : bytes) (s : bytes) : check := (req (s = sep) ("bad " ++ name ++ " separator")).
Definition iso_checks (s : bytes) : list check :=
  [(req (length s = 19%nat) "wrong length"); (req (decimal (part s 0 4)) "bad year");
   (req (2000 <= field_value (part s 0 4) <= 2100) ("year " ++ show_dec (field_value (part s 0 4)) ++ " out of range"));
   separator "year-month" (B "-") (part s 4 5)] ++ iso_number "month" (part s 5 7) 1 12
  ++ [separator "month-day" (B "-") (part s 7 8)] ++ iso_number "day" (part s 8 10) 1 31
  ++ [separator "date-time" (B "T") (part s 10 11); (req (exists n, dec_field 2 n (part s 11 13)) "bad hour");
      separator "hour-minute" (B ":") (part s 13 14); (req (field_value (part s 11 13) <= 23) ("hour " ++ show_dec (field_value (part s 11 13)) ++ " out of range"))]
  ++ iso_number "minute" (part s 14 16) 0 59
  ++ [separator "minute-second" (B ":") (part s 16 17); (req (exists n, dec_field 2 n (part s 17 19)) "bad second");
      (req (field_value (part s 17 19) <= 59) "second out of range")].
