(* SpecTolerant.v: the same JSON, but with members in another order, members nobody knows, and absent members for null.  For C135. *)
From Verif Require Import Base Serde.
From Coq Require Import Permutation Relation_Operators.

(* the names of the members of the objects that elkm1 makes of structs *)
Definition member_names : list bytes :=
  [B "datetime"; B "weekday"; B "dst"; B "clock_display"; B "date_display"; B "area"; B "level"; B "code"; B "armingStatus"; B "upState"; B "alarmState"; B "firstExitTime";
   B "ty"; B "timer1"; B "timer2"; B "armedState"; B "user"; B "keypad"; B "rtcData"; B "num"; B "text"; B "task"; B "zone"; B "status"; B "reason"; B "raw"; B "prior";
   B "pkt"; B "msg"; B "completes"; B "change"].
(* the members that may be absent *)
Definition optional_names : list bytes := [B "armedState"; B "pkt"; B "msg"; B "completes"; B "change"].
(* the names of variants with contents; of those without *)
Definition variant_names : list bytes :=
  [B "armRequest"; B "armingStatusRequest"; B "armingStatusReport"; B "sendTimeData"; B "sendCode"; B "rtcRequest"; B "rtcResponse"; B "stringDescriptionRequest"; B "stringDescriptionResponse";
   B "activateTask"; B "taskChange"; B "heartbeat"; B "zoneChange"; B "zoneStatusRequest"; B "zoneStatusReport"; B "ascii"; B "rp"; B "invalid"; B "armingStatus"; B "Ok"; B "Err"].
Definition unit_names : list bytes :=
  [B "disarm"; B "armedAway"; B "armedStay"; B "armedStayInstant"; B "armedNight"; B "armedNightInstant"; B "armedVacation"; B "armToNextAwayMode"; B "armToNextStayMode"; B "forceArmToAway"; B "forceArmToStay";
   B "exit"; B "entry"; B "disarmed"; B "sun"; B "mon"; B "tue"; B "wed"; B "thu"; B "fri"; B "sat"; B "twentyFourHour"; B "twelveHour"; B "monthFirst"; B "dayFirst";
   B "notReadyToArm"; B "readyToArm"; B "readyToForceArm"; B "armedWithExitTimer"; B "armedFully"; B "forceArmedWithForceArmZoneViolated"; B "armedWithBypass";
   B "noAlarmActive"; B "entranceDelayActive"; B "alarmAbortDelayActive"; B "fireAlarm"; B "medicalAlarm"; B "policeAlarm"; B "burglarAlarm"; B "aux1Alarm"; B "aux2Alarm"; B "aux3Alarm"; B "aux4Alarm";
   B "carbonMonoxideAlarm"; B "emergencyAlarm"; B "freezeAlarm"; B "gasAlarm"; B "heatAlarm"; B "waterAlarm"; B "fireSupervisory"; B "verifyFire";
   B "zone"; B "area"; B "user"; B "keypad"; B "output"; B "task"; B "telephone"; B "light"; B "alarmDuration"; B "customSettings"; B "counter"; B "thermostat";
   B "functionKey1"; B "functionKey2"; B "functionKey3"; B "functionKey4"; B "functionKey5"; B "functionKey6"; B "audioZone"; B "audioSource"].
(* an object that says which variant of an enum it is *)
Definition tag_object (l : list (bytes * value)) : Prop := exists k x, l = [(k, x)] /\ (In k variant_names \/ In k unit_names /\ x = VNull).
(* the members extra may be added to an object with the members l: nobody knows them, or they are null where nothing was *)
Definition addable (l extra : list (bytes * value)) : Prop :=
  NoDup (map fst (filter (fun m => existsb (beq (fst m)) optional_names) extra)) /\
  Forall (fun m => ~ In (fst m) (member_names ++ variant_names ++ unit_names) \/ In (fst m) optional_names /\ snd m = VNull /\ ~ In (fst m) (map fst l)) extra.
(* v' is v, at every depth with the members of objects in any order and with members added; but an object that names a variant has that one member *)
Inductive tolerated : value -> value -> Prop :=
| T_same v : tolerated v v
| T_arr l l' : Forall2 tolerated l l' -> tolerated (VArr l) (VArr l')
| T_obj l l1 extra l' : Forall2 (fun m m' => fst m' = fst m /\ tolerated (snd m) (snd m')) l l1 -> addable l extra -> (extra = [] \/ ~ tag_object l) ->
    Permutation l' (l1 ++ extra) -> tolerated (VObj l) (VObj l').
(* one can be made of the other by such changes, and by undoing them *)
Definition same_json : value -> value -> Prop := clos_refl_sym_trans value tolerated.
