(* PropApart.v: C128, what is known of one area or zone, and the others (state.rs). *)
From Verif Require Import Base BaseFacts Pkt SpecPkt PktFacts DecodeFacts Msg SpecMsg DecFacts MsgFacts WireFacts IsoFacts
  Tokio SpecConn ConnFacts State SpecState StateFacts RunFacts HistFacts ViewFacts ExState PropState PropMsg Serde SerdeFacts PropSerde
  Mqtt MqttFacts Config SpecMqtt SpecConfig PropMqtt SpecFollow PropFollow SpecAgree PropAgree SpecApart.
From Coq Require Import ZifyBool ZifyNat ZifyN.
Ltac Zify.zify_post_hook ::= Z.div_mod_to_equations.

Lemma zone_after_news z s ps : zone_after z s (messages_in ps) = last (zone_news z ps) s.
Proof.
  unfold zone_news. induction (messages_in ps) as [|m ms IH] using rev_ind; [reflexivity|].
  rewrite zone_after_app, map_app, catMaybes_app, IH. cbn [map zone_after fold_left].
  destruct m; cbn [of_zone catMaybes]; rewrite ?app_nil_r; try reflexivity.
  - destruct (zc_zone m =? z); cbn [catMaybes]; rewrite ?app_nil_r, ?last_last; reflexivity.
  - destruct (nth_error zones _) eqn:E; cbn [catMaybes]; rewrite ?app_nil_r, ?last_last; [apply nth_error_nth; exact E | apply nth_overflow, nth_error_None; exact E].
Qed.

(* What is known of a zone is the last that was said of it. *)
Theorem C128_zone : forall p0 h p bs z s, reachable p0 -> Forall op_ok h -> run p0 h = Ok (p, bs) -> 1 <= z <= 208 -> zone_status_is p0 z s ->
  zone_status_is p z (last (zone_news z (packets (events bs))) s).
Proof.
  intros p0 h p bs z s R HO E Hz ZS. destruct (reachable_inv _ R) as [I0 _]. rewrite <- zone_after_news. exact (zone_run _ _ _ _ _ _ I0 HO E Hz ZS).
Qed.

Definition inv (h0 : option ArmingStatusReport) (x s0 : ArmingStatusReport) (rs : list ArmingStatusReport) (p : Panel) : Prop :=
  match held p with
  | None => status_is p (last rs x)
  | Some y => y = last rs x /\
      ((rs = [] /\ h0 = Some x /\ status_is p s0) \/ (rs <> [] /\ status_is p (last (removelast rs) x) /\ became_fully_armed (last (removelast rs) x) y))
  end.
Lemma inv_poll now p p' e w h0 x s0 rs : pinv p -> StateFacts.up p -> poll_case now p p' (ev e) w -> inv h0 x s0 rs p ->
  inv h0 x s0 (rs ++ match the_report e with Some r => [r] | None => [] end) p'.
Proof.
  intros I [(a0 & UA) _] C N.
  assert (Same : s_arming (p_state p') = s_arming (p_state p) -> pending_arm p' = pending_arm p -> inv h0 x s0 (rs ++ []) p').
  { intros E1 E2. rewrite app_nil_r. unfold inv, held in *. rewrite E2. destruct (option_map snd (pending_arm p)) as [y|]; [|rewrite status_s in *; rewrite E1; exact N].
    rewrite !status_s in *. rewrite E1. exact N. }
  inversion C as [pkt m e' w' D PK EP PA EM SN ME RE EQ1 EQ2|pkt e' D PK EP MN EM EQ EC EK EQ1 EQ2|d m prior D U X PD LE SA EQ EQ1 EQ2|r NE U PQ EQ EQ1 EQ2]; subst; clear C.
  - assert (K : the_report e = match m with MArmingStatusReport x => Some x | _ => None end) by (unfold the_report; rewrite EM; reflexivity).
    rewrite K. destruct m; cbn [msg_effect] in ME; try (destruct ME as (_ & _ & M3 & M4); apply Same; assumption).
    + destruct ME as (M1 & _). unfold arming_effect in M1. rewrite UA in M1. destruct M1 as [(A0 & AS & A2 & A1 & _)|(_ & A1 & A2 & _)].
      * apply held_none in A0. unfold inv in N. rewrite A0 in N. unfold inv. rewrite (proj2 (held_s p' m)) by eauto. rewrite last_last, removelast_last.
        split; [reflexivity|]. right. split; [destruct rs; discriminate|]. apply status_s in N. rewrite N in UA. injection UA as <-. split; [apply status_s; congruence|].
        apply C24_suspicious_exact. exact AS.
      * apply held_none in A2. unfold inv. rewrite A2, last_last. apply status_s. exact A1.
    + destruct ME as (_ & M3 & M4). apply Same; assumption.
  - assert (K : the_report e = None) by (unfold the_report; rewrite EM; destruct (parse pkt); reflexivity). rewrite K. apply Same; rewrite EQ; reflexivity.
  - cbn [the_report deferred_event e_msg]. rewrite app_nil_r. unfold inv in N. rewrite (proj2 (held_s p m)) in N by eauto. destruct N as [-> _].
    set (c' := p_conn p') in *. clearbody c'. subst p'. unfold inv. apply status_s. reflexivity.
  - elim (NE e). reflexivity.
Qed.
Lemma inv_run p0 h p bs x s0 : reachable p0 -> Forall op_ok h -> run p0 h = Ok (p, bs) -> newest p0 x -> status_is p0 s0 -> inv (held p0) x s0 (reports_in (packets (events bs))) p.
Proof.
  intros R HO E N S0. destruct (reachable_inv _ R) as [I0 U0].
  assert (J0 : inv (held p0) x s0 [] p0).
  { unfold inv. destruct N as [N|[N1 N2]]; [rewrite N | rewrite N1; exact N2]. split; [reflexivity|]. left. auto. }
  refine (proj2 (proj2 (run_ind (fun _ bs p => StateFacts.up p /\ inv (held p0) x s0 (as_reports bs) p) p0 I0 (conj U0 J0) _ h bs p HO E))).
  intros h1 bs1 q o q' b _ _ Iq (Uq & IH) _ _ _ S. split; [eapply up_step; eauto|]. rewrite as_reports_app.
  destruct (step_view _ _ _ _ S Iq) as [(EB & E1 & E2)|(now & r & w & e & -> & -> & Y & EB & C)].
  - rewrite (reports_none _ EB), app_nil_r. unfold inv in *. replace (held q') with (held q) by (unfold held; rewrite E2; reflexivity). unfold status_is, panel_arming_status in *. rewrite E1. exact IH.
  - unfold yields in Y. subst r. unfold as_reports at 2. rewrite EB, (the_report_in _ _ _ _ _ C). exact (inv_poll _ _ _ _ _ _ _ _ _ Iq Uq C IH).
Qed.
Lemma last_map {A B} (f : A -> B) l x : last (map f l) (f x) = f (last l x).
Proof. induction l as [|a [|b l] IH]; [reflexivity | reflexivity|]. exact IH. Qed.
Lemma removelast_map {A B} (f : A -> B) l : removelast (map f l) = map f (removelast l).
Proof. induction l as [|a [|b l] IH]; [reflexivity | reflexivity|]. cbn [map removelast] in *. f_equal. exact IH. Qed.

(* What is known of an area is the last that was said of it; but while a report is held back, the last before that, for all areas: then the
   held report makes some area fully armed that was disarmed (if it was not held from the start). *)
Theorem C128_area : forall p0 h p bs x s0, reachable p0 -> Forall op_ok h -> run p0 h = Ok (p, bs) -> newest p0 x -> status_is p0 s0 ->
  let rs := reports_in (packets (events bs)) in let news a := area_news a (packets (events bs)) in
  match held p with
  | None => forall a, area_is p a (last (news a) (part a x))
  | Some y => y = last rs x /\
      ((rs = [] /\ held p0 = Some x /\ forall a, area_is p a (part a s0)) \/
       (rs <> [] /\ became_fully_armed (last (removelast rs) x) y /\ forall a, area_is p a (last (removelast (news a)) (part a x))))
  end.
Proof.
  intros p0 h p bs x s0 R HO E N S0. cbv zeta. pose proof (inv_run _ _ _ _ _ _ R HO E N S0) as H. unfold inv in H. unfold area_news. destruct (held p) as [y|].
  - destruct H as [-> [(H1 & H0 & H2)|(H1 & H2 & H3)]]; (split; [reflexivity|]); [left; split; [exact H1|]; split; [exact H0|]; intros a; exists s0; auto|].
    right. split; [exact H1|]. split; [exact H3|]. intros a. eexists. split; [exact H2|]. rewrite removelast_map, last_map. reflexivity.
  - intros a. eexists. split; [exact H|]. symmetry. apply last_map.
Qed.

(* So two clients that were told the same of an area know the same of it, whatever they were told of the others, if neither holds a report back. *)
Theorem C128_areas_apart_partial : forall p0 h p bs q0 g q cs a,
  reachable p0 -> Forall op_ok h -> run p0 h = Ok (p, bs) -> reachable q0 -> Forall op_ok g -> run q0 g = Ok (q, cs) ->
  area_news a (packets (events bs)) = area_news a (packets (events cs)) ->
  (area_news a (packets (events bs)) <> [] \/ (held p0 = None /\ held q0 = None /\ same_area p0 q0 a)) -> held p = None -> held q = None ->
  same_area p q a.
Proof.
  intros p0 h p bs q0 g q cs a R HO E R' HO' E' EN NE HP HQ. destruct (reachable_inv _ R) as [I0 U0], (reachable_inv _ R') as [J0 V0].
  destruct (newest_ex _ U0) as (x & NX), (newest_ex _ V0) as (y & NY). destruct (proj1 U0) as (s0 & S0), (proj1 V0) as (t0 & T0). apply status_s in S0, T0.
  pose proof (C128_area _ _ _ _ _ _ R HO E NX S0) as H1. pose proof (C128_area _ _ _ _ _ _ R' HO' E' NY T0) as H2. cbv zeta in H1, H2. rewrite HP in H1. rewrite HQ in H2.
  specialize (H1 a). specialize (H2 a). rewrite <- EN in H2.
  assert (EQ : last (area_news a (packets (events bs))) (part a x) = last (area_news a (packets (events bs))) (part a y)).
  { destruct NE as [NE|(N1 & N2 & SA)]; [apply last_indep; exact NE|]. f_equal.
    destruct NX as [NX|[_ NX]]; [congruence|]. destruct NY as [NY|[_ NY]]; [congruence|].
    destruct (proj1 (SA (part a x)) (ex_intro _ x (conj NX eq_refl))) as (y' & SY & PY). unfold status_is in *. congruence. }
  rewrite EQ in H1. clear EQ.
  assert (F : forall p v v', area_is p a v -> area_is p a v' -> v = v') by (intros p1 v v' (r & A1 & A2) (r' & A3 & A4); unfold status_is in *; congruence).
  intros v. split; intros A; [rewrite (F _ _ _ A H1); exact H2 | rewrite (F _ _ _ A H2); exact H1].
Qed.

(* A client holds nothing back if by no report any area becomes fully armed from disarmed at once. *)
Theorem C128_nothing_held : forall p0 h p bs x, reachable p0 -> Forall op_ok h -> run p0 h = Ok (p, bs) -> held p0 = None -> status_is p0 x ->
  none_at_once x (reports_in (packets (events bs))) -> held p = None.
Proof.
  intros p0 h p bs x R HO E HP SX NO. assert (N : newest p0 x) by (right; auto).
  pose proof (inv_run _ _ _ _ _ _ R HO E N SX) as H. unfold inv in H. destruct (held p) as [y|] eqn:EH; [|reflexivity].
  exfalso. destruct H as [-> [(H1 & H2 & H3)|(H1 & H2 & H3)]]; [congruence|].
  set (rs := reports_in (packets (events bs))) in *. clearbody rs. destruct (exists_last H1) as (l & r & ->). rewrite last_last, removelast_last in H3.
  destruct l as [|b l] using rev_ind; [exact (NO [] x r [] eq_refl H3)|]. rewrite last_last in H3.
  refine (NO (x :: l) b r [] _ H3). rewrite <- app_assoc. reflexivity.
Qed.

(* The areas are not independent of each other: told the same of area 1, two clients know differently of it, as one was also told that area 2,
   disarmed before, is fully armed. *)
Definition ex_alarm (second_armed : bool) : ArmingStatusReport :=
  mkAS (AST_Disarmed :: (if second_armed then AST_ArmedAway else AST_Disarmed) :: repeat AST_Disarmed 6)
    (AU_ReadyToArm :: (if second_armed then AU_ArmedFully else AU_ReadyToArm) :: repeat AU_ReadyToArm 6) (AA_PoliceAlarm :: repeat AA_NoAlarmActive 7) 0.
Definition ex_told (second_armed : bool) : list op := [Arrive (Bytes (bytes_of (MArmingStatusReport (ex_alarm second_armed)))); PollNext 0; PollNext 1].
Lemma ex_told_ok b : Forall op_ok (ex_told b).
Proof.
  apply Forall_cons; [apply Forall_forall; intros x Hx; apply N.ltb_lt; revert x Hx; apply forallb_forall; destruct b; vm_compute; reflexivity|].
  repeat (apply Forall_cons; [exact Logic.I|]). constructor.
Qed.
Theorem C128_areas_apart_refuted : exists p0 h p bs g q cs,
  connected p0 /\ held p0 = None /\ Forall op_ok h /\ run p0 h = Ok (p, bs) /\ Forall op_ok g /\ run p0 g = Ok (q, cs) /\ all_read p /\ all_read q /\
  area_news 0 (packets (events bs)) = area_news 0 (packets (events cs)) /\ area_news 0 (packets (events bs)) <> [] /\
  area_is p 0 (Some AST_Disarmed, Some AU_ReadyToArm, Some AA_PoliceAlarm) /\ area_is q 0 (Some AST_Disarmed, Some AU_ReadyToArm, Some AA_NoAlarmActive).
Proof.
  exists ex_panel, (ex_told false), (after ex_panel (ex_told false)), (seen_by ex_panel (ex_told false)),
    (ex_told true), (after ex_panel (ex_told true)), (seen_by ex_panel (ex_told true)).
  split; [exact ex_connected|]. split; [vm_compute; reflexivity|]. split; [apply ex_told_ok|]. split; [vm_compute; reflexivity|]. split; [apply ex_told_ok|]. split; [vm_compute; reflexivity|].
  split; [eexists; vm_compute; reflexivity|]. split; [eexists; vm_compute; reflexivity|]. split; [vm_compute; reflexivity|]. split; [vm_compute; discriminate|].
  split; [exists (ex_alarm false) | exists ex_disarmed]; split; vm_compute; reflexivity.
Qed.

(* The bridge shows an alarm of an area that was reported, unless that report is held back; then by it some area becomes fully armed. *)
Theorem C128_alarm_partial : forall cl cfg is u area name x al,
  bridge_after cl cfg is (Up u) -> distinct_area_names cfg -> In (area, name) (areas cfg) ->
  newest (u_panel u) x -> nth_error (alarm_state x) (N.to_nat (area - 1)) = Some al -> is_alarm al -> al <> AA_FireAlarm ->
  holds (u_log u) (topic_prefix cfg ++ B "/area/" ++ name ++ B "/ha_state") (PText (B "triggered")) \/
  held (u_panel u) = Some x /\ exists r, status_is (u_panel u) r /\ became_fully_armed r x.
Proof.
  intros cl cfg is u area name x al BA DN I NX NA AL NF. destruct (C48_area_topics_match cl cfg is u area name BA DN I) as (t & (r & s & up & al' & S1 & S2 & S3) & H).
  destruct NX as [NX|[_ NX]].
  - right. split; [exact NX|]. exists r. split; [exact S1|]. pose proof BA as BA'. rewrite <- (app_nil_r is) in BA'. destruct (bridge_between cl cfg is u [] u BA BA') as [(R & _) _].
    destruct (reachable_inv _ R) as [(_ & _ & _ & AO & _) _]. apply suspicious_spec. apply held_s in NX as (d & NX). apply status_s in S1. unfold arming_ok in AO. rewrite NX, S1 in AO. apply AO.
  - left. unfold status_is in *. assert (r = x) as -> by congruence. destruct S2 as (_ & _ & S2). assert (al' = al) as -> by congruence.
    destruct S3 as [(_ & ->)|[(-> & _)|[(N & _)|(N & _)]]]; [exact H| |elim N; auto|elim N; auto].
    exfalso. revert AL. clear. unfold is_alarm. cbn. intuition discriminate.
Qed.
Definition ex_told_in : list input := [NetArrive (Bytes (bytes_of (MArmingStatusReport (ex_alarm true)))); PollPanel 7; PollPanel 8].
Lemma ex_told_in_ok : Forall input_ok (ex_start ++ ex_told_in).
Proof.
  apply Forall_app. split; [exact ex_start_ok|].
  apply Forall_cons; [apply Forall_forall; intros x Hx; apply N.ltb_lt; revert x Hx; apply forallb_forall; vm_compute; reflexivity|].
  repeat (apply Forall_cons; [exact Logic.I|]). constructor.
Qed.
Definition ex_hidden : up := Eval vm_compute in up_of (brun ex_cl ex_cfg (ex_start ++ ex_told_in)).
Theorem C128_alarm_refuted : exists cl cfg is u area name x al,
  bridge_after cl cfg is (Up u) /\ distinct_area_names cfg /\ In (area, name) (areas cfg) /\ all_read (u_panel u) /\
  newest (u_panel u) x /\ nth_error (alarm_state x) (N.to_nat (area - 1)) = Some al /\ is_alarm al /\ al <> AA_FireAlarm /\
  holds (u_log u) (topic_prefix cfg ++ B "/area/" ++ name ++ B "/ha_state") (PText (B "disarmed")).
Proof.
  assert (BA : bridge_after ex_cl ex_cfg (ex_start ++ ex_told_in) (Up ex_hidden)) by (split; [exact ex_told_in_ok | vm_compute; reflexivity]).
  assert (DN : distinct_area_names ex_cfg) by (unfold distinct_area_names; cbn; repeat constructor; cbn; tauto).
  assert (IA : In (1, B "house") (areas ex_cfg)) by (left; reflexivity).
  destruct (C48_area_topics_match ex_cl ex_cfg _ ex_hidden 1 (B "house") BA DN IA) as (t & (r & s & up & al & S1 & (S2 & S3 & S4) & S5) & H).
  assert (X : panel_arming_status (u_panel ex_hidden) = Ok ex_disarmed) by (vm_compute; reflexivity).
  unfold status_is in S1. rewrite X in S1. injection S1 as <-. cbn in S2, S3, S4. injection S2 as <-. injection S3 as <-. injection S4 as <-.
  exists ex_cl, ex_cfg, (ex_start ++ ex_told_in), ex_hidden, 1, (B "house"), (ex_alarm true), AA_PoliceAlarm.
  split; [exact BA|]. split; [exact DN|]. split; [exact IA|]. split; [eexists; vm_compute; reflexivity|]. split; [left; vm_compute; reflexivity|]. split; [reflexivity|].
  split; [unfold is_alarm; intros A; cbn in A; intuition discriminate|]. split; [discriminate|].
  destruct S5 as [((A & _) & _)|[(A & _)|[(_ & _ & A & _)|(_ & _ & _ & A)]]]; [|discriminate A|discriminate A|].
  - exfalso. revert A. unfold is_alarm. cbn. intuition discriminate.
  - assert (t = B "disarmed") as ->; [|exact H]. revert A. clear. cbn. intuition congruence.
Qed.

(* ---- examples ---- *)
(* zone 2 is told of twice, zone 3 in between *)
Definition ex_three : list op :=
  [Arrive (Bytes (bytes_of (MZoneChange (mkZC 2 1)) ++ bytes_of (MZoneChange (mkZC 3 6)) ++ bytes_of (MZoneChange (mkZC 2 2)))); PollNext 0; PollNext 1; PollNext 2].
Example C128_zone_example :
  zone_news 2 (packets (events (seen_by ex_panel ex_three))) = [1; 2] /\ zone_news 3 (packets (events (seen_by ex_panel ex_three))) = [6] /\
  zone_news 4 (packets (events (seen_by ex_panel ex_three))) = [] /\
  match panel_zone_statuses (after ex_panel ex_three) with Ok zs => firstn 4 zs | _ => [] end = [2; 2; 6; 0].
Proof. vm_compute. repeat split. Qed.
(* area 2 starts to arm with an exit delay, or does not: area 1 is known alike *)
Definition ex_leaving : ArmingStatusReport :=
  mkAS (AST_Disarmed :: AST_ArmedAway :: repeat AST_Disarmed 6) (AU_ReadyToArm :: AU_ArmedWithExitTimer :: repeat AU_ReadyToArm 6) (AA_PoliceAlarm :: repeat AA_NoAlarmActive 7) 0.
Definition ex_told2 : list op := [Arrive (Bytes (bytes_of (MArmingStatusReport ex_leaving))); PollNext 0; PollNext 1].
Example C128_area_example :
  held (after ex_panel ex_told2) = None /\ held (after ex_panel (ex_told false)) = None /\ held (after ex_panel (ex_told true)) = Some (ex_alarm true) /\
  area_news 0 (packets (events (seen_by ex_panel ex_told2))) = area_news 0 (packets (events (seen_by ex_panel (ex_told false)))) /\
  area_news 0 (packets (events (seen_by ex_panel ex_told2))) = [(Some AST_Disarmed, Some AU_ReadyToArm, Some AA_PoliceAlarm)] /\
  area_news 1 (packets (events (seen_by ex_panel ex_told2))) <> area_news 1 (packets (events (seen_by ex_panel (ex_told false)))) /\
  panel_arming_status (after ex_panel ex_told2) = Ok ex_leaving /\ panel_arming_status (after ex_panel (ex_told false)) = Ok (ex_alarm false).
Proof. vm_compute. repeat split. discriminate. Qed.
Example C128_nothing_held_example : held ex_panel = None /\ status_is ex_panel ex_disarmed /\ none_at_once ex_disarmed (reports_in (packets (events (seen_by ex_panel ex_told2)))).
Proof.
  split; [vm_compute; reflexivity|]. split; [vm_compute; reflexivity|].
  assert (X : reports_in (packets (events (seen_by ex_panel ex_told2))) = [ex_leaving]) by (vm_compute; reflexivity). rewrite X. clear X.
  assert (S : is_transition_suspicious ex_disarmed ex_leaving = false) by (vm_compute; reflexivity).
  intros l r r' l' EQ BF. apply suspicious_spec in BF. destruct l as [|b [|c l]]; [|destruct l'; discriminate EQ|destruct l; discriminate EQ].
  injection EQ as <- <- _. congruence.
Qed.
Example C128_alarm_example : newest (u_panel ex_hidden) (ex_alarm true) /\ held (u_panel ex_hidden) = Some (ex_alarm true) /\
  retained (u_log ex_hidden) (B "elkm1/0001/area/house/ha_state") = Some (PText (B "disarmed")) /\
  (* five seconds later *)
  retained (u_log (up_of (brun ex_cl ex_cfg (ex_start ++ ex_told_in ++ [PollPanel 5007])))) (B "elkm1/0001/area/house/ha_state") = Some (PText (B "triggered")).
Proof. split; [left; vm_compute; reflexivity|]. vm_compute. repeat split. Qed.

Print Assumptions C128_zone.
Print Assumptions C128_area.
Print Assumptions C128_areas_apart_partial.
Print Assumptions C128_nothing_held.
Print Assumptions C128_areas_apart_refuted.
Print Assumptions C128_alarm_partial.
Print Assumptions C128_alarm_refuted.
