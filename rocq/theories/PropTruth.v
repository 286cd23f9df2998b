(* PropTruth.v: C117: if the panel is what it says, the broker shows how things are. *)
From Verif Require Import Base BaseFacts Pkt SpecPkt PktFacts DecodeFacts Msg SpecMsg DecFacts MsgFacts WireFacts IsoFacts
  PropMsg Tokio SpecConn ConnFacts State SpecState StateFacts RunFacts HistFacts ViewFacts ExState PropState
  Serde SerdeFacts PropSerde SpecInit InitFacts PropConnect Mqtt SpecMqtt MqttFacts PropMqtt PropEnd SpecEvery PropEvery WakeBridge SpecHost HostFacts PropHost SpecShown PropShown.
From Verif Require PropQueue.
From Verif Require Import SpecTruth TruthFacts.
From Coq Require Import ZifyBool ZifyNat ZifyN.
Ltac Zify.zify_post_hook ::= Z.div_mod_to_equations.

Lemma spells_prefix b more ps qs left : u8s b -> spells (b ++ more) ps -> drain b = Ok (qs, left) -> exists rest, qs ++ rest = ps.
Proof.
  intros U (fs & V & F & E) D. assert (UA : u8s (b ++ more)) by (rewrite E; eapply frames_u8; eauto).
  assert (D3 : drain (b ++ more) = Ok (ps, [])).
  { rewrite E. apply drain_iff; [eapply frames_u8; eauto|]. pose proof (drains_frames ps fs [] [] [] V F ltac:(constructor) ltac:(constructor; reflexivity)) as H. rewrite !app_nil_r in H. exact H. }
  destruct (prefix_drain _ _ _ _ _ _ UA D D3) as (r & ->). eauto.
Qed.
Lemma takes_same b ps qs b' : u8s b -> takes b ps b' -> takes b qs b' -> ps = qs.
Proof.
  intros U T1 T2. destruct (drain_total _ (takes_u8 _ _ _ T1 U)) as (r & l & _ & D). pose proof (takes_drains _ _ _ T1 _ _ D) as A. pose proof (takes_drains _ _ _ T2 _ _ D) as A2.
  destruct (drains_det _ _ _ A _ _ A2) as [E _]. apply app_inv_tail in E. exact E.
Qed.
Lemma net_in_u8 is : Forall input_ok is -> u8s (net_in is).
Proof.
  induction 1 as [|i is H F IH]; [constructor|]. change (i :: is) with ([i] ++ is). rewrite net_in_app. apply u8s_app. split; [|exact IH].
  unfold net_in. cbn [map concat]. rewrite app_nil_r. destruct i as [[]| | | | | |]; try constructor. exact H.
Qed.

Lemma split_none (l : list packet) : forall i1 (es : list Event) i2, map Some l ++ map e_pkt es = i1 ++ None :: i2 ->
  exists es1 e es2, es = es1 ++ e :: es2 /\ deferred e /\ i1 = map Some l ++ map e_pkt es1.
Proof.
  induction l as [|x l IH]; intros i1 es i2 E.
  - cbn [map app] in *. revert i1 E. induction es as [|e es IE]; intros i1 E; [destruct i1; discriminate|]. destruct i1 as [|i i1]; cbn in E.
    + injection E as E _. exists [], e, es. auto.
    + injection E as <- E. destruct (IE _ E) as (es1 & e' & es2 & -> & DE & ->). exists (e :: es1), e', es2. auto.
  - destruct i1 as [|i i1]; [discriminate|]. cbn [map app] in E. injection E as <- E. destruct (IH _ _ _ E) as (es1 & e & es2 & -> & DE & ->). exists es1, e, es2. auto.
Qed.

(* the configured areas' topics show this arming *)
Definition areas_show (cfg : Cfg) (log : list action) (shown : ArmingStatusReport) : Prop :=
  forall area name, In (area, name) (areas cfg) -> exists s up a t, area_in shown area s up a /\ shows_area s up a t /\
    holds log (topic_prefix cfg ++ B "/area/" ++ name ++ B "/ha_state") (PText t).
Definition zones_show (cfg : Cfg) (log : list action) (zone_is : N -> N) : Prop :=
  forall zone z, In (zone, z) (zones cfg) -> exists t, shows_zone (zone_is zone) t /\
    holds log (topic_prefix cfg ++ B "/zone/" ++ z_name z ++ B "/ha_state") (PText t).

(* ---- at any time ---- *)
(* The panel does ds, and what has arrived so far is some first part of what it sends while doing so.  Take the deeds ds1 of which the bridge has taken up
   everything that was sent (a report still to be corrected not counted).  Then all zones' topics show how the zones were after ds1.  And all areas' topics show how the areas were armed after ds1, or,
   when some area was fully armed by the last report from disarmed, as they were before that report; if spurious reports do not come when the bridge
   waits whether another one is, and are corrected before it has waited long enough. *)
Theorem C117_true_so_far_partial : forall cl cfg is u t0 ds more,
  bridge_after cl cfg is (Up u) -> cfg_ok cfg -> distinct_area_names cfg -> distinct_zone_names cfg ->
  does t0 ds -> spells (net_in is ++ more) (sent ds) ->
  exists ps0 es qs left ds1 ds2,
    drain (net_in is) = Ok (ps0 ++ packets es ++ qs, left) /\
    (forall now p' w, poll_next now (u_panel u) = Ok (p', Pending, w) -> qs = []) /\
    Forall2 (fun e a => exists v, Event_ser e = Ok v /\ Event_de FromText v = Ok e /\ a = APublish (topic_prefix cfg ++ B "/event") false (PJson v))
      es (filter is_event_pub (u_log u)) /\
    ds = ds1 ++ ds2 /\ up_to ds1 ds2 (ps0 ++ packets es) /\
    zones_show cfg (u_log u) (zone_now (after t0 ds1)) /\
    (spaced ds -> in_time ds ps0 es ->
       let now := arming_now (after t0 ds1) in
       areas_show cfg (u_log u) now \/
       exists before dsa dsb rs, areas_show cfg (u_log u) before /\ ds1 = dsa ++ dsb /\ before = arming_now (after t0 dsa) /\
         reports_in (sent ds1) = rs ++ [before; now] /\ became_fully_armed before now).
Proof.
  intros cl cfg is u t0 ds more A K DA DZ D SP. pose proof A as (HI & E). pose proof (bridge_history cl cfg is HI) as H. rewrite E in H.
  destruct H as (h & p0 & u0 & is1 & is2 & HO & E0 & -> & EA & EU & EP & E1). destruct (connected_viewed _ _ HO E0) as (ps & T0 & L0 & Z0).
  pose proof (irun_tracked2 h HO) as TR. rewrite E0 in TR. destruct TR as (ps' & pkt & (T0' & AR) & NR).
  pose proof (takes_same _ _ _ _ (iarrived_u8 _ HO) T0 T0') as EPS. subst ps.
  assert (C : connected p0) by (exists h; auto). destruct (connected_inv _ C) as (I0 & _ & U0 & _).
  destruct (topics_from _ _ _ _ _ _ _ _ _ HO E0 EA EU EP E1 T0 L0 Z0 A K DA DZ) as (es & qs & left & _ & DR & NQ & EV & ZS & _).
  assert (A1 : bridge_after cl cfg is1 (Up u0)) by (apply Forall_app in HI as [HI1 _]; split; auto).
  destruct (C58_events_published _ _ _ _ _ _ A1 A) as (ops & bs & log & H1 & H2 & _ & H4 & H5). rewrite EP in H2.
  assert (EE : es = events bs).
  { apply (same_events (topic_prefix cfg ++ B "/event") _ _ (filter is_event_pub (u_log u))); [exact EV|]. rewrite H4, filter_app, (start_up_no_events _ _ _ _ _ (connected_reachable _ C) EU). exact H5. }
  destruct (spells_prefix _ _ _ _ _ (net_in_u8 _ HI) SP DR) as (rest & ER). rewrite app_assoc, <- app_assoc in ER.
  destruct (up_to_some t0 ds _ _ D ER) as (ds1 & ds2 & ED & UT).
  exists (ps' ++ [pkt]), es, qs, left, ds1, ds2. split; [exact DR|]. split; [exact NQ|]. split; [exact EV|]. split; [exact ED|]. split; [exact UT|]. split.
  { intros zone z HZ. destruct (ZS zone z HZ) as (t & S & Ht). exists t. split; [|exact Ht]. specialize (S (zone_now t0 zone)).
    rewrite (zones_true_up_to t0 ds1 ds2) in S; [exact S | | rewrite <- ED; exact D | exact UT].
    destruct (start_up_ok _ _ _ _ _ (connected_reachable _ C) EU) as ((_ & RZ & _) & _). rewrite Forall_forall in RZ. exact (RZ _ HZ). }
  intros SPA IT now. pose proof (run_arms p0 ops (u_panel u) bs I0 U0 H1 H2) as RA. rewrite <- EE, AR in RA. unfold arm_run in RA. rewrite <- fold_left_app in RA. fold (arm_run (None, None) (map Some (ps' ++ [pkt]) ++ map e_pkt es)) in RA.
  assert (CM : forall (l : list packet) (es : list Event), catMaybes (map Some l ++ map e_pkt es) = l ++ packets es).
  { clear. intros l es. induction l as [|x l IH]; [reflexivity|]. cbn. f_equal. exact IH. }
  destruct (true_so_far t0 ds D SPA (map Some (ps' ++ [pkt]) ++ map e_pkt es) (qs ++ rest)) as (d1 & d2 & ED' & ST).
  { rewrite CM. exact ER. }
  { intros i1 i2 Ei. destruct (split_none _ _ _ _ Ei) as (es1 & e & es2 & -> & DE & ->). destruct (IT es1 e es2 eq_refl DE) as (da & db & X1 & X2). exists da, db. split; [exact X1|]. rewrite CM. exact X2. }
  rewrite CM in ST. assert (UT' : up_to d1 d2 ((ps' ++ [pkt]) ++ packets es)) by (destruct ST as [[X _]|X]; [left; exact X | eapply midway_up_to; exact X]).
  rewrite ED in ED'. destruct (up_to_unique _ _ _ _ _ ED' UT UT') as [<- <-].
  assert (AS : forall r, s_arming (p_state (u_panel u)) = Some r -> areas_show cfg (u_log u) r).
  { intros r Er area name HA. destruct (C48_area_topics_match _ _ _ _ _ _ A DA HA) as (t & (r' & s & up & a & S1 & S2 & S3) & Ht).
    apply status_some in S1. assert (r' = r) by congruence. subst r'. exists s, up, a, t. auto. }
  assert (NE : reports_in ps' <> []).
  { intros X. destruct U0 as ((r & Ur) & _). unfold arms_of in AR. rewrite arm_run_none, Ur in AR; [discriminate AR|]. rewrite reports_in_app, X, NR. reflexivity. }
  rewrite <- RA in ST. unfold arms_of in ST. destruct ST as [[_ ST]|(f & a & x & y & ds3 & E2 & EP3 & ST)].
  - destruct ST as [[_ X]|[[_ X]|(r0 & rs & dsa & dsb & X & Y1 & Y2 & Y3 & Y4)]].
    + destruct (run_up _ _ _ _ I0 U0 H1 H2) as [_ [(r & Ur) _]]. rewrite Ur in X. discriminate X.
    + left. apply AS. injection X as X _. exact X.
    + right. exists r0, dsa, dsb, rs. injection X as X _. split; [apply AS; exact X|]. auto.
  - left. apply AS. destruct ST as [X|[X _]]; [injection X as X _; exact X|]. exfalso.
    destruct (packets es) as [|q qe _] eqn:EQ using rev_ind.
    + rewrite app_nil_r in EP3. apply app_inj_tail in EP3 as [EP3 _]. rewrite <- EP3 in X. auto.
    + rewrite app_assoc in EP3. apply app_inj_tail in EP3 as [EP3 _]. rewrite <- EP3, <- app_assoc, reports_in_app in X. apply app_eq_nil in X as [X _]. auto.
Qed.

(* ---- at rest ---- *)
(* When all the panel has sent while doing ds has arrived, and the bridge waits for more, the zones' topics show how things are.  So do the areas' topics;
   except that when an area was fully armed from disarmed by the last report, they may for up to five seconds show how things were before that. *)
Theorem C117_shows_the_truth : forall cl cfg l u t0 ds,
  Forall hact_ok l -> listening (hrun cl cfg l) -> h_bridge (hrun cl cfg l) = Up u -> cfg_ok cfg -> distinct_area_names cfg -> distinct_zone_names cfg ->
  does t0 ds -> spells (h_bytes l) (sent ds) ->
  let t := after t0 ds in
  zones_show cfg (u_log u) (zone_now t) /\
  (areas_show cfg (u_log u) (arming_now t) \/
   (forall l1 l2, l = l1 ++ l2 -> listening (hrun cl cfg l1) -> ~ quiet_for_5s cl cfg l1 l2) /\
   exists before dsa dsb, areas_show cfg (u_log u) before /\ ds = dsa ++ dsb /\ before = arming_now (after t0 dsa) /\ became_fully_armed before (arming_now t)).
Proof.
  intros cl cfg l u t0 ds F L E K DA DZ D SP. cbv zeta. destruct (C102_up_to_date cl cfg l u F L E K DA DZ) as (ps0 & es & left & DR & _ & ZS & rs & latest & shown & R1 & R2 & R3 & R4).
  assert (ES : ps0 ++ packets es = sent ds).
  { destruct SP as (fs & V & G & EB). rewrite EB in DR. apply drain_iff in DR; [|eapply frames_u8; eauto]. pose proof (drains_frames _ fs [] [] [] V G ltac:(constructor) ltac:(constructor; reflexivity)) as H. rewrite !app_nil_r in H.
    exact (proj1 (drains_det _ _ _ DR _ _ H)). }
  rewrite ES in *. split.
  - destruct (C100_is_the_bridge cl cfg l F) as (is & A & _ & EN). rewrite E in A. pose proof A as (HI & EB). pose proof (bridge_history cl cfg is HI) as H. rewrite EB in H.
    destruct H as (h & p0 & u0 & is1 & is2 & HO & E0 & -> & EA & EU & EP & E1). assert (C : connected p0) by (exists h; auto).
    intros zone z HZ. destruct (ZS zone z HZ) as (x & S & Ht). exists x. split; [|exact Ht]. specialize (S (zone_now t0 zone)). rewrite zones_true in S; [exact S | | exact D].
    destruct (start_up_ok _ _ _ _ _ (connected_reachable _ C) EU) as ((_ & RZ & _) & _). rewrite Forall_forall in RZ. exact (RZ _ HZ).
  - destruct (last_report t0 ds D) as [LR|(rs' & LR)]; rewrite LR in R1; [destruct rs; discriminate|]. apply app_inj_tail in R1 as [<- <-]. destruct R2 as [->|[(rs2 & ->) B]].
    + left. exact R4.
    + rewrite <- app_assoc in LR. cbn [app] in LR. destruct (last_two t0 ds _ _ _ D LR B) as (dsa & dsb & ED & EB).
      right. split; [|exists shown, dsa, dsb; auto].
      intros l1 l2 EL L1 Q. specialize (R3 l1 l2 EL L1 Q). rewrite R3 in B. clear -B. destruct B as (area & mode & S1 & S2 & S3 & _). rewrite S2 in S1. injection S1 as ->. cbn in S3. intuition discriminate.
Qed.

(* ---- what is shown falsely ---- *)
(* an area's topic shows what it never was while the panel did ds *)
Definition shown_falsely (cl : client) (cfg : Cfg) (is : list input) (u : up) (t0 : truth) (ds : list deed) : Prop :=
  bridge_after cl cfg is (Up u) /\ cfg_ok cfg /\ distinct_area_names cfg /\ distinct_zone_names cfg /\
  does t0 ds /\ (exists more, spells (net_in is ++ more) (sent ds)) /\
  exists area name x, In (area, name) (areas cfg) /\ holds (u_log u) (topic_prefix cfg ++ B "/area/" ++ name ++ B "/ha_state") (PText x) /\
    forall dsa dsb s up a, ds = dsa ++ dsb -> area_in (arming_now (after t0 dsa)) area s up a -> ~ shows_area s up a x.
Definition no_waiting_over (cfg : Cfg) (log : list action) : Prop := forall v e, In (APublish (topic_prefix cfg ++ B "/event") false (PJson v)) log -> Event_de FromText v = Ok e -> ~ deferred e.

Definition ex_start2 : list input := map (fun m => NetArrive (Bytes (bytes_of m))) ex_answers ++ repeat (PollConnect 0 [WAccept 100]) 22.
Definition ex_t0 : truth := mkTruth ex_disarmed (fun z => nth (N.to_nat (z - 1)) ex_zones 0).
Definition ex_deeds : list deed :=
  [DArm ex_disarmed (ex_pkt (MArmingStatusReport ex_disarmed)); DZones ex_zones (ex_pkt (MZoneStatusReport ex_zones))] ++ map (fun m => DOther (ex_pkt m)) (skipn 2 ex_answers).
Definition arm_deed (r : ArmingStatusReport) : deed := DArm r (ex_pkt (MArmingStatusReport r)).
Definition slip (f a : ArmingStatusReport) : deed := DSpurious f a (ex_pkt (MArmingStatusReport f)) (ex_pkt (MArmingStatusReport a)).
(* area 2 fully armed; areas 1 and 2; area 2 and, on its exit timer, area 1 *)
Definition ex_second : ArmingStatusReport := mkAS (AST_Disarmed :: AST_ArmedAway :: repeat AST_Disarmed 6) (AU_ReadyToArm :: AU_ArmedFully :: repeat AU_ReadyToArm 6) (repeat AA_NoAlarmActive 8) 0.
Definition ex_both : ArmingStatusReport := mkAS (AST_ArmedAway :: AST_ArmedAway :: repeat AST_Disarmed 6) (AU_ArmedFully :: AU_ArmedFully :: repeat AU_ReadyToArm 6) (repeat AA_NoAlarmActive 8) 0.
Definition ex_both_right : ArmingStatusReport := mkAS (AST_ArmedAway :: AST_ArmedAway :: repeat AST_Disarmed 6) (AU_ArmedWithExitTimer :: AU_ArmedFully :: repeat AU_ReadyToArm 6) (repeat AA_NoAlarmActive 8) 0.
Definition ex_late_deeds : list deed := ex_deeds ++ [slip ex_armed ex_arming].
Definition ex_late : list input := ex_start2 ++ [NetArrive (Bytes (bytes_of (MArmingStatusReport ex_armed))); PollPanel 7; PollPanel 5007].
Definition ex_late_up : up := Eval vm_compute in up_of (brun ex_cl ex_cfg ex_late).
Definition ex_close_deeds : list deed := ex_deeds ++ [arm_deed ex_second; slip ex_both ex_both_right].
Definition ex_close : list input := ex_start2 ++ [NetArrive (Bytes (bytes_of (MArmingStatusReport ex_second))); PollPanel 7; NetArrive (Bytes (bytes_of (MArmingStatusReport ex_both))); PollPanel 7].
Definition ex_close_up : up := Eval vm_compute in up_of (brun ex_cl ex_cfg ex_close).

Lemma does_nil t : does t [].
Proof. intros [|] ? ?; discriminate. Qed.
Lemma does_cons t d ds : fits t d -> does (after1 t d) ds -> does t (d :: ds).
Proof.
  intros F D [|d1 ds1] d' ds2 E; cbn in E; injection E as -> E; [exact F|]. subst ds. exact (D ds1 d' ds2 eq_refl).
Qed.
Lemma fits_zones t : zone_now t = zone_now ex_t0 -> fits t (DZones ex_zones (ex_pkt (MZoneStatusReport ex_zones))).
Proof.
  intros E. split; [vm_compute; reflexivity|]. intros z Hz. rewrite E. cbn [zone_now ex_t0]. apply nth_error_nth'. change (length ex_zones) with 208%nat. unfold zone_ok in Hz. lia.
Qed.
Lemma ex_does ds : does ex_t0 ds -> does ex_t0 (ex_deeds ++ ds).
Proof.
  intros D. unfold ex_deeds. cbn [ex_answers skipn map app]. apply does_cons; [vm_compute; reflexivity|]. apply does_cons; [apply fits_zones; reflexivity|].
  do 5 (apply does_cons; [exact Logic.I|]). exact D.
Qed.
Lemma armed_fully r r' : is_transition_suspicious r r' = true -> became_fully_armed r r'.
Proof. apply suspicious_spec. Qed.
Lemma ex_late_does : does ex_t0 ex_late_deeds.
Proof.
  apply ex_does. apply does_cons; [|apply does_nil]. split; [vm_compute; reflexivity|]. split; [vm_compute; reflexivity|]. split; [apply armed_fully; vm_compute; reflexivity | reflexivity].
Qed.
Lemma ex_close_does : does ex_t0 ex_close_deeds.
Proof.
  apply ex_does. apply does_cons; [vm_compute; reflexivity|]. apply does_cons; [|apply does_nil].
  split; [vm_compute; reflexivity|]. split; [vm_compute; reflexivity|]. split; [apply armed_fully; vm_compute; reflexivity | reflexivity].
Qed.
Lemma ex_late_spaced : spaced ex_late_deeds.
Proof.
  intros ds1 f a x y ds2 rs r r' E R. exfalso.
  assert (N : (length (reports_in (sent ds1)) <= 1)%nat).
  { unfold ex_late_deeds, ex_deeds in E. cbn [ex_answers skipn map app] in E. do 7 (destruct ds1 as [|? ds1]; [discriminate|]; injection E as <- E). destruct ds1 as [|? ds1]; [vm_compute; lia|]. injection E as _ E. destruct ds1; discriminate. }
  rewrite R, app_length in N. cbn in N. lia.
Qed.
Lemma arming_in t0 dsa : forall dsb, In (arming_now (after t0 dsa)) (arming_now t0 :: flat_map (fun d => match d with DArm a _ | DSpurious _ a _ _ => [a] | _ => [] end) (dsa ++ dsb)).
Proof.
  induction dsa as [|d dsa IH] using rev_ind; intros dsb; [left; reflexivity|]. specialize (IH (d :: dsb)). rewrite <- app_assoc. cbn [app]. rewrite after_app.
  change (after (after t0 dsa) [d]) with (after1 (after t0 dsa) d). destruct d; cbn [after1 arming_now]; try exact IH; right; rewrite flat_map_app; apply in_or_app; right; left; reflexivity.
Qed.
Lemma ex_never ds : Forall (fun r => In r [ex_disarmed; ex_arming; ex_second; ex_both_right]) (arming_now ex_t0 :: flat_map (fun d => match d with DArm a _ | DSpurious _ a _ _ => [a] | _ => [] end) ds) ->
  forall dsa dsb s up a, ds = dsa ++ dsb -> area_in (arming_now (after ex_t0 dsa)) 1 s up a -> ~ shows_area s up a (B "armed_away").
Proof.
  intros F dsa dsb s up a -> H X. rewrite Forall_forall in F. specialize (F _ (arming_in ex_t0 dsa dsb)). destruct H as (H1 & H2 & H3).
  assert (Q : (s, up, a) = (AST_Disarmed, AU_ReadyToArm, AA_NoAlarmActive) \/ (s, up, a) = (AST_ArmedAway, AU_ArmedWithExitTimer, AA_NoAlarmActive)).
  { destruct F as [E|[E|[E|[E|[]]]]]; rewrite <- E in H1, H2, H3; vm_compute in H1, H2, H3; injection H1 as <-; injection H2 as <-; injection H3 as <-; auto. }
  destruct Q as [E|E]; injection E as -> -> ->; destruct X as [(_ & X)|[(_ & X)|[(_ & _ & X1 & X)|(_ & _ & X1 & X)]]]; try discriminate; [|congruence].
  cbn in X. repeat (destruct X as [X|X]; [discriminate X|]). exact X.
Qed.
Lemma ex_cfg_fine : cfg_ok ex_cfg /\ distinct_area_names ex_cfg /\ distinct_zone_names ex_cfg.
Proof. split; [repeat split; cbn; repeat constructor; cbn; lia || tauto|]. split; repeat constructor; cbn; tauto. Qed.
Lemma ex_start2_ok : Forall input_ok ex_start2.
Proof. unfold ex_start2. apply Forall_app. split; [|apply Forall_forall; intros x H; apply repeat_spec in H; subst x; exact Logic.I]. repeat constructor. Qed.
(* A report that is held back is put in effect by the next one, whatever that says, or after five seconds.  So a spurious report that is corrected late is
   shown; and one that comes while a right one is held back is shown at once. *)
Theorem C117_areas_true_refuted :
  (exists cl cfg is u t0 ds, shown_falsely cl cfg is u t0 ds /\ spaced ds) /\
  (exists cl cfg is u t0 ds, shown_falsely cl cfg is u t0 ds /\ no_waiting_over cfg (u_log u)).
Proof.
  destruct ex_cfg_fine as (K1 & K2 & K3). split.
  - exists ex_cl, ex_cfg, ex_late, ex_late_up, ex_t0, ex_late_deeds. split; [|exact ex_late_spaced].
    split; [split; [apply Forall_app; split; [exact ex_start2_ok | repeat constructor] | vm_compute; reflexivity]|]. split; [exact K1|]. split; [exact K2|]. split; [exact K3|]. split; [exact ex_late_does|]. split.
    + exists (bytes_of (MArmingStatusReport ex_arming)).
      replace (net_in ex_late ++ _) with (concat (map bytes_of (ex_answers ++ map MArmingStatusReport [ex_armed; ex_arming]))) by (vm_compute; reflexivity).
      replace (sent ex_late_deeds) with (map ex_pkt (ex_answers ++ map MArmingStatusReport [ex_armed; ex_arming])) by (vm_compute; reflexivity).
      apply ex_spells. apply Forall_app. split; [exact ex_answers_ok | repeat constructor; discriminate].
    + exists 1, (B "house"), (B "armed_away"). split; [left; reflexivity|]. split; [apply PropQueue.retained_holds; vm_compute; reflexivity|]. apply ex_never. repeat constructor; cbn; tauto.
  - exists ex_cl, ex_cfg, ex_close, ex_close_up, ex_t0, ex_close_deeds. split.
    + split; [split; [apply Forall_app; split; [exact ex_start2_ok | repeat constructor] | vm_compute; reflexivity]|]. split; [exact K1|]. split; [exact K2|]. split; [exact K3|]. split; [exact ex_close_does|]. split.
      * exists (bytes_of (MArmingStatusReport ex_both_right)).
        replace (net_in ex_close ++ _) with (concat (map bytes_of (ex_answers ++ map MArmingStatusReport [ex_second; ex_both; ex_both_right]))) by (vm_compute; reflexivity).
        replace (sent ex_close_deeds) with (map ex_pkt (ex_answers ++ map MArmingStatusReport [ex_second; ex_both; ex_both_right])) by (vm_compute; reflexivity).
        apply ex_spells. apply Forall_app. split; [exact ex_answers_ok | repeat constructor; discriminate].
      * exists 1, (B "house"), (B "armed_away"). split; [left; reflexivity|]. split; [apply PropQueue.retained_holds; vm_compute; reflexivity|]. apply ex_never. repeat constructor; cbn; tauto.
    + intros v e H D X. assert (Q : Forall (fun a => match a with APublishQ _ _ false (PJson v) => match Event_de FromText v with Ok e => match e_pkt e with None => false | _ => true end | _ => true end | _ => true end = true) (u_log ex_close_up)) by (apply Forall_forall; apply forallb_forall; vm_compute; reflexivity).
      rewrite Forall_forall in Q. specialize (Q _ H). cbv beta iota in Q. rewrite D in Q. rewrite X in Q. discriminate Q.
Qed.

(* Area 1 is armed with an exit delay, and zone 2 changes after that.  The spurious report is held back, and never shown. *)
Definition ex_slip_deeds : list deed := ex_late_deeds ++ [DZone 2 6 (ex_pkt (MZoneChange (mkZC 2 6)))].
Definition ex_slip : list input := ex_start2 ++ [NetArrive (Bytes (bytes_of (MArmingStatusReport ex_armed))); PollPanel 7].
Definition ex_slip_up : up := Eval vm_compute in up_of (brun ex_cl ex_cfg ex_slip).
Definition ex_slip2 : list input := ex_slip ++ [NetArrive (Bytes (bytes_of (MArmingStatusReport ex_arming))); PollPanel 4000].
Definition ex_slip_up2 : up := Eval vm_compute in up_of (brun ex_cl ex_cfg ex_slip2).
Definition ex_slip_msgs : list message := ex_answers ++ [MArmingStatusReport ex_armed; MArmingStatusReport ex_arming; MZoneChange (mkZC 2 6)].
Definition ex_slip_acts : list hact := ex_rising ++ concat (map (fun m => [HArrive (Bytes (bytes_of m)); HRun true; HRun true]) [MArmingStatusReport ex_armed; MArmingStatusReport ex_arming; MZoneChange (mkZC 2 6)]).
Definition no_waiting (log : list action) : bool :=
  forallb (fun a => match a with APublishQ _ _ false (PJson v) => match Event_de FromText v with Ok e => match e_pkt e with None => false | _ => true end | _ => true end | _ => true end) log.
Lemma no_waiting_in_time cfg log ds ps0 es : no_waiting log = true ->
  Forall2 (fun e a => exists v, Event_ser e = Ok v /\ Event_de FromText v = Ok e /\ a = APublish (topic_prefix cfg ++ B "/event") false (PJson v)) es (filter is_event_pub log) ->
  in_time ds ps0 es.
Proof.
  intros N F es1 e es2 -> DE. exfalso. apply Forall2_app_inv_l in F as (l1 & l2 & _ & F & EF). inversion F as [|? a ? ? (v & _ & D & ->) _]; subst.
  assert (I : In (APublish (topic_prefix cfg ++ B "/event") false (PJson v)) log) by (apply (filter_In is_event_pub); rewrite EF; apply in_or_app; right; left; reflexivity).
  unfold no_waiting in N. rewrite forallb_forall in N. specialize (N _ I). cbv beta iota in N. rewrite D, DE in N. discriminate N.
Qed.
Example C117_example :
  bridge_after ex_cl ex_cfg ex_slip (Up ex_slip_up) /\ bridge_after ex_cl ex_cfg ex_slip2 (Up ex_slip_up2) /\ cfg_ok ex_cfg /\ distinct_area_names ex_cfg /\ distinct_zone_names ex_cfg /\
  does ex_t0 ex_slip_deeds /\ spaced ex_slip_deeds /\
  spells (net_in ex_slip ++ bytes_of (MArmingStatusReport ex_arming) ++ bytes_of (MZoneChange (mkZC 2 6))) (sent ex_slip_deeds) /\
  spells (net_in ex_slip2 ++ bytes_of (MZoneChange (mkZC 2 6))) (sent ex_slip_deeds) /\
  no_waiting (u_log ex_slip_up) = true /\ no_waiting (u_log ex_slip_up2) = true /\
  retained (u_log ex_slip_up) (B "elkm1/0001/area/house/ha_state") = Some (PText (B "disarmed")) /\
  retained (u_log ex_slip_up2) (B "elkm1/0001/area/house/ha_state") = Some (PText (B "arming")) /\
  Forall hact_ok ex_slip_acts /\ listening (hrun ex_cl ex_cfg ex_slip_acts) /\ spells (h_bytes ex_slip_acts) (sent ex_slip_deeds) /\
  ex_shows (hrun ex_cl ex_cfg ex_slip_acts) (B "arming") /\ arming_now (after ex_t0 ex_slip_deeds) = ex_arming /\ zone_now (after ex_t0 ex_slip_deeds) 2 = 6.
Proof.
  destruct ex_cfg_fine as (K1 & K2 & K3). assert (W : Forall wf_message ex_slip_msgs) by (apply Forall_app; split; [exact ex_answers_ok | repeat constructor; discriminate]).
  assert (ES : sent ex_slip_deeds = map ex_pkt ex_slip_msgs) by (vm_compute; reflexivity).
  split; [split; [apply Forall_app; split; [exact ex_start2_ok | repeat constructor] | vm_compute; reflexivity]|].
  split; [split; [apply Forall_app; split; [apply Forall_app; split; [exact ex_start2_ok | repeat constructor] | repeat constructor] | vm_compute; reflexivity]|].
  split; [exact K1|]. split; [exact K2|]. split; [exact K3|].
  split.
  { unfold ex_slip_deeds, ex_late_deeds. rewrite <- app_assoc. apply ex_does. apply does_cons.
    - split; [vm_compute; reflexivity|]. split; [vm_compute; reflexivity|]. split; [apply armed_fully; vm_compute; reflexivity | reflexivity].
    - apply does_cons; [vm_compute; reflexivity | apply does_nil]. }
  split.
  { intros ds1 f a x y ds2 rs r r' E R. destruct ds2 as [|d ds2 _] using rev_ind.
    - apply (f_equal (fun l => last l (DOther (PRp [])))) in E. unfold ex_slip_deeds in E. rewrite !last_last in E. discriminate E.
    - unfold ex_slip_deeds in E. rewrite app_comm_cons, app_assoc in E. apply app_inj_tail in E as [E _]. eapply ex_late_spaced; eauto. }
  rewrite ES. split; [replace (net_in ex_slip ++ _) with (concat (map bytes_of ex_slip_msgs)) by (vm_compute; reflexivity); apply ex_spells; exact W|].
  split; [replace (net_in ex_slip2 ++ _) with (concat (map bytes_of ex_slip_msgs)) by (vm_compute; reflexivity); apply ex_spells; exact W|].
  split; [vm_compute; reflexivity|]. split; [vm_compute; reflexivity|]. split; [vm_compute; reflexivity|]. split; [vm_compute; reflexivity|].
  split; [repeat constructor; vm_compute; discriminate|].
  split; [split; [vm_compute; reflexivity|]; eexists; split; [vm_compute; reflexivity | reflexivity]|].
  split; [replace (h_bytes ex_slip_acts) with (concat (map bytes_of ex_slip_msgs)) by (vm_compute; reflexivity); apply ex_spells; exact W|].
  split; [vm_compute; reflexivity|]. split; reflexivity.
Qed.
(* so the partial theorem's hypotheses are met *)
Example C117_example_in_time : forall ps0 es,
  Forall2 (fun e a => exists v, Event_ser e = Ok v /\ Event_de FromText v = Ok e /\ a = APublish (topic_prefix ex_cfg ++ B "/event") false (PJson v)) es (filter is_event_pub (u_log ex_slip_up2)) ->
  in_time ex_slip_deeds ps0 es.
Proof. intros ps0 es. apply no_waiting_in_time. vm_compute. reflexivity. Qed.
Print Assumptions C117_true_so_far_partial.
Print Assumptions C117_shows_the_truth.
Print Assumptions C117_areas_true_refuted.
