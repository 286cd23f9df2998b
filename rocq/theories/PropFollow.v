(* PropFollow.v: C125, the events are enough to know how the house is (state.rs, elkm1-mqtt/src/main.rs). *)
From Verif Require Import Base BaseFacts Pkt SpecPkt PktFacts DecodeFacts Msg SpecMsg DecFacts MsgFacts WireFacts IsoFacts
  Tokio SpecConn ConnFacts State SpecState StateFacts RunFacts HistFacts ExState PropState PropMsg Serde SerdeFacts PropSerde
  Mqtt MqttFacts Config SpecMqtt SpecConfig PropMqtt PropConfig BridgeText SpecJson JsonFacts JsonWrite ShowFacts TextFacts PropText SpecFollow.
From Coq Require Import ZifyBool ZifyNat ZifyN.
Ltac Zify.zify_post_hook ::= Z.div_mod_to_equations.

Lemma status_s p a : status_is p a <-> s_arming (p_state p) = Some a.
Proof. unfold status_is, panel_arming_status. destruct (s_arming (p_state p)); split; intros H; congruence. Qed.
Lemma zone_s p z s : zone_status_is p z s <-> exists zs, s_zones (p_state p) = Some zs /\ nth_error zs (N.to_nat (z - 1)) = Some s.
Proof.
  unfold zone_status_is, panel_zone_statuses. destruct (s_zones (p_state p)) as [zs|]; split; intros (x & H & H2); try discriminate; exists x; split; auto; congruence.
Qed.
Lemma held_s p x : held p = Some x <-> exists d, pending_arm p = Some (d, x).
Proof. unfold held. destruct (pending_arm p) as [[d y]|]; cbn; split; [intros [= <-]; eauto|intros (d' & [= _ <-]); reflexivity|discriminate|intros (d & H); discriminate]. Qed.
Lemma held_none p : held p = None <-> pending_arm p = None.
Proof. unfold held. destruct (pending_arm p) as [[d y]|]; cbn; split; congruence. Qed.

(* nothing happens to what can be known *)
Lemma same_right k p p' : p_state p' = p_state p -> pending_arm p' = pending_arm p -> right k p -> right k p'.
Proof. unfold right, status_is, zone_status_is, held, panel_arming_status, panel_zone_statuses. intros -> ->. auto. Qed.
Lemma same_whole k p p' : pending_arm p' = pending_arm p -> whole k p -> whole k p'.
Proof. unfold whole, held. intros ->. auto. Qed.

(* one poll *)
Lemma learn_poll now p p' e w k : pinv p -> StateFacts.up p -> poll_case now p p' (ev e) w ->
  (right k p -> right (learn k e) p') /\ (whole k p -> whole (learn k e) p').
Proof.
  intros I [(a0 & UA) (z0 & UZ)] C.
  pose proof I as (_ & _ & ZI & _). destruct (ZI _ UZ) as [LZ _].
  inversion C as [pkt m e' w' D PK EP PA EM SN ME RE EQ1 EQ2|pkt e' D PK EP MN EM EQ EC EK EQ1 EQ2|d m prior D U X PD LE SA EQ EQ1 EQ2|r NE U PQ EQ EQ1 EQ2]; subst; clear C.
  - (* a message *)
    assert (K : the_report e = match m with MArmingStatusReport x => Some x | _ => None end) by (unfold the_report; rewrite EM; reflexivity).
    assert (Plain : the_report e = None -> e_change e = None -> s_arming (p_state p') = s_arming (p_state p) -> pending_arm p' = pending_arm p ->
      k_arming (learn k e) = k_arming k /\ k_last (learn k e) = k_last k) by (intros H1 H2 _ _; unfold learn; rewrite H1, H2; split; reflexivity).
    destruct m; cbn [msg_effect] in ME;
      try (destruct ME as (M1 & M2 & M3 & M4); destruct (Plain K M2 M3 M4) as [P1 P2];
        assert (P3 : forall z, k_zone (learn k e) z = k_zone k z) by (intros z; cbn [learn k_zone]; rewrite EM; reflexivity);
        split;
        [intros (R1 & R2 & R3); split; [intros a; rewrite P1, status_s, M3, <- status_s; apply R1|]; split;
          [intros x y; unfold held; rewrite M4, P2; apply R2 | intros z s Hz; rewrite P3, zone_s, M1, <- zone_s; apply R3; exact Hz]
        |intros (R1 & R2 & R3); split; [rewrite P1; exact R1|]; split; [unfold held; rewrite M4, P2; exact R2 | intros z Hz; rewrite P3; apply R3; exact Hz]]).
    + (* AS *)
      destruct ME as (M1 & M2). unfold arming_effect in M1. rewrite UA in M1.
      assert (P2 : k_last (learn k e) = Some m) by (cbn [learn k_last]; rewrite K; reflexivity).
      assert (P3 : forall z, k_zone (learn k e) z = k_zone k z) by (intros z; cbn [learn k_zone]; rewrite EM; reflexivity).
      assert (P1 : k_arming (learn k e) = match e_change e with Some (CArmingStatus _) => Some m | _ => k_arming k end)
        by (cbn [learn k_arming]; rewrite K; reflexivity).
      split; intros (R1 & R2 & R3); (split; [|split]).
      * intros a. rewrite P1, status_s. destruct M1 as [(_ & _ & A1 & _ & A2)|(_ & A1 & _ & [[A2 A3]|[A2 A3]])].
        -- rewrite A2, A1, <- UA, <- status_s. apply R1.
        -- rewrite A3, A1, <- A2, <- UA, <- status_s. apply R1.
        -- rewrite A3, A1. auto.
      * intros x y. rewrite P2, held_s. intros (d & H) [= <-]. destruct M1 as [(_ & _ & _ & A1 & _)|(_ & _ & A1 & _)]; congruence.
      * intros z s Hz. rewrite P3, zone_s, M2, <- zone_s. apply R3. exact Hz.
      * rewrite P1. destruct (e_change e) as [[]|]; [exact R1|discriminate|exact R1].
      * rewrite P2. discriminate.
      * intros z Hz. rewrite P3. apply R3. exact Hz.
    + (* ZC *)
      destruct ME as (M1 & M3 & M4). unfold zone_effect in M1. rewrite UZ in M1. destruct M1 as (zs' & s0 & A1 & A2 & A3 & A4 & A5).
      assert (P2 : k_last (learn k e) = k_last k) by (cbn [learn k_last]; rewrite K; reflexivity).
      assert (P1 : k_arming (learn k e) = k_arming k) by (cbn [learn k_arming]; rewrite A5; destruct (s0 =? _); reflexivity).
      assert (P3 : forall z, k_zone (learn k e) z = if zc_zone m =? z then Some (zc_status m) else k_zone k z) by (intros z; cbn [learn k_zone]; rewrite EM; reflexivity).
      assert (WZ : zone_ok (zc_zone m)) by (pose proof (parsed_wf _ _ PK PA) as [W _]; exact W). unfold zone_ok in WZ.
      split; intros (R1 & R2 & R3); (split; [|split]).
      * intros a. rewrite P1, status_s, M3, <- status_s. apply R1.
      * intros x y. unfold held. rewrite M4, P2. apply R2.
      * intros z s Hz. rewrite P3, zone_s. intros H. exists zs'. split; [exact A1|]. rewrite A4.
        destruct (N.eqb_spec (zc_zone m) z) as [<-|NZ].
        -- rewrite Nat.eqb_refl. exact H.
        -- destruct (Nat.eqb_spec (N.to_nat (z - 1)) (N.to_nat (zc_zone m - 1))) as [Q|_]; [lia|]. apply R3 in H; [|exact Hz]. apply zone_s in H as (zs & H & H2). congruence.
      * rewrite P1. exact R1.
      * unfold held. rewrite M4, P2. exact R2.
      * intros z Hz. rewrite P3. destruct (zc_zone m =? z); [discriminate | apply R3; exact Hz].
    + (* ZS *)
      match type of EM with _ = Some (inl (MZoneStatusReport ?l)) => rename l into zl end.
      destruct ME as (M1 & M2 & M3 & M4). destruct (Plain K M2 M3 M4) as [P1 P2].
      assert (P3 : forall z, k_zone (learn k e) z = nth_error zl (N.to_nat (z - 1))) by (intros z; cbn [learn k_zone]; rewrite EM; reflexivity).
      assert (L : length zl = NUM_ZONES) by (pose proof (parsed_wf _ _ PK PA) as [W _]; exact W).
      split; intros (R1 & R2 & R3); (split; [|split]).
      * intros a. rewrite P1, status_s, M3, <- status_s. apply R1.
      * intros x y. unfold held. rewrite M4, P2. apply R2.
      * intros z s Hz. rewrite P3, zone_s. intros H. eauto.
      * rewrite P1. exact R1.
      * unfold held. rewrite M4, P2. exact R2.
      * intros z Hz. rewrite P3. apply nth_error_Some. rewrite L. unfold NUM_ZONES. lia.
  - (* not a message *)
    assert (NR : forall m, e_msg e <> Some (inl m)) by (intros m; rewrite EM; destruct (parse pkt); discriminate).
    assert (LE : k_arming (learn k e) = k_arming k /\ k_last (learn k e) = k_last k /\ forall z, k_zone (learn k e) z = k_zone k z).
    { unfold learn, the_report. cbn. rewrite EC. destruct (e_msg e) as [[m|er]|]; [elim (NR m); reflexivity| |]; auto. }
    destruct LE as (P1 & P2 & P3).
    assert (Q1 : p_state p' = p_state p) by (rewrite EQ; reflexivity). assert (Q2 : pending_arm p' = pending_arm p) by (rewrite EQ; reflexivity).
    split; intros R; [apply (same_right _ p p' Q1 Q2) | apply (same_whole _ p p' Q2)]; destruct R as (R1 & R2 & R3); (split; [rewrite P1; exact R1|]); (split; [rewrite P2; exact R2|]).
    + intros z s Hz. rewrite P3. apply R3. exact Hz.
    + intros z Hz. rewrite P3. apply R3. exact Hz.
  - (* a report takes effect *)
    assert (H : held p = Some m) by (apply held_s; eauto).
    set (c' := p_conn p') in *. clearbody c'. subst p'.
    split; intros (R1 & R2 & R3); (split; [|split]); cbn [learn deferred_event the_report e_msg e_change k_arming k_last k_zone].
    + intros a Ha. rewrite status_s. cbn. f_equal. exact (R2 _ _ H Ha).
    + intros x y F. discriminate F.
    + intros z s Hz Hk. apply zone_s. cbn. apply zone_s. apply R3; assumption.
    + apply R2. rewrite H. discriminate.
    + intros F. elim F. reflexivity.
    + exact R3.
  - elim (NE e). reflexivity.
Qed.
Lemma learn_run p0 h p bs k : reachable p0 -> Forall op_ok h -> run p0 h = Ok (p, bs) ->
  (right k p0 -> right (learn_all k (events bs)) p) /\ (whole k p0 -> whole (learn_all k (events bs)) p).
Proof.
  intros R HO E. destruct (reachable_inv _ R) as [I0 U0].
  refine (proj2 (proj2 (run_ind (fun _ bs p => StateFacts.up p /\ ((right k p0 -> right (learn_all k (events bs)) p) /\ (whole k p0 -> whole (learn_all k (events bs)) p))) p0 I0 _ _ h bs p HO E))).
  - split; [exact U0|]. split; auto.
  - intros h1 bs1 q o q' b _ _ Iq (Uq & IH1 & IH2) _ _ _ S. split; [eapply up_step; eauto|].
    rewrite events_app. unfold learn_all in *. rewrite fold_left_app.
    assert (Same : events [b] = [] -> p_state q' = p_state q -> pending_arm q' = pending_arm q ->
      (right k p0 -> right (fold_left learn (events [b]) (fold_left learn (events bs1) k)) q') /\
      (whole k p0 -> whole (fold_left learn (events [b]) (fold_left learn (events bs1) k)) q')).
    { intros EB E1 E2. rewrite EB. split; intros H; [eapply same_right | eapply same_whole]; eauto. }
    destruct o as [a|now|w ws|c|ws|ws]; cbn [stepped] in S.
    + destruct S as [-> ->]. apply Same; reflexivity.
    + destruct S as (r & w & -> & P). pose proof (polled_case _ _ _ _ _ P Iq) as C.
      destruct (event_of (ONext r w)) as [e|] eqn:EE.
      * assert (r = ev e) as -> by (destruct r as [|[[x|er]|]]; cbn in EE; try discriminate; injection EE as <-; reflexivity).
        destruct (learn_poll now q q' e w (fold_left learn (events bs1) k) Iq Uq C) as [L1 L2].
        change (events [ONext (ev e) w]) with [e]. cbn [fold_left]. split; intros H; auto.
      * assert (EB : events [ONext r w] = []) by (unfold events; cbn [map]; rewrite EE; reflexivity).
        assert (Q : q' = with_conn q (p_conn q')).
        { inversion C as [? ? e ? _ _ _ _ _ _ _ _ F|? e _ _ _ _ _ _ _ _ F|? ? ? _ _ _ _ _ _ _ F|? _ _ _ Q F]; subst; try discriminate EE. exact Q. }
        apply Same; [exact EB | rewrite Q; reflexivity | rewrite Q; reflexivity].
    + destruct S as (r & -> & (S1 & S2 & _) & _). apply Same; auto.
    + destruct S as (-> & _ & (S1 & S2 & _) & _). apply Same; auto.
    + destruct S as (r & -> & (S1 & S2 & _) & _). apply Same; auto.
    + destruct S as (r & -> & (S1 & S2 & _) & _). apply Same; auto.
Qed.

(* ------------------------------------------------------------------ C125 *)
(* What one knows stays right, and who knows all keeps knowing all. *)
Theorem C125_stays_right : forall p0 h p bs k,
  reachable p0 -> Forall op_ok h -> run p0 h = Ok (p, bs) ->
  (right k p0 -> right (learn_all k (events bs)) p) /\ (whole k p0 -> whole (learn_all k (events bs)) p).
Proof. intros. eapply learn_run; eauto. Qed.

(* From the accessors at some time when no report is held back, and the events since, one knows exactly what the accessors say. *)
Theorem C125_follows_partial : forall p0 h p bs a0 zs0,
  reachable p0 -> held p0 = None -> status_is p0 a0 -> panel_zone_statuses p0 = Ok zs0 -> Forall op_ok h -> run p0 h = Ok (p, bs) ->
  let k := learn_all (told_at_first a0 zs0) (events bs) in
  (forall a, status_is p a <-> k_arming k = Some a) /\
  (forall z s, 1 <= z <= 208 -> (zone_status_is p z s <-> k_zone k z = Some s)) /\
  (forall x, held p = Some x -> k_last k = Some x).
Proof.
  intros p0 h p bs a0 zs0 R HN SA SZ HO E k. destruct (learn_run p0 h p bs (told_at_first a0 zs0) R HO E) as [LR LW].
  assert (Z0 : s_zones (p_state p0) = Some zs0) by (unfold panel_zone_statuses in SZ; destruct (s_zones (p_state p0)); congruence).
  assert (L0 : length zs0 = NUM_ZONES) by (destruct (reachable_inv _ R) as [(_ & _ & ZI & _) _]; apply (ZI _ Z0)).
  assert (RI : right k p).
  { apply LR. split; [intros a [= <-]; exact SA|]. split; [intros x y _ F; discriminate F|]. intros z s Hz H. apply zone_s. exists zs0. auto. }
  assert (WH : whole k p).
  { apply LW. split; [discriminate|]. split; [rewrite HN; congruence|]. intros z Hz. cbn. apply nth_error_Some. rewrite L0. unfold NUM_ZONES. lia. }
  destruct RI as (R1 & R2 & R3), WH as (W1 & W2 & W3). split; [|split].
  - intros a. split; [|apply R1]. intros H. destruct (k_arming k) as [b|]; [|elim W1; reflexivity]. pose proof (R1 _ eq_refl) as H2. unfold status_is in *. congruence.
  - intros z s Hz. split; [|apply R3; exact Hz]. intros H. specialize (W3 z Hz). destruct (k_zone k z) as [s'|] eqn:EK; [|elim W3; reflexivity].
    apply (R3 _ _ Hz) in EK. apply zone_s in H as (zs & H1 & H2), EK as (zs' & H3 & H4). congruence.
  - intros x H. destruct (k_last k) as [y|] eqn:EK; [|elim W2; [rewrite H; discriminate | reflexivity]]. f_equal. symmetry. eauto.
Qed.

(* Who comes late knows nothing at first, and nothing wrong later: the arming status since the first change that came with its report, each
   zone since the first message about it. *)
Lemma keeps es : forall k, (k_arming k <> None -> k_last k <> None) ->
  (k_arming k <> None -> k_arming (learn_all k es) <> None) /\
  (forall z, 1 <= z <= 208 -> Forall (fun e => forall zs, e_msg e = Some (inl (MZoneStatusReport zs)) -> length zs = NUM_ZONES) es ->
     k_zone k z <> None -> k_zone (learn_all k es) z <> None).
Proof.
  induction es as [|e es IH]; intros k KL; [auto|].
  assert (L' : k_arming k <> None -> k_arming (learn k e) <> None).
  { cbn [learn k_arming]. intros H. destruct (e_change e) as [[]|]; auto. destruct (the_report e); [discriminate | auto]. }
  assert (KL' : k_arming (learn k e) <> None -> k_last (learn k e) <> None).
  { cbn [learn k_arming k_last]. destruct (the_report e); [discriminate|]. destruct (e_change e) as [[]|]; auto. }
  destruct (IH (learn k e) KL') as [IH1 IH2]. cbn [learn_all fold_left]. split; [auto|].
  intros z Hz F H. inversion F as [|? ? F1 F2]; subst. apply IH2; [exact Hz | exact F2|]. cbn [learn k_zone].
  destruct (e_msg e) as [[[]|]|]; auto.
  - destruct (_ =? z); [discriminate | exact H].
  - apply nth_error_Some. rewrite (F1 _ eq_refl). unfold NUM_ZONES. lia.
Qed.
Lemma events_zs p0 h p bs : reachable p0 -> Forall op_ok h -> run p0 h = Ok (p, bs) ->
  Forall (fun e => forall zs, e_msg e = Some (inl (MZoneStatusReport zs)) -> length zs = NUM_ZONES) (events bs).
Proof.
  intros R HO E. destruct (reachable_inv _ R) as [I0 U0].
  refine (proj2 (run_ind (fun _ bs p => Forall (fun e => forall zs, e_msg e = Some (inl (MZoneStatusReport zs)) -> length zs = NUM_ZONES) (events bs)) p0 I0 _ _ h bs p HO E)); [constructor|].
  intros h1 bs1 q o q' b _ _ Iq IH _ _ _ S. rewrite events_app. apply Forall_app. split; [exact IH|].
  destruct o as [a|now|w ws|c|ws|ws]; cbn [stepped] in S.
  - destruct S as [-> _]. constructor.
  - destruct S as (r & w & -> & P). pose proof (polled_case _ _ _ _ _ P Iq) as C. unfold events. cbn [map].
    destruct (event_of (ONext r w)) as [e|] eqn:EE; [|constructor]. constructor; [|constructor]. intros zs EM.
    assert (r = ev e) as -> by (destruct r as [|[[x|er]|]]; cbn in EE; try discriminate; injection EE as <-; reflexivity).
    inversion C as [pkt m e' w' D PK EP PA EM' SN ME RE EQ1 EQ2|pkt e' D PK EP MN EM' EQ EC EK EQ1 EQ2|d m prior D U X PD LE SA EQ EQ1 EQ2|r NE U PQ EQ EQ1 EQ2]; subst.
    + rewrite EM' in EM. injection EM as ->. pose proof (parsed_wf _ _ PK PA) as [W _]. exact W.
    + rewrite EM' in EM. destruct (parse pkt); discriminate.
    + discriminate EM.
    + elim (NE e). reflexivity.
  - destruct S as (r & -> & _). constructor.
  - destruct S as (-> & _). constructor.
  - destruct S as (r & -> & _). constructor.
  - destruct S as (r & -> & _). constructor.
Qed.
Theorem C125_catches_up : forall p0 h p bs,
  reachable p0 -> Forall op_ok h -> run p0 h = Ok (p, bs) ->
  let k := learn_all nothing (events bs) in
  right k p /\
  (forall e x prior, In e (events bs) -> the_report e = Some x -> e_change e = Some (CArmingStatus prior) -> exists a, k_arming k = Some a) /\
  (forall e z, 1 <= z <= 208 -> In e (events bs) ->
     (exists s, e_msg e = Some (inl (MZoneChange (mkZC z s)))) \/ (exists zs, e_msg e = Some (inl (MZoneStatusReport zs))) ->
     exists s, k_zone k z = Some s).
Proof.
  intros p0 h p bs R HO E k. pose proof (events_zs _ _ _ _ R HO E) as FZ. split; [|split].
  - apply (proj1 (learn_run p0 h p bs nothing R HO E)). split; [intros a F; discriminate F|]. split; [intros x y _ F; discriminate F | intros z s _ F; discriminate F].
  - intros e x prior I HR HC. apply in_split in I as (l1 & l2 & EQ). unfold k, learn_all. rewrite EQ, fold_left_app. cbn [fold_left].
    set (k1 := learn (fold_left learn l1 nothing) e).
    assert (A : k_arming k1 = Some x) by (unfold k1; cbn [learn k_arming]; rewrite HC, HR; reflexivity).
    assert (L : k_last k1 <> None) by (unfold k1; cbn [learn k_last]; rewrite HR; discriminate).
    destruct (keeps l2 k1 (fun _ => L)) as [H _]. unfold learn_all in H. destruct (k_arming (fold_left learn l2 k1)); [eauto|]. elim H; [rewrite A; discriminate | reflexivity].
  - intros e z Hz I HM. apply in_split in I as (l1 & l2 & EQ). unfold k, learn_all. rewrite EQ in FZ |- *. rewrite fold_left_app. cbn [fold_left].
    set (k1 := learn (fold_left learn l1 nothing) e). apply Forall_app in FZ as [_ FZ]. inversion FZ as [|? ? F1 F2]; subst.
    assert (KL : forall es k, (k_arming k <> None -> k_last k <> None) -> k_arming (fold_left learn es k) <> None -> k_last (fold_left learn es k) <> None).
    { clear. induction es as [|e es IH]; intros k KL; [exact KL|]. cbn [fold_left]. apply IH. cbn [learn k_arming k_last].
      destruct (the_report e); [discriminate|]. destruct (e_change e) as [[]|]; auto. }
    assert (KL1 : k_arming k1 <> None -> k_last k1 <> None) by (unfold k1; change (learn (fold_left learn l1 nothing) e) with (fold_left learn [e] (fold_left learn l1 nothing)); rewrite <- fold_left_app; apply KL; intros F; elim F; reflexivity).
    assert (A : k_zone k1 z <> None).
    { unfold k1. cbn [learn k_zone]. destruct HM as [(s & HM)|(zs & HM)]; rewrite HM; [rewrite N.eqb_refl; discriminate|].
      apply nth_error_Some. rewrite (F1 _ HM). unfold NUM_ZONES. lia. }
    destruct (keeps l2 k1 KL1) as [_ H]. specialize (H z Hz F2 A). unfold learn_all in H. destruct (k_zone (fold_left learn l2 k1) z); [eauto | elim H; reflexivity].
Qed.

(* But a report that is held back when connect returns was in no event, and neither is it in the event that announces its taking effect.  Two
   panels that tell the same at first, and in all events, and then differ. *)
Definition held_init (r : ArmingStatusReport) : list iop :=
  map (fun m => IArrive (Bytes (bytes_of m))) (MArmingStatusReport ex_disarmed :: MArmingStatusReport r :: tl ex_replies) ++
  repeat (IStep 0 [WAccept 100]) 23.
Definition ex_armed2 : ArmingStatusReport :=
  mkAS (AST_Disarmed :: AST_ArmedStay :: repeat AST_Disarmed 6) (AU_ReadyToArm :: AU_ArmedFully :: repeat AU_ReadyToArm 6) (repeat AA_NoAlarmActive 8) 0.
Definition connected_by (h : list iop) : Panel :=
  match irun conn_new h with IDone p => p | _ => mkPanel conn_new PanelState_default None Idle end.
Lemma arrivals_ok ms n : forallb (fun m => forallb (fun b => b <? 256) (bytes_of m)) ms = true ->
  Forall iop_ok (map (fun m => IArrive (Bytes (bytes_of m))) ms ++ repeat (IStep 0 [WAccept 100]) n).
Proof.
  intros X. apply Forall_app. split; [|apply Forall_forall; intros x H; apply repeat_spec in H; subst x; exact I].
  apply Forall_forall. intros x H. apply in_map_iff in H as (m & <- & Hm). rewrite forallb_forall in X. specialize (X m Hm). cbn.
  apply Forall_forall. intros b Hb. rewrite forallb_forall in X. apply N.ltb_lt. auto.
Qed.
Theorem C125_follows_refuted : exists p0 q0 h p q bs a zs x y,
  connected p0 /\ connected q0 /\ status_is p0 a /\ status_is q0 a /\ panel_zone_statuses p0 = Ok zs /\ panel_zone_statuses q0 = Ok zs /\
  panel_area_names p0 = panel_area_names q0 /\ (forall z, panel_zone_name p0 z = panel_zone_name q0 z) /\
  Forall op_ok h /\ run p0 h = Ok (p, bs) /\ run q0 h = Ok (q, bs) /\ status_is p x /\ status_is q y /\ x <> y.
Proof.
  set (p0 := connected_by (held_init ex_armed)). set (q0 := connected_by (held_init ex_armed2)).
  set (h := [PollNext 6000]).
  exists p0, q0, h, (match run p0 h with Ok (p, _) => p | _ => p0 end), (match run q0 h with Ok (q, _) => q | _ => q0 end),
    (match run p0 h with Ok (_, bs) => bs | _ => [] end), ex_disarmed, ex_zones, ex_armed, ex_armed2.
  split; [exists (held_init ex_armed); split; [apply arrivals_ok; vm_compute; reflexivity | vm_compute; reflexivity]|].
  split; [exists (held_init ex_armed2); split; [apply arrivals_ok; vm_compute; reflexivity | vm_compute; reflexivity]|].
  split; [vm_compute; reflexivity|]. split; [vm_compute; reflexivity|]. split; [vm_compute; reflexivity|]. split; [vm_compute; reflexivity|].
  split; [vm_compute; reflexivity|]. split; [intros z; unfold panel_zone_name; assert (E : zone_names (p_state p0) = zone_names (p_state q0)) by (vm_compute; reflexivity); rewrite E; reflexivity|].
  split; [constructor; [exact I | constructor]|].
  split; [vm_compute; reflexivity|]. split; [vm_compute; reflexivity|]. split; [vm_compute; reflexivity|]. split; [vm_compute; reflexivity|]. discriminate.
Qed.

(* The same for who reads the bridge's event topic: the texts published there mean the events, and the events tell what the topics with the
   states hold. *)
Theorem C125_from_the_event_topic : forall cl cfg is1 u1 is2 u2 k,
  bridge_after cl cfg is1 (Up u1) -> bridge_after cl cfg (is1 ++ is2) (Up u2) -> right k (u_panel u1) ->
  exists es log, u_log u2 = u_log u1 ++ log /\
    Forall2 (fun e a => exists pl, a = APublish (topic_prefix cfg ++ B "/event") false pl /\
        (exists v, denotes v (payload_text pl)) /\ forall v, denotes v (payload_text pl) -> Event_de FromText v = Ok e)
      es (filter is_event_pub log) /\
    right (learn_all k es) (u_panel u2) /\
    (whole k (u_panel u1) -> whole (learn_all k es) (u_panel u2)) /\
    (forall area name a, distinct_area_names cfg -> In (area, name) (areas cfg) -> k_arming (learn_all k es) = Some a ->
       exists s u al t, area_in a area s u al /\ shows_area s u al t /\
         holds (u_log u2) (topic_prefix cfg ++ B "/area/" ++ name ++ B "/ha_state") (PText t)) /\
    (forall zone z s, cfg_ok cfg -> distinct_zone_names cfg -> In (zone, z) (zones cfg) -> k_zone (learn_all k es) zone = Some s ->
       exists t, shows_zone s t /\ holds (u_log u2) (topic_prefix cfg ++ B "/zone/" ++ z_name z ++ B "/ha_state") (PText t)).
Proof.
  intros cl cfg is1 u1 is2 u2 k B1 B2 RK.
  destruct (C79_events_text cl cfg is1 u1 is2 u2 B1 B2) as (ops & bs & log & OO & ER & _ & EL & F).
  assert (R1 : reachable (u_panel u1)).
  { pose proof B1 as B1'. rewrite <- (app_nil_r is1) in B1'. destruct (bridge_between cl cfg is1 u1 [] u1 B1 B1') as [(R & _) _]. exact R. }
  destruct (learn_run _ _ _ _ k R1 OO ER) as [LR LW]. specialize (LR RK).
  exists (events bs), log. split; [exact EL|]. split; [exact F|]. split; [exact LR|]. split; [exact LW|]. destruct LR as (L1 & _ & L3). split.
  - intros area name a DN I KA. destruct (C48_area_topics_match cl cfg (is1 ++ is2) u2 area name B2 DN I) as (t & (r & s & u & al & S1 & S2 & S3) & H).
    apply L1 in KA. unfold status_is in *. assert (r = a) as -> by congruence. exists s, u, al, t. auto.
  - intros zone z s CO DN I KZ. destruct (C49_zone_topics_match cl cfg (is1 ++ is2) u2 zone z B2 CO DN I) as (t & (s' & S1 & S2) & H).
    assert (Hz : 1 <= zone <= 208).
    { pose proof B2 as B2'. rewrite <- (app_nil_r (is1 ++ is2)) in B2'. destruct (bridge_between cl cfg _ u2 [] u2 B2 B2') as [(_ & (_ & IR & _) & _) _].
      rewrite Forall_forall in IR. exact (IR _ I). }
    apply (L3 _ _ Hz) in KZ. apply zone_s in S1 as (zs & H1 & H2), KZ as (zs' & H3 & H4). assert (s' = s) as -> by congruence. exists t. auto.
Qed.

(* ---- examples ---- *)
(* A report is held back, two zones change, the report takes effect: who has seen the events knows it all, also who knew nothing before. *)
Definition got (m : message) : op := Arrive (Bytes (bytes_of m)).
Definition ex_run : list op :=
  [got (MArmingStatusReport ex_armed); got (MZoneChange (mkZC 2 1)); PollNext 0; PollNext 1; PollNext 5000; got (MZoneChange (mkZC 7 9)); PollNext 5001;
   got (MArmingStatusReport ex_disarmed); PollNext 5002].
Example C125_example :
  match run ex_panel ex_run with
  | Ok (p, bs) => Some (length (events bs),
      let k := learn_all (told_at_first ex_disarmed ex_zones) (firstn 3 (events bs)) in (k_arming k, k_last k, map (k_zone k) [1; 2; 3; 7]),
      let k := learn_all nothing (events bs) in (k_arming k, map (k_zone k) [1; 2; 3; 7]),
      panel_arming_status p)
  | _ => None
  end = Some (5%nat, (Some ex_armed, Some ex_armed, [Some 2; Some 1; Some 0; Some 0]), (Some ex_disarmed, [None; Some 1; None; Some 9]), Ok ex_disarmed).
Proof. vm_compute. reflexivity. Qed.
Example C125_example_hyp : reachable ex_panel /\ held ex_panel = None /\ status_is ex_panel ex_disarmed /\ panel_zone_statuses ex_panel = Ok ex_zones /\
  Forall op_ok ex_run /\ right nothing ex_panel /\ exists p bs, run ex_panel ex_run = Ok (p, bs).
Proof.
  split; [apply connected_reachable; exact ex_connected|]. split; [vm_compute; reflexivity|]. split; [vm_compute; reflexivity|]. split; [vm_compute; reflexivity|].
  split; [repeat (apply Forall_cons; [cbn -[bytes_of]; try exact I; apply Forall_forall; intros b Hb; apply N.ltb_lt; revert b Hb; apply forallb_forall; vm_compute; reflexivity|]); constructor|].
  split; [split; [intros a F; discriminate F|]; split; [intros x y _ F; discriminate F | intros z s _ F; discriminate F]|].
  destruct (run ex_panel ex_run) as [[p bs]|e|w] eqn:E; [eauto| |]; exfalso; revert E; vm_compute; discriminate.
Qed.
(* From the texts on the event topic alone, starting from nothing: area and zone as the topics with the states hold them. *)
Example C125_topic_example :
  bridge_after ex_cl ex_cfg ex_start (Up ex_up) /\ right nothing (u_panel ex_up) /\
  (let u := up_of (brun ex_cl ex_cfg (ex_start ++ ex_reports)) in
   let k := learn_all nothing (catMaybes (map read_back (u_log u))) in
   (k_arming k, map (k_zone k) [1; 2]) = (Some ex_arming, [None; Some 2]) /\
   retained (u_log u) (B "elkm1/0001/area/house/ha_state") = Some (PText (B "arming")) /\
   retained (u_log u) (B "elkm1/0001/zone/front/ha_state") = Some (PText (B "off"))).
Proof.
  split; [exact ex_up_after|]. split; [split; [intros a F; discriminate F|]; split; [intros x y _ F; discriminate F | intros z s _ F; discriminate F]|].
  vm_compute. repeat split.
Qed.

Print Assumptions C125_stays_right.
Print Assumptions C125_follows_partial.
Print Assumptions C125_catches_up.
Print Assumptions C125_follows_refuted.
Print Assumptions C125_from_the_event_topic.
