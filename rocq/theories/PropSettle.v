(* PropSettle.v: C124: what is shown becomes right when things settle. *)
From Verif Require Import Base BaseFacts Pkt SpecPkt PktFacts DecodeFacts Msg SpecMsg DecFacts MsgFacts WireFacts IsoFacts
  PropMsg Tokio SpecConn ConnFacts State SpecState StateFacts RunFacts HistFacts ViewFacts ExState PropState
  Serde SerdeFacts PropSerde SpecInit InitFacts PropConnect SpecSend SendFacts PropSend Mqtt MqttFacts Config SpecMqtt SpecConfig PropMqtt PropConfig PropEnd SpecServe ServeFacts PropServe SpecProgram ProgramFacts PropProgram
  BridgeText SpecJson JsonFacts JsonWrite ShowFacts TextFacts PropText SpecHa PropHa.
From Verif Require SpecWakeInit PropWakeInit PropTasks PropFail PropRest.
From Verif Require Import Wake PropWake WakeBridge SpecHost HostFacts PropHost SpecAny PropAny SpecEvery PropEvery SpecShown PropShown.
From Verif Require Import SpecTruth TruthFacts PropTruth PropHouse SpecSettle.
From Coq Require Import ZifyBool ZifyNat ZifyN.
Ltac Zify.zify_post_hook ::= Z.div_mod_to_equations.


(* ---- a report stays held, or is not held any more, while no other one comes ---- *)
Definition only_tells (T : ArmingStatusReport) (e : Event) : Prop := forall pkt r, e_pkt e = Some pkt -> message_of pkt = Some (MArmingStatusReport r) -> r = T.
Lemma not_suspicious_same r : is_transition_suspicious r r = false.
Proof.
  destruct (is_transition_suspicious r r) eqn:E; [|reflexivity]. apply suspicious_spec in E. destruct E as (area & mode & S1 & S2 & S3 & _). rewrite S2 in S1. injection S1 as ->. cbn in S3. intuition discriminate.
Qed.
Lemma run_pending T p0 h p bs : pinv p0 -> latest p0 = Some T -> Forall op_ok h -> run p0 h = Ok (p, bs) -> Forall (only_tells T) (events bs) ->
  latest p = Some T /\ (pending_arm p = pending_arm p0 \/ pending_arm p = None).
Proof.
  intros I0 L0 HO E. refine (proj2 (run_ind (fun _ bs p => Forall (only_tells T) (events bs) -> latest p = Some T /\ (pending_arm p = pending_arm p0 \/ pending_arm p = None)) p0 I0 _ _ h bs p HO E)); [auto|].
  clear -I0. intros h bs p o p' b E HO Ip IH Oo Es _ S F. rewrite events_app in F. apply Forall_app in F as [F1 F2]. destruct (IH F1) as [IL IP].
  assert (X : latest p' = Some T /\ (pending_arm p' = pending_arm p \/ pending_arm p' = None)); [|destruct X as [X1 [X|X]]; (split; [exact X1|]); [rewrite X; exact IP | auto]].
  destruct (step_view _ _ _ _ S Ip) as [(V1 & V2 & V3)|(now & r & w & e & -> & -> & Y & V & PC)]; [split; [unfold latest, held in *; rewrite V2, V3; exact IL | left; exact V3]|].
  rewrite V in F2. inversion F2 as [|? ? NR _]; subst.
  assert (Same : s_arming (p_state p') = s_arming (p_state p) /\ pending_arm p' = pending_arm p -> latest p' = Some T /\ (pending_arm p' = pending_arm p \/ pending_arm p' = None)).
  { intros (Q1 & Q2). split; [unfold latest, held in *; rewrite Q1, Q2; exact IL | left; exact Q2]. }
  destruct (poll_event _ _ _ _ _ _ PC Y) as [(pkt & m & E1 & E2 & W & E3 & _ & M & _)|[(pkt & E1 & E2 & _ & EQ & E3 & _)|(d & m & prior & -> & E1 & E2 & E3 & EQ & _)]].
  - destruct m; cbn [msg_effect] in M; try (apply Same; apply M). destruct M as [M _].
    assert (m = T) as -> by (apply (NR pkt); [exact E1 | unfold message_of; rewrite E2; reflexivity]).
    unfold arming_effect in M. destruct (s_arming (p_state p)) as [prior|] eqn:EA.
    + destruct M as [(P & SU & _)|(_ & M1 & M2 & _)].
      * exfalso. unfold latest, held in IL. rewrite P, EA in IL. injection IL as ->. rewrite not_suspicious_same in SU. discriminate SU.
      * split; [unfold latest, held; rewrite M2, M1; reflexivity | right; exact M2].
    + destruct M as (M1 & M2 & _). split; [unfold latest, held; rewrite M2, M1; reflexivity | right; exact M2].
  - apply Same. rewrite EQ. auto.
  - rewrite EQ. split; [|right; reflexivity]. unfold latest, held in *. rewrite E1 in IL. exact IL.
Qed.
Lemma latest_at cl cfg is u : bridge_after cl cfg is (Up u) -> exists ps qs left, DecodeFacts.drains (unread (p_conn (u_panel u))) qs left /\ drain (net_in is) = Ok (ps ++ qs, left) /\ seen (u_panel u) (reports_in ps) /\ pinv (u_panel u).
Proof.
  intros A. pose proof A as (HI & E). pose proof (bridge_history cl cfg is HI) as H. rewrite E in H.
  destruct H as (h & p0 & u0 & is1 & is2 & HO & E0 & -> & EA & EU & EP & E1). destruct (connected_viewed _ _ HO E0) as (ps & T0 & L0 & Z0).
  assert (A1 : bridge_after cl cfg is1 (Up u0)) by (apply Forall_app in HI as [HI _]; split; auto).
  destruct (C58_events_published _ _ _ _ _ _ A1 A) as (ops & bs & log & H1 & H2 & H3 & _). rewrite EP in H2.
  assert (C : connected p0) by (exists h; auto). destruct (connected_inv _ C) as (I0 & _ & U0 & _).
  destruct (C28_events_are_the_packets p0 ops (u_panel u) bs 0 C H1 H2) as (_ & _ & _ & qs & left & _ & D & _).
  exists (ps ++ packets (events bs)), qs, left. split; [|split; [|split]].
  - pose proof (run_takes _ _ _ _ I0 H1 H2) as T2. assert (U2 : u8s (unread (p_conn p0) ++ arrived ops)) by (apply u8s_app; split; [apply unread_u8, I0 | apply arrived_u8; auto]).
    destruct (drain_total _ (takes_u8 _ _ _ T2 U2)) as (rs & l & _ & D2). pose proof (takes_drains _ _ _ T2 _ _ D2) as D3.
    apply drain_iff in D; [|exact U2]. destruct (drains_det _ _ _ D _ _ D3) as [X ->]. apply app_inv_head in X as ->. exact D2.
  - rewrite net_in_app, <- EA, <- H3. rewrite <- app_assoc. apply drain_iff; [apply u8s_app; split; [apply iarrived_u8 | apply arrived_u8]; auto|].
    eapply takes_drains; [apply takes_more; [exact T0 | apply iarrived_u8; auto | apply arrived_u8; auto]|].
    apply drain_iff; [apply u8s_app; split; [apply unread_u8, I0 | apply arrived_u8; auto] | exact D].
  - rewrite reports_in_app. apply (seen_run p0 ops); auto.
  - exact (proj1 (run_up _ _ _ _ I0 U0 H1 H2)).
Qed.

(* ---- idle deeds ---- *)
Lemma idle_cut t rest : forall later more, Forall (idle t) rest -> later ++ more = SpecTruth.sent rest -> exists r1 r2, rest = r1 ++ r2 /\ later = SpecTruth.sent r1.
Proof.
  induction rest as [|d rest IH]; intros later more F E.
  - destruct later; [|discriminate E]. exists [], []. auto.
  - inversion F as [|? ? Hd F']; subst. destruct later as [|x later]; [exists [], (d :: rest); auto|].
    rewrite sent_cons in E. assert (exists y, sent1 d = [y]) as (y & EY) by (destruct d; cbn in *; try contradiction; eauto). rewrite EY in E. cbn [app] in E.
    injection E as -> E. destruct (IH later more F' E) as (r1 & r2 & -> & ->). exists (d :: r1), r2. split; [reflexivity|]. rewrite sent_cons, EY. reflexivity.
Qed.
Lemma idle_after t rest : Forall (idle t) rest -> arming_now (after t rest) = arming_now t /\ forall z, zone_now (after t rest) z = zone_now t z.
Proof.
  intros F. change t with (after t []) at 2 4. revert F. induction rest as [|d rest IH] using rev_ind; intros F; [auto|]. apply Forall_app in F as [F Hd]. inversion Hd as [|? ? H _]; subst. destruct (IH F) as [A Z].
  rewrite after_app. cbn [after fold_left]. destruct d; cbn [after1 arming_now zone_now idle] in *; auto; try contradiction.
  split; [exact A|]. intros z'. destruct (N.eqb_spec z' z) as [->|]; [exact H | apply Z].
Qed.
Lemma idle_tells t0 ds rest x r : does t0 (ds ++ rest) -> Forall (idle (after t0 ds)) rest -> In x (SpecTruth.sent rest) -> message_of x = Some (MArmingStatusReport r) -> r = arming_now (after t0 ds).
Proof.
  intros D F I E. unfold SpecTruth.sent in I. apply in_concat in I as (l & I & Ix). apply in_map_iff in I as (d & <- & I). apply in_split in I as (r1 & r2 & ->).
  pose proof (D (ds ++ r1) d r2 ltac:(rewrite <- app_assoc; reflexivity)) as FT. apply Forall_app in F as [_ F]. inversion F as [|? ? H _]; subst.
  destruct d; cbn [sent1 In fits idle] in *; try contradiction; destruct Ix as [<-|[]]; try congruence.
  - destruct FT as [FT _]. congruence.
  - rewrite E in FT. contradiction.
Qed.

Section Settle.
Variables (nm : naming) (cl : client) (cfg : Cfg) (may : packet -> Prop) (ts : nat -> hosted) (acts : nat -> hturn).
Hypothesis ON : host_any nm cl cfg may ts acts.
Hypothesis W : well_configured cl cfg.
Hypothesis K : cfg_ok cfg.
Hypothesis DZ : distinct_zone_names cfg.
Lemma now_turn n : h_now (t_host (ts n)) <= h_now (t_host (ts (S n))).
Proof.
  pose proof (proj2 ON n) as T. destruct T as [a0 t0 T|tp pl o RD AS]; [destruct T|]; unfold by_act; cbn [t_host]; try apply now_on; lia.
Qed.
Lemma now_later n m : (n <= m)%nat -> h_now (t_host (ts n)) <= h_now (t_host (ts m)).
Proof. induction 1 as [|m L IH]; [lia|]. pose proof (now_turn m). lia. Qed.
Lemma zones_are_zones n u zone z : h_bridge (t_host (ts n)) = Up u -> In (zone, z) (zones cfg) -> zone_ok zone.
Proof.
  intros EU HZ. destruct (inputs_at nm cl cfg may ts acts ON n) as (is & A & _). rewrite EU in A. pose proof A as (HI & E). pose proof (bridge_history cl cfg is HI) as H. rewrite E in H.
  destruct H as (h & p0 & u0 & is1 & is2 & HO & E0 & -> & EA & ES & EP & E1). assert (C : connected p0) by (exists h; auto).
  destruct (start_up_ok _ _ _ _ _ (connected_reachable _ C) ES) as ((_ & RZ & _) & _). rewrite Forall_forall in RZ. exact (RZ _ HZ).
Qed.
(* between two turns *)
Lemma between n m u u' T : h_bridge (t_host (ts n)) = Up u -> h_bridge (t_host (ts m)) = Up u' -> (n <= m)%nat -> latest (u_panel u) = Some T ->
  (forall es, t_events (ts m) = t_events (ts n) ++ es -> Forall (only_tells T) es) -> latest (u_panel u') = Some T /\ (pending_arm (u_panel u') = pending_arm (u_panel u) \/ pending_arm (u_panel u') = None).
Proof.
  intros EU EU' L LT F. destruct (inputs_at nm cl cfg may ts acts ON n) as (is & A & N). destruct (inputs_from nm cl cfg may ts acts ON is n (m - n) A N) as (is2 & A2 & _). replace (m - n + n)%nat with m in A2 by lia.
  rewrite EU in A. rewrite EU' in A2. destruct (C58_events_published _ _ _ _ _ _ A A2) as (ops & bs & log & H1 & H2 & _ & H4 & H5).
  destruct (latest_at _ _ _ _ A) as (_ & _ & _ & _ & _ & _ & I). apply (run_pending T _ ops _ bs I LT H1 H2). apply F.
  destruct (any_up nm cl cfg may W _ u (host_is_any nm cl cfg may _ (at_turn nm cl cfg may ts acts ON n)) EU) as (_ & _ & EV).
  destruct (any_up nm cl cfg may W _ u' (host_is_any nm cl cfg may _ (at_turn nm cl cfg may ts acts ON m)) EU') as (_ & _ & EV').
  cbn [service_of v_events] in EV, EV'. eapply same_events; [exact EV'|]. rewrite H4, filter_app. apply Forall2_app; [exact EV | exact H5].
Qed.
Hypothesis FAIR : fair_host ts acts.
Hypothesis NO : forall n, ~ overlaps (h_bridge (t_host (ts n))).
Hypothesis TIME : time_passes ts.
Hypothesis REST : gets_to_rest ts.
Lemma settles k t0 ds : does t0 ds ->
  (forall m, (k <= m)%nat -> exists rest, does t0 (ds ++ rest) /\ Forall (idle (after t0 ds)) rest /\ spells (sent_by ts acts m) (SpecTruth.sent (ds ++ rest))) ->
  exists n, forall m, (n <= m)%nat -> exists u, h_bridge (t_host (ts m)) = Up u /\
    zones_show cfg (u_log u) (zone_now (after t0 ds)) /\ areas_show cfg (u_log u) (arming_now (after t0 ds)).
Proof.
  intros D Q. destruct (comes_up nm cl cfg may ts acts ON W FAIR NO) as (n0 & _ & U).
  destruct (taken nm cl cfg may ts acts ON W K DZ (S n0) (U (S n0) (le_n _))) as (ps0 & _ & G).
  destruct (Q k (le_n _)) as (restk & _ & _ & Sk). destruct (all_told nm cl cfg may ts acts ON W FAIR NO (S n0) ps0 U G k _ Sk) as (n & Ln & H).
  assert (P : forall m, (n + k <= m)%nat -> exists u r1, h_bridge (t_host (ts m)) = Up u /\ broker_shows cfg u (SpecTruth.sent (ds ++ r1)) (t_events (ts m)) /\
     does t0 (ds ++ r1) /\ Forall (idle (after t0 ds)) r1 /\ ps0 ++ packets (t_events (ts m)) = SpecTruth.sent (ds ++ r1) /\ latest (u_panel u) = Some (arming_now (after t0 ds)) /\ reports_in (SpecTruth.sent (ds ++ r1)) <> []).
  { intros m Lm. destruct (U m ltac:(lia)) as (u & EU). destruct (G m u ltac:(lia) EU) as (qs & left & D1 & D2 & BS). destruct (H m ltac:(lia)) as (later & EL).
    destruct (Q m ltac:(lia)) as (rest & Dr & Fr & Sr). unfold sent_by in Sr. destruct (spells_prefix _ _ _ _ _ (arrived_bytes nm cl cfg may ts acts ON m) Sr D2) as (x & EX).
    rewrite app_assoc, EL, !sent_app, <- !app_assoc in EX. apply app_inv_head in EX. rewrite !app_assoc in EX.
    rewrite sent_app, <- app_assoc in EL.
    assert (exists r1 r2, rest = r1 ++ r2 /\ SpecTruth.sent restk ++ later = SpecTruth.sent r1) as (r1 & r2 & -> & ER) by (apply (idle_cut _ _ _ (qs ++ x) Fr); rewrite <- EX, !app_assoc; reflexivity).
    rewrite ER, <- sent_app in EL. rewrite app_assoc in Dr. apply does_app in Dr. apply Forall_app in Fr as [Fr _].
    exists u, r1. split; [exact EU|]. split; [rewrite <- EL; exact BS|]. split; [exact Dr|]. split; [exact Fr|]. split; [exact EL|].
    destruct BS as (_ & _ & rs & lt & sh & R1 & _). rewrite EL in R1. assert (NE : reports_in (SpecTruth.sent (ds ++ r1)) <> []) by (rewrite R1; destruct rs; discriminate). split; [|exact NE].
    destruct (inputs_at nm cl cfg may ts acts ON m) as (is & A & N). rewrite EU in A. destruct (latest_at _ _ _ _ A) as (ps & qs' & left' & D1' & D2' & SE & _).
    destruct (drains_det _ _ _ D1 _ _ D1') as [<- <-]. rewrite N, D2, app_assoc in D2'. injection D2' as D2'. apply app_inv_tail in D2'. rewrite <- D2', EL in SE.
    rewrite (seen_latest _ _ SE). destruct (last_report t0 (ds ++ r1) Dr) as [LR|(rs' & LR)]; [congruence|]. rewrite LR, map_app. cbn [map]. rewrite last_snoc, after_app. f_equal. apply idle_after. exact Fr. }
  assert (TELL : forall m m' es, (n + k <= m)%nat -> (m <= m')%nat -> t_events (ts m') = t_events (ts m) ++ es -> Forall (only_tells (arming_now (after t0 ds))) es).
  { intros m m' es Lm Lm' EE. destruct (P m Lm) as (u & r1 & _ & _ & _ & _ & E1 & _). destruct (P m' ltac:(lia)) as (u' & r1' & _ & _ & Dr & Fr & E2 & _).
    rewrite EE, packets_app, app_assoc, E1, !sent_app, <- app_assoc in E2. apply app_inv_head in E2. rewrite Forall_forall. intros e I pkt r EP M.
    eapply (idle_tells t0 ds r1'); [exact Dr | exact Fr | | exact M]. rewrite <- E2. apply in_app_iff. right. unfold packets.
    apply in_split in I as (ea & eb & ->). rewrite map_app, catMaybes_app. cbn [map catMaybes]. rewrite EP. apply in_app_iff. right. left. reflexivity. }
  assert (N2 : exists n2 u, (n + k <= n2)%nat /\ h_bridge (t_host (ts n2)) = Up u /\ pending_arm (u_panel u) = None).
  { destruct (P (n + k)%nat (le_n _)) as (u & r1 & EU & _ & _ & _ & _ & LT & _). destruct (pending_arm (u_panel u)) as [[d r]|] eqn:EP; [|exists (n + k)%nat, u; auto].
    destruct (TIME d) as (m1 & LD). destruct (REST (n + k + m1)%nat) as (m2 & L2 & DU & u2 & EU2 & EM). exists m2, u2. split; [lia|]. split; [exact EU2|].
    destruct (between (n + k) m2 u u2 _ EU EU2 ltac:(lia) LT) as [_ [X|X]]; [intros es; apply TELL; lia | | exact X].
    exfalso. destruct (tinv_any nm cl cfg may _ (at_turn nm cl cfg may ts acts ON m2)) as ((SO & QT) & _). pose proof (quiet_nothing _ _ _ SO (QT DU)) as NT. unfold nothing_to_do in NT. rewrite EU2, EM in NT.
    destruct NT as (_ & _ & NT). rewrite X, EP in NT. specialize (NT _ _ eq_refl). pose proof (now_later m1 m2 ltac:(lia)). lia. }
  destruct N2 as (n2 & u2 & L2 & EU2 & EP2). exists n2. intros m Lm. destruct (P m ltac:(lia)) as (u & r1 & EU & (_ & BZ & rs & lt & sh & R1 & _ & R3 & R4) & Dr & Fr & _ & LT & _).
  destruct (P n2 ltac:(lia)) as (u2' & _ & EU2' & _ & _ & _ & _ & LT2 & _). assert (u2' = u2) by congruence. subst u2'.
  destruct (idle_after _ _ Fr) as [IA IZ]. rewrite <- after_app in IA.
  exists u. split; [exact EU|]. split.
  - intros zone z HZ. destruct (BZ zone z HZ) as (t & ST & Ht). exists t. split; [|exact Ht]. specialize (ST (zone_now t0 zone)). rewrite zones_true, after_app, IZ in ST; [exact ST | eapply zones_are_zones; eauto | exact Dr].
  - destruct (between n2 m u2 u _ EU2 EU Lm LT2) as [_ X]; [intros es; apply TELL; lia|]. assert (PN : pending_arm (u_panel u) = None) by (rewrite EP2 in X; destruct X; assumption).
    assert (HN : held (u_panel u) = None) by (unfold held; rewrite PN; reflexivity). specialize (R3 HN). subst sh.
    destruct (last_report t0 (ds ++ r1) Dr) as [LR|(rs' & LR)]; rewrite LR in R1; [destruct rs; discriminate|]. apply app_inj_tail in R1 as [_ <-]. rewrite IA in R4. exact R4.
Qed.
End Settle.

(* When nothing changes any more, then from some time on and for ever all topics show how things are: if time passes and the bridge gets to rest again and again. *)
Theorem C124_settles : forall nm cl cfg (may : packet -> Prop) ts acts k t0 ds, well_configured cl cfg -> cfg_ok cfg -> distinct_zone_names cfg ->
  host_any nm cl cfg may ts acts -> fair_host ts acts -> (forall n, ~ overlaps (h_bridge (t_host (ts n)))) -> time_passes ts -> gets_to_rest ts ->
  does t0 ds ->
  (forall m, (k <= m)%nat -> exists rest, does t0 (ds ++ rest) /\ Forall (idle (after t0 ds)) rest /\ spells (sent_by ts acts m) (SpecTruth.sent (ds ++ rest))) ->
  exists n, forall m, (n <= m)%nat -> exists u, h_bridge (t_host (ts m)) = Up u /\
    zones_show cfg (u_log u) (zone_now (after t0 ds)) /\ areas_show cfg (u_log u) (arming_now (after t0 ds)).
Proof. intros nm cl cfg may ts acts k t0 ds W K DZ ON F NO T R D Q. exact (settles nm cl cfg may ts acts ON W K DZ F NO T R k t0 ds D Q). Qed.
(* So does Home Assistant.  With clients that wait for their commands to complete, two of them never overlap. *)
Theorem C124_house_settles : forall file o h nm cl cfg (may : packet -> Prop) ts acts k t0 ds ha, main_text file = Ok (o, h, cfg) -> well_configured cl cfg -> distinct_zone_names cfg ->
  ha_discovery_prefix cfg = Some ha -> turns_on nm cl cfg may ts acts -> fair_host ts acts -> time_passes ts -> gets_to_rest ts ->
  does t0 ds ->
  (forall m, (k <= m)%nat -> exists rest, does t0 (ds ++ rest) /\ Forall (idle (after t0 ds)) rest /\ spells (sent_by ts acts m) (SpecTruth.sent (ds ++ rest))) ->
  exists n, forall m, (n <= m)%nat -> exists u, h_bridge (t_host (ts m)) = Up u /\
    entities_show cfg (u_log u) ha (arming_now (after t0 ds)) (zone_now (after t0 ds)).
Proof.
  intros file o h nm cl cfg may ts acts k t0 ds ha M W DZ HH ON F T R D Q. pose proof (setup_ok _ _ _ _ M) as K. pose proof (waits_any _ _ _ _ _ _ ON) as ON'.
  destruct (settles nm cl cfg may ts acts ON' W K DZ F (waits_no_overlap _ _ _ _ _ _ W ON) T R k t0 ds D Q) as (n & H). exists n. intros m L. destruct (H m L) as (u & EU & ZS & AS). exists u. split; [exact EU|].
  destruct (inputs_at nm cl cfg may ts acts ON' m) as (is & A & _). rewrite EU in A. eapply topics_to_entities; eauto. apply W.
Qed.

(* ---- example ---- *)
(* from here on, only time passes *)
Definition time_on (t : hosted) (d : nat) : hosted :=
  let h := t_host t in mkHosted (mkHost (h_bridge h) (h_regs h) (h_chan h) (h_due h) (h_now h + 1000 * N.of_nat d) (h_room h) (h_broken h)) (t_net t) (t_replied t) (t_asked t) (t_events t).
Lemma after_none t : time_on t 0 = t.
Proof. destruct t as [[] ? ? ? ?]. unfold time_on. cbn. rewrite N.add_0_r. reflexivity. Qed.
Lemma after_wait cl cfg t d : match h_bridge (t_host t) with Up u => pending_arm (u_panel u) = None | _ => False end -> by_act cl cfg (time_on t d) (HWait 1000) = time_on t (S d).
Proof.
  destruct t as [[b g c due now room br] net rp ak ev]. cbn [t_host h_bridge]. destruct b as [|u|]; try contradiction. intros E. unfold by_act, time_on. cbn [t_host t_net t_replied t_asked t_events h_bridge h_regs h_chan h_due h_now h_room h_broken].
  f_equal. unfold hstep. cbn [h_bridge]. unfold outside. cbn [wstep world_of w_panel w_now h_now]. rewrite E. cbn [put w_panel w_regs w_now w_room w_broken existsb h_regs h_room h_broken h_chan h_due]. rewrite set_panel_same, orb_false_r.
  replace (1000 * N.of_nat (S d)) with (1000 * N.of_nat d + 1000) by lia. rewrite N.add_assoc. reflexivity.
Qed.
Inductive emv : Type := EOld (z : tmv) | EArmed.
Definition ego (t : hosted) (e : emv) : hosted :=
  match e with EOld z => tgo t z | EArmed => mkHosted (t_host t) (t_net t ++ bytes_of (MArmingStatusReport ex_armed)) (t_replied t) (t_asked t) (t_events t) end.
Definition e_turn (e : emv) : hturn := match e with EOld z => turn_of z | EArmed => UUnasked end.
Definition can_e (t : hosted) (e : emv) : bool := match e with EOld z => can_turn t z | EArmed => true end.
Fixpoint can_es (t : hosted) (es : list emv) : bool := match es with [] => true | e :: es' => can_e t e && can_es (ego t e) es' end.
Definition arm_may (pkt : packet) : Prop := ex_may pkt \/ pkt = ex_pkt (MArmingStatusReport ex_armed).
Lemma can_e_turns t e : can_e t e = true -> hturns ex_naming ex_cl ex_cfg arm_may t (e_turn e) (ego t e).
Proof.
  destruct e as [z|]; cbn [can_e ego e_turn].
  - intros H. pose proof (can_turn_turns _ _ H) as T. destruct T; try (constructor; assumption); [eapply U_unasked; eauto; left; assumption | eapply U_reply; eauto].
  - intros _. assert (WF : wf_message (MArmingStatusReport ex_armed)) by (repeat constructor; discriminate). destruct (ex_bytes _ WF) as (body & E & Hw & Hb & HF).
    assert (EM : message_of (ex_pkt (MArmingStatusReport ex_armed)) = Some (MArmingStatusReport ex_armed)) by (vm_compute; reflexivity).
    apply (U_unasked _ _ _ _ t (ex_pkt (MArmingStatusReport ex_armed))); [rewrite E; exact Hb | right; reflexivity | intros z; rewrite EM; discriminate | | rewrite E; exact HF].
    intros _ (r & Hr). rewrite EM in Hr. discriminate Hr.
Qed.
Lemma can_es_turns zs : forall t n z, can_es t zs = true -> nth_error zs n = Some z ->
  hturns ex_naming ex_cl ex_cfg arm_may (fold_left ego (firstn n zs) t) (e_turn z) (fold_left ego (firstn (S n) zs) t).
Proof.
  induction zs as [|x zs IH]; intros t n z H E; [destruct n; discriminate|]. cbn [can_es] in H. apply andb_true_iff in H as [H1 H2]. destruct n as [|n].
  - injection E as ->. cbn [firstn fold_left]. apply can_e_turns. exact H1.
  - rewrite !firstn_cons. cbn [fold_left]. apply IH; assumption.
Qed.
(* area 1 is fully armed; five seconds later the bridge takes it for true *)
Definition ex_set_turns : list emv :=
  map EOld ([ZRun true; ZRoom 999] ++ concat (repeat (repeat (ZRun true) 5 ++ [ZReply; ZDeliver 999]) 7) ++ [ZRun true; ZRun true; ZRun true]) ++
  [EArmed] ++ map EOld [ZDeliver 99; ZRun true; ZRun true; ZWait 5000; ZRun true; ZRun true].
Definition ex_set_last : hosted := Eval vm_compute in fold_left ego ex_set_turns hosted_new.
Definition ex_set (n : nat) : hosted := if (n <? length ex_set_turns)%nat then fold_left ego (firstn n ex_set_turns) hosted_new else time_on ex_set_last (n - length ex_set_turns).
Definition ex_set_act (n : nat) : hturn := if (n <? length ex_set_turns)%nat then e_turn (nth n ex_set_turns EArmed) else UWait 1000.
Definition ex_set_deeds : list deed := ex_deeds ++ [arm_deed ex_armed].
Lemma ex_set_late n : (length ex_set_turns <= n)%nat -> ex_set n = time_on ex_set_last (n - length ex_set_turns).
Proof. intros L. unfold ex_set. destruct (Nat.ltb_spec n (length ex_set_turns)); [lia | reflexivity]. Qed.
Lemma ex_set_go n : hturns ex_naming ex_cl ex_cfg arm_may (ex_set n) (ex_set_act n) (ex_set (S n)).
Proof.
  assert (C : can_es hosted_new ex_set_turns = true) by (vm_compute; reflexivity). destruct (Nat.ltb_spec n (length ex_set_turns)) as [L|L].
  - assert (E : ex_set (S n) = fold_left ego (firstn (S n) ex_set_turns) hosted_new).
    { unfold ex_set. destruct (Nat.ltb_spec (S n) (length ex_set_turns)) as [L'|L']; [reflexivity|]. rewrite firstn_all2 by exact L'. replace (S n - length ex_set_turns)%nat with 0%nat by lia. rewrite after_none. vm_compute. reflexivity. }
    rewrite E. unfold ex_set, ex_set_act. destruct (Nat.ltb_spec n (length ex_set_turns)) as [_|L']; [|lia]. apply can_es_turns; [exact C|]. apply nth_error_nth'. exact L.
  - rewrite !ex_set_late by lia. unfold ex_set_act. destruct (Nat.ltb_spec n (length ex_set_turns)) as [L'|_]; [lia|]. replace (S n - length ex_set_turns)%nat with (S (n - length ex_set_turns)) by lia.
    rewrite <- (after_wait ex_cl ex_cfg) by (vm_compute; reflexivity). apply U_wait.
Qed.
Lemma ex_set_sent d : sent_by ex_set ex_set_act (d + length ex_set_turns) = sent_by ex_set ex_set_act (length ex_set_turns).
Proof.
  induction d as [|d IH]; [reflexivity|]. rewrite <- IH. unfold sent_by. cbn [Nat.add arrived_by]. rewrite !ex_set_late by lia.
  assert (E : ex_set_act (d + length ex_set_turns) = UWait 1000) by (unfold ex_set_act; destruct (Nat.ltb_spec (d + length ex_set_turns) (length ex_set_turns)); [lia | reflexivity]). rewrite E. cbn [delivered]. rewrite app_nil_r. reflexivity.
Qed.
Lemma ex_set_does : does ex_t0 ex_set_deeds.
Proof. apply ex_does. apply does_cons; [vm_compute; reflexivity | apply does_nil]. Qed.
Lemma ex_set_rests n : (length ex_set_turns <= n)%nat -> listening (t_host (ex_set n)).
Proof.
  intros L. rewrite ex_set_late by exact L. unfold listening, time_on. cbn [t_host h_due h_bridge]. split; [reflexivity|]. eexists. split; reflexivity.
Qed.
(* Area 1 is fully armed.  The bridge rests, with this report held, and shows the area disarmed; five seconds later it shows that it is armed, for ever. *)
Example C124_example : (exists o h, main_text ex_text = Ok (o, h, ex_cfg)) /\ well_configured ex_cl ex_cfg /\ distinct_zone_names ex_cfg /\ ha_discovery_prefix ex_cfg = Some (B "homeassistant") /\
  turns_on ex_naming ex_cl ex_cfg arm_may ex_set ex_set_act /\ fair_host ex_set ex_set_act /\ time_passes ex_set /\ gets_to_rest ex_set /\ does ex_t0 ex_set_deeds /\
  (forall m, (61 <= m)%nat -> does ex_t0 (ex_set_deeds ++ []) /\ Forall (idle (after ex_t0 ex_set_deeds)) [] /\ spells (sent_by ex_set ex_set_act m) (SpecTruth.sent (ex_set_deeds ++ []))) /\
  h_due (t_host (ex_set 58)) = false /\ ex_shows (t_host (ex_set 58)) (B "disarmed") /\ ex_shows (t_host (ex_set 61)) (B "armed_away") /\ arming_now (after ex_t0 ex_set_deeds) = ex_armed.
Proof.
  destruct C79_example as ((o & h & M) & _). split; [exists o, h; exact M|]. split; [exact (proj1 C99_example)|]. split; [apply ex_cfg_fine|]. split; [reflexivity|].
  split; [split; [reflexivity | exact ex_set_go]|]. split; [|split; [|split; [|split; [exact ex_set_does|split]]]].
  - split; [|split; [|split]].
    + intros first n. exists (n + length ex_set_turns)%nat. split; [lia|]. right. rewrite ex_set_late by lia. reflexivity.
    + intros n. exists (n + length ex_set_turns)%nat. split; [lia|]. rewrite ex_set_late by lia. unfold time_on. cbn [t_host h_room]. vm_compute. discriminate.
    + intros n. exists (n + length ex_set_turns)%nat. split; [lia|]. right. intros q (qs & fs & rest & F & E & L). rewrite ex_set_late in E, L by lia.
      assert (E2 : put_by (v_bridge (service_of (time_on ex_set_last (n + length ex_set_turns - length ex_set_turns)))) = concat (map bytes_of ex_requests) ++ []).
      { change (put_by (h_bridge (t_host ex_set_last)) = concat (map bytes_of ex_requests) ++ []). vm_compute. reflexivity. }
      rewrite E2 in E. cbn [app] in E. destruct (requests_unique _ _ (ex_frames _ ex_requests_ok) _ _ _ _ F E) as (c & EC); [constructor | reflexivity|].
      apply (f_equal (@length _)) in EC. change (length qs = t_replied ex_set_last) in L. rewrite !app_length, L in EC. vm_compute in EC. lia.
    + intros n. exists (n + length ex_set_turns)%nat. split; [lia|]. right. rewrite ex_set_late by lia. reflexivity.
  - intros T. exists (N.to_nat T + length ex_set_turns)%nat. rewrite ex_set_late by lia. unfold time_on. cbn [t_host h_now]. lia.
  - intros n. exists (n + length ex_set_turns)%nat. split; [lia|]. apply ex_set_rests. lia.
  - intros m L. rewrite app_nil_r. split; [exact ex_set_does|]. split; [constructor|]. change 61%nat with (length ex_set_turns) in L. replace m with ((m - length ex_set_turns) + length ex_set_turns)%nat by lia. rewrite ex_set_sent.
    assert (ES : SpecTruth.sent ex_set_deeds = map ex_pkt (ex_answers ++ [MArmingStatusReport ex_armed])) by (vm_compute; reflexivity). rewrite ES.
    replace (sent_by ex_set ex_set_act (length ex_set_turns)) with (concat (map bytes_of (ex_answers ++ [MArmingStatusReport ex_armed]))) by (vm_compute; reflexivity). apply ex_spells.
    apply Forall_app. split; [exact ex_answers_ok|]. repeat constructor; discriminate.
  - do 3 (split; [vm_compute; reflexivity|]). reflexivity.
Qed.

(* ---- without rest ---- *)
Definition ex_flood_first : list emv := firstn 58 ex_set_turns ++ map EOld [ZUnasked; ZDeliver 99; ZRun true; ZWait 5000; ZUnasked; ZDeliver 99; ZRun true].
Definition ex_flooded : hosted := Eval vm_compute in fold_left ego ex_flood_first hosted_new.
Definition flood_up : up := Eval vm_compute in match h_bridge (t_host ex_flooded) with Up u => u | _ => up_of (brun ex_cl ex_cfg []) end.
(* state with log, events, now *)
Definition fl (log : list action) (ev : list Event) (now : N) : hosted :=
  mkHosted (mkHost (Up (mkUp (u_panel flood_up) (u_code flood_up) Selecting [] log)) (h_regs (t_host ex_flooded)) (h_chan (t_host ex_flooded)) true now (h_room (t_host ex_flooded)) None) [] (t_replied ex_flooded) (t_asked ex_flooded) ev.

Definition flood_cycle (b : bool) : list tmv := [ZUnasked; ZDeliver 99; ZRun b; ZWait 1000].
Definition flood_log : list action := Eval vm_compute in match h_bridge (t_host (fold_left tgo (flood_cycle true) (fl [] [] 5000))) with Up u => u_log u | _ => [] end.
Definition flood_events : list Event := Eval vm_compute in t_events (fold_left tgo (flood_cycle true) (fl [] [] 5000)).
Lemma flood_run b log ev now : fold_left tgo [ZUnasked; ZDeliver 99; ZRun b] (fl log ev now) = fl (log ++ flood_log) (ev ++ flood_events) now.
Proof. destruct b; vm_compute; reflexivity. Qed.
Lemma flood_start : ex_flooded = fl (u_log flood_up) (t_events ex_flooded) 5000.
Proof. vm_compute. reflexivity. Qed.
Lemma flood_wait log ev now : 5000 <= now -> tgo (fl log ev now) (ZWait 1000) = fl log ev (now + 1000).
Proof.
  intros L. cbn [tgo]. unfold by_act, fl. cbn [t_host t_net t_replied t_asked t_events]. unfold hstep. cbn [h_bridge]. unfold outside. cbn [wstep world_of w_panel w_now h_now u_panel].
  assert (exists r, pending_arm (u_panel flood_up) = Some (5000, r)) as (r & ->) by (eexists; reflexivity). destruct (N.leb_spec 5000 (now + 1000)); [|lia]. reflexivity.
Qed.

Definition fmv (n : nat) : tmv := match Nat.modulo n 4 with O => ZUnasked | 1%nat => ZDeliver 99 | 2%nat => ZRun (Nat.even (Nat.div n 4)) | _ => ZWait 1000 end.
Fixpoint flood (n : nat) : hosted := match n with O => ex_flooded | S k => tgo (flood k) (fmv k) end.
Lemma fmv_at j r : (r < 4)%nat -> fmv (4 * j + r) = nth r (flood_cycle (Nat.even j)) ZWake.
Proof.
  intros L. unfold fmv. replace (Nat.modulo (4 * j + r) 4) with r by lia. replace (Nat.div (4 * j + r) 4) with j by lia. do 4 (destruct r as [|r]; [reflexivity|]). lia.
Qed.
Lemma flood_steps j r : (r <= 4)%nat -> flood (4 * j + r) = fold_left tgo (firstn r (flood_cycle (Nat.even j))) (flood (4 * j)).
Proof.
  intros L. assert (S4 : forall r, (r < 4)%nat -> flood (4 * j + S r) = tgo (flood (4 * j + r)) (nth r (flood_cycle (Nat.even j)) ZWake)).
  { intros q Q. replace (4 * j + S q)%nat with (S (4 * j + q)) by lia. cbn [flood]. rewrite fmv_at by exact Q. reflexivity. }
  destruct r as [|r]; [rewrite Nat.add_0_r; reflexivity|].
  do 4 (destruct r as [|r]; [rewrite !S4 by lia; rewrite Nat.add_0_r; reflexivity|]). lia.
Qed.
Lemma flood_at j : exists log ev, flood (4 * j) = fl log ev (5000 + 1000 * N.of_nat j) /\ retained log (B "elkm1/0001/area/house/ha_state") = Some (PText (B "disarmed")).
Proof.
  induction j as [|j (log & ev & E & R)].
  - exists (u_log flood_up), (t_events ex_flooded). split; [exact flood_start | vm_compute; reflexivity].
  - exists (log ++ flood_log), (ev ++ flood_events). split; [|unfold retained; rewrite fold_left_app; exact R]. replace (4 * S j)%nat with (4 * j + 4)%nat by lia. rewrite flood_steps by lia. rewrite E.
    change (firstn 4 (flood_cycle (Nat.even j))) with ([ZUnasked; ZDeliver 99; ZRun (Nat.even j)] ++ [ZWait 1000]). rewrite fold_left_app, flood_run. cbn [fold_left]. rewrite flood_wait by lia. f_equal. lia.
Qed.
Lemma flood_cases n : exists j r, (r < 4)%nat /\ n = (4 * j + r)%nat.
Proof. exists (Nat.div n 4), (Nat.modulo n 4). lia. Qed.
Lemma flood_fact (P : hosted -> Prop) n :
  (forall r b log ev now, (r < 4)%nat -> n = (4 * Nat.div n 4 + r)%nat -> b = Nat.even (Nat.div n 4) -> now = 5000 + 1000 * N.of_nat (Nat.div n 4) -> retained log (B "elkm1/0001/area/house/ha_state") = Some (PText (B "disarmed")) -> P (fold_left tgo (firstn r (flood_cycle b)) (fl log ev now))) -> P (flood n).
Proof.
  intros H. assert (L : (Nat.modulo n 4 < 4)%nat) by lia. assert (EN : n = (4 * Nat.div n 4 + Nat.modulo n 4)%nat) by lia. rewrite EN. rewrite flood_steps by lia.
  destruct (flood_at (Nat.div n 4)) as (log & ev & E & R). rewrite E. apply H; auto.
Qed.
Lemma flood_shows n : ex_shows (t_host (flood n)) (B "disarmed").
Proof.
  apply flood_fact. intros r b log ev now L _ _ _ R. destruct r as [|[|[|[|r]]]]; [exact R | exact R | exact R | | lia]. cbn [flood_cycle firstn]. rewrite flood_run.
  cbn [t_host fl h_bridge ex_shows u_log]. unfold ex_shows. cbn [t_host fl h_bridge u_log]. unfold retained. rewrite fold_left_app. exact R.
Qed.
Lemma flood_can n : can_turn (flood n) (fmv n) = true.
Proof.
  destruct (flood_cases n) as (j & r & L & ->). rewrite fmv_at by exact L. destruct (flood_at j) as (log & ev & E & _). rewrite flood_steps by lia. rewrite E. generalize (5000 + 1000 * N.of_nat j). intros now. clear E. destruct (Nat.even j); do 4 (destruct r as [|r]; [vm_compute; reflexivity|]); lia.
Qed.
Lemma flood_net n : t_net (flood n) = (if Nat.eqb (Nat.modulo n 4) 1 then bytes_of ex_extra else []) /\ t_replied (flood n) = 7%nat /\ put_by (h_bridge (t_host (flood n))) = concat (map bytes_of ex_requests).
Proof.
  destruct (flood_cases n) as (j & r & L & ->). replace (Nat.modulo (4 * j + r) 4) with r by lia. destruct (flood_at j) as (log & ev & E & _). rewrite flood_steps by lia. rewrite E. generalize (5000 + 1000 * N.of_nat j). intros now. clear E.
  destruct (Nat.even j); do 4 (destruct r as [|r]; [split; [vm_compute; reflexivity|]; split; [vm_compute; reflexivity | vm_compute; reflexivity]|]); lia.
Qed.

Definition ex_flood (n : nat) : hosted := if (n <? length ex_flood_first)%nat then fold_left ego (firstn n ex_flood_first) hosted_new else flood (n - length ex_flood_first).
Definition ex_flood_act (n : nat) : hturn := if (n <? length ex_flood_first)%nat then e_turn (nth n ex_flood_first EArmed) else turn_of (fmv (n - length ex_flood_first)).
Definition zone_deed : deed := DZone 2 1 (ex_pkt ex_extra).
Definition ex_flood_deeds : list deed := ex_deeds ++ [arm_deed ex_armed; zone_deed].
Lemma ex_flood_late n : ex_flood (n + length ex_flood_first) = flood n.
Proof. unfold ex_flood. destruct (Nat.ltb_spec (n + length ex_flood_first) (length ex_flood_first)); [lia|]. f_equal. lia. Qed.
Lemma ex_flood_act_late n : ex_flood_act (n + length ex_flood_first) = turn_of (fmv n).
Proof. unfold ex_flood_act. destruct (Nat.ltb_spec (n + length ex_flood_first) (length ex_flood_first)); [lia|]. do 2 f_equal. lia. Qed.
Lemma ex_flood_go n : hturns ex_naming ex_cl ex_cfg arm_may (ex_flood n) (ex_flood_act n) (ex_flood (S n)).
Proof.
  assert (C : can_es hosted_new ex_flood_first = true) by (vm_compute; reflexivity). destruct (Nat.ltb_spec n (length ex_flood_first)) as [L|L].
  - assert (E : ex_flood (S n) = fold_left ego (firstn (S n) ex_flood_first) hosted_new).
    { unfold ex_flood. destruct (Nat.ltb_spec (S n) (length ex_flood_first)) as [L'|L']; [reflexivity|]. rewrite firstn_all2 by exact L'. replace (S n - length ex_flood_first)%nat with 0%nat by lia. cbn [flood]. vm_compute. reflexivity. }
    rewrite E. unfold ex_flood, ex_flood_act. destruct (Nat.ltb_spec n (length ex_flood_first)) as [_|L']; [|lia]. apply can_es_turns; [exact C|]. apply nth_error_nth'. exact L.
  - replace n with ((n - length ex_flood_first) + length ex_flood_first)%nat by lia. change (S (n - length ex_flood_first + length ex_flood_first)) with (S (n - length ex_flood_first) + length ex_flood_first)%nat. rewrite !ex_flood_late, ex_flood_act_late. cbn [flood].
    exact (can_e_turns (flood (n - length ex_flood_first)) (EOld (fmv (n - length ex_flood_first))) (flood_can _)).
Qed.
Lemma one_more (f : message -> bytes) a x e n : concat (map f (a ++ x :: repeat e (S n))) = concat (map f (a ++ x :: repeat e n)) ++ f e.
Proof.
  replace (S n) with (n + 1)%nat by lia. rewrite repeat_app, app_comm_cons, app_assoc, (map_app f (a ++ x :: repeat e n)), concat_app. cbn [repeat map concat]. rewrite app_nil_r. reflexivity.
Qed.
Definition flooded_by (n : nat) : nat := Nat.div (n + 3) 4.
Lemma ex_flood_sent n : sent_by ex_flood ex_flood_act (n + length ex_flood_first) = concat (map bytes_of (ex_answers ++ MArmingStatusReport ex_armed :: repeat ex_extra (2 + flooded_by n))).
Proof.
  induction n as [|n IH]; [vm_compute; reflexivity|]. unfold sent_by in *. cbn [Nat.add arrived_by]. change (S (n + length ex_flood_first)) with (S n + length ex_flood_first)%nat. rewrite ex_flood_late in *. rewrite ex_flood_late, ex_flood_act_late.
  destruct (flood_net n) as (N1 & _), (flood_net (S n)) as (N2 & _). rewrite N1 in IH. rewrite N2. unfold fmv, delivered. 
  destruct (flood_cases n) as (j & r & L & ->). replace (Nat.modulo (4 * j + r) 4) with r in * by lia. destruct r as [|[|[|[|r]]]]; [| | | |lia]; cbn [turn_of].
  - replace (Nat.modulo (S (4 * j + 0)) 4) with 1%nat by lia. cbn [Nat.eqb] in IH |- *. rewrite app_nil_r in *. rewrite IH.
    replace (flooded_by (S (4 * j + 0))) with (S (flooded_by (4 * j + 0))) by (unfold flooded_by; lia). replace (2 + S (flooded_by (4 * j + 0)))%nat with (S (2 + flooded_by (4 * j + 0))) by lia. symmetry. apply one_more.
  - replace (Nat.modulo (S (4 * j + 1)) 4) with 2%nat by lia. cbn [Nat.eqb] in IH |- *. rewrite N1. replace (Nat.modulo (S (4 * j + 1)) 4) with 2%nat in N2 by lia. cbn [Nat.eqb] in N2. rewrite N2. cbn [length]. rewrite Nat.sub_0_r, firstn_all, app_nil_r.
    replace (flooded_by (S (4 * j + 1))) with (flooded_by (4 * j + 1)) by (unfold flooded_by; lia). exact IH.
  - replace (Nat.modulo (S (4 * j + 2)) 4) with 3%nat by lia. cbn [Nat.eqb] in IH |- *. rewrite !app_nil_r in *. replace (flooded_by (S (4 * j + 2))) with (flooded_by (4 * j + 2)) by (unfold flooded_by; lia). exact IH.
  - replace (Nat.modulo (S (4 * j + 3)) 4) with 0%nat by lia. cbn [Nat.eqb] in IH |- *. rewrite !app_nil_r in *. replace (flooded_by (S (4 * j + 3))) with (flooded_by (4 * j + 3)) by (unfold flooded_by; lia). exact IH.
Qed.
Lemma ex_flood_does k : does ex_t0 (ex_flood_deeds ++ repeat zone_deed k).
Proof.
  unfold ex_flood_deeds. rewrite <- app_assoc. apply ex_does. cbn [app]. apply does_cons; [vm_compute; reflexivity|]. change (zone_deed :: repeat zone_deed k) with (repeat zone_deed (S k)).
  assert (EM : message_of (ex_pkt ex_extra) = Some ex_extra) by (vm_compute; reflexivity). generalize (after1 ex_t0 (arm_deed ex_armed)). induction (S k) as [|n IH]; intros t; [apply does_nil|]. cbn [repeat]. apply does_cons; [exact EM | apply IH].
Qed.
(* Without this it need not be so.  The report that an area is fully armed comes to be held, and then the panel sends something whenever the bridge is to be run: it never is shown. *)
Theorem C124_settles_refuted : exists nm cl cfg may ts acts k t0 ds, well_configured cl cfg /\ cfg_ok cfg /\ distinct_zone_names cfg /\
  turns_on nm cl cfg may ts acts /\ fair_host ts acts /\ time_passes ts /\ does t0 ds /\
  (forall m, (k <= m)%nat -> exists rest, does t0 (ds ++ rest) /\ Forall (idle (after t0 ds)) rest /\ spells (sent_by ts acts m) (SpecTruth.sent (ds ++ rest))) /\
  exists area name s up a, In (area, name) (areas cfg) /\ area_in (arming_now (after t0 ds)) area s up a /\ shows_area s up a (B "armed_away") /\
    forall m, (k <= m)%nat -> exists u, h_bridge (t_host (ts m)) = Up u /\ holds (u_log u) (topic_prefix cfg ++ B "/area/" ++ name ++ B "/ha_state") (PText (B "disarmed")).
Proof.
  exists ex_naming, ex_cl, ex_cfg, arm_may, ex_flood, ex_flood_act, (length ex_flood_first), ex_t0, ex_flood_deeds. split; [exact (proj1 C99_example)|]. split; [apply ex_cfg_fine|]. split; [apply ex_cfg_fine|].
  split; [split; [reflexivity | exact ex_flood_go]|]. split; [|split; [|split; [|split]]].
  - split; [|split; [|split]].
    + intros first n. exists ((4 * (2 * n + (if first then 0 else 1)) + 2) + length ex_flood_first)%nat. split; [lia|]. left. rewrite ex_flood_act_late, fmv_at by lia. cbn [flood_cycle nth turn_of]. f_equal. destruct first.
      * rewrite Nat.add_0_r, Nat.even_mul. reflexivity.
      * rewrite Nat.even_add, Nat.even_mul. reflexivity.
    + intros n. exists (4 * n + length ex_flood_first)%nat. split; [lia|]. rewrite ex_flood_late. destruct (flood_at n) as (log & ev & E & _). rewrite E. vm_compute. discriminate.
    + intros n. exists (n + length ex_flood_first)%nat. split; [lia|]. right. intros q (qs & fs & rest & F & E & L). rewrite ex_flood_late in E, L. destruct (flood_net n) as (_ & N2 & N3).
      cbn [service_of v_bridge v_replied] in E, L. rewrite N3 in E. rewrite N2 in L. rewrite <- (app_nil_r (concat (map bytes_of ex_requests))) in E. cbn [app] in E.
      destruct (requests_unique _ _ (ex_frames _ ex_requests_ok) _ _ _ _ F E) as (c & EC); [constructor | reflexivity|].
      apply (f_equal (@length _)) in EC. rewrite !app_length, L in EC. vm_compute in EC. lia.
    + intros n. exists (4 * n + length ex_flood_first)%nat. split; [lia|]. right. rewrite ex_flood_late. destruct (flood_net (4 * n)) as (N1 & _). rewrite N1. replace (Nat.modulo (4 * n) 4) with 0%nat by lia. reflexivity.
  - intros T. exists (4 * N.to_nat T + length ex_flood_first)%nat. rewrite ex_flood_late. destruct (flood_at (N.to_nat T)) as (log & ev & E & _). rewrite E. cbn [t_host fl h_now]. lia.
  - pose proof (ex_flood_does 0) as D. rewrite app_nil_r in D. exact D.
  - intros m L. exists (repeat zone_deed (1 + flooded_by (m - length ex_flood_first))). split; [apply ex_flood_does|]. split.
    { apply Forall_forall. intros d I. apply repeat_spec in I. subst d. reflexivity. }
    replace m with ((m - length ex_flood_first) + length ex_flood_first)%nat at 1 by lia. rewrite ex_flood_sent.
    replace (SpecTruth.sent (ex_flood_deeds ++ repeat zone_deed (1 + flooded_by (m - length ex_flood_first)))) with (map ex_pkt (ex_answers ++ MArmingStatusReport ex_armed :: repeat ex_extra (2 + flooded_by (m - length ex_flood_first)))).
    { apply ex_spells. apply Forall_app. split; [exact ex_answers_ok|]. constructor; [repeat constructor; discriminate|]. apply Forall_forall. intros x I. apply repeat_spec in I. subst x. repeat constructor; discriminate. }
    generalize (flooded_by (m - length ex_flood_first)). intros c. unfold ex_flood_deeds. rewrite !sent_app, map_app.
    assert (E1 : SpecTruth.sent ex_deeds = map ex_pkt ex_answers) by (vm_compute; reflexivity). rewrite E1, <- app_assoc. f_equal.
    cbn [map Nat.add repeat]. change (SpecTruth.sent [arm_deed ex_armed; zone_deed]) with [ex_pkt (MArmingStatusReport ex_armed); ex_pkt ex_extra]. cbn [app]. do 2 f_equal. rewrite sent_cons. cbn [zone_deed sent1 app]. f_equal.
    induction c as [|c IH]; [reflexivity|]. cbn [repeat map]. rewrite sent_cons, IH. reflexivity.
  - exists 1, (B "house"), AST_ArmedAway, AU_ArmedFully, AA_NoAlarmActive. split; [left; reflexivity|]. split; [split; [|split]; reflexivity|]. split.
    { right; right; right. split; [intros [X _]; apply X; left; reflexivity|]. split; [discriminate|]. split; [discriminate|]. cbn. tauto. }
    intros m L. pose proof (flood_shows (m - length ex_flood_first)) as S. rewrite <- ex_flood_late in S. replace (m - length ex_flood_first + length ex_flood_first)%nat with m in S by lia. unfold ex_shows in S.
    destruct (h_bridge (t_host (ex_flood m))) as [|u|]; [destruct S | | destruct S]. exists u. split; [reflexivity|]. apply PropQueue.retained_holds. exact S.
Qed.

Print Assumptions C124_settles_refuted.
Print Assumptions C124_settles.
Print Assumptions C124_house_settles.
Print Assumptions C124_example.
