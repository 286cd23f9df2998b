(* PropMqtt.v: theorems C47-C52 and C57-C59 about the MQTT bridge (elkm1-mqtt/src/main.rs). *)
From Verif Require Import Base BaseFacts Pkt SpecPkt PktFacts DecodeFacts Msg SpecMsg DecFacts MsgFacts WireFacts IsoFacts
  PropMsg Tokio SpecConn ConnFacts State SpecState StateFacts RunFacts HistFacts ViewFacts ExState PropState PropSink
  Serde SerdeFacts PropSerde Mqtt SpecMqtt MqttFacts.
From Coq Require Import ZifyBool ZifyNat ZifyN.
Ltac Zify.zify_post_hook ::= Z.div_mod_to_equations.

(* ---- C47 ---- *)
(* False as stated: an area with a fire alarm is shown as if there was none. *)
Definition ex_fire : ArmingStatusReport :=
  mkAS (AST_ArmedAway :: repeat AST_Disarmed 7) (AU_ArmedFully :: repeat AU_ReadyToArm 7) (AA_FireAlarm :: repeat AA_NoAlarmActive 7) 0.
Theorem C47_alarm_shown_refuted :
  exists r area s u a t, as_ok r /\ area_ok area /\ area_in r area s u a /\ is_alarm a /\
    ha_area_state r area = Ok t /\ t = B "armed_away" /\ ~ should_show_area s u a t.
Proof.
  exists ex_fire, 1, AST_ArmedAway, AU_ArmedFully, AA_FireAlarm, (B "armed_away").
  split; [repeat split; cbn; lia|]. split; [unfold area_ok; lia|]. split; [repeat split|]. split; [intros H; cbn in H; repeat destruct H as [H|H]; discriminate || destruct H|]. split; [reflexivity|]. split; [reflexivity|].
  intros [[_ H]|[[H _]|[(H & _)|(H & _)]]]; try discriminate; apply H; intros Q; cbn in Q; repeat destruct Q as [Q|Q]; discriminate || destruct Q.
Qed.
(* Apart from that, it is exactly so. *)
Theorem C47_alarm_shown_partial : forall r area, as_ok r -> area_ok area ->
  exists s u a t, area_in r area s u a /\ ha_area_state r area = Ok t /\
    (forall t', shows_area s u a t' <-> t' = t) /\ (a <> AA_FireAlarm -> forall t', should_show_area s u a t' <-> t' = t).
Proof.
  intros r area A O. destruct (ha_area_state_spec r area A O) as (s & u & a & t & H1 & H2 & H3).
  exists s, u, a, t. split; [exact H1|]. split; [exact H2|].
  assert (K : forall t', shows_area s u a t' <-> t' = t) by (intros t'; split; [intros H; eapply shows_area_fun; eauto | intros ->; exact H3]).
  split; [exact K|]. intros NF t'. rewrite <- K. unfold should_show_area, shows_area, shows_area_if. tauto.
Qed.

(* ---- C48, C49 ---- *)
Lemma quiet_run h : forall p p' bs, reachable p -> Forall op_ok h -> run p h = Ok (p', bs) -> events bs = [] ->
  panel_arming_status p' = panel_arming_status p /\ panel_zone_statuses p' = panel_zone_statuses p.
Proof.
  induction h as [|o h IH]; intros p p' bs R HO E EV; cbn [run] in E; [injection E as <- <-; auto|].
  inversion HO as [|? ? Ho HO']; subst. destruct (step p o) as [[p1 b]| |] eqn:ES; try discriminate. cbn [bind] in E.
  destruct (run p1 h) as [[p2 bs']| |] eqn:ER; try discriminate. injection E as <- <-.
  change (b :: bs') with ([b] ++ bs') in EV. rewrite events_app in EV. apply app_eq_nil in EV as [EV1 EV2].
  destruct (C30_only_events_change_arming _ _ _ _ R Ho ES EV1) as [A1 _]. pose proof (C32_only_polls_change_zones _ _ _ _ R Ho ES EV1) as A2.
  assert (R1 : reachable p1).
  { apply (reachable_run p [o] p1 [b]); [exact R | repeat constructor; exact Ho |]. cbn [run]. rewrite ES. reflexivity. }
  destruct (IH _ _ _ R1 HO' ER EV2) as [B1 B2]. split; congruence.
Qed.
Lemma area_shown_same p p' a t : panel_arming_status p' = panel_arming_status p -> area_shown p a t -> area_shown p' a t.
Proof. intros E (r & s & u & al & H & H'). exists r, s, u, al. unfold status_is in *. rewrite E. auto. Qed.
Lemma zone_shown_same p p' z t : panel_zone_statuses p' = panel_zone_statuses p -> zone_shown p z t -> zone_shown p' z t.
Proof. intros E (s & (zs & H & H') & H2). exists s. split; [exists zs; rewrite E; auto | exact H2]. Qed.
Lemma area_pubs_quiet prefix p as_ l n : Forall2 (area_pub prefix p) as_ l -> Forall (fun a => ~ touches (zone_state_topic prefix n) a) l.
Proof. induction 1 as [|x a xs l (t & _ & ->) _ IH]; constructor; [|exact IH]. intros (qq & rr & H). injection H as _ H _. elim (area_zone_topic _ _ _ H). Qed.
Lemma zone_pubs_quiet prefix p zs l n : Forall2 (zone_pub prefix p) zs l -> Forall (fun a => ~ touches (area_state_topic prefix n) a) l.
Proof. induction 1 as [|x a xs l (t & _ & ->) _ IH]; constructor; [|exact IH]. intros (qq & rr & H). injection H as _ H _. symmetry in H. elim (area_zone_topic _ _ _ H). Qed.
Lemma NoDup_map_comp {A B C} (f : A -> B) (g : B -> C) l : (forall x y, g x = g y -> x = y) -> NoDup (map f l) -> NoDup (map (fun x => g (f x)) l).
Proof.
  intros G. induction l as [|x l IH]; cbn [map]; intros H; inversion H as [|? ? H1 H2]; subst; constructor; auto.
  intros H3. apply H1. apply in_map_iff in H3 as (y & E & Hy). apply in_map_iff. exists y. auto.
Qed.
Lemma came_up_areas cl cfg u area name : came_up cl cfg u -> distinct_area_names cfg -> In (area, name) (areas cfg) ->
  exists t, area_shown (u_panel u) area t /\ holds (u_log u) (area_state_topic (topic_prefix cfg) name) (PText t).
Proof.
  intros (C & E & _) D HI. assert (R := connected_reachable _ C). destruct (start_up_ok _ _ _ _ _ R E) as (_ & _ & _ & ld & la & lz & fs & -> & _ & LA & LZ & _).
  destruct (holds_each (fun x => area_state_topic (topic_prefix cfg) (snd x)) (fun x => area_shown (u_panel u) (fst x)) (areas cfg) la (area, name) LA) as (t & T1 & T2); auto.
  { apply NoDup_map_comp; [apply area_topic_inj | exact D]. }
  exists t. split; [exact T1|]. apply holds_right, holds_left; [exact T2|]. apply Forall_app. split; [eapply zone_pubs_quiet; eauto|].
  constructor; [intros (qq & rr & H); discriminate|]. constructor; [|constructor]. intros (q & r & H). injection H as _ H _. symmetry in H. elim (area_avail_topic _ _ H).
Qed.
Lemma came_up_zones cl cfg u zone z : came_up cl cfg u -> distinct_zone_names cfg -> In (zone, z) (zones cfg) ->
  exists t, zone_shown (u_panel u) zone t /\ holds (u_log u) (zone_state_topic (topic_prefix cfg) (z_name z)) (PText t).
Proof.
  intros (C & E & _) D HI. assert (R := connected_reachable _ C). destruct (start_up_ok _ _ _ _ _ R E) as (_ & _ & _ & ld & la & lz & fs & -> & _ & LA & LZ & _).
  destruct (holds_each (fun x => zone_state_topic (topic_prefix cfg) (z_name (snd x))) (fun x => zone_shown (u_panel u) (fst x)) (zones cfg) lz (zone, z) LZ) as (t & T1 & T2); auto.
  { apply (NoDup_map_comp (fun x => z_name (snd x)) (zone_state_topic (topic_prefix cfg))); [apply zone_topic_inj | exact D]. }
  exists t. split; [exact T1|]. apply holds_right, holds_right, holds_left; [exact T2|].
  constructor; [intros (qq & rr & H); discriminate|]. constructor; [|constructor]. intros (q & r & H). injection H as _ H _. symmetry in H. elim (zone_avail_topic _ _ H).
Qed.
Lemma event_quiet cfg t v : ~ touches t (APublish (event_topic (topic_prefix cfg)) false (PJson v)).
Proof. intros (qq & rr & H). discriminate. Qed.
Lemma report_dec (a b : ArmingStatusReport) : a = b \/ a <> b.
Proof. destruct (ArmingStatusReport_eqb a b) eqn:E; [left; apply report_eqb_eq; exact E | right; intros H; apply report_eqb_eq in H; congruence]. Qed.
Theorem C48_area_topics_match : forall cl cfg is u area name,
  bridge_after cl cfg is (Up u) -> distinct_area_names cfg -> In (area, name) (areas cfg) ->
  exists t, area_shown (u_panel u) area t /\ holds (u_log u) (topic_prefix cfg ++ B "/area/" ++ name ++ B "/ha_state") (PText t).
Proof.
  intros cl cfg is u area name (HI & E) D HA. pose proof (brun_cases cl cfg is HI) as H. rewrite E in H.
  destruct H as (u0 & is1 & is2 & -> & C & _ & _ & E2). apply Forall_app in HI as [_ HI].
  change (exists t, area_shown (u_panel u) area t /\ holds (u_log u) (area_state_topic (topic_prefix cfg) name) (PText t)).
  refine (proj2 (up_ind cl cfg u0 (fun _ u => exists t, area_shown (u_panel u) area t /\ holds (u_log u) (area_state_topic (topic_prefix cfg) name) (PText t)) (came_up_binv _ _ _ C) _ _ is2 u HI E2)).
  - eapply came_up_areas; eauto.
  - clear -D HA. intros is u i u' (t & T1 & T2) (R & RG & _) HO (ops & bs & hd & os & HOps & ER & _ & _ & _ & _ & _ & _ & [[EV EL]|(now & r & w & e & l & EP & Y & EB & EH & EL)]) _.
    + rewrite EL. exists t. split; [|exact T2]. eapply area_shown_same; [|exact T1]. eapply quiet_run; eauto.
    + rewrite EL. assert (R' := reachable_poll _ _ _ _ _ R EP). destruct (handle_event_ok _ _ _ _ _ R' RG EH) as (v & l' & _ & -> & EPs & _).
      destruct (C31_arming_changes_announced _ _ _ _ _ R EP) as (a & a' & A1 & A2 & A3 & _).
      unfold event_pubs in EPs. destruct (e_change e) as [[z s|prior]|] eqn:EC.
      * exists t. split; [apply (area_shown_same (u_panel u)); [|exact T1]|].
        { unfold status_is in *. rewrite A1, A2. f_equal. destruct (report_dec a' a) as [|NE]; [assumption|]. apply A3 in NE as (e' & pr & Y' & EC'). unfold yields in *. congruence. }
        apply holds_left; [exact T2|]. constructor; [apply event_quiet|]. destruct EPs as [(c & x & _ & (t' & _ & ->) & ->)|[_ ->]]; [|constructor].
        constructor; [|constructor]. intros (qq & rr & H). injection H as _ H _. symmetry in H. elim (area_zone_topic _ _ _ H).
      * destruct (holds_each (fun x => area_state_topic (topic_prefix cfg) (snd x)) (fun x => area_shown (u_panel u') (fst x)) (areas cfg) l' (area, name) EPs) as (t' & T1' & T2'); auto.
        { apply NoDup_map_comp; [apply area_topic_inj | exact D]. }
        exists t'. split; [exact T1'|]. apply holds_right. apply (holds_right [_]). exact T2'.
      * subst l'. exists t. split; [apply (area_shown_same (u_panel u)); [|exact T1]|].
        { unfold status_is in *. rewrite A1, A2. f_equal. destruct (report_dec a' a) as [|NE]; [assumption|]. apply A3 in NE as (e' & pr & Y' & EC'). unfold yields in *. congruence. }
        apply holds_left; [exact T2|]. constructor; [apply event_quiet | constructor].
Qed.

Lemma key_unique {A} (l : list (N * A)) k x y : NoDup (map fst l) -> In (k, x) l -> In (k, y) l -> x = y.
Proof.
  induction l as [|[k' x'] l IH]; cbn; [tauto|]. intros ND. inversion ND as [|? ? H1 H2]; subst. intros [H|H] [H'|H']; try congruence; [| |auto].
  - injection H as -> ->. elim H1. apply in_map_iff. exists (k, y). auto.
  - injection H' as -> ->. elim H1. apply in_map_iff. exists (k, x). auto.
Qed.
Lemma name_unique {A C} (f : A -> C) (l : list (N * A)) k k' x y : NoDup (map (fun x => f (snd x)) l) -> In (k, x) l -> In (k', y) l -> f x = f y -> k = k'.
Proof.
  induction l as [|[k0 x'] l IH]; cbn; [tauto|]. intros ND. inversion ND as [|? ? H1 H2]; subst. intros [H|H] [H'|H'] E; try congruence; [| |auto].
  - injection H as -> ->. elim H1. rewrite E. apply in_map_iff. exists (k', y). auto.
  - injection H' as -> ->. elim H1. rewrite <- E. apply in_map_iff. exists (k, x). auto.
Qed.
Lemma zone_shown_at p p' z t s : zone_ok z -> panel_zone_statuses p = Ok s -> zone_shown p z t ->
  forall s', panel_zone_statuses p' = Ok s' -> nth_error s' (N.to_nat (z - 1)) = nth_error s (N.to_nat (z - 1)) -> zone_shown p' z t.
Proof. intros Z E (v & (zs & H1 & H2) & H3) s' E' EN. exists v. split; [|exact H3]. exists s'. split; [exact E'|]. congruence. Qed.
Theorem C49_zone_topics_match : forall cl cfg is u zone z,
  bridge_after cl cfg is (Up u) -> cfg_ok cfg -> distinct_zone_names cfg -> In (zone, z) (zones cfg) ->
  exists t, zone_shown (u_panel u) zone t /\ holds (u_log u) (topic_prefix cfg ++ B "/zone/" ++ z_name z ++ B "/ha_state") (PText t).
Proof.
  intros cl cfg is u zone z (HI & E) (_ & CK & _) D HA. pose proof (brun_cases cl cfg is HI) as H. rewrite E in H.
  destruct H as (u0 & is1 & is2 & -> & C & _ & _ & E2). apply Forall_app in HI as [_ HI].
  change (exists t, zone_shown (u_panel u) zone t /\ holds (u_log u) (zone_state_topic (topic_prefix cfg) (z_name z)) (PText t)).
  refine (proj2 (up_ind cl cfg u0 (fun _ u => exists t, zone_shown (u_panel u) zone t /\ holds (u_log u) (zone_state_topic (topic_prefix cfg) (z_name z)) (PText t)) (came_up_binv _ _ _ C) _ _ is2 u HI E2)).
  - eapply came_up_zones; eauto.
  - clear -CK D HA. intros is u i u' (t & T1 & T2) (R & RG & _) HO (ops & bs & hd & os & HOps & ER & _ & _ & _ & _ & _ & _ & [[EV EL]|(now & r & w & e & l & EP & Y & EB & EH & EL)]) _.
    + rewrite EL. exists t. split; [|exact T2]. eapply zone_shown_same; [|exact T1]. eapply quiet_run; eauto.
    + rewrite EL. assert (R' := reachable_poll _ _ _ _ _ R EP). destruct (handle_event_ok _ _ _ _ _ R' RG EH) as (v & l' & SER & -> & EPs & _).
      assert (Zk : zone_ok zone). { destruct RG as (_ & RZ & _). rewrite Forall_forall in RZ. exact (RZ _ HA). }
      assert (NZ : forall e' new, yields r e' -> e_msg e' <> Some (inl (MZoneStatusReport new))).
      { intros e' new Y' EM. assert (e' = e) by (unfold yields in *; congruence). subst e'. destruct (Event_zs e) as (why & X); [exists new; exact EM | congruence]. }
      destruct (C32_zone_changes_announced_partial _ _ _ _ _ R EP) as (zs & zs' & Z1 & Z2 & Z3 & _ & Z5). specialize (Z3 NZ).
      assert (SAME : (forall k pr, e_change e <> Some (CZoneChange k pr)) -> zone_shown (u_panel u') zone t).
      { intros NC. apply (zone_shown_same (u_panel u)); [|exact T1]. rewrite Z1, Z2. f_equal.
        destruct (list_eq_dec N.eq_dec zs' zs) as [EQ|NE]; [exact EQ|]. apply Z3 in NE as (e' & k & pr & Y' & EC'). elim (NC k pr). unfold yields in *. congruence. }
      unfold event_pubs in EPs. destruct (e_change e) as [[k s|prior]|] eqn:EC.
      * destruct (Z5 e k s Y EC) as (_ & _ & st & _ & _ & _ & OTH).
        destruct EPs as [(c & x & HK & (t' & S' & ->) & ->)|[NK ->]]; cbn [fst snd] in *.
        -- destruct (N.eq_dec k zone) as [->|NE].
           ++ rewrite <- (key_unique _ _ _ _ CK HK HA). exists t'. split; [exact S'|]. apply holds_right, (holds_right [_]).
              exists AtLeastOnce, [], []. split; [reflexivity|]. intros ? ? [].
           ++ exists t. split; [eapply (zone_shown_at _ _ _ _ _ Zk Z1 T1 _ Z2)|].
              { apply OTH. destruct RG as (_ & RZ & _). rewrite Forall_forall in RZ. specialize (RZ _ HK). cbn in RZ. unfold zone_ok in *. lia. }
              apply holds_left; [exact T2|]. constructor; [apply event_quiet|]. constructor; [|constructor].
              intros (qq & rr & H). injection H as _ H _. apply zone_topic_inj in H. elim NE. eapply (name_unique z_name); eauto.
        -- assert (NE : k <> zone) by (intros ->; elim (NK _ HA)). exists t. split; [eapply (zone_shown_at _ _ _ _ _ Zk Z1 T1 _ Z2)|].
           { apply OTH. destruct (Z5 e k s Y EC) as (KR & _). unfold zone_ok in *. lia. }
           apply holds_left; [exact T2|]. constructor; [apply event_quiet | constructor].
      * exists t. split; [apply SAME; congruence|]. apply holds_left; [exact T2|]. constructor; [apply event_quiet|].
        eapply area_pubs_quiet; eauto.
      * subst l'. exists t. split; [apply SAME; congruence|]. apply holds_left; [exact T2|]. constructor; [apply event_quiet | constructor].
Qed.

(* ---- C50 ---- *)
Lemma net_in_app is1 is2 : net_in (is1 ++ is2) = net_in is1 ++ net_in is2.
Proof. unfold net_in. rewrite map_app. apply concat_app. Qed.
(* what a bridge did since it was u0 *)
Definition since (cl : client) (cfg : Cfg) (u0 : up) (is : list input) (u : up) : Prop :=
  exists ops bs handled os,
    Forall op_ok ops /\ run (u_panel u0) ops = Ok (u_panel u, bs) /\ arrived ops = net_in is /\ u_code u = u_code u0 /\
    u_rx u0 ++ mqtt_in is = handled ++ u_rx u /\ Forall2 (asked cfg) handled os /\
    waiting u0 ++ catMaybes os = accepted ops ++ waiting u /\
    exists ls, Forall2 (fun e l => exists v l', Event_ser e = Ok v /\ l = APublish (event_topic (topic_prefix cfg)) false (PJson v) :: l' /\
        Forall (fun a => forall q t p, a = APublishQ q t false p -> False) l') (events bs) ls /\ u_log u = u_log u0 ++ concat ls.
Lemma bridge_since cl cfg u0 is u : binv cl cfg u0 -> Forall input_ok is -> fold_left (bstep cl cfg) is (Up u0) = Up u -> since cl cfg u0 is u.
Proof.
  intros B0 HI E. refine (proj2 (up_ind cl cfg u0 (since cl cfg u0) B0 _ _ is u HI E)).
  - exists [], [], [], []. cbn. rewrite !app_nil_r. repeat split; auto. exists []. split; [constructor|]. cbn. rewrite app_nil_r. reflexivity.
  - clear. intros is u i u' (ops & bs & hd & os & H1 & H2 & H3 & H4 & H5 & H6 & H7 & ls & H8 & H9) (R & RG & _) HI
      (ops' & bs' & hd' & os' & K1 & K2 & K3 & K4 & K5 & K6 & K7 & _ & K8) _.
    exists (ops ++ ops'), (bs ++ bs'), (hd ++ hd'), (os ++ os'). split; [apply Forall_app; auto|].
    split; [rewrite run_app, H2; cbn [bind]; rewrite K2; reflexivity|]. split; [rewrite arrived_app, net_in_app; congruence|].
    split; [congruence|]. split; [rewrite mqtt_in_app, app_assoc, H5, <- !app_assoc, K5; reflexivity|]. split; [apply Forall2_app; auto|].
    split; [rewrite catMaybes_app, app_assoc, H7, accepted_app, <- !app_assoc, K7; reflexivity|].
    destruct K8 as [[EV EL]|(now & r & w & e & l & EP & Y & -> & EH & EL)].
    + exists ls. rewrite events_app, EV, app_nil_r, EL. auto.
    + exists (ls ++ [l]). rewrite events_app, concat_app. cbn [concat]. rewrite app_nil_r. split; [|rewrite EL, H9, app_assoc; reflexivity].
      apply Forall2_app; [exact H8|]. unfold yields in Y. subst r. cbn. constructor; [|constructor].
      destruct (handle_event_ok _ _ _ _ _ (reachable_poll _ _ _ _ _ R EP) RG EH) as (v & l' & S & -> & EPs & _). exists v, l'.
      split; [exact S|]. split; [reflexivity|]. unfold event_pubs in EPs. destruct (e_change e) as [[k s|prior]|].
      * destruct EPs as [(c & x & HK & (t' & S' & ->) & ->)|[NK ->]]; repeat constructor. intros t p; discriminate.
      * clear -EPs. induction EPs as [|x a xs l (t & _ & ->) _ IH]; constructor; auto. discriminate.
      * subst l'. constructor.
Qed.

(* A publish asks for at most one command (area names being distinct). *)
Lemma asks_fun cfg m c c' : distinct_area_names cfg -> asks cfg m c -> asks cfg m c' -> c = c'.
Proof.
  intros D (a & n & l & k & H1 & H2 & H3 & V & ->) (a' & n' & l' & k' & H1' & H2' & H3' & V' & ->).
  rewrite H2 in H2'. apply (command_topic_inj (topic_prefix cfg)) in H2'. subst n'.
  assert (a = a') by (eapply (name_unique (fun x => x)); eauto). subst a'. rewrite (dec_canon_fun _ _ _ _ V V'). repeat f_equal.
  cbn in H3, H3'. intuition congruence.
Qed.
Lemma bridge_between cl cfg is1 u1 is2 u2 : bridge_after cl cfg is1 (Up u1) -> bridge_after cl cfg (is1 ++ is2) (Up u2) ->
  binv cl cfg u1 /\ since cl cfg u1 is2 u2.
Proof.
  intros (H1 & E1) (H2 & E2). apply Forall_app in H2 as [_ H2]. unfold brun in E2. rewrite fold_left_app in E2.
  change (fold_left (bstep cl cfg) is2 (brun cl cfg is1) = Up u2) in E2. rewrite E1 in E2.
  assert (B : binv cl cfg u1).
  { pose proof (brun_cases cl cfg is1 H1) as H. rewrite E1 in H. destruct H as (u0 & i1 & i2 & -> & C & _ & _ & E). apply Forall_app in H1 as [_ H1].
    refine (proj1 (up_ind cl cfg u0 (fun _ _ => True) (came_up_binv _ _ _ C) Logic.I _ i2 u1 H1 E)). auto. }
  split; [exact B|]. apply bridge_since; auto.
Qed.
(* Between any two moments at which the bridge is up: the messages taken from MQTT are those that arrived, in order; each asks
   for a command or for nothing; and what is written to the panel is exactly the requests asked for, once each and in order, the
   last of them possibly still waiting. *)
Theorem C50_commands_sent : forall cl cfg is1 u1 is2 u2,
  bridge_after cl cfg is1 (Up u1) -> bridge_after cl cfg (is1 ++ is2) (Up u2) ->
  exists handled os cs fs,
    u_rx u1 ++ mqtt_in is2 = handled ++ u_rx u2 /\ Forall2 (asked cfg) handled os /\
    waiting u1 ++ catMaybes os = cs ++ waiting u2 /\
    Forall2 command_frame cs fs /\ written (p_conn (u_panel u2)) = written (p_conn (u_panel u1)) ++ concat fs.
Proof.
  intros cl cfg is1 u1 is2 u2 A1 A2. destruct (bridge_between _ _ _ _ _ _ A1 A2) as [(R & _) (ops & bs & hd & os & H1 & H2 & _ & _ & H5 & H6 & H7 & _)].
  destruct (reachable_inv _ R) as [I _]. destruct (wire_run _ _ _ _ I H1 H2) as (fs & F1 & F2). exists hd, os, (accepted ops), fs. auto.
Qed.
(* Counting from the start: nothing that arrived is skipped, and connecting sends none of it. *)
Theorem C50_all_commands_sent : forall cl cfg is u, bridge_after cl cfg is (Up u) ->
  exists p0 handled os cs fs, connected p0 /\
    mqtt_in is = handled ++ u_rx u /\ Forall2 (asked cfg) handled os /\ catMaybes os = cs ++ waiting u /\
    Forall2 command_frame cs fs /\ written (p_conn (u_panel u)) = written (p_conn p0) ++ concat fs.
Proof.
  intros cl cfg is u (HI & E). pose proof (brun_cases cl cfg is HI) as H. rewrite E in H. destruct H as (u0 & i1 & i2 & -> & C & RX & E1 & E2).
  assert (A1 : bridge_after cl cfg i1 (Up u0)) by (apply Forall_app in HI as [HI _]; split; auto).
  destruct (C50_commands_sent cl cfg i1 u0 i2 u A1 (conj HI E)) as (hd & os & cs & fs & H1 & H2 & H3 & H4 & H5).
  destruct C as (C & _ & M). exists (u_panel u0), hd, os, cs, fs. split; [exact C|]. split; [rewrite mqtt_in_app, <- RX; exact H1|]. split; [exact H2|].
  unfold waiting at 1 in H3. rewrite M in H3. auto.
Qed.
Theorem C50_one_command_each : forall cfg m, distinct_area_names cfg ->
  (forall c c', asks cfg m c -> asks cfg m c' -> c = c') /\
  (forall area name level, In (area, name) (areas cfg) -> In (snd m, level) payload_levels -> code cfg < 1000000 ->
     fst m = topic_prefix cfg ++ B "/area/" ++ name ++ B "/ha_command" -> exists c, asks cfg m c).
Proof.
  intros cfg m D. split; [intros c c'; apply asks_fun; exact D|]. intros area name level H1 H2 H3 H4.
  destruct (ArmCode_try_from_u32 (code cfg)) as [k|er|w] eqn:E.
  - apply code_canon in E as [_ E]. eexists (CmdArm _), area, name, level, k. eauto.
  - unfold ArmCode_try_from_u32 in E. destruct (1000000 <=? code cfg) eqn:EL; [lia|]. destruct (_ =? _)%nat; discriminate.
  - destruct (C20_code_from_number_no_panic (code cfg)) as [(? & H)|(? & H)]; congruence.
Qed.

(* ---- C51 ---- *)
(* The sink refuses: while the bridge is sending, a write to the panel fails. *)
Definition write_fails (ws : list wr) : Prop := In (WAccept 0) ws \/ exists e, In (WErr e) ws.
Definition send_fails (u : up) (ws : list wr) : Prop :=
  exists p e,
    (u_mode u = Flushing /\ poll_flush ws (u_panel u) = (p, Ready (IoErr e))) \/
    (exists c, u_mode u = Feeding c /\ outstanding (u_panel u) <> [] /\ poll_ready TASK ws (u_panel u) = (p, Ready (IoErr e))) \/
    (exists c p1, u_mode u = Feeding c /\ outstanding (u_panel u) = [] /\ start_send c (u_panel u) = Ok p1 /\ poll_flush ws p1 = (p, Ready (IoErr e))).
(* what ends the bridge *)
Definition fatal (cfg : Cfg) (u : up) (i : input) : Prop :=
  match i with
  | MqttFail => True
  | PollPanel now => u_mode u = Selecting /\ exists p r w, poll_next now (u_panel u) = Ok (p, r, w) /\
      (r = Ready None \/ (exists e, r = Ready (Some (IoErr e))) \/ exists e z, yields r e /\ e_msg e = Some (inl (MZoneStatusReport z)))
  | PollRx => u_mode u = Selecting /\ exists area name pl rest, In (area, name) (areas cfg) /\
      u_rx u = (topic_prefix cfg ++ B "/area/" ++ name ++ B "/ha_command", pl) :: rest /\ utf8_valid pl = false
  | PollSend ws => send_fails u ws
  | _ => False
  end.
Lemma flush_error ws : forall buf o b' o' ws' e, framed_flush ws buf o = (b', o', ws', Ready (IoErr e)) -> write_fails ws.
Proof.
  unfold write_fails. induction ws as [|x ws IH]; intros buf o b' o' ws' e E; destruct buf as [|y buf]; cbn [framed_flush] in E; try discriminate.
  destruct x as [[|n]| |er]; try discriminate; [left; left; reflexivity| |right; exists er; left; reflexivity].
  destruct (IH _ _ _ _ _ _ E) as [H|(er & H)]; [left; right; exact H | right; exists er; right; exact H].
Qed.
Lemma poll_flush_error ws p p' e : poll_flush ws p = (p', Ready (IoErr e)) -> write_fails ws.
Proof.
  unfold poll_flush, panel_flush, conn_poll_flush. destruct (cmd_state p) as [|q [] k]; try discriminate.
  destruct (framed_flush ws _ _) as [[[b o] ws'] r] eqn:E. destruct r as [|[[]|er]]; try discriminate. intros _. eapply flush_error; eauto.
Qed.
Lemma poll_ready_error w ws p p' e : poll_ready w ws p = (p', Ready (IoErr e)) -> write_fails ws.
Proof.
  unfold poll_ready, conn_poll_flush. destruct (cmd_state p) as [|q [] k]; try discriminate.
  destruct (framed_flush ws _ _) as [[[b o] ws'] r] eqn:E. destruct r as [|[[]|er]]; try discriminate. intros _. eapply flush_error; eauto.
Qed.
Lemma idle_ready p ws : outstanding p = [] -> poll_ready TASK ws p = (p, Ready (IoOk tt)).
Proof. unfold outstanding, poll_ready. destruct (cmd_state p); [reflexivity | discriminate]. Qed.
Lemma busy_ready p p' r ws : pinv p -> outstanding p <> [] -> poll_ready TASK ws p = (p', r) -> r <> Ready (IoOk tt) /\ outstanding p' = outstanding p.
Proof.
  intros I N E. pose proof (poll_ready_spec _ _ _ _ _ E I) as (_ & _ & _ & H). unfold outstanding in *. destruct (cmd_state p) as [|q f k]; [congruence|].
  destruct H as (H1 & f' & k' & H2 & _). rewrite H2. auto.
Qed.
Lemma bstep_dead cl cfg u i : binv cl cfg u -> topic_ok cl (event_topic (topic_prefix cfg)) = true ->
  ((exists log why, bstep cl cfg (Up u) i = Dead log why) <-> fatal cfg u i).
Proof.
  intros (R & RG & DC & AC & WF) TE. destruct (reachable_inv _ R) as [I _].
  assert (NO : forall P : Prop, (P -> False) -> (exists log why, Up u = Dead log why) <-> P) by (intros P NP; split; [intros (? & ? & ?); discriminate | intros X; elim (NP X)]).
  destruct i as [a|t pl| |now ws|now| |ws]; cbn [bstep fatal].
  1,2,4: split; [intros (? & ? & ?); discriminate | intros []].
  - split; [auto|]. intros _. eauto.
  - destruct (u_mode u) as [|c|] eqn:EM; [|apply NO; intros [H _]; discriminate|apply NO; intros [H _]; discriminate].
    destruct (poll_next_spec now (u_panel u) I) as (p & r & w & E & _ & _). rewrite E.
    assert (U : forall P : Panel -> poll (option (io Event)) -> Prop, (exists p' r' w', Ok (p, r, w) = Ok (p', r', w') /\ P p' r') <-> P p r).
    { intros P. split; [intros (p' & r' & w' & H & H'); injection H as <- <- <-; exact H' | intros H; exists p, r, w; auto]. }
    rewrite (U (fun _ r => r = Ready None \/ (exists e, r = Ready (Some (IoErr e))) \/ exists e z, yields r e /\ e_msg e = Some (inl (MZoneStatusReport z)))). unfold yields.
    destruct r as [|[[e|er]|]].
    + split; [intros (? & ? & ?); discriminate|]. intros (_ & [H|[(? & H)|(? & ? & H & _)]]); discriminate.
    + assert (R' := reachable_poll _ _ _ _ _ R E). destruct (C56_event_roundtrip_partial _ _ _ _ _ e R E eq_refl) as [((z & Z) & why & S)|(NZ & v & S & _)].
      * split; [intros _; split; [reflexivity|]; right; right; exists e, z; auto|]. intros _. unfold handle_event. rewrite S. cbn. eauto.
      * destruct (handle_event_succeeds cl cfg p e v R' RG AC TE S) as (l & EH). unfold settle. rewrite EH.
        split; [intros (? & ? & ?); discriminate|]. intros (_ & [H|[(? & H)|(e' & z & H & H')]]); try discriminate. injection H as <-. elim (NZ z H').
    + split; [|eauto]. intros _. split; [reflexivity|]. eauto.
    + split; [|eauto]. intros _. split; [reflexivity|]. auto.
  - destruct (u_mode u) as [|c|] eqn:EM; [|apply NO; intros [H _]; discriminate|apply NO; intros [H _]; discriminate].
    destruct (u_rx u) as [|[t pl] rx] eqn:ER; [apply NO; intros (_ & a & n & pl & rest & _ & H & _); discriminate|].
    pose proof (requested_spec cfg (u_code u) t pl RG DC) as H. destruct (requested _ _ _ t pl) as [o|er|why].
    + destruct H as (_ & H & _). split; [intros (? & ? & ?); destruct o; discriminate|].
      intros (_ & a & n & pl' & rest & HI & [= -> -> ->] & HU). destruct H as [H|H]; [congruence|]. elim (H a n HI). reflexivity.
    + destruct H.
    + destruct H as (H1 & a & n & H2 & ->). split; [|eauto]. intros _. split; [reflexivity|]. exists a, n, pl, rx. auto.
  - destruct (u_mode u) as [|c|] eqn:EM.
    + apply NO. intros (p & e & [[H _]|[(c & H & _)|(c & p1 & H & _)]]); congruence.
    + assert (HO : outstanding (u_panel u) = [] \/ outstanding (u_panel u) <> []) by (unfold outstanding; destruct (cmd_state (u_panel u)); [left; reflexivity | right; discriminate]).
      destruct HO as [HO|HO].
      * rewrite (idle_ready _ _ HO). pose proof (start_send_spec c (u_panel u) I (WF c eq_refl)) as S.
        assert (CS : cmd_state (u_panel u) = Idle) by (unfold outstanding in HO; destruct (cmd_state (u_panel u)); [reflexivity | discriminate]).
        rewrite CS in S. destruct S as (p1 & f & S & _). rewrite S. unfold poll_send_flush. cbn [set_panel u_panel u_log].
        destruct (poll_flush ws p1) as [p2 r] eqn:EF. split.
        -- intros (log & why & H). destruct r as [|[[]|e]]; try discriminate. exists p2, e. right; right. exists c, p1. auto.
        -- intros (p & e & [[H _]|[(c' & _ & H & _)|(c' & p1' & H1 & _ & H3 & H4)]]); [congruence|congruence|].
           assert (c' = c) by congruence. subst c'. rewrite S in H3. injection H3 as <-. rewrite EF in H4. injection H4 as -> ->. eauto.
      * destruct (poll_ready TASK ws (u_panel u)) as [p1 r] eqn:EP. destruct (busy_ready _ _ _ _ I HO EP) as [NR _]. split.
        -- intros (log & why & H). destruct r as [|[[]|e]]; try discriminate; [congruence|]. exists p1, e. right; left. exists c. auto.
        -- intros (p & e & [[H _]|[(c' & _ & _ & H)|(c' & p1' & _ & H2 & _)]]); [congruence| |congruence]. rewrite EP in H. injection H as -> ->. eauto.
    + unfold poll_send_flush. destruct (poll_flush ws (u_panel u)) as [p2 r] eqn:EF. split.
      * intros (log & why & H). destruct r as [|[[]|e]]; try discriminate. exists p2, e. left. auto.
      * intros (p & e & [[_ H]|[(c' & H & _)|(c' & p1' & H & _)]]); try congruence. rewrite EF in H. injection H as -> ->. eauto.
Qed.
Lemma blocked_step cl cfg u i c : binv cl cfg u -> u_mode u = Feeding c -> outstanding (u_panel u) <> [] -> 
  match bstep cl cfg (Up u) i with
  | Up u' => u_mode u' = Feeding c /\ outstanding (u_panel u') = outstanding (u_panel u) /\ u_log u' = u_log u /\ u_rx u' = u_rx u ++ mqtt_in [i] /\
      written (p_conn (u_panel u')) = written (p_conn (u_panel u))
  | Dead log _ => log = u_log u
  | Connecting _ _ => False
  end.
Proof.
  intros (R & RG & DC & AC & WF) EM HO. destruct (reachable_inv _ R) as [I _].
  assert (K : mqtt_in [i] = [] -> u_mode u = Feeding c /\ outstanding (u_panel u) = outstanding (u_panel u) /\ u_log u = u_log u /\ u_rx u = u_rx u ++ mqtt_in [i] /\
      written (p_conn (u_panel u)) = written (p_conn (u_panel u))) by (intros ->; rewrite app_nil_r; auto).
  destruct i as [a|t pl| |now ws|now| |ws]; cbn [bstep]; rewrite ?EM.
  - cbn [set_panel u_mode u_panel u_log u_rx]. split; [exact EM|]. split; [reflexivity|]. split; [reflexivity|]. split; [symmetry; apply app_nil_r|].
    destruct a; reflexivity.
  - cbn. auto.
  - reflexivity.
  - destruct K as (_ & K); [reflexivity|]. split; [reflexivity | exact K].
  - destruct K as (_ & K); [reflexivity|]. split; [first [reflexivity | exact EM] | exact K].
  - destruct K as (_ & K); [reflexivity|]. split; [first [reflexivity | exact EM] | exact K].
  - destruct (poll_ready TASK ws (u_panel u)) as [p1 r] eqn:EP. destruct (busy_ready _ _ _ _ I HO EP) as [NR O1].
    pose proof (poll_ready_spec _ _ _ _ _ EP I) as (_ & _ & W & _).
    destruct r as [|[[]|e]]; [|congruence|reflexivity]. cbn [set_panel u_mode u_panel u_log u_rx]. 
    split; [exact EM|]. split; [exact O1|]. split; [reflexivity|]. split; [symmetry; apply app_nil_r|]. exact W.
Qed.
Lemma bridge_binv cl cfg is u : bridge_after cl cfg is (Up u) -> binv cl cfg u.
Proof. intros A. apply (bridge_between cl cfg is u [] u A). rewrite app_nil_r. exact A. Qed.
(* Once it has to send a command while another is outstanding, it does nothing any more, whatever happens: in particular it never
   polls the panel again, so the outstanding command is never completed. *)
Theorem C51_blocked_forever : forall cl cfg is u c, bridge_after cl cfg is (Up u) -> u_mode u = Feeding c -> outstanding (u_panel u) <> [] ->
  forall is', Forall input_ok is' ->
  match brun cl cfg (is ++ is') with
  | Up u' => u_mode u' = Feeding c /\ outstanding (u_panel u') = outstanding (u_panel u) /\ u_log u' = u_log u /\ u_rx u' = u_rx u ++ mqtt_in is' /\
      written (p_conn (u_panel u')) = written (p_conn (u_panel u))
  | Dead log _ => log = u_log u
  | Connecting _ _ => False
  end.
Proof.
  intros cl cfg is u c A EM HO. induction is' as [|i is' IH] using rev_ind; intros HI.
  - destruct A as (_ & E). rewrite app_nil_r, E. cbn. rewrite app_nil_r. auto.
  - apply Forall_app in HI as [HI _]. specialize (IH HI). rewrite app_assoc, brun_snoc. destruct (brun cl cfg (is ++ is')) as [s rx|u'|log why] eqn:E; [destruct IH| |exact IH].
    destruct IH as (H1 & H2 & H3 & H4 & H5).
    assert (B : binv cl cfg u') by (apply (bridge_binv cl cfg (is ++ is')); split; [apply Forall_app; split; [apply A | exact HI] | exact E]).
    assert (HO' : outstanding (u_panel u') <> []) by congruence.
    pose proof (blocked_step cl cfg u' i c B H1 HO') as S. destruct (bstep cl cfg (Up u') i) as [s rx|u2|log why]; [exact S| |congruence].
    destruct S as (S1 & S2 & S3 & S4 & S5). rewrite mqtt_in_app, app_assoc. repeat split; congruence.
Qed.
Definition ex_cl : client := mkClient (fun _ => true) (fun _ => true).
Definition ex_cfg : Cfg :=
  mkCfg (B "0001") 1234 [(1, B "house")] [(2, mkZoneCfg (B "front") (B "door"))] None (Some (B "homeassistant")).
Definition ex_start : list input := map (fun o => match o with IArrive a => NetArrive a | IStep now ws => PollConnect now ws end) ex_init.
Lemma ex_start_ok : Forall input_ok ex_start.
Proof.
  apply Forall_forall. intros x Hx. apply in_map_iff in Hx as (o & <- & Ho). pose proof ex_init_ok as H. rewrite Forall_forall in H. specialize (H _ Ho).
  destruct o; [exact H | exact Logic.I].
Qed.
Definition ex_two_commands : list input :=
  [MqttArrive (B "elkm1/0001/area/house/ha_command") (B "ARM_AWAY"); MqttArrive (B "elkm1/0001/area/house/ha_command") (B "DISARM");
   PollRx; PollSend [WAccept 100]; PollRx].
Definition up_of (b : bridge) : up := match b with Up u => u | _ => mkUp ex_panel [] Selecting [] [] end.
Definition ex_up : up := Eval vm_compute in up_of (brun ex_cl ex_cfg ex_start).
Lemma ex_up_after : bridge_after ex_cl ex_cfg ex_start (Up ex_up).
Proof. split; [exact ex_start_ok|]. vm_compute. reflexivity. Qed.
Definition ex_blocked : up := Eval vm_compute in up_of (brun ex_cl ex_cfg (ex_start ++ ex_two_commands)).
Lemma ex_blocked_after : bridge_after ex_cl ex_cfg (ex_start ++ ex_two_commands) (Up ex_blocked).
Proof. split; [apply Forall_app; split; [exact ex_start_ok | repeat constructor]|]. vm_compute. reflexivity. Qed.
Definition ex_zs_in : list input := [NetArrive (Bytes (bytes_of (MZoneStatusReport ex_zones'))); PollPanel 7].
Lemma ex_zs_in_ok : Forall input_ok ex_zs_in.
Proof.
  constructor; [|repeat constructor].
  assert (X : forallb (fun b => b <? 256) (bytes_of (MZoneStatusReport ex_zones')) = true) by (vm_compute; reflexivity).
  cbn. apply Forall_forall. intros b Hb. rewrite forallb_forall in X. apply N.ltb_lt. auto.
Qed.
(* False as stated, in two ways.  A zone status report crashes the bridge, as its event is serialised. *)
Theorem C51_keeps_serving_crash_refuted : exists cl cfg is u now zs log why,
  bridge_after cl cfg is (Up u) /\ zones_ok zs /\
  bridge_after cl cfg (is ++ [NetArrive (Bytes (bytes_of (MZoneStatusReport zs))); PollPanel now]) (Dead log why).
Proof.
  eexists ex_cl, ex_cfg, ex_start, ex_up, 7, ex_zones', _, _. split; [exact ex_up_after|].
  split; [split; [reflexivity|]; apply Forall_forall; intros x Hx; apply N.ltb_lt; revert x Hx; apply forallb_forall; vm_compute; reflexivity|].
  split; [apply Forall_app; split; [exact ex_start_ok | exact ex_zs_in_ok]|]. vm_compute. reflexivity.
Qed.
(* And two commands in quick succession block it forever. *)
Theorem C51_keeps_serving_block_refuted : exists cl cfg is u,
  bridge_after cl cfg is (Up u) /\ mqtt_in is = [(B "elkm1/0001/area/house/ha_command", B "ARM_AWAY"); (B "elkm1/0001/area/house/ha_command", B "DISARM")] /\
  forall is' u', Forall input_ok is' -> brun cl cfg (is ++ is') = Up u' ->
    u_log u' = u_log u /\ u_rx u' = u_rx u ++ mqtt_in is' /\ written (p_conn (u_panel u')) = written (p_conn (u_panel u)).
Proof.
  exists ex_cl, ex_cfg, (ex_start ++ ex_two_commands), ex_blocked. split; [exact ex_blocked_after|]. split; [vm_compute; reflexivity|]. intros is' u' HI E.
  assert (M : exists c, u_mode ex_blocked = Feeding c) by (eexists; reflexivity). destruct M as (c & M).
  assert (O : outstanding (u_panel ex_blocked) <> []) by discriminate.
  pose proof (C51_blocked_forever _ _ _ _ _ ex_blocked_after M O is' HI) as X. clear M O. generalize dependent ex_blocked. intros v X. rewrite E in X.
  destruct X as (_ & _ & X1 & X2 & X3). auto.
Qed.
(* Otherwise it goes on: a step ends it only if the MQTT connection fails, the panel's stream ends or fails or yields a zone
   status report, a write to the panel fails, or a command is not UTF-8.  Missing: the two cases above. *)
Theorem C51_stops_exactly_partial : forall cl cfg is u i,
  bridge_after cl cfg is (Up u) -> topic_ok cl (topic_prefix cfg ++ B "/event") = true ->
  (exists log why, bstep cl cfg (Up u) i = Dead log why) <-> fatal cfg u i.
Proof. intros cl cfg is u i A T. apply bstep_dead; [eapply bridge_binv; eauto | exact T]. Qed.
Theorem C51_send_fails_only_on_write_errors : forall u ws, send_fails u ws -> write_fails ws.
Proof.
  intros u ws (p & e & [[_ H]|[(c & _ & _ & H)|(c & p1 & _ & _ & _ & H)]]); [eapply poll_flush_error | eapply poll_ready_error | eapply poll_flush_error]; eauto.
Qed.
(* and unless it is blocked as above, the panel only has to accept what it writes for it to be back in its loop *)
Lemma flush_completes buf : forall o, exists b' o' ws', framed_flush [WAccept (S (length buf))] buf o = (b', o', ws', Ready (IoOk tt)).
Proof.
  intros o. destruct buf as [|x buf]; cbn [framed_flush]; [eauto|]. replace (skipn (S (length (x :: buf))) (x :: buf)) with (@nil N); [eexists _, _, _; reflexivity|].
  symmetry. apply skipn_all2. lia.
Qed.
Lemma poll_flush_completes p : exists p', poll_flush [WAccept (S (length (wbuf (p_conn p))))] p = (p', Ready (IoOk tt)).
Proof.
  unfold poll_flush, panel_flush, conn_poll_flush. destruct (cmd_state p) as [|q [] k]; [eauto|eauto|].
  destruct (flush_completes (wbuf (p_conn p)) (sent (p_conn p))) as (b & o & ws & ->). eauto.
Qed.
Theorem C51_progress_partial : forall cl cfg is u, bridge_after cl cfg is (Up u) ->
  (exists c, u_mode u = Feeding c /\ outstanding (u_panel u) <> []) \/
  exists n u', bstep cl cfg (Up u) (PollSend [WAccept n]) = Up u' /\ u_mode u' = Selecting /\ u_rx u' = u_rx u.
Proof.
  intros cl cfg is u A. destruct (bridge_binv _ _ _ _ A) as (R & _ & _ & _ & WF). destruct (reachable_inv _ R) as [I _].
  destruct (u_mode u) as [|c|] eqn:EM.
  - right. exists 1%nat, u. cbn [bstep]. rewrite EM. auto.
  - destruct (cmd_state (u_panel u)) as [|q f k] eqn:CS; [|left; exists c; unfold outstanding; rewrite CS; split; [reflexivity | discriminate]].
    right. pose proof (start_send_spec c (u_panel u) I (WF c eq_refl)) as SS. rewrite CS in SS. destruct SS as (p1 & f & SS & _).
    destruct (poll_flush_completes p1) as (p2 & EF). eexists (S (length (wbuf (p_conn p1)))), _. cbn [bstep]. rewrite EM.
    rewrite idle_ready by (unfold outstanding; rewrite CS; reflexivity). rewrite SS. unfold poll_send_flush. cbn [set_panel u_panel]. rewrite EF.
    split; [reflexivity|]. auto.
  - right. destruct (poll_flush_completes (u_panel u)) as (p2 & EF). eexists _, _. cbn [bstep]. rewrite EM. unfold poll_send_flush. rewrite EF.
    split; [reflexivity|]. auto.
Qed.

(* ---- C52 ---- *)
(* nothing that says 'online' *)
Definition calm (cfg : Cfg) (a : action) : Prop := forall q r, a <> APublishQ q (availability_topic (topic_prefix cfg)) r (PText (B "online")).
Lemma obind_log {A C} (P : action -> Prop) (m : out A) (f : A -> out C) : Forall P (fst m) -> (forall a, Forall P (fst (f a))) -> Forall P (fst (obind m f)).
Proof.
  destruct m as [l [a|e|w]]; cbn [obind fst]; auto. intros H1 H2. specialize (H2 a). destruct (f a) as [l' r]. cbn [fst] in *. apply Forall_app. auto.
Qed.
Lemma each_log {A} (P : action -> Prop) (f : A -> out unit) xs : (forall x, Forall P (fst (f x))) -> Forall P (fst (each f xs)).
Proof. intros H. induction xs as [|x xs IH]; cbn [each]; [constructor|]. apply obind_log; auto. Qed.
Lemma publish_log (P : action -> Prop) cl q t r p : P (APublishQ q t r p) -> Forall P (fst (publish cl q t r p)).
Proof. unfold publish. destruct (topic_ok cl t); cbn; auto. Qed.
Lemma lift_log {A} (P : action -> Prop) (m : res A) : Forall P (fst (lift m)).
Proof. constructor. Qed.
Lemma area_calm cfg n t r : calm cfg (APublish (area_state_topic (topic_prefix cfg) n) r t).
Proof. intros q' r' H. injection H as _ H _. elim (area_avail_topic _ _ H). Qed.
Lemma zone_calm cfg n t r : calm cfg (APublish (zone_state_topic (topic_prefix cfg) n) r t).
Proof. intros q' r' H. injection H as _ H _. elim (zone_avail_topic _ _ H). Qed.
Lemma json_calm cfg q t r v : calm cfg (APublishQ q t r (PJson v)).
Proof. intros q' r' H. discriminate. Qed.
(* what the loop asks of the client *)
Definition loop_actions (cfg : Cfg) (P : action -> Prop) : Prop :=
  (forall n t, P (APublish (area_state_topic (topic_prefix cfg) n) true (PText t))) /\
  (forall n t, P (APublish (zone_state_topic (topic_prefix cfg) n) true (PText t))) /\
  (forall v, P (APublish (event_topic (topic_prefix cfg)) false (PJson v))).
Lemma areas_log cl cfg p l (P : action -> Prop) : loop_actions cfg P -> Forall P (fst (publish_area_states cl p (topic_prefix cfg) l)).
Proof. intros (H & _). apply each_log. intros [n name]. repeat (apply obind_log; [apply lift_log|intros ?]). apply publish_log, H. Qed.
Lemma zone_log cl cfg p z c (P : action -> Prop) : loop_actions cfg P -> Forall P (fst (publish_zone_state cl p (topic_prefix cfg) z c)).
Proof. intros (_ & H & _). repeat (apply obind_log; [apply lift_log|intros ?]). apply publish_log, H. Qed.
Lemma event_log cl cfg p e (P : action -> Prop) : loop_actions cfg P -> Forall P (fst (handle_event cl cfg p e)).
Proof.
  intros H. apply obind_log; [apply lift_log|]. intros v. apply obind_log; [apply publish_log, H|]. intros _.
  destruct (e_change e) as [[z s|prior]|]; [|apply areas_log; exact H|constructor].
  destruct (find _ (zones cfg)) as [[k c]|]; [apply zone_log; exact H | constructor].
Qed.
Lemma loop_calm cfg : loop_actions cfg (calm cfg).
Proof. split; [|split]; intros; [apply area_calm | apply zone_calm | apply json_calm]. Qed.
Lemma discovery_calm cl cfg : Forall (calm cfg) (fst (match ha_discovery_prefix cfg with Some ha => publish_ha_discovery cl (topic_prefix cfg) ha cfg | None => done tt end)).
Proof.
  destruct (ha_discovery_prefix cfg); [|constructor].
  apply obind_log; [|intros _]; apply each_log; intros [n x]; apply publish_log, json_calm.
Qed.
(* start_up that fails does not get to 'online' *)
Lemma start_up_fails cl cfg p l r : start_up cl cfg p = (l, r) -> (forall c, r <> Ok c) -> Forall (calm cfg) l.
Proof.
  intros E NO. assert (X : Forall (calm cfg) l \/ exists c, r = Ok c); [|destruct X as [X|(c & X)]; [exact X | elim (NO c X)]].
  assert (G : forall A C (m : out A) (f : A -> out C) l r, Forall (calm cfg) (fst m) -> obind m f = (l, r) ->
    (forall a l' r', f a = (l', r') -> Forall (calm cfg) l' \/ exists c, r' = Ok c) -> Forall (calm cfg) l \/ exists c, r = Ok c).
  { clear. intros A C m f l r H1 E H2. destruct m as [lm [a|e|w]]; cbn [obind] in E; [|injection E as <- <-; auto..].
    destruct (f a) as [l' r'] eqn:EF. injection E as <- <-. destruct (H2 _ _ _ EF) as [H|H]; [left; apply Forall_app; auto | right; exact H]. }
  unfold start_up in E. eapply G; [apply lift_log|exact E|]. clear E. intros c l1 r1 E. cbv beta in E.
  eapply G; [apply discovery_calm|exact E|]. clear E. intros c' l2 r2 E. cbv beta in E.
  eapply G; [apply areas_log, loop_calm|exact E|]. clear E. intros ? l3 r3 E. cbv beta in E.
  eapply G; [|exact E|].
  { apply each_log. intros [n z]. apply obind_log; [apply lift_log|]. intros k. apply zone_log, loop_calm. }
  clear E. intros ? l4 r4 E. cbv beta in E.
  eapply G; [|exact E|].
  { unfold subscribe_many. destruct (filters_ok cl _); constructor; [|constructor]. intros ? k H. discriminate. }
  clear E. intros ? l5 r5 E. cbv beta in E. unfold publish in E. destruct (topic_ok cl _); cbn in E; injection E as <- <-; [right; eauto | left; constructor].
Qed.
Definition online_after (cl : client) (cfg : Cfg) (log : list action) : Prop :=
  exists ld la lz fs p rest, reachable p /\ in_range cfg /\
    log = (ld ++ la ++ lz ++ [ASubscribe fs]) ++ APublish (availability_topic (topic_prefix cfg)) true (PText (B "online")) :: rest /\
    discovery cfg ld /\ Forall2 (area_pub (topic_prefix cfg) p) (areas cfg) la /\ Forall2 (zone_pub (topic_prefix cfg) p) (zones cfg) lz /\
    fs = map (fun x => area_command_topic (topic_prefix cfg) (snd x)) (areas cfg) /\
    Forall (calm cfg) (ld ++ la ++ lz ++ [ASubscribe fs]) /\ Forall (calm cfg) rest.
Lemma online_more cl cfg log l : online_after cl cfg log -> Forall (calm cfg) l -> online_after cl cfg (log ++ l).
Proof.
  intros (ld & la & lz & fs & p & rest & R & G & -> & H1 & H2 & H3 & H4 & H5 & H6) H. exists ld, la, lz, fs, p, (rest ++ l).
  split; [exact R|]. split; [exact G|]. split; [rewrite <- app_assoc; reflexivity|]. repeat split; auto. apply Forall_app; auto.
Qed.
Lemma came_up_online cl cfg u : came_up cl cfg u -> online_after cl cfg (u_log u).
Proof.
  intros (C & E & _). assert (R := connected_reachable _ C). destruct (start_up_ok _ _ _ _ _ R E) as (G & _ & _ & ld & la & lz & fs & EL & LD & LA & LZ & EF).
  exists ld, la, lz, fs, (u_panel u), []. split; [exact R|]. split; [exact G|]. split; [rewrite EL, <- !app_assoc; reflexivity|].
  repeat split; auto. repeat (apply Forall_app; split).
  - unfold discovery in LD. destruct (ha_discovery_prefix cfg) as [ha|]; [|subst ld; constructor]. destruct LD as (l1 & l2 & -> & L1 & L2). apply Forall_app. split.
    + clear -L1. induction L1 as [|x a xs l -> _ IH]; constructor; auto. apply json_calm.
    + clear -L2. induction L2 as [|x a xs l -> _ IH]; constructor; auto. apply json_calm.
  - clear -LA. induction LA as [|x a xs l (t & _ & ->) _ IH]; constructor; auto. apply area_calm.
  - clear -LZ. induction LZ as [|x a xs l (t & _ & ->) _ IH]; constructor; auto. apply zone_calm.
  - constructor; [|constructor]. intros r H. discriminate.
Qed.
Lemma bstep_log cl cfg u i (P : action -> Prop) : loop_actions cfg P -> match bstep cl cfg (Up u) i with
  | Connecting _ _ => False
  | b => exists l, blog b = u_log u ++ l /\ Forall P l
  end.
Proof.
  intros HP. assert (K : exists l, u_log u = u_log u ++ l /\ Forall P l) by (exists []; rewrite app_nil_r; auto).
  assert (F : forall ws v, u_log v = u_log u -> match poll_send_flush ws v with Connecting _ _ => False | b => exists l, blog b = u_log u ++ l /\ Forall P l end).
  { intros ws v EV. unfold poll_send_flush. destruct (poll_flush ws (u_panel v)) as [p [|[[]|e]]]; cbn; rewrite EV; exact K. }
  destruct i as [a|t pl| |now ws|now| |ws]; cbn [bstep]; try exact K.
  - destruct (u_mode u); try exact K. destruct (poll_next now (u_panel u)) as [[[p [|[[e|er]|]]] w]|er|why]; try exact K.
    pose proof (event_log cl cfg p e P HP) as H. unfold settle. destruct (handle_event cl cfg p e) as [l [[]|er|why]]; cbn [blog u_log]; exists l; auto.
  - destruct (u_mode u); try exact K. destruct (u_rx u) as [|[t pl] rx]; try exact K. destruct (requested _ _ _ _ _) as [[c|]|er|why]; exact K.
  - destruct (u_mode u); try exact K; [|apply F; reflexivity]. destruct (poll_ready TASK ws (u_panel u)) as [p [|[[]|e]]]; try exact K.
    destruct (start_send c p); try exact K. apply F. reflexivity.
Qed.
Lemma online_cases cl cfg is : Forall input_ok is -> Forall (calm cfg) (blog (brun cl cfg is)) \/ online_after cl cfg (blog (brun cl cfg is)).
Proof.
  induction is as [|i is IH] using rev_ind; intros HI; [left; constructor|]. pose proof (brun_cases cl cfg _ HI) as CA.
  apply Forall_app in HI as [HI _]. specialize (IH HI). rewrite brun_snoc in *. destruct (brun cl cfg is) as [s rx|u|l w] eqn:EB; [| |exact IH].
  - destruct i as [a|t pl| |now ws|now| |ws]; cbn [bstep] in *; try (left; constructor).
    unfold after_connect in *. destruct (istep now ws s) as [st ph p|p|er|why]; try (left; constructor).
    unfold settle in *. destruct (start_up cl cfg p) as [l r] eqn:ES.
    assert (BAD : (forall c, r <> Ok c) -> Forall (calm cfg) l) by (apply start_up_fails with (1 := ES)).
    destruct r as [c|er|why]; cbn [blog app u_log] in *; [|left; apply BAD; discriminate..].
    destruct CA as (u0 & is1 & is2 & E & C & _ & E1 & E2). right. destruct is2 as [|i2 is2 _] using rev_ind.
    + cbn in E2. injection E2 as ->. exact (came_up_online _ _ _ C).
    + exfalso. rewrite app_assoc in E. apply app_inj_tail in E as [-> <-]. unfold brun in EB, E1. rewrite fold_left_app, E1 in EB.
      rewrite fold_left_app, EB in E2. clear -EB. revert u0 EB. induction is2 as [|i is IH]; intros u0 E; [discriminate|]. cbn [fold_left] in E.
      destruct (bstep cl cfg (Up u0) i) as [s' rx'|u1|l w] eqn:ES; [|eauto|rewrite dead_stays in E; discriminate]. elim (up_stays _ _ _ _ _ _ ES).
  - pose proof (bstep_log cl cfg u i _ (loop_calm cfg)) as H. cbn [blog] in IH.
    destruct (bstep cl cfg (Up u) i) as [s' rx'|u1|l w]; [destruct H| |]; destruct H as (l' & -> & HL); (destruct IH as [IH|IH]; [left; apply Forall_app; auto | right; apply online_more; auto]).
Qed.
Lemma shown_value s u a t : shows_area s u a t -> In t area_values.
Proof.
  intros [[_ ->]|[[_ ->]|[(_ & _ & _ & ->)|(_ & _ & _ & H)]]]; cbn; try tauto. cbn in H.
  repeat (destruct H as [H|H]; [injection H as _ <-; tauto|]). destruct H.
Qed.
Lemma zone_value s t : shows_zone s t -> In t zone_values.
Proof. unfold shows_zone. cbn. intros H. repeat (destruct H as [H|H]; [injection H as _ <-; tauto|]). destruct H. Qed.
Lemma Forall2_in {A C} (P : A -> C -> Prop) xs ys x : Forall2 P xs ys -> In x xs -> exists y, In y ys /\ P x y.
Proof. induction 1 as [|a b xs ys H _ IH]; intros Hx; [destruct Hx|]. destruct Hx as [->|Hx]; [exists b; cbn; auto|]. destruct (IH Hx) as (y & ? & ?). exists y. cbn. auto. Qed.
Lemma Forall2_in' {A C} (P : A -> C -> Prop) xs ys y : Forall2 P xs ys -> In y ys -> exists x, In x xs /\ P x y.
Proof. induction 1 as [|a b xs ys H _ IH]; intros Hx; [destruct Hx|]. destruct Hx as [->|Hx]; [exists a; cbn; auto|]. destruct (IH Hx) as (x & ? & ?). exists x. cbn. auto. Qed.
(* At whatever point 'online' is said, and whatever becomes of the bridge: the configuration is valid and each topic holds a
   valid value by then. *)
Theorem C52_online_after_states : forall cl cfg is b l1 q retain l2,
  bridge_after cl cfg is b -> blog b = l1 ++ APublishQ q (topic_prefix cfg ++ B "/availability") retain (PText (B "online")) :: l2 ->
  in_range cfg /\ q = AtLeastOnce /\ retain = true /\
  (forall area name, In (area, name) (areas cfg) -> exists t, In t area_values /\ holds l1 (topic_prefix cfg ++ B "/area/" ++ name ++ B "/ha_state") (PText t)) /\
  (forall zone z, In (zone, z) (zones cfg) -> exists t, In t zone_values /\ holds l1 (topic_prefix cfg ++ B "/zone/" ++ z_name z ++ B "/ha_state") (PText t)) /\
  In (ASubscribe (map (fun x => topic_prefix cfg ++ B "/area/" ++ snd x ++ B "/ha_command") (areas cfg))) l1 /\
  Forall (calm cfg) l1 /\ Forall (calm cfg) l2.
Proof.
  intros cl cfg is b l1 q retain l2 (HI & E) EL. pose proof (online_cases cl cfg is HI) as H. rewrite E, EL in H.
  destruct H as [H|(ld & la & lz & fs & p & rest & R & G & H & HD & HA & HZ & EF & C1 & C2)].
  { exfalso. apply Forall_app in H as [_ H]. inversion H as [|? ? H1 _]; subst. elim (H1 q retain eq_refl). }
  set (pre := ld ++ la ++ lz ++ [ASubscribe fs]) in *.
  assert (K : l1 = pre /\ q = AtLeastOnce /\ retain = true /\ l2 = rest).
  { clearbody pre. clear -H C1 C2. revert pre H C1. induction l1 as [|x l1 IH]; intros pre H C1.
    - destruct pre as [|y pre]; [injection H as -> -> ->; auto|]. injection H as <- _. inversion C1 as [|? ? X _]; subst. elim (X q retain eq_refl).
    - destruct pre as [|y pre]; [injection H as -> H; exfalso|injection H as -> H; inversion C1 as [|? ? X1 X2]; subst; destruct (IH pre H X2) as (-> & -> & -> & ->); auto].
      rewrite <- H in C2. apply Forall_app in C2 as [_ C2]. inversion C2 as [|? ? X _]; subst. elim (X q retain eq_refl). }
  destruct K as (-> & -> & -> & ->). split; [exact G|]. split; [reflexivity|]. split; [reflexivity|]. split; [|split; [|split; [|auto]]].
  - intros area name Hin. destruct (Forall2_in _ _ _ _ HA Hin) as (a & Ha & (t & _ & ->)). cbn [snd] in Ha.
    destruct (some_held _ _ _ _ Ha) as (q0 & pl0 & Q1 & Q2). destruct (Forall2_in' _ _ _ _ HA Q2) as (x & _ & (t' & T1 & T2)). injection T2 as _ _ ->.
    exists t'. split; [destruct T1 as (r & s & u & al & _ & _ & S); eapply shown_value; eauto|]. unfold pre. apply holds_right, holds_left; [exact Q1|].
    apply Forall_app. split; [eapply zone_pubs_quiet; eauto|]. constructor; [|constructor]. intros (? & z & Hz). discriminate.
  - intros zone z Hin. destruct (Forall2_in _ _ _ _ HZ Hin) as (a & Ha & (t & _ & ->)). cbn [snd] in Ha.
    destruct (some_held _ _ _ _ Ha) as (q0 & pl0 & Q1 & Q2). destruct (Forall2_in' _ _ _ _ HZ Q2) as (x & _ & (t' & T1 & T2)). injection T2 as _ _ ->.
    exists t'. split; [destruct T1 as (s & _ & S); eapply zone_value; eauto|]. unfold pre. apply holds_right, holds_right, holds_left; [exact Q1|].
    constructor; [|constructor]. intros (? & k & Hk). discriminate.
  - unfold pre. rewrite EF. apply in_app_iff. right. apply in_app_iff. right. apply in_app_iff. right. left. reflexivity.
Qed.
(* Conversely, a valid configuration goes online as soon as the panel is connected, if the client accepts the topics. *)
Theorem C52_goes_online : forall cl cfg is s rx now ws p,
  bridge_after cl cfg is (Connecting s rx) -> istep now ws s = IDone p -> in_range cfg -> accepts_start cl cfg ->
  exists u, bridge_after cl cfg (is ++ [PollConnect now ws]) (Up u) /\ u_panel u = p /\
    exists l, u_log u = l ++ [APublish (topic_prefix cfg ++ B "/availability") true (PText (B "online"))].
Proof.
  intros cl cfg is s rx now ws p (HI & E) EI G A. pose proof (brun_cases cl cfg is HI) as H. rewrite E in H. destruct H as (_ & h & HO & -> & _).
  assert (C : connected p). { exists (h ++ [IStep now ws]). split; [apply Forall_app; split; [exact HO | repeat constructor]|]. rewrite irun_step. exact EI. }
  destruct (start_up_succeeds cl cfg p (connected_reachable _ C) G A) as (l & c & ES). exists (mkUp p c Selecting rx l).
  split; [split; [apply Forall_app; split; [exact HI | repeat constructor]|]|].
  - rewrite brun_snoc, E. cbn [bstep]. unfold after_connect. rewrite EI. unfold settle. rewrite ES. reflexivity.
  - split; [reflexivity|]. destruct (start_up_ok _ _ _ _ _ (connected_reachable _ C) ES) as (_ & _ & _ & ld & la & lz & fs & -> & _).
    exists (ld ++ la ++ lz ++ [ASubscribe fs]). rewrite <- !app_assoc. reflexivity.
Qed.

(* ---- C57 ---- *)
Lemma show_u8_spec n : n <= 255 -> digits (show_u8 n) /\ dec_value (show_u8 n) = n.
Proof.
  intros H. unfold show_u8, digits, dec_value. change (ch "0") with 48. change (ch "9") with 57.
  destruct (N.ltb_spec n 10) as [L|L]; [|destruct (N.ltb_spec n 100) as [L'|L']]; cbn [fold_left]; (split; [repeat constructor; lia|lia]).
Qed.
(* entry k of an object is the string s *)
Definition has_str (v : value) (k : bytes) (s : bytes) : Prop := exists fields esc, v = VObj fields /\ In (k, VStr esc s) fields.
Definition not_config (a : action) : Prop := forall q t p, a = APublishQ q t true p -> last t 0 <> ch "g".
Lemma area_topic_last p n : last (area_state_topic p n) 0 = ch "e".
Proof. unfold area_state_topic. change (B "/ha_state") with (B "/ha_stat" ++ [ch "e"]). rewrite !app_assoc. apply last_last. Qed.
Lemma zone_topic_last p n : last (zone_state_topic p n) 0 = ch "e".
Proof. unfold zone_state_topic. change (B "/ha_state") with (B "/ha_stat" ++ [ch "e"]). rewrite !app_assoc. apply last_last. Qed.
Lemma avail_topic_last p : last (availability_topic p) 0 = ch "y".
Proof. unfold availability_topic. change (B "/availability") with (B "/availabilit" ++ [ch "y"]). rewrite !app_assoc. apply last_last. Qed.
Lemma loop_not_config cfg : loop_actions cfg not_config.
Proof.
  split; [|split]; intros; intros q' t' p' [=]; subst.
  - rewrite area_topic_last. discriminate.
  - rewrite zone_topic_last. discriminate.
Qed.
Lemma up_log cl cfg is u (P : action -> Prop) : bridge_after cl cfg is (Up u) -> loop_actions cfg P ->
  exists u0 l, came_up cl cfg u0 /\ u_log u = u_log u0 ++ l /\ Forall P l.
Proof.
  intros (HI & E) HP. pose proof (brun_cases cl cfg is HI) as H. rewrite E in H.
  destruct H as (u0 & is1 & is2 & -> & C & _ & _ & E2). apply Forall_app in HI as [_ HI]. exists u0.
  refine (proj2 (up_ind cl cfg u0 (fun _ u => exists l, came_up cl cfg u0 /\ u_log u = u_log u0 ++ l /\ Forall P l) (came_up_binv _ _ _ C) _ _ is2 u HI E2)).
  - exists []. rewrite app_nil_r. auto.
  - intros is u' i u2 (l & _ & EL & FL) _ _ _ ES. pose proof (bstep_log cl cfg u' i P HP) as S. rewrite ES in S. destruct S as (l' & EL' & FL').
    exists (l ++ l'). cbn [blog] in EL'. split; [exact C|]. split; [rewrite EL', EL, app_assoc; reflexivity | apply Forall_app; auto].
Qed.
Lemma config_held l1 l2 t p : holds l1 (t ++ B "/config") p -> Forall not_config l2 -> holds (l1 ++ l2) (t ++ B "/config") p.
Proof.
  intros H F. apply holds_left; [exact H|]. eapply Forall_impl; [|exact F]. intros a Ha (q & r & ->). apply (Ha _ _ _ eq_refl).
  change (B "/config") with (B "/confi" ++ [ch "g"]). rewrite app_assoc. apply last_last.
Qed.
Lemma holds_keyed {A} (f : A -> bytes) (g : A -> payload) xs l x :
  Forall2 (fun x a => a = APublish (f x) true (g x)) xs l -> (forall y, In y xs -> f y = f x -> y = x) -> In x xs -> holds l (f x) (g x).
Proof.
  intros F. induction F as [|y a xs l -> F IH]; intros INJ Hin; [destruct Hin|].
  assert (D : In x xs \/ ~ exists y, In y xs /\ f y = f x).
  { destruct (in_dec (list_eq_dec N.eq_dec) (f x) (map f xs)) as [I|NI].
    - left. apply in_map_iff in I as (z & Hz1 & Hz2). rewrite <- (INJ z (or_intror Hz2) Hz1). exact Hz2.
    - right. intros (z & Hz & E). apply NI. apply in_map_iff. exists z. auto. }
  destruct D as [D|D].
  - apply (holds_right [_]). apply IH; [|exact D]. intros z Hz. apply INJ. right. exact Hz.
  - destruct Hin as [->|Hin]; [|elim D; eauto]. exists AtLeastOnce, [], l. split; [reflexivity|]. intros q p' Hp.
    destruct (Forall2_in' _ _ _ _ F Hp) as (z & Hz & E). injection E as _ E _. apply D. eauto.
Qed.
(* what the start-up log looks like around the discovery part *)
Lemma up_discovery cl cfg is u ha : bridge_after cl cfg is (Up u) -> ha_discovery_prefix cfg = Some ha ->
  exists la lz rest, u_log u = (la ++ lz) ++ rest /\ Forall not_config rest /\
    Forall2 (area_disc (topic_prefix cfg) ha cfg) (areas cfg) la /\ Forall2 (zone_disc (topic_prefix cfg) ha cfg) (zones cfg) lz /\
    In (ASubscribe (map (fun x => area_command_topic (topic_prefix cfg) (snd x)) (areas cfg))) (u_log u).
Proof.
  intros A HH. destruct (up_log cl cfg is u not_config A (loop_not_config cfg)) as (u0 & l & (C & E & _) & -> & FL).
  destruct (start_up_ok _ _ _ _ _ (connected_reachable _ C) E) as (_ & _ & _ & ld & la & lz & fs & EL & LD & LA & LZ & EF). rewrite EL.
  unfold discovery in LD. rewrite HH in LD. destruct LD as (l1 & l2 & -> & L1 & L2). exists l1, l2.
  eexists. split; [rewrite <- app_assoc; reflexivity|]. split; [|split; [exact L1|split; [exact L2|]]].
  - apply Forall_app. split; [|exact FL]. apply Forall_app. split; [|apply Forall_app; split].
    + clear -LA. induction LA as [|x a xs l (t & _ & ->) _ IH]; constructor; auto. apply (loop_not_config cfg).
    + clear -LZ. induction LZ as [|x a xs l (t & _ & ->) _ IH]; constructor; auto. apply (loop_not_config cfg).
    + constructor; [intros q t p; discriminate|]. constructor; [|constructor]. intros q t p [= <- <- <-]. rewrite avail_topic_last. discriminate.
  - rewrite EF. apply in_app_iff. left. apply in_app_iff. right. apply in_app_iff. right. apply in_app_iff. right. left. reflexivity.
Qed.
(* Each area is announced to Home Assistant, under an identifier of its own, with the topics that the bridge uses for it. *)
Theorem C57_areas_announced : forall cl cfg is u ha area name,
  bridge_after cl cfg is (Up u) -> cfg_ok cfg -> ha_discovery_prefix cfg = Some ha -> In (area, name) (areas cfg) ->
  exists d v fs, digits d /\ dec_value d = area /\
    holds (u_log u) (ha ++ B "/alarm_control_panel/elk-" ++ serial_number cfg ++ B "-area-" ++ d ++ B "/config") (PJson v) /\
    has_str v (B "unique_id") (B "elk-" ++ serial_number cfg ++ B "-area-" ++ d) /\ has_str v (B "name") name /\
    has_str v (B "state_topic") (topic_prefix cfg ++ B "/area/" ++ name ++ B "/ha_state") /\
    has_str v (B "command_topic") (topic_prefix cfg ++ B "/area/" ++ name ++ B "/ha_command") /\
    has_str v (B "availability_topic") (topic_prefix cfg ++ B "/availability") /\
    In (ASubscribe fs) (u_log u) /\ In (topic_prefix cfg ++ B "/area/" ++ name ++ B "/ha_command") fs.
Proof.
  intros cl cfg is u ha area name A ((KA & UA) & _) HH HI. destruct (up_discovery _ _ _ _ _ A HH) as (la & lz & rest & EL & NC & LA & LZ & IS).
  assert (U : forall y, In y (areas cfg) -> digits (show_u8 (fst y)) /\ dec_value (show_u8 (fst y)) = fst y).
  { intros y Hy. rewrite Forall_forall in UA. apply show_u8_spec, UA, Hy. }
  exists (show_u8 area), (area_discovery_json (topic_prefix cfg) cfg area name). eexists. split; [apply (U _ HI)|]. split; [apply (U _ HI)|].
  split; [|repeat (split; [eexists _, _; split; [reflexivity|]; cbn [In]; tauto|])].
  - assert (X : holds la (ha ++ B "/alarm_control_panel/" ++ area_unique_id cfg area ++ B "/config") (PJson (area_discovery_json (topic_prefix cfg) cfg area name))).
    { refine (holds_keyed (fun x => ha ++ B "/alarm_control_panel/" ++ area_unique_id cfg (fst x) ++ B "/config")
        (fun x => PJson (area_discovery_json (topic_prefix cfg) cfg (fst x) (snd x))) (areas cfg) la (area, name) LA _ HI).
      intros [a n] Hy EQ. cbn [fst] in EQ. apply app_inv_head in EQ. apply app_inv_head in EQ. apply app_inv_tail in EQ. unfold area_unique_id in EQ.
      do 3 apply app_inv_head in EQ. destruct (U _ HI) as [_ U1], (U _ Hy) as [_ U2]. cbn [fst] in *. assert (a = area) by congruence. subst a.
      f_equal. eapply key_unique; eauto. }
    rewrite EL. replace (ha ++ B "/alarm_control_panel/elk-" ++ serial_number cfg ++ B "-area-" ++ show_u8 area ++ B "/config")
      with ((ha ++ B "/alarm_control_panel/" ++ area_unique_id cfg area) ++ B "/config") by (unfold area_unique_id; rewrite <- !app_assoc; reflexivity).
    apply config_held; [|exact NC]. rewrite <- !app_assoc. apply holds_left; [exact X|]. clear -LZ.
    induction LZ as [|x a xs l -> _ IH]; constructor; auto. intros (qq & rr & H). injection H as _ H _. apply app_inv_head in H. discriminate.
  - split; [exact IS|]. apply in_map_iff. exists (area, name). auto.
Qed.
(* And so is each zone. *)
Theorem C57_zones_announced : forall cl cfg is u ha zone z,
  bridge_after cl cfg is (Up u) -> cfg_ok cfg -> ha_discovery_prefix cfg = Some ha -> In (zone, z) (zones cfg) ->
  exists d v, digits d /\ dec_value d = zone /\
    holds (u_log u) (ha ++ B "/binary_sensor/elk-" ++ serial_number cfg ++ B "-zone-" ++ d ++ B "/config") (PJson v) /\
    has_str v (B "unique_id") (B "elk-" ++ serial_number cfg ++ B "-zone-" ++ d) /\ has_str v (B "name") (z_name z) /\
    has_str v (B "device_class") (z_class z) /\
    has_str v (B "state_topic") (topic_prefix cfg ++ B "/zone/" ++ z_name z ++ B "/ha_state") /\
    has_str v (B "availability_topic") (topic_prefix cfg ++ B "/availability").
Proof.
  intros cl cfg is u ha zone z A (_ & (KZ & UZ)) HH HI. destruct (up_discovery _ _ _ _ _ A HH) as (la & lz & rest & EL & NC & LA & LZ & IS).
  assert (U : forall y, In y (zones cfg) -> digits (show_u8 (fst y)) /\ dec_value (show_u8 (fst y)) = fst y).
  { intros y Hy. rewrite Forall_forall in UZ. apply show_u8_spec, UZ, Hy. }
  exists (show_u8 zone), (zone_discovery_json (topic_prefix cfg) cfg zone z). split; [apply (U _ HI)|]. split; [apply (U _ HI)|].
  split; [|repeat split; (eexists _, _; split; [reflexivity|]; cbn [In]; tauto)].
  assert (X : holds lz (ha ++ B "/binary_sensor/" ++ zone_unique_id cfg zone ++ B "/config") (PJson (zone_discovery_json (topic_prefix cfg) cfg zone z))).
  { refine (holds_keyed (fun x => ha ++ B "/binary_sensor/" ++ zone_unique_id cfg (fst x) ++ B "/config")
      (fun x => PJson (zone_discovery_json (topic_prefix cfg) cfg (fst x) (snd x))) (zones cfg) lz (zone, z) LZ _ HI).
    intros [a n] Hy EQ. cbn [fst] in EQ. apply app_inv_head in EQ. apply app_inv_head in EQ. apply app_inv_tail in EQ. unfold zone_unique_id in EQ.
    do 3 apply app_inv_head in EQ. destruct (U _ HI) as [_ U1], (U _ Hy) as [_ U2]. cbn [fst] in *. assert (a = zone) by congruence. subst a.
    f_equal. eapply key_unique; eauto. }
  rewrite EL. replace (ha ++ B "/binary_sensor/elk-" ++ serial_number cfg ++ B "-zone-" ++ show_u8 zone ++ B "/config")
    with ((ha ++ B "/binary_sensor/" ++ zone_unique_id cfg zone) ++ B "/config") by (unfold zone_unique_id; rewrite <- !app_assoc; reflexivity).
  apply config_held; [|exact NC]. rewrite <- !app_assoc. apply holds_right. exact X.
Qed.

(* ---- C58 ---- *)
Lemma run_event_ok h : forall p p' bs, pinv p -> Forall op_ok h -> run p h = Ok (p', bs) -> Forall event_ok (events bs).
Proof.
  induction h as [|o h IH]; intros p p' bs I HO E; cbn [run] in E; [injection E as <- <-; constructor|].
  inversion HO as [|? ? Ho HO']; subst. destruct (step p o) as [[p1 b]| |] eqn:ES; try discriminate. cbn [bind] in E.
  destruct (run p1 h) as [[p2 bs']| |] eqn:ER; try discriminate. injection E as <- <-. destruct (step_inv _ _ _ _ I Ho ES) as [I1 _].
  change (b :: bs') with ([b] ++ bs'). rewrite events_app. apply Forall_app. split; [|eapply IH; eauto].
  destruct (event_of b) as [e|] eqn:EB; [|unfold events; cbn; rewrite EB; constructor]. unfold events. cbn. rewrite EB. constructor; [|constructor].
  destruct b as [|r w|r]; try discriminate. destruct o as [a|now|w' ws|c|ws|ws]; cbn [step] in ES.
  - discriminate.
  - destruct (poll_next now p) as [[[q r'] w']| |] eqn:EP; try discriminate. injection ES as -> -> ->. eapply emitted_ok; [exact I | exact EP |].
    unfold yields. destruct r as [|[[e'|]|]]; cbn in EB; congruence.
  - destruct (poll_ready w' ws p). discriminate.
  - destruct (start_send c p); discriminate.
  - destruct (poll_flush ws p). discriminate.
  - destruct (poll_close ws p). discriminate.
Qed.
(* Between any two moments at which the bridge is up: the publishes that are not retained are the events the panel's stream
   yielded, each once, in order, in a form from which the event can be read back. *)
Theorem C58_events_published : forall cl cfg is1 u1 is2 u2,
  bridge_after cl cfg is1 (Up u1) -> bridge_after cl cfg (is1 ++ is2) (Up u2) ->
  exists ops bs log, Forall op_ok ops /\ run (u_panel u1) ops = Ok (u_panel u2, bs) /\ arrived ops = net_in is2 /\
    u_log u2 = u_log u1 ++ log /\
    Forall2 (fun e a => exists v, Event_ser e = Ok v /\ Event_de FromText v = Ok e /\ a = APublish (topic_prefix cfg ++ B "/event") false (PJson v))
      (events bs) (filter is_event_pub log).
Proof.
  intros cl cfg is1 u1 is2 u2 A1 A2.
  destruct (bridge_between _ _ _ _ _ _ A1 A2) as [(R & _) (ops & bs & hd & os & H1 & H2 & H3 & _ & _ & _ & _ & ls & H8 & H9)].
  exists ops, bs, (concat ls). repeat (split; [assumption|]). destruct (reachable_inv _ R) as [I _].
  assert (OK : Forall (fun e => event_ok e) (events bs)) by (eapply run_event_ok; eauto).
  clear -H8 OK. induction H8 as [|e l es ls (v & l' & S & -> & F) _ IH]; cbn [concat]; [constructor|]. inversion OK as [|? ? O1 O2]; subst.
  cbn [app filter is_event_pub negb]. constructor.
  - exists v. split; [exact S|]. split; [|reflexivity]. assert (NZ : ~ event_zs e) by (intros H; destruct (Event_zs e H); congruence).
    destruct (Event_rt e O1 NZ) as (v' & S' & D & _). congruence.
  - rewrite filter_app. replace (filter is_event_pub l') with (@nil action); [apply IH; exact O2|].
    clear -F. induction F as [|a l H _ IH]; cbn [filter]; [reflexivity|]. destruct a as [q t [] p|q fs]; cbn; auto. elim (H q t p eq_refl).
Qed.

(* ---- C59 ---- *)
(* x occurs in v *)
Inductive within (x : value) : value -> Prop :=
| W_here : within x x
| W_arr l v : In v l -> within x v -> within x (VArr l)
| W_obj l k v : In (k, v) l -> within x v -> within x (VObj l).
Definition ex_leak_in : list input :=
  [MqttArrive (B "elkm1/0001/area/house/ha_command") (B "ARM_AWAY"); PollRx; PollSend [WAccept 100];
   NetArrive (Bytes (bytes_of (MSendCode (mkIC (repeat 0 6) 3 16)))); PollPanel 7].
Lemma ex_leak_ok : Forall input_ok (ex_start ++ ex_leak_in).
Proof.
  apply Forall_app. split; [exact ex_start_ok|].
  assert (X : forallb (fun b => b <? 256) (bytes_of (MSendCode (mkIC (repeat 0 6) 3 16))) = true) by (vm_compute; reflexivity).
  do 3 (constructor; [exact Logic.I|]). constructor; [|repeat constructor].
  cbn. apply Forall_forall. intros b Hb. rewrite forallb_forall in X. apply N.ltb_lt. auto.
Qed.
Definition ex_leak : up := Eval vm_compute in up_of (brun ex_cl ex_cfg (ex_start ++ ex_leak_in)).
(* False as stated: the event that completes a command contains the command, with the code. *)
Theorem C59_code_not_published_refuted : exists cl cfg is u v code',
  bridge_after cl cfg is (Up u) /\ dec_canon 6 (code cfg) code' /\
  published (u_log u) (topic_prefix cfg ++ B "/event") (PJson v) /\ within (VArr (map VNum code')) v.
Proof.
  exists ex_cl, ex_cfg, (ex_start ++ ex_leak_in), ex_leak.
  eexists _, (B "001234"). split; [split; [exact ex_leak_ok|]; vm_compute; reflexivity|]. split; [vm_compute; repeat split; repeat constructor; discriminate|].
  split; [exists AtLeastOnce, false; vm_compute; do 6 right; left; reflexivity|].
  eapply W_obj; [do 2 right; left; reflexivity|]. eapply W_obj; [left; reflexivity|]. eapply W_obj; [do 2 right; left; reflexivity|]. apply W_here.
Qed.
(* But that is the only way: as long as no command is given, what is published does not depend on the code.  Missing: what is
   published after a command; see C59_code_only_in_completions_partial in PropCode.v. *)
Definition with_code (cfg : Cfg) (c : N) : Cfg :=
  mkCfg (serial_number cfg) c (areas cfg) (zones cfg) (cfg_topic_prefix cfg) (ha_discovery_prefix cfg).
Definition sim (b b' : bridge) : Prop :=
  match b, b' with
  | Connecting s rx, Connecting s' rx' => s = s' /\ rx = rx'
  | Up u, Up u' => u_panel u = u_panel u' /\ u_mode u = Selecting /\ u_mode u' = Selecting /\ u_rx u = u_rx u' /\ u_log u = u_log u'
  | Dead l _, Dead l' _ => l = l'
  | _, _ => False
  end.
Lemma requested_code prefix c c' as_ t pl :
  match requested prefix c as_ t pl, requested prefix c' as_ t pl with
  | Ok None, Ok None | Ok (Some _), Ok (Some _) | Panic _, Panic _ | Err _, Err _ => True
  | _, _ => False
  end.
Proof.
  induction as_ as [|[a n] as_ IH]; cbn [requested]; [exact Logic.I|]. destruct (negb _); [exact IH|]. destruct (negb _); [exact Logic.I|].
  destruct (beq pl (B "DISARM")); [|destruct (beq pl (B "ARM_AWAY")); [|destruct (beq pl (B "ARM_HOME")); [|exact Logic.I]]]; destruct (expect _ _); exact Logic.I.
Qed.
Definition alike (o o' : out bytes) : Prop :=
  fst o = fst o' /\ ((exists k k', snd o = Ok k /\ snd o' = Ok k') \/ ((forall k, snd o <> Ok k) /\ (forall k, snd o' <> Ok k))).
Lemma alike_bind {A} (m : out A) f f' : (forall a, alike (f a) (f' a)) -> alike (obind m f) (obind m f').
Proof.
  intros HF. destruct m as [l [a|e|w]]; cbn [obind]; [|split; [reflexivity|]; right; split; discriminate..].
  specialize (HF a). unfold alike in *. destruct (f a) as [l1 r1], (f' a) as [l2 r2]. cbn [fst snd] in *. destruct HF as [-> HF]. auto.
Qed.
Lemma alike_ok k k' (f f' : bytes -> out bytes) : alike (f k) (f' k') -> alike (obind (lift (Ok k)) f) (obind (lift (Ok k')) f').
Proof. unfold lift, obind. destruct (f k), (f' k'). exact (fun H => H). Qed.
Lemma start_up_code cl cfg c p : code cfg < 1000000 -> c < 1000000 -> alike (start_up cl cfg p) (start_up cl (with_code cfg c) p).
Proof.
  intros H H'. unfold start_up. cbn [code with_code].
  assert (G : forall n, n < 1000000 -> exists k, ArmCode_try_from_u32 n = Ok k).
  { intros n L. destruct (C20_code_from_number_no_panic n) as [X|(e & E)]; [exact X|]. unfold ArmCode_try_from_u32 in E. destruct (1000000 <=? n) eqn:EL; [lia|]. destruct (_ =? _)%nat; discriminate. }
  destruct (G _ H) as (k & ->), (G _ H') as (k' & ->). cbn [expect]. apply alike_ok.
  do 5 (apply alike_bind; intros _). split; [reflexivity|]. left. exists k, k'. split; reflexivity.
Qed.
Definition queued (b : bridge) : list (bytes * bytes) := match b with Connecting _ rx => rx | Up u => u_rx u | Dead _ _ => [] end.
Lemma sim_step cl cfg c b b' i : code cfg < 1000000 -> c < 1000000 -> (forall u, b = Up u -> binv cl cfg u) ->
  Forall (fun m => forall k, ~ asks cfg m k) (queued b ++ mqtt_in [i]) ->
  sim b b' -> sim (bstep cl cfg b i) (bstep cl (with_code cfg c) b' i) /\ Forall (fun m => forall k, ~ asks cfg m k) (queued (bstep cl cfg b i)).
Proof.
  intros H H' BI Q HS. destruct b as [s rx|u|l w], b' as [s' rx'|u'|l' w']; try contradiction.
  - destruct HS as [<- <-]. cbn [queued] in Q. destruct i as [a|t pl| |now ws|now| |ws]; cbn [bstep queued mqtt_in flat_map app sim] in *; rewrite ?app_nil_r in Q; auto.
    unfold after_connect. destruct (istep now ws s) as [f p q|p|e|w]; cbn [sim queued]; auto.
    pose proof (start_up_code cl cfg c p H H') as [A B]. destruct (start_up cl cfg p) as [l1 r1], (start_up cl (with_code cfg c) p) as [l2 r2]. cbn [fst snd] in *. subst l2.
    destruct B as [(k & k' & -> & ->)|[B1 B2]]; unfold settle.
    + cbn. auto 12.
    + destruct r1 as [k|e|w]; [elim (B1 k eq_refl)|..]; (destruct r2 as [k'|e'|w']; [elim (B2 k' eq_refl)|..]); cbn; auto 12.
  - destruct HS as (EP & EM & EM' & ER & EL). specialize (BI u eq_refl). destruct BI as (R & RG & DC & _).
    cbn [queued] in Q. destruct i as [a|t pl| |now ws|now| |ws]; cbn [bstep]; rewrite ?EM, ?EM'.
    + cbn in *. rewrite app_nil_r in Q. rewrite EP. auto 12.
    + cbn in *. repeat split; auto; congruence.
    + cbn. auto 12.
    + cbn in *. rewrite app_nil_r in Q. auto 12.
    + rewrite <- EP. cbn in Q. rewrite app_nil_r in Q. destruct (poll_next now (u_panel u)) as [[[p r] a]|e|w]; [|cbn; auto 12..]. destruct r as [|[[e|e]|]]; [cbn; auto 12| |cbn; auto 12..].
      change (handle_event cl (with_code cfg c) p e) with (handle_event cl cfg p e). rewrite <- EL, <- ER. unfold settle. destruct (handle_event cl cfg p e) as [l [k|er|w]]; cbn; auto 12.
    + cbn in Q. rewrite app_nil_r in Q. rewrite <- ER. destruct (u_rx u) as [|[t pl] rx] eqn:EX; [cbn; rewrite ?EX; auto 12|].
      change (topic_prefix (with_code cfg c)) with (topic_prefix cfg). change (areas (with_code cfg c)) with (areas cfg).
      pose proof (requested_spec cfg (u_code u) t pl RG DC) as RS. pose proof (requested_code (topic_prefix cfg) (u_code u) (u_code u') (areas cfg) t pl) as RC.
      inversion Q as [|? ? Q1 Q2]; subst.
      destruct (requested _ (u_code u) _ t pl) as [[k|]|e|w].
      * elim (Q1 k). apply RS.
      * destruct (requested _ (u_code u') _ t pl) as [[k'|]|e'|w']; try contradiction. cbn. auto 12.
      * destruct (requested _ (u_code u') _ t pl) as [[k'|]|e'|w']; try contradiction; cbn; auto 12.
      * destruct (requested _ (u_code u') _ t pl) as [[k'|]|e'|w']; try contradiction; cbn; auto 12.
    + cbn in *. rewrite app_nil_r in Q. auto 12.
  - cbn. auto 12.
Qed.
Theorem C59_code_kept_without_commands_partial : forall cl cfg c is, code cfg < 1000000 -> c < 1000000 -> Forall input_ok is ->
  Forall (fun m => forall k, ~ asks cfg m k) (mqtt_in is) ->
  blog (brun cl cfg is) = blog (brun cl (with_code cfg c) is).
Proof.
  intros cl cfg c is H H' HI Q.
  assert (X : sim (brun cl cfg is) (brun cl (with_code cfg c) is) /\ Forall (fun m => forall k, ~ asks cfg m k) (queued (brun cl cfg is))).
  { revert HI Q. induction is as [|i is IH] using rev_ind; intros HI Q; [split; [split; reflexivity | constructor]|].
    apply Forall_app in HI as [HI Hi]. rewrite mqtt_in_app in Q. apply Forall_app in Q as [Q Q']. destruct (IH HI Q) as [S W].
    rewrite !brun_snoc. apply sim_step; auto.
    - intros u EU. apply (bridge_binv cl cfg is). split; assumption.
    - apply Forall_app; auto. }
  destruct X as [X _]. destruct (brun cl cfg is) as [s rx|u|l w], (brun cl (with_code cfg c) is) as [s' rx'|u'|l' w']; cbn in *; try contradiction; tauto.
Qed.

(* ---- examples ---- *)
Example C47_example : ha_area_state ex_fire 1 = Ok (B "armed_away") /\ ha_area_state ex_arming 1 = Ok (B "arming") /\
  ha_area_state (mkAS (repeat AST_ArmedStay 8) (repeat AU_ArmedFully 8) (repeat AA_BurglarAlarm 8) 0) 3 = Ok (B "triggered").
Proof. repeat split. Qed.
(* the bridge comes up, the panel reports that area 1 arms and zone 2 returns to normal *)
Definition ex_reports : list input :=
  [NetArrive (Bytes (bytes_of (MArmingStatusReport ex_arming) ++ bytes_of (MZoneChange (mkZC 2 2)))); PollPanel 7; PollPanel 8].
Definition retained (log : list action) (t : bytes) : option payload :=
  fold_left (fun r a => match a with APublishQ _ t' true p => if beq t t' then Some p else r | _ => r end) log None.
Example C48_C49_C58_example :
  let u := up_of (brun ex_cl ex_cfg (ex_start ++ ex_reports)) in
  cfg_ok ex_cfg /\ distinct_area_names ex_cfg /\ distinct_zone_names ex_cfg /\
  retained (u_log ex_up) (B "elkm1/0001/area/house/ha_state") = Some (PText (B "disarmed")) /\
  retained (u_log ex_up) (B "elkm1/0001/zone/front/ha_state") = Some (PText (B "on")) /\
  retained (u_log u) (B "elkm1/0001/area/house/ha_state") = Some (PText (B "arming")) /\
  retained (u_log u) (B "elkm1/0001/zone/front/ha_state") = Some (PText (B "off")) /\
  length (filter is_event_pub (u_log ex_up)) = 0%nat /\ length (filter is_event_pub (u_log u)) = 2%nat.
Proof.
  cbv zeta. split; [repeat split; cbn; repeat constructor; cbn; lia || tauto|]. split; [repeat constructor; cbn; tauto|]. split; [repeat constructor; cbn; tauto|].
  vm_compute. repeat split.
Qed.
Example C50_C51_example :
  skipn (length (written (p_conn (u_panel ex_up)))) (written (p_conn (u_panel ex_blocked))) = B "0Da11001234003F" ++ [13; 10] /\
  u_mode ex_blocked = Feeding (CmdArm (mkArmRequest 1 AL_Disarm (B "001234"))) /\ outstanding (u_panel ex_blocked) <> [].
Proof. vm_compute. repeat split. discriminate. Qed.
Example C52_C57_example :
  map (fun a => match a with APublishQ _ t r (PText v) => (t, r, v) | APublishQ _ t r _ => (t, r, B "(json)") | ASubscribeQ _ f => (concat f, false, B "(subscribe)") end) (u_log ex_up) =
  [(B "homeassistant/alarm_control_panel/elk-0001-area-1/config", true, B "(json)");
   (B "homeassistant/binary_sensor/elk-0001-zone-2/config", true, B "(json)");
   (B "elkm1/0001/area/house/ha_state", true, B "disarmed"); (B "elkm1/0001/zone/front/ha_state", true, B "on");
   (B "elkm1/0001/area/house/ha_command", false, B "(subscribe)"); (B "elkm1/0001/availability", true, B "online")].
Proof. vm_compute. reflexivity. Qed.
Example C59_example : blog (brun ex_cl ex_cfg (ex_start ++ ex_reports)) = blog (brun ex_cl (with_code ex_cfg 987654) (ex_start ++ ex_reports)) /\
  blog (brun ex_cl ex_cfg (ex_start ++ ex_leak_in)) <> blog (brun ex_cl (with_code ex_cfg 987654) (ex_start ++ ex_leak_in)).
Proof. split; [vm_compute; reflexivity|]. vm_compute. discriminate. Qed.

Print Assumptions C47_alarm_shown_refuted.
Print Assumptions C47_alarm_shown_partial.
Print Assumptions C48_area_topics_match.
Print Assumptions C49_zone_topics_match.
Print Assumptions C50_commands_sent.
Print Assumptions C50_all_commands_sent.
Print Assumptions C50_one_command_each.
Print Assumptions C51_blocked_forever.
Print Assumptions C51_keeps_serving_crash_refuted.
Print Assumptions C51_keeps_serving_block_refuted.
Print Assumptions C51_stops_exactly_partial.
Print Assumptions C51_send_fails_only_on_write_errors.
Print Assumptions C51_progress_partial.
Print Assumptions C52_online_after_states.
Print Assumptions C52_goes_online.
Print Assumptions C57_areas_announced.
Print Assumptions C57_zones_announced.
Print Assumptions C58_events_published.
Print Assumptions C59_code_not_published_refuted.
Print Assumptions C59_code_kept_without_commands_partial.
