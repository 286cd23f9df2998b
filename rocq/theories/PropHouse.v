(* PropHouse.v: C123: what Home Assistant shows, and how things are. *)
From Verif Require Import Base BaseFacts Pkt SpecPkt PktFacts DecodeFacts Msg SpecMsg DecFacts MsgFacts WireFacts IsoFacts
  PropMsg Tokio SpecConn ConnFacts State SpecState StateFacts RunFacts HistFacts ViewFacts ExState PropState
  Serde SerdeFacts PropSerde SpecInit InitFacts PropConnect Mqtt MqttFacts Config SpecMqtt SpecConfig PropMqtt PropConfig PropEnd
  BridgeText SpecJson JsonFacts JsonWrite ShowFacts TextFacts PropText SpecHa PropHa
  SpecEvery PropEvery WakeBridge SpecHost HostFacts PropHost SpecShown PropShown.
From Verif Require Import SpecTruth TruthFacts PropTruth.
From Coq Require Import ZifyBool ZifyNat ZifyN.
Ltac Zify.zify_post_hook ::= Z.div_mod_to_equations.

Lemma slash_split a b c d : ~ In (ch "/") a -> ~ In (ch "/") c -> a ++ B "/" ++ b = c ++ B "/" ++ d -> a = c /\ b = d.
Proof.
  revert c. induction a as [|x a IH]; intros [|y c] NA NC E; cbn [app] in E.
  - split; [reflexivity|]. injection E as E. exact E.
  - injection E as <- _. elim NC. left. reflexivity.
  - injection E as -> _. elim NA. left. reflexivity.
  - injection E as -> E. destruct (IH c) as [-> ->]; [intros H; apply NA; right; exact H | intros H; apply NC; right; exact H | exact E | auto].
Qed.
Lemma denotes_one p v v' : (forall x, denotes x (payload_text p) <-> x = v) -> (forall x, denotes x (payload_text p) <-> x = v') -> v = v'.
Proof. intros H H'. apply H', H. reflexivity. Qed.
Lemma config_last a b c : last (a ++ B "/" ++ b ++ B "/" ++ c ++ B "/config") 0 = ch "g".
Proof. change (B "/config") with (B "/confi" ++ [ch "g"]). rewrite !app_assoc. apply last_last. Qed.
Lemma pub_topic q t r p q' t' r' p' : APublishQ q t r p = APublishQ q' t' r' p' -> t = t'.
Proof. intros E. injection E as _ E _ _. exact E. Qed.
Lemma no_slash s : forallb (fun c => negb (c =? ch "/")) s = true -> ~ In (ch "/") s.
Proof. intros H I. rewrite forallb_forall in H. specialize (H _ I). discriminate H. Qed.


Lemma announced_found file o h cl cfg is u ha component id v : main_text file = Ok (o, h, cfg) -> bridge_after cl cfg is (Up u) -> ha_discovery_prefix cfg = Some ha ->
  ~ In (ch "/") component -> announced (u_log u) ha component id v ->
  (component = B "alarm_control_panel" /\ exists area name, In (area, name) (areas cfg) /\ id = area_unique_id cfg area /\ v = area_discovery_json (topic_prefix cfg) cfg area name) \/
  (component = B "binary_sensor" /\ exists zone z, In (zone, z) (zones cfg) /\ id = zone_unique_id cfg zone /\ v = zone_discovery_json (topic_prefix cfg) cfg zone z).
Proof.
  intros M A HH NS (p & HO & D). destruct (holds_in _ _ _ HO) as (q & I). destruct (up_discovery _ _ _ _ _ A HH) as (la & lz & rest & EL & NC & LA & LZ & _). pose proof I as I0. rewrite EL in I.
  apply in_app_iff in I as [I|I]; [|rewrite Forall_forall in NC; elim (NC _ I q _ p eq_refl); apply config_last].
  assert (X : forall c i j, ~ In (ch "/") c -> APublishQ q (ha ++ B "/" ++ component ++ B "/" ++ id ++ B "/config") true p = APublish (ha ++ B "/" ++ c ++ B "/" ++ i ++ B "/config") true (PJson j) -> component = c /\ id = i /\ v = j).
  { intros c i j NC' [= -> E ->]. apply app_inv_head in E. injection E as E. destruct (slash_split _ _ _ _ NS NC' E) as [-> E2]. apply app_inv_tail in E2. split; [reflexivity|]. split; [exact E2|].
    eapply denotes_one; [exact D|]. eapply C79_published_text; eauto. }
  apply in_app_iff in I as [I|I].
  - destruct (Forall2_in' _ _ _ _ LA I) as ([area name] & Hin & E). unfold area_disc in E. cbn [fst snd] in E. left.
    destruct (X (B "alarm_control_panel") (area_unique_id cfg area) (area_discovery_json (topic_prefix cfg) cfg area name)) as (-> & -> & ->); [apply no_slash; reflexivity | exact E | eauto 6].
  - destruct (Forall2_in' _ _ _ _ LZ I) as ([zone z] & Hin & E). unfold zone_disc in E. cbn [fst snd] in E. right.
    destruct (X (B "binary_sensor") (zone_unique_id cfg zone) (zone_discovery_json (topic_prefix cfg) cfg zone z)) as (-> & -> & ->); [apply no_slash; reflexivity | exact E | eauto 6].
Qed.
Lemma area_text prefix cfg area name k s : In (k, s) [(B "availability_topic", availability_topic prefix); (B "state_topic", area_state_topic prefix name); (B "unique_id", area_unique_id cfg area); (B "name", name)] ->
  text_member (area_discovery_json prefix cfg area name) k s.
Proof.
  intros H. destruct (area_keys prefix cfg area name) as (fields & EF & ND & _). rewrite EF. apply text_in; [exact ND|]. unfold area_discovery_json in EF. injection EF as <-.
  cbn [In] in H |- *. repeat (destruct H as [H|H]; [injection H as <- <-; tauto|]). destruct H.
Qed.
Lemma zone_text prefix cfg zone z k s : In (k, s) [(B "availability_topic", availability_topic prefix); (B "state_topic", zone_state_topic prefix (z_name z)); (B "unique_id", zone_unique_id cfg zone); (B "name", z_name z)] ->
  text_member (zone_discovery_json prefix cfg zone z) k s.
Proof.
  intros H. destruct (zone_keys prefix cfg zone z) as (fields & EF & ND & _). rewrite EF. apply text_in; [exact ND|]. unfold zone_discovery_json in EF. injection EF as <-.
  cbn [In] in H |- *. repeat (destruct H as [H|H]; [injection H as <- <-; tauto|]). destruct H.
Qed.
Lemma name_unique {A} (f : A -> bytes) (l : list (N * A)) a b x y : NoDup (map (fun p => f (snd p)) l) -> In (a, x) l -> In (b, y) l -> f x = f y -> (a, x) = (b, y).
Proof.
  intros ND I J E. apply In_nth_error in I as (i & Ei), J as (j & Ej). assert (i = j) as <-; [|congruence].
  apply (proj1 (NoDup_nth_error _) ND); [rewrite map_length; apply nth_error_Some; congruence|]. rewrite (map_nth_error (fun p => f (snd p)) _ _ Ei), (map_nth_error (fun p => f (snd p)) _ _ Ej). cbn [snd]. congruence.
Qed.

(* an entity, as Home Assistant knows it: its component, its name and where it finds its state *)
Definition entity (log : list action) (ha component id name st : bytes) : Prop :=
  exists v, announced log ha component id v /\ text_member v (B "name") name /\ text_member v (B "state_topic") st.

(* Home Assistant gets to know of the configured areas and zones, of each once, and of nothing else; and of nothing at all when it is not configured. *)
Theorem C123_entities : forall file o h cl cfg is u, main_text file = Ok (o, h, cfg) -> bridge_after cl cfg is (Up u) ->
  (ha_discovery_prefix cfg = None -> forall ha component id v, ~ announced (u_log u) ha component id v) /\
  (forall ha, ha_discovery_prefix cfg = Some ha ->
    (forall component id v, ~ In (ch "/") component -> announced (u_log u) ha component id v ->
       (component = B "alarm_control_panel" /\ exists area name, In (area, name) (areas cfg) /\ text_member v (B "name") name /\ text_member v (B "unique_id") id) \/
       (component = B "binary_sensor" /\ exists zone z, In (zone, z) (zones cfg) /\ text_member v (B "name") (z_name z) /\ text_member v (B "unique_id") id)) /\
    (distinct_area_names cfg -> forall area name, In (area, name) (areas cfg) ->
       exists id, forall id', (exists st, entity (u_log u) ha (B "alarm_control_panel") id' name st) <-> id' = id) /\
    (distinct_zone_names cfg -> forall zone z, In (zone, z) (zones cfg) ->
       exists id, forall id', (exists st, entity (u_log u) ha (B "binary_sensor") id' (z_name z) st) <-> id' = id)).
Proof.
  intros file o h cl cfg is u M A. pose proof (setup_ok _ _ _ _ M) as K. split.
  - intros HN ha component id v (p & HO & _). destruct (holds_in _ _ _ HO) as (q & I). 
    destruct (up_log cl cfg is u not_config A (loop_not_config cfg)) as (u0 & l & (C & E & _) & EL & FL). rewrite EL in I. apply in_app_iff in I as [I|I]; [|rewrite Forall_forall in FL; elim (FL _ I q _ p eq_refl); apply config_last].
    destruct (start_up_ok _ _ _ _ _ (connected_reachable _ C) E) as (_ & _ & _ & ld & la & lz & fs & EL0 & LD & LA & LZ & EF). rewrite EL0 in I. unfold discovery in LD. rewrite HN in LD. subst ld. rewrite app_nil_l in I.
    apply in_app_iff in I as [I|I]; [|apply in_app_iff in I as [I|I]].
    + destruct (Forall2_in' _ _ _ _ LA I) as (x & _ & t & _ & EQ). apply pub_topic in EQ. apply (f_equal (fun s => last s 0)) in EQ. cbv beta in EQ. rewrite config_last, area_topic_last in EQ. discriminate EQ.
    + destruct (Forall2_in' _ _ _ _ LZ I) as (x & _ & t & _ & EQ). apply pub_topic in EQ. apply (f_equal (fun s => last s 0)) in EQ. cbv beta in EQ. rewrite config_last, zone_topic_last in EQ. discriminate EQ.
    + cbn [In] in I. destruct I as [I|[I|[]]]; [discriminate I|]. apply pub_topic in I. rename I into EQ. apply (f_equal (fun s => last s 0)) in EQ. cbv beta in EQ. rewrite config_last, avail_topic_last in EQ. discriminate EQ.
  - intros ha HH. split; [|split].
    + intros component id v NS AN. destruct (announced_found _ _ _ _ _ _ _ _ _ _ _ M A HH NS AN) as [(-> & area & name & I & -> & ->)|(-> & zone & z & I & -> & ->)]; [left | right]; (split; [reflexivity|]).
      * exists area, name. split; [exact I|]. split; apply area_text; cbn [In]; tauto.
      * exists zone, z. split; [exact I|]. split; apply zone_text; cbn [In]; tauto.
    + intros DN area name I. exists (area_unique_id cfg area). intros id'. split.
      * intros (st & v & AN & NM & _). destruct (announced_found _ _ _ _ _ _ _ _ _ _ _ M A HH (no_slash (B "alarm_control_panel") eq_refl) AN) as [(_ & area' & name' & I' & -> & ->)|([=] & _)].
        assert (name' = name) as -> by (eapply same_text; [apply area_text; cbn [In]; tauto | exact NM]).
        assert (E : (area', name) = (area, name)) by (eapply (name_unique (fun n => n)); eauto). congruence.
      * intros ->. destruct (area_announcement _ _ _ _ _ _ _ A K HH I) as [HO _]. eexists. eexists. split; [exists (PJson (area_discovery_json (topic_prefix cfg) cfg area name)); split; [exact HO|]|].
        { destruct (holds_in _ _ _ HO) as (q & HIn). eapply C79_published_text; eauto. }
        split; apply area_text; cbn [In]; tauto.
    + intros DN zone z I. exists (zone_unique_id cfg zone). intros id'. split.
      * intros (st & v & AN & NM & _). destruct (announced_found _ _ _ _ _ _ _ _ _ _ _ M A HH (no_slash (B "binary_sensor") eq_refl) AN) as [([=] & _)|(_ & zone' & z' & I' & -> & ->)].
        assert (z_name z' = z_name z) as EN by (eapply same_text; [apply zone_text; cbn [In]; tauto | exact NM]).
        assert (E : (zone', z') = (zone, z)) by (eapply (name_unique z_name); eauto). congruence.
      * intros ->. pose proof (zone_announcement _ _ _ _ _ _ _ A K HH I) as HO. eexists. eexists. split; [exists (PJson (zone_discovery_json (topic_prefix cfg) cfg zone z)); split; [exact HO|]|].
        { destruct (holds_in _ _ _ HO) as (q & HIn). eapply C79_published_text; eauto. }
        split; apply zone_text; cbn [In]; tauto.
Qed.

(* what the entities show, given what the topics show *)
Definition entities_show (cfg : Cfg) (log : list action) (ha : bytes) (shown : ArmingStatusReport) (zone_is : N -> N) : Prop :=
  (forall area name, In (area, name) (areas cfg) -> exists id st, entity log ha (B "alarm_control_panel") id name st) /\
  (forall id name st, entity log ha (B "alarm_control_panel") id name st ->
     exists area s up a x, In (area, name) (areas cfg) /\ area_in shown area s up a /\ shows_area s up a x /\
       (forall p, holds log st p <-> p = PText x) /\ In x alarm_states) /\
  (forall zone z, In (zone, z) (zones cfg) -> exists id st, entity log ha (B "binary_sensor") id (z_name z) st) /\
  (forall id name st, entity log ha (B "binary_sensor") id name st ->
     exists zone z x, In (zone, z) (zones cfg) /\ z_name z = name /\ shows_zone (zone_is zone) x /\ (forall p, holds log st p <-> p = PText x)).
Lemma topics_to_entities file o h cl cfg is u ha shown zone_is : main_text file = Ok (o, h, cfg) -> bridge_after cl cfg is (Up u) ->
  distinct_area_names cfg -> distinct_zone_names cfg -> ha_discovery_prefix cfg = Some ha ->
  areas_show cfg (u_log u) shown -> zones_show cfg (u_log u) zone_is -> entities_show cfg (u_log u) ha shown zone_is.
Proof.
  intros M A DA DZ HH SH ZS. destruct (C123_entities _ _ _ _ _ _ _ M A) as (_ & EN). destruct (EN ha HH) as (_ & EA & EZ). clear EN.
  split; [|split; [|split]].
  - intros area name I. destruct (EA DA area name I) as (id & H). exists id. apply (H id). reflexivity.
  - intros id name st (v & AN & NM & ST). destruct (announced_found _ _ _ _ _ _ _ _ _ _ _ M A HH (no_slash (B "alarm_control_panel") eq_refl) AN) as [(_ & area & name' & I & -> & ->)|([=] & _)].
    assert (name' = name) as -> by (eapply same_text; [apply area_text; cbn [In]; tauto | exact NM]).
    assert (area_state_topic (topic_prefix cfg) name = st) as <- by (eapply same_text; [apply area_text; cbn [In]; tauto | exact ST]).
    destruct (SH area name I) as (s & up & a & x & X1 & X2 & X3). exists area, s, up, a, x. split; [exact I|]. split; [exact X1|]. split; [exact X2|]. split.
    + intros p. split; [intros H; eapply holds_fun; eauto | intros ->; exact X3].
    + destruct X2 as [[_ ->]|[[_ ->]|[(_ & _ & _ & ->)|(_ & _ & _ & X2)]]]; [cbn; tauto ..|]. cbn in X2. repeat (destruct X2 as [X2|X2]; [injection X2 as _ <-; cbn; tauto|]). destruct X2.
  - intros zone z I. destruct (EZ DZ zone z I) as (id & H). exists id. apply (H id). reflexivity.
  - intros id name st (v & AN & NM & ST). destruct (announced_found _ _ _ _ _ _ _ _ _ _ _ M A HH (no_slash (B "binary_sensor") eq_refl) AN) as [([=] & _)|(_ & zone & z & I & -> & ->)].
    assert (z_name z = name) as EN by (eapply same_text; [apply zone_text; cbn [In]; tauto | exact NM]).
    assert (zone_state_topic (topic_prefix cfg) (z_name z) = st) as <- by (eapply same_text; [apply zone_text; cbn [In]; tauto | exact ST]).
    destruct (ZS zone z I) as (x & X1 & X2). exists zone, z, x. split; [exact I|]. split; [exact EN|]. split; [exact X1|]. intros p. split; [intros H; eapply holds_fun; eauto | intros ->; exact X2].
Qed.

(* At rest, each alarm panel in Home Assistant is that of a configured area, and what it shows is how this area is armed; for up to five seconds after an area was fully armed from
   disarmed it may be how it was before. *)
Theorem C123_shows_the_house : forall file o h cl cfg l u t0 ds ha,
  main_text file = Ok (o, h, cfg) -> Forall hact_ok l -> listening (hrun cl cfg l) -> h_bridge (hrun cl cfg l) = Up u ->
  distinct_area_names cfg -> distinct_zone_names cfg -> ha_discovery_prefix cfg = Some ha ->
  does t0 ds -> spells (h_bytes l) (sent ds) ->
  let t := after t0 ds in
  exists shown,
    (shown = arming_now t \/
     (forall l1 l2, l = l1 ++ l2 -> listening (hrun cl cfg l1) -> ~ quiet_for_5s cl cfg l1 l2) /\
     exists dsa dsb, ds = dsa ++ dsb /\ shown = arming_now (after t0 dsa) /\ became_fully_armed shown (arming_now t)) /\
    entities_show cfg (u_log u) ha shown (zone_now t).
Proof.
  intros file o h cl cfg l u t0 ds ha M F L E DA DZ HH D SP. cbv zeta. pose proof (setup_ok _ _ _ _ M) as K.
  destruct (C100_is_the_bridge cl cfg l F) as (is & A & _). rewrite E in A.
  destruct (C117_shows_the_truth cl cfg l u t0 ds F L E K DA DZ D SP) as (ZS & AS).
  assert (exists shown, (shown = arming_now (after t0 ds) \/ (forall l1 l2, l = l1 ++ l2 -> listening (hrun cl cfg l1) -> ~ quiet_for_5s cl cfg l1 l2) /\
     exists dsa dsb, ds = dsa ++ dsb /\ shown = arming_now (after t0 dsa) /\ became_fully_armed shown (arming_now (after t0 ds))) /\ areas_show cfg (u_log u) shown) as (shown & HS & SH).
  { destruct AS as [AS|(NQ & before & dsa & dsb & AS & X1 & X2 & X3)]; [eauto|]. exists before. split; [right; split; [exact NQ | exists dsa, dsb; auto] | exact AS]. }
  exists shown. split; [exact HS|]. eapply topics_to_entities; eauto.
Qed.

Lemma ex_entity file o h is hst x : main_text file = Ok (o, h, ex_cfg) -> bridge_after ex_cl ex_cfg is (h_bridge hst) -> ex_shows hst x ->
  exists u id st, h_bridge hst = Up u /\ entity (u_log u) (B "homeassistant") (B "alarm_control_panel") id (B "house") st /\ holds (u_log u) st (PText x).
Proof.
  unfold ex_shows. destruct (h_bridge hst) as [|u|] eqn:E; [intros _ _ [] | | intros _ _ []]. intros M A SH. assert (DA : distinct_area_names ex_cfg) by apply ex_cfg_fine.
  destruct (C123_entities _ _ _ _ _ _ _ M A) as (_ & EN). destruct (EN (B "homeassistant") eq_refl) as (_ & EA & _). destruct (EA DA 1 (B "house") (or_introl eq_refl)) as (id & H).
  destruct (proj2 (H id) eq_refl) as (st & v & AN & NM & ST). exists u, id, st. split; [reflexivity|]. split; [exists v; split; [exact AN|]; split; [exact NM | exact ST]|].
  destruct (announced_found _ _ _ _ _ _ _ _ _ _ _ M A eq_refl (no_slash (B "alarm_control_panel") eq_refl) AN) as [(_ & area & name & I & -> & ->)|([=] & _)].
  assert (name = B "house") as -> by (eapply same_text; [apply area_text; cbn [In]; tauto | exact NM]).
  assert (area_state_topic (topic_prefix ex_cfg) (B "house") = st) as <- by (eapply same_text; [apply area_text; cbn [In]; tauto | exact ST]).
  apply PropQueue.retained_holds. exact SH.
Qed.
Lemma ex_not_fully : ~ became_fully_armed (arming_now ex_t0) (arming_now (after ex_t0 ex_slip_deeds)).
Proof.
  assert (arming_now (after ex_t0 ex_slip_deeds) = ex_arming) as -> by reflexivity. intros X. apply suspicious_spec in X.
  assert (N : is_transition_suspicious (arming_now ex_t0) ex_arming = false) by (vm_compute; reflexivity). rewrite N in X. discriminate X.
Qed.
(* Area 1 is armed with an exit delay, which the panel first reports wrongly: Home Assistant shows one alarm panel for it, and this shows "arming". *)
Example C123_example :
  (exists o h, main_text ex_text = Ok (o, h, ex_cfg)) /\ ha_discovery_prefix ex_cfg = Some (B "homeassistant") /\ distinct_area_names ex_cfg /\ distinct_zone_names ex_cfg /\
  Forall hact_ok ex_slip_acts /\ listening (hrun ex_cl ex_cfg ex_slip_acts) /\ does ex_t0 ex_slip_deeds /\ spells (h_bytes ex_slip_acts) (sent ex_slip_deeds) /\
  ~ became_fully_armed (arming_now ex_t0) (arming_now (after ex_t0 ex_slip_deeds)) /\
  exists u id st, h_bridge (hrun ex_cl ex_cfg ex_slip_acts) = Up u /\ entity (u_log u) (B "homeassistant") (B "alarm_control_panel") id (B "house") st /\ holds (u_log u) st (PText (B "arming")).
Proof.
  destruct C117_example as (_ & _ & K & DA & DZ & D & _ & _ & _ & _ & _ & _ & _ & F & L & SP & SH & _). destruct C79_example as ((o & h & M) & _).
  split; [exists o, h; exact M|]. split; [reflexivity|]. split; [exact DA|]. split; [exact DZ|]. split; [exact F|]. split; [exact L|]. split; [exact D|]. split; [exact SP|].
  split; [exact ex_not_fully|]. destruct (C100_is_the_bridge ex_cl ex_cfg ex_slip_acts F) as (is & A & _). exact (ex_entity _ _ _ _ _ _ M A SH).
Qed.

Print Assumptions C123_entities.
Print Assumptions C123_shows_the_house.
Print Assumptions C123_example.
