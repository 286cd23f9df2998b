(* PropSameZone.v: C143, what the topic of a zone's name shows, whatever names the configuration gives (elkm1-mqtt/src/main.rs:169-190, 420-471). *)
From Verif Require Import Base BaseFacts Pkt SpecPkt PktFacts DecodeFacts Msg SpecMsg DecFacts MsgFacts WireFacts IsoFacts
  PropMsg Tokio SpecConn ConnFacts State SpecState StateFacts RunFacts HistFacts ViewFacts ExState PropState PropSink
  Serde SerdeFacts PropSerde Mqtt SpecMqtt MqttFacts PropMqtt SpecSameZone.
From Coq Require Import ZifyBool ZifyNat ZifyN.
Ltac Zify.zify_post_hook ::= Z.div_mod_to_equations.

Lemma holds_some prefix p name zs l : Forall2 (zone_pub prefix p) zs l -> (exists k z, In (k, z) zs /\ z_name z = name) ->
  exists k z t, In (k, z) zs /\ z_name z = name /\ zone_shown p k t /\ holds l (zone_state_topic prefix name) (PText t).
Proof.
  intros F. induction F as [|[k z] a zs l (t & S & ->) F IH]; [intros (k & z & [] & _)|]. intros H. cbn [fst snd] in *.
  assert (D : In name (map (fun x => z_name (snd x)) zs) \/ ~ In name (map (fun x => z_name (snd x)) zs)).
  { destruct (in_dec (list_eq_dec N.eq_dec) name (map (fun x => z_name (snd x)) zs)); auto. }
  destruct D as [D|D].
  - apply in_map_iff in D as ([k' z'] & E & I). destruct IH as (k2 & z2 & t2 & I2 & E2 & S2 & H2); [exists k', z'; split; [exact I | exact E]|].
    exists k2, z2, t2. split; [right; exact I2|]. split; [exact E2|]. split; [exact S2|]. apply (holds_right [_]). exact H2.
  - destruct H as (k' & z' & [H|H] & E); [injection H as -> ->|elim D; apply in_map_iff; exists (k', z'); split; [exact E | exact H]].
    exists k', z', t. split; [left; reflexivity|]. split; [exact E|]. split; [exact S|]. rewrite E in *. exists AtLeastOnce, [], l. split; [reflexivity|]. intros q p' HI.
    clear -F D HI. induction F as [|[k z] a xs l (t' & _ & ->) _ IH]; [destruct HI|]. destruct HI as [HI|HI].
    + injection HI as _ H _. apply zone_topic_inj in H. apply D. left. exact H.
    + apply IH; [|exact HI]. intros X. apply D. right. exact X.
Qed.
Theorem C143_shows_one_of_them_partial : forall cl cfg is u name, bridge_after cl cfg is (Up u) -> cfg_ok cfg -> (exists zone, called cfg name zone) ->
  exists zone, called cfg name zone /\ shows_zone_state_of cfg u name zone.
Proof.
  intros cl cfg is u name (HI & E) (_ & CK & _) (z0 & c0 & HC & EN). pose proof (brun_cases cl cfg is HI) as H. rewrite E in H.
  destruct H as (u0 & is1 & is2 & -> & C & _ & _ & E2). apply Forall_app in HI as [_ HI].
  set (P := fun (_ : list input) u => exists zone z t, In (zone, z) (zones cfg) /\ z_name z = name /\ zone_shown (u_panel u) zone t /\ holds (u_log u) (zone_state_topic (topic_prefix cfg) name) (PText t)).
  assert (K : P is2 u).
  { refine (proj2 (up_ind cl cfg u0 P (came_up_binv _ _ _ C) _ _ is2 u HI E2)).
    - clear -C HC EN. destruct C as (C & E & _). assert (R := connected_reachable _ C). destruct (start_up_ok _ _ _ _ _ R E) as (_ & _ & _ & ld & la & lz & fs & EL & _ & LA & LZ & _).
      destruct (holds_some _ _ name _ _ LZ) as (k & z & t & I & EZ & T1 & T2); [exists z0, c0; split; [exact HC | exact EN]|].
      exists k, z, t. split; [exact I|]. split; [exact EZ|]. split; [exact T1|]. rewrite EL. apply holds_right, holds_right, holds_left; [exact T2|].
      constructor; [intros (qq & rr & H); discriminate|]. constructor; [|constructor]. intros (q & r & H). injection H as _ H _. symmetry in H. elim (zone_avail_topic _ _ H).
    - clear -CK. intros is u i u' (zone & z & t & HA & EZ & T1 & T2) (R & RG & _) HO (ops & bs & hd & os & HOps & ER & _ & _ & _ & _ & _ & _ & [[EV EL]|(now & r & w & e & l & EP & Y & EB & EH & EL)]) _; unfold P.
      + rewrite EL. exists zone, z, t. split; [exact HA|]. split; [exact EZ|]. split; [|exact T2]. eapply zone_shown_same; [|exact T1]. eapply quiet_run; eauto.
      + rewrite EL. assert (R' := reachable_poll _ _ _ _ _ R EP). destruct (handle_event_ok _ _ _ _ _ R' RG EH) as (v & l' & SER & -> & EPs & _).
        assert (Zk : zone_ok zone). { destruct RG as (_ & RZ & _). rewrite Forall_forall in RZ. exact (RZ _ HA). }
        assert (NZ : forall e' new, yields r e' -> e_msg e' <> Some (inl (MZoneStatusReport new))).
        { intros e' new Y' EM. assert (e' = e) by (unfold yields in *; congruence). subst e'. destruct (Event_zs e) as (why & X); [exists new; exact EM | congruence]. }
        destruct (C32_zone_changes_announced_partial _ _ _ _ _ R EP) as (zs & zs' & Z1 & Z2 & Z3 & _ & Z5). specialize (Z3 NZ).
        assert (SAME : (forall k pr, e_change e <> Some (CZoneChange k pr)) -> zone_shown (u_panel u') zone t).
        { intros NC. apply (zone_shown_same (u_panel u)); [|exact T1]. rewrite Z1, Z2. f_equal.
          destruct (list_eq_dec N.eq_dec zs' zs) as [EQ|NE]; [exact EQ|]. apply Z3 in NE as (e' & k & pr & Y' & EC'). elim (NC k pr). unfold yields in *. congruence. }
        unfold event_pubs in EPs. destruct (e_change e) as [[k s|prior]|] eqn:EC.
        * destruct (Z5 e k s Y EC) as (_ & _ & st & _ & _ & _ & OTH).
          destruct EPs as [(c & x & HK & (t' & S' & ->) & ->)|[NK ->]]; cbn [fst snd] in *.
          -- assert (DN : z_name c = name \/ z_name c <> name) by (destruct (beq (z_name c) name) eqn:X; [left; apply beq_eq; exact X | right; intros X'; rewrite X', beq_refl in X; discriminate]).
             destruct DN as [DN|DN].
             ++ exists k, c, t'. split; [exact HK|]. split; [exact DN|]. split; [exact S'|]. apply holds_right, (holds_right [_]). rewrite DN.
                exists AtLeastOnce, [], []. split; [reflexivity|]. intros ? ? [].
             ++ assert (NE : k <> zone) by (intros ->; apply DN; rewrite (key_unique _ _ _ _ CK HK HA); exact EZ).
                exists zone, z, t. split; [exact HA|]. split; [exact EZ|]. split; [eapply (zone_shown_at _ _ _ _ _ Zk Z1 T1 _ Z2)|].
                { apply OTH. destruct RG as (_ & RZ & _). rewrite Forall_forall in RZ. specialize (RZ _ HK). cbn in RZ. unfold zone_ok in *. lia. }
                apply holds_left; [exact T2|]. constructor; [apply event_quiet|]. constructor; [|constructor].
                intros (qq & rr & H). injection H as _ H _. apply zone_topic_inj in H. elim DN. exact H.
          -- assert (NE : k <> zone) by (intros ->; elim (NK _ HA)). exists zone, z, t. split; [exact HA|]. split; [exact EZ|]. split; [eapply (zone_shown_at _ _ _ _ _ Zk Z1 T1 _ Z2)|].
             { apply OTH. destruct (Z5 e k s Y EC) as (KR & _). unfold zone_ok in *. lia. }
             apply holds_left; [exact T2|]. constructor; [apply event_quiet | constructor].
        * exists zone, z, t. split; [exact HA|]. split; [exact EZ|]. split; [apply SAME; congruence|]. apply holds_left; [exact T2|]. constructor; [apply event_quiet|].
          eapply area_pubs_quiet; eauto.
        * subst l'. exists zone, z, t. split; [exact HA|]. split; [exact EZ|]. split; [apply SAME; congruence|]. apply holds_left; [exact T2|]. constructor; [apply event_quiet | constructor]. }
  destruct K as (zone & z & t & K1 & K2 & K3 & K4). exists zone. split; [exists z; split; [exact K1 | exact K2]|]. exists t. split; [exact K3 | exact K4].
Qed.

(* which one: the zone that changed last *)
Theorem C143_last_changed_partial : forall cl cfg is u now u' p r w e k s name,
  bridge_after cl cfg is (Up u) -> cfg_ok cfg -> u_mode u = Selecting -> bridge_after cl cfg (is ++ [PollPanel now]) (Up u') ->
  poll_next now (u_panel u) = Ok (p, r, w) -> yields r e -> e_change e = Some (CZoneChange k s) -> called cfg name k ->
  shows_zone_state_of cfg u' name k.
Proof.
  intros cl cfg is u now u' p r w e k s name A (_ & CK & _) M A' EP Y EC (z & HZ & EN). destruct (bridge_binv _ _ _ _ A) as (R & RG & _).
  destruct A as (_ & EA), A' as (_ & E). rewrite brun_snoc, EA in E. cbn [bstep] in E. rewrite M, EP in E. unfold yields in Y. subst r.
  unfold settle in E. destruct (handle_event cl cfg p e) as [l [[]|er|why]] eqn:EH; try discriminate. injection E as <-.
  assert (R' := reachable_poll _ _ _ _ _ R EP). destruct (handle_event_ok _ _ _ _ _ R' RG EH) as (v & l' & _ & -> & EPs & _).
  unfold event_pubs in EPs. rewrite EC in EPs. destruct EPs as [(c & x & HK & (t' & S' & ->) & ->)|[NK _]]; [|elim (NK _ HZ)]. cbn [fst snd] in *.
  rewrite (key_unique _ _ _ _ CK HK HZ), EN. exists t'. split; [exact S'|]. cbn [u_log u_panel]. apply holds_right, (holds_right [_]).
  exists AtLeastOnce, [], []. split; [reflexivity|]. intros ? ? [].
Qed.
(* False: of two zones called door one is open, and what is shown is that door is closed. *)
Definition ex_doors : Cfg := mkCfg (B "0001") 1234 [] [(2, mkZoneCfg (B "door") (B "door")); (3, mkZoneCfg (B "door") (B "door"))] None None.
Definition ex_doors_up : up := Eval vm_compute in up_of (brun ex_cl ex_doors ex_start).
Definition ex_doors_in : list input := [NetArrive (Bytes (bytes_of (MZoneChange (mkZC 2 8))))].
Definition ex_doors_up1 : up := Eval vm_compute in up_of (brun ex_cl ex_doors (ex_start ++ ex_doors_in)).
Definition ex_doors_up2 : up := Eval vm_compute in up_of (brun ex_cl ex_doors ((ex_start ++ ex_doors_in) ++ [PollPanel 7])).
Lemma ex_doors_after : bridge_after ex_cl ex_doors ex_start (Up ex_doors_up).
Proof. split; [exact ex_start_ok|]. vm_compute. reflexivity. Qed.
Lemma ex_doors_ok : cfg_ok ex_doors.
Proof. split; split; cbn; repeat constructor; cbn; lia. Qed.
Theorem C143_hidden_refuted : exists cl cfg is u name zone,
  bridge_after cl cfg is (Up u) /\ cfg_ok cfg /\ called cfg name zone /\ zone_shown (u_panel u) zone (B "on") /\
  holds (u_log u) (topic_prefix cfg ++ B "/zone/" ++ name ++ B "/ha_state") (PText (B "off")) /\ ~ shows_zone_state_of cfg u name zone.
Proof.
  exists ex_cl, ex_doors, ex_start, ex_doors_up, (B "door"), 2.
  assert (S : zone_shown (u_panel ex_doors_up) 2 (B "on")).
  { exists 9. split; [exists ex_zones; split; [vm_compute; reflexivity | reflexivity]|]. cbn. tauto. }
  assert (H : holds (u_log ex_doors_up) (topic_prefix ex_doors ++ B "/zone/" ++ B "door" ++ B "/ha_state") (PText (B "off"))).
  { exists AtLeastOnce, (firstn 1 (u_log ex_doors_up)), (skipn 2 (u_log ex_doors_up)). split; [vm_compute; reflexivity|]. intros q p.
    vm_compute. intros [X|[X|[]]]; discriminate X. }
  split; [exact ex_doors_after|]. split; [exact ex_doors_ok|]. split; [exists (mkZoneCfg (B "door") (B "door")); split; [left; reflexivity | reflexivity]|].
  split; [exact S|]. split; [exact H|]. intros (t & (s & (zs & Z1 & Z2) & S2) & H2). pose proof (holds_fun _ _ _ _ H H2) as E. injection E as <-.
  assert (ZE : panel_zone_statuses (u_panel ex_doors_up) = Ok ex_zones) by (vm_compute; reflexivity). rewrite ZE in Z1. injection Z1 as <-. injection Z2 as <-.
  cbn in S2. destruct S2 as [X|[X|[X|[X|[]]]]]; discriminate X.
Qed.
(* then the open one changes, to violated: now its state is the one shown *)
Example C143_example :
  bridge_after ex_cl ex_doors (ex_start ++ ex_doors_in) (Up ex_doors_up1) /\ u_mode ex_doors_up1 = Selecting /\
  bridge_after ex_cl ex_doors ((ex_start ++ ex_doors_in) ++ [PollPanel 7]) (Up ex_doors_up2) /\
  (exists p r w e s, poll_next 7 (u_panel ex_doors_up1) = Ok (p, r, w) /\ yields r e /\ e_change e = Some (CZoneChange 2 s)) /\
  called ex_doors (B "door") 2 /\ called ex_doors (B "door") 3 /\
  holds (u_log ex_doors_up2) (B "elkm1/0001/zone/door/ha_state") (PText (B "on")).
Proof.
  assert (OK : Forall input_ok (ex_start ++ ex_doors_in)).
  { apply Forall_app. split; [exact ex_start_ok|]. apply Forall_cons; [|apply Forall_nil]. cbn [input_ok arrival_u8].
    assert (X : forallb (fun b => b <? 256) (bytes_of (MZoneChange (mkZC 2 8))) = true) by (vm_compute; reflexivity).
    apply Forall_forall. intros b Hb. rewrite forallb_forall in X. apply N.ltb_lt. exact (X b Hb). }
  split; [split; [exact OK | vm_compute; reflexivity]|]. split; [reflexivity|].
  split; [split; [apply Forall_app; split; [exact OK | apply Forall_cons; [exact Logic.I | apply Forall_nil]] | vm_compute; reflexivity]|].
  split; [do 5 eexists; split; [vm_compute; reflexivity|]; split; reflexivity|].
  split; [exists (mkZoneCfg (B "door") (B "door")); split; [left; reflexivity | reflexivity]|].
  split; [exists (mkZoneCfg (B "door") (B "door")); split; [right; left; reflexivity | reflexivity]|].
  exists AtLeastOnce, (removelast (u_log ex_doors_up2)), []. split; [vm_compute; reflexivity | intros q p []].
Qed.

Print Assumptions C143_shows_one_of_them_partial.
Print Assumptions C143_last_changed_partial.
Print Assumptions C143_hidden_refuted.
