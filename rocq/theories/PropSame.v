(* PropSame.v: C142, whether the area that a topic shows is the one that its commands are for (elkm1-mqtt/src/main.rs:146-167, 281-325). *)
From Verif Require Import Base BaseFacts Pkt SpecPkt PktFacts DecodeFacts Msg SpecMsg DecFacts MsgFacts WireFacts IsoFacts
  PropMsg Tokio SpecConn ConnFacts State SpecState StateFacts RunFacts HistFacts ViewFacts ExState PropState PropSink
  Serde SerdeFacts PropSerde Mqtt SpecMqtt MqttFacts PropMqtt SpecSame.
From Coq Require Import ZifyBool ZifyNat ZifyN.
Ltac Zify.zify_post_hook ::= Z.div_mod_to_equations.

(* ---- the state shown is the last area's ---- *)
Lemma holds_last prefix p l1 area name l2 l : Forall2 (area_pub prefix p) (l1 ++ (area, name) :: l2) l -> ~ In name (map snd l2) ->
  exists t, area_shown p area t /\ holds l (area_state_topic prefix name) (PText t).
Proof.
  intros F NI. apply Forall2_app_inv_l in F as (la & lb & _ & F & ->). inversion F as [|? a ? l' (t & S & ->) F' E1 E2]. subst. cbn [fst snd] in *.
  exists t. split; [exact S|]. apply holds_right. exists AtLeastOnce, [], l'. split; [reflexivity|]. intros q p' HI.
  clear -F' NI HI. induction F' as [|x a xs l (t' & _ & ->) _ IH]; [destruct HI|]. destruct HI as [HI|HI].
  - injection HI as _ H _. apply area_topic_inj in H. apply NI. left. exact H.
  - apply IH; [|exact HI]. intros X. apply NI. right. exact X.
Qed.
Theorem C142_shows_last_partial : forall cl cfg is u name area, bridge_after cl cfg is (Up u) -> last_of cfg name area -> shows_state_of cfg u name area.
Proof.
  intros cl cfg is u name area (HI & E) (l1 & l2 & EA & NI). pose proof (brun_cases cl cfg is HI) as H. rewrite E in H.
  destruct H as (u0 & is1 & is2 & -> & C & _ & _ & E2). apply Forall_app in HI as [_ HI].
  change (exists t, area_shown (u_panel u) area t /\ holds (u_log u) (area_state_topic (topic_prefix cfg) name) (PText t)).
  refine (proj2 (up_ind cl cfg u0 (fun _ u => exists t, area_shown (u_panel u) area t /\ holds (u_log u) (area_state_topic (topic_prefix cfg) name) (PText t)) (came_up_binv _ _ _ C) _ _ is2 u HI E2)).
  - clear -C EA NI. destruct C as (C & E & _). assert (R := connected_reachable _ C). destruct (start_up_ok _ _ _ _ _ R E) as (_ & _ & _ & ld & la & lz & fs & -> & _ & LA & LZ & _).
    rewrite EA in LA. destruct (holds_last _ _ _ _ _ _ _ LA NI) as (t & T1 & T2).
    exists t. split; [exact T1|]. apply holds_right, holds_left; [exact T2|]. apply Forall_app. split; [eapply zone_pubs_quiet; eauto|].
    constructor; [intros (qq & rr & H); discriminate|]. constructor; [|constructor]. intros (q & r & H). injection H as _ H _. symmetry in H. elim (area_avail_topic _ _ H).
  - clear -EA NI. intros is u i u' (t & T1 & T2) (R & RG & _) HO (ops & bs & hd & os & HOps & ER & _ & _ & _ & _ & _ & _ & [[EV EL]|(now & r & w & e & l & EP & Y & EB & EH & EL)]) _.
    + rewrite EL. exists t. split; [|exact T2]. eapply area_shown_same; [|exact T1]. eapply quiet_run; eauto.
    + rewrite EL. assert (R' := reachable_poll _ _ _ _ _ R EP). destruct (handle_event_ok _ _ _ _ _ R' RG EH) as (v & l' & _ & -> & EPs & _).
      destruct (C31_arming_changes_announced _ _ _ _ _ R EP) as (a & a' & A1 & A2 & A3 & _).
      unfold event_pubs in EPs. destruct (e_change e) as [[z s|prior]|] eqn:EC.
      * exists t. split; [apply (area_shown_same (u_panel u)); [|exact T1]|].
        { unfold status_is in *. rewrite A1, A2. f_equal. destruct (report_dec a' a) as [|NE]; [assumption|]. apply A3 in NE as (e' & pr & Y' & EC'). unfold yields in *. congruence. }
        apply holds_left; [exact T2|]. constructor; [apply event_quiet|]. destruct EPs as [(c & x & _ & (t' & _ & ->) & ->)|[_ ->]]; [|constructor].
        constructor; [|constructor]. intros (qq & rr & H). injection H as _ H _. symmetry in H. elim (area_zone_topic _ _ _ H).
      * rewrite EA in EPs. destruct (holds_last _ _ _ _ _ _ _ EPs NI) as (t' & T1' & T2').
        exists t'. split; [exact T1'|]. apply holds_right. apply (holds_right [_]). exact T2'.
      * subst l'. exists t. split; [apply (area_shown_same (u_panel u)); [|exact T1]|].
        { unfold status_is in *. rewrite A1, A2. f_equal. destruct (report_dec a' a) as [|NE]; [assumption|]. apply A3 in NE as (e' & pr & Y' & EC'). unfold yields in *. congruence. }
        apply holds_left; [exact T2|]. constructor; [apply event_quiet | constructor].
Qed.

(* ---- commands are for the first area ---- *)
Lemma requested_first prefix c t pl k : forall as_, requested prefix c as_ t pl = Ok (Some k) ->
  exists l1 area name l2 level, as_ = l1 ++ (area, name) :: l2 /\ ~ In name (map snd l1) /\ t = area_command_topic prefix name /\
    In (pl, level) payload_levels /\ k = CmdArm (mkArmRequest area level c).
Proof.
  induction as_ as [|[area name] as_ IH]; cbn [requested]; intros H; [discriminate|].
  destruct (beq t (area_command_topic prefix name)) eqn:ET; cbn [negb] in H.
  - apply beq_eq in ET. destruct (utf8_valid pl); cbn [negb] in H; [|discriminate].
    assert (G : forall level, (area' <- expect (Area_try_from area) "called `Result::unwrap()` on an `Err` value" ;; Ok (Some (CmdArm (mkArmRequest area' level c)))) = Ok (Some k) ->
       k = CmdArm (mkArmRequest area level c)).
    { intros level E. apply bind_inv in E as (a & E1 & E2). apply expect_ok, limited_spec in E1 as [_ ->]. injection E2 as <-. reflexivity. }
    exists [], area, name, as_.
    destruct (beq pl (B "DISARM")) eqn:E1; [|destruct (beq pl (B "ARM_AWAY")) eqn:E2; [|destruct (beq pl (B "ARM_HOME")) eqn:E3; [|discriminate]]];
      [exists AL_Disarm; apply beq_eq in E1 | exists AL_ArmedAway; apply beq_eq in E2 | exists AL_ArmedStay; apply beq_eq in E3]; subst pl;
      (split; [reflexivity|]; split; [intros []|]; split; [exact ET|]; split; [cbn; tauto | apply G; exact H]).
  - destruct (IH H) as (l1 & a & n & l2 & lv & -> & NI & -> & HL & ->). exists ((area, name) :: l1), a, n, l2, lv. split; [reflexivity|].
    split; [|split; [reflexivity|]; split; [exact HL | reflexivity]]. cbn [map snd In]. intros [X|X]; [|exact (NI X)].
    subst n. rewrite beq_refl in ET. discriminate.
Qed.
Lemma first_asks cfg m c : asks_first cfg m c -> asks cfg m c.
Proof.
  intros (a & n & lv & k & (l1 & l2 & EA & _) & R). exists a, n, lv, k. split; [|exact R]. rewrite EA. apply in_app_iff. right. left. reflexivity.
Qed.
(* a step, with what was asked for known to be for the first area of its name *)
Lemma moved_first cl cfg u i u' handled os (acc : list Command) : binv cl cfg u -> bstep cl cfg (Up u) i = Up u' ->
  u_rx u ++ mqtt_in [i] = handled ++ u_rx u' -> Forall2 (asked cfg) handled os -> waiting u ++ catMaybes os = acc ++ waiting u' ->
  Forall2 (asked_first cfg) handled os.
Proof.
  intros (R & RG & DC & AC & WF) E EX F EW.
  assert (QUIET : u_rx u' = u_rx u ++ mqtt_in [i] -> Forall2 (asked_first cfg) handled os).
  { intros X. rewrite X in EX. assert (handled = []) as -> by (apply (f_equal (@length _)) in EX; rewrite !app_length in EX; destruct handled; [reflexivity | cbn [length] in EX; lia]).
    inversion F; subst. constructor. }
  destruct i as [a|t pl| |now ws|now| |ws]; cbn [bstep] in E.
  - injection E as <-. apply QUIET. symmetry. apply app_nil_r.
  - injection E as <-. apply QUIET. reflexivity.
  - discriminate.
  - injection E as <-. apply QUIET. symmetry. apply app_nil_r.
  - apply QUIET. rewrite app_nil_r. destruct (u_mode u) as [|c|] eqn:EM; try (injection E as <-; reflexivity).
    destruct (poll_next now (u_panel u)) as [[[p r] w]|er|why]; try discriminate. destruct r as [|[[e|er]|]]; try discriminate.
    + injection E as <-. reflexivity.
    + unfold settle in E. destruct (handle_event cl cfg p e) as [l [[]|er|why]]; try discriminate. injection E as <-. reflexivity.
  - destruct (u_mode u) as [|c|] eqn:EM; try (injection E as <-; apply QUIET; symmetry; apply app_nil_r).
    destruct (u_rx u) as [|[t pl] rx] eqn:ER; [injection E as <-; apply QUIET; rewrite ER; reflexivity|].
    pose proof (requested_spec cfg (u_code u) t pl RG DC) as H. pose proof (requested_first (topic_prefix cfg) (u_code u) t pl) as Q.
    destruct (requested _ _ _ t pl) as [o|er|why] eqn:EQ; try discriminate. destruct H as (H1 & _ & _).
    assert (G : u_rx u' = rx /\ waiting u' = match o with Some c => [c] | None => [] end) by (destruct o; injection E as <-; split; reflexivity).
    destruct G as [G1 G2]. rewrite G1 in EX. unfold mqtt_in in EX. cbn [map catMaybes] in EX. rewrite app_nil_r in EX.
    assert (handled = [(t, pl)]) as ->.
    { change ([(t, pl)] ++ rx = handled ++ rx) in EX. apply app_inv_tail in EX. symmetry. exact EX. }
    inversion F as [|? o' ? os' F1 F2 X1 X2]. subst. inversion F2. subst. apply Forall2_cons; [|apply Forall2_nil].
    unfold waiting at 1 in EW. rewrite EM, G2 in EW. cbn [app catMaybes] in EW. destruct o as [c|], o' as [c'|].
    + destruct acc as [|x acc]; [|destruct acc; discriminate EW]. injection EW as ->.
      destruct (Q c (areas cfg) EQ) as (l1 & area & name & l2 & level & EA & NI & -> & HL & ->).
      exists area, name, level, (u_code u). split; [exists l1, l2; split; [exact EA | exact NI]|]. split; [reflexivity|]. split; [exact HL|]. split; [exact DC | reflexivity].
    + destruct acc; discriminate EW.
    + elim (H1 c' F1).
    + exact F1.
  - destruct (u_mode u) as [|c|] eqn:EM.
    + injection E as <-. apply QUIET. symmetry. apply app_nil_r.
    + apply QUIET. rewrite app_nil_r. destruct (poll_ready TASK ws (u_panel u)) as [p r]. destruct r as [|[[]|er]]; try discriminate.
      * injection E as <-. reflexivity.
      * destruct (start_send c p) as [p'|er|why]; try discriminate.
        destruct (send_flush_moves _ _ _ E) as [(er & Hb)|(u2 & r & Hb & _ & _ & H3 & _)]; [discriminate|]. injection Hb as ->. exact H3.
    + apply QUIET. rewrite app_nil_r. destruct (send_flush_moves _ _ _ E) as [(er & Hb)|(u2 & r & Hb & _ & _ & H3 & _)]; [discriminate|]. injection Hb as ->. exact H3.
Qed.
Theorem C142_sent_to_first_partial : forall cl cfg is1 u1 is2 u2,
  bridge_after cl cfg is1 (Up u1) -> bridge_after cl cfg (is1 ++ is2) (Up u2) -> sent_to_first cfg is2 u1 u2.
Proof.
  intros cl cfg is1 u1 is2 u2 A1 A2. destruct (bridge_between _ _ _ _ _ _ A1 A2) as [BI _]. destruct A1 as (H1 & E1), A2 as (H2 & E2).
  apply Forall_app in H2 as [_ H2]. unfold brun in E2. rewrite fold_left_app in E2. change (fold_left (bstep cl cfg) is2 (brun cl cfg is1) = Up u2) in E2. rewrite E1 in E2.
  set (P := fun is u => exists ops bs handled os, Forall op_ok ops /\ run (u_panel u1) ops = Ok (u_panel u, bs) /\
    u_rx u1 ++ mqtt_in is = handled ++ u_rx u /\ Forall2 (asked_first cfg) handled os /\ waiting u1 ++ catMaybes os = accepted ops ++ waiting u).
  assert (K : P is2 u2).
  { refine (proj2 (up_ind cl cfg u1 P BI _ _ is2 u2 H2 E2)).
    - exists [], [], [], []. cbn. rewrite !app_nil_r. repeat split; auto.
    - clear. intros is u i u' (ops & bs & hd & os & H1 & H2 & H5 & H6 & H7) BI HI (ops' & bs' & hd' & os' & K1 & K2 & K3 & K4 & K5 & K6 & K7 & _) E.
      exists (ops ++ ops'), (bs ++ bs'), (hd ++ hd'), (os ++ os'). split; [apply Forall_app; auto|].
      split; [rewrite run_app, H2; cbn [bind]; rewrite K2; reflexivity|].
      split; [rewrite mqtt_in_app, app_assoc, H5, <- !app_assoc, K5; reflexivity|].
      split; [apply Forall2_app; [exact H6 | exact (moved_first _ _ _ _ _ _ _ _ BI E K5 K6 K7)]|].
      rewrite catMaybes_app, app_assoc, H7, accepted_app, <- !app_assoc, K7. reflexivity. }
  destruct K as (ops & bs & hd & os & K1 & K2 & K3 & K4 & K5). destruct BI as (R & _). destruct (reachable_inv _ R) as [I _].
  destruct (wire_run _ _ _ _ I K1 K2) as (fs & F1 & F2). exists hd, os, (accepted ops), fs. auto.
Qed.
(* which command that is, is never in doubt, whatever the names *)
Lemma first_fun cfg name a a' : first_of cfg name a -> first_of cfg name a' -> a = a'.
Proof.
  intros (l1 & l2 & E & N1) (l1' & l2' & E' & N2). rewrite E in E'. clear E. revert l1' E' N1 N2. induction l1 as [|x l1 IH]; intros [|x' l1'] E N1 N2.
  - injection E as -> _. reflexivity.
  - injection E as <- _. elim N2. left. reflexivity.
  - injection E as -> _. elim N1. left. reflexivity.
  - injection E as <- E. apply (IH l1' E); [intros X; apply N1; right; exact X | intros X; apply N2; right; exact X].
Qed.
Theorem C142_one_command : forall cfg m c c', asks_first cfg m c -> asks_first cfg m c' -> c = c'.
Proof.
  intros cfg m c c' (a & n & l & k & H1 & H2 & H3 & V & ->) (a' & n' & l' & k' & H1' & H2' & H3' & V' & ->).
  rewrite H2 in H2'. apply (command_topic_inj (topic_prefix cfg)) in H2'. subst n'. rewrite (first_fun _ _ _ _ H1 H1'), (dec_canon_fun _ _ _ _ V V'). repeat f_equal.
  cbn in H3, H3'. intuition congruence.
Qed.

(* ---- so with two areas of a name these differ, and without they do not ---- *)
Lemma name_split (l : list (N * bytes)) name : In name (map snd l) ->
  (exists a l1 l2, l = l1 ++ (a, name) :: l2 /\ ~ In name (map snd l1)) /\ (exists a l1 l2, l = l1 ++ (a, name) :: l2 /\ ~ In name (map snd l2)).
Proof.
  induction l as [|[a n] l IH]; [intros []|]. cbn [map snd In]. intros H.
  assert (D : n = name \/ n <> name) by (destruct (beq n name) eqn:E; [left; apply beq_eq; exact E | right; intros ->; rewrite beq_refl in E; discriminate]).
  assert (D2 : In name (map snd l) \/ ~ In name (map snd l)).
  { destruct (in_dec (list_eq_dec N.eq_dec) name (map snd l)); auto. }
  split.
  - destruct D as [->|NE]; [exists a, [], l; split; [reflexivity | intros []]|]. destruct H as [H|H]; [elim (NE H)|].
    destruct (IH H) as [(a' & l1 & l2 & -> & NI) _]. exists a', ((a, n) :: l1), l2. split; [reflexivity|]. cbn [map snd In]. intros [X|X]; [exact (NE X) | exact (NI X)].
  - destruct D2 as [H2|H2].
    + destruct (IH H2) as [_ (a' & l1 & l2 & -> & NI)]. exists a', ((a, n) :: l1), l2. split; [reflexivity | exact NI].
    + destruct H as [->|H]; [|elim (H2 H)]. exists a, [], l. split; [reflexivity | exact H2].
Qed.
Lemma first_is_last (l : list (N * bytes)) name f l1 l2 l1' l2' a b : l = l1 ++ (f, name) :: l2 -> ~ In name (map snd l1) ->
  l = l1' ++ (f, name) :: l2' -> ~ In name (map snd l2') -> NoDup (map fst l) -> In (a, name) l -> In (b, name) l -> a = b.
Proof.
  intros E1 N1 E2 N2 ND HA HB.
  assert (S : forall x, In (x, name) l -> x = f).
  { intros x HX. assert (EQ : l1 = l1').
    { rewrite E1 in E2, ND. clear -E2 ND. revert l1' E2. induction l1 as [|y l1 IH]; intros [|y' l1'] E.
      - reflexivity.
      - cbn [app] in E. injection E as E3 E4. subst y'. cbn [map fst app] in ND. inversion ND as [|? ? X _]. elim X. rewrite E4, map_app. apply in_app_iff. right. left. reflexivity.
      - cbn [app] in E. injection E as E3 E4. subst y. cbn [map fst app] in ND. inversion ND as [|? ? X _]. elim X. rewrite map_app. apply in_app_iff. right. left. reflexivity.
      - cbn [app] in E. injection E as -> E. f_equal. apply IH; [|exact E]. cbn [map app] in ND. inversion ND. assumption. }
    subst l1'. rewrite E2 in HX. apply in_app_iff in HX as [HX|[HX|HX]].
    - elim N1. apply in_map_iff. exists (x, name). split; [reflexivity | exact HX].
    - injection HX as <-. reflexivity.
    - elim N2. apply in_map_iff. exists (x, name). split; [reflexivity | exact HX]. }
  rewrite (S a HA), (S b HB). reflexivity.
Qed.
(* Whenever two areas have the same name: what is shown is the state of another area than the one that all commands go to. *)
Theorem C142_other_area_refuted : forall cl cfg is u name a b, bridge_after cl cfg is (Up u) -> cfg_ok cfg ->
  In (a, name) (areas cfg) -> In (b, name) (areas cfg) -> a <> b ->
  exists f l, f <> l /\ shows_state_of cfg u name l /\
    forall pl level, In (pl, level) payload_levels -> exists code',
      forall c, asks_first cfg (topic_prefix cfg ++ B "/area/" ++ name ++ B "/ha_command", pl) c <-> c = CmdArm (mkArmRequest f level code').
Proof.
  intros cl cfg is u name a b A ((CK & _) & _) HA HB NE.
  assert (IN : In name (map snd (areas cfg))) by (apply in_map_iff; exists (a, name); split; [reflexivity | exact HA]).
  destruct (name_split _ _ IN) as [(f & l1 & l2 & E1 & N1) (l & l1' & l2' & E2 & N2)]. exists f, l.
  split; [intros <-; apply NE; exact (first_is_last _ _ _ _ _ _ _ _ _ E1 N1 E2 N2 CK HA HB)|].
  split; [apply (C142_shows_last_partial cl cfg is u name l A); exists l1', l2'; split; [exact E2 | exact N2]|].
  intros pl level HL. destruct (bridge_binv _ _ _ _ A) as (_ & _ & DC & _). exists (u_code u).
  assert (Q : asks_first cfg (topic_prefix cfg ++ B "/area/" ++ name ++ B "/ha_command", pl) (CmdArm (mkArmRequest f level (u_code u)))).
  { exists f, name, level, (u_code u). split; [exists l1, l2; split; [exact E1 | exact N1]|]. split; [reflexivity|]. split; [exact HL|]. split; [exact DC | reflexivity]. }
  intros c. split; [intros H; exact (C142_one_command _ _ _ _ H Q) | intros ->; exact Q].
Qed.
(* With distinct names, every area is shown under its name and is the one that commands on that name are for. *)
Theorem C142_same_area_partial : forall cl cfg is u area name, bridge_after cl cfg is (Up u) -> distinct_area_names cfg -> In (area, name) (areas cfg) ->
  shows_state_of cfg u name area /\
  forall c pl, asks_first cfg (topic_prefix cfg ++ B "/area/" ++ name ++ B "/ha_command", pl) c ->
    exists level code', In (pl, level) payload_levels /\ dec_canon 6 (code cfg) code' /\ c = CmdArm (mkArmRequest area level code').
Proof.
  intros cl cfg is u area name A D HI. split; [exact (C48_area_topics_match cl cfg is u area name A D HI)|].
  intros c pl (a & n & lv & k & (l1 & l2 & EA & _) & ET & HL & DC & ->). cbn [fst snd] in *. apply (command_topic_inj (topic_prefix cfg)) in ET. subst n.
  exists lv, k. split; [exact HL|]. split; [exact DC|]. f_equal. f_equal. apply (name_unique (fun x => x) (areas cfg) a area name name D); [|exact HI | reflexivity].
  rewrite EA. apply in_app_iff. right. left. reflexivity.
Qed.

(* Two areas called house, of which the first has been armed: house is shown as disarmed, and ARM_AWAY and DISARM go to the first. *)
Definition ex_twins : Cfg := mkCfg (B "0001") 1234 [(1, B "house"); (2, B "house")] [] None None.
Definition ex_twins_in : list input := [NetArrive (Bytes (bytes_of (MArmingStatusReport ex_arming))); PollPanel 7].
Definition ex_twins_do : list input := [MqttArrive (B "elkm1/0001/area/house/ha_command") (B "DISARM"); PollRx].
Definition ex_twins_up : up := Eval vm_compute in up_of (brun ex_cl ex_twins (ex_start ++ ex_twins_in)).
Definition ex_twins_up2 : up := Eval vm_compute in up_of (brun ex_cl ex_twins ((ex_start ++ ex_twins_in) ++ ex_twins_do)).
Example C142_example :
  bridge_after ex_cl ex_twins (ex_start ++ ex_twins_in) (Up ex_twins_up) /\
  bridge_after ex_cl ex_twins ((ex_start ++ ex_twins_in) ++ ex_twins_do) (Up ex_twins_up2) /\
  cfg_ok ex_twins /\ first_of ex_twins (B "house") 1 /\ last_of ex_twins (B "house") 2 /\
  panel_arming_status (u_panel ex_twins_up) = Ok ex_arming /\
  ha_area_state ex_arming 1 = Ok (B "arming") /\ ha_area_state ex_arming 2 = Ok (B "disarmed") /\
  holds (u_log ex_twins_up) (B "elkm1/0001/area/house/ha_state") (PText (B "disarmed")) /\
  waiting ex_twins_up2 = [CmdArm (mkArmRequest 1 AL_Disarm (B "001234"))] /\
  (* C142_same_area_partial *)
  bridge_after ex_cl ex_cfg ex_start (Up ex_up) /\ distinct_area_names ex_cfg /\ In (1, B "house") (areas ex_cfg).
Proof.
  assert (OK : Forall input_ok ex_twins_in).
  { apply Forall_cons; [|apply Forall_cons; [exact Logic.I | apply Forall_nil]]. cbn [input_ok arrival_u8].
    assert (X : forallb (fun b => b <? 256) (bytes_of (MArmingStatusReport ex_arming)) = true) by (vm_compute; reflexivity).
    apply Forall_forall. intros b Hb. rewrite forallb_forall in X. apply N.ltb_lt. exact (X b Hb). }
  assert (A : bridge_after ex_cl ex_twins (ex_start ++ ex_twins_in) (Up ex_twins_up)).
  { split; [apply Forall_app; split; [exact ex_start_ok | exact OK]|]. vm_compute. reflexivity. }
  assert (L : last_of ex_twins (B "house") 2) by (exists [(1, B "house")], []; split; [reflexivity | intros []]).
  split; [exact A|]. split.
  { split; [apply Forall_app; split; [apply Forall_app; split; [exact ex_start_ok | exact OK] | repeat (apply Forall_cons; [exact Logic.I|]); apply Forall_nil]|]. vm_compute. reflexivity. }
  split.
  { split; split; cbn; repeat constructor; cbn; lia. }
  split; [exists [], [(2, B "house")]; split; [reflexivity | intros []]|]. split; [exact L|].
  split; [vm_compute; reflexivity|]. split; [vm_compute; reflexivity|]. split; [vm_compute; reflexivity|].
  split.
  { exists AtLeastOnce, (removelast (u_log ex_twins_up)), []. split; [vm_compute; reflexivity | intros q p []]. }
  split; [vm_compute; reflexivity|]. split; [exact ex_up_after|]. split; [repeat constructor; intros []|left; reflexivity].
Qed.

Print Assumptions C142_shows_last_partial.
Print Assumptions C142_sent_to_first_partial.
Print Assumptions C142_one_command.
Print Assumptions C142_other_area_refuted.
Print Assumptions C142_same_area_partial.
