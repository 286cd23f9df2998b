(* MqttFacts.v: facts about the bridge, for PropMqtt.v. *)
From Verif Require Import Base BaseFacts Pkt SpecPkt PktFacts DecodeFacts Msg SpecMsg DecFacts MsgFacts WireFacts IsoFacts
  Tokio SpecConn ConnFacts State SpecState StateFacts RunFacts HistFacts ViewFacts ExState PropMsg PropState PropSink Serde SerdeFacts PropSerde Mqtt SpecMqtt.
From Coq Require Import ZifyBool ZifyNat ZifyN.
Ltac Zify.zify_post_hook ::= Z.div_mod_to_equations.

(* ---- the out monad ---- *)
Lemma obind_ok {A C} (m : out A) (f : A -> out C) l c :
  obind m f = (l, Ok c) <-> exists l1 a l2, m = (l1, Ok a) /\ f a = (l2, Ok c) /\ l = l1 ++ l2.
Proof.
  destruct m as [l1 [a|e|w]]; cbn.
  - destruct (f a) as [l2 r] eqn:E. split.
    + intros [= <- ->]. exists l1, a, l2. auto.
    + intros (l1' & a' & l2' & [= <- <-] & E' & ->). rewrite E in E'. injection E' as -> ->. reflexivity.
  - split; [discriminate | intros (? & ? & ? & [=] & _)].
  - split; [discriminate | intros (? & ? & ? & [=] & _)].
Qed.
Lemma lift_ok {A} (m : res A) l a : lift m = (l, Ok a) <-> l = [] /\ m = Ok a.
Proof. unfold lift. split; [intros [= <- ->]; auto | intros [-> ->]; reflexivity]. Qed.
Lemma each_ok {A} (f : A -> out unit) xs : forall l, each f xs = (l, Ok tt) <-> exists ls, Forall2 (fun x l => f x = (l, Ok tt)) xs ls /\ l = concat ls.
Proof.
  induction xs as [|x xs IH]; intros l; cbn [each].
  - split; [intros [= <-]; exists []; auto | intros (ls & F & ->); inversion F; reflexivity].
  - rewrite obind_ok. split.
    + intros (l1 & [] & l2 & E1 & E2 & ->). apply IH in E2 as (ls & F & ->). exists (l1 :: ls). auto.
    + intros (ls & F & ->). inversion F as [|? l1 ? ls' E1 F']; subst. exists l1, tt, (concat ls'). split; [exact E1|]. split; [|reflexivity].
      apply IH. eauto.
Qed.
Lemma publish_ok cl q t r p l x : publish cl q t r p = (l, Ok x) <-> topic_ok cl t = true /\ l = [APublishQ q t r p].
Proof. unfold publish. destruct x, (topic_ok cl t); split; try intros [= <-]; try intros [? ->]; auto; discriminate. Qed.
Lemma expect_ok {A} (m : res A) w a : expect m w = Ok a <-> m = Ok a.
Proof. destruct m; cbn; split; congruence. Qed.
(* what an out produces when every publish is a single request *)
Lemma each_single {A} (f : A -> out unit) (P : A -> action -> Prop) xs l :
  (forall x l, In x xs -> f x = (l, Ok tt) -> exists a, l = [a] /\ P x a) -> each f xs = (l, Ok tt) -> Forall2 P xs l.
Proof.
  intros H E. apply each_ok in E as (ls & F & ->). revert H. induction F as [|x l xs ls Ex F IH]; intros H; [constructor|].
  destruct (H x l (or_introl eq_refl) Ex) as (a & -> & Pa). cbn. constructor; [exact Pa|]. apply IH. intros y k Hy. apply H. right. exact Hy.
Qed.
Lemma each_all {A} (f : A -> out unit) xs : (forall x, In x xs -> exists l, f x = (l, Ok tt)) -> exists l, each f xs = (l, Ok tt).
Proof.
  induction xs as [|x xs IH]; intros H; [eexists; reflexivity|]. destruct (H x (or_introl eq_refl)) as (l & E).
  destruct IH as (l' & E'); [intros y Hy; apply H; right; exact Hy|]. exists (l ++ l'). cbn. rewrite E. cbn. rewrite E'. reflexivity.
Qed.

(* ---- topics ---- *)
Lemma area_topic_inj p n n' : area_state_topic p n = area_state_topic p n' -> n = n'.
Proof. unfold area_state_topic. intros H. apply app_inv_head in H. apply app_inv_head in H. apply app_inv_tail in H. exact H. Qed.
Lemma zone_topic_inj p n n' : zone_state_topic p n = zone_state_topic p n' -> n = n'.
Proof. unfold zone_state_topic. intros H. apply app_inv_head in H. apply app_inv_head in H. apply app_inv_tail in H. exact H. Qed.
Lemma command_topic_inj p n n' : area_command_topic p n = area_command_topic p n' -> n = n'.
Proof. unfold area_command_topic. intros H. apply app_inv_head in H. apply app_inv_head in H. apply app_inv_tail in H. exact H. Qed.
Lemma area_zone_topic p n n' : area_state_topic p n <> zone_state_topic p n'.
Proof. unfold area_state_topic, zone_state_topic. intros H. apply app_inv_head in H. discriminate. Qed.
Lemma area_avail_topic p n : area_state_topic p n <> availability_topic p.
Proof. unfold area_state_topic, availability_topic. intros H. apply app_inv_head in H. discriminate. Qed.
Lemma zone_avail_topic p n : zone_state_topic p n <> availability_topic p.
Proof. unfold zone_state_topic, availability_topic. intros H. apply app_inv_head in H. discriminate. Qed.

(* ---- retained values ---- *)
Definition touches (t : bytes) (a : action) : Prop := exists q p, a = APublishQ q t true p.
Lemma holds_right l1 l2 t p : holds l2 t p -> holds (l1 ++ l2) t p.
Proof. intros (q & a & b & -> & H). exists q, (l1 ++ a), b. rewrite app_assoc. auto. Qed.
Lemma holds_left l1 l2 t p : holds l1 t p -> Forall (fun a => ~ touches t a) l2 -> holds (l1 ++ l2) t p.
Proof.
  intros (q0 & a & b & -> & H) F. exists q0, a, (b ++ l2). rewrite <- app_assoc. split; [reflexivity|]. intros q p' Hin.
  apply in_app_iff in Hin as [Hin|Hin]; [elim (H _ _ Hin)|]. rewrite Forall_forall in F. apply (F _ Hin). do 2 eexists. reflexivity.
Qed.
Lemma holds_fun l t p p' : holds l t p -> holds l t p' -> p = p'.
Proof.
  intros (q & a & b & -> & H) (q' & a' & b' & E & H'). revert a' E. induction a as [|x a IH]; intros a' E.
  - destruct a' as [|y a']; [injection E as _ -> _; reflexivity|]. injection E as <- E. elim (H q' p'). rewrite E. apply in_elt.
  - destruct a' as [|y a']; [injection E as -> E; elim (H' q p); rewrite <- E; apply in_elt|]. injection E as <- E. eauto.
Qed.
Lemma holds_each {A} (f : A -> bytes) (P : A -> bytes -> Prop) xs l x :
  Forall2 (fun x a => exists s, P x s /\ a = APublish (f x) true (PText s)) xs l -> NoDup (map f xs) -> In x xs ->
  exists s, P x s /\ holds l (f x) (PText s).
Proof.
  intros F. induction F as [|y a xs l (s & Py & ->) F IH]; intros ND Hin; [destruct Hin|]. inversion ND as [|? ? NI ND']; subst.
  destruct Hin as [->|Hin].
  - exists s. split; [exact Py|]. exists AtLeastOnce, [], l. split; [reflexivity|]. intros q p' Hp. apply NI. clear -F Hp.
    induction F as [|y a xs l (s' & _ & ->) F IH]; [destruct Hp|]. destruct Hp as [Hp|Hp]; [injection Hp as _ E1 _; left; exact E1 | right; auto].
  - destruct (IH ND' Hin) as (s' & Q & H). exists s'. split; [exact Q|]. apply (holds_right [_]). exact H.
Qed.
Lemma some_held l t q0 p : In (APublishQ q0 t true p) l -> exists q p', holds l t p' /\ In (APublishQ q t true p') l.
Proof.
  induction l as [|a l IH] using rev_ind; intros H; [destruct H|].
  assert (D : touches t a \/ ~ touches t a).
  { destruct a as [q' t' [] p'|q' fs]; [|right; intros (q & r & Hq); discriminate|right; intros (q & r & Hq); discriminate]. destruct (list_eq_dec N.eq_dec t' t) as [->|NE]; [left; do 2 eexists; reflexivity|].
    right. intros (q & r & Hq). congruence. }
  destruct D as [(q & r & ->)|N].
  - exists q, r. split; [|apply in_app_iff; right; left; reflexivity]. exists q, l, []. split; [reflexivity|]. intros q' p' [].
  - apply in_app_iff in H as [H|[H|[]]]; [|elim N; do 2 eexists; exact H]. destruct (IH H) as (q' & p' & H1 & H2). exists q', p'. split; [|apply in_app_iff; auto].
    apply holds_left; auto.
Qed.

(* ---- states ---- *)
Lemma is_alarm_dec a : {is_alarm a /\ a <> AA_FireAlarm} + {~ (is_alarm a /\ a <> AA_FireAlarm)}.
Proof. destruct (is_firing a) eqn:E; [left; apply C23_is_firing_partial; exact E | right; intros H; apply C23_is_firing_partial in H; congruence]. Qed.
Lemma ha_area_state_spec r area : as_ok r -> area_ok area ->
  exists s u a t, area_in r area s u a /\ ha_area_state r area = Ok t /\ shows_area s u a t.
Proof.
  intros (L1 & L2 & L3 & _) H. unfold area_ok in H.
  assert (G : forall {A} (l : list A), length l = 8%nat -> exists x, nth_error l (N.to_nat (area - 1)) = Some x).
  { intros A l L. destruct (nth_error l (N.to_nat (area - 1))) eqn:E; [eauto|]. apply nth_error_None in E. lia. }
  destruct (G _ _ L1) as (s & Es), (G _ _ L2) as (u & Eu), (G _ _ L3) as (a & Ea).
  exists s, u, a. unfold ha_area_state, area_in. rewrite to_index_ok by (unfold zone_ok; lia). cbn [bind]. unfold index.
  rewrite Es, Eu, Ea. cbn [bind]. unfold shows_area, shows_area_if.
  destruct (is_firing a) eqn:EF.
  - exists (B "triggered"). split; [auto|]. split; [reflexivity|]. left. split; [apply C23_is_firing_partial; exact EF | reflexivity].
  - assert (NF : ~ (is_alarm a /\ a <> AA_FireAlarm)) by (intros H'; apply C23_is_firing_partial in H'; congruence).
    destruct (AlarmState_eqb a AA_AlarmAbortDelayActive) eqn:EA.
    + exists (B "pending"). split; [auto|]. split; [reflexivity|]. right; left. split; [destruct a; try discriminate; reflexivity | reflexivity].
    + assert (NA : a <> AA_AlarmAbortDelayActive) by (intros ->; discriminate). destruct (ArmUpState_eqb u AU_ArmedWithExitTimer) eqn:EU.
      * exists (B "arming"). split; [auto|]. split; [reflexivity|]. right; right; left. repeat split; auto. destruct u; try discriminate; reflexivity.
      * eexists. split; [auto|]. split; [reflexivity|]. right; right; right. split; [exact NF|]. split; [exact NA|]. split; [intros ->; discriminate|].
        destruct s; cbn; tauto.
Qed.
Lemma shows_area_fun s u a t t' : shows_area s u a t -> shows_area s u a t' -> t = t'.
Proof.
  assert (M : In (s, t) mode_names -> In (s, t') mode_names -> t = t').
  { cbn. intros H H'. repeat (destruct H as [H|H]; [injection H as <- <-; repeat (destruct H' as [H'|H']; [congruence|]); destruct H'|]). destruct H. }
  assert (Q : a = AA_AlarmAbortDelayActive -> ~ is_alarm a) by (intros -> H; apply H; cbn; auto).
  unfold shows_area, shows_area_if. intros [H|[H|[H|H]]] [H'|[H'|[H'|H']]]; try tauto; try (destruct H as (? & ->), H' as (? & ->)); try tauto; intuition congruence.
Qed.
Lemma ha_zone_state_spec s : s < 16 -> exists t, ha_zone_state s = Ok t /\ shows_zone s t.
Proof.
  intros H. assert (E : s = 0 \/ s = 1 \/ s = 2 \/ s = 3 \/ s = 4 \/ s = 5 \/ s = 6 \/ s = 7 \/ s = 8 \/ s = 9 \/ s = 10
    \/ s = 11 \/ s = 12 \/ s = 13 \/ s = 14 \/ s = 15) by lia.
  unfold shows_zone. repeat destruct E as [-> | E]; try subst s; eexists; (split; [reflexivity|]); cbn; tauto.
Qed.
Lemma shows_zone_fun s t t' : shows_zone s t -> shows_zone s t' -> t = t'.
Proof.
  unfold shows_zone. cbn [In]. generalize (s / 4). intros v H H'.
  repeat (destruct H as [H|H]; [injection H as <- <-; repeat (destruct H' as [H'|H']; [congruence|]); destruct H'|]). destruct H.
Qed.

(* ---- panels ---- *)
Lemma reachable_status p : reachable p -> exists r, status_is p r /\ as_ok r.
Proof.
  intros R. destruct (reachable_inv _ R) as [(_ & _ & _ & A & _) [(r & U) _]]. exists r. split; [apply status_some; exact U|].
  unfold arming_ok in A. rewrite U in A. apply A.
Qed.
Lemma reachable_zones p : reachable p -> exists zs, panel_zone_statuses p = Ok zs /\ zones_ok zs.
Proof.
  intros R. destruct (reachable_inv _ R) as [(_ & _ & Z & _ & _) [_ (zs & U)]]. exists zs. split; [apply zones_some; exact U | auto].
Qed.
Definition area_pub (prefix : bytes) (p : Panel) (x : N * bytes) (a : action) : Prop :=
  exists t, area_shown p (fst x) t /\ a = APublish (area_state_topic prefix (snd x)) true (PText t).
Definition zone_pub (prefix : bytes) (p : Panel) (x : N * ZoneCfg) (a : action) : Prop :=
  exists t, zone_shown p (fst x) t /\ a = APublish (zone_state_topic prefix (z_name (snd x))) true (PText t).
Lemma limited_panic max n w : expect (limited_try_from max n) w = Ok n <-> 1 <= n <= max.
Proof. rewrite expect_ok, limited_spec. tauto. Qed.

Lemma areas_published cl p prefix as_ l : reachable p -> publish_area_states cl p prefix as_ = (l, Ok tt) ->
  Forall (fun x => area_ok (fst x) /\ topic_ok cl (area_state_topic prefix (snd x)) = true) as_ /\ Forall2 (area_pub prefix p) as_ l.
Proof.
  intros R E. destruct (reachable_status _ R) as (r & S & AO).
  assert (K : Forall2 (fun x a => area_ok (fst x) /\ topic_ok cl (area_state_topic prefix (snd x)) = true /\ area_pub prefix p x a) as_ l).
  { refine (each_single _ _ _ _ _ E). clear E. intros [n name] l' _ E.
    apply obind_ok in E as (l1 & a & l2 & E1 & E & ->). apply lift_ok in E1 as [-> E1]. apply expect_ok, limited_spec in E1 as [E1 ->].
    apply obind_ok in E as (l1 & r' & l3 & E2 & E & ->). apply lift_ok in E2 as [-> E2]. unfold status_is in S. rewrite S in E2. injection E2 as <-.
    apply obind_ok in E as (l1 & t & l2 & E3 & E & ->). apply lift_ok in E3 as [-> E3].
    apply publish_ok in E as [E ->]. cbn [fst snd app]. eexists. split; [reflexivity|]. split; [exact E1|]. split; [exact E|].
    destruct (ha_area_state_spec r n AO E1) as (s & u & a & t' & H1 & H2 & H3). exists t. split; [|reflexivity].
    exists r, s, u, a. cbn [fst]. split; [exact S|]. split; [exact H1|]. congruence. }
  clear E. split; (induction K as [|x a xs l' (K1 & K2 & K3) K IH]; constructor; auto).
Qed.
Lemma areas_publish cl p prefix as_ : reachable p ->
  Forall (fun x => area_ok (fst x) /\ topic_ok cl (area_state_topic prefix (snd x)) = true) as_ -> exists l, publish_area_states cl p prefix as_ = (l, Ok tt).
Proof.
  intros R F. destruct (reachable_status _ R) as (r & S & AO). apply each_all. intros [n name] Hin. rewrite Forall_forall in F.
  destruct (F _ Hin) as [F1 F2]. cbn [fst snd] in *. unfold Area_try_from. rewrite (proj2 (limited_panic Area_MAX n _) F1). cbn [lift obind].
  unfold status_is in S. rewrite S. cbn [lift obind]. destruct (ha_area_state_spec r n AO F1) as (s & u & a & t' & H1 & -> & H3). cbn [lift obind].
  unfold publish. rewrite F2. eexists. reflexivity.
Qed.
Lemma zone_published cl p prefix z c l : reachable p -> zone_ok z -> publish_zone_state cl p prefix z c = (l, Ok tt) ->
  topic_ok cl (zone_state_topic prefix (z_name c)) = true /\ exists a, l = [a] /\ zone_pub prefix p (z, c) a.
Proof.
  intros R Z E. destruct (reachable_zones _ R) as (zs & S & L & F). unfold publish_zone_state in E.
  apply obind_ok in E as (l1 & zs' & l2 & E1 & E & ->). apply lift_ok in E1 as [-> E1]. rewrite S in E1. injection E1 as <-.
  apply obind_ok in E as (l1 & i & l3 & E2 & E & ->). apply lift_ok in E2 as [-> E2]. rewrite to_index_ok in E2 by exact Z. injection E2 as <-.
  apply obind_ok in E as (l1 & s & l2 & E3 & E & ->). apply lift_ok in E3 as [-> E3].
  apply obind_ok in E as (l1 & t & l3 & E4 & E & ->). apply lift_ok in E4 as [-> E4].
  apply publish_ok in E as [E ->]. split; [exact E|]. eexists. split; [reflexivity|]. exists t. split; [|reflexivity].
  unfold index in E3. destruct (nth_error zs (N.to_nat (z - 1))) as [s'|] eqn:EN; [|discriminate]. injection E3 as <-.
  exists s'. split; [exists zs; auto|]. rewrite Forall_forall in F. destruct (ha_zone_state_spec s') as (t' & H1 & H2); [apply F; eapply nth_error_In; eauto|]. congruence.
Qed.
Lemma zone_publish cl p prefix z c : reachable p -> zone_ok z -> topic_ok cl (zone_state_topic prefix (z_name c)) = true ->
  exists l, publish_zone_state cl p prefix z c = (l, Ok tt).
Proof.
  intros R Z T. destruct (reachable_zones _ R) as (zs & S & L & F). unfold publish_zone_state. rewrite S. cbn [lift obind].
  rewrite to_index_ok by exact Z. cbn [lift obind]. unfold index. destruct (nth_error zs (N.to_nat (z - 1))) as [s|] eqn:EN.
  - cbn [lift obind]. rewrite Forall_forall in F. destruct (ha_zone_state_spec s) as (t' & -> & H2); [apply F; eapply nth_error_In; eauto|]. cbn [lift obind].
    unfold publish. rewrite T. eexists. reflexivity.
  - apply nth_error_None in EN. unfold zone_ok in Z. lia.
Qed.

(* ---- start-up ---- *)
Definition area_disc (prefix ha : bytes) (cfg : Cfg) (x : N * bytes) (a : action) : Prop :=
  a = APublish (ha ++ B "/alarm_control_panel/" ++ area_unique_id cfg (fst x) ++ B "/config") true (PJson (area_discovery_json prefix cfg (fst x) (snd x))).
Definition zone_disc (prefix ha : bytes) (cfg : Cfg) (x : N * ZoneCfg) (a : action) : Prop :=
  a = APublish (ha ++ B "/binary_sensor/" ++ zone_unique_id cfg (fst x) ++ B "/config") true (PJson (zone_discovery_json prefix cfg (fst x) (snd x))).
Definition discovery (cfg : Cfg) (l : list action) : Prop :=
  match ha_discovery_prefix cfg with
  | None => l = []
  | Some ha => exists la lz, l = la ++ lz /\ Forall2 (area_disc (topic_prefix cfg) ha cfg) (areas cfg) la /\
      Forall2 (zone_disc (topic_prefix cfg) ha cfg) (zones cfg) lz
  end.
Definition accepts_states (cl : client) (cfg : Cfg) : Prop :=
  Forall (fun x => topic_ok cl (area_state_topic (topic_prefix cfg) (snd x)) = true) (areas cfg) /\
  Forall (fun x => topic_ok cl (zone_state_topic (topic_prefix cfg) (z_name (snd x))) = true) (zones cfg).
Lemma code_canon n c : ArmCode_try_from_u32 n = Ok c <-> n < 1000000 /\ dec_canon 6 n c.
Proof. apply C20_code_from_number. Qed.
Lemma zones_published cl p prefix zs l : reachable p ->
  each (fun '(zone_id, z) => zone <~ lift (expect (Zone_try_from zone_id) "called `Result::unwrap()` on an `Err` value") ;;
         publish_zone_state cl p prefix zone z) zs = (l, Ok tt) ->
  Forall (fun x => zone_ok (fst x) /\ topic_ok cl (zone_state_topic prefix (z_name (snd x))) = true) zs /\ Forall2 (zone_pub prefix p) zs l.
Proof.
  intros R E.
  assert (K : Forall2 (fun x a => zone_ok (fst x) /\ topic_ok cl (zone_state_topic prefix (z_name (snd x))) = true /\ zone_pub prefix p x a) zs l).
  { refine (each_single _ _ _ _ _ E). clear E. intros [n c] l' _ E.
    apply obind_ok in E as (l1 & a & l2 & E1 & E & ->). apply lift_ok in E1 as [-> E1]. apply expect_ok, limited_spec in E1 as [E1 ->].
    apply zone_published in E as (E2 & a & -> & E3); [|exact R|exact E1]. cbn [fst snd app]. eauto. }
  clear E. split; (induction K as [|x a xs l' (K1 & K2 & K3) K IH]; constructor; auto).
Qed.
Lemma start_up_ok cl cfg p l c : reachable p -> start_up cl cfg p = (l, Ok c) ->
  in_range cfg /\ dec_canon 6 (code cfg) c /\ accepts_states cl cfg /\
  exists ld la lz fs, l = ld ++ la ++ lz ++ [ASubscribe fs; APublish (availability_topic (topic_prefix cfg)) true (PText (B "online"))] /\
    discovery cfg ld /\ Forall2 (area_pub (topic_prefix cfg) p) (areas cfg) la /\ Forall2 (zone_pub (topic_prefix cfg) p) (zones cfg) lz /\
    fs = map (fun x => area_command_topic (topic_prefix cfg) (snd x)) (areas cfg).
Proof.
  intros R E. unfold start_up in E.
  apply obind_ok in E as (l0 & c' & l' & E1 & E & ->). apply lift_ok in E1 as [-> E1]. apply expect_ok, code_canon in E1 as [C1 C2].
  apply obind_ok in E as (ld & [] & l2 & ED & E & ->). apply obind_ok in E as (la & [] & l3 & EA & E & ->).
  apply obind_ok in E as (lz & [] & l4 & EZ & E & ->). apply obind_ok in E as (ls & [] & l5 & ES & E & ->).
  apply obind_ok in E as (lo & [] & l6 & EO & E & ->). injection E as <- <-.
  apply areas_published in EA as [A1 A2]; [|exact R]. apply zones_published in EZ as [Z1 Z2]; [|exact R].
  apply publish_ok in EO as [O1 ->]. unfold subscribe_many in ES. destruct (filters_ok cl _); [|discriminate]. injection ES as <-.
  split; [split; [|split]|].
  { eapply Forall_impl; [|exact A1]. cbn. tauto. } { eapply Forall_impl; [|exact Z1]. cbn. tauto. } { exact C1. }
  split; [exact C2|]. split; [split|].
  { eapply Forall_impl; [|exact A1]. cbn. tauto. } { eapply Forall_impl; [|exact Z1]. cbn. tauto. }
  exists ld, la, lz. eexists. split; [cbn [app]; reflexivity|]. split.
  - unfold discovery. destruct (ha_discovery_prefix cfg) as [ha|]; [|injection ED as <-; reflexivity].
    apply obind_ok in ED as (l1 & [] & l2 & E1 & E2 & ->). exists l1, l2. split; [reflexivity|]. split.
    + refine (each_single _ _ _ _ _ E1). intros [n name] l' _ E. apply publish_ok in E as [_ ->]. eexists. split; reflexivity.
    + refine (each_single _ _ _ _ _ E2). intros [n name] l' _ E. apply publish_ok in E as [_ ->]. eexists. split; reflexivity.
  - split; [exact A2|]. split; [exact Z2|]. apply map_ext. intros []. reflexivity.
Qed.
Lemma obind_succeeds {A C} (m : out A) (f : A -> out C) l a : m = (l, Ok a) -> (exists l c, f a = (l, Ok c)) -> exists l c, obind m f = (l, Ok c).
Proof. intros -> (l' & c & E). cbn. rewrite E. eauto. Qed.
(* the client accepts everything start-up asks of it *)
Definition accepts_start (cl : client) (cfg : Cfg) : Prop :=
  accepts_states cl cfg /\ topic_ok cl (availability_topic (topic_prefix cfg)) = true /\
  filters_ok cl (map (fun x => area_command_topic (topic_prefix cfg) (snd x)) (areas cfg)) = true /\
  (forall ha, ha_discovery_prefix cfg = Some ha ->
     Forall (fun x => topic_ok cl (ha ++ B "/alarm_control_panel/" ++ area_unique_id cfg (fst x) ++ B "/config") = true) (areas cfg) /\
     Forall (fun x => topic_ok cl (ha ++ B "/binary_sensor/" ++ zone_unique_id cfg (fst x) ++ B "/config") = true) (zones cfg)).
Lemma start_up_succeeds cl cfg p : reachable p -> in_range cfg -> accepts_start cl cfg -> exists l c, start_up cl cfg p = (l, Ok c).
Proof.
  intros R (RA & RZ & RC) ((TA & TZ) & TO & TF & TD). unfold start_up.
  assert (EC : exists c, ArmCode_try_from_u32 (code cfg) = Ok c).
  { destruct (C20_code_from_number_no_panic (code cfg)) as [H|(e & H)]; [exact H|]. exfalso. unfold ArmCode_try_from_u32 in H.
    destruct (1000000 <=? code cfg) eqn:EL; [lia|]. destruct (_ =? _)%nat; discriminate. }
  destruct EC as (c & EC). eapply obind_succeeds; [rewrite EC; reflexivity|].
  assert (ED : exists l, match ha_discovery_prefix cfg with Some ha => publish_ha_discovery cl (topic_prefix cfg) ha cfg | None => done tt end = (l, Ok tt)).
  { destruct (ha_discovery_prefix cfg) as [ha|]; [|eexists; reflexivity]. destruct (TD ha eq_refl) as [D1 D2]. rewrite Forall_forall in D1, D2.
    unfold publish_ha_discovery.
    assert (E1 := each_all (fun '(area_id, name) => publish cl AtLeastOnce (ha ++ B "/alarm_control_panel/" ++ area_unique_id cfg area_id ++ B "/config") true
           (PJson (area_discovery_json (topic_prefix cfg) cfg area_id name))) (areas cfg)).
    destruct E1 as (l1 & ->). { intros [n name] Hin. unfold publish. specialize (D1 _ Hin). cbn [fst snd] in D1. rewrite D1. eexists. reflexivity. }
    assert (E2 := each_all (fun '(zone_id, z) => publish cl AtLeastOnce (ha ++ B "/binary_sensor/" ++ zone_unique_id cfg zone_id ++ B "/config") true
      (PJson (zone_discovery_json (topic_prefix cfg) cfg zone_id z))) (zones cfg)).
    destruct E2 as (l2 & E2). { intros [n name] Hin. unfold publish. specialize (D2 _ Hin). cbn [fst snd] in D2. rewrite D2. eexists. reflexivity. }
    cbn [obind]. rewrite E2. eexists. reflexivity. }
  destruct ED as (ld & ED). eapply obind_succeeds; [exact ED|].
  destruct (areas_publish cl p (topic_prefix cfg) (areas cfg) R) as (la & EA).
  { rewrite Forall_forall in *. intros x Hx. auto. }
  eapply obind_succeeds; [exact EA|].
  assert (EZ := each_all (fun '(zone_id, z) => zone <~ lift (expect (Zone_try_from zone_id) "called `Result::unwrap()` on an `Err` value") ;;
         publish_zone_state cl p (topic_prefix cfg) zone z) (zones cfg)).
  destruct EZ as (lz & EZ).
  { intros [n z] Hin. rewrite Forall_forall in RZ, TZ. unfold Zone_try_from. rewrite (proj2 (limited_panic Zone_MAX n _) (RZ _ Hin : 1 <= n <= Zone_MAX)).
    cbn [lift obind]. destruct (zone_publish cl p (topic_prefix cfg) n z R (RZ _ Hin) (TZ _ Hin)) as (l & ->). eexists. reflexivity. }
  eapply obind_succeeds; [exact EZ|].
  eapply obind_succeeds; [unfold subscribe_many; rewrite (map_ext _ (fun x => area_command_topic (topic_prefix cfg) (snd x))) by (intros []; reflexivity); rewrite TF; reflexivity|].
  eapply obind_succeeds; [unfold publish; rewrite TO; reflexivity|]. eexists _, _. reflexivity.
Qed.

(* ---- events ---- *)
Definition event_pubs (cfg : Cfg) (p : Panel) (e : Event) (l : list action) : Prop :=
  match e_change e with
  | Some (CArmingStatus _) => Forall2 (area_pub (topic_prefix cfg) p) (areas cfg) l
  | Some (CZoneChange z _) =>
      (exists c a, In (z, c) (zones cfg) /\ zone_pub (topic_prefix cfg) p (z, c) a /\ l = [a]) \/
      ((forall c, ~ In (z, c) (zones cfg)) /\ l = [])
  | None => l = []
  end.
Lemma find_key {A} (l : list (N * A)) z :
  match find (fun '(k, _) => k =? z) l with
  | Some (k, c) => k = z /\ In (z, c) l
  | None => forall c, ~ In (z, c) l
  end.
Proof.
  induction l as [|[k c] l IH]; cbn [find]; [auto|]. destruct (N.eqb_spec k z) as [->|NE]; [split; [reflexivity | left; reflexivity]|].
  destruct (find _ l) as [[k' c']|].
  - destruct IH as [-> IH]. split; [reflexivity | right; exact IH].
  - intros c' [H|H]; [congruence | elim (IH _ H)].
Qed.
Lemma handle_event_ok cl cfg p e l : reachable p -> in_range cfg -> handle_event cl cfg p e = (l, Ok tt) ->
  exists v l', Event_ser e = Ok v /\ l = APublish (event_topic (topic_prefix cfg)) false (PJson v) :: l' /\ event_pubs cfg p e l' /\
    topic_ok cl (event_topic (topic_prefix cfg)) = true.
Proof.
  intros R (_ & RZ & _) E. unfold handle_event in E.
  apply obind_ok in E as (l1 & v & l2 & E1 & E & ->). apply lift_ok in E1 as [-> E1].
  apply obind_ok in E as (l1 & [] & l3 & E2 & E & ->). apply publish_ok in E2 as [E2 ->].
  exists v, l3. split; [exact E1|]. split; [reflexivity|]. split; [|exact E2]. unfold event_pubs. destruct (e_change e) as [[z s|r]|].
  - pose proof (find_key (zones cfg) z) as F. destruct (find _ (zones cfg)) as [[k c]|].
    + destruct F as [-> F]. rewrite Forall_forall in RZ. apply zone_published in E as (_ & a & -> & E); [|exact R|exact (RZ _ F)]. left. exists c, a. auto.
    + injection E as <-. right. auto.
  - apply areas_published in E as [_ E]; auto.
  - injection E as <-. reflexivity.
Qed.
Lemma handle_event_succeeds cl cfg p e v : reachable p -> in_range cfg -> accepts_states cl cfg -> topic_ok cl (event_topic (topic_prefix cfg)) = true ->
  Event_ser e = Ok v -> exists l, handle_event cl cfg p e = (l, Ok tt).
Proof.
  intros R (RA & RZ & _) (TA & TZ) T E. unfold handle_event. rewrite E. cbn [lift obind]. unfold publish at 1. rewrite T. cbn [obind].
  destruct (e_change e) as [[z s|r]|].
  - pose proof (find_key (zones cfg) z) as F. destruct (find _ (zones cfg)) as [[k c]|]; [|eexists; reflexivity].
    destruct F as [-> F]. rewrite Forall_forall in RZ, TZ.
    destruct (zone_publish cl p (topic_prefix cfg) z c R (RZ _ F) (TZ _ F)) as (l & ->). eexists. reflexivity.
  - destruct (areas_publish cl p (topic_prefix cfg) (areas cfg) R) as (la & ->); [|eexists; reflexivity].
    rewrite Forall_forall in *. intros x Hx. auto.
  - eexists. reflexivity.
Qed.

(* ---- commands ---- *)
Lemma asked_some cfg t pl c area level :
  dec_canon 6 (code cfg) c -> forall name, In (area, name) (areas cfg) -> t = area_command_topic (topic_prefix cfg) name -> In (pl, level) payload_levels ->
  asked cfg (t, pl) (Some (CmdArm (mkArmRequest area level c))).
Proof. intros D name H -> L. exists area, name, level, c. auto. Qed.
Lemma requested_spec cfg c t pl : in_range cfg -> dec_canon 6 (code cfg) c ->
  match requested (topic_prefix cfg) c (areas cfg) t pl with
  | Ok o => asked cfg (t, pl) o /\ (utf8_valid pl = true \/ forall a n, In (a, n) (areas cfg) -> t <> area_command_topic (topic_prefix cfg) n) /\
      (forall k, o = Some k -> wf_message (into_msg k))
  | Err _ => False
  | Panic _ => utf8_valid pl = false /\ exists a n, In (a, n) (areas cfg) /\ t = area_command_topic (topic_prefix cfg) n
  end.
Proof.
  intros (RA & _ & RC) D.
  assert (WC : arm_code_ok c). { destruct D as (D1 & D2 & _). split; [exact D1 | exact D2]. }
  assert (G : forall as_ done, areas cfg = done ++ as_ -> (forall a n, In (a, n) done -> t <> area_command_topic (topic_prefix cfg) n) ->
    match requested (topic_prefix cfg) c as_ t pl with
    | Ok o => asked cfg (t, pl) o /\ (utf8_valid pl = true \/ forall a n, In (a, n) (areas cfg) -> t <> area_command_topic (topic_prefix cfg) n) /\
        (forall k, o = Some k -> wf_message (into_msg k))
    | Err _ => False
    | Panic _ => utf8_valid pl = false /\ exists a n, In (a, n) (areas cfg) /\ t = area_command_topic (topic_prefix cfg) n
    end); [|exact (G (areas cfg) [] eq_refl (fun _ _ H => match H with end))].
  induction as_ as [|[a n] as_ IH]; intros dn EA HD; cbn [requested].
  - rewrite app_nil_r in EA. split; [|split; [right; rewrite EA; exact HD | discriminate]].
    intros k (a & n & lv & c' & H & HT & _). rewrite EA in H. elim (HD _ _ H). exact HT.
  - assert (HI : In (a, n) (areas cfg)) by (rewrite EA; apply in_elt).
    destruct (beq t (area_command_topic (topic_prefix cfg) n)) eqn:ET; cbn [negb].
    + apply beq_eq in ET. destruct (utf8_valid pl) eqn:EU; cbn [negb]; [|split; [reflexivity|]; exists a, n; auto].
      rewrite Forall_forall in RA. specialize (RA _ HI). cbn [fst] in RA.
      unfold Area_try_from. rewrite (proj2 (limited_panic Area_MAX a _) RA). cbn [bind].
      destruct (beq pl (B "DISARM")) eqn:E1; [apply beq_eq in E1|destruct (beq pl (B "ARM_AWAY")) eqn:E2; [apply beq_eq in E2|destruct (beq pl (B "ARM_HOME")) eqn:E3; [apply beq_eq in E3|]]].
      1-3: (split; [eapply asked_some; [exact D|exact HI|exact ET|subst pl; cbn; tauto]|]; split; [auto|]; intros k [= <-]; cbn; split; [exact RA | exact WC]).
      split; [|split; [auto | discriminate]]. intros k (a' & n' & lv & c' & _ & _ & HL & _). cbn [snd] in HL.
      destruct HL as [HL|[HL|[HL|[]]]]; injection HL as <- <-; rewrite beq_refl in *; discriminate.
    + apply (IH (dn ++ [(a, n)])); [rewrite <- app_assoc; exact EA|]. intros a' n' H. apply in_app_iff in H as [H|[[= <- <-]|[]]]; [eauto|].
      intros ->. rewrite beq_refl in ET. discriminate.
Qed.

(* ---- steps of a bridge that is up ---- *)
Definition binv (cl : client) (cfg : Cfg) (u : up) : Prop :=
  reachable (u_panel u) /\ in_range cfg /\ dec_canon 6 (code cfg) (u_code u) /\ accepts_states cl cfg /\
  (forall c, u_mode u = Feeding c -> wf_message (into_msg c)).
Definition moved (cl : client) (cfg : Cfg) (u : up) (i : input) (u' : up) : Prop :=
  exists ops bs handled os,
    Forall op_ok ops /\ run (u_panel u) ops = Ok (u_panel u', bs) /\ arrived ops = net_in [i] /\ u_code u' = u_code u /\
    u_rx u ++ mqtt_in [i] = handled ++ u_rx u' /\ Forall2 (asked cfg) handled os /\
    waiting u ++ catMaybes os = accepted ops ++ waiting u' /\ (forall c, u_mode u' = Feeding c -> wf_message (into_msg c)) /\
    ((events bs = [] /\ u_log u' = u_log u) \/
     exists now r w e l, poll_next now (u_panel u) = Ok (u_panel u', r, w) /\ yields r e /\ bs = [ONext r w] /\
       handle_event cl cfg (u_panel u') e = (l, Ok tt) /\ u_log u' = u_log u ++ l).
Lemma moved_quiet cl cfg u i u' ops bs : Forall op_ok ops -> run (u_panel u) ops = Ok (u_panel u', bs) -> arrived ops = net_in [i] -> events bs = [] ->
  u_code u' = u_code u -> u_rx u' = u_rx u ++ mqtt_in [i] -> u_log u' = u_log u -> waiting u = accepted ops ++ waiting u' ->
  (forall c, u_mode u' = Feeding c -> wf_message (into_msg c)) -> moved cl cfg u i u'.
Proof.
  intros HO E EN EV EC ER EL EW WF. exists ops, bs, [], []. rewrite ER, EL. cbn [catMaybes app]. rewrite app_nil_r. repeat split; auto.
Qed.
Lemma send_flush_moves u ws b : poll_send_flush ws u = b ->
  (exists e, b = Dead (u_log u) e) \/
  exists u' r, b = Up u' /\ run (u_panel u) [PollFlush ws] = Ok (u_panel u', [OSink r]) /\ u_code u' = u_code u /\ u_rx u' = u_rx u /\ u_log u' = u_log u /\
    (u_mode u' = Flushing /\ r = Pending \/ u_mode u' = Selecting /\ r = Ready (IoOk tt)).
Proof.
  unfold poll_send_flush. destruct (poll_flush ws (u_panel u)) as [p r] eqn:E. intros <-. cbn [run step]. rewrite E. cbn [bind].
  destruct r as [|[[]|e]]; [right|right|left; eauto]; eexists _, _; (split; [reflexivity|]); cbn; repeat split; auto.
Qed.
Lemma bstep_up cl cfg u i u' : binv cl cfg u -> input_ok i -> bstep cl cfg (Up u) i = Up u' -> moved cl cfg u i u'.
Proof.
  intros (R & RG & DC & AC & WF) HI E.
  assert (KEEP : u' = u -> mqtt_in [i] = [] -> [] = net_in [i] -> moved cl cfg u i u').
  { intros -> EM EN. apply (moved_quiet _ _ _ _ _ [] []); auto. rewrite EM, app_nil_r. reflexivity. }
  destruct i as [a|t pl| |now ws|now| |ws]; cbn [bstep] in E.
  - injection E as <-. apply (moved_quiet _ _ _ _ _ [Arrive a] [ONone]); auto. symmetry. apply app_nil_r.
  - injection E as <-. apply (moved_quiet _ _ _ _ _ [] []); auto.
  - discriminate.
  - injection E as <-. auto.
  - destruct (u_mode u) as [|c|] eqn:EM; try (injection E as <-; auto).
    destruct (poll_next now (u_panel u)) as [[[p r] w]|er|why] eqn:EP; try discriminate.
    assert (ST : run (u_panel u) [PollNext now] = Ok (p, [ONext r w])) by (cbn [run step]; rewrite EP; reflexivity).
    destruct r as [|[[e|er]|]]; try discriminate.
    + injection E as <-. apply (moved_quiet _ _ _ _ _ [PollNext now] [ONext Pending w]); auto.
      * symmetry. apply app_nil_r.
      * cbn. rewrite EM. discriminate.
    + unfold settle in E. destruct (handle_event cl cfg p e) as [l [[]|er|why]] eqn:EH; try discriminate. injection E as <-.
      exists [PollNext now], [ONext (Ready (Some (IoOk e))) w], [], []. split; [repeat constructor|]. split; [exact ST|]. split; [reflexivity|]. cbn [u_code u_rx u_log u_mode u_panel app catMaybes].
      split; [reflexivity|]. split; [apply app_nil_r|]. split; [constructor|]. split; [unfold waiting; rewrite EM; reflexivity|]. split; [discriminate|].
      right. exists now, (Ready (Some (IoOk e))), w, e, l. repeat split; auto.
  - destruct (u_mode u) as [|c|] eqn:EM; try (injection E as <-; auto). destruct (u_rx u) as [|[t pl] rx] eqn:ER; [injection E as <-; auto|].
    pose proof (requested_spec cfg (u_code u) t pl RG DC) as H. destruct (requested _ _ _ t pl) as [o|er|why]; try discriminate.
    destruct H as (H1 & _ & H2).
    assert (G : exists m, u' = mkUp (u_panel u) (u_code u) m rx (u_log u) /\ (match o with Some c => m = Feeding c | None => m = Selecting end)).
    { destruct o; injection E as <-; eauto. }
    destruct G as (m & -> & Hm). exists [], [], [(t, pl)], [o]. split; [constructor|]. split; [reflexivity|]. split; [reflexivity|]. split; [reflexivity|].
    split; [rewrite ER; cbn; rewrite app_nil_r; reflexivity|]. split; [repeat constructor; exact H1|].
    split; [unfold waiting; rewrite EM; destruct o as [c|]; subst m; reflexivity|]. split; [|left; auto].
    destruct o as [c|]; subst m; cbn; [|discriminate]. intros c' [= <-]. auto.
  - destruct (u_mode u) as [|c|] eqn:EM; [injection E as <-; auto| |].
    + destruct (poll_ready TASK ws (u_panel u)) as [p r] eqn:ER. destruct r as [|[[]|er]]; try discriminate.
      * injection E as <-. apply (moved_quiet _ _ _ _ _ [PollReady TASK ws] [OSink Pending]); auto; try (repeat constructor); try (symmetry; apply app_nil_r).
        -- cbn [run step]. rewrite ER. reflexivity.
        -- cbn. intros c' Hc. apply WF. congruence.
      * destruct (start_send c p) as [p'|er|why] eqn:ES; try discriminate.
        destruct (send_flush_moves _ _ _ E) as [(er & Hb)|(u2 & r & Hb & H1 & H2 & H3 & H4 & H5)]; [discriminate|]. injection Hb as ->. cbn [set_panel u_panel u_code u_rx u_log] in *.
        apply (moved_quiet _ _ _ _ _ [PollReady TASK ws; StartSend c; PollFlush ws] [OSink (Ready (IoOk tt)); ONone; OSink r]); auto.
        -- repeat constructor. cbn. apply WF. reflexivity.
        -- cbn [run step]. rewrite ER. cbn [bind]. rewrite ES. cbn [bind]. cbn [run step] in H1. destruct (poll_flush ws p') as [p2 r2].
           cbn [bind] in *. injection H1 as -> ->. reflexivity.
        -- rewrite H3. symmetry. apply app_nil_r.
        -- unfold waiting. rewrite EM. destruct H5 as [[-> _]|[-> _]]; reflexivity.
        -- destruct H5 as [[-> _]|[-> _]]; discriminate.
    + destruct (send_flush_moves _ _ _ E) as [(er & Hb)|(u2 & r & Hb & H1 & H2 & H3 & H4 & H5)]; [discriminate|]. injection Hb as ->.
      apply (moved_quiet _ _ _ _ _ [PollFlush ws] [OSink r]); auto; [rewrite H3; symmetry; apply app_nil_r | |].
      * unfold waiting. rewrite EM. destruct H5 as [[-> _]|[-> _]]; reflexivity.
      * destruct H5 as [[-> _]|[-> _]]; discriminate.
Qed.
Lemma moved_binv cl cfg u i u' : binv cl cfg u -> moved cl cfg u i u' -> binv cl cfg u'.
Proof.
  intros (R & RG & DC & AC & WF) (ops & bs & hd & os & HO & E & _ & EC & _ & _ & _ & W & _). split; [eapply reachable_run; eauto|].
  split; [exact RG|]. split; [rewrite EC; exact DC|]. auto.
Qed.

(* ---- runs ---- *)
Lemma brun_snoc cl cfg is i : brun cl cfg (is ++ [i]) = bstep cl cfg (brun cl cfg is) i.
Proof. unfold brun. apply fold_left_app. Qed.
Lemma irun_step c os o : irun c (os ++ [o]) = iop_step (irun c os) o.
Proof. unfold irun. apply fold_left_app. Qed.
Lemma mqtt_in_app is1 is2 : mqtt_in (is1 ++ is2) = mqtt_in is1 ++ mqtt_in is2.
Proof. unfold mqtt_in. rewrite map_app. induction (map _ is1) as [|[x|] l IH]; cbn [catMaybes app]; [reflexivity | rewrite IH; reflexivity | exact IH]. Qed.
Lemma up_stays cl cfg u i s rx : bstep cl cfg (Up u) i <> Connecting s rx.
Proof.
  intros ES. destruct i as [a|t pl| |now ws|now| |ws]; cbn [bstep] in ES; try discriminate.
  - destruct (u_mode u); try discriminate. destruct (poll_next now (u_panel u)) as [[[p [|[[e|er]|]]] w]|er|why]; try discriminate.
    unfold settle in ES. destruct (handle_event _ _ _ _) as [? []]; discriminate.
  - destruct (u_mode u); try discriminate. destruct (u_rx u) as [|[t pl] rx']; try discriminate. destruct (requested _ _ _ _ _) as [[]| |]; discriminate.
  - assert (K : forall u, poll_send_flush ws u <> Connecting s rx).
    { intros v H. destruct (send_flush_moves _ _ _ H) as [(er & Hb)|(u2 & r & Hb & _)]; discriminate. }
    destruct (u_mode u); try discriminate; [|elim (K _ ES)]. destruct (poll_ready _ _ _) as [p [|[]]]; try discriminate.
    destruct (start_send _ _); try discriminate. elim (K _ ES).
Qed.
(* how the bridge comes up: panel connected, start_up succeeded *)
Definition came_up (cl : client) (cfg : Cfg) (u : up) : Prop :=
  connected (u_panel u) /\ start_up cl cfg (u_panel u) = (u_log u, Ok (u_code u)) /\ u_mode u = Selecting.
Lemma brun_cases cl cfg is : Forall input_ok is ->
  match brun cl cfg is with
  | Connecting i rx => rx = mqtt_in is /\ exists h, Forall iop_ok h /\ i = irun conn_new h /\ (exists s ph p, i = IRun s ph p)
  | Up u => exists u0 is1 is2, is = is1 ++ is2 /\ came_up cl cfg u0 /\ u_rx u0 = mqtt_in is1 /\ brun cl cfg is1 = Up u0 /\ fold_left (bstep cl cfg) is2 (Up u0) = Up u
  | Dead _ _ => True
  end.
Proof.
  induction is as [|i is IH] using rev_ind; intros HI.
  - cbn. split; [reflexivity|]. exists []. split; [constructor|]. split; [reflexivity|]. eexists _, _, _. reflexivity.
  - apply Forall_app in HI as [HI Hi]. inversion Hi as [|? ? Hi' _]; subst. specialize (IH HI). rewrite brun_snoc.
    destruct (brun cl cfg is) as [s rx|u|l w] eqn:EB; [| |exact Logic.I].
    + destruct IH as (-> & h & HO & -> & HR). destruct i as [a|t pl| |now ws|now| |ws]; cbn [bstep]; rewrite ?mqtt_in_app, ?app_nil_r;
        try (split; [reflexivity | exists h; auto]; fail); [| exact Logic.I |].
      * split; [reflexivity|]. exists (h ++ [IArrive a]). split; [apply Forall_app; auto|]. rewrite irun_step. split; [reflexivity|].
        destruct HR as (st & ph & p & ->). cbn. eauto.
      * assert (HO' : Forall iop_ok (h ++ [IStep now ws])) by (apply Forall_app; split; [exact HO | repeat constructor]).
        assert (EI : irun conn_new (h ++ [IStep now ws]) = istep now ws (irun conn_new h)) by (rewrite irun_step; reflexivity).
        unfold after_connect. destruct (istep now ws (irun conn_new h)) as [st ph p|p|er|why] eqn:ES; try exact Logic.I.
        -- split; [reflexivity|]. exists (h ++ [IStep now ws]). split; [exact HO'|]. rewrite EI. split; [reflexivity|]. eauto.
        -- unfold settle. destruct (start_up cl cfg p) as [l [c|er|why]] eqn:EU; try exact Logic.I. cbn [app].
           exists (mkUp p c Selecting (mqtt_in is) l), (is ++ [PollConnect now ws]), []. rewrite app_nil_r. split; [reflexivity|]. split; [|split; [|split; [|reflexivity]]].
           ++ split; [exists (h ++ [IStep now ws]); auto|]. split; [exact EU|]. auto.
           ++ rewrite mqtt_in_app, app_nil_r. reflexivity.
           ++ rewrite brun_snoc, EB. cbn [bstep]. unfold after_connect. rewrite ES. unfold settle. rewrite EU. reflexivity.
    + destruct IH as (u0 & is1 & is2 & -> & C & E0 & E1 & E2).
      destruct (bstep cl cfg (Up u) i) as [s rx|u'|l w] eqn:ES; [|exists u0, is1, (is2 ++ [i])|exact Logic.I].
      * elim (up_stays _ _ _ _ _ _ ES).
      * rewrite app_assoc. split; [reflexivity|]. split; [exact C|]. split; [exact E0|]. split; [exact E1|]. rewrite fold_left_app, E2. exact ES.
Qed.
Lemma came_up_binv cl cfg u : came_up cl cfg u -> binv cl cfg u.
Proof.
  intros (C & E & M). assert (R := connected_reachable _ C). destruct (start_up_ok _ _ _ _ _ R E) as (H1 & H2 & H3 & _).
  split; [exact R|]. split; [exact H1|]. split; [exact H2|]. split; [exact H3|]. rewrite M. discriminate.
Qed.
Lemma dead_stays cl cfg is l w : fold_left (bstep cl cfg) is (Dead l w) = Dead l w.
Proof. induction is; [reflexivity | exact IHis]. Qed.
(* induction over a run that stays up *)
Lemma up_ind cl cfg u0 (P : list input -> up -> Prop) :
  binv cl cfg u0 -> P [] u0 ->
  (forall is u i u', P is u -> binv cl cfg u -> input_ok i -> moved cl cfg u i u' -> bstep cl cfg (Up u) i = Up u' -> P (is ++ [i]) u') ->
  forall is u, Forall input_ok is -> fold_left (bstep cl cfg) is (Up u0) = Up u -> binv cl cfg u /\ P is u.
Proof.
  intros B0 P0 ST. induction is as [|i is IH] using rev_ind; intros u HI E; [injection E as <-; auto|].
  apply Forall_app in HI as [HI Hi]. inversion Hi as [|? ? Hi' _]; subst. rewrite fold_left_app in E. cbn [fold_left] in E.
  destruct (fold_left (bstep cl cfg) is (Up u0)) as [s rx|u1|l w] eqn:E1; [|destruct (IH u1 HI eq_refl) as [B1 P1]|discriminate].
  - exfalso. clear -E1. revert u0 E1. induction is as [|i is IH]; intros u0 E; [discriminate|]. cbn [fold_left] in E.
    destruct (bstep cl cfg (Up u0) i) as [s' rx'|u1|l w] eqn:ES; [|eauto|rewrite dead_stays in E; discriminate]. elim (up_stays _ _ _ _ _ _ ES).
  - assert (M := bstep_up _ _ _ _ _ B1 Hi' E). split; [eapply moved_binv; eauto|]. eapply ST; eauto.
Qed.
