(* PropRestart.v: the property C116: what the broker keeps over several runs of the bridge. *)
From Verif Require Import Base BaseFacts Pkt SpecPkt PktFacts DecodeFacts Msg SpecMsg DecFacts MsgFacts WireFacts IsoFacts
  Tokio SpecConn ConnFacts State SpecState StateFacts RunFacts HistFacts ExState PropState PropMsg Serde SerdeFacts PropSerde
  Mqtt MqttFacts Config SpecMqtt SpecConfig PropMqtt PropConfig BridgeText SpecJson JsonFacts JsonWrite ShowFacts TextFacts PropText SpecHa PropHa SpecRestart.
From Coq Require Import ZifyBool ZifyNat ZifyN.
Ltac Zify.zify_post_hook ::= Z.div_mod_to_equations.

(* The topics on which a bridge of this configuration has the broker keep something. *)
Definition kept (cfg : Cfg) (t : bytes) : Prop := exists w, topic_for cfg w t /\ (forall n, w <> AreaCommand n) /\ w <> Events.

(* ---- what is held ---- *)
Lemma touched_holds log t : (exists q p, In (APublishQ q t true p) log) -> exists p, holds log t p.
Proof.
  induction log as [|a log IH]; intros (q & p & H); [destruct H|].
  destruct (Exists_dec (fun a => match a with APublishQ _ t' true _ => t' = t | _ => False end) log) as [X|X].
  { intros [q' t' [] p'|q' fs]; [destruct (beq t' t) eqn:E; [left; apply beq_eq; exact E | right; intros ->; rewrite beq_refl in E; discriminate] | right | right]; tauto. }
  - apply Exists_exists in X as ([q' t' [] p'|q' fs] & HI & X); try contradiction. subst t'. destruct IH as (p2 & H2); [eauto|]. exists p2. apply (holds_right [a]). exact H2.
  - destruct H as [-> |H]; [|elim X; apply Exists_exists; exists (APublishQ q t true p); auto]. exists p, q, [], log. split; [reflexivity|].
    intros q' p' HI. apply X. apply Exists_exists. exists (APublishQ q' t true p'). auto.
Qed.
Lemma holds_app l1 l2 t p : holds (l1 ++ l2) t p <-> holds l2 t p \/ (Forall (fun a => ~ touches t a) l2 /\ holds l1 t p).
Proof.
  split; [|intros [H|[F H]]; [apply holds_right, H | apply holds_left; assumption]].
  intros H. assert (D : (exists p', holds l2 t p') \/ Forall (fun a => ~ touches t a) l2).
  { clear H. induction l2 as [|a l2 IH]; [right; constructor|]. destruct IH as [(p' & H)|F]; [left; exists p'; apply (holds_right [a]), H|].
    destruct a as [q' t' [] p'|q' fs].
    - destruct (beq t' t) eqn:E.
      + apply beq_eq in E. subst t'. left. apply touched_holds. exists q', p'. left. reflexivity.
      + right. constructor; [|exact F]. intros (q2 & p2 & [= _ -> _]). rewrite beq_refl in E. discriminate.
    - right. constructor; [|exact F]. intros (q2 & p2 & [=]).
    - right. constructor; [|exact F]. intros (q2 & p2 & [=]). }
  destruct D as [(p' & H')|F]; [left|right].
  - rewrite (holds_fun _ _ _ _ H (holds_right l1 _ _ _ H')). exact H'.
  - split; [exact F|]. destruct H as (q & a & b & E & N). apply app_eq_app in E as (l & [[-> E]|[-> E]]).
    + exists q, a. destruct l as [|x l]; cbn [app] in E.
      * rewrite <- E in F. inversion F as [|? ? F1 _]; subst. elim F1. exists q, p. reflexivity.
      * injection E as <- ->. exists l. split; [reflexivity|]. intros q' p' HI. apply (N q' p'). apply in_app_iff. auto.
    + exfalso. rewrite E in F. apply Forall_app in F as [_ F]. inversion F as [|? ? F1 _]; subst. apply F1. exists q, p. reflexivity.
Qed.
Lemma kept_last cfg t : kept cfg t -> last t 0 = 101 \/ last t 0 = 121 \/ last t 0 = 103.
Proof. intros (w & H & H1 & H2). rewrite (topic_last _ _ _ H). destruct w; cbn; auto; [elim (H1 area); reflexivity | congruence]. Qed.
Lemma logged_kept cl cfg is b : bridge_after cl cfg is b -> cfg_ok cfg -> forall q t p, In (APublishQ q t true p) (blog b) -> kept cfg t.
Proof.
  intros A K q t p H. pose proof (C68_only_these_topics _ _ _ _ A K) as F. rewrite Forall_forall in F. destruct (F _ H) as (_ & w & T & N & E).
  exists w. split; [exact T|]. split; [exact N|]. intros W. apply E in W. discriminate.
Qed.
Lemma will_is file o h cfg : main_text file = Ok (o, h, cfg) -> last_words (o_last_will o) = APublish (topic_prefix cfg ++ B "/availability") true (PText (B "offline")).
Proof.
  intros M. destruct (will_of _ _ _ _ M) as (v0 & M0). destruct (C66_set_up v0) as (S & _). destruct (S _ _ _ M0) as (c & _ & _ & S' & _).
  destruct S' as (_ & _ & _ & _ & (p & _ & <- & W) & _). rewrite W. reflexivity.
Qed.
Lemma firstn_in {A} k (l : list A) x : In x (firstn k l) -> In x l.
Proof. intros H. rewrite <- (firstn_skipn k l). apply in_app_iff. auto. Qed.

(* All that is kept comes from one of the runs. *)
Theorem C116_from_the_configurations : forall cfgs log, past cfgs log -> forall t p, holds log t p -> exists cfg, In cfg cfgs /\ kept cfg t.
Proof.
  intros cfgs log H. induction H as [|cfgs log file o h cfg cl is b l H IH M A L]; intros t p HO; [destruct (holds_in _ _ _ HO) as (q & [])|].
  apply holds_app in HO as [HO|[_ HO]]; [|destruct (IH _ _ HO) as (c & I & K); exists c; split; [right; exact I | exact K]].
  exists cfg. split; [left; reflexivity|]. destruct L as [-> |(k & ->)]; [destruct (holds_in _ _ _ HO) as (q & [])|].
  destruct (holds_in _ _ _ HO) as (q & HI). apply in_app_iff in HI as [HI|[HI|[]]].
  - eapply logged_kept; eauto using firstn_in, setup_ok.
  - rewrite (will_is _ _ _ _ M) in HI. injection HI as _ <- _. exists Availability. split; [reflexivity|]. split; discriminate.
Qed.
(* Between the runs every bridge is unavailable. *)
Lemma avail_ends t : last (t ++ B "/availability") 0 = 121.
Proof. change (B "/availability") with (B "/availabilit" ++ [121]). rewrite app_assoc. apply last_last. Qed.
Lemma all_log cl cfg is (P : action -> Prop) : loop_actions cfg P -> (forall p, Forall P (fst (start_up cl cfg p))) -> Forall P (blog (brun cl cfg is)).
Proof.
  intros HL HS. induction is as [|i is IH] using rev_ind; [constructor|]. rewrite brun_snoc. destruct (brun cl cfg is) as [s rx|u|l w]; [| |exact IH].
  - destruct i as [a|t pl| |now ws|now| |ws]; cbn [bstep]; try constructor. unfold after_connect. destruct (istep now ws s) as [st ph p|p|er|why]; try constructor.
    pose proof (HS p) as H. unfold settle. destruct (start_up cl cfg p) as [l [c|er|why]]; exact H.
  - pose proof (bstep_log cl cfg u i P HL) as S. destruct (bstep cl cfg (Up u) i); [destruct S|..]; destruct S as (l & EL & F); rewrite EL; apply Forall_app; auto.
Qed.
Definition says_online (cfg : Cfg) (a : action) : Prop := forall q p, a = APublishQ q (topic_prefix cfg ++ B "/availability") true p -> p = PText (B "online").
Lemma not_there cfg q t r p : last t 0 <> 121 -> says_online cfg (APublishQ q t r p).
Proof. intros N q' p' [= _ -> _ _]. elim N. apply avail_ends. Qed.
Lemma config_ends t : last (t ++ B "/config") 0 = 103.
Proof. change (B "/config") with (B "/confi" ++ [103]). rewrite app_assoc. apply last_last. Qed.
Lemma avail_online cl cfg is : Forall (says_online cfg) (blog (brun cl cfg is)).
Proof.
  assert (L : loop_actions cfg (says_online cfg)).
  { split; [|split]; intros; [apply not_there; rewrite area_topic_last; discriminate | apply not_there; rewrite zone_topic_last; discriminate | intros q' p' [=]]. }
  apply all_log; [exact L|]. intros p. unfold start_up. apply obind_log; [apply lift_log|]. intros code'.
  apply obind_log; [|intros _; apply obind_log; [apply areas_log, L|]; intros _; apply obind_log; [|intros _; apply obind_log; [|intros _; apply obind_log; [|constructor]]]].
  - destruct (ha_discovery_prefix cfg) as [ha|] eqn:EH; [|constructor]. apply obind_log; [|intros _]; apply each_log; intros [n x]; apply publish_log, not_there; rewrite !app_assoc, config_ends; discriminate.
  - apply each_log. intros [n z]. apply obind_log; [apply lift_log|]. intros k. apply zone_log, L.
  - unfold subscribe_many. destruct (filters_ok cl _); constructor; [|constructor]. intros q' p' [=].
  - apply publish_log. intros q' p' [= _ <-]. reflexivity.
Qed.
Lemma log_avail cl cfg is b : bridge_after cl cfg is b -> cfg_ok cfg -> forall q t p, In (APublishQ q (t ++ B "/availability") true p) (blog b) ->
  t = topic_prefix cfg /\ p = PText (B "online").
Proof.
  intros A K q t p H. pose proof (C68_only_these_topics _ _ _ _ A K) as F. rewrite Forall_forall in F. destruct (F _ H) as (_ & w & T & N & E).
  pose proof (topic_last _ _ _ T) as L. rewrite avail_ends in L. destruct w; try discriminate L. cbn [topic_for] in T. apply app_inv_tail in T. subst t. split; [reflexivity|].
  destruct A as (HI & EB). subst b. pose proof (avail_online cl cfg is) as X. rewrite Forall_forall in X. apply (X _ H _ _ eq_refl).
Qed.
Theorem C116_unavailable_between : forall cfgs log, past cfgs log -> forall t p, holds log (t ++ B "/availability") p -> p = PText (B "offline").
Proof.
  intros cfgs log H. induction H as [|cfgs log file o h cfg cl is b l H IH M A L]; intros t p HO; [destruct (holds_in _ _ _ HO) as (q & [])|].
  apply holds_app in HO as [HO|[_ HO]]; [|exact (IH _ _ HO)]. destruct L as [-> |(k & ->)]; [destruct (holds_in _ _ _ HO) as (q & [])|].
  rewrite (will_is _ _ _ _ M) in HO. apply holds_app in HO as [HO|[F HO]].
  - destruct (holds_in _ _ _ HO) as (q & [HI|[]]). injection HI as _ _ <-. reflexivity.
  - exfalso. destruct (holds_in _ _ _ HO) as (q & HI). destruct (log_avail _ _ _ _ A (setup_ok _ _ _ _ M) _ _ _ (firstn_in _ _ _ HI)) as [-> _].
    inversion F as [|? ? F1 _]; subst. apply F1. eexists _, _. reflexivity.
Qed.
(* While a run is on, of which the broker has got the first k requests, it is unavailable or that run's.  If it is available, everything that run has the broker
   keep is new: what the broker then keeps on these topics is what it has got from this run. *)
Lemma up_touches cl cfg log t : cfg_ok cfg -> online_after cl cfg log -> kept cfg t -> exists l1 rest, log = l1 ++ APublish (topic_prefix cfg ++ B "/availability") true (PText (B "online")) :: rest /\
  Forall (calm cfg) l1 /\ exists q p, In (APublishQ q t true p) (l1 ++ [APublish (topic_prefix cfg ++ B "/availability") true (PText (B "online"))]).
Proof.
  intros K (ld & la & lz & fs & p & rest & R & G & -> & LD & LA & LZ & EF & C1 & C2) (w & T & N1 & N2). exists (ld ++ la ++ lz ++ [ASubscribe fs]), rest. split; [reflexivity|]. split; [exact C1|].
  destruct K as ((_ & UA) & (_ & UZ)). rewrite Forall_forall in UA, UZ.
  assert (G1 : forall q p, In (APublishQ q t true p) ld -> exists q p, In (APublishQ q t true p) ((ld ++ la ++ lz ++ [ASubscribe fs]) ++ [APublish (topic_prefix cfg ++ B "/availability") true (PText (B "online"))])).
  { intros q p0 H. exists q, p0. rewrite !in_app_iff. auto. }
  destruct w; cbn [topic_for] in T; try congruence.
  - destruct T as (n & I & ->). destruct (Forall2_in _ _ _ _ LA I) as (a & Ia & (t & _ & ->)). exists AtLeastOnce, (PText t). rewrite !in_app_iff. auto.
  - destruct T as (c & I & ->). destruct (Forall2_in _ _ _ _ LZ I) as (a & Ia & (t & _ & ->)). exists AtLeastOnce, (PText t). rewrite !in_app_iff. auto.
  - subst t. eexists _, _. apply in_app_iff. right. left. reflexivity.
  - destruct T as (ha & n & d & EH & I & D & ->). unfold discovery in LD. rewrite EH in LD. destruct LD as (l1 & l2 & -> & L1 & _). destruct (Forall2_in _ _ _ _ L1 I) as (a & Ia & ->).
    assert (d = show_u8 area) as -> by exact (plain_unique _ _ _ D (show_u8_plain area (UA (area, n) I))). eapply G1, in_app_iff. left. unfold area_unique_id in Ia. cbn [fst] in Ia. rewrite <- !app_assoc in Ia. exact Ia.
  - destruct T as (ha & n & d & EH & I & D & ->). unfold discovery in LD. rewrite EH in LD. destruct LD as (l1 & l2 & -> & _ & L2). destruct (Forall2_in _ _ _ _ L2 I) as (a & Ia & ->).
    assert (d = show_u8 zone) as -> by exact (plain_unique _ _ _ D (show_u8_plain zone (UZ (zone, n) I))). eapply G1, in_app_iff. right. unfold zone_unique_id in Ia. cbn [fst] in Ia. rewrite <- !app_assoc in Ia. exact Ia.
Qed.
Lemma firstn_mono {A} k (l : list A) l1 x rest : l = l1 ++ x :: rest -> In x (firstn k l) -> ~ In x l1 -> exists l2, firstn k l = (l1 ++ [x]) ++ l2.
Proof.
  intros -> H N. rewrite firstn_app in *. apply in_app_iff in H as [H|H]; [elim N; exact (firstn_in _ _ _ H)|].
  destruct (k - length l1)%nat as [|j] eqn:E; [destruct H|]. rewrite firstn_all2 by lia. exists (firstn j rest). rewrite <- app_assoc. reflexivity.
Qed.
Lemma touch_dec l t : (exists p, holds l t p) \/ Forall (fun a => ~ touches t a) l.
Proof.
  induction l as [|a l IH]; [right; constructor|]. destruct IH as [(p & H)|F]; [left; exists p; apply (holds_right [a]), H|].
  destruct a as [q' t' [] p'|q' fs].
  - destruct (beq t' t) eqn:E.
    + apply beq_eq in E. subst t'. left. apply touched_holds. exists q', p'. left. reflexivity.
    + right. constructor; [|exact F]. intros (q2 & p2 & [= _ -> _]). rewrite beq_refl in E. discriminate.
  - right. constructor; [|exact F]. intros (q2 & p2 & [=]).
  - right. constructor; [|exact F]. intros (q2 & p2 & [=]).
Qed.
(* While a run is on, of which the broker has got the first k requests: what says 'online' is this run. *)
Theorem C116_available_while_running : forall cfgs log cfg cl is b k file o h, past cfgs log -> main_text file = Ok (o, h, cfg) -> bridge_after cl cfg is b ->
  forall t p, holds (log ++ firstn k (blog b)) (t ++ B "/availability") p -> p = PText (B "offline") \/ (p = PText (B "online") /\ t = topic_prefix cfg).
Proof.
  intros cfgs log cfg cl is b k file o h P M A t p HO. apply holds_app in HO as [HO|[_ HO]]; [right|left; exact (C116_unavailable_between _ _ P _ _ HO)].
  destruct (holds_in _ _ _ HO) as (q & HI). destruct (log_avail _ _ _ _ A (setup_ok _ _ _ _ M) _ _ _ (firstn_in _ _ _ HI)) as [-> ->]. auto.
Qed.
(* If it says 'online', all that this run has the broker keep is there and none of it is from earlier runs. *)
Theorem C116_online_means_fresh : forall cfgs log cfg cl is b k file o h, past cfgs log -> main_text file = Ok (o, h, cfg) -> bridge_after cl cfg is b ->
  holds (log ++ firstn k (blog b)) (topic_prefix cfg ++ B "/availability") (PText (B "online")) ->
  forall t, kept cfg t -> (exists p, holds (firstn k (blog b)) t p) /\ forall p, holds (log ++ firstn k (blog b)) t p <-> holds (firstn k (blog b)) t p.
Proof.
  intros cfgs log cfg cl is b k file o h P M A HO t KT.
  assert (X : exists p, holds (firstn k (blog b)) t p).
  { apply holds_app in HO as [HO|[_ HO]]; [|pose proof (C116_unavailable_between _ _ P _ _ HO); discriminate].
    destruct A as (HI & EB). destruct (holds_in _ _ _ HO) as (q & I). destruct (online_cases cl cfg is HI) as [C|C]; rewrite EB in C.
    - rewrite Forall_forall in C. elim (C _ (firstn_in _ _ _ I) q true eq_refl).
    - destruct (up_touches _ _ _ _ (setup_ok _ _ _ _ M) C KT) as (l1 & rest & EL & C1 & q2 & p2 & I2).
      assert (q = AtLeastOnce) as ->.
      { apply firstn_in in I. pose proof (C68_only_these_topics cl cfg is b (conj HI EB) (setup_ok _ _ _ _ M)) as F. rewrite Forall_forall in F. destruct (F _ I) as (E & _). exact E. }
      destruct (firstn_mono k _ _ _ _ EL I) as (l2 & E2).
      { intros I1. rewrite Forall_forall in C1. elim (C1 _ I1 AtLeastOnce true eq_refl). }
      apply touched_holds. exists q2, p2. rewrite E2. apply in_app_iff. left. exact I2. }
  split; [exact X|]. intros p. rewrite holds_app. split; [|auto]. intros [H|[F H]]; [exact H|]. destruct X as (p' & X). destruct (holds_in _ _ _ X) as (q & I).
  rewrite Forall_forall in F. elim (F _ I). eexists _, _. reflexivity.
Qed.
Lemma all_there cl cfg is u t : bridge_after cl cfg is (Up u) -> cfg_ok cfg -> kept cfg t -> exists p, holds (u_log u) t p.
Proof.
  intros A K KT. destruct (up_log _ _ _ _ _ A (loop_calm cfg)) as (u0 & l & C & EL0 & FL). pose proof (online_more _ _ _ _ (came_up_online _ _ _ C) FL) as CO. rewrite <- EL0 in CO.
    destruct (up_touches _ _ _ _ K CO KT) as (l1 & rest & EL & C1 & q2 & p2 & I2).
      apply touched_holds. exists q2, p2. rewrite EL. apply in_app_iff in I2 as [I2|[I2|[]]]; apply in_app_iff; [left; exact I2 | right; left; exact I2].
Qed.
(* What the broker keeps while the bridge is up: this run's, and below it what earlier runs have left on other topics. *)
Theorem C116_what_is_kept : forall cfgs log cfg cl is u file o h, past cfgs log -> main_text file = Ok (o, h, cfg) -> bridge_after cl cfg is (Up u) ->
  forall t p, holds (log ++ u_log u) t p <-> (kept cfg t /\ holds (u_log u) t p) \/ (~ kept cfg t /\ holds log t p).
Proof.
  intros cfgs log cfg cl is u file o h P M A t p.
  assert (NT : forall t p, holds (u_log u) t p -> kept cfg t).
  { intros t' p' H. destruct (holds_in _ _ _ H) as (q & I). exact (logged_kept _ _ _ _ A (setup_ok _ _ _ _ M) _ _ _ I). }
  assert (ALL := all_there _ _ _ _ t A (setup_ok _ _ _ _ M)).
  rewrite holds_app. destruct (touch_dec (u_log u) t) as [(p' & H)|F].
  - split.
    + intros [H1|[F _]]; [left; split; [exact (NT _ _ H1) | exact H1]|]. destruct (holds_in _ _ _ H) as (q & I). rewrite Forall_forall in F. elim (F _ I). eexists _, _. reflexivity.
    + intros [[_ H1]|[N _]]; [left; exact H1 | elim N; exact (NT _ _ H)].
  - assert (N : ~ kept cfg t).
    { intros KT. destruct (ALL KT) as (p' & H). destruct (holds_in _ _ _ H) as (q & I). rewrite Forall_forall in F. elim (F _ I). eexists _, _. reflexivity. }
    split; [|tauto]. intros [H|[_ H]]; [elim N; exact (NT _ _ H) | right; auto].
Qed.
(* False: that whatever Home Assistant finds announced and available is in the bridge's charge.  An area that is gone from the configuration stays announced, is shown
   as available whenever the bridge runs, in the state it had when it was last in the configuration, and commands for it are not heard. *)
Definition removed_area (cfg cfg' : Cfg) (area : N) (name : bytes) : Prop :=
  serial_number cfg' = serial_number cfg /\ topic_prefix cfg' = topic_prefix cfg /\ ha_discovery_prefix cfg' = ha_discovery_prefix cfg /\
  In (area, name) (areas cfg) /\ ~ In area (map fst (areas cfg')) /\ ~ In name (map snd (areas cfg')).
Lemma gone_topics cfg cfg' area name ha d : removed_area cfg cfg' area name -> ha_discovery_prefix cfg = Some ha -> plain_number d area ->
  ~ kept cfg' (ha ++ B "/alarm_control_panel/elk-" ++ serial_number cfg ++ B "-area-" ++ d ++ B "/config") /\
  ~ kept cfg' (topic_prefix cfg ++ B "/area/" ++ name ++ B "/ha_state").
Proof.
  intros (ES & EP & EH & HI & NA & NN) HH D. split; intros (w & T & N1 & N2).
  - assert (L := topic_last _ _ _ T). rewrite !app_assoc, config_ends in L. destruct w; try discriminate L; cbn [topic_for] in T.
    + destruct T as (ha' & n & d' & E1 & I & D' & E). rewrite EH, HH in E1. injection E1 as <-. rewrite ES in E.
      apply app_inv_head, app_inv_head, app_inv_head, app_inv_head, app_inv_tail in E. subst d'. assert (area0 = area) as -> by exact (plain_value _ _ _ D' D).
      apply NA, in_map_iff. exists (area, n). auto.
    + destruct T as (ha' & n & d' & E1 & I & D' & E). rewrite EH, HH in E1. injection E1 as <-. apply app_inv_head in E. discriminate.
  - assert (L := topic_last _ _ _ T). change (B "/ha_state") with (B "/ha_stat" ++ [101]) in L. rewrite !app_assoc, last_last in L. destruct w; try discriminate L; cbn [topic_for] in T; rewrite EP in T.
    + destruct T as (n & I & E). apply app_inv_head, app_inv_head, app_inv_tail in E. subst n. apply NN, in_map_iff. exists (area0, name). auto.
    + destruct T as (c & I & E). apply app_inv_head in E. discriminate.
Qed.
Lemma stays_held cl cfg is b log t p : bridge_after cl cfg is b -> cfg_ok cfg -> ~ kept cfg t -> holds log t p <-> holds (log ++ blog b) t p.
Proof.
  intros A K N. rewrite holds_app. assert (F : Forall (fun a => ~ touches t a) (blog b)).
  { apply Forall_forall. intros a I (q & p' & ->). exact (N (logged_kept _ _ _ _ A K _ _ _ I)). }
  split; [auto|]. intros [H|[_ H]]; [|exact H]. destruct (holds_in _ _ _ H) as (q & I). rewrite Forall_forall in F. elim (F _ I). eexists _, _. reflexivity.
Qed.
Theorem C116_removed_area_stays : forall cfgs log0 file o h cl cfg is u file' o' h' cl' cfg' is' u' ha area name,
  past cfgs log0 -> main_text file = Ok (o, h, cfg) -> bridge_after cl cfg is (Up u) -> ha_discovery_prefix cfg = Some ha ->
  main_text file' = Ok (o', h', cfg') -> bridge_after cl' cfg' is' (Up u') -> removed_area cfg cfg' area name ->
  let log := log0 ++ u_log u ++ [last_words (o_last_will o)] in
  past (cfg :: cfgs) log /\
  exists id v st ct av, text_member v (B "name") name /\ text_member v (B "state_topic") st /\ text_member v (B "command_topic") ct /\ text_member v (B "availability_topic") av /\
    announced (log ++ u_log u') ha (B "alarm_control_panel") id v /\ holds (log ++ u_log u') av (PText (B "online")) /\ takes_available v (B "online") /\
    (exists p, holds (log ++ u_log u') st p) /\
    (forall is2 b p, bridge_after cl' cfg' is2 b -> holds (u_log u) st p <-> holds (log ++ blog b) st p) /\
    (forall s c, ~ asks cfg' (ct, s) c).
Proof.
  intros cfgs log0 file o h cl cfg is u file' o' h' cl' cfg' is' u' ha area name P M A HH M' A' R log.
  assert (P1 : past (cfg :: cfgs) log).
  { eapply Past_run; [exact P | exact M | exact A|]. right. exists (length (u_log u)). cbn [blog]. rewrite firstn_all. reflexivity. }
  split; [exact P1|]. pose proof (setup_ok _ _ _ _ M) as K. pose proof (setup_ok _ _ _ _ M') as K'. pose proof R as (ES & EP & EH & HI & NA & NN).
  assert (U : area <= 255). { destruct K as ((_ & UA) & _). rewrite Forall_forall in UA. exact (UA (area, name) HI). }
  destruct (gone_topics _ _ _ _ _ _ R HH (show_u8_plain area U)) as (G1 & G2).
  destruct (area_announcement _ _ _ _ ha area name A K HH HI) as (H1 & _).
  set (st := topic_prefix cfg ++ B "/area/" ++ name ++ B "/ha_state") in *. set (ct := topic_prefix cfg ++ B "/area/" ++ name ++ B "/ha_command").
  set (v := area_discovery_json (topic_prefix cfg) cfg area name) in *. set (id := area_unique_id cfg area) in *.
  exists id, v, st, ct, (topic_prefix cfg ++ B "/availability").
  destruct (area_keys (topic_prefix cfg) cfg area name) as (fields & EF & ND & KS).
  assert (TM : forall k s, In (k, ser_str s) fields -> text_member v k s) by (intros k s I; unfold v; rewrite EF; apply text_in; assumption).
  assert (W : forall t p, last t 0 <> 121 -> holds (u_log u) t p <-> holds (u_log u ++ [last_words (o_last_will o)]) t p).
  { intros t p NL. rewrite holds_app, (will_is _ _ _ _ M). split.
    - intros H. right. split; [|exact H]. constructor; [|constructor]. intros (q & p' & [= _ E _]). apply NL. rewrite <- E. apply avail_ends.
    - intros [H|[_ H]]; [|exact H]. destruct (holds_in _ _ _ H) as (q & [[= _ E _]|[]]). elim NL. rewrite <- E. apply avail_ends. }
  assert (KP : forall p, kept cfg st -> holds (u_log u) st p <-> holds (log0 ++ u_log u) st p).
  { intros p KT. rewrite (C116_what_is_kept _ _ _ _ _ _ _ _ _ P M A). tauto. }
  assert (KS1 : kept cfg st). { exists (AreaState area). split; [exists name; auto | split; discriminate]. }
  assert (LS : last st 0 <> 121). { unfold st. change (B "/ha_state") with (B "/ha_stat" ++ [101]). rewrite !app_assoc, last_last. discriminate. }
  assert (OLD : forall p, holds (u_log u) st p <-> holds log st p).
  { intros p. unfold log. rewrite app_assoc, holds_app, <- (KP p KS1), (will_is _ _ _ _ M). split.
    - intros H. right. split; [|exact H]. constructor; [|constructor]. intros (q & p' & [= _ E _]). apply LS. rewrite <- E. apply avail_ends.
    - intros [H|[_ H]]; [|exact H]. destruct (holds_in _ _ _ H) as (q & [[= _ E _]|[]]). elim LS. rewrite <- E. apply avail_ends. }
  assert (ALW : forall is2 b p, bridge_after cl' cfg' is2 b -> holds (u_log u) st p <-> holds (log ++ blog b) st p).
  { intros is2 b p A2. rewrite OLD. exact (stays_held _ _ _ _ _ _ _ A2 K' G2). }
  split; [apply TM; unfold v in EF; injection EF as <-; cbn [In]; tauto|]. split; [apply TM; injection EF as <-; cbn [In]; tauto|].
  split; [apply TM; injection EF as <-; cbn [In]; tauto|]. split; [apply TM; injection EF as <-; cbn [In]; tauto|].
  split; [|split; [|split; [|split; [|split; [exact ALW|]]]]].
  - exists (PJson v). split; [|destruct (holds_in _ _ _ H1) as (q & HIn); exact (C79_published_text _ _ _ _ _ _ _ _ _ _ _ M A HIn)].
    refine (proj1 (stays_held cl' cfg' is' (Up u') log _ _ A' K' _) _).
    + intros X. apply G1. unfold id, area_unique_id in X. rewrite <- !app_assoc in X. exact X.
    + apply holds_right. refine (proj1 (W _ _ _) H1). rewrite !app_assoc, config_ends. discriminate.
  - apply holds_right. rewrite <- EP. destruct (all_there _ _ _ _ (topic_prefix cfg' ++ B "/availability") A' K') as (p & X); [exists Availability; split; [reflexivity | split; discriminate]|].
    destruct (holds_in _ _ _ X) as (q & I). destruct (log_avail _ _ _ _ A' K' _ _ _ I) as (_ & ->). exact X.
  - right. split; [|reflexivity]. exists fields. split; [exact EF|]. rewrite KS. cbn [In]. intuition discriminate.
  - destruct (all_there _ _ _ _ _ A K KS1) as (p & X). exists p. apply (ALW is' (Up u') p A'). exact X.
  - intros s c (a2 & n2 & lv & code2 & I2 & E & _). cbn [fst] in E. rewrite EP in E. apply app_inv_head, app_inv_head, app_inv_tail in E. subst n2. apply NN, in_map_iff. exists (a2, name). auto.
Qed.
Definition ex_text2 : bytes := q (B "{
  'elk': {'serialNumber': '0001', 'code': 1234, 'hostPort': 'elk:2101',
    'areas': {}, 'zones': {'2': {'name': 'front', 'binarySensorDeviceClass': 'door'}}},
  'mqtt': {'host': 'broker', 'haDiscoveryPrefix': 'homeassistant'}
}
").
Definition ex_cfg2 : Cfg := mkCfg (B "0001") 1234 [] [(2, mkZoneCfg (B "front") (B "door"))] None (Some (B "homeassistant")).
Lemma ex_read2 : exists o h, main_text ex_text2 = Ok (o, h, ex_cfg2).
Proof. eexists _, _. vm_compute. reflexivity. Qed.
Definition ex_up2 : up := Eval vm_compute in up_of (brun ex_cl ex_cfg2 ex_start).
Lemma ex_up2_after : bridge_after ex_cl ex_cfg2 ex_start (Up ex_up2).
Proof. split; [exact ex_start_ok|]. vm_compute. reflexivity. Qed.
Lemma ex_removed : removed_area ex_cfg ex_cfg2 1 (B "house").
Proof. repeat (split; [solve [reflexivity | left; reflexivity]|]). split; intros []. Qed.
Theorem C116_nothing_left_over_refuted : exists cfg log file o h cl cfg' is u ha id v av st ct p,
  past [cfg] log /\ main_text file = Ok (o, h, cfg') /\ bridge_after cl cfg' is (Up u) /\
  text_member v (B "availability_topic") av /\ text_member v (B "state_topic") st /\ text_member v (B "command_topic") ct /\
  announced (log ++ u_log u) ha (B "alarm_control_panel") id v /\ holds (log ++ u_log u) av (PText (B "online")) /\ takes_available v (B "online") /\
  areas cfg' = [] /\ (forall is2 b, bridge_after cl cfg' is2 b -> holds (log ++ blog b) st p) /\ (forall s c, ~ asks cfg' (ct, s) c).
Proof.
  destruct C79_example as ((o & h & M) & A & _). destruct ex_read2 as (o2 & h2 & M2).
  destruct (C116_removed_area_stays [] [] ex_text o h ex_cl ex_cfg ex_start ex_up ex_text2 o2 h2 ex_cl ex_cfg2 ex_start ex_up2 (B "homeassistant") 1 (B "house") Past_none M A eq_refl M2 ex_up2_after ex_removed)
    as (P & id & v & st & ct & av & N & ST & CT & AV & AN & ON & TA & (p & HP) & ALW & NO).
  exists ex_cfg, ([] ++ u_log ex_up ++ [last_words (o_last_will o)]), ex_text2, o2, h2, ex_cl, ex_cfg2, ex_start, ex_up2, (B "homeassistant"), id, v, av, st, ct, p.
  repeat (split; [solve [assumption | exact ex_up2_after | reflexivity]|]). split; [|exact NO]. intros is2 b A2. apply (ALW is2 b p A2). apply (ALW ex_start (Up ex_up2) p ex_up2_after). exact HP.
Qed.
(* True as long as what was once announced is still in the configuration: then all that is announced is announced by this run. *)
Definition covers (cfg' cfg : Cfg) : Prop := forall ha, ha_discovery_prefix cfg = Some ha -> ha_discovery_prefix cfg' = Some ha /\ serial_number cfg' = serial_number cfg /\
  (forall a, In a (map fst (areas cfg)) -> In a (map fst (areas cfg'))) /\ (forall z, In z (map fst (zones cfg)) -> In z (map fst (zones cfg'))).
Theorem C116_nothing_left_over_partial : forall cfgs log cfg cl is u file o h, past cfgs log -> main_text file = Ok (o, h, cfg) -> bridge_after cl cfg is (Up u) ->
  Forall (covers cfg) cfgs -> forall ha component id v, announced (log ++ u_log u) ha component id v <-> announced (u_log u) ha component id v.
Proof.
  intros cfgs log cfg cl is u file o h P M A C ha component id v.
  assert (X : forall p, holds (log ++ u_log u) (ha ++ B "/" ++ component ++ B "/" ++ id ++ B "/config") p <-> holds (u_log u) (ha ++ B "/" ++ component ++ B "/" ++ id ++ B "/config") p).
  { intros p. split; [|apply holds_right]. intros H. apply (C116_what_is_kept _ _ _ _ _ _ _ _ _ P M A) in H as [[_ H]|[N H]]; [exact H|]. exfalso. apply N.
    destruct (C116_from_the_configurations _ _ P _ _ H) as (c & I & (w & T & N1 & N2)). rewrite Forall_forall in C. specialize (C _ I).
    pose proof (topic_last _ _ _ T) as L. rewrite !app_assoc, config_ends in L. exists w. split; [|auto]. destruct w; try discriminate L; cbn [topic_for] in *.
    - destruct T as (ha' & n & d & EH & HI & D & E). destruct (C _ EH) as (EH' & ES & IA & _). specialize (IA _ (in_map fst _ _ HI)). apply in_map_iff in IA as ([a' n'] & E' & HI'). cbn [fst] in E'. subst a'.
      exists ha', n', d. rewrite ES. auto.
    - destruct T as (ha' & n & d & EH & HI & D & E). destruct (C _ EH) as (EH' & ES & _ & IA). specialize (IA _ (in_map fst _ _ HI)). apply in_map_iff in IA as ([a' n'] & E' & HI'). cbn [fst] in E'. subst a'.
      exists ha', n', d. rewrite ES. auto. }
  unfold announced. split; intros (p & H & D); exists p; (split; [apply X, H | exact D]).
Qed.

(* ---- a case ---- *)
Lemma one_run file o h cfg cl is u : main_text file = Ok (o, h, cfg) -> bridge_after cl cfg is (Up u) -> past [cfg] (u_log u ++ [last_words (o_last_will o)]).
Proof.
  intros M A. apply (Past_run [] [] file o h cfg cl is (Up u)); [exact Past_none | exact M | exact A|]. right. exists (length (u_log u)). cbn [blog]. rewrite firstn_all. reflexivity.
Qed.
Lemma ends_offline file o h cfg l : main_text file = Ok (o, h, cfg) -> holds (l ++ [last_words (o_last_will o)]) (topic_prefix cfg ++ B "/availability") (PText (B "offline")).
Proof.
  intros M. rewrite (will_is _ _ _ _ M). apply holds_right. exists AtLeastOnce, [], []. split; [reflexivity | intros ? ? []].
Qed.
Lemma up_online cl cfg is u : bridge_after cl cfg is (Up u) -> cfg_ok cfg -> holds (u_log u) (topic_prefix cfg ++ B "/availability") (PText (B "online")).
Proof.
  intros A K. destruct (all_there _ _ _ _ (topic_prefix cfg ++ B "/availability") A K) as (p & X); [exists Availability; split; [reflexivity | split; discriminate]|].
  destruct (holds_in _ _ _ X) as (q & I). destruct (log_avail _ _ _ _ A K _ _ _ I) as (_ & ->). exact X.
Qed.
(* A run with the area and the zone, which ends; another without the area; in between it is unavailable.  The second covers what the first announced only the other way round. *)
Example C116_example : exists o h o2 h2, main_text ex_text = Ok (o, h, ex_cfg) /\ main_text ex_text2 = Ok (o2, h2, ex_cfg2) /\
  bridge_after ex_cl ex_cfg ex_start (Up ex_up) /\ bridge_after ex_cl ex_cfg2 ex_start (Up ex_up2) /\ removed_area ex_cfg ex_cfg2 1 (B "house") /\
  past [ex_cfg] (u_log ex_up ++ [last_words (o_last_will o)]) /\ past [ex_cfg2] (u_log ex_up2 ++ [last_words (o_last_will o2)]) /\
  covers ex_cfg ex_cfg2 /\ ~ covers ex_cfg2 ex_cfg /\
  holds (u_log ex_up ++ [last_words (o_last_will o)]) (B "elkm1/0001/availability") (PText (B "offline")) /\
  holds ((u_log ex_up ++ [last_words (o_last_will o)]) ++ u_log ex_up2) (B "elkm1/0001/availability") (PText (B "online")) /\
  kept ex_cfg (B "elkm1/0001/area/house/ha_state") /\ ~ kept ex_cfg2 (B "elkm1/0001/area/house/ha_state").
Proof.
  destruct C79_example as ((o & h & M) & A & _). destruct ex_read2 as (o2 & h2 & M2). exists o, h, o2, h2.
  split; [exact M|]. split; [exact M2|]. split; [exact A|]. split; [exact ex_up2_after|]. split; [exact ex_removed|].
  split; [exact (one_run _ _ _ _ _ _ _ M A)|]. split; [exact (one_run _ _ _ _ _ _ _ M2 ex_up2_after)|].
  split; [intros ha [= <-]; repeat split; try reflexivity; cbn; tauto|].
  split; [intros C; destruct (C _ eq_refl) as (_ & _ & C1 & _); destruct (C1 1 (or_introl eq_refl))|].
  split; [exact (ends_offline _ _ _ _ _ M)|]. split; [exact (holds_right _ _ _ _ (up_online _ _ _ _ ex_up2_after (setup_ok _ _ _ _ M2)))|].
  split; [exists (AreaState 1); split; [exists (B "house"); split; [left; reflexivity | reflexivity] | split; discriminate]|].
  exact (proj2 (gone_topics _ _ _ _ _ _ ex_removed eq_refl (show_u8_plain 1 ltac:(discriminate)))).
Qed.

Print Assumptions C116_from_the_configurations.
Print Assumptions C116_unavailable_between.
Print Assumptions C116_available_while_running.
Print Assumptions C116_online_means_fresh.
Print Assumptions C116_what_is_kept.
Print Assumptions C116_removed_area_stays.
Print Assumptions C116_nothing_left_over_refuted.
Print Assumptions C116_nothing_left_over_partial.
Print Assumptions C116_example.
