(* PropMore.v: C131, a configuration and a larger one (main.rs of elkm1-mqtt). *)
From Verif Require Import Base BaseFacts Pkt SpecPkt PktFacts DecodeFacts Msg SpecMsg DecFacts MsgFacts WireFacts IsoFacts
  Tokio SpecConn ConnFacts State SpecState StateFacts RunFacts HistFacts ExState PropState PropMsg Serde SerdeFacts PropSerde
  Mqtt MqttFacts Config SpecMqtt SpecConfig PropMqtt PropConfig BridgeText SpecJson JsonFacts JsonWrite ShowFacts TextFacts PropText SpecOrder PropOrder SpecMore SpecMqtt.
From Coq Require Import ZifyBool ZifyNat ZifyN.
Ltac Zify.zify_post_hook ::= Z.div_mod_to_equations.

(* ---- a block of publishes, one for each of some things ---- *)
Lemma block_none {A} (R : A -> action -> Prop) (g : A -> bytes) xs l t : (forall x a, R x a -> exists q r p, a = APublishQ q (g x) r p) ->
  Forall2 R xs l -> (forall x, In x xs -> g x <> t) -> filter (on_topic t) l = [].
Proof.
  intros S F. induction F as [|x a xs l H F IH]; intros N; [reflexivity|]. cbn [filter]. destruct (S _ _ H) as (q & r & p & ->). cbn [on_topic].
  destruct (beq_spec t (g x)) as [->|_]; [elim (N x (or_introl eq_refl)); reflexivity|]. apply IH. intros y I. apply N. right. exact I.
Qed.
Lemma block_one {A} (R : A -> action -> Prop) (g : A -> bytes) xs l x : (forall x a, R x a -> exists q r p, a = APublishQ q (g x) r p) ->
  Forall2 R xs l -> NoDup (map g xs) -> In x xs -> exists a, R x a /\ filter (on_topic (g x)) l = [a].
Proof.
  intros S F. induction F as [|y a xs l H F IH]; intros N I; [destruct I|]. cbn [map] in N. inversion N as [|? ? N1 N2]; subst. cbn [filter].
  destruct (S _ _ H) as (q & r & p & EA). destruct I as [->|I].
  - exists a. split; [exact H|]. rewrite EA at 1. cbn [on_topic]. rewrite beq_refl. f_equal. apply (block_none R g xs l (g x) S F).
    intros z IZ E. apply N1. rewrite <- E. apply in_map. exact IZ.
  - destruct (IH N2 I) as (b & HB & EB). exists b. split; [exact HB|]. rewrite EA at 1. cbn [on_topic]. destruct (beq_spec (g x) (g y)) as [E|_]; [|exact EB].
    elim N1. rewrite <- E. apply in_map. exact I.
Qed.
Lemma block {A} (R R' : A -> action -> Prop) (g : A -> bytes) xs l ys l' t : (forall x a, R x a -> exists q r p, a = APublishQ q (g x) r p) ->
  (forall x a, R' x a -> R x a) -> (forall x a a', R x a -> R x a' -> a = a') -> Forall2 R xs l -> Forall2 R' ys l' -> incl xs ys -> NoDup (map g xs) -> NoDup (map g ys) ->
  (forall y, In y ys -> g y = t -> exists x, In x xs /\ g x = t) -> filter (on_topic t) l = filter (on_topic t) l'.
Proof.
  intros S RR U F F' IN N N' H. assert (S' : forall x a, R' x a -> exists q r p, a = APublishQ q (g x) r p) by (intros x a K; apply S, RR, K).
  destruct (in_dec (list_eq_dec N.eq_dec) t (map g xs)) as [I|I].
  - apply in_map_iff in I as (x & <- & I). destruct (block_one R g xs l x S F N I) as (a & HA & ->). destruct (block_one R' g ys l' x S' F' N' (IN _ I)) as (b & HB & ->).
    f_equal. apply (U x); [exact HA | apply RR; exact HB].
  - rewrite (block_none R g xs l t S F), (block_none R' g ys l' t S' F'); [reflexivity| |].
    + intros y IY E. destruct (H y IY E) as (x & IX & EX). apply I. rewrite <- EX. apply in_map. exact IX.
    + intros x IX E. apply I. rewrite <- E. apply in_map. exact IX.
Qed.
Lemma area_pub_fun prefix p x a a' : area_pub prefix p x a -> area_pub prefix p x a' -> a = a'.
Proof.
  intros (t & (r & s & u & b & S & I & H) & ->) (t' & (r' & s' & u' & b' & S' & I' & H') & ->). assert (r = r') by (unfold status_is in *; congruence). subst r'.
  destruct I as (I1 & I2 & I3), I' as (J1 & J2 & J3). assert (s = s') by congruence. assert (u = u') by congruence. assert (b = b') by congruence. subst.
  rewrite (shows_area_fun _ _ _ _ _ H H'). reflexivity.
Qed.
Lemma zone_pub_fun prefix p x a a' : zone_pub prefix p x a -> zone_pub prefix p x a' -> a = a'.
Proof.
  intros (t & (s & S & H) & ->) (t' & (s' & S' & H') & ->). destruct S as (zs & E1 & E2), S' as (zs' & F1 & F2). assert (zs = zs') by congruence. subst zs'.
  assert (s = s') by congruence. subst s'. rewrite (shows_zone_fun _ _ _ H H'). reflexivity.
Qed.

(* ---- topics ---- *)
Section Two.
Variables (cl : client) (cfg cfg' : Cfg).
Hypotheses (EX : extends cfg cfg') (KO : cfg_ok cfg) (KO' : cfg_ok cfg') (NA : distinct_area_names cfg') (NZ : distinct_zone_names cfg').
Let IA : incl (areas cfg) (areas cfg').
Proof. apply EX. Qed.
Let IZ : incl (zones cfg) (zones cfg').
Proof. apply EX. Qed.
Let EP : topic_prefix cfg' = topic_prefix cfg.
Proof. destruct EX as (ES & _ & _ & _ & ET & _). unfold topic_prefix. rewrite ET, ES. reflexivity. Qed.
Let EH : ha_discovery_prefix cfg' = ha_discovery_prefix cfg.
Proof. apply EX. Qed.
Let ES : serial_number cfg' = serial_number cfg.
Proof. apply EX. Qed.
Lemma na : distinct_area_names cfg.
Proof. apply nodup_map; [eapply NoDup_map_inv; exact (proj1 (proj1 KO))|]. intros x y HX HY. apply (nodup_inj snd (areas cfg')); auto. Qed.
Lemma nz : distinct_zone_names cfg.
Proof. apply nodup_map; [eapply NoDup_map_inv; exact (proj1 (proj2 KO))|]. intros x y HX HY. apply (nodup_inj (fun x => z_name (snd x)) (zones cfg')); auto. Qed.
Lemma topic_more w t : topic_for cfg w t -> topic_for cfg' w t.
Proof.
  destruct w; cbn [topic_for]; rewrite ?EP, ?EH, ?ES; intros H; try exact H.
  - destruct H as (n & I & H). exists n. split; [apply IA; exact I | exact H].
  - destruct H as (n & I & H). exists n. split; [apply IA; exact I | exact H].
  - destruct H as (n & I & H). exists n. split; [apply IZ; exact I | exact H].
  - destruct H as (ha & n & d & H1 & I & H). exists ha, n, d. split; [exact H1|]. split; [apply IA; exact I | exact H].
  - destruct H as (ha & n & d & H1 & I & H). exists ha, n, d. split; [exact H1|]. split; [apply IZ; exact I | exact H].
Qed.
Lemma topic_less w w' t : topic_for cfg w t -> topic_for cfg' w' t -> topic_for cfg w' t.
Proof. intros H H'. rewrite <- (C68_own_topics_partial cfg' w w' t NA NZ (topic_more _ _ H) H'). exact H. Qed.

(* ---- the blocks ---- *)
Definition same_on (l l' : list action) : Prop := forall w t, topic_for cfg w t -> filter (on_topic t) l = filter (on_topic t) l'.
Lemma same_on_app a b a' b' : same_on a a' -> same_on b b' -> same_on (a ++ b) (a' ++ b').
Proof. intros H H' w t T. rewrite !filter_app, (H w t T), (H' w t T). reflexivity. Qed.
Lemma same_on_refl l : same_on l l.
Proof. intros w t _. reflexivity. Qed.
Lemma areas_on p l l' : Forall2 (area_pub (topic_prefix cfg) p) (areas cfg) l -> Forall2 (area_pub (topic_prefix cfg') p) (areas cfg') l' -> same_on l l'.
Proof.
  intros F F' w t T. rewrite EP in F'. refine (block _ _ (fun x => area_state_topic (topic_prefix cfg) (snd x)) _ _ _ _ t _ _ _ F F' IA _ _ _).
  - intros x a (s & _ & ->). eauto.
  - auto.
  - intros x a a'. apply area_pub_fun.
  - apply nodup_map; [eapply NoDup_map_inv; exact na|]. intros x y HX HY E. apply (nodup_inj snd _ x y na HX HY), (area_topic_inj _ _ _ E).
  - apply nodup_map; [eapply NoDup_map_inv; exact NA|]. intros x y HX HY E. apply (nodup_inj snd _ x y NA HX HY), (area_topic_inj _ _ _ E).
  - intros [k n] I E. cbn [snd] in E. assert (T' : topic_for cfg' (AreaState k) t) by (exists n; split; [exact I|]; rewrite EP, <- E; reflexivity).
    destruct (topic_less _ _ _ T T') as (m & IM & EM). exists (k, m). split; [exact IM | rewrite EM; reflexivity].
Qed.
Lemma zones_on p l l' : Forall2 (zone_pub (topic_prefix cfg) p) (zones cfg) l -> Forall2 (zone_pub (topic_prefix cfg') p) (zones cfg') l' -> same_on l l'.
Proof.
  intros F F' w t T. rewrite EP in F'. refine (block _ _ (fun x => zone_state_topic (topic_prefix cfg) (z_name (snd x))) _ _ _ _ t _ _ _ F F' IZ _ _ _).
  - intros x a (s & _ & ->). eauto.
  - auto.
  - intros x a a'. apply zone_pub_fun.
  - apply nodup_map; [eapply NoDup_map_inv; exact nz|]. intros x y HX HY E. apply (nodup_inj _ _ x y nz HX HY), (zone_topic_inj _ _ _ E).
  - apply nodup_map; [eapply NoDup_map_inv; exact NZ|]. intros x y HX HY E. apply (nodup_inj _ _ x y NZ HX HY), (zone_topic_inj _ _ _ E).
  - intros [k n] I E. cbn [snd] in E. assert (T' : topic_for cfg' (ZoneState k) t) by (exists n; split; [exact I|]; rewrite EP, <- E; reflexivity).
    destruct (topic_less _ _ _ T T') as (m & IM & EM). exists (k, m). split; [exact IM | rewrite EM; reflexivity].
Qed.
Lemma discovery_on l l' : discovery cfg l -> discovery cfg' l' -> same_on l l'.
Proof.
  pose proof topic_less as TL. pose proof EH as EH2. unfold discovery. rewrite EH2. destruct (ha_discovery_prefix cfg) as [ha|] eqn:EHA; [|intros -> ->; apply same_on_refl].
  intros (la & lz & -> & FA & FZ) (la' & lz' & -> & FA' & FZ'). rewrite EP in FA', FZ'.
  assert (EA : forall n, area_unique_id cfg' n = area_unique_id cfg n) by (intros n; unfold area_unique_id; rewrite ES; reflexivity).
  assert (EZ : forall n, zone_unique_id cfg' n = zone_unique_id cfg n) by (intros n; unfold zone_unique_id; rewrite ES; reflexivity).
  pose proof (proj1 KO) as KA. pose proof (proj2 KO) as KZ. pose proof (proj1 KO') as KA'. pose proof (proj2 KO') as KZ'.
  apply same_on_app; intros w t T.
  - refine (block _ _ (fun x => (fun n => ha ++ B "/alarm_control_panel/" ++ area_unique_id cfg n ++ B "/config") (fst x)) _ _ _ _ t _ _ _ FA FA' IA _ _ _).
    + intros x a ->. eauto.
    + intros x a ->. unfold area_disc, area_discovery_json, device_json. rewrite EA, ES. reflexivity.
    + intros x a a' -> ->. reflexivity.
    + apply (ids_nodup _ (fun n => ha ++ B "/alarm_control_panel/" ++ area_unique_id cfg n ++ B "/config") KA). intros a b E.
      apply app_inv_head in E. apply app_inv_head in E. apply app_inv_tail in E. unfold area_unique_id in E. do 3 apply app_inv_head in E. exact E.
    + apply (ids_nodup _ (fun n => ha ++ B "/alarm_control_panel/" ++ area_unique_id cfg n ++ B "/config") KA'). intros a b E.
      apply app_inv_head in E. apply app_inv_head in E. apply app_inv_tail in E. unfold area_unique_id in E. do 3 apply app_inv_head in E. exact E.
    + intros [k n] I E. cbn [fst] in E. destruct KA' as (_ & KA'). rewrite Forall_forall in KA'. assert (T' : topic_for cfg' (AreaAnnouncement k) t).
      { exists ha, n, (show_u8 k). rewrite EH2. split; [exact EHA || reflexivity|]. split; [exact I|]. split; [apply show_u8_plain; exact (KA' _ I)|]. rewrite <- E, ES. unfold area_unique_id.
        change (B "/alarm_control_panel/elk-") with (B "/alarm_control_panel/" ++ B "elk-"). rewrite <- !app_assoc. reflexivity. }
      destruct (TL _ _ _ T T') as (ha2 & m & d & _ & IM & _). exists (k, m). split; [exact IM | exact E].
  - refine (block _ _ (fun x => (fun n => ha ++ B "/binary_sensor/" ++ zone_unique_id cfg n ++ B "/config") (fst x)) _ _ _ _ t _ _ _ FZ FZ' IZ _ _ _).
    + intros x a ->. eauto.
    + intros x a ->. unfold zone_disc, zone_discovery_json, device_json. rewrite EZ, ES. reflexivity.
    + intros x a a' -> ->. reflexivity.
    + apply (ids_nodup _ (fun n => ha ++ B "/binary_sensor/" ++ zone_unique_id cfg n ++ B "/config") KZ). intros a b E.
      apply app_inv_head in E. apply app_inv_head in E. apply app_inv_tail in E. unfold zone_unique_id in E. do 3 apply app_inv_head in E. exact E.
    + apply (ids_nodup _ (fun n => ha ++ B "/binary_sensor/" ++ zone_unique_id cfg n ++ B "/config") KZ'). intros a b E.
      apply app_inv_head in E. apply app_inv_head in E. apply app_inv_tail in E. unfold zone_unique_id in E. do 3 apply app_inv_head in E. exact E.
    + intros [k n] I E. cbn [fst] in E. destruct KZ' as (_ & KZ'). rewrite Forall_forall in KZ'. assert (T' : topic_for cfg' (ZoneAnnouncement k) t).
      { exists ha, n, (show_u8 k). rewrite EH2. split; [exact EHA || reflexivity|]. split; [exact I|]. split; [apply show_u8_plain; exact (KZ' _ I)|]. rewrite <- E, ES. unfold zone_unique_id.
        change (B "/binary_sensor/elk-") with (B "/binary_sensor/" ++ B "elk-"). rewrite <- !app_assoc. reflexivity. }
      destruct (TL _ _ _ T T') as (ha2 & m & d & _ & IM & _). exists (k, m). split; [exact IM | exact E].
Qed.
Lemma start_on p l l' c c' : reachable p -> start_up cl cfg p = (l, Ok c) -> start_up cl cfg' p = (l', Ok c') -> c = c' /\ same_on l l'.
Proof.
  intros R E E'. destruct (start_up_ok _ _ _ _ _ R E) as (_ & D & _ & ld & la & lz & fs & -> & HD & HA & HZ & _).
  destruct (start_up_ok _ _ _ _ _ R E') as (_ & D' & _ & ld' & la' & lz' & fs' & -> & HD' & HA' & HZ' & _). destruct EX as (_ & EC & _). rewrite EC in D'.
  split; [exact (dec_canon_fun _ _ _ _ D D')|]. apply same_on_app; [apply discovery_on; assumption|]. apply same_on_app; [apply (areas_on p); assumption|].
  apply same_on_app; [apply (zones_on p); assumption|]. rewrite EP. intros w t _. reflexivity.
Qed.
Lemma handle_on p e l l' : reachable p -> in_range cfg -> in_range cfg' -> handle_event cl cfg p e = (l, Ok tt) -> handle_event cl cfg' p e = (l', Ok tt) -> same_on l l'.
Proof.
  intros R RG RG' E E'. destruct (handle_event_ok _ _ _ _ _ R RG E) as (v & k & EV & -> & HE & _). destruct (handle_event_ok _ _ _ _ _ R RG' E') as (v' & k' & EV' & -> & HE' & _).
  rewrite EP. assert (v' = v) by congruence. subst v'. apply (same_on_app [_] k [_] k'); [apply same_on_refl|]. unfold event_pubs in *.
  destruct (e_change e) as [[z s|r]|]; [| apply (areas_on p); assumption | subst; apply same_on_refl].
  destruct HE as [(c & a & I & HP & ->)|(NI & ->)], HE' as [(c' & a' & I' & HP' & ->)|(NI' & ->)].
  - assert (c = c') as <- by exact (key_unique _ _ _ _ (proj1 (proj2 KO')) (IZ _ I) I'). rewrite EP in HP'. rewrite (zone_pub_fun _ _ _ _ _ HP HP'). apply same_on_refl.
  - elim (NI' c (IZ _ I)).
  - intros w t T. cbn [filter]. destruct HP' as (x & _ & ->). cbn [on_topic fst snd]. destruct (beq_spec t (zone_state_topic (topic_prefix cfg') (z_name c'))) as [->|_]; [|reflexivity].
    destruct (topic_less w (ZoneState z) _ T ltac:(exists c'; split; [exact I' | reflexivity])) as (m & IM & _). elim (NI m IM).
  - apply same_on_refl.
Qed.
Hypothesis (SUB : accepts_filters cl cfg).
Lemma accepts_less p l' c' : reachable p -> start_up cl cfg' p = (l', Ok c') -> exists l c, start_up cl cfg p = (l, Ok c).
Proof.
  intros R E. destruct (start_up_accepts _ _ _ _ _ R E) as ((TA & TZ) & TO & _ & TD). destruct (start_up_ok _ _ _ _ _ R E) as ((RA & RZ & RC) & _).
  assert (EC : code cfg' = code cfg) by apply EX. rewrite EC in RC. rewrite EP in TA, TZ, TO. rewrite EH in TD. unfold area_unique_id, zone_unique_id in TD. rewrite ES in TD.
  rewrite Forall_forall in RA, RZ, TA, TZ.
  apply start_up_succeeds; [exact R | | ].
  - split; [|split; [|exact RC]]; apply Forall_forall; auto.
  - split; [split; apply Forall_forall; auto|]. split; [exact TO|]. split; [exact SUB|]. intros ha EHA. destruct (TD ha EHA) as [D1 D2]. rewrite Forall_forall in D1, D2.
    split; apply Forall_forall; intros x I; [exact (D1 x (IA x I)) | exact (D2 x (IZ x I))].
Qed.
Definition keeps (is : list input) (b b' : bridge) : Prop :=
  match b, b' with
  | _, Dead _ _ => True
  | Connecting s rx, Connecting s' rx' => s = s' /\ rx = rx'
  | Up u, Up u' => u_panel u' = u_panel u /\ u_code u' = u_code u /\ u_mode u' = u_mode u /\ u_rx u' = u_rx u /\ same_on (u_log u) (u_log u') /\ incl (u_rx u) (mqtt_in is)
  | _, _ => False
  end.
Lemma keeps_run is : Forall input_ok is -> for_both cfg cfg' is -> keeps is (brun cl cfg is) (brun cl cfg' is).
Proof.
  induction is as [|i is IH] using rev_ind; intros HI FB; [split; reflexivity|].
  apply Forall_app in HI as [HI Hi]. assert (FB0 : for_both cfg cfg' is) by (intros m c I; apply FB; rewrite mqtt_in_app; apply in_or_app; left; exact I).
  specialize (IH HI FB0). rewrite !brun_snoc. pose proof (brun_cases cl cfg is HI) as BC.
  assert (IW : incl (mqtt_in is) (mqtt_in (is ++ [i]))) by (rewrite mqtt_in_app; apply incl_appl, incl_refl).
  destruct (brun cl cfg is) as [s rx|u|l w] eqn:EB, (brun cl cfg' is) as [s' rx'|u'|l' w'] eqn:EB'; cbn [keeps] in IH; try contradiction;
    try (change (bstep cl cfg' (Dead l' w') i) with (Dead l' w'); destruct (bstep cl cfg _ _); exact Logic.I); try exact Logic.I.
  - destruct IH as [<- <-]. destruct i as [a|t pl| |now ws|now| |ws]; cbn [bstep]; try (split; reflexivity).
    destruct BC as (-> & h & HO & -> & _). unfold after_connect.
    assert (EI : irun conn_new (h ++ [IStep now ws]) = istep now ws (irun conn_new h)) by (rewrite irun_step; reflexivity).
    destruct (istep now ws (irun conn_new h)) as [st ph p|p|er|why] eqn:EST; try exact Logic.I; [split; reflexivity|].
    assert (C : connected p) by (exists (h ++ [IStep now ws]); split; [apply Forall_app; split; [exact HO | repeat constructor] | exact EI]).
    unfold settle. destruct (start_up cl cfg' p) as [l' [c'|er|why]] eqn:E'; try (destruct (start_up cl cfg p) as [? []]; exact Logic.I).
    destruct (accepts_less _ _ _ (connected_reachable _ C) E') as (l & c & E). rewrite E. destruct (start_on _ _ _ _ _ (connected_reachable _ C) E E') as (<- & S).
    cbn [keeps app u_panel u_code u_mode u_rx u_log]. repeat (split; [reflexivity|]). split; [exact S | exact IW].
  - destruct IH as (E1 & E2 & E3 & E4 & L & IR). clear BC.
    assert (BI : binv cl cfg u).
    { assert (BU : bridge_after cl cfg is (Up u)) by (split; auto). assert (A : bridge_after cl cfg (is ++ []) (Up u)) by (rewrite app_nil_r; exact BU). apply (bridge_between _ _ _ _ _ _ BU A). }
    assert (BI' : binv cl cfg' u').
    { assert (BU : bridge_after cl cfg' is (Up u')) by (split; auto). assert (A : bridge_after cl cfg' (is ++ []) (Up u')) by (rewrite app_nil_r; exact BU). apply (bridge_between _ _ _ _ _ _ BU A). }
    destruct BI as (R & RG & DC & AC & _), BI' as (_ & RG' & DC' & _).
    destruct u as [pp cc m rx lg], u' as [pp' cc' m' rx' lg']. cbn [u_panel u_code u_mode u_rx u_log] in *. subst pp' cc' m' rx'.
    assert (IR2 : incl rx (mqtt_in (is ++ [i]))) by (eapply incl_tran; eassumption).
    assert (K : forall p' m', keeps (is ++ [i]) (Up (mkUp p' cc m' rx lg)) (Up (mkUp p' cc m' rx lg'))) by (intros p' m'; repeat (split; [reflexivity|]); split; assumption).
    assert (SF : forall ws q, keeps (is ++ [i]) (poll_send_flush ws (mkUp q cc m rx lg)) (poll_send_flush ws (mkUp q cc m rx lg'))).
    { intros ws q. unfold poll_send_flush. cbn [u_panel u_log]. destruct (poll_flush ws q) as [q' [|[[]|er]]]; [apply K..|exact Logic.I]. }
    destruct i as [a|t pl| |now ws|now| |ws]; cbn [bstep u_panel u_code u_mode u_rx u_log set_panel]; try apply K; [|exact Logic.I|..].
    + repeat (split; [reflexivity|]). split; [exact L|]. cbn [u_rx]. apply incl_app; [exact IR2|]. rewrite mqtt_in_app. apply incl_appr. intros x [<-|[]]. left. reflexivity.
    + destruct m as [|c|]; try apply K. destruct (poll_next now pp) as [[[p r] w]|er|why] eqn:EN; try exact Logic.I.
      assert (RP : reachable p) by (eapply (reachable_step pp (PollNext now)); [exact R | exact Logic.I | cbn [step]; rewrite EN; reflexivity]).
      destruct r as [|[[e|er]|]]; [apply K| |exact Logic.I..].
      unfold settle. destruct (handle_event cl cfg' p e) as [k' [[]|er|why]] eqn:E'; try (destruct (handle_event cl cfg p e) as [? [[]| |]]; exact Logic.I).
      destruct (handle_event_ok _ _ _ _ _ RP RG' E') as (v & _ & EV & _ & _ & TE). rewrite EP in TE.
      destruct (handle_event_succeeds cl cfg p e v RP RG AC TE EV) as (k & E). rewrite E. pose proof (handle_on p e k k' RP RG RG' E E') as S.
      cbn [keeps u_panel u_code u_mode u_rx u_log]. repeat (split; [reflexivity|]). split; [apply same_on_app; assumption | exact IR2].
    + destruct m as [|c|]; try apply K. destruct rx as [|[t pl] rx]; [apply K|].
      assert (IR3 : incl rx (mqtt_in (is ++ [PollRx]))) by (intros x I; apply IR2; right; exact I).
      assert (FBM : forall c, asks cfg' (t, pl) c -> asks cfg (t, pl) c) by (intros c; apply FB, IR2; left; reflexivity).
      assert (UP : forall c, asks cfg (t, pl) c -> asks cfg' (t, pl) c).
      { intros c (ar & n & lv & cd & I & H). exists ar, n, lv, cd. split; [apply IA; exact I|]. rewrite EP. assert (EC : code cfg' = code cfg) by apply EX. rewrite EC. exact H. }
      pose proof (requested_spec cfg cc t pl RG DC) as Q. pose proof (requested_spec cfg' cc t pl RG' DC') as Q'.
      destruct (requested (topic_prefix cfg') cc (areas cfg') t pl) as [o'|er'|w']; [|contradiction|].
      2:{ destruct (requested (topic_prefix cfg) cc (areas cfg) t pl) as [[c|]|er|w]; exact Logic.I. }
      destruct Q' as (A' & U' & _).
      destruct (requested (topic_prefix cfg) cc (areas cfg) t pl) as [o|er|w]; [|contradiction|].
      2:{ destruct Q as (Q1 & a & n & I & ->). destruct U' as [U'|U']; [congruence|]. elim (U' a n (IA _ I)). rewrite EP. reflexivity. }
      destruct Q as (A & _). assert (o' = o) as ->.
      { destruct o as [c|], o' as [c'|]; cbn [asked] in A, A'; [f_equal; exact (asks_fun _ _ _ _ NA A' (UP _ A)) | elim (A' _ (UP _ A)) | elim (A _ (FBM _ A')) | reflexivity]. }
      destruct o; repeat (split; [reflexivity|]); split; assumption.
    + destruct m as [|c|]; [apply K| |apply SF].
      destruct (poll_ready TASK ws pp) as [q [|[[]|er]]]; [apply K| |exact Logic.I]. destruct (start_send c q) as [q'|er|why]; [apply SF|exact Logic.I..].
Qed.
End Two.

(* ---- C131 ---- *)
(* False as stated: another area of the same name is shown, and commanded, on the same topics. *)
Definition ex_cfg_1 : Cfg := mkCfg (B "0001") 1234 [(1, B "house")] [] None (Some (B "homeassistant")).
Theorem C131_more_refuted : exists cl cfg cfg' is u u' t, extends cfg cfg' /\ cfg_ok cfg /\ cfg_ok cfg' /\ accepts_filters cl cfg /\ mqtt_in is = [] /\
  bridge_after cl cfg is (Up u) /\ bridge_after cl cfg' is (Up u') /\ topic_for cfg (AreaState 1) t /\
  holds (u_log u) t (PText (B "triggered")) /\ holds (u_log u') t (PText (B "disarmed")).
Proof.
  exists ex_cl, ex_cfg_1, ex_cfg_12, ex_alarm, (up_of (brun ex_cl ex_cfg_1 ex_alarm)), (up_of (brun ex_cl ex_cfg_12 ex_alarm)), (B "elkm1/0001/area/house/ha_state").
  split; [repeat split; try apply incl_refl; intros x [<-|[]]; left; reflexivity|].
  split; [split; (split; [repeat constructor; cbn; intuition discriminate | repeat constructor; discriminate])|].
  split; [split; (split; [repeat constructor; cbn; intuition discriminate | repeat constructor; discriminate])|].
  split; [vm_compute; reflexivity|]. split; [vm_compute; reflexivity|].
  split; [split; [exact ex_alarm_ok | vm_compute; reflexivity]|]. split; [split; [exact ex_alarm_ok | vm_compute; reflexivity]|].
  split; [exists (B "house"); split; [left; reflexivity | vm_compute; reflexivity]|]. split; exists AtLeastOnce.
  - exists (removelast (u_log (up_of (brun ex_cl ex_cfg_1 ex_alarm)))), []. split; [vm_compute; reflexivity | intros q p []].
  - exists (removelast (u_log (up_of (brun ex_cl ex_cfg_12 ex_alarm)))), []. split; [vm_compute; reflexivity | intros q p []].
Qed.
(* With distinct names: while a bridge with more areas and zones runs, one with fewer would be running too, with the panel in the same
   state, the same command being sent, and the same messages waiting; on each of its topics it would have published exactly the same. *)
Theorem C131_more_partial : forall cl cfg cfg' is u', extends cfg cfg' -> cfg_ok cfg -> cfg_ok cfg' -> distinct_area_names cfg' -> distinct_zone_names cfg' ->
  accepts_filters cl cfg -> for_both cfg cfg' is -> bridge_after cl cfg' is (Up u') ->
  exists u, bridge_after cl cfg is (Up u) /\ u_panel u = u_panel u' /\ u_mode u = u_mode u' /\ u_rx u = u_rx u' /\
    forall w t, topic_for cfg w t -> filter (on_topic t) (u_log u) = filter (on_topic t) (u_log u').
Proof.
  intros cl cfg cfg' is u' EX KO KO' NA NZ SUB FB (HI & E). pose proof (keeps_run cl cfg cfg' EX KO KO' NA NZ SUB is HI FB) as K. rewrite E in K.
  destruct (brun cl cfg is) as [s rx|u|l w] eqn:EB; cbn [keeps] in K; try contradiction. destruct K as (E1 & _ & E3 & E4 & L & _).
  exists u. split; [split; auto|]. split; [symmetry; exact E1|]. split; [symmetry; exact E3|]. split; [symmetry; exact E4|]. exact L.
Qed.
(* so the panel was sent the same, and the broker retains the same for each area and zone of the smaller configuration *)
Theorem C131_retained_partial : forall cl cfg cfg' is u', extends cfg cfg' -> cfg_ok cfg -> cfg_ok cfg' -> distinct_area_names cfg' -> distinct_zone_names cfg' ->
  accepts_filters cl cfg -> for_both cfg cfg' is -> bridge_after cl cfg' is (Up u') ->
  exists u, bridge_after cl cfg is (Up u) /\ sent (p_conn (u_panel u)) = sent (p_conn (u_panel u')) /\
    forall w t p, topic_for cfg w t -> holds (u_log u) t p <-> holds (u_log u') t p.
Proof.
  intros cl cfg cfg' is u' EX KO KO' NA NZ SUB FB A. destruct (C131_more_partial cl cfg cfg' is u' EX KO KO' NA NZ SUB FB A) as (u & AU & EPP & _ & _ & L).
  exists u. split; [exact AU|]. split; [rewrite EPP; reflexivity|]. intros w t p T. rewrite (holds_filter (u_log u)), (holds_filter (u_log u')), (L w t T). tauto.
Qed.
(* One area and one zone, then a second of each: the same disarm request is handed over, and the larger bridge has published more. *)
Definition ex_cfg_a : Cfg := mkCfg (B "0001") 1234 [(1, B "house")] [(2, mkZoneCfg (B "front") (B "door"))] None (Some (B "homeassistant")).
Example C131_example : extends ex_cfg_a ex_cfg_ab /\ cfg_ok ex_cfg_a /\ cfg_ok ex_cfg_ab /\ distinct_area_names ex_cfg_ab /\ distinct_zone_names ex_cfg_ab /\
  accepts_filters ex_cl ex_cfg_a /\ for_both ex_cfg_a ex_cfg_ab ex_disarm /\
  (exists u, bridge_after ex_cl ex_cfg_ab ex_disarm (Up u) /\ outstanding (u_panel u) = [MArmRequest (mkArmRequest 1 AL_Disarm (B "001234"))]) /\
  (length (blog (brun ex_cl ex_cfg_a ex_disarm)), length (blog (brun ex_cl ex_cfg_ab ex_disarm))) = (6, 10)%nat /\
  topic_for ex_cfg_a (AreaState 1) (B "elkm1/0001/area/house/ha_state").
Proof.
  split; [repeat split; intros x [<-|[]]; left; reflexivity|].
  split; [split; (split; [repeat constructor; cbn; intuition discriminate | repeat constructor; discriminate])|].
  split; [split; (split; [repeat constructor; cbn; intuition discriminate | repeat constructor; discriminate])|].
  split; [repeat constructor; cbn; intuition discriminate|]. split; [repeat constructor; cbn; intuition discriminate|]. split; [vm_compute; reflexivity|].
  split.
  { intros m c I (ar & n & lv & cd & H & T & R). assert (EM : m = (B "elkm1/0001/area/house/ha_command", B "DISARM")) by (vm_compute in I; destruct I as [<-|[]]; reflexivity).
    subst m. exists ar, n, lv, cd. split; [|split; [exact T | exact R]]. destruct H as [H|[H|[]]]; injection H as <- <-; [left; reflexivity|]. vm_compute in T. discriminate T. }
  split; [exists (up_of (brun ex_cl ex_cfg_ab ex_disarm)); split; [split; [exact ex_disarm_ok | vm_compute; reflexivity] | vm_compute; reflexivity]|].
  split; [vm_compute; reflexivity|]. exists (B "house"). split; [left; reflexivity | vm_compute; reflexivity].
Qed.

Print Assumptions C131_more_refuted.
Print Assumptions C131_more_partial.
Print Assumptions C131_retained_partial.
