(* PropOrder.v: C130, the order in which the bridge goes through its areas and zones (main.rs of elkm1-mqtt). *)
From Verif Require Import Base BaseFacts Pkt SpecPkt PktFacts DecodeFacts Msg SpecMsg DecFacts MsgFacts WireFacts IsoFacts
  Tokio SpecConn ConnFacts State SpecState StateFacts RunFacts HistFacts ExState PropState PropMsg Serde SerdeFacts PropSerde
  Mqtt MqttFacts Config SpecMqtt SpecConfig PropMqtt PropConfig BridgeText SpecJson JsonFacts JsonWrite ShowFacts TextFacts PropText SpecOrder SpecMqtt.
From Coq Require Import ZifyBool ZifyNat ZifyN.
Ltac Zify.zify_post_hook ::= Z.div_mod_to_equations.

Lemma beq_spec s t : reflect (s = t) (beq s t).
Proof. apply iff_reflect. symmetry. apply beq_eq. Qed.
(* ---- logs ---- *)
Lemma same_refl l : same_log l l.
Proof. split; [reflexivity|]. induction (subscribed l); constructor; auto. Qed.
Lemma subscribed_app a b : subscribed (a ++ b) = subscribed a ++ subscribed b.
Proof. unfold subscribed. rewrite map_app. apply catMaybes_app. Qed.
Lemma same_app a b a' b' : same_log a a' -> same_log b b' -> same_log (a ++ b) (a' ++ b').
Proof.
  intros (T & S) (T' & S'). split; [intros t; rewrite !filter_app, T, T'; reflexivity|]. rewrite !subscribed_app. apply Forall2_app; auto.
Qed.
(* the two end the same, and did the same if well *)
Definition agree {A} (m m' : out A) : Prop := snd m = snd m' /\ forall a, snd m = Ok a -> same_log (fst m) (fst m').
Lemma agree_same {A} (m : out A) : agree m m.
Proof. split; [reflexivity | intros; apply same_refl]. Qed.
Lemma agree_bind {A C} (m m' : out A) (f f' : A -> out C) : agree m m' -> (forall a, agree (f a) (f' a)) -> agree (obind m f) (obind m' f').
Proof.
  intros (E & L) H. destruct m as [l r], m' as [l' r']. cbn [fst snd] in *. subst r'. destruct r as [a|e|w]; cbn [obind]; [|split; [reflexivity | discriminate]..].
  destruct (H a) as (E2 & L2). destruct (f a) as [k s], (f' a) as [k' s']. cbn [fst snd] in *. subst s'. split; [reflexivity|]. intros c EC. apply same_app; eauto.
Qed.

(* ---- each ---- *)
Lemma each_cases {A} (f : A -> out unit) (w : string) (g : A -> bytes) xs :
  (forall x, In x xs -> (exists q r p, f x = ([APublishQ q (g x) r p], Ok tt)) \/ f x = ([], Panic w)) ->
  (exists l, each f xs = (l, Ok tt) /\ l = concat (map (fun x => fst (f x)) xs) /\ (forall x, In x xs -> snd (f x) = Ok tt)) \/
  (exists l x, each f xs = (l, Panic w) /\ In x xs /\ snd (f x) = Panic w).
Proof.
  induction xs as [|x xs IH]; intros H; [left; exists []; split; [reflexivity|]; split; [reflexivity | intros ? []]|].
  cbn [each]. destruct (H x (or_introl eq_refl)) as [(q & r & p & E)|E]; rewrite E; cbn [obind].
  - destruct IH as [(l & -> & -> & O)|(l & y & -> & I & O)]; [intros y I; apply H; right; exact I| |].
    + left. eexists. split; [reflexivity|]. split; [cbn [map concat]; rewrite E; reflexivity|]. intros y [<-|I]; [rewrite E; reflexivity | auto].
    + right. eexists _, y. split; [reflexivity|]. split; [right; exact I | exact O].
  - right. exists [], x. split; [reflexivity|]. split; [left; reflexivity | rewrite E; reflexivity].
Qed.
Lemma perm_small {A} (l l' : list A) : Permutation l l' -> (length l <= 1)%nat -> l = l'.
Proof.
  intros P L. destruct l as [|x [|y l]]; cbn in L; [| |lia].
  - symmetry. apply Permutation_nil. exact P.
  - symmetry. apply Permutation_length_1_inv. exact P.
Qed.
Lemma Permutation_concat {A} (l l' : list (list A)) : Permutation l l' -> Permutation (concat l) (concat l').
Proof.
  induction 1; cbn [concat]; [constructor | apply Permutation_app_head; assumption | | eapply Permutation_trans; eauto].
  rewrite !app_assoc. apply Permutation_app_tail, Permutation_app_comm.
Qed.
Lemma Permutation_filter {A} (P : A -> bool) l l' : Permutation l l' -> Permutation (filter P l) (filter P l').
Proof.
  induction 1; cbn [filter]; [constructor | destruct (P x); [constructor|]; assumption | | eapply Permutation_trans; eauto].
  destruct (P x), (P y); try (apply Permutation_refl). constructor.
Qed.
Lemma agree_each {A} (f : A -> out unit) (w : string) (g : A -> bytes) xs ys : Permutation xs ys -> NoDup (map g xs) ->
  (forall x, In x xs -> (exists q r p, f x = ([APublishQ q (g x) r p], Ok tt)) \/ f x = ([], Panic w)) -> agree (each f xs) (each f ys).
Proof.
  intros P N H. assert (H' : forall x, In x ys -> (exists q r p, f x = ([APublishQ q (g x) r p], Ok tt)) \/ f x = ([], Panic w)).
  { intros x I. apply H. eapply Permutation_in; [apply Permutation_sym; exact P | exact I]. }
  destruct (each_cases f w g xs H) as [(l & E & EL & O)|(l & x & E & I & O)], (each_cases f w g ys H') as [(l' & E' & EL' & O')|(l' & x' & E' & I' & O')]; rewrite E, E'.
  - split; [reflexivity|]. intros _ _. cbn [fst]. subst l l'. clear E E' O' H'. split.
    + intros t. apply perm_small; [apply Permutation_filter, Permutation_concat, Permutation_map; exact P|]. clear P.
      induction xs as [|x xs IH]; [cbn; lia|]. inversion N as [|? ? N1 N2]; subst. cbn [map concat]. rewrite filter_app, app_length.
      assert (H2 : forall y, In y xs -> (exists q r p, f y = ([APublishQ q (g y) r p], Ok tt)) \/ f y = ([], Panic w)) by (intros y I; apply H; right; exact I).
      assert (O2 : forall y, In y xs -> snd (f y) = Ok tt) by (intros y I; apply O; right; exact I).
      specialize (IH N2 H2 O2). destruct (H x (or_introl eq_refl)) as [(q & r & p & EX)|EX]; rewrite EX; cbn [fst filter on_topic]; [|exact IH].
      destruct (beq_spec t (g x)) as [->|NE]; [|exact IH]. cbn [length].
      assert (Z : filter (on_topic (g x)) (concat (map (fun x => fst (f x)) xs)) = []).
      { clear -N1 H2. induction xs as [|y xs IH]; [reflexivity|]. cbn [map concat]. rewrite filter_app. rewrite IH; [|intros I; apply N1; right; exact I | intros z I; apply H2; right; exact I].
        destruct (H2 y (or_introl eq_refl)) as [(q & r & p & EY)|EY]; rewrite EY; cbn [fst filter on_topic]; [|reflexivity].
        destruct (beq_spec (g x) (g y)) as [EG|]; [|reflexivity]. elim N1. cbn [map]. left. auto. }
      rewrite Z. cbn. lia.
    + assert (Z : forall zs, (forall x, In x zs -> (exists q r p, f x = ([APublishQ q (g x) r p], Ok tt)) \/ f x = ([], Panic w)) -> subscribed (concat (map (fun x => fst (f x)) zs)) = []).
      { clear. induction zs as [|y zs IH]; intros H; [reflexivity|]. cbn [map concat]. rewrite subscribed_app, IH by (intros z I; apply H; right; exact I).
        destruct (H y (or_introl eq_refl)) as [(q & r & p & EY)|EY]; rewrite EY; reflexivity. }
      rewrite Z by exact H. rewrite Z; [constructor|]. intros x I. apply H. eapply Permutation_in; [apply Permutation_sym; exact P | exact I].
  - apply (Permutation_in _ (Permutation_sym P)) in I'. rewrite (O _ I') in O'. discriminate.
  - apply (Permutation_in _ P) in I. rewrite (O' _ I) in O. discriminate.
  - split; [reflexivity | discriminate].
Qed.

(* ---- looking up ---- *)
Lemma find_perm {A} (P : A -> bool) l l' : Permutation l l' -> (forall x y, In x l -> In y l -> P x = true -> P y = true -> x = y) -> find P l = find P l'.
Proof.
  intros PM U. destruct (find P l) as [x|] eqn:E.
  - apply find_some in E as [I EX]. destruct (find P l') as [y|] eqn:E'.
    + apply find_some in E' as [I' EY]. f_equal. apply U; auto. eapply Permutation_in; [apply Permutation_sym; exact PM | exact I'].
    + pose proof (find_none _ _ E' x (Permutation_in _ PM I)). congruence.
  - destruct (find P l') as [y|] eqn:E'; [|reflexivity]. apply find_some in E' as [I' EY].
    pose proof (find_none _ _ E y (Permutation_in _ (Permutation_sym PM) I')). congruence.
Qed.
Lemma requested_find prefix c l t pl : requested prefix c l t pl =
  match find (fun x => beq t (area_command_topic prefix (snd x))) l with Some x => requested prefix c [x] t pl | None => Ok None end.
Proof.
  induction l as [|[a n] l IH]; [reflexivity|]. cbn [find snd]. destruct (beq t (area_command_topic prefix n)) eqn:E; [|cbn [requested]; rewrite E; exact IH].
  cbn [requested]. rewrite E. reflexivity.
Qed.
Lemma nodup_inj {A C} (f : A -> C) l x y : NoDup (map f l) -> In x l -> In y l -> f x = f y -> x = y.
Proof.
  induction l as [|z l IH]; cbn [map]; intros N HX HY E; [destruct HX|]. inversion N as [|? ? N1 N2]; subst.
  destruct HX as [->|HX], HY as [->|HY]; [reflexivity | elim N1; rewrite E; apply in_map; exact HY | elim N1; rewrite <- E; apply in_map; exact HX | auto].
Qed.
Lemma nodup_map {A C} (f : A -> C) l : NoDup l -> (forall x y, In x l -> In y l -> f x = f y -> x = y) -> NoDup (map f l).
Proof.
  induction l as [|x l IH]; intros N H; cbn [map]; constructor.
  - inversion N as [|? ? N1 N2]; subst. intros I. apply in_map_iff in I as (y & E & I). apply N1. rewrite (H x y); [exact I | left; reflexivity | right; exact I | auto].
  - inversion N; subst. apply IH; [assumption|]. intros y z HY HZ. apply H; right; assumption.
Qed.
Lemma requested_perm prefix c l l' t pl : NoDup (map snd l) -> Permutation l l' -> requested prefix c l t pl = requested prefix c l' t pl.
Proof.
  intros N P. rewrite (requested_find _ _ l), (requested_find _ _ l'). rewrite (find_perm _ l l' P); [reflexivity|]. intros x y HX HY EX EY.
  apply beq_eq in EX, EY. apply (nodup_inj snd l x y N HX HY). apply (command_topic_inj prefix). congruence.
Qed.

(* ---- the blocks of publishing ---- *)
Notation UNWRAP := "called `Result::unwrap()` on an `Err` value"%string.
Lemma publish_cases cl q t r p : publish cl q t r p = ([APublishQ q t r p], Ok tt) \/ publish cl q t r p = ([], Panic UNWRAP).
Proof. unfold publish. destruct (topic_ok cl t); auto. Qed.
Lemma expect_cases max n : (expect (limited_try_from max n) UNWRAP = Ok n /\ 1 <= n <= max) \/ expect (limited_try_from max n) UNWRAP = Panic UNWRAP.
Proof.
  destruct (expect (limited_try_from max n) UNWRAP) as [k|e|w] eqn:E.
  - left. assert (k = n) as -> by (apply expect_ok, limited_spec in E; tauto). split; [reflexivity|]. apply limited_panic in E. exact E.
  - unfold expect in E. destruct (limited_try_from max n); discriminate.
  - right. unfold expect, limited_try_from in E. destruct ((1 <=? n) && (n <=? max))%bool; [discriminate|]. injection E as <-. reflexivity.
Qed.
Lemma areas_agree cl p prefix l l' : reachable p -> Permutation l l' -> NoDup (map snd l) ->
  agree (publish_area_states cl p prefix l) (publish_area_states cl p prefix l').
Proof.
  intros R P N. destruct (reachable_status _ R) as (r & S & AO). unfold publish_area_states.
  apply (agree_each _ UNWRAP (fun x => area_state_topic prefix (snd x))); [exact P| |].
  - apply nodup_map; [eapply NoDup_map_inv; exact N|]. intros x y HX HY E. apply (nodup_inj snd l x y N HX HY), (area_topic_inj prefix), E.
  - intros [n name] _. cbn [snd]. unfold Area_try_from. destruct (expect_cases Area_MAX n) as [(-> & B)| ->]; [|right; reflexivity].
    cbn [lift obind]. unfold status_is in S. rewrite S. cbn [lift obind]. destruct (ha_area_state_spec r n AO B) as (s & u & a & t & _ & -> & _). cbn [lift obind].
    destruct (publish_cases cl AtLeastOnce (area_state_topic prefix name) true (PText t)) as [-> | ->]; [left; eexists _, _, _; reflexivity | right; reflexivity].
Qed.
Lemma zone_one cl p prefix z c : reachable p -> zone_ok z ->
  (exists q r s, publish_zone_state cl p prefix z c = ([APublishQ q (zone_state_topic prefix (z_name c)) r s], Ok tt)) \/ publish_zone_state cl p prefix z c = ([], Panic UNWRAP).
Proof.
  intros R Z. destruct (reachable_zones _ R) as (zs & S & L & F). unfold publish_zone_state. rewrite S. cbn [lift obind].
  rewrite to_index_ok by exact Z. cbn [lift obind]. unfold index. destruct (nth_error zs (N.to_nat (z - 1))) as [s|] eqn:EN.
  - cbn [lift obind]. rewrite Forall_forall in F. destruct (ha_zone_state_spec s) as (t' & -> & H2); [apply F; eapply nth_error_In; eauto|]. cbn [lift obind].
    destruct (publish_cases cl AtLeastOnce (zone_state_topic prefix (z_name c)) true (PText t')) as [-> | ->]; [left; eexists _, _, _; reflexivity | right; reflexivity].
  - apply nth_error_None in EN. unfold zone_ok in Z. lia.
Qed.
Lemma zones_agree cl p prefix l l' : reachable p -> Permutation l l' -> NoDup (map (fun x => z_name (snd x)) l) ->
  let f := (fun '(zone_id, z) => zone <~ lift (expect (Zone_try_from zone_id) UNWRAP) ;; publish_zone_state cl p prefix zone z) in agree (each f l) (each f l').
Proof.
  intros R P N f. apply (agree_each _ UNWRAP (fun x => zone_state_topic prefix (z_name (snd x)))); [exact P| |].
  - apply nodup_map; [eapply NoDup_map_inv; exact N|]. intros x y HX HY E. apply (nodup_inj _ l x y N HX HY), (zone_topic_inj prefix), E.
  - intros [n z] _. cbn [snd f]. unfold Zone_try_from. destruct (expect_cases Zone_MAX n) as [(-> & B)| ->]; [|right; reflexivity].
    cbn [lift obind]. destruct (zone_one cl p prefix n z R B) as [(q & r & s & ->)| ->]; [left; eexists _, _, _; reflexivity | right; reflexivity].
Qed.
Lemma ids_nodup {A} (l : list (N * A)) (h : N -> bytes) : u8_keys l -> (forall a b, h a = h b -> show_u8 a = show_u8 b) -> NoDup (map (fun x => h (fst x)) l).
Proof.
  intros (K & U) H. rewrite Forall_forall in U. apply nodup_map; [eapply NoDup_map_inv; exact K|]. intros x y HX HY E. apply (nodup_inj fst l x y K HX HY).
  apply H in E. destruct (show_u8_spec (fst x) (U _ HX)) as [_ A1], (show_u8_spec (fst y) (U _ HY)) as [_ A2]. congruence.
Qed.
Lemma start_agree cl cfg cfg' p : reachable p -> reordered cfg cfg' -> cfg_ok cfg -> distinct_area_names cfg -> distinct_zone_names cfg -> any_order cl ->
  agree (start_up cl cfg p) (start_up cl cfg' p).
Proof.
  intros R (ES & EC & PA & PZ & ET & EH) (KA & KZ) NA NZ AO. unfold start_up.
  assert (EP : topic_prefix cfg' = topic_prefix cfg) by (unfold topic_prefix; rewrite ET, ES; reflexivity).
  rewrite EC, EP, EH. apply agree_bind; [apply agree_same|]. intros k.
  apply agree_bind; [|intros _; apply agree_bind; [apply areas_agree; auto|]; intros _; apply agree_bind; [apply zones_agree; auto|]; intros _; apply agree_bind; [|intros _; apply agree_same]].
  - destruct (ha_discovery_prefix cfg) as [ha|]; [|apply agree_same]. unfold publish_ha_discovery.
    assert (EA : forall n, area_unique_id cfg' n = area_unique_id cfg n) by (intros n; unfold area_unique_id; rewrite ES; reflexivity).
    assert (EZ : forall n, zone_unique_id cfg' n = zone_unique_id cfg n) by (intros n; unfold zone_unique_id; rewrite ES; reflexivity).
    assert (JA : forall n x, area_discovery_json (topic_prefix cfg) cfg' n x = area_discovery_json (topic_prefix cfg) cfg n x) by (intros n x; unfold area_discovery_json, device_json; rewrite EA, ES; reflexivity).
    assert (JZ : forall n x, zone_discovery_json (topic_prefix cfg) cfg' n x = zone_discovery_json (topic_prefix cfg) cfg n x) by (intros n x; unfold zone_discovery_json, device_json; rewrite EZ, ES; reflexivity).
    assert (EX : forall A (f g : A -> out unit) xs, (forall x, f x = g x) -> each f xs = each g xs) by (intros A f g xs H; induction xs as [|x xs IH]; cbn [each]; [reflexivity | rewrite H, IH; reflexivity]).
    rewrite (EX _ (fun '(area_id, name) => publish cl AtLeastOnce (ha ++ B "/alarm_control_panel/" ++ area_unique_id cfg' area_id ++ B "/config") true (PJson (area_discovery_json (topic_prefix cfg) cfg' area_id name)))
               (fun '(area_id, name) => publish cl AtLeastOnce (ha ++ B "/alarm_control_panel/" ++ area_unique_id cfg area_id ++ B "/config") true (PJson (area_discovery_json (topic_prefix cfg) cfg area_id name))))
      by (intros [n x]; rewrite EA, JA; reflexivity).
    rewrite (EX _ (fun '(zone_id, z) => publish cl AtLeastOnce (ha ++ B "/binary_sensor/" ++ zone_unique_id cfg' zone_id ++ B "/config") true (PJson (zone_discovery_json (topic_prefix cfg) cfg' zone_id z)))
               (fun '(zone_id, z) => publish cl AtLeastOnce (ha ++ B "/binary_sensor/" ++ zone_unique_id cfg zone_id ++ B "/config") true (PJson (zone_discovery_json (topic_prefix cfg) cfg zone_id z))))
      by (intros [n x]; rewrite EZ, JZ; reflexivity).
    apply agree_bind; [|intros _].
    + apply (agree_each _ UNWRAP (fun x => (fun n => ha ++ B "/alarm_control_panel/" ++ area_unique_id cfg n ++ B "/config") (fst x))); [exact PA| |].
      * apply (ids_nodup _ (fun n => ha ++ B "/alarm_control_panel/" ++ area_unique_id cfg n ++ B "/config") KA). intros a b E.
        apply app_inv_head in E. apply app_inv_head in E. apply app_inv_tail in E. unfold area_unique_id in E. do 3 apply app_inv_head in E. exact E.
      * intros [n x] _. cbn [fst]. edestruct publish_cases as [-> | ->]; [left; eexists _, _, _; reflexivity | right; reflexivity].
    + apply (agree_each _ UNWRAP (fun x => (fun n => ha ++ B "/binary_sensor/" ++ zone_unique_id cfg n ++ B "/config") (fst x))); [exact PZ| |].
      * apply (ids_nodup _ (fun n => ha ++ B "/binary_sensor/" ++ zone_unique_id cfg n ++ B "/config") KZ). intros a b E.
        apply app_inv_head in E. apply app_inv_head in E. apply app_inv_tail in E. unfold zone_unique_id in E. do 3 apply app_inv_head in E. exact E.
      * intros [n x] _. cbn [fst]. edestruct publish_cases as [-> | ->]; [left; eexists _, _, _; reflexivity | right; reflexivity].
  - assert (PF : Permutation (map (fun '(_, name) => area_command_topic (topic_prefix cfg) name) (areas cfg)) (map (fun '(_, name) => area_command_topic (topic_prefix cfg) name) (areas cfg'))) by (apply Permutation_map; exact PA).
    unfold subscribe_many. rewrite <- (AO _ _ PF). destruct (filters_ok cl _); split; try reflexivity; try discriminate. intros _ _. split; [reflexivity|]. cbn [fst].
    repeat constructor. exact PF.
Qed.
Lemma handle_agree cl cfg cfg' p e : reachable p -> reordered cfg cfg' -> cfg_ok cfg -> distinct_area_names cfg -> in_range cfg -> accepts_states cl cfg ->
  snd (handle_event cl cfg p e) = snd (handle_event cl cfg' p e) /\ same_log (fst (handle_event cl cfg p e)) (fst (handle_event cl cfg' p e)).
Proof.
  intros R (ES & EC & PA & PZ & ET & EH) (KA & KZ) NA (RA & _) (TA & _). unfold handle_event.
  assert (EP : topic_prefix cfg' = topic_prefix cfg) by (unfold topic_prefix; rewrite ET, ES; reflexivity). rewrite EP.
  assert (EF : forall z, find (fun '(k, _) => k =? z) (zones cfg') = find (fun '(k, _) => k =? z) (zones cfg)).
  { intros z. symmetry. apply find_perm; [exact PZ|]. intros [x1 x2] [y1 y2] HX HY E1 E2. apply N.eqb_eq in E1, E2. subst. apply (nodup_inj fst _ _ _ (proj1 KZ) HX HY). reflexivity. }
  destruct (e_change e) as [[z s|r]|].
  - rewrite EF. split; [reflexivity | apply same_refl].
  - destruct (Event_ser e) as [v|er|w]; cbn [lift obind]; [|split; [reflexivity | apply same_refl]..].
    destruct (publish cl AtLeastOnce (event_topic (topic_prefix cfg)) false (PJson v)) as [l [[]|er|w]]; cbn [obind]; [|split; [reflexivity | apply same_refl]..].
    destruct (areas_agree cl p (topic_prefix cfg) _ _ R PA NA) as (E & L).
    destruct (areas_publish cl p (topic_prefix cfg) (areas cfg) R) as (la & EA); [rewrite Forall_forall in *; intros x Hx; auto|]. rewrite EA in *. cbn [fst snd] in *.
    destruct (publish_area_states cl p (topic_prefix cfg) (areas cfg')) as [l' r']. cbn [fst snd] in *. subst r'. split; [reflexivity|]. cbn [fst].
    apply (same_app l la l l'); [apply same_refl | apply (L tt); reflexivity].
  - split; [reflexivity | apply same_refl].
Qed.

(* ---- the bridge ---- *)
Lemma same_bridge_run cl cfg cfg' is : reordered cfg cfg' -> cfg_ok cfg -> distinct_area_names cfg -> distinct_zone_names cfg -> any_order cl -> Forall input_ok is ->
  same_bridge cfg (brun cl cfg is) (brun cl cfg' is).
Proof.
  intros RO KO NA NZ AO. induction is as [|i is IH] using rev_ind; intros HI; [split; reflexivity|].
  apply Forall_app in HI as [HI Hi]. specialize (IH HI). rewrite !brun_snoc. pose proof (brun_cases cl cfg is HI) as BC.
  assert (EP : topic_prefix cfg' = topic_prefix cfg) by (destruct RO as (ES & _ & _ & _ & ET & _); unfold topic_prefix; rewrite ET, ES; reflexivity).
  destruct (brun cl cfg is) as [s rx|u|l w] eqn:EB, (brun cl cfg' is) as [s' rx'|u'|l' w'] eqn:EB'; cbn [same_bridge] in IH; try contradiction.
  - destruct IH as [<- <-]. destruct i as [a|t pl| |now ws|now| |ws]; cbn [bstep]; try (split; reflexivity).
    + split; [reflexivity | intros; apply same_refl].
    + destruct BC as (_ & h & HO & -> & _). unfold after_connect.
      assert (EI : irun conn_new (h ++ [IStep now ws]) = istep now ws (irun conn_new h)) by (rewrite irun_step; reflexivity).
      destruct (istep now ws (irun conn_new h)) as [st ph p|p|er|why] eqn:ES; try (split; [reflexivity | intros; apply same_refl]); [split; reflexivity|].
      assert (C : connected p) by (exists (h ++ [IStep now ws]); split; [apply Forall_app; split; [exact HO | repeat constructor] | exact EI]).
      destruct (start_agree cl cfg cfg' p (connected_reachable _ C) RO KO NA NZ AO) as (E & L).
      assert (F1 := start_up_fails cl cfg p). assert (F2 := start_up_fails cl cfg' p).
      unfold settle. destruct (start_up cl cfg p) as [l r], (start_up cl cfg' p) as [l' r']. cbn [fst snd] in *. subst r'.
      assert (NO : (forall c, r <> Ok c) -> said_online cfg l \/ said_online cfg l' -> same_log l l').
      { intros N. specialize (F1 _ _ eq_refl N). specialize (F2 _ _ eq_refl N). unfold calm, availability_topic in *. rewrite EP in F2. rewrite Forall_forall in *. intros [(q & rr & H)|(q & rr & H)]; [elim (F1 _ H q rr) | elim (F2 _ H q rr)]; reflexivity. }
      destruct r as [c|er|why]; cbn [same_bridge app u_panel u_code u_mode u_rx u_log].
      * repeat (split; [reflexivity|]). apply (L c). reflexivity.
      * split; [reflexivity|]. apply NO. discriminate.
      * split; [reflexivity|]. apply NO. discriminate.
  - destruct IH as (E1 & E2 & E3 & E4 & L). assert (BU : bridge_after cl cfg is (Up u)) by (split; auto).
    assert (BI : binv cl cfg u).
    { assert (A : bridge_after cl cfg (is ++ []) (Up u)) by (rewrite app_nil_r; exact BU). apply (bridge_between _ _ _ _ _ _ BU A). }
    destruct BI as (R & RG & _ & AC & _). clear BC.
    destruct u as [pp cc m rx lg], u' as [pp' cc' m' rx' lg']. cbn [u_panel u_code u_mode u_rx u_log] in *. subst pp' cc' m' rx'.
    assert (D : forall w, same_bridge cfg (Dead lg w) (Dead lg' w)) by (intros w; split; [reflexivity | intros; exact L]).
    assert (SF : forall ws q, same_bridge cfg (poll_send_flush ws (mkUp q cc m rx lg)) (poll_send_flush ws (mkUp q cc m rx lg'))).
    { intros ws q. unfold poll_send_flush. cbn [u_panel u_log]. destruct (poll_flush ws q) as [q' [|[[]|er]]]; [| |apply D]; cbn; auto 10. }
    destruct i as [a|t pl| |now ws|now| |ws]; cbn [bstep u_panel u_code u_mode u_rx u_log set_panel]; try apply D; try (cbn; auto 10; fail).
    + destruct m as [|c|]; try (cbn; auto 10; fail). destruct (poll_next now pp) as [[[p r] w]|er|why] eqn:EN; [|apply D..].
      assert (RP : reachable p) by (eapply (reachable_step pp (PollNext now)); [exact R | exact Logic.I | cbn [step]; rewrite EN; reflexivity]).
      destruct r as [|[[e|er]|]]; [cbn; auto 10| |apply D..].
      destruct (handle_agree cl cfg cfg' p e RP RO KO NA RG AC) as (E & L2). unfold settle.
      destruct (handle_event cl cfg p e) as [k r], (handle_event cl cfg' p e) as [k' r']. cbn [fst snd] in *. subst r'.
      assert (LL : same_log (lg ++ k) (lg' ++ k')) by (apply same_app; assumption).
      destruct r; cbn; auto 10.
    + destruct m as [|c|]; try (cbn; auto 10; fail). destruct rx as [|[t pl] rx]; [cbn; auto 10|].
      rewrite EP, (requested_perm (topic_prefix cfg) cc _ _ t pl NA (proj1 (proj2 (proj2 RO)))).
      destruct (requested _ _ _ t pl) as [[c|]|er|why]; [cbn; auto 10..|apply D|apply D].
    + destruct m as [|c|]; [cbn; auto 10| |apply SF].
      destruct (poll_ready TASK ws pp) as [q [|[[]|er]]]; [cbn; auto 10| |apply D]. destruct (start_send c q) as [q'|er|why]; [apply SF|apply D..].
  - exact IH.
Qed.

(* ---- C130 ---- *)
(* False as stated: with two areas of the same name, which area a command is for, and which area's state is shown, depend on the order. *)
Definition ex_twins : list (bytes * value) := [(B "1", ex_area (B "house")); (B "2", ex_area (B "house"))].
Definition ex_cfg_12 : Cfg := mkCfg (B "0001") 1234 [(1, B "house"); (2, B "house")] [] None (Some (B "homeassistant")).
Definition ex_cfg_21 : Cfg := mkCfg (B "0001") 1234 [(2, B "house"); (1, B "house")] [] None (Some (B "homeassistant")).
Definition ex_disarm : list input := ex_start ++ [MqttArrive (B "elkm1/0001/area/house/ha_command") (B "DISARM"); PollRx; PollSend [WAccept 100]].
Definition ex_burglar : ArmingStatusReport := mkAS (repeat AST_Disarmed 8) (repeat AU_ReadyToArm 8) (AA_BurglarAlarm :: repeat AA_NoAlarmActive 7) 0.
Definition ex_alarm : list input := ex_start ++ [NetArrive (Bytes (bytes_of (MArmingStatusReport ex_burglar))); PollPanel 7].
Lemma ex_disarm_ok : Forall input_ok ex_disarm.
Proof. apply Forall_app. split; [exact ex_start_ok | repeat constructor]. Qed.
Lemma ex_alarm_ok : Forall input_ok ex_alarm.
Proof.
  apply Forall_app. split; [exact ex_start_ok|]. constructor; [cbn [input_ok]; vm_compute; repeat constructor|]. repeat constructor.
Qed.
Theorem C130_order_refuted : exists v o h cfg cfg' cl, main_setup v = Ok (o, h, cfg) /\ reordered cfg cfg' /\ any_order cl /\
  (exists is u u', bridge_after cl cfg is (Up u) /\ bridge_after cl cfg' is (Up u') /\
     outstanding (u_panel u) = [MArmRequest (mkArmRequest 1 AL_Disarm (B "001234"))] /\ outstanding (u_panel u') = [MArmRequest (mkArmRequest 2 AL_Disarm (B "001234"))]) /\
  (exists is u u' t, bridge_after cl cfg is (Up u) /\ bridge_after cl cfg' is (Up u') /\ holds (u_log u) t (PText (B "disarmed")) /\ holds (u_log u') t (PText (B "triggered"))).
Proof.
  eexists (ex_file ex_twins []), _, _, ex_cfg_12, ex_cfg_21, ex_cl. split; [vm_compute; reflexivity|].
  split; [repeat split; [apply perm_swap | constructor]|]. split; [intros fs fs' _; reflexivity|]. split.
  - exists ex_disarm, (up_of (brun ex_cl ex_cfg_12 ex_disarm)), (up_of (brun ex_cl ex_cfg_21 ex_disarm)). split; [split; [exact ex_disarm_ok | vm_compute; reflexivity]|].
    split; [split; [exact ex_disarm_ok | vm_compute; reflexivity]|]. split; vm_compute; reflexivity.
  - exists ex_alarm, (up_of (brun ex_cl ex_cfg_12 ex_alarm)), (up_of (brun ex_cl ex_cfg_21 ex_alarm)), (B "elkm1/0001/area/house/ha_state").
    split; [split; [exact ex_alarm_ok | vm_compute; reflexivity]|]. split; [split; [exact ex_alarm_ok | vm_compute; reflexivity]|].
    split; exists AtLeastOnce.
    + exists (removelast (u_log (up_of (brun ex_cl ex_cfg_12 ex_alarm)))), []. split; [vm_compute; reflexivity | intros q p []].
    + exists (removelast (u_log (up_of (brun ex_cl ex_cfg_21 ex_alarm)))), []. split; [vm_compute; reflexivity | intros q p []].
Qed.
(* With distinct names the order makes no difference: at every moment the bridges are in the same phase with the same panel, command and
   messages waiting; they have published the same on every topic, in the same order, and subscribed to the same; if one has died, so has
   the other, for the same reason.  Only a bridge that dies before it is available may have published something else. *)
Theorem C130_order_partial : forall cl cfg cfg' is, reordered cfg cfg' -> cfg_ok cfg -> distinct_area_names cfg -> distinct_zone_names cfg -> any_order cl -> Forall input_ok is ->
  same_bridge cfg (brun cl cfg is) (brun cl cfg' is).
Proof. exact same_bridge_run. Qed.
(* so the broker retains the same, and the panel was sent the same *)
Lemma holds_filter l t p : holds l t p <-> holds (filter (on_topic t) l) t p.
Proof.
  split; intros (q & l1 & l2 & E & N).
  - exists q, (filter (on_topic t) l1), (filter (on_topic t) l2). split; [rewrite E, filter_app; cbn [filter on_topic]; rewrite beq_refl; reflexivity|].
    intros q' p' I. apply filter_In in I as [I _]. exact (N _ _ I).
  - revert l1 E. induction l as [|a l IH]; intros l1 E; cbn [filter] in E; [destruct l1; discriminate|].
    destruct (on_topic t a) eqn:EA.
    + destruct l1 as [|b l1]; injection E as EB E.
      * subst a. exists q, [], l. split; [reflexivity|]. intros q' p' I. apply (N q' p'). rewrite <- E. apply filter_In. split; [exact I | cbn; apply beq_refl].
      * destruct (IH _ E) as (q2 & k1 & k2 & E2 & N2). exists q2, (a :: k1), k2. split; [rewrite E2; reflexivity | exact N2].
    + destruct (IH _ E) as (q2 & k1 & k2 & E2 & N2). exists q2, (a :: k1), k2. split; [rewrite E2; reflexivity | exact N2].
Qed.
Theorem C130_retained_partial : forall cl cfg cfg' is u, reordered cfg cfg' -> cfg_ok cfg -> distinct_area_names cfg -> distinct_zone_names cfg -> any_order cl ->
  bridge_after cl cfg is (Up u) -> exists u', bridge_after cl cfg' is (Up u') /\
    sent (p_conn (u_panel u')) = sent (p_conn (u_panel u)) /\ forall t p, holds (u_log u') t p <-> holds (u_log u) t p.
Proof.
  intros cl cfg cfg' is u RO KO NA NZ AO (HI & E). pose proof (same_bridge_run cl cfg cfg' is RO KO NA NZ AO HI) as S. rewrite E in S.
  destruct (brun cl cfg' is) as [s rx|u'|l w] eqn:E'; cbn [same_bridge] in S; try contradiction. destruct S as (EP & _ & _ & _ & (T & _)).
  exists u'. split; [split; auto|]. split; [rewrite EP; reflexivity|]. intros t p. rewrite (holds_filter (u_log u')), (holds_filter (u_log u)), T. tauto.
Qed.
(* Two files that say the same set up the same connections, and configurations that differ in order only. *)
Lemma In_perm {A} (l l' : list (N * A)) : NoDup (map fst l) -> NoDup (map fst l') -> (forall x, In x l <-> In x l') -> Permutation l l'.
Proof. intros N N' H. apply NoDup_Permutation; [eapply NoDup_map_inv; exact N | eapply NoDup_map_inv; exact N' | exact H]. Qed.
Theorem C130_file : forall v v' c c' o h cfg, file_value v c -> file_value v' c' -> same_file c c' -> main_setup v = Ok (o, h, cfg) ->
  exists cfg', main_setup v' = Ok (o, h, cfg') /\ reordered cfg cfg' /\ cfg_ok cfg.
Proof.
  intros v v' c c' o h cfg F F' (SE & SM) E. destruct (C66_configuration_accepted _ _ F) as (d & ED & (SD & MD)). destruct (C66_configuration_accepted _ _ F') as (d' & ED' & (SD' & MD')).
  pose proof (proj1 (C66_set_up v) _ _ _ E) as (_ & _ & _ & _ & KO).
  pose proof (C66_configuration_read _ _ ED) as R. pose proof (C66_configuration_read _ _ ED') as R'.
  unfold main_setup in *. rewrite ED in E. rewrite ED'. cbn [expect bind] in *.
  assert (EM : f_mqtt d' = f_mqtt d) by congruence. rewrite EM.
  destruct SE as (S1 & S2 & S3 & S4 & S5), SD as (D1 & D2 & D3 & D4 & D5), SD' as (D1' & D2' & D3' & D4' & D5').
  assert (TP : topic_prefix (bridge_cfg d') = topic_prefix (bridge_cfg d)).
  { unfold topic_prefix, bridge_cfg. cbn [cfg_topic_prefix serial_number]. rewrite EM. replace (k_serial_number (f_elk d')) with (k_serial_number (f_elk d)) by congruence. reflexivity. }
  rewrite TP. replace (k_host_port (f_elk d')) with (k_host_port (f_elk d)) by congruence.
  destruct (match m_username (f_mqtt d) with Some u => _ | None => _ end) as [cr|er|w] eqn:EC; cbn [bind] in *; try discriminate.
  injection E as <- <- <-. eexists. split; [reflexivity|]. split; [|exact KO].
  destruct R as ((o0 & _ & v0 & _ & (_ & _ & _ & (o3 & _ & v3 & _ & l3 & _ & N3 & _) & (o4 & _ & v4 & _ & l4 & _ & N4 & _))) & _).
  destruct R' as ((p0 & _ & w0 & _ & (_ & _ & _ & (p3 & _ & w3 & _ & k3 & _ & M3 & _) & (p4 & _ & w4 & _ & k4 & _ & M4 & _))) & _).
  unfold reordered, bridge_cfg. cbn [serial_number code areas zones cfg_topic_prefix ha_discovery_prefix]. rewrite EM.
  split; [congruence|]. split; [congruence|]. split; [apply In_perm; auto; intros x; rewrite <- D4, S4, D4'; tauto|].
  split; [apply In_perm; auto; intros x; rewrite <- D5, S5, D5'; tauto|]. split; reflexivity.
Qed.
(* Two areas and two zones in either order: the bridges come up, publish in a different order, and hand over the same command. *)
Definition ex_cfg_ab : Cfg := mkCfg (B "0001") 1234 [(1, B "house"); (2, B "garage")] [(2, mkZoneCfg (B "front") (B "door")); (3, mkZoneCfg (B "back") (B "door"))] None (Some (B "homeassistant")).
Definition ex_cfg_ba : Cfg := mkCfg (B "0001") 1234 [(2, B "garage"); (1, B "house")] [(3, mkZoneCfg (B "back") (B "door")); (2, mkZoneCfg (B "front") (B "door"))] None (Some (B "homeassistant")).
Example C130_example : reordered ex_cfg_ab ex_cfg_ba /\ cfg_ok ex_cfg_ab /\ distinct_area_names ex_cfg_ab /\ distinct_zone_names ex_cfg_ab /\ any_order ex_cl /\
  Forall input_ok ex_disarm /\ (exists u, brun ex_cl ex_cfg_ab ex_disarm = Up u /\ outstanding (u_panel u) = [MArmRequest (mkArmRequest 1 AL_Disarm (B "001234"))]) /\
  map (fun a => match a with APublishQ _ t _ _ => t | _ => [] end) (firstn 2 (blog (brun ex_cl ex_cfg_ab ex_disarm))) =
    [B "homeassistant/alarm_control_panel/elk-0001-area-1/config"; B "homeassistant/alarm_control_panel/elk-0001-area-2/config"] /\
  map (fun a => match a with APublishQ _ t _ _ => t | _ => [] end) (firstn 2 (blog (brun ex_cl ex_cfg_ba ex_disarm))) =
    [B "homeassistant/alarm_control_panel/elk-0001-area-2/config"; B "homeassistant/alarm_control_panel/elk-0001-area-1/config"].
Proof.
  split; [repeat split; apply perm_swap|]. split; [split; (split; [repeat constructor; cbn; intuition discriminate | repeat constructor; discriminate])|].
  split; [repeat constructor; cbn; intuition discriminate|]. split; [repeat constructor; cbn; intuition discriminate|]. split; [intros fs fs' _; reflexivity|]. split; [exact ex_disarm_ok|].
  split; [exists (up_of (brun ex_cl ex_cfg_ab ex_disarm)); split; vm_compute; reflexivity|]. split; vm_compute; reflexivity.
Qed.
Definition ex_file_ab : value := ex_file [(B "1", ex_area (B "house")); (B "2", ex_area (B "garage"))] [(B "2", ex_zone (B "front") (B "door")); (B "3", ex_zone (B "back") (B "door"))].
Definition ex_file_ba : value := ex_file [(B "2", ex_area (B "garage")); (B "1", ex_area (B "house"))] [(B "3", ex_zone (B "back") (B "door")); (B "2", ex_zone (B "front") (B "door"))].
Example C130_example_file : exists c c' o h, file_value ex_file_ab c /\ file_value ex_file_ba c' /\ same_file c c' /\
  main_setup ex_file_ab = Ok (o, h, ex_cfg_ab) /\ main_setup ex_file_ba = Ok (o, h, ex_cfg_ba).
Proof.
  destruct (FileCfg_de ex_file_ab) as [c|e|w] eqn:E; [|vm_compute in E; discriminate..].
  destruct (FileCfg_de ex_file_ba) as [c'|e|w] eqn:E'; [|vm_compute in E'; discriminate..].
  exists c, c'. eexists _, _. split; [apply C66_configuration_read; exact E|]. split; [apply C66_configuration_read; exact E'|].
  vm_compute in E, E'. injection E as <-. injection E' as <-. split; [|split; vm_compute; reflexivity].
  repeat split; cbn; tauto.
Qed.

Print Assumptions C130_order_refuted.
Print Assumptions C130_order_partial.
Print Assumptions C130_retained_partial.
Print Assumptions C130_file.
