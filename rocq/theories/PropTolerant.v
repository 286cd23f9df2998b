(* PropTolerant.v: C135: what a reader of the JSON puts up with. *)
From Verif Require Import Base BaseFacts Pkt Msg State SpecState StateFacts RunFacts HistFacts ExState Serde PropSerde SpecTolerant.
From Coq Require Import Permutation Relation_Operators.

(* ---- two results: both a success, with related values, or both none ---- *)
Definition agree {A : Type} (R : A -> A -> Prop) (x y : res A) : Prop :=
  (exists a b, x = Ok a /\ y = Ok b /\ R a b) \/ ((forall a, x <> Ok a) /\ (forall b, y <> Ok b)).
Definition robust {A : Type} (f : value -> res A) : Prop := forall v v', tolerated v v' -> agree eq (f v) (f v').
Lemma agree_ok {A} (R : A -> A -> Prop) a b : R a b -> agree R (Ok a) (Ok b).
Proof. left. eauto. Qed.
Lemma agree_err {A} (R : A -> A -> Prop) e e' : agree R (Err e) (Err e').
Proof. right. split; discriminate. Qed.
Lemma agree_panic {A} (R : A -> A -> Prop) e e' : agree R (Panic e) (Panic e').
Proof. right. split; discriminate. Qed.
Lemma agree_same {A} (x : res A) : agree eq x x.
Proof. destruct x; [apply agree_ok; reflexivity | apply agree_err | apply agree_panic]. Qed.
Lemma agree_fail {A} (R : A -> A -> Prop) x y : (forall a, x <> Ok a) -> (forall b, y <> Ok b) -> agree R x y.
Proof. right. auto. Qed.
Lemma bind_fails {A C} (x : res A) (f : A -> res C) : (forall a, x <> Ok a) -> forall b, bind x f <> Ok b.
Proof. intros H b. destruct x; [elim (H a eq_refl) | discriminate | discriminate]. Qed.
Lemma agree_bind {A C} (R : A -> A -> Prop) (S : C -> C -> Prop) x y f g : agree R x y -> (forall a b, R a b -> agree S (f a) (g b)) -> agree S (bind x f) (bind y g).
Proof.
  intros [(a & b & -> & -> & H)|[H H']] K; [exact (K _ _ H)|]. right. split; apply bind_fails; assumption.
Qed.
Lemma agree_bind_eq {A C} (S : C -> C -> Prop) (x y : res A) f g : agree eq x y -> (forall a, agree S (f a) (g a)) -> agree S (bind x f) (bind y g).
Proof. intros H K. eapply agree_bind; [exact H|]. intros a b ->. apply K. Qed.
Lemma agree_mapM {A C} (R : A -> A -> Prop) (S : C -> C -> Prop) f g : forall l l', Forall2 R l l' -> (forall a b, R a b -> agree S (f a) (g b)) -> agree (Forall2 S) (mapM f l) (mapM g l').
Proof.
  intros l l' H K. induction H as [|a b l l' H _ IH]; cbn [mapM]; [apply agree_ok; constructor|].
  eapply agree_bind; [apply K; exact H|]. intros x y E. eapply agree_bind; [exact IH|]. intros xs ys Es. apply agree_ok. constructor; assumption.
Qed.
Lemma Forall2_eq {A} (l l' : list A) : Forall2 eq l l' -> l = l'.
Proof. induction 1; congruence. Qed.
Lemma agree_eq_list {A} (x y : res (list A)) : agree (Forall2 eq) x y -> agree eq x y.
Proof. intros [(a & b & -> & -> & H)|H]; [rewrite (Forall2_eq _ _ H); apply agree_same | right; exact H]. Qed.

(* ---- scalars and sequences ---- *)
Lemma robust_scalar {A} (f : value -> res A) : (forall l, exists e, f (VArr l) = Err e) -> (forall l, exists e, f (VObj l) = Err e) -> robust f.
Proof.
  intros HA HO v v' T. inversion T; subst.
  - apply agree_same.
  - destruct (HA l) as (e & ->), (HA l') as (e' & ->). apply agree_err.
  - destruct (HO l) as (e & ->), (HO l') as (e' & ->). apply agree_err.
Qed.
Lemma robust_str : robust de_str.
Proof. apply robust_scalar; eexists; reflexivity. Qed.
Lemma robust_borrowed src : robust (de_borrowed src).
Proof. apply robust_scalar; intros l; destruct src; eexists; reflexivity. Qed.
Lemma robust_bool : robust de_bool.
Proof. apply robust_scalar; eexists; reflexivity. Qed.
Lemma robust_u8 : robust de_u8.
Proof. apply robust_scalar; eexists; reflexivity. Qed.
Lemma robust_vec {A} (f : value -> res A) : robust f -> robust (de_vec f).
Proof.
  intros F v v' T. inversion T as [|l l' H|l l1 extra l' H1 H2 H3 H4]; subst; [apply agree_same | | apply agree_err]. cbn [de_vec]. apply agree_eq_list. eapply agree_mapM; [exact H | exact F].
Qed.
Lemma Forall2_len' {A C} (R : A -> C -> Prop) l l' : Forall2 R l l' -> length l = length l'.
Proof. induction 1; cbn; congruence. Qed.
Lemma robust_array {A} n (f : value -> res A) : robust f -> robust (de_array n f).
Proof.
  intros F v v' T. inversion T as [|l l' H|l l1 extra l' H1 H2 H3 H4]; subst; [apply agree_same | | apply agree_err]. cbn [de_array]. rewrite <- (Forall2_len' _ _ _ H).
  destruct (length l =? n)%nat; [|apply agree_err]. apply agree_eq_list. eapply agree_mapM; [exact H | exact F].
Qed.

(* ---- structs ---- *)
Definition frel (k : bytes) (o o' : option value) : Prop :=
  match o, o' with None, None => True | Some x, Some y => tolerated x y | None, Some VNull => In k optional_names | _, _ => False end.
Lemma occ_app k l l' : occurrences k (l ++ l') = occurrences k l ++ occurrences k l'.
Proof. unfold occurrences. rewrite filter_app, map_app. reflexivity. Qed.
Lemma occ_perm k l l' : Permutation l l' -> Permutation (occurrences k l) (occurrences k l').
Proof.
  intros P. unfold occurrences. apply Permutation_map. induction P as [|x l l' P IH|x y l|l l' l'' P IH P' IH']; cbn [filter].
  - constructor.
  - destruct (beq (fst x) k); [constructor|]; exact IH.
  - destruct (beq (fst y) k), (beq (fst x) k); try apply Permutation_refl. constructor.
  - eapply Permutation_trans; eauto.
Qed.
Lemma occ_members k l l1 : Forall2 (fun m m' => fst m' = fst m /\ tolerated (snd m) (snd m')) l l1 -> Forall2 tolerated (occurrences k l) (occurrences k l1).
Proof.
  unfold occurrences. induction 1 as [|m m' l l1 [E T] _ IH]; cbn [filter map]; [constructor|]. rewrite E. destruct (beq (fst m) k); cbn [map]; [constructor; assumption | exact IH].
Qed.
Lemma occ_none k l : ~ In k (map fst l) -> occurrences k l = [].
Proof.
  unfold occurrences. induction l as [|m l IH]; cbn; [reflexivity|]. intros N. destruct (beq (fst m) k) eqn:E; [apply beq_eq in E; elim N; auto|]. apply IH. auto.
Qed.
Lemma occ_extra k l extra : In k member_names -> addable l extra -> occurrences k extra = [] \/ occurrences k extra = [VNull] /\ In k optional_names /\ occurrences k l = [].
Proof.
  intros K (ND & F). assert (OK : In k optional_names \/ ~ In k optional_names) by (destruct (in_dec (list_eq_dec N.eq_dec) k optional_names); auto). destruct OK as [OK|OK].
  - assert (X : existsb (beq k) optional_names = true) by (apply existsb_exists; exists k; split; [exact OK | apply beq_refl]).
    revert ND F. unfold occurrences. induction extra as [|m extra IH]; cbn [filter map]; intros ND F; [left; reflexivity|]. inversion F as [|? ? Fm F']; subst.
    destruct (beq (fst m) k) eqn:E.
    + apply beq_eq in E. rewrite E, X in ND. cbn [map] in ND. inversion ND as [|? ? NI ND']; subst. destruct Fm as [Fm|(_ & Fv & Fl)]; [elim Fm; apply in_or_app; left; exact K|]. right.
      cbn [map]. rewrite Fv. split; [|split; [exact OK | apply occ_none; exact Fl]]. f_equal. apply (occ_none (fst m) extra). intros IN. apply NI.
      apply in_map_iff in IN as (m' & E' & IN). apply in_map_iff. exists m'. split; [exact E'|]. apply filter_In. split; [exact IN|]. rewrite E'. exact X.
    + apply IH; [|exact F']. destruct (existsb (beq (fst m)) optional_names); [cbn [map] in ND; inversion ND; assumption | exact ND].
  - left. apply occ_none. intros IN. apply in_map_iff in IN as (m & <- & IN). rewrite Forall_forall in F. destruct (F _ IN) as [Fm|(Fm & _)]; [apply Fm, in_or_app; left; exact K | exact (OK Fm)].
Qed.
Definition pick (k : bytes) (l : list (bytes * value)) : res (option value) :=
  match occurrences k l with [] => Ok None | [x] => Ok (Some x) | _ => Err "duplicate field" end.
Lemma pick_agree k l l1 extra l' : In k member_names -> Forall2 (fun m m' => fst m' = fst m /\ tolerated (snd m) (snd m')) l l1 -> addable l extra -> Permutation l' (l1 ++ extra) ->
  agree (frel k) (pick k l) (pick k l').
Proof.
  intros K F A P. apply (occ_perm k) in P. rewrite occ_app in P. apply (occ_members k) in F. unfold pick. destruct (occ_extra k l extra K A) as [EX|(EX & OK & EL)].
  - rewrite EX, app_nil_r in P. inversion F as [E1 E2|x y t t' T F' E1 E2].
    + rewrite <- E2 in P. rewrite (Permutation_nil (Permutation_sym P)). apply agree_ok. exact I.
    + rewrite <- E2 in P. inversion F' as [E3 E4|x2 y2 t2 t2' T2 F2 E3 E4].
      * rewrite <- E4 in P. rewrite (Permutation_length_1_inv (Permutation_sym P)). apply agree_ok. exact T.
      * rewrite <- E4 in P. apply Permutation_length in P. destruct (occurrences k l') as [|a [|b r]]; try discriminate P. apply agree_err.
  - rewrite EL in *. inversion F as [E1 E2|]. rewrite <- E2, EX in P. rewrite (Permutation_length_1_inv (Permutation_sym P)). apply agree_ok. exact OK.
Qed.
Definition frels (names : list bytes) (fs fs' : list (option value)) : Prop :=
  forall i k, nth_error names i = Some k -> exists o o', nth_error fs i = Some o /\ nth_error fs' i = Some o' /\ frel k o o'.
Lemma frels_cons k names o o' fs fs' : frel k o o' -> frels names fs fs' -> frels (k :: names) (o :: fs) (o' :: fs').
Proof. intros H K [|i] k' E; cbn in E; [injection E as <-; exists o, o'; auto | exact (K i k' E)]. Qed.
Lemma same_frels names (l l' : list value) : length l = length names -> Forall2 tolerated l l' -> frels names (map Some l) (map Some l').
Proof.
  intros L F. revert names L. induction F as [|x y l l' T F IH]; intros [|k names] L; try discriminate L; [intros i k E; destruct i; discriminate E|]. cbn [map]. apply frels_cons; [exact T|]. apply IH. cbn in L. lia.
Qed.
Lemma Forall2_same l : Forall2 tolerated l l.
Proof. induction l; constructor; [apply T_same | assumption]. Qed.
Lemma fields_agree names v v' : incl names member_names -> tolerated v v' -> agree (frels names) (de_fields names v) (de_fields names v').
Proof.
  intros IN T.
  assert (ARR : forall l l', Forall2 tolerated l l' -> agree (frels names) (de_fields names (VArr l)) (de_fields names (VArr l'))).
  { intros l l' F. cbn [de_fields]. rewrite <- (Forall2_len' _ _ _ F). destruct (length l =? length names)%nat eqn:E; [|apply agree_err]. apply Nat.eqb_eq in E. apply agree_ok. apply same_frels; assumption. }
  assert (OBJ : forall l l1 extra l', Forall2 (fun m m' => fst m' = fst m /\ tolerated (snd m) (snd m')) l l1 -> addable l extra -> Permutation l' (l1 ++ extra) ->
     agree (frels names) (de_fields names (VObj l)) (de_fields names (VObj l'))).
  { intros l l1 extra l' F A P. cbn [de_fields]. change (agree (frels names) (mapM (fun k => pick k l) names) (mapM (fun k => pick k l') names)). clear ARR.
    induction names as [|k names IH]; cbn [mapM]; [apply agree_ok; intros i k E; destruct i; discriminate E|].
    eapply agree_bind; [apply (pick_agree k l l1 extra l'); [apply IN; left; reflexivity | exact F | exact A | exact P]|]. intros o o' H.
    eapply agree_bind; [apply IH; intros x Hx; apply IN; right; exact Hx|]. intros fs fs' HF. apply agree_ok. apply frels_cons; assumption. }
  inversion T as [|l l' H|l l1 extra l' H1 H2 H3 H4]; subst.
  - destruct v' as [| | | | |l|l]; try apply agree_err; [apply ARR, Forall2_same|]. apply (OBJ l l [] l); [|split; [constructor | constructor]|rewrite app_nil_r; apply Permutation_refl].
    clear. induction l; constructor; [split; [reflexivity | apply T_same] | assumption].
  - apply ARR. exact H.
  - eapply OBJ; eauto.
Qed.
Lemma field_agree {A} (de : value -> res A) names fs fs' i k : robust de -> frels names fs fs' -> nth_error names i = Some k -> ~ In k optional_names -> agree eq (field de fs i) (field de fs' i).
Proof.
  intros R F E NO. destruct (F i k E) as (o & o' & E1 & E2 & H). unfold field. rewrite E1, E2. destruct o as [x|], o' as [y|]; cbn [frel] in H; try apply agree_err.
  - apply R. exact H.
  - contradiction.
  - destruct y; try contradiction.
Qed.
Lemma opt_agree {A} (de : value -> res A) v v' : robust de -> tolerated v v' -> agree eq (de_opt de v) (de_opt de v').
Proof.
  intros R T. pose proof (R _ _ T) as RT. inversion T; subst; [apply agree_same | |]; cbn [de_opt]; (eapply agree_bind_eq; [exact RT|]; intros a; apply agree_same).
Qed.
Lemma field_opt_agree {A} (de : value -> res A) names fs fs' i k : robust de -> frels names fs fs' -> nth_error names i = Some k -> agree eq (field_opt de fs i) (field_opt de fs' i).
Proof.
  intros R F E. destruct (F i k E) as (o & o' & E1 & E2 & H). unfold field_opt. rewrite E1, E2. destruct o as [x|], o' as [y|]; cbn [frel] in H; try contradiction.
  - apply opt_agree; assumption.
  - destruct y; try contradiction. apply agree_same.
  - apply agree_same.
Qed.

(* ---- enums ---- *)
Definition untagged (r : res (bytes * option value)) : Prop := forall k c, r = Ok (k, c) -> exists x, c = Some x /\ ~ In k variant_names /\ ~ (In k unit_names /\ x = VNull).
Inductive vrel : res (bytes * option value) -> res (bytes * option value) -> Prop :=
| V_same k c : vrel (Ok (k, c)) (Ok (k, c))
| V_some k x y : tolerated x y -> vrel (Ok (k, Some x)) (Ok (k, Some y))
| V_un r r' : untagged r -> untagged r' -> vrel r r'.
Lemma untagged_err e : untagged (Err e).
Proof. intros k c H. discriminate H. Qed.
Lemma not_tag k x : ~ tag_object [(k, x)] -> untagged (Ok (k, Some x)).
Proof. intros N k' c [= <- <-]. exists x. split; [reflexivity|]. split; intros H; apply N; exists k, x; split; try reflexivity; [left; exact H | right; exact H]. Qed.
Lemma variant_agree v v' : tolerated v v' -> vrel (de_variant v) (de_variant v').
Proof.
  intros T. inversion T as [|l l' H|l l1 extra l' H1 [_ H2] H3 H4]; subst.
  - destruct (de_variant v') as [[k c]|e|e] eqn:E; [constructor | apply V_un; apply untagged_err|]. destruct v' as [| | | | | |[|[k x] [|]]]; discriminate E.
  - apply V_un; apply untagged_err.
  - assert (S : extra = [] -> vrel (de_variant (VObj l)) (de_variant (VObj l'))).
    { intros ->. rewrite app_nil_r in H4. inversion H1 as [|[k x] [k' x'] t t' [EK T1] F' E1 E2]; subst.
      - rewrite (Permutation_nil (Permutation_sym H4)). apply V_un; apply untagged_err.
      - cbn in EK, T1. subst k'. inversion F' as [|m m' u u' M F2 E3 E4]; subst.
        + rewrite (Permutation_length_1_inv (Permutation_sym H4)). apply V_some. exact T1.
        + apply Permutation_length in H4. destruct l' as [|? [|? ?]]; try discriminate H4. apply V_un; [destruct m; apply untagged_err | cbn; destruct p; apply untagged_err]. }
    destruct H3 as [H3|H3]; [exact (S H3)|]. destruct extra as [|[k x] extra]; [exact (S eq_refl)|]. apply V_un.
    + destruct l as [|[k0 x0] [|? ?]]; [apply untagged_err | apply not_tag; exact H3 | apply untagged_err].
    + destruct l' as [|[k1 x1] [|? ?]]; [apply untagged_err | | apply untagged_err].
      pose proof (Permutation_length H4) as L. rewrite app_length in L. cbn [length] in L. destruct l1 as [|? ?]; [|cbn in L; lia]. destruct extra as [|? ?]; [|cbn in L; lia]. cbn [app] in H4. apply Permutation_length_1 in H4. injection H4 as -> ->.
      inversion H2 as [|? ? Hm _]; subst. cbn [fst snd] in Hm. apply not_tag. intros (k' & x' & [= <- <-] & K). destruct Hm as [Hm|(Hm & _)].
      * apply Hm. apply in_or_app. right. apply in_or_app. destruct K as [K|[K _]]; auto.
      * revert K Hm. clear. intros K Hm. assert (X : forallb (fun n => negb (existsb (beq n) (variant_names ++ unit_names))) optional_names = true) by reflexivity.
        rewrite forallb_forall in X. specialize (X _ Hm). apply Bool.negb_true_iff in X. assert (Y : existsb (beq k) (variant_names ++ unit_names) = true); [|congruence].
        apply existsb_exists. exists k. split; [apply in_or_app; destruct K as [K|[K _]]; auto | apply beq_refl].
Qed.
Lemma robust_unit {A} (name : A -> bytes) all : Forall (fun x => In (name x) unit_names) all -> robust (de_unit name all).
Proof.
  intros F v v' T. unfold de_unit. pose proof (variant_agree _ _ T) as V.
  assert (UN : forall r, untagged r -> forall a, (' (k, c) <- r ;; match find (fun x => beq (name x) k) all with None => Err "unknown variant" | Some x => match c with None | Some VNull => Ok x | _ => Err "invalid type, expected unit variant" end end) <> Ok a).
  { intros r U a H. apply bind_inv in H as ([k c] & -> & H). destruct (U k c eq_refl) as (x & -> & _ & NU). destruct (find _ all) as [y|] eqn:EF; [|discriminate H]. apply find_some in EF as [IN EK]. apply beq_eq in EK. subst k.
    rewrite Forall_forall in F. destruct x; try discriminate H. apply NU. split; [apply F; exact IN | reflexivity]. }
  inversion V as [k c E1 E2|k x y TX E1 E2|r r' U U' E1 E2]; [apply agree_same| |apply agree_fail; apply UN; assumption].
  cbn [bind]. destruct (find _ all); [|apply agree_err]. inversion TX; subst; [apply agree_same | apply agree_err | apply agree_err].
Qed.
Lemma units_b {A} (name : A -> bytes) all : forallb (fun x => existsb (beq (name x)) unit_names) all = true -> Forall (fun x => In (name x) unit_names) all.
Proof. intros H. apply Forall_forall. intros x Hx. rewrite forallb_forall in H. specialize (H x Hx). apply existsb_exists in H as (n & IN & E). apply beq_eq in E. congruence. Qed.
Lemma incl_b names l : forallb (fun n => existsb (beq n) l) names = true -> incl names l.
Proof. intros H x Hx. rewrite forallb_forall in H. specialize (H x Hx). apply existsb_exists in H as (n & IN & E). apply beq_eq in E. congruence. Qed.
Lemma notin_b k l : existsb (beq k) l = false -> ~ In k l.
Proof. intros H IN. assert (X : existsb (beq k) l = true) by (apply existsb_exists; exists k; split; [exact IN | apply beq_refl]). congruence. Qed.

(* ---- each type ---- *)
Create HintDb robust.
Lemma robust_map {A C} (f : value -> res A) (g : A -> res C) : robust f -> robust (fun v => x <- f v ;; g x).
Proof. intros R v v' T. eapply agree_bind_eq; [apply R; exact T|]. intros a. apply agree_same. Qed.
Ltac unit_ := apply robust_unit, units_b; reflexivity.
Lemma robust_ArmLevel : robust ArmLevel_de. Proof. unit_. Qed.
Lemma robust_TimeDataType : robust TimeDataType_de. Proof. unit_. Qed.
Lemma robust_ArmedState : robust ArmedState_de. Proof. unit_. Qed.
Lemma robust_Weekday : robust Weekday_de. Proof. unit_. Qed.
Lemma robust_ClockDisplayMode : robust ClockDisplayMode_de. Proof. unit_. Qed.
Lemma robust_DateDisplayMode : robust DateDisplayMode_de. Proof. unit_. Qed.
Lemma robust_ArmingStatus : robust ArmingStatus_de. Proof. unit_. Qed.
Lemma robust_ArmUpState : robust ArmUpState_de. Proof. unit_. Qed.
Lemma robust_AlarmState : robust AlarmState_de. Proof. unit_. Qed.
Lemma robust_TextDescriptionType : robust TextDescriptionType_de. Proof. unit_. Qed.
Lemma robust_limited : robust limited_de. Proof. exact robust_u8. Qed.
Lemma robust_ZoneStatus : robust ZoneStatus_de. Proof. exact robust_u8. Qed.
Lemma robust_ArmCode : robust ArmCode_de. Proof. apply robust_array, robust_u8. Qed.
Lemma robust_TextDescription : robust TextDescription_de. Proof. apply robust_array, robust_u8. Qed.
Lemma robust_Error : robust Error_de. Proof. apply robust_map, robust_str. Qed.
Lemma robust_AsciiPacket : robust AsciiPacket_de. Proof. exact robust_str. Qed.
Lemma robust_RpPacket : robust RpPacket_de. Proof. apply robust_vec, robust_u8. Qed.
Lemma robust_DateTime src : robust (DateTime_de src). Proof. apply (robust_map (de_borrowed src) from_iso_8601), robust_borrowed. Qed.
Lemma robust_ZoneStatusReport : robust ZoneStatusReport_de. Proof. intros v v' _. apply agree_panic. Qed.
#[local] Hint Resolve robust_str robust_bool robust_u8 robust_vec robust_array robust_ArmLevel robust_TimeDataType robust_ArmedState robust_Weekday robust_ClockDisplayMode robust_DateDisplayMode
  robust_ArmingStatus robust_ArmUpState robust_AlarmState robust_TextDescriptionType robust_limited robust_ZoneStatus robust_ArmCode robust_TextDescription robust_Error robust_AsciiPacket robust_RpPacket
  robust_DateTime robust_ZoneStatusReport : robust.
Ltac fld F := first [eapply field_opt_agree; [solve [eauto with robust] | exact F | reflexivity] | eapply field_agree; [solve [eauto with robust] | exact F | reflexivity | apply notin_b; reflexivity]].
Ltac struct_ T := eapply agree_bind; [apply fields_agree; [apply incl_b; reflexivity | exact T]|]; let fs := fresh in let fs' := fresh in let F := fresh "F" in intros fs fs' F; repeat (eapply agree_bind_eq; [fld F | intros ?]); first [apply agree_same | fld F].
Lemma robust_RtcData src : robust (RtcData_de src). Proof. intros v v' T. unfold RtcData_de. struct_ T. Qed.
#[local] Hint Resolve robust_RtcData : robust.
Lemma robust_ArmRequest : robust ArmRequest_de. Proof. intros v v' T. unfold ArmRequest_de. struct_ T. Qed.
Lemma robust_empty : robust empty_de. Proof. intros v v' T. unfold empty_de. struct_ T. Qed.
Lemma robust_ArmingStatusReport : robust ArmingStatusReport_de. Proof. intros v v' T. unfold ArmingStatusReport_de. struct_ T. Qed.
Lemma robust_SendTimeData : robust SendTimeData_de. Proof. intros v v' T. unfold SendTimeData_de. struct_ T. Qed.
Lemma robust_SendCode : robust SendCode_de. Proof. intros v v' T. unfold SendCode_de. struct_ T. Qed.
Lemma robust_Rtc src : robust (Rtc_de src). Proof. intros v v' T. unfold Rtc_de. struct_ T. Qed.
Lemma robust_SdReq : robust SdReq_de. Proof. intros v v' T. unfold SdReq_de. struct_ T. Qed.
Lemma robust_SdResp : robust SdResp_de. Proof. intros v v' T. unfold SdResp_de. struct_ T. Qed.
Lemma robust_Task : robust Task_de. Proof. intros v v' T. unfold Task_de. struct_ T. Qed.
Lemma robust_ZoneChange : robust ZoneChange_de. Proof. intros v v' T. unfold ZoneChange_de. struct_ T. Qed.
Lemma robust_InvalidPacket : robust InvalidPacket_de. Proof. intros v v' T. unfold InvalidPacket_de. struct_ T. Qed.
#[local] Hint Resolve robust_ArmRequest robust_empty robust_ArmingStatusReport robust_SendTimeData robust_SendCode robust_Rtc robust_SdReq robust_SdResp robust_Task robust_ZoneChange robust_InvalidPacket : robust.
(* enums with contents *)
Ltac unknown k NV := repeat match goal with |- context [if beq k ?n then _ else _] => let E := fresh in destruct (beq k n) eqn:E; [exfalso; apply beq_eq in E; apply NV; rewrite E; apply (incl_b [n] variant_names); [reflexivity | left; reflexivity]|] end.
Ltac chosen k := repeat match goal with |- context [if beq k ?n then _ else _] => destruct (beq k n) end.
Ltac enum_ T body :=
  let V := fresh in pose proof (variant_agree _ _ T) as V;
  let k := fresh "k" in let c := fresh in let x := fresh in let y := fresh in let TX := fresh "TX" in let r := fresh in let r' := fresh in let U := fresh "U" in let U' := fresh "U" in
  let e1 := fresh in let e2 := fresh in inversion V as [k c e1 e2|k x y TX e1 e2|r r' U U' e1 e2];
  [apply agree_same
  |cbn [bind contents]; chosen k; body TX
  |apply agree_fail; (let a := fresh in let K := fresh in let NV := fresh "NV" in let EQ := fresh in intros a K; apply bind_inv in K as ([k c] & EQ & K);
     first [destruct (U k c EQ) as (x & -> & NV & _) | destruct (U' k c EQ) as (x & -> & NV & _)]; revert K; cbn [contents bind]; unknown k NV; discriminate)].
Ltac inner TX := first [apply agree_err | struct_ TX | eapply agree_bind_eq; [(eauto with robust; fail) || (match goal with |- agree eq (?f _) _ => let R := fresh in assert (R : robust f) by (eauto with robust); exact (R _ _ TX) end) | intros ?; apply agree_same] | match goal with |- agree eq (?f _) _ => let R := fresh in assert (R : robust f) by (eauto with robust); exact (R _ _ TX) end].
Lemma robust_Message src : robust (Message_de src). Proof. intros v v' T. unfold Message_de. enum_ T inner. Qed.
Lemma robust_Packet : robust Packet_de. Proof. intros v v' T. unfold Packet_de. enum_ T inner. Qed.
Lemma robust_Change : robust Change_de. Proof. intros v v' T. unfold Change_de. enum_ T inner. Qed.
#[local] Hint Resolve robust_Message robust_Packet robust_Change : robust.
Lemma robust_Outcome src : robust (Outcome_de src). Proof. intros v v' T. unfold Outcome_de. enum_ T inner. Qed.
#[local] Hint Resolve robust_Outcome : robust.
Lemma robust_Event src : robust (Event_de src). Proof. intros v v' T. unfold Event_de. struct_ T. Qed.

Lemma agree_iff {A} (x y : res A) : agree eq x y -> forall a, x = Ok a <-> y = Ok a.
Proof. intros [(b & c & -> & -> & ->)|[H H']] a; [tauto|]. split; intros E; [elim (H _ E) | elim (H' _ E)]. Qed.
(* Whether members are in another order, unknown ones are there or null ones are absent makes no difference to what is read. *)
Theorem C135_events : forall src v v' e, same_json v v' -> (Event_de src v = Ok e <-> Event_de src v' = Ok e).
Proof.
  intros src v v' e S. induction S as [v v' T|v|v v' S IH|v v1 v' S1 IH1 S2 IH2]; [apply agree_iff, robust_Event; exact T | reflexivity | symmetry; exact IH | rewrite IH1; exact IH2].
Qed.
Theorem C135_messages : forall src v v' m, same_json v v' -> (Message_de src v = Ok m <-> Message_de src v' = Ok m).
Proof.
  intros src v v' e S. induction S as [v v' T|v|v v' S IH|v v1 v' S1 IH1 S2 IH2]; [apply agree_iff, robust_Message; exact T | reflexivity | symmetry; exact IH | rewrite IH1; exact IH2].
Qed.
Theorem C135_packets : forall v v' p, same_json v v' -> (Packet_de v = Ok p <-> Packet_de v' = Ok p).
Proof.
  intros v v' e S. induction S as [v v' T|v|v v' S IH|v v1 v' S1 IH1 S2 IH2]; [apply agree_iff, robust_Packet; exact T | reflexivity | symmetry; exact IH | rewrite IH1; exact IH2].
Qed.
(* So every event that a panel yields, but a zone status report, can be read back from the JSON made of it, even after a tool has sorted the members, left out the nulls and added its own. *)
Theorem C135_published : forall p now p' r w e, reachable p -> poll_next now p = Ok (p', r, w) -> yields r e -> (forall z, e_msg e <> Some (inl (MZoneStatusReport z))) ->
  exists v, Event_ser e = Ok v /\ forall v', same_json v v' -> Event_de FromText v' = Ok e.
Proof.
  intros p now p' r w e R E Y NZ. destruct (C56_event_roundtrip_partial _ _ _ _ _ _ R E Y) as [((z & H) & _)|(_ & v & S & D & _)]; [elim (NZ z H)|].
  exists v. split; [exact S|]. intros v' T. apply (C135_events _ _ _ _ T). exact D.
Qed.
(* Nothing may be added to an object that names a variant. *)
Theorem C135_variant_alone : forall src l, (2 <= length l)%nat ->
  (forall m, Message_de src (VObj l) <> Ok m) /\ (forall p, Packet_de (VObj l) <> Ok p) /\ (forall c, Change_de (VObj l) <> Ok c) /\ (forall o, Outcome_de src (VObj l) <> Ok o).
Proof. intros src l L. destruct l as [|[k x] [|m l]]; cbn in L; try lia. repeat split; intros ?; discriminate. Qed.

(* ---- examples ---- *)
(* The event for a change of zone 3, without its nulls, sorted differently, and with members of somebody else's, also inside. *)
Definition ex_tol_event : Event := mkEvent None None None (Some (CZoneChange 3 9)).
Definition ex_tol_mine : value := VObj [(B "pkt", VNull); (B "msg", VNull); (B "completes", VNull); (B "change", tagged (B "zoneChange") (VObj [(B "zone", VNum 3); (B "prior", VNum 9)]))].
Definition ex_tol_bare : value := VObj [(B "change", tagged (B "zoneChange") (VObj [(B "zone", VNum 3); (B "prior", VNum 9)]))].
Definition ex_tol_theirs : value :=
  VObj [(B "received", VOther); (B "change", tagged (B "zoneChange") (VObj [(B "prior", VNum 9); (B "name", ser_str (B "door")); (B "zone", VNum 3)])); (B "id", VArr [VNull])].
Lemma in_b k l : existsb (beq k) l = true -> In k l.
Proof. intros H. apply existsb_exists in H as (n & IN & E). apply beq_eq in E. congruence. Qed.
Lemma ex_unknown k : existsb (beq k) (member_names ++ variant_names ++ unit_names) = false -> ~ In k (member_names ++ variant_names ++ unit_names).
Proof. apply notin_b. Qed.
Example C135_example : Event_ser ex_tol_event = Ok ex_tol_mine /\ same_json ex_tol_mine ex_tol_theirs /\ Event_de FromText ex_tol_theirs = Ok ex_tol_event /\
  (* one more member next to the variant, and it is no longer understood *)
  Event_de FromText (VObj [(B "change", VObj [(B "zoneChange", VObj [(B "zone", VNum 3); (B "prior", VNum 9)]); (B "id", VNull)])]) = Err "expected an enum".
Proof.
  split; [vm_compute; reflexivity|]. split; [|split; vm_compute; reflexivity]. apply (rst_trans _ _ _ ex_tol_bare).
  - apply rst_sym, rst_step. apply (T_obj _ [(B "change", tagged (B "zoneChange") (VObj [(B "zone", VNum 3); (B "prior", VNum 9)]))] [(B "pkt", VNull); (B "msg", VNull); (B "completes", VNull)]).
    + constructor; [|constructor]. split; [reflexivity | apply T_same].
    + split; [vm_compute; repeat constructor; intros H; repeat destruct H as [H|H]; try discriminate H; exact H|].
      repeat (apply Forall_cons; [right; (split; [apply in_b; reflexivity|]); (split; [reflexivity|]); apply notin_b; reflexivity|]); apply Forall_nil.
    + right. intros (k & x & [= <- _] & [H|[H _]]); revert H; apply notin_b; reflexivity.
    + apply (Permutation_app_comm [(B "pkt", VNull); (B "msg", VNull); (B "completes", VNull)] [_]).
  - apply rst_step. apply (T_obj _ [(B "change", tagged (B "zoneChange") (VObj [(B "prior", VNum 9); (B "name", ser_str (B "door")); (B "zone", VNum 3)]))] [(B "received", VOther); (B "id", VArr [VNull])]).
    + constructor; [|constructor]. split; [reflexivity|]. cbn [snd]. apply (T_obj _ [(B "zoneChange", VObj [(B "prior", VNum 9); (B "name", ser_str (B "door")); (B "zone", VNum 3)])] []).
      * constructor; [|constructor]. split; [reflexivity|]. cbn [snd]. apply (T_obj _ [(B "zone", VNum 3); (B "prior", VNum 9)] [(B "name", ser_str (B "door"))]).
        -- repeat constructor.
        -- split; [constructor|]. constructor; [|constructor]. left. apply ex_unknown. reflexivity.
        -- right. intros (k & x & H & _). discriminate H.
        -- apply (Permutation_trans (l' := [(B "prior", VNum 9); (B "zone", VNum 3); (B "name", ser_str (B "door"))])); [constructor; constructor | constructor].
      * split; constructor.
      * left. reflexivity.
      * apply Permutation_refl.
    + split; [constructor|]. repeat (apply Forall_cons; [left; apply ex_unknown; reflexivity|]). apply Forall_nil.
    + right. intros (k & x & [= <- _] & [H|[H _]]); revert H; apply notin_b; reflexivity.
    + constructor.
Qed.
(* such an event is one that a panel yields *)
Example C135_example_panel : exists p' r w v, poll_next 5 (with_conn ex_panel (Tokio.arrive (p_conn ex_panel) (Tokio.Bytes (B "0AZC002900C7" ++ [13; 10])))) = Ok (p', r, w) /\
  (exists e, yields r e /\ Event_ser e = Ok v /\ Event_de FromText v = Ok e).
Proof. eexists _, _, _, _. split; [vm_compute; reflexivity|]. eexists. split; [reflexivity|]. split; vm_compute; reflexivity. Qed.

Print Assumptions C135_events.
Print Assumptions C135_messages.
Print Assumptions C135_packets.
Print Assumptions C135_published.
Print Assumptions C135_variant_alone.
