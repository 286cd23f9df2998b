(* IsoFacts.v: date-times as ISO 8601 text, text descriptions, arming transitions. *)
From Verif Require Import Base BaseFacts Pkt SpecPkt PktFacts Msg SpecMsg DecFacts MsgFacts WireFacts.
From Coq Require Import ZifyBool ZifyNat ZifyN.
Ltac Zify.zify_post_hook ::= Z.div_mod_to_equations.

Lemma parse_dec_spec max s e n : parse_dec max s e = Ok n <->
  n <= max /\ exists ds, (s = ds \/ s = 43 :: ds) /\ ds <> [] /\ digits ds /\ dec_value ds = n.
Proof.
  unfold parse_dec. pose proof (from_str_dec_spec max s) as H. destruct (from_str_dec max s) as [v|].
  - split; [intros [= <-]; apply H; reflexivity|]. intros X. apply H in X. congruence.
  - split; [discriminate|]. intros X. apply H in X. discriminate.
Qed.
Lemma parse_dec_safe max s e : safe (parse_dec max s e).
Proof. unfold parse_dec. destruct (from_str_dec max s); exact I. Qed.

Lemma iso_year_canon s n : length s = 4%nat -> 2000 <= n ->
  (exists ds, (s = ds \/ s = 43 :: ds) /\ ds <> [] /\ digits ds /\ dec_value ds = n) -> dec_canon 4 n s.
Proof.
  intros L Hn (ds & E & _ & D & V). destruct E as [-> | ->]; [repeat split; auto|].
  exfalso. injection L as L. pose proof (dec_value_lt ds D) as H. rewrite L in H. cbn in H. lia.
Qed.

Ltac bnd H := cbv [str_slice is_char_boundary slice] in H;
  cbn [length Nat.leb firstn skipn andb Nat.sub nth_error Nat.eqb] in H.
Ltac bnd_case H := match type of H with
  | bind (if ?c then _ else _) _ = _ => destruct c; [cbn [bind] in H | discriminate H]
  end.

Lemma sep_eq c k : negb (beq [c] [k]) = false -> c = k.
Proof. intros H. apply negb_false_iff in H. apply beq_eq in H. congruence. Qed.

Lemma from_iso_iff val d : from_iso_8601 val = Ok d <-> iso_accepts d val.
Proof.
  unfold from_iso_8601. split.
  - intros H. destruct (negb (length val =? 19)%nat) eqn:L; [discriminate|].
    apply negb_false_iff, Nat.eqb_eq in L.
    do 19 (destruct val as [|? val]; [discriminate L|]). destruct val; [|discriminate L]. clear L.
    bnd H.
    repeat (first [bnd_case H
      | match type of H with
        | bind (parse_dec _ _ _) _ = _ => let v := fresh "v" in let E := fresh "E" in
             apply bind_inv in H as (v & E & H); apply parse_dec_spec in E
        | (if ?c then Err _ else _) = _ => let E := fresh "C" in destruct c eqn:E; [discriminate H|]
        end ]).
    injection H as <-.
    repeat match goal with H : negb (beq [_] [_]) = false |- _ => apply sep_eq in H; subst end.
    repeat match goal with H : negb _ = false |- _ => apply negb_false_iff in H end. unfold in_range in *.
    exists v, [n; n0; n1; n2], [n4; n5], [n7; n8], [n10; n11], [n13; n14], [n16; n17]. split; [reflexivity|]. cbn [year month day hour minute second].
    destruct E as [EY E].
    split; [apply iso_year_canon; [reflexivity | | exact E]; lia|].
    split; [lia|]. split; [lia|].
    repeat match goal with |- dec_field 2 _ _ /\ _ => split; [split; [reflexivity | assumption]|]
                         | |- _ /\ _ => split; [lia|] end. lia.
  - intros (Y & y & mo & dd & h & mi & se & -> & HY & RY & EY & H1 & R1 & H2 & R2 & H3 & R3 & H4 & R4 & H5 & R5).
    destruct d as [dy dmo ddd dh dmi dse]; cbn [year month day hour minute second] in *.
    assert (PY : forall e, parse_dec 65535 y e = Ok Y).
    { intros e. apply parse_dec_spec. split; [lia|]. destruct HY as (L & D & V). exists y. repeat split; auto. intros ->. discriminate. }
    assert (PF : forall n s e, dec_field 2 n s -> parse_dec 255 s e = Ok n).
    { intros n s e (L & D & V). apply parse_dec_spec. auto. }
    assert (A : forall ds, digits ds -> Forall (fun c => is_cont c = false) ds).
    { intros ds. apply Forall_impl. unfold is_cont, between. lia. }
    assert (AF : forall n s, dec_field 2 n s -> Forall (fun c => is_cont c = false) s).
    { intros n s (L & _ & ds & E & _ & D & _). apply A in D. destruct E as [-> | ->]; auto. }
    pose proof (AF _ _ H1) as A1. pose proof (AF _ _ H2) as A2. pose proof (AF _ _ H3) as A3.
    pose proof (AF _ _ H4) as A4. pose proof (AF _ _ H5) as A5.
    pose proof (A _ (proj1 (proj2 HY))) as A0.
    pose proof (PF _ _ "bad month"%string H1) as P1. pose proof (PF _ _ "bad day"%string H2) as P2.
    pose proof (PF _ _ "bad hour"%string H3) as P3. pose proof (PF _ _ "bad minute"%string H4) as P4.
    pose proof (PF _ _ "bad second"%string H5) as P5. specialize (PY "bad year"%string).
    pose proof (proj1 HY) as L0. pose proof (proj1 H1) as L1. pose proof (proj1 H2) as L2. pose proof (proj1 H3) as L3.
    pose proof (proj1 H4) as L4. pose proof (proj1 H5) as L5.
    clear HY H1 H2 H3 H4 H5 PF AF A.
    expl y L0. expl mo L1. expl dd L2. expl h L3. expl mi L4. expl se L5.
    repeat match goal with F : Forall _ (_ :: _) |- _ => inversion F; clear F; subst
                         | F : Forall _ [] |- _ => clear F end.
    cbn [app]. cbn [length Nat.eqb negb].
    cbv [str_slice is_char_boundary slice]. cbn [length Nat.leb firstn skipn andb Nat.sub nth_error Nat.eqb].
    repeat match goal with H : is_cont _ = false |- _ => rewrite H; clear H end.
    change (is_cont 45) with false. change (is_cont 58) with false. change (is_cont 84) with false.
    cbn [negb andb bind].
    rewrite PY. cbn [bind]. unfold in_range.
    replace ((2000 <=? Y) && (Y <=? 2100)) with true by lia. cbn [negb].
    cbn [beq N.eqb Pos.eqb andb negb]. rewrite P1. cbn [bind].
    replace ((1 <=? dmo) && (dmo <=? 12)) with true by lia. cbn [negb].
    rewrite P2. cbn [bind]. replace ((1 <=? ddd) && (ddd <=? 31)) with true by lia. cbn [negb].
    rewrite P3. cbn [bind]. replace (23 <? dh) with false by lia.
    rewrite P4. cbn [bind]. replace (59 <? dmi) with false by lia.
    rewrite P5. cbn [bind]. replace (59 <? dse) with false by lia.
    do 2 f_equal. lia.
Qed.

Lemma from_iso_safe val : Forall (fun c => c < 128) val -> safe (from_iso_8601 val).
Proof.
  intros A. unfold from_iso_8601. destruct (negb (length val =? 19)%nat) eqn:L; [exact I|].
  apply negb_false_iff, Nat.eqb_eq in L.
  do 19 (destruct val as [|? val]; [discriminate L|]). destruct val; [|discriminate L]. clear L.
  assert (K : Forall (fun c => is_cont c = false) [n; n0; n1; n2; n3; n4; n5; n6; n7; n8; n9; n10; n11; n12; n13; n14; n15; n16; n17]).
  { revert A. apply Forall_impl. unfold is_cont, between. lia. }
  clear A.
  repeat match goal with F : Forall _ (_ :: _) |- _ => inversion F; clear F; subst
                         | F : Forall _ [] |- _ => clear F end.
  cbv [str_slice is_char_boundary slice]. cbn [length Nat.leb firstn skipn andb Nat.sub nth_error Nat.eqb].
  repeat match goal with H : is_cont _ = false |- _ => rewrite H; clear H end.
  cbn [negb andb bind].
  repeat match goal with
  | |- safe (bind (Ok _) _) => cbn [bind]
  | |- safe (bind (parse_dec _ _ _) _) => apply safe_bind; [apply parse_dec_safe | intros]
  | |- safe (if ?c then _ else _) => destruct c
  | |- safe _ => exact I
  end.
Qed.

Lemma to_iso_spec d : datetime_ok d -> iso_of d (to_iso_8601 d).
Proof.
  intros (H1 & H2 & H3 & H4 & H5 & H6). unfold to_iso_8601.
  do 6 eexists. split; [reflexivity|].
  repeat match goal with |- _ /\ _ => split end; apply pad_canon; try discriminate; cbn; lia.
Qed.
Lemma iso_of_len d s : iso_of d s -> length s = 19%nat.
Proof.
  intros (y & mo & dd & h & mi & se & -> & H1 & H2 & H3 & H4 & H5 & H6).
  rewrite !app_length, (proj1 H1), (proj1 H2), (proj1 H3), (proj1 H4), (proj1 H5), (proj1 H6). reflexivity.
Qed.
Lemma iso_of_accepts d s : datetime_ok d -> iso_of d s -> iso_accepts d s.
Proof.
  intros (R1 & R2 & R3 & R4 & R5 & R6) (y & mo & dd & h & mi & se & -> & H1 & H2 & H3 & H4 & H5 & H6).
  unfold two in *. exists (2000 + year d), (B "20" ++ y), mo, dd, h, mi, se.
  split; [reflexivity|]. split.
  { destruct H1 as (L & D & V). repeat split; [rewrite app_length, L; reflexivity | apply digits_app; split; [repeat constructor; lia | exact D]|].
    rewrite <- V. expl y L. unfold dec_value. cbn [app fold_left]. lia. }
  split; [lia|]. split; [lia|].
  repeat match goal with |- dec_field 2 _ _ /\ _ => split; [apply canon_field; [discriminate | lia | assumption]|]
                         | |- _ /\ _ => split; [lia|] end. lia.
Qed.
Lemma from_to_iso d : datetime_ok d -> from_iso_8601 (to_iso_8601 d) = Ok d.
Proof. intros H. apply from_iso_iff. apply iso_of_accepts; [exact H | apply to_iso_spec; exact H]. Qed.

(* ---- text descriptions ---- *)
Lemma overlay_spec dst : forall text, overlay text dst = firstn (length dst) text ++ skipn (length text) dst.
Proof.
  induction dst as [|d dst IH]; intros [|b text]; try reflexivity.
  cbn [overlay length firstn skipn app]. f_equal. apply IH.
Qed.
Lemma skipn_repeat {A} (x : A) n k : skipn n (repeat x k) = repeat x (k - n).
Proof. revert k; induction n as [|n IH]; intros [|k]; cbn; auto. Qed.
Lemma overlay_blank text : overlay text TextDescription_default = firstn 16 text ++ repeat 32 (16 - length text).
Proof. rewrite overlay_spec. unfold TextDescription_default. rewrite skipn_repeat, repeat_length. reflexivity. Qed.

Lemma text_new_spec s t : TextDescription_new s = Ok t <->
  Forall printable s /\ t = firstn 16 s ++ repeat 32 (16 - length s).
Proof.
  unfold TextDescription_new. rewrite <- overlay_blank. split.
  - intros H. apply bind_inv in H as ([] & H1 & H2). apply check_printable_spec in H1. injection H2 as <-. auto.
  - intros [H ->]. apply check_printable_spec in H. rewrite H. reflexivity.
Qed.
Lemma text_new_ok s t : TextDescription_new s = Ok t -> text_ok t.
Proof.
  intros H. apply text_new_spec in H as [H ->]. split.
  - rewrite app_length, repeat_length, firstn_length. lia.
  - apply Forall_app. split; [rewrite <- (firstn_skipn 16 s) in H; apply Forall_app in H; tauto|].
    apply Forall_forall. intros x Hx. apply repeat_spec in Hx. subst. unfold printable. lia.
Qed.

Lemma trim_end_spec s : trimmed s (trim_end s).
Proof.
  induction s as [|b s IH].
  - exists 0%nat. split; [reflexivity|]. intros t' c E. destruct t'; discriminate.
  - cbn [trim_end]. destruct IH as (k & E & N). destruct (trim_end s) as [|x t] eqn:T.
    + cbn [app] in E. destruct (b =? 32) eqn:Eb.
      * apply N.eqb_eq in Eb. subst b. exists (S k). split; [cbn; congruence|]. intros t' c E'. destruct t'; discriminate.
      * apply N.eqb_neq in Eb. exists k. split; [cbn; congruence|].
        intros t' c E'. destruct t' as [|y [|]]; [injection E' as <-; exact Eb | discriminate | discriminate].
    + exists k. split; [cbn [app]; rewrite E at 1; reflexivity|].
      intros t' c E'. destruct t' as [|y t']; [discriminate|]. injection E' as _ E'. apply (N t' c E').
Qed.
Lemma trimmed_fun s t u : trimmed s t -> trimmed s u -> t = u.
Proof.
  intros (k & -> & H) (j & E & G). revert k j t u H G E.
  assert (W : forall k j (t u : bytes), (k <= j)%nat -> (forall t' c, t = t' ++ [c] -> c <> 32) ->
     t ++ repeat 32 k = u ++ repeat 32 j -> t = u).
  { intros k j t u L H E. replace j with (j - k + k)%nat in E by lia. rewrite repeat_app, app_assoc in E.
    apply app_inv_tail in E. remember (j - k)%nat as i eqn:Hi. clear Hi. destruct i as [|i]; [rewrite app_nil_r in E; exact E|].
    exfalso. replace (S i) with (i + 1)%nat in E by lia. rewrite repeat_app, app_assoc in E. cbn [repeat] in E.
    apply (H _ _ E). reflexivity. }
  intros k j t u H G E. destruct (Nat.le_ge_cases k j); [eapply W; eassumption | symmetry; eapply W; [eassumption | exact G | symmetry; exact E]].
Qed.
Lemma text_as_str t : Forall printable t -> exists s, TextDescription_as_str t = Ok s /\ trimmed t s.
Proof.
  intros H. exists (trim_end t). split; [|apply trim_end_spec].
  unfold TextDescription_as_str, as_padded_str. rewrite utf8_printable by exact H. reflexivity.
Qed.

(* ---- suspicious transitions ---- *)
Lemma ArmingStatus_eqb_eq a b : ArmingStatus_eqb a b = true <-> a = b.
Proof. destruct a, b; cbn; split; congruence. Qed.
Lemma ArmUpState_eqb_eq a b : ArmUpState_eqb a b = true <-> a = b.
Proof. destruct a, b; cbn; split; congruence. Qed.
Lemma AlarmState_eqb_eq a b : AlarmState_eqb a b = true <-> a = b.
Proof. destruct a, b; cbn; split; congruence. Qed.
Lemma TextDescriptionType_eqb_eq a b : TextDescriptionType_eqb a b = true <-> a = b.
Proof. destruct a, b; cbn; split; congruence. Qed.
Lemma has_entry_delay_spec s : has_entry_delay s = true <-> In s entry_delay_modes.
Proof. destruct s; cbn; intuition discriminate. Qed.

Lemma combine_nth {A C} (l : list A) (k : list C) i x y :
  nth_error (combine l k) i = Some (x, y) <-> nth_error l i = Some x /\ nth_error k i = Some y.
Proof.
  revert k i; induction l as [|a l IH]; intros [|b k] [|i]; cbn; try (split; [discriminate | intros []; discriminate]).
  - split; [intros [= <- <-]; auto | intros [[= <-] [= <-]]; reflexivity].
  - apply IH.
Qed.
Lemma suspicious_loop_spec l : suspicious_loop l = true <->
  exists i s, nth_error l i = Some (AST_Disarmed, s, AU_ArmedFully) /\ In s entry_delay_modes.
Proof.
  induction l as [|[[f t] u] l IH]; cbn [suspicious_loop].
  - split; [discriminate|]. intros (i & s & H & _). destruct i; discriminate.
  - destruct (ArmingStatus_eqb f AST_Disarmed && has_entry_delay t && ArmUpState_eqb u AU_ArmedFully) eqn:E.
    + split; [intros _|reflexivity]. apply andb_true_iff in E as [E E3]. apply andb_true_iff in E as [E1 E2].
      apply ArmingStatus_eqb_eq in E1. apply has_entry_delay_spec in E2. apply ArmUpState_eqb_eq in E3. subst.
      exists 0%nat, t. auto.
    + rewrite IH. split.
      * intros (i & s & H). exists (S i), s. exact H.
      * intros ([|i] & s & H & M); [|exists i, s; auto].
        injection H as -> -> ->. apply has_entry_delay_spec in M. rewrite M in E. discriminate.
Qed.
Lemma suspicious_spec from to : is_transition_suspicious from to = true <-> became_fully_armed from to.
Proof.
  unfold is_transition_suspicious, became_fully_armed. rewrite suspicious_loop_spec. split.
  - intros (i & s & H & M). apply combine_nth in H as [H H3]. apply combine_nth in H as [H1 H2]. exists i, s. auto.
  - intros (i & s & H1 & H2 & M & H3). exists i, s. split; [|exact M]. apply combine_nth. split; [|exact H3]. apply combine_nth. auto.
Qed.

(* ---- equality of reports ---- *)
Lemma list_eqb_eq {A} (eqb : A -> A -> bool) l k : (forall x y, eqb x y = true <-> x = y) -> list_eqb eqb l k = true <-> l = k.
Proof.
  intros H. revert k; induction l as [|x l IH]; intros [|y k]; cbn; try (split; congruence).
  rewrite andb_true_iff, H, IH. split; [intros []; congruence | intros [= -> ->]; auto].
Qed.
Lemma report_eqb_eq a b : ArmingStatusReport_eqb a b = true <-> a = b.
Proof.
  unfold ArmingStatusReport_eqb. rewrite !andb_true_iff, !list_eqb_eq, N.eqb_eq
    by (auto using ArmingStatus_eqb_eq, ArmUpState_eqb_eq, AlarmState_eqb_eq).
  destruct a, b; cbn. split; [intros [[[-> ->] ->] ->]; reflexivity | intros [= -> -> -> ->]; auto].
Qed.

Lemma is_response_spec m r : is_response_to m r = true <-> replies m r.
Proof.
  destruct m, r; cbn [is_response_to replies]; try (split; [discriminate | tauto]); try tauto.
  - rewrite andb_true_iff, orb_true_iff, TextDescriptionType_eqb_eq. split; intros [H1 H2]; (split; [exact H1 | lia]).
  - rewrite N.eqb_eq. split; congruence.
Qed.

(* ---- when from_iso_8601 panics ---- *)
Lemma year_text_spec s e : length s = 4%nat ->
  year_text s <-> exists n, parse_dec 65535 s e = Ok n /\ in_range 2000 2100 n = true.
Proof.
  intros L. split.
  - intros (y & H & R). exists y. unfold in_range. split; [|lia]. apply parse_dec_spec. split; [lia|].
    destruct H as (_ & D & V). exists s. repeat split; auto. intros ->. discriminate.
  - intros (n & H & R). unfold in_range in R. apply parse_dec_spec in H as [_ H]. exists n. split; [|lia].
    apply iso_year_canon; [exact L | lia | exact H].
Qed.
Lemma number_text_spec s e lo hi : length s = 2%nat ->
  number_text lo hi s <-> exists n, parse_dec 255 s e = Ok n /\ lo <= n <= hi.
Proof.
  intros L. unfold number_text, dec_field. split; intros (n & H & R); exists n; (split; [|exact R]).
  - apply parse_dec_spec. apply H.
  - split; [exact L|]. apply parse_dec_spec in H. exact H.
Qed.

Lemma cont_range c : is_cont c = true <-> 128 <= c < 192.
Proof. unfold is_cont, between. lia. Qed.
Ltac okpart := cbv [part Nat.sub skipn firstn];
  first [ match goal with C : negb (beq [?x] _) = false |- _ = [?x] => apply sep_eq in C; rewrite C; reflexivity end
        | match goal with
          | E : parse_dec _ ?l _ = Ok ?v, S : _ ?l <-> _ |- _ ?l =>
              apply S; exists v; (split; [first [exact E | reflexivity] | unfold in_range in *; try apply parse_dec_spec in E; lia])
          end ].
Ltac fin := do 4 eexists; (split; [reflexivity|]); (split; [reflexivity|]); (split; [apply cont_range; assumption|]);
  let j := fresh "j" in let Hj := fresh "Hj" in let Hn := fresh "Hn" in
  intros j ? ? ? Hj Hn;
  do 12 (destruct j as [|j]; [first [exfalso; lia | cbn [nth_error iso_parts] in Hn; injection Hn as <- <- <-; okpart]|]); exfalso; lia.
Ltac isgo H k := match type of H with
  | bind (if ?c then _ else _) _ = _ => let E := fresh "C" in cbn [andb] in H;
         match type of H with
         | bind (if ?c then _ else _) _ = _ => destruct c eqn:E; [cbn [bind] in H | exists k; clear H; apply negb_false_iff in E; fin]
         end
  | bind (parse_dec ?m ?x ?e) _ = _ => let v := fresh "v" in let E := fresh "E" in
         destruct (parse_dec m x e) as [v| |] eqn:E;
         [cbn [bind] in H | discriminate H | exfalso; pose proof (parse_dec_safe m x e) as X; rewrite E in X; exact X]
  | (if ?c then Err _ else _) = _ => let E := fresh "G" in destruct c eqn:E; [discriminate H|]
  end.
Ltac isfacts Hj n := lazymatch n with
  | O => idtac
  | S ?m => first [ let F := fresh "F" in pose proof (Hj m _ _ _ ltac:(lia) eq_refl) as F; cbv [part Nat.sub skipn firstn] in F | idtac ];
            isfacts Hj m
  end.
Ltac isprep := repeat match goal with F : ?P, S : ?P <-> _ |- _ => apply S in F as (? & F & ?) end;
  repeat match goal with F : parse_dec ?m ?x ?e = Ok ?v, F2 : parse_dec ?m ?x ?e = Ok ?w |- _ =>
    rewrite F in F2; injection F2 as -> end.
Ltac isback := match goal with
  | |- exists w, Panic _ = _ => eexists; reflexivity
  | |- exists w, bind (if negb (is_cont ?x) then _ else _) _ = _ =>
      let E := fresh "E" in destruct (is_cont x) eqn:E; cbn [negb andb bind]; [eexists; reflexivity | try (exfalso; congruence)]
  | F : parse_dec ?m ?x ?e = Ok _ |- exists w, bind (parse_dec ?m ?x ?e) _ = _ => rewrite F; cbn [bind]
  | F : _ = [?x] |- exists w, (if negb (beq [?x] _) then Err _ else _) = _ => rewrite <- F; cbn [beq N.eqb Pos.eqb andb negb]
  | |- exists w, (if ?c then Err _ else _) = _ => replace c with false by (unfold in_range in *; lia)
  end.
Lemma from_iso_panics s : (exists why, from_iso_8601 s = Panic why) <-> iso_breaks s.
Proof.
  unfold from_iso_8601, iso_breaks. destruct (negb (length s =? 19)%nat) eqn:L.
  { apply negb_true_iff, Nat.eqb_neq in L. split; [intros (w & [=]) | tauto]. }
  apply negb_false_iff, Nat.eqb_eq in L. split.
  - intros (why & H). split; [exact L|].
    do 19 (destruct s as [|? s]; [discriminate L|]). destruct s; [|discriminate L]. clear L.
    assert (S0 := year_text_spec [n; n0; n1; n2] "bad year" eq_refl).
    assert (S2 := number_text_spec [n4; n5] "bad month" 1 12 eq_refl).
    assert (S4 := number_text_spec [n7; n8] "bad day" 1 31 eq_refl).
    assert (S6 := number_text_spec [n10; n11] "bad hour" 0 255 eq_refl).
    assert (S8 := number_text_spec [n10; n11] "bad hour" 0 23 eq_refl).
    assert (S9 := number_text_spec [n13; n14] "bad minute" 0 59 eq_refl).
    bnd H.
    isgo H 0%nat. isgo H 0%nat. isgo H 0%nat.
    isgo H 1%nat. isgo H 1%nat.
    isgo H 2%nat. isgo H 2%nat. isgo H 2%nat.
    isgo H 3%nat. isgo H 3%nat.
    isgo H 4%nat. isgo H 4%nat. isgo H 4%nat.
    isgo H 5%nat. isgo H 5%nat.
    isgo H 6%nat. isgo H 6%nat.
    isgo H 7%nat. isgo H 7%nat. isgo H 7%nat.
    isgo H 9%nat. isgo H 9%nat. isgo H 9%nat.
    isgo H 10%nat. isgo H 10%nat.
    cbn [bind andb] in H.
    isgo H 0%nat. isgo H 0%nat. discriminate H.
  - intros (_ & k & a & b & ok & c & Hk & Hc & Rc & Hj).
    do 19 (destruct s as [|? s]; [discriminate L|]). destruct s; [|discriminate L]. clear L.
    apply cont_range in Rc.
    assert (S0 := year_text_spec [n; n0; n1; n2] "bad year" eq_refl).
    assert (S2 := number_text_spec [n4; n5] "bad month" 1 12 eq_refl).
    assert (S4 := number_text_spec [n7; n8] "bad day" 1 31 eq_refl).
    assert (S6 := number_text_spec [n10; n11] "bad hour" 0 255 eq_refl).
    assert (S8 := number_text_spec [n10; n11] "bad hour" 0 23 eq_refl).
    assert (S9 := number_text_spec [n13; n14] "bad minute" 0 59 eq_refl).
    cbv [str_slice is_char_boundary slice]. cbn [length Nat.leb firstn skipn andb Nat.sub nth_error Nat.eqb].
    do 12 (destruct k as [|k]; [cbn [nth_error iso_parts] in Hk; injection Hk as <- <- <-; cbn [nth_error] in Hc;
      (try discriminate Hc); injection Hc as <-; isfacts Hj 12%nat; isprep; repeat isback |]).
    destruct k; discriminate Hk.
Qed.
