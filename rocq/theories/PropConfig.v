(* PropConfig.v: properties C66-C69, about the configuration of the bridge and its availability topic. *)
From Coq Require Import ZifyBool ZifyNat ZifyN.
From Verif Require Import Base BaseFacts Pkt SpecPkt Msg SpecMsg Tokio SpecConn State SpecState Serde SerdeFacts Mqtt SpecMqtt MqttFacts.
From Verif Require Import StateFacts RunFacts HistFacts ViewFacts PropMqtt Config SpecMqtt SpecConfig.
Ltac Zify.zify_post_hook ::= Z.div_mod_to_equations.

Lemma res_bind {A C} (m : res A) (f : A -> res C) c : (x <- m ;; f x) = Ok c <-> exists a, m = Ok a /\ f a = Ok c.
Proof.
  destruct m; cbn; (split; [try discriminate; eauto | intros (? & E & H)]); try discriminate. injection E as <-. exact H.
Qed.

(* ---- members ---- *)
Lemma has_occ l k v : has l k v <-> occurrences k l = [v].
Proof.
  unfold has. split.
  - intros (l1 & l2 & -> & N1 & N2). rewrite occurrences_app, (occurrences_none k l1) by exact N1. unfold occurrences. cbn [filter fst app].
    rewrite beq_refl. cbn [map snd]. fold (occurrences k l2). rewrite occurrences_none by exact N2. reflexivity.
  - induction l as [|[k' v'] l IH]; [discriminate|]. unfold occurrences. cbn [filter fst]. destruct (beq k' k) eqn:E.
    + apply beq_eq in E. subst k'. cbn [map snd]. fold (occurrences k l). intros [= -> H]. exists [], l. split; [reflexivity|]. split; [intros []|].
      intros I. apply in_map_iff in I as ([k' w] & E & I). cbn in E. subst k'. assert (X : In w (occurrences k l)).
      { unfold occurrences. apply in_map_iff. exists (k, w). split; [reflexivity|]. apply filter_In. split; [exact I|]. apply beq_refl. }
      rewrite H in X. destruct X.
    + fold (occurrences k l). intros H. destruct (IH H) as (l1 & l2 & -> & N1 & N2). exists ((k', v') :: l1), l2. split; [reflexivity|]. split; [|exact N2].
      cbn. intros [X|X]; [|auto]. subst. rewrite beq_refl in E. discriminate.
Qed.
Lemma lacks_occ l k : lacks l k <-> occurrences k l = [].
Proof.
  split; [apply occurrences_none|]. intros H I. apply in_map_iff in I as ([k' w] & E & I). cbn in E. subst k'. assert (X : In w (occurrences k l)).
  { unfold occurrences. apply in_map_iff. exists (k, w). split; [reflexivity|]. apply filter_In. split; [exact I|]. apply beq_refl. }
  rewrite H in X. destruct X.
Qed.
Lemma mapM_Forall2 {A C} (f : A -> res C) l : forall r, mapM f l = Ok r <-> Forall2 (fun x y => f x = Ok y) l r.
Proof.
  induction l as [|x l IH]; intros r; cbn [mapM].
  - split; [intros [= <-]; constructor | intros H; inversion H; reflexivity].
  - rewrite res_bind. split.
    + intros (y & Hy & H). apply res_bind in H as (ys & H & [= <-]). constructor; [exact Hy|]. apply IH. exact H.
    + intros H. inversion H as [|? y ? ys H1 H2]; subst. exists y. split; [exact H1|]. apply res_bind. exists ys. split; [apply IH; exact H2 | reflexivity].
Qed.
Lemma Forall2_iff {A C} (P Q : A -> C -> Prop) l r : (forall x y, P x y <-> Q x y) -> Forall2 P l r <-> Forall2 Q l r.
Proof. intros H. split; intros F; induction F; constructor; try assumption; apply H; assumption. Qed.
Lemma Forall2_nth {A C} (P : A -> C -> Prop) l r : Forall2 P l r -> forall i x, nth_error l i = Some x -> exists y, nth_error r i = Some y /\ P x y.
Proof. intros F. induction F as [|x y l r H F IH]; intros [|i] a E; try discriminate; cbn in E; [injection E as <-; exists y; auto | apply IH; exact E]. Qed.
Lemma Forall2_from_nth {A C} (P : A -> C -> Prop) : forall l r, length l = length r ->
  (forall i x y, nth_error l i = Some x -> nth_error r i = Some y -> P x y) -> Forall2 P l r.
Proof.
  induction l as [|x l IH]; intros [|y r] L H; try discriminate; constructor.
  - apply (H 0%nat); reflexivity.
  - apply IH; [cbn in L; lia|]. intros i a b E1 E2. apply (H (S i)); assumption.
Qed.
Lemma Forall2_len {A C} (P : A -> C -> Prop) l r : Forall2 P l r -> length l = length r.
Proof. intros F. induction F; cbn; congruence. Qed.
Lemma nth_same {A} : forall l r : list A, (forall i, nth_error l i = nth_error r i) -> l = r.
Proof.
  induction l as [|x l IH]; intros [|y r] H; try (specialize (H 0%nat); discriminate); [reflexivity|].
  pose proof (H 0%nat) as E. injection E as <-. f_equal. apply IH. intros i. exact (H (S i)).
Qed.
Lemma fields_member names v fs : NoDup names -> names <> [] -> (de_fields names v = Ok fs <-> Forall2 (member names v) names fs).
Proof.
  intros ND NE. destruct v as [|b|n| |e s|l|l]; cbn [de_fields];
    try (split; [discriminate | intros F; destruct names as [|k names']; [congruence|]; inversion F; subst; cbn in *; contradiction]).
  - destruct (Nat.eqb_spec (length l) (length names)) as [E|E].
    + split.
      * intros [= <-]. apply Forall2_from_nth; [rewrite map_length; lia|]. intros i k o H1 H2. split; [exact E|].
        rewrite nth_error_map in H2. destruct (nth_error l i) as [x|] eqn:E2; [|discriminate]. injection H2 as <-. exists i, x. auto.
      * intros F. f_equal. apply nth_same. intros i. rewrite nth_error_map.
        destruct (nth_error names i) as [k|] eqn:Ek.
        -- destruct (Forall2_nth _ _ _ F _ _ Ek) as (o & Eo & _ & j & x & -> & Ej & Ex). rewrite Eo.
           assert (i = j) as ->; [|rewrite Ex; reflexivity].
           eapply NoDup_nth_error; [exact ND | apply nth_error_Some; congruence | congruence].
        -- apply nth_error_None in Ek. rewrite (proj2 (nth_error_None l i)) by lia. symmetry. apply nth_error_None. apply Forall2_len in F. lia.
    + split; [discriminate|]. intros F. destruct names as [|k names']; [congruence|]. inversion F as [|? ? ? ? H ?]; subst. destruct H as [H _]. contradiction.
  - rewrite mapM_Forall2. apply Forall2_iff. intros k o. cbn [member]. destruct o as [x|].
    + rewrite has_occ. destruct (occurrences k l) as [|y [|z t]]; split; intros H; try discriminate; congruence.
    + rewrite lacks_occ. destruct (occurrences k l) as [|y [|z t]]; split; intros H; try discriminate; congruence.
Qed.

(* ---- fields ---- *)
Section Fields.
  Variables (A : Type) (de : value -> res A) (P : value -> A -> Prop).
  Hypothesis DE : forall v x, de v = Ok x <-> P v x.
  Lemma field_iff fs i o x : nth_error fs i = Some o -> (field de fs i = Ok x <-> required P o x).
  Proof.
    intros E. unfold field, required. rewrite E. destruct o as [v|].
    - rewrite DE. split; [intros H; exists v; auto | intros (w & [= <-] & H); exact H].
    - split; [discriminate | intros (w & [=] & _)].
  Qed.
  Lemma field_or_iff d fs i o x : nth_error fs i = Some o -> (field_or d de fs i = Ok x <-> defaulted d P o x).
  Proof.
    intros E. unfold field_or, defaulted, required. rewrite E. destruct o as [v|].
    - rewrite DE. split; [intros H; right; exists v; auto | intros [([=] & _)|(w & [= <-] & H)]; exact H].
    - split; [intros [= <-]; auto | intros [(_ & ->)|(w & [=] & _)]; reflexivity].
  Qed.
  Lemma field_opt_iff fs i o x : nth_error fs i = Some o -> (field_opt de fs i = Ok x <-> optional P o x).
  Proof.
    intros E. unfold field_opt, optional. rewrite E. destruct o as [v|].
    - assert (X : de_opt de v = Ok x <-> (v = VNull /\ x = None) \/ (v <> VNull /\ exists y, x = Some y /\ P v y)).
      { destruct v; cbn [de_opt]; try (split; [intros [= <-]; auto | intros [(_ & ->)|(H & _)]; [reflexivity | congruence]]);
          (rewrite res_bind; split; [intros (y & H & [= <-]); right; split; [discriminate|]; exists y; split; [reflexivity | apply DE; exact H] |
            intros [([=] & _)|(_ & y & -> & H)]; exists y; split; [apply DE; exact H | reflexivity]]). }
      rewrite X. clear X. destruct x as [y|]; split.
      + intros [(_ & [=])|(N & z & [= <-] & H)]. exists v. auto.
      + intros (w & [= <-] & N & H). right. split; [exact N|]. exists y. auto.
      + intros [(-> & _)|(_ & z & [=] & _)]. auto.
      + intros [[=]|[= ->]]. auto.
    - destruct x as [y|]; split; try discriminate; try (intros (w & [=] & _)); auto.
  Qed.
End Fields.
Lemma de_str_iff v s : de_str v = Ok s <-> text_value v s.
Proof. unfold text_value. destruct v; cbn; split; try discriminate; try (intros (? & [=]); fail); [intros [= <-]; eauto | intros (? & [= _ <-]); reflexivity]. Qed.
Lemma de_u16_iff v n : de_u16 v = Ok n <-> number_value 65535 v n.
Proof.
  unfold number_value. destruct v; cbn; try (split; [discriminate | intros ([=] & _)]).
  destruct (N.ltb_spec n0 65536) as [L|L]; split.
  - intros [= <-]. split; [reflexivity | lia].
  - intros ([= <-] & _). reflexivity.
  - discriminate.
  - intros ([= <-] & H). lia.
Qed.
Lemma de_u32_iff v n : de_u32 v = Ok n <-> number_value 4294967295 v n.
Proof.
  unfold number_value. destruct v; cbn; try (split; [discriminate | intros ([=] & _)]).
  destruct (N.ltb_spec n0 4294967296) as [L|L]; split.
  - intros [= <-]. split; [reflexivity | lia].
  - intros ([= <-] & _). reflexivity.
  - discriminate.
  - intros ([= <-] & H). lia.
Qed.

(* ---- keys ---- *)
Lemma all_digits_iff s : all_digits s = true <-> digits s.
Proof.
  unfold all_digits, digits. rewrite forallb_forall, Forall_forall. split; intros H x Hx; specialize (H x Hx); cbv beta in *.
  - apply andb_prop in H as [H1 H2]. apply N.leb_le in H1, H2. auto.
  - destruct H as [H1 H2]. apply N.leb_le in H1, H2. rewrite H1, H2. reflexivity.
Qed.
Lemma key_u8_iff s n : key_u8 s = Ok n <-> plain_number s n /\ n <= 255.
Proof.
  unfold plain_number. destruct s as [|c s]; [split; [discriminate | intros ((H & _) & _); congruence]|].
  unfold key_u8. destruct (all_digits (c :: s)) eqn:D.
  - apply all_digits_iff in D. cbn [negb hd]. destruct (N.eqb_spec c (ch "0")) as [->|C]; cbn [andb].
    + destruct s as [|d s]; cbn [length Nat.eqb negb].
      * cbn. split; [intros [= <-]; repeat split; [discriminate | exact D | lia] | intros ((_ & _ & <- & _) & _); reflexivity].
      * split; [discriminate|]. intros ((_ & _ & _ & H) & _). specialize (H eq_refl). discriminate.
    + fold (dec_value (c :: s)). destruct (N.ltb_spec (dec_value (c :: s)) 256) as [L|L]; split.
      * intros [= <-]. repeat split; [discriminate | exact D | intros; congruence | lia].
      * intros ((_ & _ & <- & _) & _). reflexivity.
      * discriminate.
      * intros ((_ & _ & <- & _) & H). lia.
  - split; [discriminate|]. intros ((_ & H & _) & _). apply all_digits_iff in H. congruence.
Qed.
(* numbers without leading zeros are determined by their value *)
Definition normal (s : bytes) : Prop := digits s /\ (s <> [] -> hd 0 s <> ch "0").
Lemma normal_snoc s c : normal (s ++ [c]) -> normal s /\ ch "0" <= c <= ch "9" /\ (s = [] -> c <> ch "0").
Proof.
  intros [D H]. apply Forall_app in D as [D1 D2]. inversion D2 as [|? ? Dc _]; subst. split; [split; [exact D1|]|split; [exact Dc|]].
  - destruct s as [|x s]; [congruence|]. intros _. apply H. discriminate.
  - intros ->. apply H. discriminate.
Qed.
Lemma snoc_value s c : dec_value (s ++ [c]) = dec_value s * 10 + (c - ch "0").
Proof. unfold dec_value. rewrite fold_left_app. reflexivity. Qed.
Lemma normal_zero s : normal s -> dec_value s = 0 -> s = [].
Proof.
  induction s as [|c s IH] using rev_ind; intros N V; [reflexivity|]. apply normal_snoc in N as (N & D & C). rewrite snoc_value in V.
  assert (s = []) as -> by (apply IH; [exact N | lia]). specialize (C eq_refl). change (ch "0") with 48 in *. lia.
Qed.
Lemma normal_unique s : forall s', normal s -> normal s' -> dec_value s = dec_value s' -> s = s'.
Proof.
  induction s as [|c s IH] using rev_ind; intros s' N N' V; [symmetry; apply normal_zero; [exact N' | symmetry; exact V]|].
  destruct s' as [|c' s' _] using rev_ind; [apply normal_zero; [exact N | exact V]|].
  apply normal_snoc in N as (N & D & C), N' as (N' & D' & C'). rewrite !snoc_value in V. change (ch "0") with 48 in *. change (ch "9") with 57 in *.
  rewrite (IH s' N N') by lia. f_equal. f_equal. lia.
Qed.
Lemma plain_normal s n : plain_number s n -> (n = 0 /\ s = [ch "0"]) \/ (normal s /\ n <> 0).
Proof.
  intros (NE & D & V & Z). destruct (N.eq_dec (hd 0 s) (ch "0")) as [H|H].
  - left. rewrite (Z H) in *. split; [rewrite <- V; reflexivity | reflexivity].
  - right. assert (M : normal s) by (split; auto). split; [exact M|]. intros ->. apply NE, normal_zero; assumption.
Qed.
Lemma plain_unique s s' n : plain_number s n -> plain_number s' n -> s = s'.
Proof.
  intros P P'. destruct (plain_normal _ _ P) as [[-> ->]|[M NZ]], (plain_normal _ _ P') as [[E ->]|[M' NZ']]; try congruence.
  apply normal_unique; [exact M | exact M' |]. destruct P as (_ & _ & -> & _), P' as (_ & _ & -> & _). reflexivity.
Qed.
Lemma plain_value s n n' : plain_number s n -> plain_number s n' -> n = n'.
Proof. intros (_ & _ & <- & _) (_ & _ & <- & _). reflexivity. Qed.

(* ---- maps ---- *)
Lemma insert_in {A} k (x : A) m : NoDup (map fst m) ->
  NoDup (map fst (insert k x m)) /\ forall n y, In (n, y) (insert k x m) <-> (n = k /\ y = x) \/ (n <> k /\ In (n, y) m).
Proof.
  intros ND. assert (W : forall n y, In (n, y) (insert k x m) <-> (n = k /\ y = x) \/ (n <> k /\ In (n, y) m)).
  { induction m as [|[k' y'] m IH]; intros n y; cbn [insert].
    - cbn. split; [intros [[= <- <-]|[]]; auto | intros [[-> ->]|[_ []]]; auto].
    - cbn in ND. inversion ND as [|? ? N1 N2]; subst. specialize (IH N2 n y). destruct (N.eqb_spec k' k) as [->|E]; cbn [In].
      + split.
        * intros [[= <- <-]|H]; [auto|]. right. split; [|auto]. intros ->. apply N1. apply in_map_iff. exists (k, y). auto.
        * intros [[-> ->]|[NE [[= H _]|H]]]; [auto | congruence | auto].
      + rewrite IH. split.
        * intros [[= <- <-]|[H|[H1 H2]]]; auto.
        * intros [H|[H1 [[= <- <-]|H2]]]; auto. }
  split; [|exact W]. clear W. induction m as [|[k' y'] m IH]; cbn [insert map fst].
  - constructor; [intros [] | constructor].
  - cbn in ND. inversion ND as [|? ? N1 N2]; subst. destruct (N.eqb_spec k' k) as [->|E]; cbn [map fst]; [constructor; assumption|].
    constructor; [|apply IH; exact N2]. intros H. apply N1. apply in_map_iff in H as ([a b] & Ha & H). cbn in Ha. subst a.
    clear - H E. induction m as [|[c d] m IH]; cbn [insert] in H.
    + destruct H as [[= ->]|[]]. congruence.
    + cbn [map fst]. destruct (N.eqb_spec c k) as [->|E2]; cbn [In] in *; [destruct H as [[= H _]|H]; [congruence | right; apply in_map_iff; exists (k', b); auto]|].
      destruct H as [[= -> _]|H]; auto.
Qed.
Section Entries.
  Variables (A : Type) (de : value -> res A) (P : value -> A -> Prop).
  Hypothesis DE : forall v x, de v = Ok x <-> P v x.
  Definition good_entry (tw : bytes * value) : Prop := exists n x, n <= 255 /\ plain_number (fst tw) n /\ P (snd tw) x.
  Definition last_entry (l : list (bytes * value)) (n : N) (x : A) : Prop :=
    exists l1 t w l2, l = l1 ++ (t, w) :: l2 /\ ~ In t (map fst l2) /\ plain_number t n /\ P w x.
  Lemma last_cons t w l n x k y : plain_number t k -> P w y -> (forall z, P w z -> z = y) ->
    (last_entry ((t, w) :: l) n x <-> last_entry l n x \/ (n = k /\ x = y /\ ~ In t (map fst l))).
  Proof.
    intros PN PW PU. split.
    - intros (l1 & t' & w' & l2 & E & H1 & H2 & H3). destruct l1 as [|z l1]; cbn in E.
      + injection E as <- <- <-. right. split; [eapply plain_value; eauto|]. split; [auto | exact H1].
      + injection E as _ E. left. exists l1, t', w', l2. auto.
    - intros [(l1 & t' & w' & l2 & -> & H)|(-> & -> & H)]; [exists ((t, w) :: l1), t', w', l2; auto | exists [], t, w, l; auto].
  Qed.
  Lemma entries_ok l : forall m0, NoDup (map fst m0) -> Forall good_entry l ->
    exists m, de_entries de m0 l = Ok m /\ NoDup (map fst m) /\
      forall n x, In (n, x) m <-> last_entry l n x \/ (In (n, x) m0 /\ forall t, plain_number t n -> ~ In t (map fst l)).
  Proof.
    induction l as [|[t w] l IH]; intros m0 ND G.
    - exists m0. split; [reflexivity|]. split; [exact ND|]. intros n x. split; [intros H; right; split; [exact H | intros t _ []]|].
      intros [(l1 & t & w & l2 & E & _)|[H _]]; [destruct l1; discriminate | exact H].
    - inversion G as [|? ? (k & y & K & PN & PW) G']; subst. cbn [fst snd] in *. cbn [de_entries].
      rewrite (proj2 (key_u8_iff t k)) by auto. cbn [bind]. rewrite (proj2 (DE w y) PW). cbn [bind].
      assert (PU : forall z, P w z -> z = y) by (intros z Hz; apply DE in Hz, PW; congruence).
      destruct (insert_in k y m0 ND) as [ND1 IN1]. destruct (IH _ ND1 G') as (m & E & ND2 & IN2). exists m. split; [exact E|]. split; [exact ND2|].
      intros n x. rewrite IN2, IN1, (last_cons t w l n x k y PN PW PU). cbn [map fst]. split.
      + intros [H|([[-> ->]|[NE H]] & HN)]; [auto | left; right; auto |].
        right. split; [exact H|]. intros s Hs [<-|Hi]; [apply NE; eapply plain_value; eauto | exact (HN s Hs Hi)].
      + intros [[H|(-> & -> & H)]|[H HN]]; [auto | |].
        * right. split; [auto|]. intros s Hs. rewrite (plain_unique _ _ _ Hs PN). exact H.
        * right. split; [|intros s Hs Hi; apply (HN s Hs); right; exact Hi]. right. split; [|exact H]. intros ->. apply (HN t PN). left. reflexivity.
  Qed.
  Lemma entries_good l : forall m0 m, de_entries de m0 l = Ok m -> Forall good_entry l.
  Proof.
    induction l as [|[t w] l IH]; intros m0 m E; [constructor|]. cbn [de_entries] in E. apply res_bind in E as (k & K & E).
    apply res_bind in E as (y & Y & E). constructor; [|eapply IH; exact E]. apply key_u8_iff in K as [K1 K2]. exists k, y. cbn. split; [exact K2|].
    split; [exact K1|]. apply DE. exact Y.
  Qed.
  Lemma map_numbered v m : de_map de v = Ok m -> numbered P v m.
  Proof.
    destruct v as [|b|n| |e s|l|l]; try discriminate. cbn [de_map]. intros E. pose proof (entries_good _ _ _ E) as G.
    destruct (entries_ok l [] (NoDup_nil _) G) as (m' & E' & ND & IN). assert (m' = m) as -> by congruence. exists l. split; [reflexivity|]. split; [exact ND|].
    split; [intros t w H; rewrite Forall_forall in G; exact (G _ H)|]. intros n x. rewrite IN. split; [intros [H|[[] _]]; exact H | auto].
  Qed.
  Lemma numbered_map v m : numbered P v m -> exists m', de_map de v = Ok m' /\ forall x, In x m <-> In x m'.
  Proof.
    intros (l & -> & ND & G & IN). cbn [de_map]. destruct (entries_ok l [] (NoDup_nil _)) as (m' & E & _ & IN').
    - apply Forall_forall. intros [t w] H. exact (G _ _ H).
    - exists m'. split; [exact E|]. intros [n x]. rewrite IN, IN'. split; [auto | intros [H|[[] _]]; exact H].
  Qed.
End Entries.

(* ---- structs ---- *)
Ltac names_ok := first [discriminate | nodup].
Ltac fields_in H :=
  match type of H with de_fields ?ns ?v = Ok ?fs => apply (proj1 (fields_member ns v fs ltac:(nodup) ltac:(discriminate))) in H end;
  repeat match goal with F : Forall2 _ (_ :: _) _ |- _ => inversion F; clear F; subst | F : Forall2 _ [] _ |- _ => inversion F; clear F; subst end.
Ltac fin L H :=
  match type of H with _ ?fs ?i = Ok _ =>
    let e := eval cbn in (nth_error fs i) in match e with Some ?o => apply (L fs i o _ eq_refl) in H end end.
Ltac fout L :=
  match goal with |- _ ?fs ?i = Ok _ =>
    let e := eval cbn in (nth_error fs i) in match e with Some ?o => apply (L fs i o _ eq_refl) end end.
Lemma AreaCfg_iff v n : AreaCfg_de v = Ok n <-> area_value v n.
Proof.
  unfold AreaCfg_de, AreaCfg_names, area_value. rewrite res_bind. split.
  - intros (fs & E & H). fields_in E. eexists. split; [eassumption|]. fin (field_iff _ _ _ de_str_iff) H. exact H.
  - intros (o & M & R). exists [o]. split; [apply fields_member; [nodup | discriminate | repeat constructor; assumption]|].
    exact (proj2 (field_iff _ _ _ de_str_iff [o] 0 _ _ eq_refl) R).
Qed.
Lemma ZoneCfg_iff v z : ZoneCfg_de v = Ok z <-> zone_value v z.
Proof.
  unfold ZoneCfg_de, ZoneCfg_names, zone_value. rewrite res_bind. split.
  - intros (fs & E & H). fields_in E. apply res_bind in H as (a & Ha & H). apply res_bind in H as (b & Hb & [= <-]).
    fin (field_iff _ _ _ de_str_iff) Ha. fin (field_iff _ _ _ de_str_iff) Hb.
    cbn [z_name z_class]. split; eexists; split; eassumption.
  - intros ((o1 & M1 & R1) & (o2 & M2 & R2)). exists [o1; o2]. split; [apply fields_member; [nodup | discriminate | repeat constructor; assumption]|].
    apply res_bind. exists (z_name z). split; [fout (field_iff _ _ _ de_str_iff); exact R1|].
    apply res_bind. exists (z_class z). split; [fout (field_iff _ _ _ de_str_iff); exact R2|]. destruct z. reflexivity.
Qed.
Lemma MqttCfg_iff v c : MqttCfg_de v = Ok c <-> mqtt_value v c.
Proof.
  unfold MqttCfg_de, MqttCfg_names, mqtt_value, mqtt_default_port. rewrite res_bind. split.
  - intros (fs & E & H). fields_in E. 
    apply res_bind in H as (c0 & H0 & H). apply res_bind in H as (c1 & H1' & H). apply res_bind in H as (c2 & H2' & H). apply res_bind in H as (c3 & H3' & H).
    apply res_bind in H as (c4 & H4' & H). apply res_bind in H as (c5 & H5' & H). apply res_bind in H as (c6 & H6' & [= <-]).
    fin (field_or_iff _ _ _ de_str_iff []) H0. fin (field_iff _ _ _ de_str_iff) H1'.
    fin (field_or_iff _ _ _ de_u16_iff 1883) H2'. fin (field_opt_iff _ _ _ de_str_iff) H3'.
    fin (field_opt_iff _ _ _ de_str_iff) H4'. fin (field_opt_iff _ _ _ de_str_iff) H5'.
    fin (field_opt_iff _ _ _ de_str_iff) H6'.
    cbn [m_client_id m_host m_port m_username m_password m_topic_prefix m_ha_discovery_prefix]. repeat split; eexists; split; eassumption.
  - intros ((o0 & M0 & R0) & (o1 & M1 & R1) & (o2 & M2 & R2) & (o3 & M3 & R3) & (o4 & M4 & R4) & (o5 & M5 & R5) & (o6 & M6 & R6)).
    exists [o0; o1; o2; o3; o4; o5; o6]. split; [apply fields_member; [nodup | discriminate | repeat constructor; assumption]|].
    apply res_bind. exists (m_client_id c). split; [fout (field_or_iff _ _ _ de_str_iff []); exact R0|].
    apply res_bind. exists (m_host c). split; [fout (field_iff _ _ _ de_str_iff); exact R1|].
    apply res_bind. exists (m_port c). split; [fout (field_or_iff _ _ _ de_u16_iff 1883); exact R2|].
    apply res_bind. exists (m_username c). split; [fout (field_opt_iff _ _ _ de_str_iff); exact R3|].
    apply res_bind. exists (m_password c). split; [fout (field_opt_iff _ _ _ de_str_iff); exact R4|].
    apply res_bind. exists (m_topic_prefix c). split; [fout (field_opt_iff _ _ _ de_str_iff); exact R5|].
    apply res_bind. exists (m_ha_discovery_prefix c). split; [fout (field_opt_iff _ _ _ de_str_iff); exact R6|]. destruct c. reflexivity.
Qed.
(* a field that holds a struct or a map *)
Lemma field_in {A} (de : value -> res A) fs i o x : nth_error fs i = Some o -> field de fs i = Ok x -> exists v, o = Some v /\ de v = Ok x.
Proof. intros E. unfold field. rewrite E. destruct o as [v|]; [eauto | discriminate]. Qed.
Lemma ElkCfg_value v c : ElkCfg_de v = Ok c -> elk_value v c.
Proof.
  unfold ElkCfg_de, ElkCfg_names, elk_value. rewrite res_bind. intros (fs & E & H). fields_in E.
  apply res_bind in H as (c0 & F0 & H). apply res_bind in H as (c1 & F1 & H). apply res_bind in H as (c2 & F2 & H).
  apply res_bind in H as (c3 & F3 & H). apply res_bind in H as (c4 & F4 & [= <-]).
  fin (field_iff _ _ _ de_str_iff) F0. fin (field_iff _ _ _ de_u32_iff) F1.
  fin (field_iff _ _ _ de_str_iff) F2. fin (field_in (de_map AreaCfg_de)) F3; destruct F3 as (v3 & -> & F3).
  fin (field_in (de_map ZoneCfg_de)) F4; destruct F4 as (v4 & -> & F4).
  apply (map_numbered _ _ _ AreaCfg_iff) in F3. apply (map_numbered _ _ _ ZoneCfg_iff) in F4.
  cbn [k_serial_number k_code k_host_port k_areas k_zones]. repeat split; eexists; (split; [eassumption|]); try eassumption; eexists; split; try reflexivity; assumption.
Qed.
Lemma value_ElkCfg v c : elk_value v c -> exists c', ElkCfg_de v = Ok c' /\ same_elk c c'.
Proof.
  intros ((o0 & M0 & R0) & (o1 & M1 & R1) & (o2 & M2 & R2) & (o3 & M3 & v3 & -> & R3) & (o4 & M4 & v4 & -> & R4)).
  apply (numbered_map _ _ _ AreaCfg_iff) in R3 as (a & Ea & Ia). apply (numbered_map _ _ _ ZoneCfg_iff) in R4 as (z & Ez & Iz).
  exists (mkElkCfg (k_serial_number c) (k_code c) (k_host_port c) a z). split; [|repeat split; try apply Ia; try apply Iz].
  unfold ElkCfg_de, ElkCfg_names. apply res_bind. exists [o0; o1; o2; Some v3; Some v4].
  split; [apply fields_member; [nodup | discriminate | repeat constructor; assumption]|].
  apply res_bind. exists (k_serial_number c). split; [fout (field_iff _ _ _ de_str_iff); exact R0|].
  apply res_bind. exists (k_code c). split; [fout (field_iff _ _ _ de_u32_iff); exact R1|].
  apply res_bind. exists (k_host_port c). split; [fout (field_iff _ _ _ de_str_iff); exact R2|].
  unfold field. cbn [nth_error]. rewrite Ea. cbn [bind]. rewrite Ez. reflexivity.
Qed.

(* ---- C66 ---- *)
(* The configuration is what the file says, and every file that says something is read. *)
Theorem C66_configuration_read : forall v c, FileCfg_de v = Ok c -> file_value v c.
Proof.
  intros v c. unfold FileCfg_de, FileCfg_names, file_value. rewrite res_bind. intros (fs & E & H). fields_in E.
  apply res_bind in H as (e & F0 & H). apply res_bind in H as (m & F1 & [= <-]).
  fin (field_in ElkCfg_de) F0; destruct F0 as (v0 & -> & F0). fin (field_iff _ _ _ MqttCfg_iff) F1.
  apply ElkCfg_value in F0. cbn [f_elk f_mqtt]. split; eexists; (split; [eassumption|]); [|eassumption]. exists v0. auto.
Qed.
Theorem C66_configuration_accepted : forall v c, file_value v c -> exists c', FileCfg_de v = Ok c' /\ same_file c c'.
Proof.
  intros v c ((o0 & M0 & v0 & -> & R0) & (o1 & M1 & R1)). apply value_ElkCfg in R0 as (e & E & S).
  exists (mkFileCfg e (f_mqtt c)). split; [|split; [exact S | reflexivity]].
  unfold FileCfg_de, FileCfg_names. apply res_bind. exists [Some v0; o1].
  split; [apply fields_member; [nodup | discriminate | repeat constructor; assumption]|].
  unfold field at 1. cbn [nth_error]. rewrite E. cbn [bind]. apply res_bind. exists (f_mqtt c).
  split; [fout (field_iff _ _ _ MqttCfg_iff); exact R1 | reflexivity].
Qed.

(* How main sets up the connections: as the file says. *)
Definition credentials_paired (m : MqttCfg) : Prop := m_username m = None <-> m_password m = None.
Definition prefix_of (c : FileCfg) (p : bytes) : Prop :=
  m_topic_prefix (f_mqtt c) = Some p \/ (m_topic_prefix (f_mqtt c) = None /\ p = B "elkm1/" ++ k_serial_number (f_elk c)).
Definition set_up_for (c : FileCfg) (o : MqttOptions) (host_port : bytes) (cfg : Cfg) : Prop :=
  o_client_id o = m_client_id (f_mqtt c) /\ o_host o = m_host (f_mqtt c) /\ o_port o = m_port (f_mqtt c) /\
  (forall u p, o_credentials o = Some (u, p) <-> m_username (f_mqtt c) = Some u /\ m_password (f_mqtt c) = Some p) /\
  (exists p, prefix_of c p /\ topic_prefix cfg = p /\ o_last_will o = mkLastWill (p ++ B "/availability") (B "offline") AtLeastOnce true) /\
  host_port = k_host_port (f_elk c) /\ serial_number cfg = k_serial_number (f_elk c) /\ code cfg = k_code (f_elk c) /\
  areas cfg = k_areas (f_elk c) /\ zones cfg = k_zones (f_elk c) /\ ha_discovery_prefix cfg = m_ha_discovery_prefix (f_mqtt c).
Theorem C66_set_up : forall v,
  (forall o h cfg, main_setup v = Ok (o, h, cfg) -> exists c, file_value v c /\ credentials_paired (f_mqtt c) /\ set_up_for c o h cfg /\ cfg_ok cfg) /\
  (forall c, file_value v c -> credentials_paired (f_mqtt c) ->
     exists c' o h cfg, same_file c c' /\ main_setup v = Ok (o, h, cfg) /\ set_up_for c' o h cfg) /\
  ((forall c, file_value v c -> ~ credentials_paired (f_mqtt c)) -> exists why, main_setup v = Panic why).
Proof.
  intros v.
  assert (M : forall c, FileCfg_de v = Ok c -> (credentials_paired (f_mqtt c) /\ exists o h cfg, main_setup v = Ok (o, h, cfg) /\ set_up_for c o h cfg) \/
      (~ credentials_paired (f_mqtt c) /\ exists why, main_setup v = Panic why)).
  { intros c E. unfold main_setup. rewrite E. cbn [expect bind]. unfold credentials_paired.
    destruct (m_username (f_mqtt c)) as [u|] eqn:EU, (m_password (f_mqtt c)) as [w|] eqn:EW; cbn [bind].
    2,3: right; split; [|eauto]; intros [H1 H2]; try (specialize (H1 eq_refl); discriminate); specialize (H2 eq_refl); discriminate.
    all: left; split; [split; intros; try discriminate; reflexivity|]; eexists _, _, _; (split; [reflexivity|]);
      unfold set_up_for, prefix_of; cbn [o_client_id o_host o_port o_credentials o_last_will bridge_cfg serial_number code areas zones ha_discovery_prefix].
    all: repeat (split; [reflexivity|]); (split; [intros u' w'; rewrite EU, EW; split; [intros [= -> ->]; auto | intros ([= ->] & [= ->]); reflexivity] || (split; [discriminate | intros ([=] & _)])|]).
    all: split; [|repeat split; reflexivity]; exists (topic_prefix (bridge_cfg c)); (split; [|split; reflexivity]).
    all: unfold topic_prefix; cbn [bridge_cfg cfg_topic_prefix serial_number]; destruct (m_topic_prefix (f_mqtt c)); auto. }
  split; [|split].
  - intros o h cfg E. destruct (FileCfg_de v) as [c|e|w] eqn:EF; [|unfold main_setup in E; rewrite EF in E; discriminate..].
    destruct (M c eq_refl) as [(P & o' & h' & cfg' & E' & S)|(_ & w & E')]; [|congruence]. rewrite E in E'. injection E' as <- <- <-.
    pose proof (C66_configuration_read _ _ EF) as FV. exists c. split; [exact FV|]. split; [exact P|]. split; [exact S|].
    destruct FV as ((o0 & _ & v0 & _ & (_ & _ & _ & (o3 & _ & v3 & _ & l3 & -> & N3 & G3 & I3) & (o4 & _ & v4 & _ & l4 & -> & N4 & G4 & I4))) & _).
    destruct S as (_ & _ & _ & _ & _ & _ & _ & _ & EA & EZ & _). unfold cfg_ok, u8_keys. rewrite EA, EZ. split; (split; [assumption|]); apply Forall_forall; intros [n x] Hx; cbn [fst].
    + apply I3 in Hx as (l1 & t & w & l2 & -> & _ & PN & _). destruct (G3 t w) as (n' & x' & L & PN' & _); [apply in_elt|]. rewrite (plain_value _ _ _ PN PN'). exact L.
    + apply I4 in Hx as (l1 & t & w & l2 & -> & _ & PN & _). destruct (G4 t w) as (n' & x' & L & PN' & _); [apply in_elt|]. rewrite (plain_value _ _ _ PN PN'). exact L.
  - intros c F P. destruct (C66_configuration_accepted _ _ F) as (c' & E & S). exists c'. destruct (M c' E) as [(_ & o & h & cfg & X)|(NP & _)]; [exists o, h, cfg; tauto|].
    exfalso. apply NP. destruct S as [_ S]. rewrite <- S. exact P.
  - intros H. destruct (FileCfg_de v) as [c|e|w] eqn:EF; [|unfold main_setup; rewrite EF; cbn; eauto..].
    destruct (M c eq_refl) as [(P & _)|(_ & X)]; [|exact X]. elim (H c (C66_configuration_read _ _ EF) P).
Qed.

(* ---- C67 ---- *)
(* The file {"elk": {"serialNumber": "0001", "code": 1234, "hostPort": "elk:2101", "areas": areas, "zones": zones},
   "mqtt": {"host": "broker", "haDiscoveryPrefix": "homeassistant"}} *)
Definition ex_file (as_ zs : list (bytes * value)) : value :=
  VObj [(B "elk", VObj [(B "serialNumber", ser_str (B "0001")); (B "code", VNum 1234); (B "hostPort", ser_str (B "elk:2101"));
                        (B "areas", VObj as_); (B "zones", VObj zs)]);
        (B "mqtt", VObj [(B "host", ser_str (B "broker")); (B "haDiscoveryPrefix", ser_str (B "homeassistant"))])].
Definition ex_area (name : bytes) : value := VObj [(B "name", ser_str name)].
Definition ex_zone (name class : bytes) : value := VObj [(B "name", ser_str name); (B "binarySensorDeviceClass", ser_str class)].
(* False as stated: an area that no panel has is announced to Home Assistant, for good, before the bridge crashes. *)
Theorem C67_rejected_early_refuted : exists v o h cfg cl is log why p,
  main_setup v = Ok (o, h, cfg) /\ (forall cl is u, ~ bridge_after cl cfg is (Up u)) /\ bridge_after cl cfg is (Dead log why) /\
  In (9, B "attic") (areas cfg) /\ holds log (B "homeassistant/alarm_control_panel/elk-0001-area-9/config") p.
Proof.
  eexists (ex_file [(B "9", ex_area (B "attic"))] []), _, _, _, ex_cl, ex_start, _, _, _. split; [vm_compute; reflexivity|]. split; [|split; [|split]].
  - intros cl is u A. destruct (bridge_binv _ _ _ _ A) as (_ & (G & _) & _). inversion G as [|? ? X _]; subst. destruct X as [_ X]. cbn in X. lia.
  - split; [exact ex_start_ok | vm_compute; reflexivity].
  - left. reflexivity.
  - exists AtLeastOnce, [], []. split; [vm_compute; reflexivity | intros q' p' []].
Qed.
(* Otherwise true: what the file says is checked before any connection is made as far as C66 says, and the rest (numbers, the
   code, the topics) when the panel is connected: then the bridge comes up or ends for good; it never runs with a bad
   configuration, and never says that it is available.  Missing: that this happens before anything is published. *)
Lemma each_inv {A} (f : A -> out unit) (P : A -> Prop) xs l : (forall x l, f x = (l, Ok tt) -> P x) -> each f xs = (l, Ok tt) -> Forall P xs.
Proof. intros H E. apply each_ok in E as (ls & F & _). induction F as [|x l' xs ls E F IH]; constructor; eauto. Qed.
Lemma start_up_accepts cl cfg p l c : reachable p -> start_up cl cfg p = (l, Ok c) -> accepts_start cl cfg.
Proof.
  intros R E. destruct (start_up_ok _ _ _ _ _ R E) as (_ & _ & AS & _). split; [exact AS|]. unfold start_up in E.
  apply obind_ok in E as (l0 & c' & l' & _ & E & _). apply obind_ok in E as (ld & [] & l2 & ED & E & _). apply obind_ok in E as (la & [] & l3 & _ & E & _).
  apply obind_ok in E as (lz & [] & l4 & _ & E & _). apply obind_ok in E as (ls & [] & l5 & ES & E & _). apply obind_ok in E as (lo & [] & l6 & EO & _ & _).
  apply publish_ok in EO as [O1 _]. split; [exact O1|]. split.
  - unfold subscribe_many in ES. replace (map (fun x => area_command_topic (topic_prefix cfg) (snd x)) (areas cfg)) with
      (map (fun '(_, name) => area_command_topic (topic_prefix cfg) name) (areas cfg)); [|apply map_ext; intros []; reflexivity].
    destruct (filters_ok cl _); [reflexivity | discriminate].
  - intros ha H. rewrite H in ED. apply obind_ok in ED as (l1 & [] & l2' & E1 & E2 & _). split.
    + refine (each_inv _ _ _ _ _ E1). intros [n x] l'' X. apply publish_ok in X as [X _]. exact X.
    + refine (each_inv _ _ _ _ _ E2). intros [n x] l'' X. apply publish_ok in X as [X _]. exact X.
Qed.
Theorem C67_checked_when_connected_partial : forall cl cfg is s rx now ws p,
  bridge_after cl cfg is (Connecting s rx) -> istep now ws s = IDone p ->
  (in_range cfg /\ accepts_start cl cfg /\ exists u, bstep cl cfg (Connecting s rx) (PollConnect now ws) = Up u) \/
  (~ (in_range cfg /\ accepts_start cl cfg) /\ exists log why, bstep cl cfg (Connecting s rx) (PollConnect now ws) = Dead log why).
Proof.
  intros cl cfg is s rx now ws p (HI & E) EI. pose proof (brun_cases cl cfg is HI) as H. rewrite E in H. destruct H as (_ & h & HO & -> & _).
  assert (C : connected p). { exists (h ++ [IStep now ws]). split; [apply Forall_app; split; [exact HO | repeat constructor]|]. rewrite irun_step. exact EI. }
  pose proof (connected_reachable _ C) as R. cbn [bstep]. unfold after_connect. rewrite EI. unfold settle. destruct (start_up cl cfg p) as [l [c|e|w]] eqn:ES.
  - left. split; [apply (start_up_ok _ _ _ _ _ R ES)|]. split; [exact (start_up_accepts _ _ _ _ _ R ES) | eauto].
  - right. split; [|eauto]. intros [G A]. destruct (start_up_succeeds cl cfg p R G A) as (l' & c' & X). congruence.
  - right. split; [|eauto]. intros [G A]. destruct (start_up_succeeds cl cfg p R G A) as (l' & c' & X). congruence.
Qed.
Theorem C67_never_runs_badly_partial : forall cl cfg is b, bridge_after cl cfg is b ->
  ((exists u, b = Up u) \/ (exists q r, In (APublishQ q (topic_prefix cfg ++ B "/availability") r (PText (B "online"))) (blog b))) ->
  in_range cfg /\ accepts_states cl cfg.
Proof.
  intros cl cfg is b A H. assert (X : exists is' u, bridge_after cl cfg is' (Up u)).
  { destruct H as [(u & ->)|(q0 & r & H)]; [eauto|]. destruct A as (HI & E). revert b E H. induction is as [|i is IH] using rev_ind; intros b E H; [subst b; destruct H|].
    apply Forall_app in HI as [HI Hi]. rewrite brun_snoc in E. destruct (brun cl cfg is) as [s rx|u|l w] eqn:EB; [|exists is, u; split; auto|apply (IH HI _ eq_refl); rewrite <- E in H; exact H].
    destruct i as [a|t pl| |now ws|now| |ws]; cbn [bstep] in E; try (subst b; destruct H; fail).
    unfold after_connect in E. destruct (istep now ws s) as [st ph p|p|er|why] eqn:EI; try (subst b; destruct H; fail).
    unfold settle in E. destruct (start_up cl cfg p) as [l q] eqn:ES. destruct q as [c|er|why].
    { exists (is ++ [PollConnect now ws]). eexists. split; [apply Forall_app; auto|]. rewrite brun_snoc, EB. cbn [bstep]. unfold after_connect. rewrite EI. unfold settle. rewrite ES. reflexivity. }
    all: exfalso; subst b; cbn [blog app] in H; assert (C : Forall (calm cfg) l) by (apply start_up_fails with (1 := ES); discriminate);
      rewrite Forall_forall in C; elim (C _ H q0 r eq_refl). }
  destruct X as (is' & u & X). destruct (bridge_binv _ _ _ _ X) as (_ & G & _ & S & _). auto.
Qed.

(* ---- C68 ---- *)
Inductive purpose : Type :=
| AreaState (area : N) | AreaCommand (area : N) | ZoneState (zone : N) | Availability | Events | AreaAnnouncement (area : N) | ZoneAnnouncement (zone : N).
Lemma show_u8_plain n : n <= 255 -> plain_number (show_u8 n) n.
Proof.
  intros H. destruct (show_u8_spec n H) as [D V]. split; [|split; [exact D|split; [exact V|]]]; unfold show_u8 in *.
  - destruct (n <? 10); [discriminate|]. destruct (n <? 100); discriminate.
  - destruct (n <? 10) eqn:E1; [cbn [hd]; intros HH; f_equal; exact HH|]. destruct (n <? 100) eqn:E2; cbn [hd]; intros HH; exfalso; lia.
Qed.
Definition topic_for (cfg : Cfg) (w : purpose) (t : bytes) : Prop :=
  let p := topic_prefix cfg in
  match w with
  | AreaState a => exists n, In (a, n) (areas cfg) /\ t = p ++ B "/area/" ++ n ++ B "/ha_state"
  | AreaCommand a => exists n, In (a, n) (areas cfg) /\ t = p ++ B "/area/" ++ n ++ B "/ha_command"
  | ZoneState z => exists c, In (z, c) (zones cfg) /\ t = p ++ B "/zone/" ++ z_name c ++ B "/ha_state"
  | Availability => t = p ++ B "/availability"
  | Events => t = p ++ B "/event"
  | AreaAnnouncement a => exists ha n d, ha_discovery_prefix cfg = Some ha /\ In (a, n) (areas cfg) /\ plain_number d a /\
      t = ha ++ B "/alarm_control_panel/elk-" ++ serial_number cfg ++ B "-area-" ++ d ++ B "/config"
  | ZoneAnnouncement z => exists ha c d, ha_discovery_prefix cfg = Some ha /\ In (z, c) (zones cfg) /\ plain_number d z /\
      t = ha ++ B "/binary_sensor/elk-" ++ serial_number cfg ++ B "-zone-" ++ d ++ B "/config"
  end.
(* False as stated: two areas of the same name share their topics, and the bridge runs with them. *)
Theorem C68_own_topics_refuted : exists v o h cfg cl is u t t',
  main_setup v = Ok (o, h, cfg) /\ bridge_after cl cfg is (Up u) /\
  topic_for cfg (AreaState 1) t /\ topic_for cfg (AreaState 2) t /\ topic_for cfg (AreaCommand 1) t' /\ topic_for cfg (AreaCommand 2) t'.
Proof.
  eexists (ex_file [(B "1", ex_area (B "house")); (B "2", ex_area (B "house"))] []), _, _, _, ex_cl, ex_start, _, _, _.
  split; [vm_compute; reflexivity|]. split; [split; [exact ex_start_ok | vm_compute; reflexivity]|].
  split; [eexists; split; [left; reflexivity | reflexivity]|]. split; [eexists; split; [right; left; reflexivity | reflexivity]|].
  split; [eexists; split; [left; reflexivity | reflexivity]|]. eexists; split; [right; left; reflexivity | reflexivity].
Qed.
(* Otherwise true: if names are distinct, every topic has one purpose, whatever the names and prefixes. *)
Lemma app_same_last (a b x y : bytes) : a ++ x = b ++ y -> x <> [] -> y <> [] -> last x 0 = last y 0.
Proof.
  intros E NX NY. destruct (exists_last NX) as (x' & c & ->), (exists_last NY) as (y' & d & ->). rewrite !app_assoc in E. apply app_inj_tail in E as [_ ->].
  rewrite !last_last. reflexivity.
Qed.
Lemma tail_last (a : list bytes) x : last (concat a ++ x) 0 = last x 0 \/ x = [].
Proof.
  destruct x as [|c x]; [auto|]. left. destruct (@exists_last _ (c :: x)) as (x' & d & ->); [discriminate|]. rewrite app_assoc, !last_last. reflexivity.
Qed.
(* the last character tells most purposes apart *)
Definition last_char (w : purpose) : N :=
  match w with AreaState _ | ZoneState _ => 101 | AreaCommand _ => 100 | Availability => 121 | Events => 116 | AreaAnnouncement _ | ZoneAnnouncement _ => 103 end.
Lemma topic_last cfg w t : topic_for cfg w t -> last t 0 = last_char w.
Proof.
  destruct w; cbn [topic_for last_char].
  - intros (n & _ & ->). destruct (tail_last [topic_prefix cfg; B "/area/"; n] (B "/ha_state")) as [H|H]; [|discriminate]. cbn [concat] in H. rewrite <- !app_assoc, ?app_nil_r in H. exact H.
  - intros (n & _ & ->). destruct (tail_last [topic_prefix cfg; B "/area/"; n] (B "/ha_command")) as [H|H]; [|discriminate]. cbn [concat] in H. rewrite <- !app_assoc, ?app_nil_r in H. exact H.
  - intros (c & _ & ->). destruct (tail_last [topic_prefix cfg; B "/zone/"; z_name c] (B "/ha_state")) as [H|H]; [|discriminate]. cbn [concat] in H. rewrite <- !app_assoc, ?app_nil_r in H. exact H.
  - intros ->. destruct (tail_last [topic_prefix cfg] (B "/availability")) as [H|H]; [|discriminate]. cbn [concat] in H. rewrite app_nil_r in H. exact H.
  - intros ->. destruct (tail_last [topic_prefix cfg] (B "/event")) as [H|H]; [|discriminate]. cbn [concat] in H. rewrite app_nil_r in H. exact H.
  - intros (ha & n & d & _ & _ & _ & ->). destruct (tail_last [ha; B "/alarm_control_panel/elk-"; serial_number cfg; B "-area-"; d] (B "/config")) as [H|H]; [|discriminate].
    cbn [concat] in H. rewrite <- !app_assoc, ?app_nil_r in H. exact H.
  - intros (ha & n & d & _ & _ & _ & ->). destruct (tail_last [ha; B "/binary_sensor/elk-"; serial_number cfg; B "-zone-"; d] (B "/config")) as [H|H]; [|discriminate].
    cbn [concat] in H. rewrite <- !app_assoc, ?app_nil_r in H. exact H.
Qed.
Theorem C68_own_topics_partial : forall cfg w w' t, distinct_area_names cfg -> distinct_zone_names cfg -> topic_for cfg w t -> topic_for cfg w' t -> w = w'.
Proof.
  intros cfg w w' t DA DZ H H'. pose proof (topic_last _ _ _ H) as L. rewrite (topic_last _ _ _ H') in L.
  destruct w, w'; try discriminate L; clear L; try reflexivity; cbn [topic_for] in H, H'.
  - destruct H as (n & I & ->), H' as (n' & I' & E). apply app_inv_head, app_inv_head, app_inv_tail in E. subst n'.
    f_equal. exact (name_unique (fun x => x) _ _ _ _ _ DA I I' eq_refl).
  - destruct H as (n & I & ->), H' as (n' & I' & E). apply app_inv_head in E. discriminate.
  - destruct H as (n & I & ->), H' as (n' & I' & E). apply app_inv_head, app_inv_head, app_inv_tail in E. subst n'.
    f_equal. exact (name_unique (fun x => x) _ _ _ _ _ DA I I' eq_refl).
  - destruct H as (n & I & ->), H' as (n' & I' & E). apply app_inv_head in E. discriminate.
  - destruct H as (n & I & ->), H' as (n' & I' & E). apply app_inv_head, app_inv_head, app_inv_tail in E.
    f_equal. exact (name_unique z_name _ _ _ _ _ DZ I I' E).
  - destruct H as (ha & n & d & E1 & _ & (_ & _ & <- & _) & ->), H' as (ha' & n' & d' & E2 & _ & (_ & _ & <- & _) & E). rewrite E1 in E2. injection E2 as <-.
    apply app_inv_head, app_inv_head, app_inv_head, app_inv_head, app_inv_tail in E. subst. reflexivity.
  - destruct H as (ha & n & d & E1 & _ & _ & ->), H' as (ha' & n' & d' & E2 & _ & _ & E). rewrite E1 in E2. injection E2 as <-. apply app_inv_head in E. discriminate.
  - destruct H as (ha & n & d & E1 & _ & _ & ->), H' as (ha' & n' & d' & E2 & _ & _ & E). rewrite E1 in E2. injection E2 as <-. apply app_inv_head in E. discriminate.
  - destruct H as (ha & n & d & E1 & _ & (_ & _ & <- & _) & ->), H' as (ha' & n' & d' & E2 & _ & (_ & _ & <- & _) & E). rewrite E1 in E2. injection E2 as <-.
    apply app_inv_head, app_inv_head, app_inv_head, app_inv_head, app_inv_tail in E. subst. reflexivity.
Qed.
(* And these are all the topics the bridge ever publishes to, whatever becomes of it; exactly the events are not retained; it
   publishes everything at least once; and it subscribes to exactly the command topics, at most once. *)
Definition proper (cfg : Cfg) (a : action) : Prop :=
  match a with
  | APublishQ q t retain _ => q = AtLeastOnce /\ exists w, topic_for cfg w t /\ (forall n, w <> AreaCommand n) /\ (retain = false <-> w = Events)
  | ASubscribeQ q fs => q = AtMostOnce /\ forall t, In t fs <-> exists n, topic_for cfg (AreaCommand n) t
  end.
Lemma each_log_in {A} (P : action -> Prop) (f : A -> out unit) xs : (forall x, In x xs -> Forall P (fst (f x))) -> Forall P (fst (each f xs)).
Proof.
  induction xs as [|x xs IH]; intros H; cbn [each]; [constructor|]. apply obind_log; [apply H; left; reflexivity|]. intros _. apply IH. intros y Hy. apply H. right. exact Hy.
Qed.
Lemma areas_proper cl cfg p : Forall (proper cfg) (fst (publish_area_states cl p (topic_prefix cfg) (areas cfg))).
Proof.
  apply each_log_in. intros [n name] I. repeat (apply obind_log; [apply lift_log|intros ?]). apply publish_log. split; [reflexivity|]. exists (AreaState n).
  split; [exists name; auto|]. split; [discriminate|]. split; discriminate.
Qed.
Lemma zone_proper cl cfg p z z' c : In (z', c) (zones cfg) -> Forall (proper cfg) (fst (publish_zone_state cl p (topic_prefix cfg) z c)).
Proof.
  intros I. repeat (apply obind_log; [apply lift_log|intros ?]). apply publish_log. split; [reflexivity|]. exists (ZoneState z').
  split; [exists c; auto|]. split; [discriminate|]. split; discriminate.
Qed.
Lemma event_proper cl cfg p e : Forall (proper cfg) (fst (handle_event cl cfg p e)).
Proof.
  apply obind_log; [apply lift_log|]. intros v. apply obind_log.
  { apply publish_log. split; [reflexivity|]. exists Events. split; [reflexivity|]. split; [discriminate|]. split; reflexivity. }
  intros _. destruct (e_change e) as [[z s|prior]|]; [|apply areas_proper|constructor].
  pose proof (find_key (zones cfg) z) as F. destruct (find _ (zones cfg)) as [[k c]|]; [|constructor]. destruct F as [-> F]. eapply zone_proper; eauto.
Qed.
Lemma start_proper cl cfg p : cfg_ok cfg -> Forall (proper cfg) (fst (start_up cl cfg p)).
Proof.
  intros ((_ & KA) & (_ & KZ)). rewrite Forall_forall in KA, KZ. unfold start_up. apply obind_log; [apply lift_log|]. intros code'.
  apply obind_log; [|intros _; apply obind_log; [apply areas_proper|]; intros _; apply obind_log; [|intros _; apply obind_log; [|intros _; apply obind_log; [|constructor]]]].
  - destruct (ha_discovery_prefix cfg) as [ha|] eqn:EH; [|constructor]. apply obind_log; [|intros _]; apply each_log_in; intros [n x] I; apply publish_log.
    + split; [reflexivity|]. exists (AreaAnnouncement n). split; [|split; [discriminate | split; discriminate]]. exists ha, x, (show_u8 n). split; [exact EH|]. split; [exact I|]. split; [exact (show_u8_plain n (KA _ I))|]. unfold area_unique_id.
      change (B "/alarm_control_panel/elk-") with (B "/alarm_control_panel/" ++ B "elk-"). rewrite <- !app_assoc. reflexivity.
    + split; [reflexivity|]. exists (ZoneAnnouncement n). split; [|split; [discriminate | split; discriminate]]. exists ha, x, (show_u8 n). split; [exact EH|]. split; [exact I|]. split; [exact (show_u8_plain n (KZ _ I))|]. unfold zone_unique_id.
      change (B "/binary_sensor/elk-") with (B "/binary_sensor/" ++ B "elk-"). rewrite <- !app_assoc. reflexivity.
  - apply each_log_in. intros [n z] I. apply obind_log; [apply lift_log|]. intros k. eapply zone_proper; eauto.
  - unfold subscribe_many. destruct (filters_ok cl _); constructor; [|constructor]. cbn [proper]. split; [reflexivity|]. intros t. rewrite in_map_iff. split.
    + intros ([n name] & <- & I). exists n, name. auto.
    + intros (n & name & I & ->). exists (n, name). auto.
  - apply publish_log. split; [reflexivity|]. exists Availability. split; [reflexivity|]. split; [discriminate|]. split; discriminate.
Qed.
Theorem C68_only_these_topics : forall cl cfg is b, bridge_after cl cfg is b -> cfg_ok cfg -> Forall (proper cfg) (blog b).
Proof.
  intros cl cfg is b (HI & E) K. subst b. induction is as [|i is IH] using rev_ind; [constructor|]. apply Forall_app in HI as [HI _]. specialize (IH HI). rewrite brun_snoc.
  destruct (brun cl cfg is) as [s rx|u|l w]; [| |exact IH].
  - destruct i as [a|t pl| |now ws|now| |ws]; cbn [bstep]; try constructor. unfold after_connect. destruct (istep now ws s) as [st ph p|p|er|why]; try constructor.
    pose proof (start_proper cl cfg p K) as H. unfold settle. destruct (start_up cl cfg p) as [l [c|er|why]]; exact H.
  - cbn [blog] in IH. assert (F : forall ws v, u_log v = u_log u -> Forall (proper cfg) (blog (poll_send_flush ws v))).
    { intros ws v EV. unfold poll_send_flush. destruct (poll_flush ws (u_panel v)) as [p [|[[]|e]]]; cbn; rewrite EV; exact IH. }
    destruct i as [a|t pl| |now ws|now| |ws]; cbn [bstep]; try exact IH.
    + destruct (u_mode u); try exact IH. destruct (poll_next now (u_panel u)) as [[[p [|[[e|er]|]]] w]|er|why]; try exact IH.
      pose proof (event_proper cl cfg p e) as H. unfold settle. destruct (handle_event cl cfg p e) as [l [[]|er|why]]; cbn [blog u_log]; apply Forall_app; auto.
    + destruct (u_mode u); try exact IH. destruct (u_rx u) as [|[t pl] rx]; try exact IH. destruct (requested _ _ _ _ _) as [[c|]|er|why]; exact IH.
    + destruct (u_mode u); try exact IH; [|apply F; reflexivity]. destruct (poll_ready TASK ws (u_panel u)) as [p [|[[]|e]]]; try exact IH.
      destruct (start_send c p); try exact IH. apply F. reflexivity.
Qed.

(* ---- C69 ---- *)
Definition not_availability (cfg : Cfg) (a : action) : Prop := ~ touches (availability_topic (topic_prefix cfg)) a.
Lemma loop_not_availability cfg : loop_actions cfg (not_availability cfg).
Proof.
  split; [|split]; intros.
  - intros (q & p & [= _ H _]). elim (area_avail_topic _ _ H).
  - intros (q & p & [= _ H _]). elim (zone_avail_topic _ _ H).
  - intros (q & p & H). discriminate.
Qed.
(* What the broker retains on the availability topic: "online" from when the bridge is up, "offline" when it has ended. *)
Theorem C69_availability_retained : forall v o h cl cfg is b,
  main_setup v = Ok (o, h, cfg) -> bridge_after cl cfg is b ->
  let t := topic_prefix cfg ++ B "/availability" in
  match b with
  | Connecting _ _ => forall p, ~ holds (broker_sees (o_last_will o) b) t p
  | Up _ => holds (broker_sees (o_last_will o) b) t (PText (B "online"))
  | Dead _ _ => holds (broker_sees (o_last_will o) b) t (PText (B "offline"))
  end.
Proof.
  intros v o h cl cfg is b M A. cbv zeta. destruct (C66_set_up v) as (S & _). destruct (S _ _ _ M) as (c & _ & _ & S' & _).
  destruct S' as (_ & _ & _ & _ & (p & _ & <- & W) & _). rewrite W. destruct b as [s rx|u|l w]; unfold broker_sees; cbn [blog w_topic w_message w_qos w_retain].
  - intros q (q0 & l1 & l2 & E & _). destruct l1; discriminate.
  - rewrite app_nil_r. destruct (up_log cl cfg is u _ A (loop_not_availability cfg)) as (u0 & l & (C & E & _) & -> & FL).
    destruct (start_up_ok _ _ _ _ _ (connected_reachable _ C) E) as (_ & _ & _ & ld & la & lz & fs & EL & _). rewrite EL. apply holds_left; [|exact FL].
    exists AtLeastOnce, (ld ++ la ++ lz ++ [ASubscribe fs]), []. split; [rewrite <- !app_assoc; reflexivity | intros q' p' []].
  - exists AtLeastOnce, l, []. split; [reflexivity | intros q' p' []].
Qed.
(* False as stated: two commands in quick succession block the bridge for ever (C51), and it stays "online" whatever comes. *)
Lemma blocked_online v o h cl cfg is u c : main_setup v = Ok (o, h, cfg) -> bridge_after cl cfg is (Up u) -> u_mode u = Feeding c -> outstanding (u_panel u) <> [] ->
  forall is', Forall input_ok is' -> forall u', brun cl cfg (is ++ is') = Up u' ->
    holds (broker_sees (o_last_will o) (Up u')) (topic_prefix cfg ++ B "/availability") (PText (B "online")) /\ u_log u' = u_log u /\ waiting u' = [c].
Proof.
  intros M A EM HO is' HI u' E. pose proof (C51_blocked_forever _ _ _ _ _ A EM HO is' HI) as X. rewrite E in X. destruct X as (X1 & _ & X2 & _).
  split; [|split; [exact X2 | unfold waiting; rewrite X1; reflexivity]].
  exact (C69_availability_retained v o h cl cfg (is ++ is') (Up u') M (conj (proj2 (Forall_app _ _ _) (conj (proj1 A) HI)) E)).
Qed.
Definition ex_file_1 : value := ex_file [(B "1", ex_area (B "house"))] [(B "2", ex_zone (B "front") (B "door"))].
Definition ex_will : LastWill := mkLastWill (B "elkm1/0001/availability") (B "offline") AtLeastOnce true.
Lemma ex_file_setup : main_setup ex_file_1 = Ok (mkMqttOptions [] (B "broker") 1883 None ex_will, B "elk:2101", ex_cfg).
Proof. vm_compute. reflexivity. Qed.
Theorem C69_available_refuted : exists v o h cl cfg is u, main_setup v = Ok (o, h, cfg) /\ bridge_after cl cfg is (Up u) /\
  mqtt_in is = [(B "elkm1/0001/area/house/ha_command", B "ARM_AWAY"); (B "elkm1/0001/area/house/ha_command", B "DISARM")] /\
  forall is', Forall input_ok is' -> forall u', brun cl cfg (is ++ is') = Up u' ->
    holds (broker_sees (o_last_will o) (Up u')) (topic_prefix cfg ++ B "/availability") (PText (B "online")) /\
    u_log u' = u_log u /\ exists c, waiting u' = [c].
Proof.
  exists ex_file_1, (mkMqttOptions [] (B "broker") 1883 None ex_will), (B "elk:2101"), ex_cl, ex_cfg, (ex_start ++ ex_two_commands), ex_blocked.
  split; [exact ex_file_setup|]. split; [exact ex_blocked_after|]. split; [vm_compute; reflexivity|]. intros is' HI u' E.
  assert (M : exists c, u_mode ex_blocked = Feeding c) by (eexists; reflexivity). destruct M as (c & M).
  assert (O : outstanding (u_panel ex_blocked) <> []) by discriminate.
  destruct (blocked_online _ _ _ _ _ _ _ _ ex_file_setup ex_blocked_after M O is' HI u' E) as (X1 & X2 & X3). eauto.
Qed.
(* Otherwise true: an available bridge that is not blocked gets back to its loop as soon as the panel accepts what it writes, and
   unavailable is final: C69_availability_retained, C51_progress_partial and *)
Theorem C69_offline_is_final_partial : forall cl cfg is is' log why, brun cl cfg is = Dead log why -> brun cl cfg (is ++ is') = Dead log why.
Proof. intros cl cfg is is' log why E. unfold brun in *. rewrite fold_left_app, E. apply dead_stays. Qed.

(* ---- examples ---- *)
Example C66_example :
  (* later members win, null is none, the port has a default; leading zeros, the number 256 and a user without a password are not accepted *)
  match main_setup (ex_file [(B "1", ex_area (B "attic")); (B "1", ex_area (B "house"))] []) with
  | Ok (o, h, cfg) => o_port o = 1883 /\ o_credentials o = None /\ h = B "elk:2101" /\ areas cfg = [(1, B "house")] /\ topic_prefix cfg = B "elkm1/0001"
  | _ => False
  end /\
  key_u8 (B "0") = Ok 0 /\ key_u8 (B "208") = Ok 208 /\ (exists e, key_u8 (B "01") = Err e) /\ (exists e, key_u8 (B "256") = Err e) /\
  MqttCfg_de (VObj [(B "host", ser_str (B "broker")); (B "username", VNull); (B "comment", VBool true)]) = Ok (mkMqttCfg [] (B "broker") 1883 None None None None) /\
  exists w, main_setup (VObj [(B "elk", VObj [(B "serialNumber", ser_str (B "0001")); (B "code", VNum 1234); (B "hostPort", ser_str []);
     (B "areas", VObj []); (B "zones", VObj [])]); (B "mqtt", VObj [(B "host", ser_str (B "broker")); (B "username", ser_str (B "me"))])]) = Panic w.
Proof. vm_compute. repeat split; eauto. Qed.
Example C67_C68_C69_example : exists o h u, main_setup (ex_file [(B "1", ex_area (B "house"))] [(B "2", ex_zone (B "front") (B "door"))]) = Ok (o, h, ex_cfg) /\
  bridge_after ex_cl ex_cfg ex_start (Up u) /\ w_topic (o_last_will o) = B "elkm1/0001/availability" /\
  distinct_area_names ex_cfg /\ distinct_zone_names ex_cfg /\ topic_for ex_cfg (ZoneState 2) (B "elkm1/0001/zone/front/ha_state").
Proof.
  eexists _, _, ex_up. split; [vm_compute; reflexivity|]. split; [exact ex_up_after|]. split; [reflexivity|]. split; [repeat constructor; intros []|].
  split; [repeat constructor; intros []|]. exists (mkZoneCfg (B "front") (B "door")). split; [left; reflexivity | reflexivity].
Qed.

Print Assumptions C66_configuration_read.
Print Assumptions C66_configuration_accepted.
Print Assumptions C66_set_up.
Print Assumptions C67_rejected_early_refuted.
Print Assumptions C67_checked_when_connected_partial.
Print Assumptions C67_never_runs_badly_partial.
Print Assumptions C68_own_topics_refuted.
Print Assumptions C68_own_topics_partial.
Print Assumptions C68_only_these_topics.
Print Assumptions C69_availability_retained.
Print Assumptions C69_available_refuted.
Print Assumptions C69_offline_is_final_partial.
