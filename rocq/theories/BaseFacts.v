(* BaseFacts.v: lemmas about the primitives of Base.v. *)
From Verif Require Import Base.
From Coq Require Import ZifyBool ZifyNat ZifyN.
Ltac Zify.zify_post_hook ::= Z.div_mod_to_equations.

Lemma bind_ok {A C} (m : res A) (f : A -> res C) a : m = Ok a -> bind m f = f a.
Proof. intros ->; reflexivity. Qed.

Lemma bind_inv {A C} (m : res A) (f : A -> res C) c :
  bind m f = Ok c -> exists a, m = Ok a /\ f a = Ok c.
Proof. destruct m as [a|e|w]; cbn; intros H; try discriminate; eauto. Qed.

(* no panic *)
Definition safe {A} (m : res A) : Prop := match m with Panic _ => False | _ => True end.
Lemma safe_bind {A C} (m : res A) (f : A -> res C) :
  safe m -> (forall a, m = Ok a -> safe (f a)) -> safe (bind m f).
Proof. destruct m; cbn; auto. Qed.

(* case analysis over all values below a bound *)
Definition Nseq (k : nat) : list N := map N.of_nat (seq 0 k).
Lemma sweep (P : N -> bool) (k : nat) :
  forallb P (Nseq k) = true -> forall n, (N.to_nat n < k)%nat -> P n = true.
Proof.
  intros H n Hn. rewrite forallb_forall in H. apply H. unfold Nseq.
  apply in_map_iff. exists (N.to_nat n). split; [apply N2Nat.id|].
  apply in_seq. lia.
Qed.
Lemma sweep_N (P : N -> bool) (k : N) :
  forallb P (Nseq (N.to_nat k)) = true -> forall n, n < k -> P n = true.
Proof. intros H n Hn. apply (sweep P (N.to_nat k) H). lia. Qed.

Lemma beq_eq s t : beq s t = true <-> s = t.
Proof.
  revert t; induction s as [|x s IH]; destruct t as [|y t]; cbn; split; intro H; try discriminate; auto.
  - apply andb_prop in H as [H1 H2]. apply N.eqb_eq in H1. apply IH in H2. congruence.
  - injection H as -> ->. rewrite N.eqb_refl. apply IH. reflexivity.
Qed.
Lemma beq_refl s : beq s s = true.
Proof. apply beq_eq; reflexivity. Qed.
Lemma beq_neq s t : beq s t = false <-> s <> t.
Proof. rewrite <- beq_eq. destruct (beq s t); split; congruence. Qed.

Lemma starts_with_spec s p : starts_with s p = true <-> exists t, s = p ++ t.
Proof.
  revert s; induction p as [|y p IH]; intros s.
  - split; [intros _; exists s; reflexivity | destruct s; reflexivity].
  - destruct s as [|x s]; cbn [starts_with].
    + split; [discriminate | intros [t Ht]; discriminate].
    + rewrite andb_true_iff, N.eqb_eq, IH. split.
      * intros [-> [t ->]]. exists t. reflexivity.
      * intros [t Ht]. injection Ht as -> ->. split; [reflexivity|]. exists t. reflexivity.
Qed.

Lemma slice_ok {A} (s : list A) a b :
  (a <= b)%nat -> (b <= length s)%nat -> slice s a b = Ok (firstn (b - a) (skipn a s)).
Proof.
  intros H1 H2. unfold slice. rewrite (proj2 (Nat.leb_le _ _) H1), (proj2 (Nat.leb_le _ _) H2). reflexivity.
Qed.
Lemma slice_inv {A} (s : list A) a b t :
  slice s a b = Ok t -> (a <= b)%nat /\ (b <= length s)%nat /\ t = firstn (b - a) (skipn a s).
Proof.
  unfold slice. destruct (Nat.leb_spec a b); destruct (Nat.leb_spec b (length s)); cbn; intros E; try discriminate.
  injection E as <-. auto.
Qed.
(* a slice of a concatenation *)
Lemma slice_app {A} (x y z : list A) a b :
  a = length x -> b = (length x + length y)%nat -> slice (x ++ y ++ z) a b = Ok y.
Proof.
  intros -> ->. rewrite slice_ok by (rewrite ?app_length; lia).
  rewrite skipn_app, skipn_all, Nat.sub_diag. cbn [app skipn].
  replace (length x + length y - length x)%nat with (length y) by lia.
  rewrite firstn_app, firstn_all, Nat.sub_diag. cbn [firstn]. rewrite app_nil_r. reflexivity.
Qed.
Lemma slice_to {A} (s : list A) b : (b <= length s)%nat -> slice s 0 b = Ok (firstn b s).
Proof. intros H. rewrite slice_ok by lia. rewrite Nat.sub_0_r. reflexivity. Qed.
Lemma slice_from {A} (s : list A) a : (a <= length s)%nat -> slice s a (length s) = Ok (skipn a s).
Proof.
  intros H. rewrite slice_ok by lia. f_equal. apply firstn_all2. rewrite skipn_length. lia.
Qed.

Lemma index_app {A} (x z : list A) y i : i = length x -> index (x ++ y :: z) i = Ok y.
Proof. intros ->. unfold index. rewrite nth_error_app2, Nat.sub_diag by lia. reflexivity. Qed.
Lemma index_ok {A} (s : list A) i : (i < length s)%nat -> exists x, index s i = Ok x /\ nth_error s i = Some x.
Proof.
  intros H. unfold index. destruct (nth_error s i) as [x|] eqn:E; eauto.
  apply nth_error_None in E. lia.
Qed.
Lemma index_inv {A} (s : list A) i x : index s i = Ok x -> nth_error s i = Some x.
Proof. unfold index. destruct (nth_error s i); intros H; try discriminate. congruence. Qed.

Lemma advance_ok s n : (n <= length s)%nat -> advance s n = Ok (skipn n s).
Proof. intros H. unfold advance. rewrite (proj2 (Nat.leb_le _ _) H). reflexivity. Qed.

Lemma get_to_some {A} (s t : list A) n :
  get_to s n = Some t <-> (n <= length s)%nat /\ t = firstn n s.
Proof.
  unfold get_to. destruct (Nat.leb_spec n (length s)); split; intros H1; try discriminate.
  - injection H1 as <-. auto.
  - destruct H1 as [_ ->]; reflexivity.
  - destruct H1; lia.
Qed.
Lemma get_to_none {A} (s : list A) n : get_to s n = None <-> (length s < n)%nat.
Proof. unfold get_to. destruct (Nat.leb_spec n (length s)); split; intros H1; try discriminate; auto; lia. Qed.

Lemma firstn_app_l {A} (x y : list A) n : (n <= length x)%nat -> firstn n (x ++ y) = firstn n x.
Proof.
  intros H. rewrite firstn_app. replace (n - length x)%nat with 0%nat by lia.
  cbn. apply app_nil_r.
Qed.
Lemma skipn_app_l {A} (x y : list A) n : (n <= length x)%nat -> skipn n (x ++ y) = skipn n x ++ y.
Proof. intros H. rewrite skipn_app. replace (n - length x)%nat with 0%nat by lia. reflexivity. Qed.
Lemma firstn_exact {A} (x y : list A) n : n = length x -> firstn n (x ++ y) = x.
Proof. intros ->. rewrite firstn_app_l, firstn_all; auto. Qed.
Lemma skipn_exact {A} (x y : list A) n : n = length x -> skipn n (x ++ y) = y.
Proof. intros ->. rewrite skipn_app_l by auto. rewrite skipn_all. reflexivity. Qed.

Lemma app_inj_len {A} (a b c d : list A) : a ++ b = c ++ d -> length a = length c -> a = c /\ b = d.
Proof.
  revert c; induction a as [|x a IH]; destruct c as [|y c]; cbn; intros H L; try discriminate; auto.
  injection H as -> H. injection L as L. destruct (IH _ H L) as [-> ->]. auto.
Qed.

Lemma memchr_some b s i :
  memchr b s = Some i -> exists x y, s = x ++ b :: y /\ length x = i /\ ~ In b x.
Proof.
  revert i; induction s as [|c s IH]; cbn; intros i; [discriminate|].
  destruct (N.eqb_spec c b) as [->|Hn].
  - intros [= <-]. exists [], s. auto.
  - destruct (memchr b s) as [j|]; [|discriminate]. intros [= <-].
    destruct (IH j eq_refl) as (x & y & -> & <- & Hx). exists (c :: x), y. repeat split.
    intros [->|H]; [congruence | exact (Hx H)].
Qed.
Lemma memchr_none b s : memchr b s = None -> ~ In b s.
Proof.
  induction s as [|c s IH]; cbn; intros H; [tauto|].
  destruct (N.eqb_spec c b) as [->|Hn]; [discriminate|].
  destruct (memchr b s); [discriminate|]. intros [->|Hi]; [congruence | exact (IH eq_refl Hi)].
Qed.

Lemma mapM_ok {A C} (f : A -> res C) l ys :
  mapM f l = Ok ys <-> Forall2 (fun x y => f x = Ok y) l ys.
Proof.
  revert ys; induction l as [|x l IH]; intros ys; cbn.
  - split; [intros [= <-]; constructor | intros H; inversion H; reflexivity].
  - split.
    + intros H. apply bind_inv in H as (y & Hy & H). apply bind_inv in H as (ys' & Hys & H).
      injection H as <-. constructor; [exact Hy | apply IH; exact Hys].
    + intros H. inversion H as [|? y ? ys' Hy Hys]; subst. rewrite Hy. cbn.
      apply IH in Hys. rewrite Hys. reflexivity.
Qed.
Lemma mapM_safe {A C} (f : A -> res C) l : (forall x, In x l -> safe (f x)) -> safe (mapM f l).
Proof.
  induction l as [|x l IH]; cbn; intros H; [exact I|].
  apply safe_bind; [apply H; auto|]. intros y _. apply safe_bind; [apply IH; auto|]. intros ys _. exact I.
Qed.

Lemma set_nth_spec {A} (l : list A) i x :
  (i < length l)%nat ->
  exists l', set_nth l i x = Ok l' /\ length l' = length l /\
    (forall j, nth_error l' j = if (j =? i)%nat then Some x else nth_error l j).
Proof.
  revert i; induction l as [|y l IH]; cbn; intros i H; [lia|].
  destruct i as [|i].
  - eexists; split; [reflexivity|]. split; [reflexivity|]. intros [|j]; reflexivity.
  - destruct (IH i) as (l' & -> & HL & Hn); [lia|]. cbn. eexists; split; [reflexivity|].
    split; [cbn; congruence|]. intros [|j]; [reflexivity|]. cbn. apply Hn.
Qed.
Lemma set_nth_inv {A} (l l' : list A) i x :
  set_nth l i x = Ok l' -> (i < length l)%nat.
Proof.
  revert i l'; induction l as [|y l IH]; cbn; intros i l' H; [discriminate|].
  destruct i as [|i]; [lia|]. apply bind_inv in H as (t & Ht & _). apply IH in Ht. lia.
Qed.
Lemma set_nth_oob {A} (l : list A) i x :
  (length l <= i)%nat -> set_nth l i x = Panic "index out of range".
Proof.
  revert i; induction l as [|y l IH]; cbn; intros i H; [reflexivity|].
  destruct i as [|i]; [lia|]. rewrite IH by lia. reflexivity.
Qed.

Lemma Forall_forallb {A} (P : A -> Prop) (f : A -> bool) l :
  (forall x, f x = true <-> P x) -> forallb f l = true <-> Forall P l.
Proof. intros H. rewrite forallb_forall, Forall_forall. firstorder. Qed.
