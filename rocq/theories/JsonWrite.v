(* JsonWrite.v: what is written is JSON text that denotes the value. *)
From Verif Require Import Base BaseFacts Serde JsonText SpecJson DecFacts JsonFacts.
From Coq Require Import ZifyBool ZifyNat ZifyN.
Ltac Zify.zify_post_hook ::= Z.div_mod_to_equations.

(* induction over values that reaches into arrays and objects *)
Section ValueInd.
  Context (P : value -> Prop).
  Context (Hnull : P VNull) (Hbool : forall b, P (VBool b)) (Hnum : forall n, P (VNum n)) (Hother : P VOther) (Hstr : forall e s, P (VStr e s)).
  Context (Harr : forall l, Forall P l -> P (VArr l)) (Hobj : forall l, Forall (fun kv => P (snd kv)) l -> P (VObj l)).
  Fixpoint value_deep (v : value) : P v :=
    match v with
    | VNull => Hnull | VBool b => Hbool b | VNum n => Hnum n | VOther => Hother | VStr e s => Hstr e s
    | VArr l => Harr l ((fix go (l : list value) : Forall P l := match l with [] => Forall_nil _ | x :: l' => Forall_cons x (value_deep x) (go l') end) l)
    | VObj l => Hobj l ((fix go (l : list (bytes * value)) : Forall (fun kv => P (snd kv)) l :=
                          match l with [] => Forall_nil _ | x :: l' => Forall_cons x (value_deep (snd x)) (go l') end) l)
    end.
End ValueInd.

(* ---- numbers ---- *)
Lemma dec_head f : forall n, n < 2 ^ N.of_nat f -> (f <> 0)%nat -> 0 < n -> exists c t, dec_digits f n = c :: t /\ c <> ch "0".
Proof.
  induction f as [|f IH]; intros n Hn Hf Hp; [congruence|]. cbn [dec_digits]. rewrite Nat2N.inj_succ, N.pow_succ_r' in Hn. destruct (n <? 10) eqn:L.
  - eexists _, _. split; [reflexivity|]. change (ch "0") with 48. lia.
  - assert (Hf' : (f <> 0)%nat) by (intros ->; cbn in Hn; lia). destruct (IH (n / 10)) as (c & t & -> & H); [lia | exact Hf' | lia |]. cbn. eauto.
Qed.
Lemma write_num n : n < 2 ^ 64 -> denotes_num (VNum n) (fmt_dec n).
Proof.
  intros H. destruct (fmt_dec_spec n) as (D & V & NE & _).
  assert (D' : Forall digit (fmt_dec n)) by exact D.
  assert (PV : place_value (fmt_dec n) = n).
  { rewrite <- dec_place by exact D'. exact V. }
  assert (I : int_part (fmt_dec n)).
  { destruct (N.eq_dec n 0) as [->|Hn]; [left; reflexivity|]. right. split; [split; assumption|].
    unfold fmt_dec. destruct (dec_head (S (N.size_nat n)) n) as (c & t & -> & Hc); [|lia|lia|intros c' t' [= <- <-]; exact Hc].
    rewrite Nat2N.inj_succ, N.pow_succ_r'. pose proof (size_nat_gt n). lia. }
  rewrite <- PV at 1. apply dn_natural; [exact I | rewrite PV; exact H].
Qed.

(* ---- strings ---- *)
Lemma hex_lower_digit d : d < 16 -> hex_digit (hex_lower d) d.
Proof.
  intros H. unfold hex_lower, hex_digit, digit. change (ch "0") with 48. change (ch "9") with 57. change (ch "a") with 97. change (ch "f") with 102.
  destruct (N.ltb_spec d 10); [left | right; right]; lia.
Qed.
Lemma write_chars s : denotes_chars (needs_escape s) s (flat_map escape s).
Proof.
  induction s as [|c s IH]; [constructor|]. cbn [flat_map].
  assert (E : needs_escape (c :: s) = ((c <? 32) || (c =? ch """") || (c =? ch "\")) || needs_escape s) by reflexivity. rewrite E. clear E.
  assert (K : forall k, In (k, c) escapes -> (c <? 32) || (c =? ch """") || (c =? ch "\") = true ->
    denotes_chars (((c <? 32) || (c =? ch """") || (c =? ch "\")) || needs_escape s) (c :: s) ([ch "\"; k] ++ flat_map escape s)).
  { intros k Hk ->. cbn [orb app]. apply (dc_escape k c _ _ _ Hk IH). }
  unfold escape at 1.
  destruct (N.eqb_spec c (ch """")) as [->|H1]; [apply (K (ch """")); [cbn; tauto | reflexivity]|].
  destruct (N.eqb_spec c (ch "\")) as [->|H2]; [apply (K (ch "\")); [cbn; tauto | reflexivity]|].
  destruct (N.eqb_spec c 8) as [->|H3]; [apply (K (ch "b")); [cbn; tauto | reflexivity]|].
  destruct (N.eqb_spec c 9) as [->|H4]; [apply (K (ch "t")); [cbn; tauto | reflexivity]|].
  destruct (N.eqb_spec c 10) as [->|H5]; [apply (K (ch "n")); [cbn; tauto | reflexivity]|].
  destruct (N.eqb_spec c 12) as [->|H6]; [apply (K (ch "f")); [cbn; tauto | reflexivity]|].
  destruct (N.eqb_spec c 13) as [->|H7]; [apply (K (ch "r")); [cbn; tauto | reflexivity]|].
  destruct (N.ltb_spec c 32) as [H8|H8].
  - cbn [orb]. change (c :: s) with ([c] ++ s). replace ((B "\u00" ++ [hex_lower (c / 16); hex_lower (c mod 16)]) ++ flat_map escape s)
      with (B "\u" ++ (B "00" ++ [hex_lower (c / 16); hex_lower (c mod 16)]) ++ flat_map escape s) by reflexivity.
    refine (dc_unicode _ c _ _ _ _ _ _ _ IH).
    + exists (ch "0"), (ch "0"), (hex_lower (c / 16)), (hex_lower (c mod 16)), 0, 0, (c / 16), (c mod 16).
      repeat (split; [first [reflexivity | apply hex_lower_digit; lia | left; unfold digit; cbn; lia]|]). lia.
    + lia.
    + constructor. lia.
  - cbn [orb app]. apply dc_char; assumption.
Qed.
Lemma write_str_denotes s : utf8_valid s = true -> denotes_str (needs_escape s) s (write_str s).
Proof. intros U. exists (flat_map escape s). split; [reflexivity|]. split; [apply write_chars | exact U]. Qed.

(* ---- values ---- *)
Lemma ws_indent n : ws (indent n).
Proof. induction n as [|n IH]; cbn; repeat constructor; cbn; auto. Qed.
Lemma ws_break n : ws ([10] ++ indent n).
Proof. constructor; [cbn; auto | apply ws_indent]. Qed.
Fixpoint write_elems (n : nat) (first : bool) (l : list value) : bytes :=
  match l with [] => [] | x :: l' => separator first (S n) ++ pretty (S n) x ++ write_elems n false l' end.
Fixpoint write_members (n : nat) (first : bool) (l : list (bytes * value)) : bytes :=
  match l with
  | [] => []
  | (k, x) :: l' => separator first (S n) ++ write_str k ++ B ": " ++ pretty (S n) x ++ write_members n false l'
  end.
Lemma write_elems_go n l : forall first,
  (fix go (first : bool) (l : list value) : bytes :=
     match l with [] => [] | x :: l' => separator first (S n) ++ pretty (S n) x ++ go false l' end) first l = write_elems n first l.
Proof. induction l as [|x l IH]; intros first; [reflexivity|]. cbn [write_elems]. rewrite <- IH. reflexivity. Qed.
Lemma write_members_go n l : forall first,
  (fix go (first : bool) (l : list (bytes * value)) : bytes :=
     match l with
     | [] => []
     | (k, x) :: l' => separator first (S n) ++ write_str k ++ B ": " ++ pretty (S n) x ++ go false l'
     end) first l = write_members n first l.
Proof. induction l as [|[k x] l IH]; intros first; [reflexivity|]. cbn [write_members]. rewrite <- IH. reflexivity. Qed.
Lemma pretty_arr n x l : pretty n (VArr (x :: l)) = [ch "["] ++ (write_elems n true (x :: l) ++ [10] ++ indent n) ++ [ch "]"].
Proof. rewrite <- !app_assoc, <- write_elems_go. reflexivity. Qed.
Lemma pretty_obj n x l : pretty n (VObj (x :: l)) = [ch "{"] ++ (write_members n true (x :: l) ++ [10] ++ indent n) ++ [ch "}"].
Proof. rewrite <- !app_assoc, <- write_members_go. reflexivity. Qed.
Lemma write_elems_denotes n w0 : ws w0 -> forall l x w, ws w -> Forall (fun v => denotes_value v (pretty (S n) v)) (x :: l) ->
  denotes_elems (x :: l) (w ++ pretty (S n) x ++ write_elems n false l ++ w0).
Proof.
  intros W0. induction l as [|y l IH]; intros x w W F; inversion F as [|? ? F1 F2]; subst; cbn [write_elems].
  - apply de_one; assumption.
  - replace (w ++ pretty (S n) x ++ (separator false (S n) ++ pretty (S n) y ++ write_elems n false l) ++ w0)
      with (w ++ pretty (S n) x ++ [] ++ [ch ","] ++ ([10] ++ indent (S n)) ++ pretty (S n) y ++ write_elems n false l ++ w0)
      by (unfold separator; rewrite <- !app_assoc; reflexivity).
    apply de_more; [exact W | exact F1 | constructor |]. apply IH; [apply ws_break | exact F2].
Qed.
Lemma write_members_denotes n w0 : ws w0 -> forall l k x w, ws w ->
  Forall (fun kv => denotes_str (needs_escape (fst kv)) (fst kv) (write_str (fst kv)) /\ denotes_value (snd kv) (pretty (S n) (snd kv))) ((k, x) :: l) ->
  denotes_members ((k, x) :: l) (w ++ write_str k ++ B ": " ++ pretty (S n) x ++ write_members n false l ++ w0).
Proof.
  intros W0. induction l as [|[k' y] l IH]; intros k x w W F; inversion F as [|? ? [F0 F1] F2]; subst; cbn [write_members fst snd] in *.
  - apply dm_one. change (B ": " ++ pretty (S n) x ++ [] ++ w0) with ([] ++ [ch ":"] ++ [32] ++ pretty (S n) x ++ w0).
    eapply dm_intro; eauto; repeat constructor; cbn; auto.
  - replace (w ++ write_str k ++ B ": " ++ pretty (S n) x ++ (separator false (S n) ++ write_str k' ++ B ": " ++ pretty (S n) y ++ write_members n false l) ++ w0)
      with ((w ++ write_str k ++ [] ++ [ch ":"] ++ [32] ++ pretty (S n) x ++ []) ++ [ch ","] ++
            ([10] ++ indent (S n)) ++ write_str k' ++ B ": " ++ pretty (S n) y ++ write_members n false l ++ w0)
      by (unfold separator; rewrite <- !app_assoc; reflexivity).
    apply dm_more; [|apply IH; [apply ws_break | exact F2]]. eapply dm_intro; eauto; repeat constructor; cbn; auto.
Qed.
Lemma pretty_denotes v : writable v -> forall n, denotes_value v (pretty n v).
Proof.
  induction v as [|b|k| |e s|l IH|l IH] using value_deep; intros W n; inversion W as [|b' | k' Hk|s' Hs|l' Hl|l' Hl]; subst.
  - apply dv_null.
  - destruct b; constructor.
  - apply dv_num, write_num. exact Hk.
  - apply dv_str, write_str_denotes. exact Hs.
  - destruct l as [|x l]; [apply (dv_arr0 []); constructor|]. rewrite pretty_arr. apply dv_arr. cbn [write_elems].
    unfold separator. rewrite <- !app_assoc. rewrite app_assoc. apply write_elems_denotes; [apply ws_break|apply ws_break|].
    apply Forall_forall. intros v Hv. rewrite Forall_forall in IH, Hl. apply IH; auto.
  - destruct l as [|[k x] l]; [apply (dv_obj0 []); constructor|]. rewrite pretty_obj. apply dv_obj. cbn [write_members].
    unfold separator. rewrite <- !app_assoc. rewrite app_assoc. apply write_members_denotes; [apply ws_break|apply ws_break|].
    apply Forall_forall. intros kv Hv. rewrite Forall_forall in IH, Hl. destruct (Hl _ Hv). split; [apply write_str_denotes; assumption | apply IH; auto].
Qed.
Lemma text_denotes v : writable v -> denotes v (to_string_pretty v).
Proof. intros W. exists [], (to_string_pretty v), []. split; [rewrite app_nil_r; reflexivity|]. repeat split; [constructor | apply pretty_denotes; exact W | constructor]. Qed.
