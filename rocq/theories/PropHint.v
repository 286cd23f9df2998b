(* PropHint.v: C113, the size hints of the generators for fuzzing (the `arbitrary` feature). *)
From Verif Require Import Base BaseFacts Pkt SpecPkt PktFacts DecodeFacts Msg SpecMsg DecFacts MsgFacts WireFacts PropPkt PropMsg Fuzz PropFuzz.
From Coq Require Import ZifyBool ZifyNat ZifyN.
Ltac Zify.zify_post_hook ::= Z.div_mod_to_equations.

(* ---- specification ---- *)
(* A generator that is given n bytes and more makes a value of the first n and leaves the rest, or refuses because of the first n. *)
Definition takes {A : Type} (g : bytes -> res (A * bytes)) (n : nat) : Prop :=
  forall d, u8s d -> length d = n -> (exists v, forall r, g (d ++ r) = Ok (v, r)) \/ (exists e, forall r, g (d ++ r) = Err e).
(* Given fewer, it refuses; or acts as if zeros followed. *)
Definition insists {A : Type} (g : bytes -> res (A * bytes)) (n : nat) : Prop := forall d, u8s d -> (length d < n)%nat -> exists e, g d = Err e.
Definition pads {A : Type} (g : bytes -> res (A * bytes)) (n : nat) : Prop :=
  forall d, u8s d -> (length d < n)%nat -> g d = g (d ++ repeat 0 (n - length d)).
(* the hint says that it takes n bytes, or at least n *)
Definition says (h : hint) (n : nat) : Prop := fst h = n /\ (snd h = Some n \/ snd h = None).
Definition right {A : Type} (g : bytes -> res (A * bytes)) (h : hint) : Prop := exists n, says h n /\ takes g n.

Lemma takes_bytes {A : Type} n (f : bytes -> res A) : (forall d why, u8s d -> length d = n -> f d <> Panic why) ->
  takes (fun u => ' (buf, u) <- u_bytes n u ;; x <- f buf ;; Ok (x, u)) n.
Proof.
  intros NP d U L. unfold u_bytes. destruct (f d) as [v|e|w] eqn:E; [left; exists v | right; exists e | elim (NP d w U L E)]; intros r;
    rewrite app_length; replace (length d + length r <? n)%nat with false by lia; cbn [bind]; rewrite firstn_exact, skipn_exact by auto; rewrite E; reflexivity.
Qed.
Lemma insists_bytes {A : Type} n (f : bytes -> bytes -> res (A * bytes)) : insists (fun u => ' (buf, u) <- u_bytes n u ;; f buf u) n.
Proof. intros d U L. unfold u_bytes. replace (length d <? n)%nat with true by lia. cbn [bind]. eauto. Qed.
Lemma takes_one {A : Type} (f : N -> A) : takes (fun u => ' (b, u) <- gen_u8 u ;; Ok (f b, u)) 1.
Proof. intros [|b [|b2 d]] U L; try discriminate. left. exists (f b). intros r. reflexivity. Qed.
Lemma takes_range lo hi : lo < hi -> takes (int_in_range lo hi) 1.
Proof.
  intros H d U L. unfold int_in_range. replace (hi <? lo) with false by lia. replace (lo =? hi) with false by lia. exact (takes_one (fun b => lo + b mod (hi - lo + 1)) d U L).
Qed.
Lemma pads_range lo hi : lo < hi -> pads (int_in_range lo hi) 1.
Proof.
  intros H [|b d] U L; [|cbn in L; lia]. unfold int_in_range. replace (hi <? lo) with false by lia. replace (lo =? hi) with false by lia. reflexivity.
Qed.
Lemma range_ok lo hi b r : lo < hi -> int_in_range lo hi (b :: r) = Ok (lo + b mod (hi - lo + 1), r).
Proof. intros H. unfold int_in_range. replace (hi <? lo) with false by lia. replace (lo =? hi) with false by lia. reflexivity. Qed.
Lemma range_nil lo hi : lo < hi -> int_in_range lo hi [] = Ok (lo + 0 mod (hi - lo + 1), []).
Proof. intros H. unfold int_in_range. replace (hi <? lo) with false by lia. replace (lo =? hi) with false by lia. reflexivity. Qed.

Lemma code_safe n why : ArmCode_try_from_u32 n <> Panic why.
Proof.
  destruct (C20_code_from_number_no_panic n) as [[c EC]|[e EC]]; rewrite EC; discriminate.
Qed.
Lemma datetime_takes a b c d e f r :
  gen_DateTime (a :: b :: c :: d :: e :: f :: r) =
  Ok (mkDateTime (0 + a mod (99 - 0 + 1)) (1 + b mod (12 - 1 + 1)) (1 + c mod (31 - 1 + 1)) (0 + d mod (23 - 0 + 1)) (0 + e mod (59 - 0 + 1)) (0 + f mod (59 - 0 + 1)), r).
Proof.
  unfold gen_DateTime. do 6 (rewrite range_ok by reflexivity; cbn [bind]). reflexivity.
Qed.

(* ---- C113 ---- *)
(* Each generator takes exactly as many bytes as its hint says. *)
Theorem C113_hints_right :
  right gen_ArmCode hint_ArmCode /\ right (gen_limited 208) hint_limited /\ right (gen_limited 8) hint_limited /\ right (gen_limited 16) hint_limited /\
  right (gen_limited 32) hint_limited /\ right gen_DateTime hint_DateTime /\ right gen_ZoneStatus hint_ZoneStatus /\ right gen_TextDescription hint_TextDescription.
Proof.
  assert (L : forall max, 1 < max -> right (gen_limited max) hint_limited).
  { intros max H. exists 1%nat. split; [split; auto|]. apply takes_range. exact H. }
  split; [|do 4 (split; [apply L; reflexivity|]); split; [|split]].
  - exists 3%nat. split; [split; auto|]. intros d U E. destruct d as [|a [|b [|c [|x d]]]]; try discriminate. unfold gen_ArmCode, u_bytes. cbn [app length Nat.ltb Nat.leb bind firstn skipn index nth_error].
    destruct (ArmCode_try_from_u32 _) as [v|e|w] eqn:EC; cbn [or_incorrect bind]; [left; exists v; reflexivity | right; eexists; reflexivity | elim (code_safe _ _ EC)].
  - exists 6%nat. split; [split; auto|]. intros d U E. destruct d as [|a [|b [|c [|x [|y [|z [|w d]]]]]]]; try discriminate. left. eexists. intros r. cbn [app]. apply datetime_takes.
  - exists 1%nat. split; [split; auto|]. intros d U E. destruct d as [|a [|x d]]; try discriminate. unfold gen_ZoneStatus, u_bytes. cbn [app length Nat.ltb Nat.leb bind firstn skipn index nth_error].
    destruct (negb _); [right | left]; eexists; reflexivity.
  - exists 16%nat. split; [split; auto|]. intros d U E. unfold gen_TextDescription, u_fill. destruct (check_printable d) as [[]|e|w] eqn:EC.
    + left. exists d. intros r. rewrite <- app_assoc, firstn_exact, skipn_exact by auto. rewrite EC. reflexivity.
    + right. eexists. intros r. rewrite <- app_assoc, firstn_exact by auto. rewrite EC. reflexivity.
    + exfalso. unfold check_printable in EC. destruct (forallb _ _); discriminate.
Qed.
(* Given fewer, those of codes, zone statuses and names refuse; those of numbers and dates go on with zeros. *)
Theorem C113_short_input :
  insists gen_ArmCode (fst hint_ArmCode) /\ insists gen_ZoneStatus (fst hint_ZoneStatus) /\ insists gen_TextDescription (fst hint_TextDescription) /\
  (forall max, 1 < max -> pads (gen_limited max) (fst hint_limited)) /\ pads gen_DateTime (fst hint_DateTime).
Proof.
  split; [apply insists_bytes|]. split; [apply insists_bytes|]. split; [|split].
  - intros d U L. cbn [fst hint_TextDescription] in L. unfold gen_TextDescription, u_fill, check_printable. rewrite firstn_app, firstn_all2 by lia.
    assert (Z : firstn (16 - length d) (repeat 0 16) = 0 :: firstn (15 - length d) (repeat 0 15)) by (replace (16 - length d)%nat with (S (15 - length d)) by lia; reflexivity).
    rewrite Z, forallb_app. cbn [forallb]. rewrite andb_comm. cbn. eauto.
  - intros max H. apply pads_range. exact H.
  - intros d U L. cbn [fst hint_DateTime] in *. assert (N : forall lo hi, lo < hi -> int_in_range lo hi [] = int_in_range lo hi [0]) by (intros lo hi H; rewrite range_nil, range_ok by exact H; reflexivity).
    destruct d as [|a [|b [|c [|x [|y [|z d]]]]]]; cbn [length] in L; try lia; cbn [length Nat.sub repeat app]; rewrite datetime_takes; unfold gen_DateTime;
      repeat (rewrite range_ok by reflexivity; cbn [bind]); repeat (rewrite range_nil by reflexivity; cbn [bind]); reflexivity.
Qed.

Example C113_example :
  gen_ArmCode [0; 1; 2; 77] = Ok (B "065538", [77]) /\ gen_ArmCode [0; 1] = Err "NotEnoughData" /\
  gen_limited 208 [207; 77] = Ok (208, [77]) /\ gen_limited 208 [] = Ok (1, []) /\
  gen_DateTime [24; 11; 30; 23; 59; 58; 77] = Ok (mkDateTime 24 12 31 23 59 58, [77]) /\ gen_DateTime [24] = Ok (mkDateTime 24 1 1 0 0 0, []).
Proof. vm_compute. repeat split; reflexivity. Qed.

Print Assumptions C113_hints_right.
Print Assumptions C113_short_input.
