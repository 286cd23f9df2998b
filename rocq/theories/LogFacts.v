(* LogFacts.v: the text of a value tells the value (FmtText.v). *)
From Verif Require Import Base BaseFacts Pkt SpecPkt PktFacts SpecMsg Fmt FmtText SpecLog.
From Verif Require DecFacts.
From Coq Require Import ZifyBool ZifyNat ZifyN.
Ltac Zify.zify_post_hook ::= Z.div_mod_to_equations.

(* ---- induction over the structures ---- *)
Section Ind.
  Variable P : dbg -> Prop.
  Hypothesis HN : forall n, P (DNum n).
  Hypothesis HB : forall b, P (DBool b).
  Hypothesis HS : forall s, P (DStr s).
  Hypothesis HT : forall s, P (DText s).
  Hypothesis HH : forall b, P (DHex b).
  Hypothesis HW : forall s, P (DWord s).
  Hypothesis HTu : forall s fs, Forall P fs -> P (DTuple s fs).
  Hypothesis HSt : forall s fs, Forall (fun f => P (snd f)) fs -> P (DStruct s fs).
  Hypothesis HL : forall ds, Forall P ds -> P (DList ds).
  Hypothesis HM : forall es, Forall (fun e => P (snd e)) es -> P (DMap es).
  Fixpoint dbg_induct (d : dbg) : P d :=
    match d with
    | DNum n => HN n | DBool b => HB b | DStr s => HS s | DText s => HT s | DHex b => HH b | DWord s => HW s
    | DTuple s fs => HTu s fs ((fix go l : Forall P l := match l with [] => Forall_nil _ | x :: t => Forall_cons x (dbg_induct x) (go t) end) fs)
    | DStruct s fs => HSt s fs ((fix go l : Forall (fun f => P (snd f)) l := match l with [] => Forall_nil _ | x :: t => Forall_cons x (dbg_induct (snd x)) (go t) end) fs)
    | DList ds => HL ds ((fix go l : Forall P l := match l with [] => Forall_nil _ | x :: t => Forall_cons x (dbg_induct x) (go t) end) ds)
    | DMap es => HM es ((fix go l : Forall (fun f => P (snd f)) l := match l with [] => Forall_nil _ | x :: t => Forall_cons x (dbg_induct (snd x)) (go t) end) es)
    end.
End Ind.

(* ---- what is laid out ---- *)
Definition letter (c : N) : bool := ((65 <=? c) && (c <=? 90)) || ((97 <=? c) && (c <=? 122)).
Definition name_char (c : N) : bool := letter c || ((48 <=? c) && (c <=? 57)) || (c =? 95).
Definition name_bytes (s : bytes) : bool := match s with [] => false | c :: _ => letter c && forallb name_char s end.
(* a name of a type, variant or field *)
Definition is_name (s : string) : bool :=
  let b := bytes_of_string s in name_bytes b && negb (beq b (B "true")) && negb (beq b (B "false")).
Definition all_printable (s : bytes) : bool := forallb printable_byte s.
Fixpoint nice (d : dbg) : bool :=
  match d with
  | DNum _ | DBool _ => true
  | DHex b => all_u8 b
  | DStr s => all_printable s
  | DText s => all_printable (bytes_of_string s)
  | DWord s => is_name s
  | DTuple s fs => is_name s && match fs with [] => false | _ => true end && forallb nice fs
  | DStruct s fs => is_name s && match fs with [] => false | _ => true end && forallb (fun f => is_name (fst f) && nice (snd f)) fs
  | DList ds => forallb nice ds
  | DMap es => forallb (fun e => nice (snd e)) es
  end.
(* the text of an error is shown as any other text *)
Fixpoint norm (d : dbg) : dbg :=
  match d with
  | DText s => DStr (bytes_of_string s)
  | DTuple s fs => DTuple s (map norm fs)
  | DStruct s fs => DStruct s (map (fun f => (fst f, norm (snd f))) fs)
  | DList ds => DList (map norm ds)
  | DMap es => DMap (map (fun e => (fst e, norm (snd e))) es)
  | _ => d
  end.
(* what comes after a value *)
Definition ends (r : bytes) : Prop :=
  match r with [] => True | c :: t => In c [ch ","; ch ")"; ch "]"; ch "}"; 10] \/ (c = ch " " /\ exists t', t = ch "}" :: t') end.

(* ---- leaves ---- *)
Lemma escape_printable c : printable_byte c = true ->
  escape_char (ch """") c = (if (c =? ch """") || (c =? ch "\") then [ch "\"; c] else [c]).
Proof.
  unfold printable_byte, escape_char. intros H.
  assert (L : 32 <= c <= 126) by lia.
  destruct (N.eqb_spec c 0), (N.eqb_spec c 9), (N.eqb_spec c 10), (N.eqb_spec c 13); try lia.
  destruct (N.eqb_spec c (ch """")); [subst; reflexivity|]. destruct (N.eqb_spec c (ch "\")); [subst; reflexivity|].
  replace (32 <=? c) with true by lia. replace (c <=? 126) with true by lia. reflexivity.
Qed.
Lemma quoted_tells s : forall s' r r', all_printable s = true -> all_printable s' = true -> quoted s ++ r = quoted s' ++ r' -> s = s' /\ r = r'.
Proof.
  assert (G : forall s s' r r', all_printable s = true -> all_printable s' = true ->
    flat_map (escape_char (ch """")) s ++ B """" ++ r = flat_map (escape_char (ch """")) s' ++ B """" ++ r' -> s = s' /\ r = r').
  { clear. induction s as [|c s IH]; intros [|c' s'] r r' H H' E; cbn [flat_map app] in E; unfold all_printable in *; cbn [forallb] in *.
    - injection E as ->. auto.
    - apply andb_prop in H' as [Hc H']. rewrite escape_printable in E by exact Hc. destruct ((c' =? _) || _) eqn:Q; cbn [app] in E; [discriminate|]. injection E as E _. lia.
    - apply andb_prop in H as [Hc H]. rewrite escape_printable in E by exact Hc. destruct ((c =? _) || _) eqn:Q; cbn [app] in E; [discriminate|]. injection E as E _. lia.
    - apply andb_prop in H as [Hc H]. apply andb_prop in H' as [Hc' H']. rewrite !escape_printable in E by assumption.
      destruct ((c =? _) || _) eqn:Q, ((c' =? _) || _) eqn:Q'; cbn [app] in E; injection E; intros; subst; try lia.
      + destruct (IH s' r r' H H') as [-> ->]; auto.
      + destruct (IH s' r r' H H') as [-> ->]; auto. }
  intros s' r r' H H' E. unfold quoted in E. rewrite <- !app_assoc in E. cbn [app] in E. injection E as E. apply (G s s' r r' H H'). exact E.
Qed.
Lemma names_tell a : forall b r r', forallb name_char a = true -> forallb name_char b = true ->
  match r with [] => True | c :: _ => name_char c = false end -> match r' with [] => True | c :: _ => name_char c = false end ->
  a ++ r = b ++ r' -> a = b /\ r = r'.
Proof.
  induction a as [|x a IH]; intros [|y b] r r' H H' N N' E; cbn [app] in E; cbn [forallb] in *; auto.
  - subst r. apply andb_prop in H' as [H' _]. congruence.
  - subst r'. apply andb_prop in H as [H _]. congruence.
  - injection E as -> E. apply andb_prop in H as [_ H]. apply andb_prop in H' as [_ H']. destruct (IH _ _ _ H H' N N' E) as [-> ->]. auto.
Qed.
Lemma digits_name n : forallb name_char (fmt_dec n) = true /\ exists c t, fmt_dec n = c :: t /\ 48 <= c <= 57.
Proof.
  destruct (DecFacts.fmt_dec_spec n) as (D & _ & NE & _). unfold digits in D. change (ch "0") with 48 in D. change (ch "9") with 57 in D. split.
  - apply forallb_forall. intros c Hc. rewrite Forall_forall in D. specialize (D _ Hc). unfold name_char. cbv beta in D. lia.
  - destruct (fmt_dec n) as [|c t]; [congruence|]. exists c, t. split; [reflexivity|]. inversion D; subst. lia.
Qed.
Lemma dec_tells n n' r r' : match r with [] => True | c :: _ => name_char c = false end -> match r' with [] => True | c :: _ => name_char c = false end ->
  fmt_dec n ++ r = fmt_dec n' ++ r' -> n = n' /\ r = r'.
Proof.
  intros N N' E. destruct (names_tell _ _ _ _ (proj1 (digits_name n)) (proj1 (digits_name n')) N N' E) as [A B]. split; [|exact B].
  destruct (DecFacts.fmt_dec_spec n) as (_ & V & _), (DecFacts.fmt_dec_spec n') as (_ & V' & _). rewrite A in V. congruence.
Qed.
Lemma ends_stop r : ends r -> match r with [] => True | c :: _ => name_char c = false end.
Proof. destruct r as [|c t]; [auto|]. intros [H|[-> _]]; [|reflexivity]. cbn in H. destruct H as [<-|[<-|[<-|[<-|[<-|[]]]]]]; reflexivity. Qed.

(* ---- indented dumps ---- *)
Lemma indented_tells l s : forall s' r r', indented l s ++ r = indented l s' ++ r' -> exists q q', s ++ q = s' ++ q'.
Proof.
  destruct l as [n|]; [|intros s' r r' E; exists r, r'; exact E].
  induction s as [|c s IH]; intros [|c' s'] r r' E; [exists [], []; reflexivity | exists (c' :: s'), []; rewrite app_nil_r; reflexivity | exists [], (c :: s); rewrite app_nil_r; reflexivity|].
  cbn [indented flat_map] in E, IH. rewrite <- !app_assoc in E.
  assert (H : c = c').
  { destruct (N.eqb_spec c 10), (N.eqb_spec c' 10); unfold new_line in E; cbn [app] in E; injection E; intros; congruence. }
  subst c'. apply app_inv_head in E. destruct (IH _ _ _ E) as (q & q' & Q). exists q, q'. cbn [app]. rewrite Q. reflexivity.
Qed.
Lemma dump_tells hex l b b' r r' : dump_ok hex -> u8s b -> u8s b' -> indented l (hex b) ++ r = indented l (hex b') ++ r' -> b = b' /\ r = r'.
Proof.
  intros [_ H] U U' E. destruct (indented_tells _ _ _ _ _ E) as (q & q' & Q). assert (b = b') as <- by (eapply H; eassumption). split; [reflexivity|].
  apply app_inv_head in E. exact E.
Qed.

Lemma all_u8_iff s : all_u8 s = true <-> u8s s.
Proof. unfold all_u8, u8s. rewrite forallb_forall, Forall_forall. unfold is_u8. split; intros H x Hx; specialize (H x Hx); lia. Qed.

(* ---- lists of values ---- *)
Definition starts_item (s : bytes) : Prop := match s with [] => False | c :: _ => ~ In c [ch ")"; ch "]"; ch "}"; 10; ch " "; ch ","] end.
Definition closing (pad : bytes) (close : N) : Prop := (pad = [] /\ In close [ch ")"; ch "]"; ch "}"]) \/ (pad = B " " /\ close = ch "}").
Lemma closing_ends pad close r : closing pad close -> ends (pad ++ close :: r).
Proof.
  intros [[-> H]|[-> ->]]; cbn.
  - left. cbn in H. tauto.
  - right. split; [reflexivity|]. eauto.
Qed.
Lemma items_tell {A X} (f : A -> bytes) (g : A -> X) l pad close : closing pad close -> forall xs ys r r',
  (forall x y r r', In x xs -> In y ys -> ends r -> ends r' -> f x ++ r = f y ++ r' -> g x = g y /\ r = r') ->
  (forall x, In x xs \/ In x ys -> starts_item (f x)) ->
  items l pad (map f xs) ++ close :: r = items l pad (map f ys) ++ close :: r' -> map g xs = map g ys /\ r = r'.
Proof.
  intros CL xs ys r r' T S E.
  assert (CC : In close [ch ")"; ch "]"; ch "}"]) by (destruct CL as [[_ H]|[_ ->]]; [exact H | cbn; tauto]).
  assert (C10 : close <> 10) by (intros ->; cbn in CC; repeat destruct CC as [CC|CC]; try discriminate; exact CC).
  assert (C32 : close <> ch " ") by (intros ->; cbn in CC; repeat destruct CC as [CC|CC]; try discriminate; exact CC).
  assert (C44 : close <> ch ",") by (intros ->; cbn in CC; repeat destruct CC as [CC|CC]; try discriminate; exact CC).
  assert (SN : forall x c t, (In x xs \/ In x ys) -> f x = c :: t -> c <> close /\ c <> 10 /\ c <> ch " " /\ c <> ch ",").
  { intros x c t I Q. specialize (S x I). rewrite Q in S. cbn [starts_item] in S. repeat split; intros ->; apply S; cbn in *; tauto. }
  assert (SE : forall x, (In x xs \/ In x ys) -> exists c t, f x = c :: t).
  { intros x I. specialize (S x I). destruct (f x); [destruct S | eauto]. }
  clear S. destruct l as [n|].
  - (* indented *)
    assert (G : forall xs ys,
      (forall x y r r', In x xs -> In y ys -> ends r -> ends r' -> f x ++ r = f y ++ r' -> g x = g y /\ r = r') ->
      flat_map (fun x => new_line (S n) ++ x ++ B ",") (map f xs) ++ new_line n ++ close :: r =
      flat_map (fun x => new_line (S n) ++ x ++ B ",") (map f ys) ++ new_line n ++ close :: r' -> map g xs = map g ys /\ r = r').
    { assert (NL : forall k, new_line (S k) = new_line k ++ B "    ").
      { intros k. unfold new_line. cbn [app]. f_equal. induction k as [|k IH]; [reflexivity|]. cbn [repeat concat] in *. rewrite <- app_assoc. f_equal. rewrite IH. reflexivity. }
      assert (EC : forall t, ends (B "," ++ t)) by (intros t; cbn; tauto).
      clear - NL C32 EC. induction xs as [|x xs IH]; intros [|y ys] T E; cbn [map flat_map app] in E.
      - apply app_inv_head in E. injection E as ->. auto.
      - exfalso. rewrite NL, <- !app_assoc in E. apply app_inv_head in E. injection E as E _. exact (C32 E).
      - exfalso. rewrite NL, <- !app_assoc in E. apply app_inv_head in E. injection E as E _. symmetry in E. exact (C32 E).
      - rewrite <- !app_assoc in E. apply app_inv_head in E. destruct (T x y _ _ (or_introl eq_refl) (or_introl eq_refl) (EC _) (EC _) E) as [G E'].
        injection E' as E'. destruct (IH ys) as [M R]; [intros; apply T; auto; right; assumption | exact E' |]. cbn [map]. rewrite G, M. auto. }
    unfold items in E. destruct xs as [|x xs], ys as [|y ys]; cbn [map] in E.
    + injection E as ->. auto.
    + exfalso. cbn [flat_map app new_line] in E. injection E as E _. congruence.
    + exfalso. cbn [flat_map app new_line] in E. injection E as E _. congruence.
    + apply G; [exact T|]. cbn [map]. rewrite <- !app_assoc in E. exact E.
  - (* on one line *)
    assert (G : forall x xs y ys,
      (forall a b r r', In a (x :: xs) -> In b (y :: ys) -> ends r -> ends r' -> f a ++ r = f b ++ r' -> g a = g b /\ r = r') ->
      commas (map f (x :: xs)) ++ pad ++ close :: r = commas (map f (y :: ys)) ++ pad ++ close :: r' -> map g (x :: xs) = map g (y :: ys) /\ r = r').
    { assert (EC : forall t, ends (B ", " ++ t)) by (intros t; cbn; tauto).
      assert (NC : forall r t, pad ++ close :: r = B ", " ++ t -> False).
      { intros r0 t Q. destruct CL as [[-> _]|[-> _]]; cbn in Q; injection Q; intros; congruence. }
      assert (EP : forall r, ends (pad ++ close :: r)) by (intros; apply closing_ends; exact CL).
      clear - EC NC EP. intros x xs. revert x. induction xs as [|x2 xs IH]; intros x y [|y2 ys] T E; cbn [map commas] in E.
      - destruct (T x y _ _ (or_introl eq_refl) (or_introl eq_refl) (EP _) (EP _) E) as [G R]. apply app_inv_head in R. injection R as ->. cbn [map]. rewrite G. auto.
      - rewrite <- !app_assoc in E. destruct (T x y _ _ (or_introl eq_refl) (or_introl eq_refl) (EP _) (EC _) E) as [_ R]. elim (NC _ _ R).
      - rewrite <- !app_assoc in E. destruct (T x y _ _ (or_introl eq_refl) (or_introl eq_refl) (EC _) (EP _) E) as [_ R]. symmetry in R. elim (NC _ _ R).
      - rewrite <- !app_assoc in E. destruct (T x y _ _ (or_introl eq_refl) (or_introl eq_refl) (EC _) (EC _) E) as [G R]. apply app_inv_head in R.
        destruct (IH x2 y2 ys) as [M R']; [intros; apply T; auto; right; assumption | exact R |]. cbn [map] in *. rewrite G, M. auto. }
    unfold items in E. destruct xs as [|x xs], ys as [|y ys].
    + cbn in E. injection E as ->. auto.
    + exfalso. destruct (SE y) as (c & t & Q); [right; left; reflexivity|]. destruct (SN y c t ltac:(right; left; reflexivity) Q) as (N1 & _).
      destruct CL as [[-> _]|[-> _]]; cbn [map app] in E; [|injection E; intros; congruence].
      destruct ys; cbn [map commas] in E; rewrite Q in E; cbn [app] in E; injection E; intros; congruence.
    + exfalso. destruct (SE x) as (c & t & Q); [left; left; reflexivity|]. destruct (SN x c t ltac:(left; left; reflexivity) Q) as (N1 & _).
      destruct CL as [[-> _]|[-> _]]; cbn [map app] in E; [|injection E; intros; congruence].
      destruct xs; cbn [map commas] in E; rewrite Q in E; cbn [app] in E; injection E; intros; congruence.
    + apply G; [exact T|]. cbn [map] in *. rewrite <- !app_assoc in E. apply app_inv_head in E. exact E.
Qed.

(* ---- values ---- *)
Definition class (d : dbg) : N :=
  match d with DNum _ => 0 | DStr _ | DText _ => 1 | DList _ => 2 | DMap _ => 3 | _ => 4 end.
Definition class_of (c : N) : N :=
  if (48 <=? c) && (c <=? 57) then 0 else if c =? ch """" then 1 else if c =? ch "[" then 2 else if c =? ch "{" then 3 else if letter c then 4 else 5.
Definition head_name (d : dbg) : bytes :=
  match d with
  | DBool b => if b then B "true" else B "false"
  | DWord s | DTuple s _ | DStruct s _ => bytes_of_string s
  | DHex _ => B "Length"
  | _ => []
  end.
Definition after_name (hex : bytes -> bytes) (l : layout) (d : dbg) : bytes :=
  match d with
  | DTuple _ ((_ :: _) as fs) => B "(" ++ items l [] (map (dbg_text hex (option_map S l)) fs) ++ B ")"
  | DStruct _ ((_ :: _) as fs) => B " {" ++ items l (B " ") (map (fun f => bytes_of_string (fst f) ++ B ": " ++ dbg_text hex (option_map S l) (snd f)) fs) ++ B "}"
  | DHex b => skipn 6 (indented l (hex b))
  | _ => []
  end.
Lemma hex_form hex l b : dump_ok hex -> exists t, indented l (hex b) = B "Length:" ++ t.
Proof. intros [H _]. destruct (H b) as (t & ->). destruct l as [n|]; cbn [indented]; [rewrite flat_map_app; eexists; reflexivity | eauto]. Qed.
Lemma is_name_char s : is_name s = true -> forallb name_char (bytes_of_string s) = true /\ (exists c t, bytes_of_string s = c :: t /\ letter c = true) /\
  bytes_of_string s <> B "true" /\ bytes_of_string s <> B "false".
Proof.
  unfold is_name, name_bytes. intros H. apply andb_prop in H as [H H2]. apply andb_prop in H as [H H1].
  destruct (bytes_of_string s) as [|c t] eqn:Q; [discriminate|]. apply andb_prop in H as [Hc H].
  repeat split; [exact H | eauto | intros Z; rewrite Z in H1; discriminate | intros Z; rewrite Z in H2; discriminate].
Qed.
Lemma letter_class c : letter c = true -> class_of c = 4.
Proof.
  unfold letter, class_of. intros H. destruct ((48 <=? c) && (c <=? 57)) eqn:?; [lia|]. change (ch """") with 34. change (ch "[") with 91. change (ch "{") with 123.
  destruct (c =? 34) eqn:?; [lia|]. destruct (c =? 91) eqn:?; [lia|]. destruct (c =? 123) eqn:?; [lia|]. unfold letter. rewrite H. reflexivity.
Qed.
Lemma named_text hex l d : dump_ok hex -> nice d = true -> class d = 4 ->
  dbg_text hex l d = head_name d ++ after_name hex l d /\ forallb name_char (head_name d) = true /\ exists c t, head_name d = c :: t /\ letter c = true.
Proof.
  intros D Ni C. destruct d as [n|b|s|s|b|s|s fs|s fs|ds|es]; try discriminate C; cbn [head_name after_name]; cbn [nice] in Ni.
  - destruct b; cbn; repeat split; eexists _, _; split; reflexivity.
  - cbn [dbg_text]. destruct (hex_form hex l b D) as (t & ->). repeat split; eexists _, _; split; reflexivity.
  - destruct (is_name_char _ Ni) as (A & X & _). rewrite app_nil_r. auto.
  - destruct fs; [rewrite andb_false_r in Ni; discriminate|]. apply andb_prop in Ni as [Ni _]. apply andb_prop in Ni as [Ni _]. destruct (is_name_char _ Ni) as (A & X & _). split; [reflexivity|]. auto.
  - destruct fs; [rewrite andb_false_r in Ni; discriminate|]. apply andb_prop in Ni as [Ni _]. apply andb_prop in Ni as [Ni _]. destruct (is_name_char _ Ni) as (A & X & _). split; [reflexivity|]. auto.
Qed.
Lemma text_class hex l d : dump_ok hex -> nice d = true -> exists c t, dbg_text hex l d = c :: t /\ class_of c = class d.
Proof.
  intros D Ni. destruct (class d) eqn:C.
  - destruct d; try discriminate C. destruct (digits_name n) as [_ (c & t & E & R)]. exists c, t. split; [exact E|]. unfold class_of. replace ((48 <=? c) && (c <=? 57)) with true by lia. reflexivity.
  - rewrite <- C. destruct (N.eq_dec (class d) 4) as [C4|C4].
    + destruct (named_text hex l d D Ni C4) as (E & _ & c & t & Eh & L). rewrite E, Eh. exists c, (t ++ after_name hex l d). split; [reflexivity|]. rewrite C4. apply letter_class. exact L.
    + destruct d; try discriminate C; cbn [class] in C4; try congruence; eexists _, _; split; reflexivity.
Qed.
Lemma class_starts c t : class_of c < 5 -> starts_item (c :: t).
Proof. intros H I. cbn in I. repeat (destruct I as [<- | I]; [vm_compute in H; discriminate|]). exact I. Qed.
Lemma text_starts hex l d : dump_ok hex -> nice d = true -> starts_item (dbg_text hex l d).
Proof. intros D Ni. destruct (text_class hex l d D Ni) as (c & t & -> & E). apply class_starts. rewrite E. destruct d; cbn; lia. Qed.

Lemma string_bytes_inj s : forall s', bytes_of_string s = bytes_of_string s' -> s = s'.
Proof.
  intros s' E. rewrite <- (string_of_list_ascii_of_string s), <- (string_of_list_ascii_of_string s'). f_equal. unfold bytes_of_string in E.
  revert E. generalize (list_ascii_of_string s), (list_ascii_of_string s'). induction l as [|a l IH]; intros [|a' l'] E; try discriminate; [reflexivity|].
  cbn in E. injection E as E1 E2. f_equal; [|auto]. rewrite <- (ascii_N_embedding a), <- (ascii_N_embedding a'). congruence.
Qed.

Lemma after_stop hex l d r : dump_ok hex -> ends r -> match after_name hex l d ++ r with [] => True | c :: _ => name_char c = false end.
Proof.
  intros D R. destruct d as [n|b|s|s|b|s|s [|f fs]|s [|f fs]|ds|es]; cbn [after_name app]; try (apply ends_stop; exact R); try reflexivity.
  destruct (hex_form hex l b D) as (t & ->). reflexivity.
Qed.
Lemma named_tell hex l d d' r r' : dump_ok hex -> nice d = true -> nice d' = true -> class d = 4 -> class d' = 4 -> ends r -> ends r' ->
  dbg_text hex l d ++ r = dbg_text hex l d' ++ r' -> head_name d = head_name d' /\ after_name hex l d ++ r = after_name hex l d' ++ r'.
Proof.
  intros D Ni Ni' C C' R R' E. destruct (named_text hex l d D Ni C) as (T & H & _). destruct (named_text hex l d' D Ni' C') as (T' & H' & _).
  rewrite T, T', <- !app_assoc in E. eapply names_tell; [exact H | exact H' | apply after_stop; assumption | apply after_stop; assumption | exact E].
Qed.
Lemma ends_not r c t : ends r -> r = c :: t -> In c [ch "("; ch ":"] \/ (c = ch " " /\ exists t', t = ch "{" :: t') -> False.
Proof.
  intros R -> H. cbn in R, H.
  destruct H as [[<-|[<-|[]]]|[-> (t' & ->)]]; cbn in R; repeat destruct R as [R|R]; try discriminate; try (destruct R as [R (t2 & R2)]; discriminate); exact R.
Qed.

(* The text tells the value, whatever follows it. *)
Lemma text_tells hex (D : dump_ok hex) : forall d d' l r r', nice d = true -> nice d' = true -> ends r -> ends r' ->
  dbg_text hex l d ++ r = dbg_text hex l d' ++ r' -> norm d = norm d' /\ r = r'.
Proof.
  induction d as [n|b|s|s|b|s|s fs IH|s fs IH|ds IH|es IH] using dbg_induct; intros d' l r r' Ni Ni' R R' E;
    match type of E with dbg_text _ _ ?d ++ _ = _ =>
      assert (K : class d = class d') by
        (destruct (text_class hex l d D Ni) as (c & t & Q & Qc), (text_class hex l d' D Ni') as (c' & t' & Q' & Qc'); rewrite Q, Q' in E; cbn [app] in E; injection E as <- _; congruence) end.
  - destruct d'; try discriminate K. cbn [dbg_text] in E. destruct (dec_tells _ _ _ _ (ends_stop _ R) (ends_stop _ R') E) as [-> ->]. auto.
  - destruct (named_tell hex l _ _ r r' D Ni Ni' eq_refl (eq_sym K) R R' E) as [Eh Ea].
    destruct d' as [n'|b'|s'|s'|b'|s'|s' [|f' fs']|s' [|f' fs']|ds'|es']; try discriminate K; cbn [head_name after_name app] in *; cbn [nice] in Ni'; try (rewrite andb_false_r in Ni'; discriminate Ni').
    + destruct b, b'; try discriminate; auto.
    + destruct (hex_form hex l b' D) as (t & Q). rewrite Q in Ea. exfalso. eapply (ends_not r); [exact R | exact Ea | left; cbn; tauto].
    + destruct (is_name_char _ Ni') as (_ & _ & N1 & N2). destruct b; congruence.
    + exfalso. eapply (ends_not r); [exact R | exact Ea | left; cbn; tauto].
    + exfalso. eapply (ends_not r); [exact R | exact Ea | right; split; [reflexivity | eexists; reflexivity]].
  - cbn [nice] in Ni. destruct d' as [n'|b'|s'|s'|b'|s'|s' fs'|s' fs'|ds'|es']; try discriminate K; cbn [nice] in Ni'; destruct (quoted_tells _ _ _ _ Ni Ni' E) as [Q ->]; cbn [norm]; rewrite Q; auto.
  - cbn [nice] in Ni. destruct d' as [n'|b'|s'|s'|b'|s'|s' fs'|s' fs'|ds'|es']; try discriminate K; cbn [nice] in Ni'; destruct (quoted_tells _ _ _ _ Ni Ni' E) as [Q ->]; cbn [norm]; rewrite Q; auto.
  - destruct (named_tell hex l _ _ r r' D Ni Ni' eq_refl (eq_sym K) R R' E) as [Eh Ea].
    destruct d' as [n'|b'|s'|s'|b'|s'|s' [|f' fs']|s' [|f' fs']|ds'|es']; try discriminate K; cbn [nice] in Ni, Ni'; try (rewrite andb_false_r in Ni'; discriminate Ni').
    2: { cbn [dbg_text] in E. destruct (dump_tells _ _ _ _ _ _ D (proj1 (all_u8_iff _) Ni) (proj1 (all_u8_iff _) Ni') E) as [-> ->]. auto. }
    all: exfalso; cbn [head_name after_name] in Ea; destruct (hex_form hex l b D) as (t & Q); rewrite Q in Ea; try discriminate Ea.
    all: symmetry in Ea; eapply (ends_not r'); [exact R' | exact Ea | left; cbn; tauto].
  - destruct (named_tell hex l _ _ r r' D Ni Ni' eq_refl (eq_sym K) R R' E) as [Eh Ea]. cbn [nice] in Ni.
    destruct d' as [n'|b'|s'|s'|b'|s'|s' [|f' fs']|s' [|f' fs']|ds'|es']; try discriminate K; cbn [head_name after_name app] in *; cbn [nice] in Ni'; try (rewrite andb_false_r in Ni'; discriminate Ni').
    + destruct (is_name_char _ Ni) as (_ & _ & N1 & N2). destruct b'; congruence.
    + destruct (hex_form hex l b' D) as (t & Q). rewrite Q in Ea. exfalso. eapply (ends_not r); [exact R | exact Ea | left; cbn; tauto].
    + apply string_bytes_inj in Eh as ->. auto.
    + exfalso. eapply (ends_not r); [exact R | exact Ea | left; cbn; tauto].
    + exfalso. eapply (ends_not r); [exact R | exact Ea | right; split; [reflexivity | eexists; reflexivity]].
  - destruct (named_tell hex l _ _ r r' D Ni Ni' eq_refl (eq_sym K) R R' E) as [Eh Ea]. cbn [nice] in Ni. destruct fs as [|f fs]; [rewrite andb_false_r in Ni; discriminate Ni|].
    destruct d' as [n'|b'|s'|s'|b'|s'|s' [|f' fs']|s' [|f' fs']|ds'|es']; try discriminate K; cbn [head_name after_name app] in *; cbn [nice] in Ni'; try (rewrite andb_false_r in Ni'; discriminate Ni').
    + exfalso. symmetry in Ea. eapply (ends_not r'); [exact R' | exact Ea | left; cbn; tauto].
    + destruct (hex_form hex l b' D) as (t & Q). rewrite Q in Ea. discriminate.
    + exfalso. symmetry in Ea. eapply (ends_not r'); [exact R' | exact Ea | left; cbn; tauto].
    + apply string_bytes_inj in Eh as ->. apply (f_equal (@tl N)) in Ea. cbn [tl] in Ea. rewrite <- !app_assoc in Ea. cbn [app] in Ea.
      apply andb_prop in Ni as [_ Ni]. apply andb_prop in Ni' as [_ Ni']. rewrite forallb_forall in Ni, Ni'. rewrite Forall_forall in IH.
      eapply (items_tell _ norm) in Ea as [M ->]; [cbn [norm]; rewrite M; auto | left; cbn; tauto | | ].
      * intros x y q q' X Y Q Q' EE. eapply IH; eauto.
      * intros x [X|X]; apply text_starts; auto.
    + discriminate.
  - destruct (named_tell hex l _ _ r r' D Ni Ni' eq_refl (eq_sym K) R R' E) as [Eh Ea]. cbn [nice] in Ni. destruct fs as [|f fs]; [rewrite andb_false_r in Ni; discriminate Ni|].
    destruct d' as [n'|b'|s'|s'|b'|s'|s' [|f' fs']|s' [|f' fs']|ds'|es']; try discriminate K; cbn [head_name after_name app] in *; cbn [nice] in Ni'; try (rewrite andb_false_r in Ni'; discriminate Ni').
    + exfalso. symmetry in Ea. eapply (ends_not r'); [exact R' | exact Ea | right; split; [reflexivity | eexists; reflexivity]].
    + destruct (hex_form hex l b' D) as (t & Q). rewrite Q in Ea. discriminate.
    + exfalso. symmetry in Ea. eapply (ends_not r'); [exact R' | exact Ea | right; split; [reflexivity | eexists; reflexivity]].
    + discriminate.
    + apply string_bytes_inj in Eh as ->. apply (f_equal (fun s => tl (tl s))) in Ea. cbn [tl] in Ea. rewrite <- !app_assoc in Ea. cbn [app] in Ea.
      apply andb_prop in Ni as [_ Ni]. apply andb_prop in Ni' as [_ Ni']. rewrite forallb_forall in Ni, Ni'. rewrite Forall_forall in IH.
      eapply (items_tell _ (fun f => (fst f, norm (snd f)))) in Ea as [M ->]; [cbn [norm]; rewrite M; auto | right; auto | | ].
      * intros x y q q' X Y Q Q' EE. specialize (Ni _ X). specialize (Ni' _ Y). cbv beta in Ni, Ni'. apply andb_prop in Ni as [N1 N2]. apply andb_prop in Ni' as [N1' N2'].
        rewrite <- !app_assoc in EE. apply names_tell in EE as [En EE]; [|apply is_name_char; assumption .. | reflexivity | reflexivity].
        apply string_bytes_inj in En. injection EE as EE. destruct (IH x X _ _ _ _ N2 N2' Q Q' EE) as [-> ->]. rewrite En. auto.
      * intros x X. assert (N1 : is_name (fst x) = true).
        { destruct X as [X|X]; [specialize (Ni _ X); cbv beta in Ni; apply andb_prop in Ni; tauto | specialize (Ni' _ X); cbv beta in Ni'; apply andb_prop in Ni'; tauto]. }
        destruct (is_name_char _ N1) as (_ & (c & t & -> & L) & _). apply class_starts. rewrite (letter_class _ L). lia.
  - destruct d' as [n'|b'|s'|s'|b'|s'|s' fs'|s' fs'|ds'|es']; try discriminate K. cbn [nice] in Ni, Ni'. cbn [dbg_text app] in E. apply (f_equal (@tl N)) in E as Ea. cbn [tl] in Ea. rewrite <- !app_assoc in Ea. cbn [app] in Ea.
    rewrite forallb_forall in Ni, Ni'. rewrite Forall_forall in IH.
    eapply (items_tell _ norm) in Ea as [M ->]; [cbn [norm]; rewrite M; auto | left; cbn; tauto | | ].
    + intros x y q q' X Y Q Q' EE. eapply IH; eauto.
    + intros x [X|X]; apply text_starts; auto.
  - destruct d' as [n'|b'|s'|s'|b'|s'|s' fs'|s' fs'|ds'|es']; try discriminate K. cbn [nice] in Ni, Ni'. cbn [dbg_text app] in E. apply (f_equal (@tl N)) in E as Ea. cbn [tl] in Ea. rewrite <- !app_assoc in Ea. cbn [app] in Ea.
    rewrite forallb_forall in Ni, Ni'. rewrite Forall_forall in IH.
    eapply (items_tell _ (fun e => (fst e, norm (snd e)))) in Ea as [M ->]; [cbn [norm]; rewrite M; auto | left; cbn; tauto | | ].
    + intros x y q q' X Y Q Q' EE. specialize (Ni _ X). specialize (Ni' _ Y). cbv beta in Ni, Ni'. rewrite <- !app_assoc in EE.
      apply dec_tells in EE as [En EE]; [| reflexivity | reflexivity]. injection EE as EE. destruct (IH x X _ _ _ _ Ni Ni' Q Q' EE) as [-> ->]. rewrite En. auto.
    + intros x X. destruct (digits_name (fst x)) as [_ (c & t & -> & L)]. apply class_starts. unfold class_of. replace ((48 <=? c) && (c <=? 57)) with true by lia. lia.
Qed.
