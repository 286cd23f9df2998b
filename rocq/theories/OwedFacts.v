(* OwedFacts.v: what a connection in any state still owes its reader (for C45 and C04). *)
From Verif Require Import Base BaseFacts Pkt SpecPkt PktFacts DecodeFacts Tokio ConnFacts SpecConn.
From Coq Require Import ZifyBool ZifyNat ZifyN.
Ltac Zify.zify_post_hook ::= Z.div_mod_to_equations.

(* ---- what a connection in any state still owes ---- *)
Inductive outs : bytes -> list rd -> list outcome -> bytes -> Prop :=
| O_pkt b p rest q os left : decode b = Ok (Some p, rest) -> outs rest q os left -> outs b q (Packet p :: os) left
| O_nil b : decode b = Ok (None, b) -> outs b [] [] b
| O_data b c q os left : decode b = Ok (None, b) -> outs (b ++ c) q os left -> outs b (RData c :: q) os left
| O_err b e q os left : decode b = Ok (None, b) -> outs b q os left -> outs b (RErr e :: q) (Error e :: End :: os) left.

Lemma outs_drain b ps l : drains b ps l -> forall q os left, outs l q os left -> outs b q (map Packet ps ++ os) left.
Proof. induction 1 as [b E|b p rest ps l E D IH]; intros q os left O; cbn; [exact O | eapply O_pkt; eauto]. Qed.
Lemma outs_left b q os left : outs b q os left -> decode left = Ok (None, left).
Proof. induction 1; auto. Qed.
Lemma outs_snoc_data b q os left c ps l : outs b q os left -> drains (left ++ c) ps l ->
  outs b (q ++ [RData c]) (os ++ map Packet ps) l.
Proof.
  induction 1 as [b p rest q os left E O IH|b E|b x q os left E O IH|b e q os left E O IH]; intros D; cbn.
  - eapply O_pkt; eauto.
  - apply O_data; [exact E|]. rewrite <- (app_nil_r (map Packet ps)). eapply outs_drain; [exact D|].
    apply O_nil. eapply drains_left; eauto.
  - apply O_data; auto.
  - apply O_err; auto.
Qed.
Lemma outs_snoc_err b q os left e : outs b q os left -> outs b (q ++ [RErr e]) (os ++ [Error e; End]) left.
Proof.
  induction 1 as [b p rest q os left E O IH|b E|b x q os left E O IH|b e' q os left E O IH]; cbn.
  - eapply O_pkt; eauto.
  - apply O_err; auto. apply O_nil; auto.
  - apply O_data; auto.
  - apply O_err; auto.
Qed.
Lemma outs_none b q os left : decode b = Ok (None, b) -> outs b q os left ->
  match q with
  | [] => os = [] /\ left = b
  | RData c :: q' => outs (b ++ c) q' os left
  | RErr e :: q' => exists os', os = Error e :: End :: os' /\ outs b q' os' left
  end.
Proof. intros E O. inversion O; subst; try congruence; eauto. Qed.
Lemma outs_some b p rest q os left : decode b = Ok (Some p, rest) -> outs b q os left ->
  exists os', os = Packet p :: os' /\ outs rest q os' left.
Proof. intros E O. inversion O; subst; try congruence. rewrite H in E. injection E as -> ->. eauto. Qed.

Definition rest_error (closed : bool) (left : bytes) : list outcome :=
  if closed then match left with [] => [] | _ :: _ => [Error "bytes remaining on stream"] end else [].

Definition fut (c : conn) (left : bytes) (fin : list outcome) : Prop :=
  exists os, outs (rbuf c) (rq c) os left /\
  Forall (fun r => r <> RData []) (rq c) /\
  (c_eof c = true -> peer_closed c = true /\ rq c = []) /\
  fin = (if has_errored c && negb (c_eof c) then [End] else []) ++ os ++
        (if c_eof c && (negb (is_readable c) || has_errored c) then [] else rest_error (peer_closed c) left).

Lemma fut_step c c' r : nexts c c' r -> cinv c -> forall left fin, fut c left fin ->
  match fin with
  | [] => r = (if peer_closed c then ready_of End else Pending) /\ fut c' left []
  | o :: fin' => r = ready_of o /\ fut c' left fin'
  end.
Proof.
  induction 1 as [c HE|c p rest HE HR HD|c HE HR EE EB|c HE HR EE EB HD|c HE HR HD EQ EP|c e q HE HR HD EQ|
    c q HE HR EE HD HZ|c q c' r HE EE HD HZ X IH|c x b q c' r HE HR HD EQ X IH];
    intros CI left fin (os & O & NE & EF & ->).
  - (* errored *)
    pose proof CI as (_ & _ & ID). specialize (ID (or_intror HE)).
    rewrite HE. destruct (c_eof c) eqn:EE; cbn [negb andb orb app].
    + rewrite orb_true_r. destruct (EF eq_refl) as [EP EQ]. rewrite EQ in O. apply outs_none in O as [-> ->]; [|exact ID].
      cbn [app]. rewrite EP. split; [reflexivity|]. exists []. rewrite EQ. cbn.
      repeat split; auto. apply O_nil; exact ID.
    + split; [reflexivity|]. exists os. cbn. repeat split; auto; try discriminate.
  - (* packet *)
    destruct (outs_some _ _ _ _ _ _ HD O) as (os' & -> & O'). rewrite HE, HR. cbn [negb orb andb app].
    rewrite andb_false_r. split; [reflexivity|]. exists os'. cbn. rewrite andb_false_r. repeat split; auto; apply EF; auto.
  - (* clean end *)
    destruct (EF EE) as [EP EQ]. rewrite EQ, EB in O.
    apply outs_none in O as [-> ->]; [|reflexivity]. rewrite HE, HR, EE, EP. cbn.
    split; [reflexivity|]. exists []. rewrite EQ. cbn. rewrite EP. repeat split; auto. apply O_nil. reflexivity.
  - (* incomplete packet at the end *)
    destruct (EF EE) as [EP EQ]. rewrite EQ in O. apply outs_none in O as [-> ->]; [|exact HD].
    rewrite HE, HR, EE, EP. cbn [negb orb andb app rest_error]. destruct (rbuf c) as [|x b] eqn:EB2; [congruence|].
    split; [reflexivity|]. exists []. rewrite EQ. cbn. rewrite ?EP. repeat split; auto. apply O_nil. exact HD.
  - (* pending *)
    assert (EE : c_eof c = false) by (destruct (c_eof c); auto; destruct (EF eq_refl); congruence).
    rewrite EQ in O. apply outs_none in O as [-> ->]; [|exact HD]. rewrite HE, EE, EP. cbn.
    split; [reflexivity|]. exists []. cbn. rewrite EP. repeat split; auto; try discriminate. apply O_nil. exact HD.
  - (* read error *)
    assert (EE : c_eof c = false) by (destruct (c_eof c); auto; destruct (EF eq_refl); congruence).
    rewrite EQ in O, NE. apply (outs_none _ _ _ _ HD) in O as (os' & -> & O). rewrite HE, EE. cbn [negb orb andb app].
    split; [reflexivity|]. inversion NE; subst. exists os'. cbn. repeat split; auto; try discriminate.
  - (* eof again *)
    destruct (EF EE) as [EP EQ]. rewrite EQ in O. apply outs_none in O as [-> ->]; [|exact HD].
    rewrite HE, HR, EE, EP. cbn. split; [reflexivity|].
    assert (q = []) as -> by (destruct HZ as [HZ|(_ & _ & HZ)]; congruence).
    exists []. cbn. repeat split; auto. apply O_nil; exact HD.
  - (* first eof *)
    assert (q = [] /\ rq c = [] /\ peer_closed c = true) as (-> & EQ & EP).
    { destruct HZ as [HZ|(H1 & H2 & H3)]; [|auto]. rewrite HZ in NE. inversion NE; congruence. }
    apply IH.
    + destruct CI as (U & _ & _). apply cinv_readable; [exact U | constructor].
    + rewrite EQ in O. exists os. cbn. rewrite HE, EE, EP. cbn. repeat split; auto.
  - (* data *)
    assert (EE : c_eof c = false) by (destruct (c_eof c); auto; destruct (EF eq_refl); congruence).
    rewrite EQ in O, NE. apply (outs_none _ _ _ _ HD) in O. inversion NE; subst.
    apply IH.
    + destruct CI as (U & Q & _). rewrite EQ in Q. inversion Q; subst. apply cinv_readable; [apply u8s_app; auto | auto].
    + exists os. cbn. rewrite HE, EE. cbn. repeat split; auto; try discriminate.
Qed.

Lemma owed_fun b a os left : owed b a os left -> forall os' left', owed b a os' left' -> os = os' /\ left = left'.
Proof.
  induction 1 as [b|b c ps l a os left D O IH|b e a os left O IH]; intros os' left' O'; inversion O'; subst; auto.
  - match goal with H : drain _ = _ |- _ => rewrite H in D end. injection D as -> ->.
    match goal with H : owed _ _ _ _ |- _ => apply IH in H as [-> ->] end. auto.
  - match goal with H : owed _ a _ _ |- _ => apply IH in H as [-> ->] end. auto.
Qed.
Lemma owed_total a : Forall arrival_ok a -> forall b, u8s b -> exists os left, owed b a os left /\ u8s left.
Proof.
  induction 1 as [|[c|e|] a Ha HA IH]; intros b U.
  - exists [], b. split; [constructor | exact U].
  - destruct Ha as [_ Hc]. assert (U2 : u8s (b ++ c)) by (apply u8s_app; auto).
    destruct (drain_total _ U2) as (ps & l & E & D). destruct (IH l (drains_u8s _ _ _ D U2)) as (os & left & O & UL).
    eexists _, _. split; [eapply Owed_bytes; eauto | exact UL].
  - destruct (IH b U) as (os & left & O & UL). eexists _, _. split; [constructor; exact O | exact UL].
  - destruct Ha.
Qed.
Lemma owed_snoc_bytes b a os left c ps l : owed b a os left -> drain (left ++ c) = Ok (ps, l) ->
  owed b (a ++ [Bytes c]) (os ++ map Packet ps) l.
Proof.
  induction 1 as [b|b x ps' l' a os left D O IH|b e a os left O IH]; intros D'; cbn.
  - rewrite <- (app_nil_r (map Packet ps)). eapply Owed_bytes; [exact D' | constructor].
  - rewrite <- app_assoc. eapply Owed_bytes; eauto.
  - constructor. auto.
Qed.
Lemma owed_snoc_error b a os left e : owed b a os left -> owed b (a ++ [ReadError e]) (os ++ [Error e; End]) left.
Proof.
  induction 1 as [b|b x ps' l' a os left D O IH|b e' a os left O IH]; cbn.
  - constructor. constructor.
  - rewrite <- app_assoc. eapply Owed_bytes; eauto.
  - constructor. auto.
Qed.

(* The state of a fresh connection after a history with arrivals a (closed: then the peer closed), having answered k times. *)
Definition after (c : conn) (a : list arrival) (closed : bool) (k : nat) : Prop :=
  cinv c /\ peer_closed c = closed /\
  exists os left, owed [] a os left /\ u8s left /\
    (closed = false -> (k <= length os)%nat) /\ fut c left (skipn k (os ++ rest_error closed left)).

Lemma after_new : after conn_new [] false 0.
Proof.
  split; [exact conn_new_inv|]. split; [reflexivity|]. exists [], []. split; [constructor|]. split; [constructor|].
  split; [auto|]. exists []. cbn. repeat split; auto; try discriminate. apply O_nil. reflexivity.
Qed.
Lemma drop_app {A} k (l m : list A) : (k <= length l)%nat -> skipn k (l ++ m) = skipn k l ++ m.
Proof. apply skipn_app_l. Qed.

(* outs is a function of its inputs *)
Lemma outs_fun b q os left : outs b q os left -> forall os' left', outs b q os' left' -> os = os' /\ left = left'.
Proof.
  induction 1 as [b p rest q os left E O IH|b E|b x q os left E O IH|b e' q os left E O IH]; intros os' left' O'.
  - destruct (outs_some _ _ _ _ _ _ E O') as (os1 & -> & O1). apply IH in O1 as [-> ->]. auto.
  - apply (outs_none _ _ _ _ E) in O' as [-> ->]. auto.
  - apply (outs_none _ _ _ _ E) in O'. auto.
  - apply (outs_none _ _ _ _ E) in O' as (os1 & -> & O1). apply IH in O1 as [-> ->]. auto.
Qed.

Lemma after_arrive c a closed k x : after c a closed k -> closed = false -> arrival_ok x -> after (arrive c x) (a ++ [x]) false k.
Proof.
  intros (CI & EP & os & left & O & UL & K & os1 & O1 & NE & EF & E) -> HX. specialize (K eq_refl).
  assert (EE : c_eof c = false) by (destruct (c_eof c); auto; destruct (EF eq_refl); congruence).
  assert (X : forall r more l, rq (arrive c x) = rq c ++ [r] -> r <> RData [] -> peer_closed (arrive c x) = false ->
    owed [] (a ++ [x]) (os ++ more) l -> u8s l -> outs (rbuf c) (rq c ++ [r]) (os1 ++ more) l -> arrival_u8 x ->
    after (arrive c x) (a ++ [x]) false k).
  { intros r more l Eq Hr Ec Ho Ul O2 Hx. split; [apply arrive_inv; auto|]. split; [exact Ec|].
    exists (os ++ more), l. split; [exact Ho|]. split; [exact Ul|]. split; [rewrite app_length; lia|].
    exists (os1 ++ more). rewrite Eq. split; [exact O2|].
    split; [apply Forall_app; split; [exact NE | constructor; auto]|].
    cbn [arrive c_eof has_errored rbuf is_readable]. rewrite EE. split; [discriminate|].
    cbn [rest_error andb negb] in *. rewrite EE, EP in E. cbn [rest_error andb negb] in E. rewrite andb_true_r in E |- *. rewrite Ec.
    cbn [rest_error]. rewrite !app_nil_r in *. rewrite drop_app by exact K. rewrite E, app_assoc. reflexivity. }
  destruct x as [b|e|]; [| |destruct HX].
  - destruct HX as [Hne Ub]. assert (U2 : u8s (left ++ b)) by (apply u8s_app; auto).
    destruct (drain_total _ U2) as (ps & l & ED & D).
    apply (X (RData b) (map Packet ps) l); auto.
    + congruence.
    + eapply owed_snoc_bytes; eauto.
    + eapply drains_u8s; eauto.
    + eapply outs_snoc_data; eauto.
  - apply (X (RErr e) [Error e; End] left); auto; [discriminate | apply owed_snoc_error; auto | apply outs_snoc_err; auto].
Qed.
Lemma after_close c a k : after c a false k -> after (arrive c PeerClose) a true k.
Proof.
  intros (CI & EP & os & left & O & UL & K & os1 & O1 & NE & EF & E). specialize (K eq_refl).
  assert (EE : c_eof c = false) by (destruct (c_eof c); auto; destruct (EF eq_refl); congruence).
  split; [apply arrive_inv; [auto | exact I]|]. split; [reflexivity|]. exists os, left.
  split; [exact O|]. split; [exact UL|]. split; [discriminate|].
  exists os1. cbn [arrive rbuf rq c_eof has_errored is_readable peer_closed]. rewrite EE in *. split; [exact O1|].
  split; [exact NE|]. split; [discriminate|]. rewrite EP in E. cbn [rest_error andb negb] in E |- *.
  rewrite andb_true_r in *. rewrite !app_nil_r in E. rewrite drop_app by exact K. rewrite E, app_assoc. reflexivity.
Qed.
Lemma nth_error_nil {A} k : nth_error (@nil A) k = None.
Proof. destruct k; reflexivity. Qed.
Lemma skipn_nth {A} (l : list A) k : skipn k l = match nth_error l k with Some x => x :: skipn (S k) l | None => [] end.
Proof. revert k; induction l as [|y l IH]; intros [|k]; cbn; auto. rewrite IH. destruct l; reflexivity. Qed.
Lemma after_poll c a closed k : after c a closed k -> exists os left c' r, owed [] a os left /\ conn_poll_next c = Ok (c', r) /\ r = answer os left closed k /\ after c' a closed (if is_ready r then S k else k).
Proof.
  intros (CI & EP & os & left & O & UL & K & F). destruct (conn_next_total c CI) as (c' & r & EN & X).
  exists os, left, c', r. split; [exact O|]. split; [exact EN|].
  pose proof (fut_step c c' r X CI _ _ F) as S. rewrite skipn_nth in S.
  pose proof (nexts_inv _ _ _ X CI) as CI'. destruct (nexts_same_write _ _ _ X) as (_ & _ & _ & EP').
  assert (R : r = answer os left closed k /\ fut c' left (skipn (if is_ready r then Datatypes.S k else k) (os ++ rest_error closed left)) /\    (closed = false -> ((if is_ready r then Datatypes.S k else k) <= length os)%nat)).
  { unfold answer. destruct (nth_error os k) as [o|] eqn:EO.
    - assert (L : (k < length os)%nat) by (apply nth_error_Some; congruence).
      rewrite nth_error_app1, EO in S by exact L. destruct S as [-> S].
      split; [reflexivity|]. replace (is_ready (ready_of o)) with true by (destruct o; reflexivity). split; [exact S | lia].
    - apply nth_error_None in EO. rewrite nth_error_app2 in S by exact EO.
      unfold rest_error in S |- *. rewrite EP in *. destruct closed.
      + destruct left as [|x b].
        * destruct (k - length os)%nat; cbn [nth_error] in S; destruct S as [-> S]; (split; [reflexivity|]); (split; [|discriminate]);
          cbn [is_ready ready_of]; rewrite skipn_all2 by (rewrite app_nil_r; lia); exact S.
        * destruct (Nat.eqb_spec k (length os)) as [->|Hk].
          -- rewrite Nat.sub_diag in S. cbn [nth_error] in S. destruct S as [-> S]. split; [reflexivity|]. split; [exact S | discriminate].
          -- destruct (k - length os)%nat as [|n] eqn:EK; [lia|]. cbn [nth_error] in S. rewrite nth_error_nil in S.
             destruct S as [-> S]. split; [reflexivity|]. split; [|discriminate]. cbn [is_ready ready_of].
             rewrite skipn_all2 by (rewrite app_length; cbn; lia). exact S.
      + rewrite nth_error_nil in S. destruct S as [-> S]. split; [reflexivity|]. cbn [is_ready]. split; [|auto].
        rewrite skipn_all2 by (rewrite app_nil_r; lia). exact S. }
  destruct R as (-> & F' & K'). split; [reflexivity|]. split; [exact CI'|]. split; [congruence|].
  exists os, left. auto.
Qed.

Lemma crun_after h : forall c a closed k, after c a closed k -> closed = false ->
  Forall arrival_ok (arrivals h) ->
  exists c' rs, crun c h = Ok (c', rs) /\ after c' (a ++ arrivals h) false (k + ready_count rs).
Proof.
  induction h as [|[x|] h IH]; intros c a closed k A -> HA; cbn [crun arrivals flat_map app] in *.
  - exists c, []. rewrite app_nil_r, Nat.add_0_r. auto.
  - inversion HA; subst. destruct (IH _ _ _ _ (after_arrive _ _ _ _ x A eq_refl H1) eq_refl H2) as (c' & rs & E & A').
    exists c', rs. rewrite <- app_assoc in A'. auto.
  - destruct (after_poll _ _ _ _ A) as (os & left & c1 & r & _ & E & _ & A1). rewrite E. cbn [bind].
    destruct (IH _ _ _ _ A1 eq_refl HA) as (c' & rs & -> & A'). cbn [bind]. exists c', (r :: rs). split; [reflexivity|].
    unfold ready_count in *. cbn [filter]. destruct (is_ready r); cbn [length] in *; [|exact A'].
    rewrite Nat.add_succ_r. exact A'.
Qed.
Lemma polls_after n : forall c a closed k, after c a closed k ->
  exists c' rs, crun c (repeat CPoll n) = Ok (c', rs) /\ after c' a closed (k + ready_count rs).
Proof.
  induction n as [|n IH]; intros c a closed k A; cbn [repeat crun].
  - exists c, []. rewrite Nat.add_0_r. auto.
  - destruct (after_poll _ _ _ _ A) as (os & left & c1 & r & _ & E & _ & A1). rewrite E. cbn [bind].
    destruct (IH _ _ _ _ A1) as (c' & rs & -> & A'). cbn [bind]. exists c', (r :: rs). split; [reflexivity|].
    unfold ready_count in *. cbn [filter]. destruct (is_ready r); cbn [length] in *; [|exact A'].
    rewrite Nat.add_succ_r. exact A'.
Qed.
Lemma crun_app h1 : forall c h2, crun c (h1 ++ h2) =
  ' (c1, r1) <- crun c h1 ;; ' (c2, r2) <- crun c1 h2 ;; Ok (c2, r1 ++ r2).
Proof.
  induction h1 as [|[x|] h1 IH]; intros c h2; cbn [crun app].
  - cbn [bind]. destruct (crun c h2) as [[c2 r2]|e|w]; reflexivity.
  - apply IH.
  - destruct (conn_poll_next c) as [[c1 r]|e|w]; cbn [bind]; [|reflexivity|reflexivity]. rewrite IH.
    destruct (crun c1 h1) as [[c2 r2]|e|w]; cbn [bind]; [|reflexivity|reflexivity].
    destruct (crun c2 h2) as [[c3 r3]|e|w]; reflexivity.
Qed.
