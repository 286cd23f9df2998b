(* PropQueue.v: property C74, the bridge when the broker is slow. *)
From Verif Require Import Base BaseFacts Pkt Msg State Serde Mqtt Queue SpecPkt SpecMsg SpecConn SpecState SpecMqtt RunFacts ExState PropMqtt MqttFacts.
From Coq Require Import ZifyBool ZifyNat ZifyN.
Ltac Zify.zify_post_hook ::= Z.div_mod_to_equations.

(* The inputs that inner saw. *)
Inductive subseq {A : Type} : list A -> list A -> Prop :=
| ss_nil : subseq [] []
| ss_keep x l l' : subseq l l' -> subseq (x :: l) (x :: l')
| ss_skip x l l' : subseq l l' -> subseq l (x :: l').
Definition q_in (is : list qinput) : list input := catMaybes (map (fun i => match i with QIn i => Some i | _ => None end) is).
(* what comes from the panel and the broker *)
Definition comes_in (i : input) : bool := match i with NetArrive _ | MqttArrive _ _ => true | _ => false end.
Definition q_ok (is : list qinput) : Prop := Forall input_ok (q_in is).
(* what the bridge has asked for, and the broker not yet got *)
Definition not_yet (s : qstate) : list action := q_chan s ++ q_todo s.

Lemma settle_log {A} log (o : out A) k : (forall l a, exists l', blog (k l a) = l ++ l') -> exists l, blog (settle log o k) = log ++ l.
Proof.
  intros H. destruct o as [l [a|e|w]]; cbn; eauto. destruct (H (log ++ l) a) as (l' & ->). rewrite <- app_assoc. eauto.
Qed.
Lemma flush_log ws u : blog (poll_send_flush ws u) = u_log u.
Proof. unfold poll_send_flush. destruct (poll_flush ws (u_panel u)) as [p [|[|]]]; reflexivity. Qed.
Lemma log_grows cl cfg b i : exists l, blog (bstep cl cfg b i) = blog b ++ l.
Proof.
  assert (Z : forall l : list action, exists l', l = l ++ l') by (intros l; exists []; symmetry; apply app_nil_r).
  destruct b as [st rx|u|log w]; cbn [bstep]; [| |apply Z].
  - destruct i; cbn [blog app]; eauto.
  - destruct i; cbn [blog u_log set_panel set_mode]; try apply Z.
    + destruct (u_mode u); cbn [blog]; try apply Z. destruct (poll_next now (u_panel u)) as [[[p [|[[e|e]|]]] r]|e|w]; cbn [blog set_panel u_log]; try apply Z.
      apply settle_log. intros l a. exists []. cbn. rewrite app_nil_r. reflexivity.
    + destruct (u_mode u), (u_rx u) as [|[t pl] rx]; cbn [blog]; try apply Z. destruct (requested _ _ _ _ _) as [[c|]|e|w]; cbn [blog u_log]; apply Z.
    + destruct (u_mode u) as [|c|]; cbn [blog]; try apply Z.
      * destruct (poll_ready TASK ws (u_panel u)) as [p [|[|e]]]; cbn [blog set_panel u_log]; try apply Z.
        destruct (start_send c p) as [p'|e|w]; cbn [blog]; try apply Z. rewrite flush_log. apply Z.
      * rewrite flush_log. apply Z.
Qed.
Lemma added_eq b b' l : blog b' = blog b ++ l -> added b b' = l.
Proof. unfold added. intros ->. rewrite skipn_app, skipn_all, Nat.sub_diag. reflexivity. Qed.
Lemma log_added cl cfg b i : blog (bstep cl cfg b i) = blog b ++ added b (bstep cl cfg b i).
Proof. destruct (log_grows cl cfg b i) as (l & E). rewrite (added_eq _ _ _ E). exact E. Qed.
Lemma arrival_log cl cfg b i : comes_in i = true -> blog (bstep cl cfg b i) = blog b.
Proof. destruct b, i; try discriminate; reflexivity. Qed.
Lemma subseq_refl {A} (l : list A) : subseq l l.
Proof. induction l; constructor; auto. Qed.
Lemma subseq_keep {A} (l l' : list A) x : subseq l l' -> subseq (l ++ [x]) (l' ++ [x]).
Proof. induction 1; cbn; [repeat constructor | constructor; auto ..]. Qed.
Lemma subseq_more {A} (l l' : list A) x : subseq l l' -> subseq l (l' ++ x).
Proof. induction 1; cbn; [|constructor; auto ..]. induction x; constructor; auto. Qed.
Lemma subseq_Forall {A} (P : A -> Prop) (l l' : list A) : subseq l l' -> Forall P l' -> Forall P l.
Proof. induction 1; intros H'; auto; inversion H'; subst; auto. Qed.
Lemma q_in_app is is' : q_in (is ++ is') = q_in is ++ q_in is'.
Proof. unfold q_in. rewrite map_app. induction is as [|[]]; cbn; auto. f_equal. auto. Qed.
Lemma qrun_snoc cl cfg is i : qrun cl cfg (is ++ [i]) = qstep cl cfg (qrun cl cfg is) i.
Proof. unfold qrun. rewrite fold_left_app. reflexivity. Qed.
Lemma qstep_in cl cfg s i : crashed s = false -> i <> MqttFail ->
  qstep cl cfg s (QIn i) =
  if comes_in i then mkQ (bstep cl cfg (q_inner s) i) (q_todo s) (q_chan s) (q_sent s)
  else match q_todo s with [] => mkQ (bstep cl cfg (q_inner s) i) (added (q_inner s) (bstep cl cfg (q_inner s) i)) (q_chan s) (q_sent s) | _ :: _ => s end.
Proof. intros C N. unfold qstep. rewrite C. destruct i; try contradiction; reflexivity. Qed.

(* ---- C74 ---- *)
(* Nothing is lost, invented, repeated or reordered while the process lives: what was sent, is in the channel, or is still to be put
   there is what the bridge of Mqtt.v, which never waits, asks for on the same inputs, except that it does not poll the panel and the
   commands while it waits (but sees all bytes and commands that arrived).  When the MQTT connection fails, what is left is cut off. *)
Theorem C74_same_requests : forall cl cfg is, let s := qrun cl cfg is in
  exists js cut, subseq js (q_in is) /\
    blog (brun cl cfg js) = q_sent s ++ q_chan s ++ q_todo s ++ cut /\
    (cut = [] /\ q_inner s = brun cl cfg js /\ (crashed s = false -> filter comes_in js = filter comes_in (q_in is)) \/
     In MqttFail (q_in is) /\ crashed s = true).
Proof.
  intros cl cfg is. induction is as [|i is IH] using rev_ind; cbv zeta in *.
  - exists [], []. split; [constructor|]. split; [reflexivity | left; auto].
  - rewrite qrun_snoc, q_in_app. set (s := qrun cl cfg is) in *. destruct IH as (js & cut & S & E & D).
    destruct (crashed s) eqn:C.
    { exists js, cut. unfold qstep. rewrite C. split; [apply subseq_more, S|]. split; [exact E|]. destruct D as [(D1 & D2 & _)|[D _]]; [left; split; [exact D1|]; split; [exact D2 | congruence] | right; split; [apply in_or_app; auto | exact C]]. }
    destruct D as [(-> & D & F0)|[_ D]]; [|discriminate]. specialize (F0 eq_refl).
    assert (K : forall s', filter comes_in (q_in [i]) = [] -> q_inner s' = q_inner s -> q_sent s' ++ q_chan s' ++ q_todo s' = q_sent s ++ q_chan s ++ q_todo s ->
      exists js0 cut, subseq js0 (q_in is ++ q_in [i]) /\ blog (brun cl cfg js0) = q_sent s' ++ q_chan s' ++ q_todo s' ++ cut /\ (cut = [] /\ q_inner s' = brun cl cfg js0 /\ (crashed s' = false -> filter comes_in js0 = filter comes_in (q_in is ++ q_in [i])) \/ In MqttFail (q_in is ++ q_in [i]) /\ crashed s' = true)).
    { intros s' X0 X1 X. exists js, []. split; [apply subseq_more, S|]. split; [rewrite app_nil_r in *; congruence|]. left. split; [reflexivity|]. split; [congruence|]. intros _. rewrite filter_app, X0, app_nil_r. exact F0. }
    destruct i as [i| |].
    + assert (Q : q_in [QIn i] = [i]) by reflexivity. destruct (match i with MqttFail => true | _ => false end) eqn:F.
      { destruct i; try discriminate. exists js, (q_todo s). unfold qstep. rewrite C. cbn [q_sent q_chan q_todo q_inner]. split; [apply subseq_more, S|].
        split; [rewrite app_nil_r in E; exact E|]. right. split; [apply in_or_app; right; left; reflexivity | reflexivity]. }
      rewrite qstep_in; [|exact C | intros ->; discriminate]. rewrite Q. destruct (comes_in i) eqn:CI; [|destruct (q_todo s) as [|a todo] eqn:T].
      * exists (js ++ [i]), []. cbn [q_sent q_chan q_todo q_inner]. split; [apply subseq_keep, S|]. rewrite brun_snoc, D. split; [rewrite arrival_log by exact CI; exact E|]. left. split; [reflexivity|]. split; [reflexivity|]. intros _. rewrite !filter_app, F0. reflexivity.
      * exists (js ++ [i]), []. cbn [q_sent q_chan q_todo q_inner]. split; [apply subseq_keep, S|]. rewrite brun_snoc, <- D. split; [rewrite log_added, D, E; cbn [app]; rewrite !app_nil_r, <- app_assoc; reflexivity|].
        left. split; [reflexivity|]. split; [reflexivity|]. intros _. rewrite !filter_app, F0. reflexivity.
      * exists js, []. split; [apply subseq_more, S|]. split; [rewrite T; exact E|]. left. split; [reflexivity|]. split; [exact D|]. intros _. rewrite filter_app. cbn [filter]. rewrite CI, app_nil_r. exact F0.
    + apply K; [reflexivity| |]; unfold qstep; rewrite C; destruct (q_todo s) as [|a todo] eqn:T; try destruct (_ <? _)%nat; cbn [q_sent q_chan q_todo q_inner]; try reflexivity; try (rewrite T; reflexivity).
      rewrite <- app_assoc. reflexivity.
    + apply K; [reflexivity| |]; unfold qstep; rewrite C; destruct (q_chan s) as [|a chan] eqn:T; cbn [q_sent q_chan q_todo q_inner]; try reflexivity; try (rewrite T; reflexivity).
      rewrite <- app_assoc. reflexivity.
Qed.
Theorem C74_at_most_ten : forall cl cfg is, (length (q_chan (qrun cl cfg is)) <= 10)%nat.
Proof.
  intros cl cfg is. induction is as [|i is IH] using rev_ind; [cbn; lia|]. rewrite qrun_snoc. set (s := qrun cl cfg is) in *. unfold qstep.
  destruct (crashed s); [exact IH|]. destruct i as [i| |].
  - destruct i; cbn [q_chan]; try exact IH; destruct (q_todo s); exact IH.
  - destruct (q_todo s) as [|a todo]; [exact IH|]. destruct (Nat.ltb_spec (length (q_chan s)) CHANNEL) as [L|L]; [|exact IH]. cbn [q_chan]. rewrite app_length. unfold CHANNEL in L. cbn. lia.
  - destruct (q_chan s) as [|a chan] eqn:E; [rewrite E; cbn; lia | cbn in *; lia].
Qed.
(* The broker only has to take requests: `inner` and the event loop, polled in turn, do not wait for each other. *)
Definition rounds (n : nat) : list qinput := concat (repeat [QTake; QMake] n).
Definition lives (s : qstate) : Prop := match q_inner s with Dead _ _ => False | _ => True end.
Lemma lives_crashed s : lives s -> crashed s = false.
Proof. unfold lives, crashed. destruct (q_inner s), (q_todo s); tauto. Qed.
Lemma drains cl cfg n : forall s, lives s -> (length (q_chan s) <= 10)%nat -> (q_chan s = [] -> q_todo s = []) -> (length (not_yet s) <= n)%nat ->
  fold_left (qstep cl cfg) (rounds n) s = mkQ (q_inner s) [] [] (q_sent s ++ not_yet s).
Proof.
  induction n as [|n IH]; intros s L B J N; unfold not_yet in *; rewrite app_length in N.
  - destruct s as [b [|x t] [|y c] z]; cbn in *; try lia. rewrite app_nil_r. reflexivity.
  - pose proof (lives_crashed s L) as C. unfold rounds. cbn [repeat concat]. rewrite fold_left_app. fold (rounds n). cbn [fold_left].
    destruct s as [b t c z]. cbn [q_inner q_todo q_chan q_sent] in *. unfold qstep at 3. rewrite C. cbn [q_inner q_todo q_chan q_sent].
    destruct c as [|y c].
    + rewrite (J eq_refl) in *. unfold qstep at 2. rewrite C. cbn [q_todo]. rewrite (IH (mkQ b [] [] z)); cbn; auto; lia.
    + assert (C' : crashed (mkQ b t c (z ++ [y])) = false) by (apply lives_crashed; exact L). unfold qstep at 2. rewrite C'. cbn [q_inner q_todo q_chan q_sent] in *. destruct t as [|x t].
      * rewrite IH; cbn [q_inner q_todo q_chan q_sent length] in *; auto; [|lia | rewrite app_length; cbn; lia]. f_equal. cbn [app]. rewrite <- app_assoc. reflexivity.
      * cbn [length] in *. replace (length c <? CHANNEL)%nat with true by (symmetry; apply Nat.ltb_lt; unfold CHANNEL; lia).
        rewrite IH; cbn [q_inner q_todo q_chan q_sent length] in *; auto; try (rewrite !app_length; cbn; lia); [|destruct c; discriminate]. f_equal. rewrite <- !app_assoc. reflexivity.
Qed.
Theorem C74_all_delivered : forall cl cfg is n, let s := qrun cl cfg is in
  lives s -> (length (not_yet s) <= n)%nat ->
  qrun cl cfg (is ++ rounds (S n)) = mkQ (q_inner s) [] [] (q_sent s ++ not_yet s).
Proof.
  intros cl cfg is n s L N. unfold qrun. rewrite fold_left_app. fold (qrun cl cfg is). fold s.
  pose proof (C74_at_most_ten cl cfg is) as B. fold s in B. destruct (q_chan s) as [|y c] eqn:EC.
  - pose proof (lives_crashed s L) as C. unfold rounds. cbn [repeat concat]. rewrite fold_left_app. fold (rounds n). cbn [fold_left].
    unfold qstep at 3. rewrite C, EC. unfold qstep at 2. rewrite C, EC. unfold not_yet in *. rewrite EC in *. destruct s as [b t c z]. cbn [q_inner q_todo q_chan q_sent app] in *. subst c. destruct t as [|x t].
    + rewrite drains; auto; cbn; lia.
    + cbn [length CHANNEL Nat.ltb Nat.leb app]. rewrite drains; [reflexivity | exact L | cbn; lia | discriminate | unfold not_yet; cbn in *; lia].
  - apply drains; auto; rewrite EC; [cbn in *; lia | discriminate].
Qed.
(* Also the requests that a bridge makes before it comes to an end get into the channel, all of them: it ends only then. *)
Lemma round cl cfg s : (length (q_chan s) <= 10)%nat -> let s' := fold_left (qstep cl cfg) [QTake; QMake] s in
  q_inner s' = q_inner s /\ q_todo s' = tl (q_todo s) /\ q_sent s' ++ q_chan s' ++ q_todo s' = q_sent s ++ q_chan s ++ q_todo s /\ (length (q_chan s') <= 10)%nat.
Proof.
  intros B. cbv zeta. destruct s as [b t c z]. cbn [q_inner q_todo q_chan q_sent fold_left] in *. destruct t as [|x t].
  - destruct b as [i rx|u|log why]; (destruct c as [|y c]; cbn in *; repeat split; auto; try lia; rewrite <- ?app_assoc; reflexivity).
  - assert (C : forall c z, crashed (mkQ b (x :: t) c z) = false) by (intros; destruct b; reflexivity).
    assert (M : forall c z, (length c < 10)%nat -> qstep cl cfg (mkQ b (x :: t) c z) QMake = mkQ b t (c ++ [x]) z).
    { intros c' z' L. unfold qstep. rewrite C. cbn [q_todo q_chan q_inner q_sent]. replace (length c' <? CHANNEL)%nat with true by (symmetry; apply Nat.ltb_lt; unfold CHANNEL; lia). reflexivity. }
    destruct c as [|y c].
    + assert (T : qstep cl cfg (mkQ b (x :: t) [] z) QTake = mkQ b (x :: t) [] z) by (unfold qstep; rewrite C; reflexivity). rewrite T, M by (cbn; lia). cbn. repeat split. lia.
    + assert (T : qstep cl cfg (mkQ b (x :: t) (y :: c) z) QTake = mkQ b (x :: t) c (z ++ [y])) by (unfold qstep; rewrite C; reflexivity). cbn [length] in B. rewrite T, M by lia. cbn [q_inner q_todo q_chan q_sent tl]. split; [reflexivity|]. split; [reflexivity|].
      rewrite app_length. cbn [length]. split; [rewrite <- !app_assoc; reflexivity | lia].
Qed.
Theorem C74_made_before_the_end : forall cl cfg is n, let s := qrun cl cfg is in let s' := qrun cl cfg (is ++ rounds n) in
  (length (q_todo s) <= n)%nat ->
  q_inner s' = q_inner s /\ q_todo s' = [] /\ q_sent s' ++ q_chan s' = q_sent s ++ not_yet s.
Proof.
  intros cl cfg is n s s' L. unfold s', qrun. rewrite fold_left_app. fold (qrun cl cfg is). fold s. pose proof (C74_at_most_ten cl cfg is) as B. fold s in B. clearbody s. clear s'. unfold not_yet.
  revert s L B. induction n as [|n IH]; intros s L B.
  - destruct (q_todo s) eqn:E; [|cbn in L; lia]. cbn. rewrite E, app_nil_r. auto.
  - unfold rounds. cbn [repeat concat]. rewrite fold_left_app. fold (rounds n). destruct (round cl cfg s B) as (R1 & R2 & R3 & R4).
    destruct (IH _ ltac:(rewrite R2; destruct (q_todo s); cbn in *; lia) R4) as (I1 & I2 & I3). rewrite I1, I2, I3, R3. auto.
Qed.
(* Then the broker retains what the panel is. *)
Theorem C74_topics_match_when_idle : forall cl cfg is u, let s := qrun cl cfg is in
  q_ok is -> q_inner s = Up u -> not_yet s = [] -> cfg_ok cfg -> distinct_area_names cfg -> distinct_zone_names cfg ->
  (forall area name, In (area, name) (areas cfg) ->
     exists t, area_shown (u_panel u) area t /\ holds (q_sent s) (topic_prefix cfg ++ B "/area/" ++ name ++ B "/ha_state") (PText t)) /\
  (forall zone z, In (zone, z) (zones cfg) ->
     exists t, zone_shown (u_panel u) zone t /\ holds (q_sent s) (topic_prefix cfg ++ B "/zone/" ++ z_name z ++ B "/ha_state") (PText t)).
Proof.
  intros cl cfg is u s OK EU EN CK DA DZ. destruct (C74_same_requests cl cfg is) as (js & cut & S & E & D). fold s in E, D.
  destruct D as [(-> & D & _)|[_ D]]; [|unfold crashed in D; rewrite EU in D; destruct (q_todo s); discriminate].
  unfold not_yet in EN. apply app_eq_nil in EN as [E1 E2]. rewrite E1, E2, !app_nil_r in E.
  assert (A : bridge_after cl cfg js (Up u)) by (split; [eapply subseq_Forall; eauto | congruence]). rewrite <- D, EU in E. cbn [blog] in E. rewrite <- E.
  split; intros; [eapply C48_area_topics_match | eapply C49_zone_topics_match]; eauto.
Qed.
(* While the channel is full and the broker takes nothing, the bridge stands still: no event is read from the panel, no command is handled. *)
Theorem C74_stands_still : forall cl cfg is u is', let s := qrun cl cfg is in
  q_inner s = Up u -> length (q_chan s) = 10%nat -> q_todo s <> [] -> ~ In QTake is' -> ~ In (QIn MqttFail) is' ->
  exists u', qrun cl cfg (is ++ is') = mkQ (Up u') (q_todo s) (q_chan s) (q_sent s) /\
    u_log u' = u_log u /\ u_mode u' = u_mode u /\ u_rx u' = u_rx u ++ mqtt_in (q_in is') /\
    written (p_conn (u_panel u')) = written (p_conn (u_panel u)) /\ exists c, u_panel u' = with_conn (u_panel u) c.
Proof.
  intros cl cfg is u is' s EU L T NT NF. induction is' as [|i is' IH] using rev_ind.
  - rewrite app_nil_r. fold s. exists u. repeat split; [destruct s; cbn in *; subst; reflexivity | cbn; rewrite app_nil_r; reflexivity|].
    exists (p_conn (u_panel u)). destruct (u_panel u). reflexivity.
  - destruct IH as (u' & E & E1 & E2 & E3 & E4 & c & E5); [intros K; apply NT, in_or_app; auto | intros K; apply NF, in_or_app; auto|].
    rewrite app_assoc, qrun_snoc, E, q_in_app, mqtt_in_app, app_assoc, <- E3.
    assert (KE : forall x, x = [] -> u_rx u' = u_rx u' ++ x) by (intros x ->; symmetry; apply app_nil_r).
    destruct (q_todo s) as [|a todo]; [contradiction|].
    destruct i as [i| |].
    + destruct i; try (exists u'; split; [reflexivity|]; repeat split; auto; exists c; assumption).
      * exists (set_panel u' (with_conn (u_panel u') (arrive (p_conn (u_panel u')) a0))). cbn [qstep crashed q_todo q_inner bstep]. split; [reflexivity|]. cbn.
        rewrite app_nil_r. do 4 (split; [assumption || reflexivity|]). rewrite E5. destruct (u_panel u). eexists. reflexivity.
      * eexists. cbn [qstep crashed q_todo q_inner bstep]. split; [reflexivity|]. cbn. repeat split; auto. eauto.
      * elim NF. apply in_or_app. right. left. reflexivity.
    + exists u'. cbn [qstep crashed q_todo q_inner q_chan]. rewrite L. split; [reflexivity|]. repeat split; auto. eauto.
    + elim NT. apply in_or_app. right. left. reflexivity.
Qed.
Lemma retained_holds l t p : retained l t = Some p -> holds l t p.
Proof.
  unfold retained. induction l as [|a l IH] using rev_ind; [discriminate|]. rewrite fold_left_app. cbn [fold_left].
  assert (K : fold_left (fun r a0 => match a0 with APublishQ _ t' true p0 => if beq t t' then Some p0 else r | _ => r end) l None = Some p -> (forall q p', a <> APublishQ q t true p') -> holds (l ++ [a]) t p).
  { intros H N. destruct (IH H) as (q & l1 & l2 & -> & F). exists q, l1, (l2 ++ [a]). split; [rewrite <- app_assoc; reflexivity|]. intros q' p' I. apply in_app_or in I as [I|[I|[]]]; [exact (F _ _ I) | exact (N _ _ I)]. }
  destruct a as [q0 t' [] p0|q0 f]; try (intros H; apply K; [exact H | discriminate]).
  destruct (beq t t') eqn:E; [|intros H; apply K; [exact H|]; intros q' p' [= _ -> _]; rewrite (proj2 (beq_eq t t) eq_refl) in E; discriminate].
  apply beq_eq in E. subst t'. intros [= ->]. exists q0, l, []. split; [reflexivity | intros q' p' []].
Qed.
(* False once the process ends: what the broker has not got by then, it never gets.  Here the panel reports that area 1 arms and closes the connection, which ends the
   bridge; the report was accepted for publishing, but the broker goes on retaining "disarmed". *)
Definition ex_q_start : list qinput := map QIn ex_start ++ rounds 8.
Definition ex_q_end : list qinput :=
  [QIn (NetArrive (Bytes (bytes_of (MArmingStatusReport ex_arming)))); QIn (NetArrive PeerClose); QIn (PollPanel 7); QMake; QMake; QIn (PollPanel 8)].
Theorem C74_end_is_final : forall cl cfg is is', crashed (qrun cl cfg is) = true -> qrun cl cfg (is ++ is') = qrun cl cfg is.
Proof.
  intros cl cfg is is' C. unfold qrun. rewrite fold_left_app. fold (qrun cl cfg is). induction is' as [|i is' IH]; [reflexivity|]. cbn [fold_left]. unfold qstep at 2. rewrite C. exact IH.
Qed.
Lemma sent_by_taking cl cfg s i : i <> QTake -> q_sent (qstep cl cfg s i) = q_sent s.
Proof.
  intros N. unfold qstep. destruct (crashed s); [reflexivity|]. destruct i as [i| |]; [| |contradiction].
  - destruct i; cbn; auto; destruct (q_todo s); reflexivity.
  - destruct (q_todo s); [reflexivity|]. destruct (_ <? _)%nat; reflexivity.
Qed.
Lemma ex_q_summary : let s0 := qrun ex_cl ex_cfg ex_q_start in let s := qrun ex_cl ex_cfg (ex_q_start ++ ex_q_end) in
  (match q_inner s0 with Dead _ _ => false | _ => true end, length (not_yet s0), length (q_todo s), crashed s,
   retained (q_sent s0) (B "elkm1/0001/area/house/ha_state"), retained (blog (q_inner s)) (B "elkm1/0001/area/house/ha_state")) =
  (true, 0%nat, 0%nat, true, Some (PText (B "disarmed")), Some (PText (B "arming"))).
Proof. vm_compute. reflexivity. Qed.
Lemma ex_q_end_ok : Forall input_ok (q_in ex_q_end).
Proof.
  constructor; [|repeat constructor]. assert (Y : forallb (fun b => b <? 256) (bytes_of (MArmingStatusReport ex_arming)) = true) by (vm_compute; reflexivity).
  apply Forall_forall. intros b Hb. rewrite forallb_forall in Y. apply N.ltb_lt. apply Y. exact Hb.
Qed.
Lemma q_in_map l : q_in (map QIn l) = l.
Proof. induction l as [|x l IH]; [reflexivity|]. cbn. f_equal. exact IH. Qed.
Lemma ex_q_ok : q_ok (ex_q_start ++ ex_q_end).
Proof.
  unfold q_ok. rewrite q_in_app. apply Forall_app. split; [|exact ex_q_end_ok].
  unfold ex_q_start. rewrite q_in_app, q_in_map. apply Forall_app. split; [exact ex_start_ok | constructor].
Qed.
Lemma sent_unless_taken cl cfg l : forall s, ~ In QTake l -> q_sent (fold_left (qstep cl cfg) l s) = q_sent s.
Proof.
  induction l as [|i l IH]; intros s T; [reflexivity|]. cbn [fold_left]. rewrite IH; [|intros K; apply T; right; exact K]. apply sent_by_taking. intros ->. apply T. left. reflexivity.
Qed.
Lemma lost_abstractly cl cfg is is' s0 s t p p' : q_ok (is ++ is') -> qrun cl cfg is = s0 -> qrun cl cfg (is ++ is') = s -> ~ In QTake is' -> ~ In (QIn MqttFail) is' ->
  (match q_inner s0 with Dead _ _ => false | _ => true end, length (not_yet s0), length (q_todo s), crashed s, retained (q_sent s0) t, retained (blog (q_inner s)) t) =
  (true, 0%nat, 0%nat, true, Some p, Some p') ->
  q_ok (is ++ is') /\ qrun cl cfg is = s0 /\ lives s0 /\ not_yet s0 = [] /\ ~ In (QIn MqttFail) is' /\
  qrun cl cfg (is ++ is') = s /\ q_todo s = [] /\ holds (q_sent s0) t p /\ holds (blog (q_inner s)) t p' /\
  forall is'', q_sent (qrun cl cfg (is ++ is' ++ is'')) = q_sent s0.
Proof.
  intros OK E0 E T F X. injection X as X1 X2 X3 X4 X5 X6. split; [exact OK|]. split; [exact E0|].
  split; [unfold lives; destruct (q_inner s0); [exact Logic.I | exact Logic.I | discriminate]|]. split; [apply length_zero_iff_nil; exact X2|]. split; [exact F|]. split; [exact E|].
  split; [apply length_zero_iff_nil; exact X3|]. split; [apply retained_holds; exact X5|]. split; [apply retained_holds; exact X6|].
  intros is''. rewrite app_assoc, C74_end_is_final by (rewrite E; exact X4). unfold qrun. rewrite fold_left_app. fold (qrun cl cfg is). rewrite E0. apply sent_unless_taken, T.
Qed.
Theorem C74_lost_at_the_end_refuted : exists cl cfg is is' s0 s,
  q_ok (is ++ is') /\ qrun cl cfg is = s0 /\ lives s0 /\ not_yet s0 = [] /\ ~ In (QIn MqttFail) is' /\
  qrun cl cfg (is ++ is') = s /\ q_todo s = [] /\
  holds (q_sent s0) (B "elkm1/0001/area/house/ha_state") (PText (B "disarmed")) /\
  holds (blog (q_inner s)) (B "elkm1/0001/area/house/ha_state") (PText (B "arming")) /\
  forall is'', q_sent (qrun cl cfg (is ++ is' ++ is'')) = q_sent s0.
Proof.
  exists ex_cl, ex_cfg, ex_q_start, ex_q_end, (qrun ex_cl ex_cfg ex_q_start), (qrun ex_cl ex_cfg (ex_q_start ++ ex_q_end)).
  apply lost_abstractly; [exact ex_q_ok | reflexivity | reflexivity | | | exact ex_q_summary]; unfold ex_q_end; intros K; repeat (destruct K as [K|K]; [discriminate|]); exact K.
Qed.

(* ---- example ----
   The broker takes nothing from the start: after the six requests of the start and two events, the channel is full; the third event waits. Then all is delivered. *)
Definition ex_q_full : list qinput :=
  map QIn ex_start ++ repeat QMake 6 ++ map QIn (firstn 2 ex_reports) ++ [QMake; QMake; QIn (PollPanel 8); QMake; QMake;
    QIn (NetArrive (Bytes (bytes_of (MArmingStatusReport ex_disarmed)))); QIn (PollPanel 9); QMake].
Example C74_example : let s := qrun ex_cl ex_cfg ex_q_full in let s' := qrun ex_cl ex_cfg (ex_q_full ++ rounds 13) in
  (match q_inner s with Up _ => true | _ => false end, length (q_sent s), length (q_chan s), length (q_todo s)) = (true, 0, 10, 2)%nat /\
  (length (q_sent s'), length (not_yet s'), retained (q_sent s') (B "elkm1/0001/area/house/ha_state")) = (12%nat, 0%nat, Some (PText (B "disarmed"))).
Proof. cbv zeta. split; vm_compute; reflexivity. Qed.

(* A client that does not take the topic of the zone: the bridge fails at its start; the requests it made before still reach the broker. *)
Definition ex_refusing : client := mkClient (fun t => negb (beq t (B "elkm1/0001/zone/front/ha_state"))) (fun _ => true).
Example C74_example_end : let s := qrun ex_refusing ex_cfg (map QIn ex_start) in let s' := qrun ex_refusing ex_cfg (map QIn ex_start ++ rounds 5) in
  (match q_inner s with Dead _ _ => true | _ => false end, crashed s, length (q_todo s), length (q_sent s)) = (true, false, 3, 0)%nat /\
  (crashed s', length (q_todo s'), length (q_chan s' ++ q_sent s')) = (true, 0, 3)%nat.
Proof. cbv zeta. split; vm_compute; reflexivity. Qed.

Print Assumptions C74_same_requests.
Print Assumptions C74_at_most_ten.
Print Assumptions C74_all_delivered.
Print Assumptions C74_made_before_the_end.
Print Assumptions C74_topics_match_when_idle.
Print Assumptions C74_stands_still.
Print Assumptions C74_end_is_final.
Print Assumptions C74_lost_at_the_end_refuted.
