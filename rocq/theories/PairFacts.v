(* PairFacts.v: the invariant of two connected Connections, for C92. *)
From Verif Require Import Base BaseFacts Pkt SpecPkt PktFacts DecodeFacts Tokio ConnFacts SpecConn OwedFacts Pair SpecPair.
From Coq Require Import ZifyBool ZifyNat ZifyN.
Ltac Zify.zify_post_hook ::= Z.div_mod_to_equations.

Lemma cut_exists fs : forall b r, b ++ r = concat fs -> exists j left, cut fs b j left.
Proof.
  induction fs as [|f fs IH]; intros b r E.
  - apply app_eq_nil in E as [-> _]. exists 0%nat, []. repeat split; auto.
  - cbn [concat] in E. apply app_eq_cases in E as [(m & Eb & Em)|(m & Ef & Er & Hm)].
    + subst b. destruct (IH m r ltac:(auto)) as (j & left & L & -> & H).
      exists (S j), left. repeat split; cbn [length firstn concat]; [lia | apply app_assoc | exact H].
    + exists 0%nat, b. repeat split; cbn; [lia|]. right. exists m. subst f. auto.
Qed.
Lemma Forall2_firstn {A B} (R : A -> B -> Prop) l m : Forall2 R l m -> forall n, Forall2 R (firstn n l) (firstn n m).
Proof. induction 1; intros [|n]; cbn; constructor; auto. Qed.
Lemma Forall2_nth2 {A B} (R : A -> B -> Prop) l m : Forall2 R l m -> forall n y, nth_error m n = Some y -> exists x, nth_error l n = Some x /\ R x y.
Proof. induction 1 as [|x y l m H HF IH]; intros [|n] z E; cbn in *; try discriminate; [injection E as <-; eauto | eauto]. Qed.
Lemma Forall_firstn {A} (Q : A -> Prop) l : Forall Q l -> forall n, Forall Q (firstn n l).
Proof. induction 1; intros [|n]; cbn; constructor; auto. Qed.
Lemma cut_drains ps fs b j left : Forall valid_packet ps -> Forall2 frame_of ps fs -> cut fs b j left ->
  drains b (firstn j ps) left.
Proof.
  intros V F (L & -> & H). rewrite <- (app_nil_r (firstn j ps)).
  assert (X : u8s left /\ decode left = Ok (None, left)).
  { destruct H as [->|(more & Hm & E)]; [split; [constructor | reflexivity]|].
    destruct (Forall2_nth2 _ _ _ F _ _ E) as (p & Ep & Hp).
    assert (Vp : valid_packet p) by (eapply Forall_forall; [exact V | eapply nth_error_In; eauto]).
    split; [|eapply prefix_waits; eauto].
    destruct (frame_of_valid _ _ Vp Hp) as (U & _). apply u8s_app in U. tauto. }
  apply drains_frames; [apply Forall_firstn; exact V | apply Forall2_firstn; exact F | tauto | constructor; tauto].
Qed.
Lemma frames_u8s ps fs : Forall valid_packet ps -> Forall2 frame_of ps fs -> u8s (concat fs).
Proof.
  intros V F. revert V. induction F as [|p f ps fs Hp F IH]; intros V; [constructor|]. inversion V; subst. cbn.
  apply u8s_app. split; [apply (frame_of_valid p f); auto | auto].
Qed.
Lemma concat_u8 cs : u8s (concat cs) -> Forall (fun c => u8s c) cs.
Proof. induction cs as [|c cs IH]; cbn; intros U; constructor; apply u8s_app in U; tauto. Qed.

(* C45_owed_packets, for chunks in relation form *)
Lemma owed_chunks chunks : Forall (fun c => u8s c) chunks -> forall ps left, drains (concat chunks) ps left ->
  owed [] (map Bytes chunks) (map Packet ps) left.
Proof.
  intros U. assert (X : forall b, u8s b -> decode b = Ok (None, b) ->
    exists ps left, drains (b ++ concat chunks) ps left /\ owed b (map Bytes chunks) (map Packet ps) left).
  { induction U as [|c cs Uc U IH]; intros b Ub Db; cbn [concat map].
    - exists [], b. rewrite app_nil_r. split; [constructor; exact Db | constructor].
    - assert (Ubc : u8s (b ++ c)) by (apply u8s_app; auto). destruct (drain_total _ Ubc) as (ps & l & E & D).
      destruct (IH l (drains_u8s _ _ _ D Ubc) (drains_left _ _ _ D)) as (qs & left & D2 & O2).
      exists (ps ++ qs), left. split.
      + rewrite app_assoc. eapply drains_app; eauto. clear -U. induction U; [constructor|]. cbn. apply u8s_app; auto.
      + rewrite map_app. eapply Owed_bytes; eauto. }
  intros ps left D. destruct (X [] ltac:(constructor) eq_refl) as (ps' & left' & D' & O).
  destruct (drains_det _ _ _ D _ _ D') as [-> ->]. exact O.
Qed.

Lemma after_same_read c c' a closed k : same_read c c' -> after c a closed k -> after c' a closed k.
Proof.
  intros S (CI & EP & os & left & O & UL & K & F). split; [eapply same_read_inv; eauto|].
  destruct S as (A & B & C & D & E & G). split; [congruence|]. exists os, left. split; [exact O|]. split; [exact UL|].
  split; [exact K|]. unfold fut in *. rewrite A, B, C, D, E, G. exact F.
Qed.

(* The answers to the polls of y so far, that were not Pending: the first k answers owed. *)
Definition answered (y : endpoint) (os : list outcome) (left : bytes) : Prop :=
  filter is_ready (seen y) = map (answer os left (peer_closed (ep y))) (seq 0 (ready_count (seen y))).

(* From x to y. *)
Definition link (x y : endpoint) : Prop := exists fs chunks,
  Forall valid_packet (given x) /\ Forall2 frame_of (given x) fs /\ sent (ep x) ++ wbuf (ep x) = concat fs /\
  concat chunks = firstn (arrived_at y) (sent (ep x)) /\ (arrived_at y <= length (sent (ep x)))%nat /\
  Forall (fun c => c <> []) chunks /\
  after (ep y) (map Bytes chunks) (peer_closed (ep y)) (ready_count (seen y)) /\
  (peer_closed (ep y) = true -> gone x = true /\ arrived_at y = length (sent (ep x))) /\
  forall os left, owed [] (map Bytes chunks) os left -> answered y os left.

Lemma link_new : link end_new end_new.
Proof.
  exists [], []. repeat split; try constructor; try (cbn; lia); try discriminate.
  - apply after_new.
Qed.

(* x writes *)
Lemma link_write x y c n ns : link x y -> gone x = false -> sent c = sent (ep x) ++ firstn n (wbuf (ep x)) ->
  sent c ++ wbuf c = sent (ep x) ++ wbuf (ep x) ++ concat ns ->
  forall ps, Forall valid_packet ps -> Forall2 frame_of ps ns ->
  link (mkEnd c (given x ++ ps) (seen x) (arrived_at x) (gone x)) y.
Proof.
  intros (fs & chunks & V & F & S & C & L & NE & A & G & H) Hg Es Ew ps Vp Fp.
  exists (fs ++ ns), chunks. cbn [given ep gone].
  split; [apply Forall_app; auto|]. split; [apply Forall2_app; auto|].
  split; [rewrite Ew, concat_app, app_assoc, S; reflexivity|].
  split; [rewrite C, Es, firstn_app; replace (arrived_at y - length (sent (ep x)))%nat with 0%nat by lia; cbn; rewrite app_nil_r; reflexivity|].
  split; [rewrite Es, app_length; lia|]. split; [exact NE|]. split; [exact A|].
  split; [intros Hc; destruct (G Hc); congruence|]. exact H.
Qed.
(* x does something else *)
Lemma link_sender x x' y : link x y -> given x' = given x -> sent (ep x') = sent (ep x) -> wbuf (ep x') = wbuf (ep x) ->
  (gone x = true -> gone x' = true) -> link x' y.
Proof.
  intros (fs & chunks & V & F & S & C & L & NE & A & G & H) E1 E2 E3 E4. exists fs, chunks. rewrite E1, E2, E3.
  repeat (split; [assumption|]). split; [|exact H]. intros Hc. destruct (G Hc). auto.
Qed.
(* y writes *)
Lemma link_receiver x y y' : link x y -> same_read (ep y) (ep y') -> seen y' = seen y -> arrived_at y' = arrived_at y -> link x y'.
Proof.
  intros (fs & chunks & V & F & S & C & L & NE & A & G & H) SR E2 E3. exists fs, chunks.
  assert (EP : peer_closed (ep y') = peer_closed (ep y)) by apply SR.
  unfold answered. rewrite EP, E2, E3. repeat (split; [assumption|]).
  split; [eapply after_same_read; eauto|]. split; assumption.
Qed.
(* y is polled *)
Lemma link_next x y : link x y -> exists c r, conn_poll_next (ep y) = Ok (c, r) /\ same_write (ep y) c /\
  link x (mkEnd c (given y) (seen y ++ [r]) (arrived_at y) (gone y)).
Proof.
  intros (fs & chunks & V & F & S & C & L & NE & A & G & H).
  destruct (after_poll _ _ _ _ A) as (os & left & c & r & O & E & R & A').
  exists c, r. split; [exact E|].
  destruct (nexts_same_write _ _ _ (conn_next_nexts _ _ _ (proj1 A) E)) as (W1 & W2 & W3 & W4).
  split; [repeat split; assumption|]. exists fs, chunks. cbn [ep seen arrived_at]. rewrite W4.
  assert (RC : ready_count (seen y ++ [r]) = if is_ready r then Datatypes.S (ready_count (seen y)) else ready_count (seen y)).
  { unfold ready_count. rewrite filter_app, app_length. cbn. destruct (is_ready r); cbn; lia. }
  repeat (split; [assumption|]). split; [rewrite RC; exact A'|]. split; [exact G|].
  intros os' left' O'. destruct (owed_fun _ _ _ _ O _ _ O') as [<- <-]. specialize (H _ _ O). unfold answered in *.
  cbn [seen ep]. rewrite RC, W4, filter_app, H. cbn [filter]. destruct (is_ready r) eqn:ER; [|apply app_nil_r].
  rewrite seq_S, map_app. cbn. rewrite R. reflexivity.
Qed.
(* bytes arrive *)
Lemma link_carry x y n : link x y -> let chunk := firstn (S n) (skipn (arrived_at y) (sent (ep x))) in chunk <> [] ->
  link x (mkEnd (arrive (ep y) (Bytes chunk)) (given y) (seen y) (arrived_at y + length chunk) (gone y)).
Proof.
  intros (fs & chunks & V & F & S & C & L & NE & A & G & H) chunk Hc.
  assert (HL : (length chunk <= length (sent (ep x)) - arrived_at y)%nat)
    by (unfold chunk; rewrite firstn_length, skipn_length; lia).
  assert (PC : peer_closed (ep y) = false).
  { destruct (peer_closed (ep y)) eqn:P; auto. destruct (G eq_refl) as [_ E]. destruct Hc. unfold chunk.
    rewrite skipn_all2 by lia. apply firstn_nil. }
  assert (EC : concat (chunks ++ [chunk]) = firstn (arrived_at y + length chunk) (sent (ep x))).
  { rewrite concat_app. cbn [concat]. rewrite app_nil_r, C. rewrite <- (firstn_skipn (arrived_at y) (sent (ep x))) at 2.
    rewrite firstn_app, firstn_length. replace (Nat.min (arrived_at y) (length (sent (ep x)))) with (arrived_at y) by lia.
    rewrite firstn_firstn, Nat.min_r by lia. f_equal. replace (arrived_at y + length chunk - arrived_at y)%nat with (length chunk) by lia.
    unfold chunk. rewrite firstn_length. set (l := skipn _ _). destruct (Nat.le_gt_cases (Datatypes.S n) (length l)).
    - rewrite Nat.min_l by lia. reflexivity.
    - rewrite Nat.min_r, firstn_all2 by lia. symmetry. apply firstn_all. }
  assert (UA : u8s (concat (chunks ++ [chunk]))).
  { rewrite EC. pose proof (frames_u8s _ _ V F) as U. rewrite <- S, u8s_app in U. destruct U as [U _].
    rewrite <- (firstn_skipn (arrived_at y + length chunk) (sent (ep x))), u8s_app in U. tauto. }
  apply concat_u8 in UA. apply Forall_app in UA as [UA UC]. inversion UC as [|? ? Uc _]; subst.
  assert (OKc : arrival_ok (Bytes chunk)) by (split; auto).
  exists fs, (chunks ++ [chunk]). cbn [ep seen arrived_at].
  assert (PC' : peer_closed (arrive (ep y) (Bytes chunk)) = false) by (cbn; exact PC). rewrite PC in A.
  rewrite PC'. split; [exact V|]. split; [exact F|]. split; [exact S|]. split; [exact EC|]. split; [lia|].
  split; [apply Forall_app; auto|]. split; [rewrite map_app; eapply after_arrive; eauto|]. split; [discriminate|].
  intros os' left' O'. unfold answered in *. cbn [ep seen]. rewrite PC'.
  destruct A as (_ & _ & os & left & O & UL & K & _). specialize (K eq_refl). rewrite (H _ _ O), PC.
  apply map_ext_in. intros i Hi. apply in_seq in Hi. rewrite map_app in O'.
  destruct (drain_total (left ++ chunk) ltac:(apply u8s_app; auto)) as (ps & l & ED & D).
  pose proof (owed_snoc_bytes _ _ _ _ _ _ _ O ED) as O2. destruct (owed_fun _ _ _ _ O2 _ _ O') as [<- <-].
  unfold answer. rewrite nth_error_app1 by lia. reflexivity.
Qed.
(* the end of the stream arrives *)
Lemma link_end x y : link x y -> gone x = true -> arrived_at y = length (sent (ep x)) -> peer_closed (ep y) = false ->
  link x (set_ep y (arrive (ep y) PeerClose)).
Proof.
  intros (fs & chunks & V & F & S & C & L & NE & A & G & H) Hg Ha PC. exists fs, chunks. rewrite PC in A. cbn [set_ep ep seen arrived_at].
  change (peer_closed (arrive (ep y) PeerClose)) with true.
  repeat (split; [assumption|]). split; [apply after_close; exact A|]. split; [auto|].
  intros os' left' O'. pose proof (H _ _ O') as HA. unfold answered in *. cbn [ep seen set_ep].
  change (peer_closed (arrive (ep y) PeerClose)) with true. rewrite PC in HA. rewrite HA.
  destruct A as (_ & _ & os & left & O & UL & K & _). specialize (K eq_refl). destruct (owed_fun _ _ _ _ O _ _ O') as [<- <-].
  apply map_ext_in. intros i Hi. apply in_seq in Hi.
  unfold answer. destruct (nth_error os i) eqn:EN; auto. apply nth_error_None in EN. lia.
Qed.

Definition links (P : pair) : Prop := link (left_end P) (right_end P) /\ link (right_end P) (left_end P).

Lemma at_put s P e : at_end s (put_end s P e) = e. Proof. destruct s; reflexivity. Qed.
Lemma at_put_other s P e : at_end (negb s) (put_end s P e) = at_end (negb s) P. Proof. destruct s; reflexivity. Qed.
Lemma links_at P s : links P -> link (at_end s P) (at_end (negb s) P).
Proof. intros [A B]. destruct s; assumption. Qed.
Lemma links_put P s e : link e (at_end (negb s) P) -> link (at_end (negb s) P) e -> links (put_end s P e).
Proof. intros A B. destruct s; split; assumption. Qed.
Lemma links_flush P s c n ns ps : links P -> gone (at_end s P) = false -> same_read (ep (at_end s P)) c ->
  sent c = sent (ep (at_end s P)) ++ firstn n (wbuf (ep (at_end s P))) ->
  sent c ++ wbuf c = sent (ep (at_end s P)) ++ wbuf (ep (at_end s P)) ++ concat ns ->
  Forall valid_packet ps -> Forall2 frame_of ps ns ->
  links (put_end s P (mkEnd c (given (at_end s P) ++ ps) (seen (at_end s P)) (arrived_at (at_end s P)) (gone (at_end s P)))).
Proof.
  intros LP Hg SR E1 E2 Vp Fp. apply links_put.
  - eapply link_write; eauto. apply links_at; exact LP.
  - pose proof (links_at P (negb s) LP) as X. rewrite negb_involutive in X. eapply link_receiver; eauto.
Qed.
Lemma links_flush0 P s ws c ws' r : links P -> gone (at_end s P) = false -> conn_poll_flush (ep (at_end s P)) ws = (c, ws', r) ->
  links (put_end s P (set_ep (at_end s P) c)).
Proof.
  intros LP Hg E. destruct (conn_flush_spec _ _ _ _ _ E) as (SR & _ & E2 & (n & E1) & _).
  pose proof (links_flush P s c n [] [] LP Hg SR E1) as X. cbn [concat] in X. rewrite !app_nil_r in X.
  apply X; auto.
Qed.
Lemma put_same P s : put_end s P (set_ep (at_end s P) (ep (at_end s P))) = P.
Proof. destruct P as [[a b c d e] [a' b' c' d' e']], s; reflexivity. Qed.

Lemma pstep_links P o : links P -> pop_ok o -> exists P', pstep P o = Ok P' /\ links P'.
Proof.
  intros LP HO. destruct o as [s ws|s p|s ws|s ws|s|s|s n|s]; cbn [pstep pop_ok] in *.
  - destruct (gone (at_end s P)) eqn:Hg; [eauto|]. unfold conn_poll_ready. destruct (_ <=? _).
    + destruct (conn_poll_flush (ep (at_end s P)) ws) as [[c ws'] r] eqn:E. eexists; split; [reflexivity|]. eapply links_flush0; eauto.
    + eexists; split; [reflexivity|]. rewrite put_same. exact LP.
  - destruct (gone (at_end s P)) eqn:Hg; [eauto|]. destruct (encode_valid _ HO) as (f & Hf & E).
    unfold conn_start_send. rewrite E. cbn [bind]. eexists; split; [reflexivity|].
    replace false with (gone (at_end s P)) by exact Hg.
    apply (links_flush P s _ 0 [f] [p]); auto; cbn [set_write sent wbuf firstn concat].
    + repeat split.
    + symmetry; apply app_nil_r.
    + rewrite app_nil_r. reflexivity.
  - destruct (gone (at_end s P)) eqn:Hg; [eauto|].
    destruct (conn_poll_flush (ep (at_end s P)) ws) as [[c ws'] r] eqn:E. eexists; split; [reflexivity|]. eapply links_flush0; eauto.
  - destruct (gone (at_end s P)) eqn:Hg; [eauto|]. unfold conn_poll_close.
    destruct (conn_poll_flush (ep (at_end s P)) ws) as [[c ws'] r] eqn:E. eexists; split; [reflexivity|]. eapply links_flush0; eauto.
  - destruct (gone (at_end s P)) eqn:Hg; [eauto|].
    pose proof (links_at P (negb s) LP) as X. rewrite negb_involutive in X.
    destruct (link_next _ _ X) as (c & r & E & (W1 & W2 & W3 & W4) & X'). rewrite E. cbn [bind]. eexists; split; [reflexivity|].
    rewrite Hg in X'. apply links_put; [|exact X']. eapply link_sender; [apply (links_at P s LP)|..]; auto. congruence.
  - eexists; split; [reflexivity|]. pose proof (links_at P (negb s) LP) as X. rewrite negb_involutive in X.
    apply links_put; [eapply link_sender; [apply (links_at P s LP)|..]; auto | eapply link_receiver; eauto]. repeat split.
  - destruct (firstn (S n) (skipn (arrived_at (at_end (negb s) P)) (sent (ep (at_end s P))))) as [|b chunk] eqn:EC; [eauto|].
    eexists; split; [reflexivity|]. pose proof (links_at P s LP) as X. pose proof (links_at P (negb s) LP) as X2. rewrite negb_involutive in X2.
    pose proof (link_carry _ _ n X) as Y. cbv zeta in Y. rewrite EC in Y. specialize (Y ltac:(discriminate)).
    apply links_put; rewrite negb_involutive; [eapply link_sender; eauto; reflexivity | exact Y].
  - destruct (gone (at_end s P) && _ && _) eqn:E; [|eauto]. apply andb_true_iff in E as [E PC]. apply andb_true_iff in E as [Hg Ha].
    apply Nat.eqb_eq in Ha. apply negb_true_iff in PC. eexists; split; [reflexivity|].
    pose proof (links_at P s LP) as X. pose proof (links_at P (negb s) LP) as X2. rewrite negb_involutive in X2.
    pose proof (link_end _ _ X Hg Ha PC) as Y. apply links_put; rewrite negb_involutive; [eapply link_sender; eauto; reflexivity | exact Y].
Qed.
Lemma psteps_links h : Forall pop_ok h -> forall P, links P -> exists P', psteps P h = Ok P' /\ links P'.
Proof.
  induction 1 as [|o h HO HH IH]; intros P LP; cbn [psteps]; [eauto|].
  destruct (pstep_links P o LP HO) as (P1 & E & L1). rewrite E. cbn [bind]. apply IH. exact L1.
Qed.
