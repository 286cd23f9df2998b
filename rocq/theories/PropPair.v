(* PropPair.v: C92, two Connections at the two ends of a line (tokio.rs). *)
From Verif Require Import Base BaseFacts Pkt SpecPkt PktFacts DecodeFacts Tokio ConnFacts SpecConn OwedFacts Pair SpecPair PairFacts PropPkt.
From Coq Require Import ZifyBool ZifyNat ZifyN.
Ltac Zify.zify_post_hook ::= Z.div_mod_to_equations.

Lemma links_new : links socketpair.
Proof. split; exact link_new. Qed.
Lemma link_cut x y : link x y -> exists fs j left c r,
  Forall valid_packet (given x) /\ Forall2 frame_of (given x) fs /\ sent (ep x) ++ wbuf (ep x) = concat fs /\
  (arrived_at y <= length (sent (ep x)))%nat /\
  cut fs (firstn (arrived_at y) (sent (ep x))) j left /\ answered y (map Packet (firstn j (given x))) left /\
  (peer_closed (ep y) = false -> (ready_count (seen y) <= j)%nat) /\
  conn_poll_next (ep y) = Ok (c, r) /\ r = answer (map Packet (firstn j (given x))) left (peer_closed (ep y)) (ready_count (seen y)).
Proof.
  intros (fs & chunks & V & F & S & C & L & NE & A & G & H).
  destruct (cut_exists fs (firstn (arrived_at y) (sent (ep x))) (skipn (arrived_at y) (sent (ep x)) ++ wbuf (ep x))) as (j & left & HC).
  { rewrite app_assoc, firstn_skipn. exact S. }
  pose proof (cut_drains _ _ _ _ _ V F HC) as D. rewrite <- C in D.
  assert (U : Forall (fun c => u8s c) chunks).
  { apply concat_u8. rewrite C. pose proof (frames_u8s _ _ V F) as U. rewrite <- S, u8s_app in U. destruct U as [U _].
    rewrite <- (firstn_skipn (arrived_at y) (sent (ep x))), u8s_app in U. tauto. }
  pose proof (owed_chunks _ U _ _ D) as O.
  destruct (after_poll _ _ _ _ A) as (os & l & c & r & O' & E & R & A').
  destruct (owed_fun _ _ _ _ O _ _ O') as [<- <-].
  exists fs, j, left, c, r. repeat (split; [assumption|]). split; [apply H; exact O|]. split; [|split; assumption].
  intros PC. destruct A as (_ & _ & os2 & l2 & O2 & _ & K & _). destruct (owed_fun _ _ _ _ O _ _ O2) as [<- <-].
  specialize (K PC). rewrite map_length, firstn_length in K. lia.
Qed.
Lemma given_offered h : Forall pop_ok h -> forall P P' s, psteps P h = Ok P' ->
  given (at_end s P') = given (at_end s P) ++ (if gone (at_end s P) then [] else offered s h).
Proof.
  induction 1 as [|o h HO HH IH]; intros P P' s E; cbn [psteps] in E.
  - injection E as <-. destruct (gone _); symmetry; apply app_nil_r.
  - apply bind_inv in E as (P1 & E1 & E2). rewrite (IH _ _ s E2). clear IH E2. revert E1.
    assert (X : forall s' e, given e = given (at_end s' P) -> gone e = gone (at_end s' P) ->
      given (at_end s (put_end s' P e)) = given (at_end s P) /\ gone (at_end s (put_end s' P e)) = gone (at_end s P)).
    { intros s' e H1 H2. destruct s, s'; cbn in *; auto. }
    assert (Y : forall e s' l, e = (if gone (at_end s' P) then Ok P else l) -> gone (at_end s' P) = true -> e = Ok P).
    { intros e s' l -> ->. reflexivity. }
    destruct o as [s' ws|s' p|s' ws|s' ws|s'|s'|s' n|s']; cbn [pstep offered].
    + destruct (gone (at_end s' P)) eqn:Hg; [intros [= <-]; reflexivity|]. destruct (conn_poll_ready _ _) as [[c w] r]. intros [= <-].
      destruct (X s' (set_ep (at_end s' P) c) eq_refl eq_refl) as [-> ->]. reflexivity.
    + destruct (gone (at_end s' P)) eqn:Hg.
      * intros [= <-]. destruct (Bool.eqb_spec s s') as [->|]; [rewrite Hg|]; reflexivity.
      * intros E. apply bind_inv in E as (c & _ & [= <-]). destruct (Bool.eqb_spec s s') as [->|Hs].
        -- rewrite at_put, Hg. cbn [given gone]. rewrite <- app_assoc. reflexivity.
        -- destruct s, s'; cbn in *; congruence.
    + destruct (gone (at_end s' P)) eqn:Hg; [intros [= <-]; reflexivity|]. destruct (conn_poll_flush _ _) as [[c w] r]. intros [= <-].
      destruct (X s' (set_ep (at_end s' P) c) eq_refl eq_refl) as [-> ->]. reflexivity.
    + destruct (gone (at_end s' P)) eqn:Hg; [intros [= <-]; reflexivity|]. destruct (conn_poll_close _ _) as [[c w] r]. intros [= <-].
      destruct (X s' (set_ep (at_end s' P) c) eq_refl eq_refl) as [-> ->]. reflexivity.
    + destruct (gone (at_end s' P)) eqn:Hg; [intros [= <-]; reflexivity|]. intros E. apply bind_inv in E as ([c r] & _ & [= <-]).
      match goal with |- context [put_end s' P ?e] => destruct (X s' e eq_refl (eq_sym Hg)) as [-> ->] end. reflexivity.
    + intros [= <-]. destruct (Bool.eqb_spec s s') as [->|Hs].
      * rewrite at_put. cbn [given gone]. destruct (gone (at_end s' P)); reflexivity.
      * destruct s, s'; cbn in *; congruence.
    + destruct (firstn _ _); intros [= <-]; [reflexivity|].
      match goal with |- context [put_end _ P ?e] => destruct (X (negb s') e eq_refl eq_refl) as [-> ->] end. reflexivity.
    + destruct (_ && _); intros [= <-]; [|reflexivity].
      match goal with |- context [put_end _ P ?e] => destruct (X (negb s') e eq_refl eq_refl) as [-> ->] end. reflexivity.
Qed.
Lemma cut_all (fs : list bytes) j left : Forall (fun f : bytes => f <> []) fs -> cut fs (concat fs) j left -> j = length fs /\ left = [].
Proof.
  intros NE (L & E & H). unfold bytes in *. rewrite <- (firstn_skipn j fs) in E at 1. rewrite concat_app in E. apply app_inv_head in E.
  destruct (skipn j fs) as [|f r] eqn:ES.
  - cbn in E. split; [|auto]. assert (X : length (skipn j fs) = 0%nat) by (rewrite ES; reflexivity). rewrite skipn_length in X. lia.
  - exfalso. assert (Ef : nth_error fs j = Some f).
    { rewrite <- (firstn_skipn j fs), ES. apply nth_error_at. rewrite firstn_length. lia. }
    assert (Hf : f <> []) by (eapply Forall_forall in NE; [exact NE | eapply nth_error_In; eauto]).
    cbn [concat] in E. destruct H as [->|(more & Hm & E2)]; [destruct f; cbn in E; congruence|].
    rewrite Ef in E2. injection E2 as E2. apply (f_equal (@length N)) in E, E2. rewrite app_length in E, E2. destruct more; [auto|cbn in *; lia].
Qed.
Lemma frames_nonempty ps fs : Forall valid_packet ps -> Forall2 frame_of ps fs -> Forall (fun f : bytes => f <> []) fs.
Proof.
  intros V F. revert V. induction F as [|p f ps fs Hp F IH]; intros V; constructor; inversion V; subst; auto.
  destruct (frame_of_valid p f) as (_ & L & _); auto. intros ->. cbn in L. lia.
Qed.
Lemma Forall2_len {A B} (R : A -> B -> Prop) l m : Forall2 R l m -> length l = length m.
Proof. induction 1; cbn; congruence. Qed.
Lemma answers_packets ps left k : (k <= length ps)%nat ->
  map (answer (map Packet ps) left false) (seq 0 k) = map got (firstn k ps).
Proof.
  induction k as [|k IH]; intros L; [reflexivity|]. rewrite seq_S, map_app, IH by lia. cbn [Nat.add map].
  destruct (nth_error ps k) as [p|] eqn:E; [|apply nth_error_None in E; lia].
  assert (X : firstn (S k) ps = firstn k ps ++ [p]).
  { clear -E. revert ps E. induction k as [|k IH]; intros [|x ps] E; cbn in *; try discriminate; [congruence|]. f_equal. apply IH. exact E. }
  rewrite X, map_app. unfold answer. rewrite nth_error_map, E. reflexivity.
Qed.
Definition packet_of (r : poll (option (io packet))) : list packet := match r with Ready (Some (IoOk p)) => [p] | _ => [] end.
Lemma received_ready e : received e = flat_map packet_of (filter is_ready (seen e)).
Proof. unfold received. induction (seen e) as [|[|r] l IH]; cbn; [reflexivity | exact IH | rewrite IH; reflexivity]. Qed.
Lemma received_answers ps left closed k : flat_map packet_of (map (answer (map Packet ps) left closed) (seq 0 k)) = firstn k ps.
Proof.
  induction k as [|k IH]; [reflexivity|]. rewrite seq_S, map_app, flat_map_app, IH. cbn [Nat.add map flat_map]. rewrite app_nil_r.
  destruct (nth_error ps k) as [p|] eqn:E.
  - assert (X : firstn (S k) ps = firstn k ps ++ [p]).
    { clear -E. revert ps E. induction k as [|k IH]; intros [|x ps] E; cbn in *; try discriminate; [congruence|]. f_equal. apply IH. exact E. }
    rewrite X. unfold answer. rewrite nth_error_map, E. reflexivity.
  - pose proof E as E'. apply nth_error_None in E'. rewrite !firstn_all2 by lia. unfold answer. rewrite nth_error_map, E. cbn [option_map].
    destruct closed, left as [|b l]; try destruct (_ =? _)%nat; cbn; apply app_nil_r.
Qed.

(* ---- C92 ---- *)
(* Whatever the two ends did and however the bytes were carried: nothing panics, the packets accepted from an end are those given to it; of
   their frames, the socket has taken a part, and a part of that has arrived: the first j and a piece of the next.  The other end's
   polls so far have answered, and its next poll answers, as owed for exactly these j packets. *)
Theorem C92_every_answer : forall h s, Forall pop_ok h -> exists P fs j left c r,
  psteps socketpair h = Ok P /\
  let x := at_end s P in let y := at_end (negb s) P in
  given x = offered s h /\ Forall2 frame_of (given x) fs /\ sent (ep x) ++ wbuf (ep x) = concat fs /\
  cut fs (firstn (arrived_at y) (sent (ep x))) j left /\
  filter is_ready (seen y) =
    map (answer (map Packet (firstn j (given x))) left (peer_closed (ep y))) (seq 0 (ready_count (seen y))) /\
  conn_poll_next (ep y) = Ok (c, r) /\
  r = answer (map Packet (firstn j (given x))) left (peer_closed (ep y)) (ready_count (seen y)).
Proof.
  intros h s HO. destruct (psteps_links h HO _ links_new) as (P & E & LP).
  destruct (link_cut _ _ (links_at P s LP)) as (fs & j & left & c & r & V & F & S & L & HC & A & K & EN & R).
  exists P, fs, j, left, c, r. split; [exact E|]. cbv zeta.
  split; [rewrite (given_offered h HO _ _ s E); destruct s; reflexivity|].
  repeat (split; [assumption|]). assumption.
Qed.
(* What is received is what was sent, from the first packet on, in order; and until the stream ends there is no other answer. *)
Theorem C92_received_in_order : forall h s P, Forall pop_ok h -> psteps socketpair h = Ok P ->
  let x := at_end s P in let y := at_end (negb s) P in exists n,
  received y = firstn n (offered s h) /\
  (peer_closed (ep y) = false -> filter is_ready (seen y) = map got (received y)).
Proof.
  intros h s P HO E. cbv zeta. destruct (psteps_links h HO _ links_new) as (P' & E' & LP). rewrite E in E'. injection E' as <-.
  destruct (link_cut _ _ (links_at P s LP)) as (fs & j & left & c & r & V & F & S & L & HC & A & K & EN & R).
  assert (G : given (at_end s P) = offered s h) by (rewrite (given_offered h HO _ _ s E); destruct s; reflexivity).
  assert (RV : received (at_end (negb s) P) = firstn (ready_count (seen (at_end (negb s) P))) (firstn j (given (at_end s P)))).
  { rewrite received_ready, A. apply received_answers. }
  eexists. split; [rewrite RV, firstn_firstn, G; reflexivity|]. intros PC. rewrite RV, A, PC. apply answers_packets.
  specialize (K PC). rewrite firstn_length. destruct HC as (Lj & _). pose proof (Forall2_len _ _ _ F). lia.
Qed.
(* Once everything is written and has arrived, a poll that has nothing to return (or returns the end) means everything was received;
   and the end is then reached without an error. *)
Theorem C92_nothing_lost : forall h s P c r, Forall pop_ok h -> psteps socketpair h = Ok P ->
  let x := at_end s P in let y := at_end (negb s) P in
  wbuf (ep x) = [] -> arrived_at y = length (sent (ep x)) ->
  conn_poll_next (ep y) = Ok (c, r) ->
  (r = Pending \/ r = Ready None <-> received y = offered s h) /\ (forall e, r <> Ready (Some (IoErr e))).
Proof.
  intros h s P c r HO E. cbv zeta. destruct (psteps_links h HO _ links_new) as (P' & E' & LP). rewrite E in E'. injection E' as <-.
  destruct (link_cut _ _ (links_at P s LP)) as (fs & j & left & c0 & r0 & V & F & S & L & HC & A & K & EN & R).
  assert (G : given (at_end s P) = offered s h) by (rewrite (given_offered h HO _ _ s E); destruct s; reflexivity).
  intros W HA EN'. rewrite EN in EN'. injection EN' as <- <-. rewrite <- G.
  assert (RV : received (at_end (negb s) P) = firstn (ready_count (seen (at_end (negb s) P))) (firstn j (given (at_end s P)))).
  { rewrite received_ready, A. apply received_answers. }
  rewrite W, app_nil_r in S. rewrite HA, firstn_all, S in HC.
  destruct (cut_all _ _ _ (frames_nonempty _ _ V F) HC) as [-> ->]. rewrite <- (Forall2_len _ _ _ F) in *.
  rewrite firstn_all in *. set (k := ready_count _) in *. unfold answer in R. rewrite nth_error_map in R.
  destruct (nth_error (given (at_end s P)) k) as [p|] eqn:EK.
  - assert (Lk : (k < length (given (at_end s P)))%nat) by (apply nth_error_Some; congruence).
    subst r0. cbn. split; [|discriminate]. split; [intros [?|?]; discriminate|]. intros E2. rewrite RV in E2.
    apply (f_equal (@length packet)) in E2. rewrite firstn_length in E2. lia.
  - apply nth_error_None in EK. cbn in R. rewrite RV, firstn_all2 by exact EK.
    destruct (peer_closed _); subst r0; cbn; (split; [tauto | discriminate]).
Qed.

(* As long as neither end is dropped, everything can still be received: the sender is flushed, the bytes are carried, the receiver polls. *)
Definition rescue (s : bool) (w n k : nat) : list pop := PFlush s [WAccept w] :: PCarry s n :: repeat (PNext (negb s)) k.
Lemma polls_get k : forall P s, links P -> gone (at_end (negb s) P) = false ->
  peer_closed (ep (at_end (negb s) P)) = false ->
  wbuf (ep (at_end s P)) = [] -> arrived_at (at_end (negb s) P) = length (sent (ep (at_end s P))) ->
  (ready_count (seen (at_end (negb s) P)) + k = length (given (at_end s P)))%nat ->
  exists P', psteps P (repeat (PNext (negb s)) k) = Ok P' /\ received (at_end (negb s) P') = given (at_end s P).
Proof.
  induction k as [|k IH]; intros P s LP HG PC W HA L.
  - exists P. split; [reflexivity|].
    destruct (link_cut _ _ (links_at P s LP)) as (fs & j & left & c0 & r0 & V & F & S & Ls & HC & A & K & EN & R).
    rewrite W, app_nil_r in S. rewrite HA, firstn_all, S in HC.
    destruct (cut_all _ _ _ (frames_nonempty _ _ V F) HC) as [-> ->]. rewrite <- (Forall2_len _ _ _ F) in *. rewrite firstn_all in *.
    rewrite received_ready, A, received_answers, firstn_all2 by lia. reflexivity.
  - cbn [repeat psteps]. destruct (pstep_links P (PNext (negb s)) LP Logic.I) as (P1 & E1 & L1). rewrite E1. cbn [bind].
    cbn [pstep] in E1. rewrite HG in E1. apply bind_inv in E1 as ([c r] & E2 & [= <-]).
    assert (CI : cinv (ep (at_end (negb s) P))) by (destruct (links_at P s LP) as (? & ? & ? & ? & ? & ? & ? & ? & [CI _] & _); exact CI).
    destruct (nexts_same_write _ _ _ (conn_next_nexts _ _ _ CI E2)) as (W1 & W2 & W3 & W4).
    set (e := mkEnd _ _ _ _ _) in *.
    assert (X : at_end (negb s) (put_end (negb s) P e) = e) by apply at_put.
    assert (Y : at_end s (put_end (negb s) P e) = at_end s P) by (destruct s; reflexivity).
    assert (RD : is_ready r = true).
    { destruct (link_cut _ _ (links_at P s LP)) as (fs & j & left & c0 & r0 & V & F & S & Ls & HC & A & K & EN & R).
      rewrite W, app_nil_r in S. rewrite HA, firstn_all, S in HC.
      destruct (cut_all _ _ _ (frames_nonempty _ _ V F) HC) as [-> ->]. rewrite <- (Forall2_len _ _ _ F) in *. rewrite firstn_all in *.
      rewrite EN in E2. injection E2 as _ <-. rewrite R. unfold answer. rewrite nth_error_map.
      destruct (nth_error _ _) eqn:EK; [reflexivity | apply nth_error_None in EK; lia]. }
    destruct (IH _ s L1) as (P' & E' & R').
    + rewrite X. reflexivity.
    + rewrite X. cbn. congruence.
    + rewrite Y. exact W.
    + rewrite X, Y. exact HA.
    + rewrite X, Y. cbn [seen e]. unfold ready_count in *. rewrite filter_app, app_length. cbn [filter]. rewrite RD. cbn [length]. lia.
    + rewrite Y in R'. eauto.
Qed.
Theorem C92_all_can_be_received : forall h s P, Forall pop_ok h -> psteps socketpair h = Ok P ->
  gone (at_end s P) = false -> gone (at_end (negb s) P) = false ->
  exists w n k P', psteps P (rescue s w n k) = Ok P' /\ received (at_end (negb s) P') = offered s h.
Proof.
  intros h s P HO E HG1 HG2. destruct (psteps_links h HO _ links_new) as (P' & E' & LP). rewrite E in E'. injection E' as <-.
  assert (G : given (at_end s P) = offered s h) by (rewrite (given_offered h HO _ _ s E); destruct s; reflexivity).
  exists (length (wbuf (ep (at_end s P)))). unfold rescue. set (w := length _).
  destruct (pstep_links P (PFlush s [WAccept w]) LP Logic.I) as (P1 & E1 & L1).
  exists (length (sent (ep (at_end s P1)))). set (n := length _).
  destruct (pstep_links P1 (PCarry s n) L1 Logic.I) as (P2 & E2 & L2).
  assert (X1 : wbuf (ep (at_end s P1)) = [] /\ given (at_end s P1) = given (at_end s P) /\ gone (at_end s P1) = false /\
    at_end (negb s) P1 = at_end (negb s) P).
  { cbn [pstep] in E1. rewrite HG1 in E1. unfold conn_poll_flush in E1. set (c := ep (at_end s P)) in *.
    assert (FF : framed_flush [WAccept w] (wbuf c) (sent c) =
      ([], sent c ++ wbuf c, match wbuf c with [] => [WAccept w] | _ => [] end, Ready (IoOk tt))).
    { unfold w. destruct (wbuf c) as [|b bs] eqn:EB; cbn [framed_flush length]; [rewrite app_nil_r; reflexivity|].
      rewrite skipn_all2, firstn_all2 by (cbn; lia). reflexivity. }
    rewrite FF in E1. injection E1 as <-. rewrite at_put, at_put_other. cbn. rewrite HG1. auto. }
  destruct X1 as (W & GV & HG1' & OT).
  assert (PC1 : peer_closed (ep (at_end (negb s) P1)) = false).
  { destruct (links_at P1 s L1) as (? & ? & ? & ? & ? & ? & ? & ? & ? & G1 & _). destruct (peer_closed _); auto.
    destruct (G1 eq_refl). congruence. }
  assert (X2 : wbuf (ep (at_end s P2)) = [] /\ given (at_end s P2) = given (at_end s P) /\
    arrived_at (at_end (negb s) P2) = length (sent (ep (at_end s P2))) /\ gone (at_end (negb s) P2) = false /\
    peer_closed (ep (at_end (negb s) P2)) = false).
  { destruct (links_at P1 s L1) as (_ & _ & _ & _ & _ & _ & LA & _).
    cbn [pstep] in E2. destruct (firstn (S n) _) as [|b ch] eqn:EC; injection E2 as <-.
    - split; [exact W|]. split; [exact GV|]. split; [|split; [congruence | exact PC1]].
      apply (f_equal (@length N)) in EC. rewrite firstn_length, skipn_length in EC. cbn [length] in EC. unfold n, bytes in *. lia.
    - assert (LC : length (b :: ch) = (length (sent (ep (at_end s P1))) - arrived_at (at_end (negb s) P1))%nat)
        by (rewrite <- EC, firstn_length, skipn_length; unfold n, bytes; lia).
      set (e := mkEnd _ _ _ _ _) in *. rewrite at_put.
      assert (Y : at_end s (put_end (negb s) P1 e) = at_end s P1) by (destruct s; reflexivity). rewrite Y.
      split; [exact W|]. split; [exact GV|]. split; [unfold e; cbn [arrived_at length] in *; lia|].
      split; [cbn; congruence | exact PC1]. }
  destruct X2 as (W2 & GV2 & HA2 & HG2' & PC2).
  assert (K : (ready_count (seen (at_end (negb s) P2)) <= length (given (at_end s P2)))%nat).
  { destruct (link_cut _ _ (links_at P2 s L2)) as (fs & j & left & c0 & r0 & V & F & S & Ls & (Lj & _) & A & K & EN & R).
    specialize (K PC2). rewrite (Forall2_len _ _ _ F). lia. }
  exists (length (given (at_end s P2)) - ready_count (seen (at_end (negb s) P2)))%nat.
  destruct (polls_get (length (given (at_end s P2)) - ready_count (seen (at_end (negb s) P2))) P2 s L2 HG2' PC2 W2 HA2) as (P' & EP & R); [lia|].
  exists P'. cbn [psteps]. rewrite E1. cbn [bind]. rewrite E2. cbn [bind]. split; [exact EP|]. rewrite R, GV2. exact G.
Qed.

(* Both ends send; the left one is interrupted in its second packet, and dropped: the other end gets the first packet, then an
   error for the piece of the second, then the end. *)
Definition ex_pair : list pop :=
  [PSend true (PAscii ex_ascii_body); PSend false (PAscii ex_ascii_body); PSend true (PAscii ex_ascii_body);
   PFlush true [WAccept 10; WAccept 12; WPending]; PCarry true 4; PNext false; PFlush false [WAccept 100]; PCarry false 100; PNext true;
   PCarry true 99; PNext false; PNext false].
Definition ex_pair_drop : list pop := ex_pair ++ [PDrop true; PEnd true; PNext false; PNext false; PNext false].
Example C92_example :
  Forall pop_ok ex_pair_drop /\
  match psteps socketpair ex_pair with Ok P => Some (gone (left_end P), seen (right_end P), seen (left_end P)) | _ => None end =
    Some (false, [Pending; got (PAscii ex_ascii_body); Pending], [got (PAscii ex_ascii_body)]) /\
  match psteps socketpair ex_pair_drop with Ok P => Some (skipn 3 (seen (right_end P))) | _ => None end =
    Some [Ready (Some (IoErr "bytes remaining on stream")); Ready None; Ready None] /\
  match psteps socketpair (ex_pair ++ rescue true 50 50 1) with Ok P => Some (received (right_end P)) | _ => None end =
    Some [PAscii ex_ascii_body; PAscii ex_ascii_body].
Proof.
  split; [|vm_compute; auto].
  repeat (apply Forall_cons; [first [exact ex_ascii_valid | exact Logic.I]|]). apply Forall_nil.
Qed.
Example C92_nothing_lost_example :
  match psteps socketpair (ex_pair ++ [PFlush true [WAccept 50]; PCarry true 50; PNext false]) with
  | Ok P => match conn_poll_next (ep (right_end P)) with
            | Ok (_, r) => Some (wbuf (ep (left_end P)), arrived_at (right_end P), length (sent (ep (left_end P))), r)
            | _ => None end
  | _ => None end = Some ([], 38%nat, 38%nat, Pending).
Proof. vm_compute. reflexivity. Qed.

Print Assumptions C92_every_answer.
Print Assumptions C92_received_in_order.
Print Assumptions C92_nothing_lost.
Print Assumptions C92_all_can_be_received.
