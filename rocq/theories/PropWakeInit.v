(* PropWakeInit.v: C95: connecting as a task that is only run when woken. *)
From Verif Require Import Base BaseFacts Pkt SpecPkt PktFacts DecodeFacts Msg SpecMsg DecFacts MsgFacts WireFacts IsoFacts
  Tokio SpecConn ConnFacts State SpecState StateFacts RunFacts HistFacts ExState PropState PropSink SpecInit SpecReason SpecFail OwedFacts ViewFacts InitFacts PropConnect PropLive PropFail WakeInit SpecWakeInit.
From Verif Require PropWake.
From Coq Require Import ZifyBool ZifyNat ZifyN.
Ltac Zify.zify_post_hook ::= Z.div_mod_to_equations.

(* ---- a task that is not to be run cannot do anything ---- *)
Definition rests (k : client) : Prop :=
  match k_state k with
  | IRun _ PhFlush p => k_writer k = true /\ k_room k = 0%nat /\ k_broken k = None /\ wbuf (p_conn p) <> []
  | IRun _ PhWait p => k_reader k = true /\ has_errored (p_conn p) = false /\ is_readable (p_conn p) = false /\ rq (p_conn p) = [] /\ peer_closed (p_conn p) = false
  | _ => False
  end.
Definition kinv (k : client) : Prop := iinv (k_state k) /\ (k_runnable k = false -> rests k).
Lemma ready_at_once ws s p : iinv (IRun s PhReady p) -> conn_poll_ready (p_conn p) ws = (p_conn p, ws, Ready (IoOk tt)).
Proof. intros (_ & _ & _ & W). unfold conn_poll_ready. rewrite W by discriminate. reflexivity. Qed.
Lemma flush_pending k p c ws' : conn_poll_flush (p_conn p) (cwrites k) = (c, ws', Pending) ->
  k_broken k = None /\ wbuf c <> [] /\ length (sent c) = (length (sent (p_conn p)) + k_room k)%nat.
Proof.
  unfold conn_poll_flush, cwrites. destruct (k_broken k) as [e|]; [destruct (wbuf (p_conn p)); discriminate|]. intros E. split; [reflexivity|].
  destruct (k_room k) as [|n]; destruct (wbuf (p_conn p)) as [|b buf] eqn:EB; try discriminate E.
  - cbn in E. injection E as <- _. cbn. split; [discriminate | lia].
  - cbn [framed_flush] in E. destruct (skipn (S n) (b :: buf)) as [|b' buf'] eqn:ES; [discriminate E|]. cbn in E. injection E as <- _. cbn [set_write wbuf sent]. split; [discriminate|].
    assert (L : (S n <= length (b :: buf))%nat). { destruct (Nat.le_gt_cases (S n) (length (b :: buf))); [assumption|]. rewrite skipn_all2 in ES by lia. discriminate. }
    change (length (sent (p_conn p) ++ firstn (S n) (b :: buf)) = (length (sent (p_conn p)) + S n)%nat). rewrite app_length, firstn_length, Nat.min_l by exact L. reflexivity.
Qed.
Lemma cstep_kinv k a : cact_ok a -> kinv k -> kinv (cstep k a).
Proof.
  intros O (I & R). destruct k as [i run rd wt now room br]. unfold kinv, rests in *. cbn [k_state k_runnable k_reader k_writer k_room k_broken] in *.
  destruct a as [x|[|n]|e|d| |]; cbn [cstep k_state k_runnable k_reader k_writer k_room k_broken].
  - split; [apply iarrive_inv; assumption|]. intros E. apply orb_false_elim in E as [-> ->]. specialize (R eq_refl).
    destruct i as [s [] p|p|e|w]; cbn [iarrive]; try (exact R); try (destruct R as (R & _); discriminate R).
  - auto.
  - split; [exact I|]. intros E. apply orb_false_elim in E as [-> ->]. specialize (R eq_refl). destruct i as [s [] p|p|e|w]; try exact R. destruct R as (R & _). discriminate R.
  - split; [exact I|]. intros E. apply orb_false_elim in E as [-> ->]. specialize (R eq_refl). destruct i as [s [] p|p|e'|w]; try exact R. destruct R as (R & _). discriminate R.
  - auto.
  - split; [exact I | discriminate].
  - destruct run; [|cbn; auto]. set (k := mkClient i true rd wt now room br). pose proof (istep_inv now (cwrites k) i I) as I'.
    destruct (iwaits (cwrites k) i) as [sd|] eqn:EW; [|cbn; split; [exact I' | discriminate]].
    destruct i as [s ph p|p|e|w]; try discriminate EW. destruct ph; cbn [iwaits istep] in EW, I' |- *.
    + rewrite (ready_at_once _ _ _ I) in EW. discriminate EW.
    + destruct (conn_poll_flush (p_conn p) (cwrites k)) as [[c ws'] r] eqn:EF. destruct r; [|discriminate EW]. injection EW as <-.
      destruct (flush_pending _ _ _ _ EF) as (F1 & F2 & F3). cbn [k_state k_runnable k_reader k_writer k_room k_broken]. split; [exact I'|]. intros _.
      split; [reflexivity|]. split; [|split; [exact F1 | exact F2]]. unfold taken. cbn [with_conn p_conn]. rewrite F3. subst k. cbn. lia.
    + destruct (conn_poll_next (p_conn p)) as [[c r]|e|w] eqn:EN; try discriminate EW. destruct r; [|discriminate EW]. injection EW as <-.
      cbn [k_state k_runnable k_reader k_writer k_room k_broken with_conn p_conn]. split; [exact I'|]. intros _. split; [reflexivity|].
      apply (PropWake.nexts_pending_after (p_conn p)). apply conn_next_nexts; [apply I | exact EN].
Qed.
Lemma crun_kinv h : Forall cact_ok h -> kinv (crun h).
Proof.
  intros HO. unfold crun. assert (I0 : kinv client_new) by (split; [apply (irun_inv [] (Forall_nil _)) | discriminate]). revert I0. generalize client_new.
  induction HO as [|a h O HO IH]; intros k I; [exact I|]. cbn [fold_left]. apply IH. apply cstep_kinv; assumption.
Qed.
Lemma set_write_same c : set_write c (wbuf c) (sent c) = c.
Proof. destruct c. reflexivity. Qed.
Lemma with_conn_same p : with_conn p (p_conn p) = p.
Proof. destruct p. reflexivity. Qed.
Lemma idle_next c c' r : cinv c -> has_errored c = false -> is_readable c = false -> rq c = [] -> peer_closed c = false -> conn_poll_next c = Ok (c', r) -> c' = c /\ r = Pending.
Proof. intros _ Q1 Q2 Q3 Q4. unfold conn_poll_next. rewrite Q3. cbn. rewrite Q1, Q2, Q3, Q4. intros [= <- <-]. auto. Qed.
Lemma rests_idle k now : iinv (k_state k) -> rests k -> istep now (cwrites k) (k_state k) = k_state k.
Proof.
  intros I R. unfold rests in R. destruct (k_state k) as [s [] p|p|e|w]; try contradiction; cbn [istep].
  - destruct R as (R1 & R2 & R3 & R4). unfold conn_poll_flush, cwrites. rewrite R3, R2. destruct (wbuf (p_conn p)) as [|b buf] eqn:EB; [congruence|].
    cbn [framed_flush]. rewrite <- EB, set_write_same, with_conn_same. reflexivity.
  - destruct R as (R1 & Q1 & Q2 & Q3 & Q4). pose proof I as (PI & _). destruct (conn_next_total _ (proj1 PI)) as (c & r & EN & _). rewrite EN.
    destruct (idle_next _ _ _ (proj1 PI) Q1 Q2 Q3 Q4 EN) as [-> ->]. rewrite with_conn_same. reflexivity.
Qed.
(* Whatever has happened, a task that is not to be run could do nothing: it has used up all that has arrived and its request is out, or
   there is no room in the socket; running it anyway would change nothing. *)
Theorem C95_no_lost_wakeup : forall h, Forall cact_ok h -> k_runnable (crun h) = false ->
  exists s ph p, k_state (crun h) = IRun s ph p /\ at_rest (crun h) p /\ forall now, istep now (cwrites (crun h)) (IRun s ph p) = IRun s ph p.
Proof.
  intros h HO E. destruct (crun_kinv h HO) as (I & R). specialize (R E). pose proof (fun now => rests_idle _ now I R) as X. unfold rests in R.
  destruct (k_state (crun h)) as [s [] p|p|e|w] eqn:EK; try contradiction; eexists s, _, p; (split; [reflexivity|]); (split; [|exact X]).
  - right. destruct R as (R1 & R2 & R3 & R4). auto.
  - left. destruct R as (R1 & Q1 & Q2 & Q3 & Q4). pose proof I as (PI & _ & _ & W). split; [apply W; discriminate|]. split; [|auto].
    unfold unread. rewrite Q3. cbn. rewrite app_nil_r. apply PI. left. exact Q2.
Qed.
(* It is woken by what lets it go on: anything that arrives while it waits for a reply, room in the socket or its failure while it waits for room. *)
Theorem C95_woken : forall h s ph p, Forall cact_ok h -> k_runnable (crun h) = false -> k_state (crun h) = IRun s ph p ->
  (wbuf (p_conn p) = [] -> forall a, k_runnable (cstep (crun h) (CArrive a)) = true) /\
  (wbuf (p_conn p) <> [] -> (forall n, k_runnable (cstep (crun h) (CRoom (S n))) = true) /\ forall e, k_runnable (cstep (crun h) (CBreak e)) = true).
Proof.
  intros h s ph p HO E EK. destruct (crun_kinv h HO) as (I & R). specialize (R E). unfold rests in R. rewrite EK in R, I. pose proof I as (_ & _ & _ & W).
  destruct (crun h) as [i run rd wt now room br]. cbn [k_state k_runnable k_reader k_writer] in *. subst run. cbn [cstep k_runnable orb].
  destruct ph; [contradiction| |]; destruct R as (R & R'); subst.
  - split; [|auto]. intros WB. destruct R' as (_ & _ & R'). contradiction.
  - split; [auto|]. intros WB. elim WB. apply W. discriminate.
Qed.

(* ---- connecting succeeds ---- *)
Definition xinv (x : xworld) : Prop := kinv (x_client x) /\ k_broken (x_client x) = None.
Lemma cstep_state k a : local a -> k_broken k = None -> k_broken (cstep k a) = None /\
  (k_state (cstep k a) = k_state k /\ (a = CRun -> k_runnable k = false) \/ a = CRun /\ k_runnable k = true /\ k_state (cstep k a) = istep (k_now k) (cwrites k) (k_state k)).
Proof.
  intros L N. destruct k as [i run rd wt now room br]. cbn [k_broken] in N. destruct a as [x|[|n]|e|d| |]; try contradiction; cbn [cstep k_broken k_state]; try (split; [exact N | left; split; [reflexivity | discriminate]]).
  destruct run; [|cbn; auto]. destruct (iwaits _ i) as [[]|]; cbn; auto.
Qed.
Lemma cwrites_ok k : k_broken k = None -> Forall write_ok (cwrites k).
Proof. intros N. unfold cwrites. rewrite N. destruct (k_room k); repeat constructor. discriminate. Qed.
Lemma x_sim nm x a x' : u8s (x_net x) -> xinv x -> xhappens nm x a x' -> xinv x' /\ (world_of x' = world_of x \/ exists b, happens nm (world_of x) b (world_of x')).
Proof.
  intros U (K & N) H. destruct H as [a L|p f V NR F|q m body f NR A G Hb HF|a b E Na].
  - destruct (cstep_state _ a L N) as [N' S]. split; [split; [apply cstep_kinv; [destruct a; auto; contradiction | exact K] | exact N']|].
    unfold world_of. cbn [x_client x_out x_net x_replied]. destruct S as [(-> & _)|(_ & _ & ->)]; [auto|]. right. eexists.
    exact (H_client nm (world_of x) (k_now (x_client x)) _ (cwrites_ok _ N)).
  - split; [exact (conj K N)|]. right. eexists. exact (H_unrelated nm (world_of x) p f V NR F).
  - split; [exact (conj K N)|]. right. eexists. exact (H_reply nm (world_of x) q m body f NR A G Hb HF).
  - rewrite E in U. apply u8s_app in U as [U _]. split.
    + split; cbn [x_client]; [apply cstep_kinv; [exact U | exact K]|]. destruct (x_client x). exact N.
    + right. exists ADeliver. unfold world_of. cbn [x_client x_out x_net x_replied].
      replace (k_state (cstep (x_client x) (CArrive (Bytes a)))) with (iarrive (Bytes a) (k_state (x_client x))) by (destruct (x_client x); reflexivity).
      exact (H_deliver nm (world_of x) a b E Na).
Qed.
Lemma tracked_phase nm w a b c d : tracked any nm w (a, (b, (c, d))) ->
  exists s ph p, w_client w = IRun s ph p /\ iinv (IRun s ph p) /\ a = (250 - pos s)%nat /\ u8s (w_net w) /\
    match b with 3 => ph = PhReady | 2 => ph = PhFlush | 1 | 0 => ph = PhWait | _ => False end%nat.
Proof.
  intros T. inversion T as [s p qs fs pk pf C S N R E|s p qs fs pk pf part C S Q W N R E|s p qs fs pk pf g C S Q N R E|s p qs fs pre y post m' pf1 xf pf2 g C S Q L M A' N1 N2 N3 R E]; subst;
  pose proof (common_u8 _ _ _ _ _ _ _ _ _ C) as [_ U]; pose proof C as (A1 & A2 & _); eauto 10.
Qed.
Lemma istep_any now ws ws' s ph p : iinv (IRun s ph p) -> ph <> PhFlush -> istep now ws (IRun s ph p) = istep now ws' (IRun s ph p).
Proof.
  intros I N. destruct ph; [|contradiction|reflexivity]. cbn [istep]. rewrite !(ready_at_once _ _ _ I). reflexivity.
Qed.
(* what has arrived completely keeps the task runnable *)
Lemma arrived_runs nm x a : forall d, xinv x -> tracked any nm (world_of x) (a, (0, (0, d)))%nat -> k_runnable (x_client x) = true.
Proof.
  intros d (K & N). induction d as [d IH] using (well_founded_induction Nat.lt_wf_0). intros T.
  destruct (k_runnable (x_client x)) eqn:ER; [reflexivity|]. destruct K as (I & R). pose proof (rests_idle _ 0 I (R ER)) as ID.
  destruct (tracked_phase _ _ _ _ _ _ T) as (s & ph & p & E & I' & EA & _ & ->). cbn [world_of w_client] in E.
  rewrite E, (istep_any 0 _ [WAccept 1]) in ID by (auto; discriminate).
  assert (HW : Forall write_ok [WAccept 1]) by (repeat constructor; discriminate).
  destruct (tracked_client any nm _ _ 0 [WAccept 1] (x_out x) T HW) as [(p' & qs & fs & F & _)|(V' & T' & _ & H)].
  - cbn [world_of w_client] in F. rewrite E, ID in F. discriminate F.
  - specialize (H Logic.I). destruct V' as (a' & b' & c' & d'). destruct (tracked_phase _ _ _ _ _ _ T') as (s' & ph' & q & E' & _ & EA' & _).
    cbn [world_of w_client w_net w_replied] in T', E'. rewrite E, ID in T', E'. injection E' as <- <- <-. cbn [rlt] in H. assert (H0 : a' = a) by congruence.
    assert (b' = 0 /\ c' = 0 /\ d' < d)%nat as (-> & -> & L) by lia. apply (IH d' L). unfold world_of. rewrite E, <- H0. exact T'.
Qed.
Definition xhelpful (x : xworld) (v : rank) (a : xact) : Prop :=
  match v with
  | (_, (0, (S _, _))) => a = XDeliver
  | (_, (1, _)) => a = XReply
  | (_, (2, _)) => a = XTask CRun /\ k_room (x_client x) <> 0
  | _ => a = XTask CRun
  end%nat.
Lemma ready_runs nm x a b c d : xinv x -> tracked any nm (world_of x) (a, (b, (c, d))) -> 
  match b with 0 => c = 0 | 1 => False | 2 => k_room (x_client x) <> 0 | _ => True end%nat -> k_runnable (x_client x) = true.
Proof.
  intros X T H. destruct b as [|b]; [subst c; eapply arrived_runs; eauto|]. destruct (tracked_phase _ _ _ _ _ _ T) as (s & ph & p & E & _ & _ & _ & P).
  cbn [world_of w_client] in E. destruct (k_runnable (x_client x)) eqn:ER; [reflexivity|]. destruct X as ((_ & R) & _). specialize (R ER). unfold rests in R. rewrite E in R.
  destruct b as [|[|[|b]]]; try contradiction; subst ph; [tauto | contradiction].
Qed.
Ltac fst_of H := match type of H with _ /\ _ => destruct H as [H _] | _ => idtac end.
Lemma x_tracked_step nm x V a x' : xinv x -> tracked any nm (world_of x) V -> xhappens nm x a x' ->
  finished nm (world_of x') \/ exists V', tracked any nm (world_of x') V' /\ (V' = V \/ rlt V' V) /\ (xhelpful x V a -> rlt V' V).
Proof.
  intros X T H. pose proof X as (_ & N). destruct H as [a L|p f Vp NR F|q m body f NR A G Hb HF|a b E Na].
  - destruct V as (v1 & v2 & v3 & v4). destruct (cstep_state _ a L N) as [N' [(S & NR)|(-> & ER & S)]]; unfold world_of; cbn [x_client x_out x_net x_replied]; rewrite S.
    + right. eexists. split; [exact T|]. split; [auto|]. intros H. exfalso.
      assert (EA : a = CRun) by (destruct v2 as [|[|[|v2]]]; [destruct v3| | |]; cbn [xhelpful] in H; fst_of H; try discriminate H; injection H as ->; reflexivity).
      specialize (NR EA). rewrite (ready_runs nm x v1 v2 v3 v4 X T) in NR; [discriminate NR|].
      destruct v2 as [|[|[|v2]]]; [destruct v3| | |]; cbn [xhelpful] in H; try discriminate H; try exact Logic.I; [reflexivity | apply H].
    + destruct (tracked_phase _ _ _ _ _ _ T) as (s & ph & p & E & I & _ & _ & P). cbn [world_of w_client] in E.
      assert (G : forall ws, Forall write_ok ws -> istep (k_now (x_client x)) ws (k_state (x_client x)) = istep (k_now (x_client x)) (cwrites (x_client x)) (k_state (x_client x)) ->
        (xhelpful x (v1, (v2, (v3, v4))) (XTask CRun) -> helpful (v1, (v2, (v3, v4))) (AClient (k_now (x_client x)) ws)) ->
        finished nm (mkWorld (istep (k_now (x_client x)) (cwrites (x_client x)) (k_state (x_client x))) (x_out x) (x_net x) (x_replied x)) \/
        exists V', tracked any nm (mkWorld (istep (k_now (x_client x)) (cwrites (x_client x)) (k_state (x_client x))) (x_out x) (x_net x) (x_replied x)) V' /\
          (V' = (v1, (v2, (v3, v4))) \/ rlt V' (v1, (v2, (v3, v4)))) /\ (xhelpful x (v1, (v2, (v3, v4))) (XTask CRun) -> rlt V' (v1, (v2, (v3, v4))))).
      { intros ws HW ES HH. rewrite <- ES. destruct (tracked_client any nm _ _ (k_now (x_client x)) ws (x_out x) T HW) as [F|(V' & T' & O & D)]; [left; exact F|].
        right. exists V'. split; [exact T'|]. split; [exact O|]. auto. }
      assert (HW : Forall write_ok [WAccept 1]) by (repeat constructor; discriminate).
      destruct (Nat.eq_dec v2 2) as [->|N2].
      * apply (G _ (cwrites_ok _ N) eq_refl). cbn [xhelpful helpful runs]. intros [_ R]. unfold cwrites. rewrite N. destruct (k_room (x_client x)); [congruence | exact Logic.I].
      * apply (G _ HW); [rewrite E; apply istep_any; [exact I|]; destruct v2 as [|[|[|[|v2]]]]; try contradiction; subst; congruence|].
        destruct v2 as [|[|[|v2]]]; [destruct v3| | |]; cbn [xhelpful helpful runs]; intros H; try discriminate H; try exact Logic.I.
  - right. exists V. split; [exact (tracked_unrelated any nm (world_of x) V p f _ T Vp NR Logic.I F)|]. split; [auto|]. intros H. exfalso.
    destruct V as (v1 & [|[|[|v2]]] & [|v3] & v4); cbn [xhelpful] in H; fst_of H; discriminate H.
  - right. destruct (tracked_reply any nm (world_of x) V q m body f (x_out x ++ [PAscii body]) T NR A G Hb HF) as (V' & T' & O & D). exists V'. split; [exact T'|]. split; [exact O|].
    intros H. apply D. destruct V as (v1 & [|[|[|v2]]] & [|v3] & v4); cbn [xhelpful helpful] in *; fst_of H; try discriminate H; reflexivity.
  - right. destruct (tracked_deliver any nm (world_of x) V a b (x_out x) T E Na) as (V' & T' & O & D). exists V'. split.
    + unfold world_of. cbn [x_client x_out x_net x_replied].
      replace (k_state (cstep (x_client x) (CArrive (Bytes a)))) with (iarrive (Bytes a) (k_state (x_client x))) by (destruct (x_client x); reflexivity). exact T'.
    + split; [exact O|]. intros H. apply D. destruct V as (v1 & [|[|[|v2]]] & [|v3] & v4); cbn [xhelpful helpful] in *; fst_of H; try discriminate H; reflexivity.
Qed.
Lemma tracked_u8 nm w V : tracked any nm w V -> u8s (w_net w).
Proof. destruct V as (a & b & c & d). intros T. destruct (tracked_phase _ _ _ _ _ _ T) as (? & ? & ? & _ & _ & _ & U & _). exact U. Qed.
Lemma finished_u8 nm w : finished nm w -> u8s (w_net w).
Proof. intros (p & qs & fs & _ & _ & _ & _ & _ & U). exact U. Qed.
Lemma x_possible nm xs acts : xexecution nm xs acts -> forall n, xinv (xs n) /\ possible nm (world_of (xs n)).
Proof.
  intros (E0 & X). induction n as [|n (I & P)].
  - rewrite E0. split; [|exact (P_new nm)]. split; [|reflexivity]. split; [apply (irun_inv [] (Forall_nil _)) | discriminate].
  - assert (U : u8s (x_net (xs n))) by (destruct (possible_tracked _ _ P) as [F|(V & T)]; [exact (finished_u8 _ _ F) | exact (tracked_u8 _ _ _ T)]).
    destruct (x_sim _ _ _ _ U I (X n)) as (I' & [W|(b & H)]); (split; [exact I'|]); [rewrite W; exact P | eapply P_step; eauto].
Qed.
Section Fair.
  Variables (nm : naming) (xs : nat -> xworld) (acts : nat -> xact).
  (* what happens after it has connected does not matter *)
  Hypotheses (X : forall n V, tracked any nm (world_of (xs n)) V -> xinv (xs n) /\ xhappens nm (xs n) (acts n) (xs (S n))).
  Definition down (V : rank) : Prop := exists n, finished nm (world_of (xs n)) \/ exists V', tracked any nm (world_of (xs n)) V' /\ rlt V' V.
  Lemma xstays V m : forall k n, (n + k = m)%nat -> tracked any nm (world_of (xs n)) V -> tracked any nm (world_of (xs m)) V \/ down V.
  Proof.
    induction k as [|k IH]; intros n E T; [rewrite Nat.add_0_r in E; subst n; auto|].
    destruct (x_tracked_step _ _ _ _ _ (proj1 (X n _ T)) T (proj2 (X n _ T))) as [F|(V' & T' & [->|L] & D)]; [right; exists (S n); auto | | right; exists (S n); eauto].
    apply (IH (S n)); [lia | exact T'].
  Qed.
  Lemma xhelps V m : tracked any nm (world_of (xs m)) V -> xhelpful (xs m) V (acts m) -> down V.
  Proof.
    intros T H. destruct (x_tracked_step _ _ _ _ _ (proj1 (X m _ T)) T (proj2 (X m _ T))) as [F|(V' & T' & _ & D)]; exists (S m); [auto | eauto].
  Qed.
  (* room in the socket stays until the task is run *)
  Lemma room_step n V : tracked any nm (world_of (xs n)) V -> k_room (x_client (xs n)) <> 0%nat -> acts n <> XTask CRun -> k_room (x_client (xs (S n))) <> 0%nat.
  Proof.
    intros T R N. destruct (proj2 (X n V T)) as [a L|p f V0 NR F|q m body f NR A G Hb HF|a b E Na]; cbn [x_client]; auto.
    - destruct (x_client (xs n)) as [i run rd wt now room br]. destruct a as [x|[|k]|e|d| |]; try contradiction; cbn [cstep k_room] in *; try exact R. lia.
    - destruct (x_client (xs n)). exact R.
  Qed.
  Lemma room_run V m0 : tracked any nm (world_of (xs m0)) V -> forall k n m, (m0 <= n)%nat -> (n + k = m)%nat -> k_room (x_client (xs n)) <> 0%nat -> acts m = XTask CRun ->
    down V \/ exists m', (n <= m')%nat /\ acts m' = XTask CRun /\ k_room (x_client (xs m')) <> 0%nat.
  Proof.
    intros T. induction k as [|k IH]; intros n m LE E R A.
    - right. exists n. rewrite Nat.add_0_r in E. subst m. auto.
    - assert (D : acts n = XTask CRun \/ acts n <> XTask CRun) by (destruct (acts n) as [[]| | |]; auto; right; discriminate).
      destruct D as [D|D]; [right; exists n; auto|]. destruct (xstays V n (n - m0) m0) as [Tn|G]; [lia | exact T | |auto].
      destruct (IH (S n) m) as [G|(m' & L & Y)]; [lia | lia | eapply room_step; eauto | exact A | auto|]. right. exists m'. split; [lia | exact Y].
  Qed.
  Lemma xfair_finishes : xfair xs acts -> forall V n, tracked any nm (world_of (xs n)) V -> exists m, finished nm (world_of (xs m)).
  Proof.
    intros (F1 & FR & F2 & F3) V. induction V as [V IH] using (well_founded_induction rlt_wf). intros n T.
    assert (I : forall m V, tracked any nm (world_of (xs m)) V -> xinv (xs m)) by (intros m V' T'; apply (X m V' T')).
    assert (ST : forall m, (n <= m)%nat -> tracked any nm (world_of (xs m)) V \/ down V) by (intros m L; apply (xstays V m (m - n) n); [lia | exact T]).
    assert (D : down V).
    { destruct V as (a & [|[|[|b]]] & c & d).
      - destruct c as [|c].
        + destruct (F1 n) as (m & L & R). destruct (ST m L) as [Tm|G]; [|exact G].
          destruct R as [R|R]; [|rewrite (ready_runs _ _ _ _ _ _ (I m _ Tm) Tm eq_refl) in R; discriminate R]. apply (xhelps _ m Tm). exact R.
        + destruct (F3 n) as (m & L & R). destruct (ST m L) as [Tm|G]; [|exact G].
          destruct R as [R|R]; [|elim (flight_net _ _ _ _ _ _ Tm R)]. apply (xhelps _ m Tm). exact R.
      - destruct (F2 n) as (m & L & R). destruct (ST m L) as [Tm|G]; [|exact G].
        destruct R as [R|R]; [|destruct (owed_next _ _ _ _ _ _ Tm) as (q & Hq); elim (R q Hq)]. apply (xhelps _ m Tm). exact R.
      - destruct (FR n) as (m1 & L1 & R1). destruct (F1 m1) as (m & L & R).
        assert (Z : down (a, (2, (c, d)))%nat \/ exists m', (m1 <= m')%nat /\ acts m' = XTask CRun /\ k_room (x_client (xs m')) <> 0%nat).
        { destruct R as [R|R]; [apply (room_run _ n T (m - m1) m1 m); auto; lia|].
          (* not runnable with room: room is used up by a run before *)
          destruct (ST m ltac:(lia)) as [Tm|G]; [|auto].
          assert (RM : k_room (x_client (xs m)) = 0%nat).
          { destruct (Nat.eq_dec (k_room (x_client (xs m))) 0) as [Z|Z]; [exact Z|]. rewrite (ready_runs _ _ _ _ _ _ (I m _ Tm) Tm Z) in R. discriminate R. }
          assert (Y : forall k j, (n <= j)%nat -> (j + k = m)%nat -> k_room (x_client (xs j)) <> 0%nat -> down (a, (2, (c, d)))%nat \/ exists m', (j <= m')%nat /\ acts m' = XTask CRun /\ k_room (x_client (xs m')) <> 0%nat).
          { induction k as [|k IHk]; intros j LJ E RJ; [rewrite Nat.add_0_r in E; subst j; contradiction|].
            assert (D : acts j = XTask CRun \/ acts j <> XTask CRun) by (destruct (acts j) as [[]| | |]; auto; right; discriminate).
            destruct D as [D|D]; [right; exists j; auto|]. destruct (ST j LJ) as [Tj|G]; [|auto]. destruct (IHk (S j)) as [G|(m' & L' & Y)]; [lia | lia | eapply room_step; eauto | auto|]. right. exists m'. split; [lia | exact Y]. }
          apply (Y (m - m1)%nat m1); [lia | lia | exact R1]. }
        destruct Z as [Z|(m' & L' & A' & R')]; [exact Z|]. destruct (ST m' ltac:(lia)) as [Tm|G]; [|exact G]. apply (xhelps _ m' Tm). exact (conj A' R').
      - destruct (F1 n) as (m & L & R). destruct (ST m L) as [Tm|G]; [|exact G].
        destruct R as [R|R]; [|rewrite (ready_runs _ _ _ _ _ _ (I m _ Tm) Tm Logic.I) in R; discriminate R]. apply (xhelps _ m Tm). exact R. }
    destruct D as (n' & [F|(V' & T' & L)]); [eauto|]. exact (IH V' L n' T').
  Qed.
End Fair.
(* Connecting succeeds, with the names of the panel known, although the task is run only after it has been woken. *)
Theorem C95_connect_succeeds : forall nm xs acts, xexecution nm xs acts -> xfair xs acts ->
  exists n p, k_state (x_client (xs n)) = IDone p /\ names_known nm p.
Proof.
  intros nm xs acts X F. destruct (xfair_finishes nm xs acts (fun n V _ => conj (proj1 (x_possible _ _ _ X n)) (proj2 X n)) F (250, (3, (0, 0)))%nat 0%nat) as (n & p & qs & fs & E & _).
  - rewrite (proj1 X). apply tracked_new.
  - exists n, p. split; [exact E|]. exact (C36_connect_names nm _ p (proj2 (x_possible _ _ _ X n)) E).
Qed.
(* Running it at every opportunity, woken or not, would get it no further. *)
Lemma busy_same k k' a : cact_ok a -> kinv k -> k_state k = k_state k' /\ k_now k = k_now k' /\ k_room k = k_room k' /\ k_broken k = k_broken k' ->
  k_state (cstep k a) = k_state (bstep k' a) /\ k_now (cstep k a) = k_now (bstep k' a) /\ k_room (cstep k a) = k_room (bstep k' a) /\ k_broken (cstep k a) = k_broken (bstep k' a).
Proof.
  intros O K (E1 & E2 & E3 & E4). assert (EW : cwrites k' = cwrites k) by (unfold cwrites; rewrite E3, E4; reflexivity).
  destruct a as [x|[|n]|e|d| |]; try (destruct k, k'; cbn in *; subst; auto; fail).
  unfold bstep. rewrite <- E1, <- E2, <- E3, <- E4. destruct (k_runnable k) eqn:ER.
  - destruct k as [i run rd wt now room br]. cbn in ER. subst run. cbn [k_state k_now k_room k_broken cstep].
    change (cwrites {| k_state := i; k_runnable := true; k_reader := k_reader k'; k_writer := k_writer k'; k_now := now; k_room := room; k_broken := br |})
      with (cwrites {| k_state := i; k_runnable := true; k_reader := rd; k_writer := wt; k_now := now; k_room := room; k_broken := br |}).
    destruct (iwaits _ i) as [[]|]; cbn; auto.
  - destruct K as (I & R). pose proof (rests_idle _ (k_now k) I (R ER)) as ID. destruct k as [i run rd wt now room br]. cbn in ER. subst run. cbn [k_state k_now k_room k_broken cstep] in *.
    change (cwrites {| k_state := i; k_runnable := true; k_reader := k_reader k'; k_writer := k_writer k'; k_now := now; k_room := room; k_broken := br |})
      with (cwrites {| k_state := i; k_runnable := false; k_reader := rd; k_writer := wt; k_now := now; k_room := room; k_broken := br |}).
    rewrite ID, Nat.sub_diag, Nat.sub_0_r. destruct (iwaits _ i) as [[]|]; cbn; auto.
Qed.
Theorem C95_as_if_always_run : forall h, Forall cact_ok h -> k_state (crun h) = k_state (brun h) /\ k_room (crun h) = k_room (brun h).
Proof.
  intros h HO. assert (G : k_state (crun h) = k_state (brun h) /\ k_now (crun h) = k_now (brun h) /\ k_room (crun h) = k_room (brun h) /\ k_broken (crun h) = k_broken (brun h)).
  { induction h as [|a h IH] using rev_ind; [auto|]. apply Forall_app in HO as [HO HA]. inversion HA; subst. unfold crun, brun. rewrite !fold_left_app. cbn [fold_left].
    apply busy_same; [assumption | exact (crun_kinv h HO) | exact (IH HO)]. }
  tauto.
Qed.

(* ---- connecting ends when the connection does ---- *)
Section Ends.
  Variables (ks : nat -> client) (acts : nat -> cact) (n0 : nat) (a : list arrival) (closed : bool) (os : list outcome) (left : bytes).
  Hypotheses (X : cexecution ks acts) (A : Forall arrival_ok a) (EA : carrivals acts n0 = a ++ (if closed then [PeerClose] else []))
    (O : owed [] a os left) (C : closed = true \/ exists e, In (Error e) os) (Q : forall n x, (n0 <= n)%nat -> acts n <> CArrive x).
  Lemma ks_inv n : kinv (ks n).
  Proof. induction n as [|n IH]; [rewrite (proj1 X); split; [apply (irun_inv [] (Forall_nil _)) | discriminate]|]. rewrite (proj2 (proj2 X n)). apply cstep_kinv; [apply X | exact IH]. Qed.
  (* a step of the execution: an arrival, a run, or nothing for connecting *)
  Lemma ks_step n : match acts n with
    | CArrive x => k_state (ks (S n)) = iarrive x (k_state (ks n))
    | CRun => k_state (ks (S n)) = istep (k_now (ks n)) (cwrites (ks n)) (k_state (ks n))
    | _ => k_state (ks (S n)) = k_state (ks n) end.
  Proof.
    rewrite (proj2 (proj2 X n)). pose proof (ks_inv n) as (I & R). pose proof (fun E => rests_idle _ (k_now (ks n)) I (R E)) as ID.
    destruct (ks n) as [i run rd wt now room br]. destruct (acts n) as [x|[|j]|e|d| |]; try reflexivity. cbn [cstep k_state k_now k_runnable] in *.
    destruct run; [destruct (iwaits _ i) as [[]|]; reflexivity | rewrite (ID eq_refl); reflexivity].
  Qed.
  Lemma ks_history n : exists h, Forall iop_ok h /\ iarrivals h = carrivals acts n /\ irun conn_new h = k_state (ks n).
  Proof.
    induction n as [|n (h & HO & EH & ER)]; [exists []; rewrite (proj1 X); auto|]. pose proof (ks_step n) as S. pose proof (proj1 (proj2 X n)) as OK.
    unfold carrivals in *. rewrite seq_S, flat_map_app. cbn [flat_map plus]. rewrite app_nil_r, <- EH. destruct (acts n) as [x|j|e|d| |]; rewrite S, <- ER.
    - exists (h ++ [IArrive x]). rewrite iarrivals_app, irun_snoc. split; [apply Forall_app; repeat constructor; auto | auto].
    - exists h. rewrite app_nil_r. auto.
    - exists h. rewrite app_nil_r. auto.
    - exists h. rewrite app_nil_r. auto.
    - exists h. rewrite app_nil_r. auto.
    - exists (h ++ [IStep (k_now (ks n)) (cwrites (ks n))]). rewrite iarrivals_app, irun_snoc. split; [apply Forall_app; repeat constructor; auto | auto].
  Qed.
  (* how far connecting is from its end *)
  Definition left_to_do (n : nat) (v : nat * nat) : Prop := exists k s ph p, k_state (ks n) = IRun s ph p /\ so_far a closed k (IRun s ph p) /\
    v = (steps_left (S (length os)) k (IRun s ph p), length (wbuf (p_conn p))).
  Definition lt2 (v w : nat * nat) : Prop := (fst v < fst w \/ fst v = fst w /\ snd v < snd w)%nat.
  Lemma lt2_wf : well_founded lt2.
  Proof.
    intros (x & y). revert y. induction x as [x IHx] using (well_founded_induction Nat.lt_wf_0). intros y. induction y as [y IHy] using (well_founded_induction Nat.lt_wf_0).
    constructor. intros (x' & y') [H|[H H']]; cbn in *; [auto | subst; auto].
  Qed.
  Lemma left_start : ~ running (k_state (ks n0)) \/ exists v, left_to_do n0 v.
  Proof.
    destruct (ks_history n0) as (h & HO & EH & ER). rewrite EA in EH. destruct (so_far_run h a closed (conj A EH)) as (k & S). rewrite ER in S.
    destruct (k_state (ks n0)) as [s ph p|p|e|w] eqn:EK; [right | left; intros (? & ? & ? & Y); discriminate Y..]. eexists _, k, s, ph, p. rewrite EK. auto.
  Qed.
  Definition reached (n : nat) (v : nat * nat) : Prop := ~ running (k_state (ks n)) \/ exists v', left_to_do n v' /\ lt2 v' v.
  Definition can_go (n : nat) : Prop := match k_state (ks n) with IRun _ PhFlush _ => k_room (ks n) <> 0%nat \/ k_broken (ks n) <> None | _ => True end.
  Lemma flush_case now ws s p k : so_far a closed k (IRun s PhFlush p) -> exists c ws' r, conn_poll_flush (p_conn p) ws = (c, ws', r) /\
    (length (sent c) + length (wbuf c) = length (sent (p_conn p)) + length (wbuf (p_conn p)))%nat /\ (length (sent (p_conn p)) <= length (sent c))%nat /\
    match r with
    | Pending => istep now ws (IRun s PhFlush p) = IRun s PhFlush (with_conn p c) /\ so_far a closed k (IRun s PhFlush (with_conn p c))
    | Ready (IoOk _) => istep now ws (IRun s PhFlush p) = IRun s PhWait (with_conn p c) /\ so_far a closed k (IRun s PhWait (with_conn p c))
    | Ready (IoErr e) => istep now ws (IRun s PhFlush p) = IFail e
    end.
  Proof.
    intros (R & T). cbn [istep]. destruct (conn_poll_flush (p_conn p) ws) as [[c ws'] r] eqn:EF. exists c, ws', r. split; [reflexivity|].
    destruct (conn_flush_spec _ _ _ _ _ EF) as (SR & _ & SW & (j & EJ) & WE & _).
    split; [pose proof (f_equal (@length N) SW) as LW; unfold bytes in *; rewrite !app_length in LW; exact LW|].
    split; [rewrite EJ, app_length; lia|].
    assert (R' : read_so_far (p_conn (with_conn p c)) a closed k) by (destruct R as [R1 R2]; split; [eapply after_read; eauto | exact R2]).
    destruct T as (qs & fs & F & g & Fg & Sg).
    assert (T1 : g ++ wbuf (p_conn p) = (g ++ firstn j (wbuf (p_conn p))) ++ wbuf c).
    { rewrite EJ, <- app_assoc in SW. apply app_inv_head in SW. rewrite <- app_assoc, SW. reflexivity. }
    destruct r as [|[[]|e]]; [| |reflexivity]; (split; [reflexivity|]); (split; [exact R'|]); exists qs, fs; (split; [exact F|]).
    - exists (g ++ firstn j (wbuf (p_conn p))). cbn [p_conn with_conn]. rewrite <- T1. split; [exact Fg|]. rewrite EJ, Sg, <- app_assoc. reflexivity.
    - exists (g ++ wbuf (p_conn p)). split; [exact Fg|]. cbn [p_conn with_conn]. rewrite T1, (WE eq_refl), app_nil_r, EJ, Sg, <- app_assoc. reflexivity.
  Qed.
  Lemma left_step n v : (n0 <= n)%nat -> left_to_do n v -> reached (S n) v \/ left_to_do (S n) v /\ (acts n = CRun -> ~ can_go n).
  Proof.
    intros L (k & s & ph & p & EK & SF & ->). pose proof (ks_step n) as S. pose proof (fun x => Q n x L) as NA.
    destruct (acts n) as [x|j|e|d| |]; [elim (NA x eq_refl)| | | | |]; try (right; split; [exists k, s, ph, p; rewrite S; auto | discriminate]; fail).
    pose proof (proj1 (ks_inv n)) as I. unfold can_go. rewrite EK in S, I |- *.
    assert (D : ph = PhFlush \/ ph <> PhFlush) by (destruct ph; auto; right; discriminate). destruct D as [->|NF].
    - destruct (flush_case (k_now (ks n)) (cwrites (ks n)) s p k SF) as (c & ws' & r & EF & LW & LS & H). destruct r as [|[[]|e]].
      + destruct H as (H & SF'). rewrite H in S. destruct (flush_pending _ _ _ _ EF) as (NB & _ & LR).
        destruct (k_room (ks n)) as [|m] eqn:ER.
        * right. split; [|intros _ [Y|Y]; congruence]. exists k, s, PhFlush, (with_conn p c). split; [exact S|]. split; [exact SF'|]. cbn [p_conn with_conn steps_left]. f_equal. lia.
        * left. right. eexists. split; [exists k, s, PhFlush, (with_conn p c); split; [exact S|]; split; [exact SF' | reflexivity]|]. right. cbn [fst snd steps_left p_conn with_conn]. lia.
      + destruct H as (H & SF'). rewrite H in S. left. right. eexists. split; [exists k, s, PhWait, (with_conn p c); split; [exact S|]; split; [exact SF' | reflexivity]|].
        left. cbn [fst snd steps_left p_conn with_conn]. lia.
      + left. left. rewrite S, H. intros (? & ? & ? & Y). discriminate Y.
    - left. rewrite (istep_any _ _ (repeat (WAccept 100) 15) _ _ _ I NF) in S.
      destruct (step_case (k_now (ks n)) (repeat (WAccept 100) 15) s ph p a closed k I SF) as (k' & os' & left' & O' & SF' & M & _).
      destruct (owed_fun _ _ _ _ O _ _ O') as [<- <-]. rewrite <- S in SF', M.
      destruct (k_state (ks (Datatypes.S n))) as [s' ph' p'|p'|e|w] eqn:E'; [|left; rewrite E'; intros (? & ? & ? & Y); discriminate Y..].
      right. eexists. split; [exists k', s', ph', p'; split; [exact E'|]; split; [exact SF' | reflexivity]|]. left. cbn [fst].
      apply M; [split; [repeat constructor; eexists; reflexivity | cbn; lia] | exact C | repeat eexists].
  Qed.
  Lemma left_runnable n v : left_to_do n v -> can_go n -> k_runnable (ks n) = true.
  Proof.
    intros (k & s & ph & p & EK & SF & ->) G. unfold can_go in G. destruct (k_runnable (ks n)) eqn:ER; [reflexivity|]. exfalso.
    pose proof (proj2 (ks_inv n) ER) as R. unfold rests in R. rewrite EK in R, G. destruct ph; [exact R | |].
    - destruct R as (_ & R1 & R2 & _). destruct G; contradiction.
    - destruct R as (_ & Q1 & Q2 & Q3 & Q4). destruct SF as (RS & _). destruct (read_case _ _ _ _ RS) as (os' & left' & c & r & O' & EN & _ & H).
      destruct (idle_next _ _ _ (proj1 (proj1 RS)) Q1 Q2 Q3 Q4 EN) as [_ ->]. destruct (owed_fun _ _ _ _ O _ _ O') as [<- <-].
      destruct H as [(pkt & Y & _)|[(e & ps & os' & Y & _)|[(ps & Y & _)|[(ps & Y & _)|(ps & _ & CF & EO & _)]]]]; try discriminate Y.
      destruct C as [C'|(e & C')]; [congruence|]. rewrite EO in C'. apply in_map_iff in C' as (? & Y & _). discriminate Y.
  Qed.
  Lemma go_step n : (n0 <= n)%nat -> acts n <> CRun -> can_go n -> can_go (S n).
  Proof.
    intros L N G. unfold can_go in *. pose proof (ks_step n) as S. pose proof (fun x => Q n x L) as NA. rewrite (proj2 (proj2 X n)) in *.
    destruct (ks n) as [i run rd wt now room br]. destruct (acts n) as [x|[|j]|e|d| |]; try contradiction; [elim (NA x eq_refl)|..]; cbn [cstep k_state k_room k_broken] in *; try exact G;
      destruct i as [s [] p|p|e'|w]; auto; [left; lia | right; discriminate].
  Qed.
  Lemma left_stays v m : forall k n, (n0 <= n)%nat -> (n + k = m)%nat -> left_to_do n v -> left_to_do m v \/ exists n', (n0 <= n')%nat /\ reached n' v.
  Proof.
    induction k as [|k IH]; intros n L E T; [rewrite Nat.add_0_r in E; subst n; auto|].
    destruct (left_step n v L T) as [R|[T' _]]; [right; exists (S n); auto|]. apply (IH (S n)); [lia | lia | exact T'].
  Qed.
  Lemma go_stays v m : forall k n, (n0 <= n)%nat -> (n + k = m)%nat -> left_to_do n v -> can_go n -> left_to_do m v /\ can_go m \/ exists n', (n0 <= n')%nat /\ reached n' v.
  Proof.
    induction k as [|k IH]; intros n L E T G; [rewrite Nat.add_0_r in E; subst n; auto|].
    destruct (left_step n v L T) as [R|[T' NG]]; [right; exists (S n); auto|]. apply (IH (S n)); [lia | lia | exact T'|]. apply go_step; auto.
    intros Y. exact (NG Y G).
  Qed.
  Lemma ends_from : cfair ks acts -> forall v n, (n0 <= n)%nat -> left_to_do n v -> exists m, ~ running (k_state (ks m)).
  Proof.
    intros (F1 & F2) v. induction v as [v IH] using (well_founded_induction lt2_wf). intros n L T.
    assert (D : exists n', (n0 <= n')%nat /\ reached n' v).
    { destruct (F2 n) as (m1 & L1 & R1). destruct (left_stays v m1 (m1 - n) n L ltac:(lia) T) as [T1|D]; [|exact D].
      assert (G1 : can_go m1) by (unfold can_go; destruct (k_state (ks m1)) as [s [] p|p|e|w]; auto).
      destruct (F1 m1) as (m2 & L2 & R2). destruct (go_stays v m2 (m2 - m1) m1 ltac:(lia) ltac:(lia) T1 G1) as [[T2 G2]|D]; [|exact D].
      destruct R2 as [R2|R2]; [|rewrite (left_runnable _ _ T2 G2) in R2; discriminate R2].
      destruct (left_step m2 v ltac:(lia) T2) as [R|[_ NG]]; [exists (S m2); split; [lia | exact R] | elim (NG R2 G2)]. }
    destruct D as (n' & L' & [D|(v' & T' & LT)]); [exists n'; exact D|]. exact (IH v' LT n' L' T').
  Qed.
End Ends.
(* Once the panel has closed the connection or a read has failed, connecting comes to an end, with a task that is only run when woken. *)
Theorem C95_ends : forall ks acts n a (closed : bool) os left, cexecution ks acts -> cfair ks acts ->
  Forall arrival_ok a -> carrivals acts n = a ++ (if closed then [PeerClose] else []) -> owed [] a os left -> closed = true \/ (exists e, In (Error e) os) ->
  (forall m x, (n <= m)%nat -> acts m <> CArrive x) -> exists m, ~ running (k_state (ks m)).
Proof.
  intros ks acts n a closed os left X F A EA O C Q. destruct (left_start ks acts n a closed os X A EA) as [D|(v & T)]; [eauto|].
  eapply (ends_from ks acts n a closed os left); eauto.
Qed.

(* ---- an example: a fair execution, with a socket that is full at first ---- *)
Inductive xmv : Type := XMvTask (a : cact) | XMvUnrelated | XMvReply | XMvDeliver.
Definition xanswer (x : xworld) : message := nth (x_replied x) ex_answers MRtcRequest.
Definition xmove (x : xworld) (v : xmv) : xworld :=
  match v with
  | XMvTask a => mkX (cstep (x_client x) a) (x_out x) (x_net x) (x_replied x)
  | XMvUnrelated => mkX (x_client x) (x_out x ++ [ex_pkt ex_extra]) (x_net x ++ bytes_of ex_extra) (x_replied x)
  | XMvReply => mkX (x_client x) (x_out x ++ [ex_pkt (xanswer x)]) (x_net x ++ bytes_of (xanswer x)) (S (x_replied x))
  | XMvDeliver => mkX (cstep (x_client x) (CArrive (Bytes (x_net x)))) (x_out x) [] (x_replied x)
  end.
Definition xact_of (v : xmv) : xact := match v with XMvTask a => XTask a | XMvUnrelated => XUnrelated | XMvReply => XReply | XMvDeliver => XDeliver end.
Definition can_xmove (x : xworld) (v : xmv) : bool :=
  match v with
  | XMvTask a => match a with CArrive _ | CBreak _ => false | _ => true end
  | XMvUnrelated => true
  | XMvReply => can_move (world_of x) MvReply
  | XMvDeliver => negb (bytes_eqb (x_net x) [])
  end.
Fixpoint can_xmoves (x : xworld) (vs : list xmv) : bool := match vs with [] => true | v :: vs' => can_xmove x v && can_xmoves (xmove x v) vs' end.
Definition xrun : xmv := XMvTask CRun.
Definition ex_xmoves : list xmv :=
  [XMvUnrelated; xrun; xrun; XMvTask (CRoom 5); xrun; XMvDeliver; XMvTask (CWait 3); XMvTask (CRoom 200)] ++ concat (repeat [xrun; xrun; xrun; XMvReply; XMvDeliver; xrun; xrun] 7) ++ [xrun].
Fixpoint xafter (x : xworld) (vs : list xmv) (n : nat) : xworld :=
  match n, vs with S n', v :: vs' => xafter (xmove x v) vs' n' | O, _ => x | S n', [] => xafter (xmove x xrun) [] n' end.
Definition ex_xworlds : nat -> xworld := xafter xworld_new ex_xmoves.
Definition ex_xacts (n : nat) : xact := xact_of (nth n ex_xmoves xrun).
Lemma can_xmove_happens x v : can_xmove x v = true -> xhappens ex_naming x (xact_of v) (xmove x v).
Proof.
  destruct v as [a| | |]; intros H; cbn [xact_of xmove].
  - constructor. destruct a; try discriminate H; exact Logic.I.
  - assert (W : wf_message ex_extra) by (repeat constructor; discriminate). destruct (ex_bytes _ W) as (body & E & Hw & Hb & HF). rewrite E.
    apply (X_unrelated ex_naming x (PAscii body) _ Hb); [|exact HF]. intros (r & Hr). unfold message_of in Hr. cbn [parse] in Hr.
    rewrite (proj2 (parse_some_iff body ex_extra)) in Hr; [discriminate | apply wire_grammar; auto].
  - pose proof (can_move_happens (world_of x) MvReply H) as Y. cbn [move act_of] in Y. change (ex_answer (world_of x)) with (xanswer x) in Y.
    remember (mkWorld (w_client (world_of x)) (w_out (world_of x) ++ [ex_pkt (xanswer x)]) (w_net (world_of x) ++ bytes_of (xanswer x)) (S (w_replied (world_of x)))) as w' eqn:EW.
    remember AReply as b eqn:EB. destruct Y as [| |q m body f NR A G Hb HF|]; try discriminate EB. injection EW as E2 E3.
    apply app_inj_tail in E2 as [_ E2]. apply app_inv_head in E3. subst f. rewrite <- E2. exact (X_reply ex_naming x q m body _ NR A G Hb HF).
  - apply (X_deliver ex_naming x (x_net x) []); [rewrite app_nil_r; reflexivity|]. intros E. cbn [can_xmove] in H. rewrite E in H. discriminate H.
Qed.
Lemma can_xmoves_happen vs : forall x, can_xmoves x vs = true -> forall n, xhappens ex_naming (xafter x vs n) (xact_of (nth n vs xrun)) (xafter x vs (S n)).
Proof.
  induction vs as [|v vs IH]; intros x H n.
  - replace (nth n [] xrun) with xrun by (destruct n; reflexivity). clear H. revert x. induction n as [|n IHn]; intros x.
    + apply (can_xmove_happens x xrun). reflexivity.
    + apply (IHn (xmove x xrun)).
  - cbn [can_xmoves] in H. apply andb_true_iff in H as [H1 H2]. destruct n as [|n].
    + cbn [xafter nth]. destruct vs; apply can_xmove_happens; exact H1.
    + apply (IH (xmove x v) H2 n).
Qed.
Lemma ex_can_xmove : can_xmoves xworld_new ex_xmoves = true.
Proof. vm_compute. reflexivity. Qed.
Definition ex_xlast : xworld := Eval vm_compute in xafter xworld_new ex_xmoves (length ex_xmoves).
Lemma xafter_end vs : forall x n, (length vs <= n)%nat -> xafter x vs n = xafter (xafter x vs (length vs)) [] (n - length vs).
Proof. induction vs as [|v vs IH]; intros x n L; [rewrite Nat.sub_0_r; reflexivity|]. destruct n as [|n]; [cbn in L; lia|]. apply IH. cbn in L. lia. Qed.
Lemma ex_xlast_stays : xmove ex_xlast xrun = ex_xlast.
Proof. vm_compute. reflexivity. Qed.
Lemma ex_xrests n : xafter ex_xlast [] n = ex_xlast.
Proof. induction n as [|n IH]; [reflexivity|]. change (xafter (xmove ex_xlast xrun) [] n = ex_xlast). rewrite ex_xlast_stays. exact IH. Qed.
Lemma ex_xends n : (length ex_xmoves <= n)%nat -> ex_xworlds n = ex_xlast.
Proof. intros L. unfold ex_xworlds. rewrite xafter_end by exact L. replace (xafter xworld_new ex_xmoves (length ex_xmoves)) with ex_xlast by (vm_compute; reflexivity). apply ex_xrests. Qed.
Example C95_example : xexecution ex_naming ex_xworlds ex_xacts /\ xfair ex_xworlds ex_xacts /\
  (exists p, k_state (x_client (ex_xworlds 58)) = IDone p /\ nth_error (zone_names (p_state p)) 1 = Some (B "Front DoorKeypad")) /\
  map (fun n => k_runnable (x_client (ex_xworlds n))) (seq 0 17) =
    [true; true; true; false; true; false; false; false; true; true; true; false; false; true; true; true; true].
Proof.
  assert (X : xexecution ex_naming ex_xworlds ex_xacts) by (split; [reflexivity|]; intros n; apply can_xmoves_happen, ex_can_xmove).
  split; [exact X|]. split; [|split].
  - split; [|split; [|split]]; intros n; exists (n + length ex_xmoves)%nat; (split; [lia|]).
    + left. unfold ex_xacts. rewrite nth_overflow by lia. reflexivity.
    + rewrite ex_xends by lia. vm_compute. discriminate.
    + right. intros q (qs & fs & rest & F & E & L). rewrite ex_xends in E, L by lia.
      assert (E2 : client_sent (w_client (world_of ex_xlast)) = concat (map bytes_of ex_requests) ++ []) by (vm_compute; reflexivity).
      rewrite E2 in E. destruct (requests_unique _ _ (ex_frames _ ex_requests_ok) _ _ _ _ F E) as (c & EC); [constructor | reflexivity|].
      apply (f_equal (@length _)) in EC. rewrite !app_length, L in EC. vm_compute in EC. lia.
    + right. rewrite ex_xends by lia. reflexivity.
  - eexists. split; vm_compute; reflexivity.
  - vm_compute. reflexivity.
Qed.

(* at rest for want of room, at rest for want of a reply, and what an eager executor makes of the same *)
Definition ex_full : list cact := [CRun; CRun; CRoom 3; CRun; CRun].
Definition ex_waiting : list cact := [CRoom 100; CRun; CRun; CRun; CArrive (Bytes (B "16XK")); CRun; CRun].
Example C95_rest_example : Forall cact_ok ex_full /\ Forall cact_ok ex_waiting /\ k_runnable (crun ex_full) = false /\ k_runnable (crun ex_waiting) = false /\
  (exists p, k_state (crun ex_full) = IRun St_as PhFlush p /\ length (sent (p_conn p)) = 3%nat /\ length (wbuf (p_conn p)) = 7%nat /\ at_rest (crun ex_full) p) /\
  (exists p, k_state (crun ex_waiting) = IRun St_as PhWait p /\ unread (p_conn p) = B "16XK" /\ at_rest (crun ex_waiting) p) /\
  k_runnable (cstep (crun ex_full) (CArrive PeerClose)) = false /\ k_runnable (cstep (crun ex_full) (CRoom 1)) = true /\
  k_runnable (cstep (crun ex_waiting) (CRoom 1)) = false /\ k_runnable (cstep (crun ex_waiting) (CArrive PeerClose)) = true.
Proof.
  split; [repeat constructor|]. split; [unfold ex_waiting; repeat constructor; vm_compute; reflexivity|]. do 2 (split; [vm_compute; reflexivity|]).
  split; [eexists; split; [vm_compute; reflexivity|]; split; [reflexivity|]; split; [reflexivity|]; right; vm_compute; repeat split; discriminate|].
  split; [eexists; split; [vm_compute; reflexivity|]; split; [vm_compute; reflexivity|]; left; vm_compute; repeat split|]. vm_compute. repeat split.
Qed.
(* the panel closes the connection in the middle of a packet *)
Definition ex_end (n : nat) : cact := nth n (ex_waiting ++ [CArrive PeerClose]) CRun.
Fixpoint ex_clients (n : nat) : client := match n with O => client_new | S n' => cstep (ex_clients n') (ex_end n') end.
Definition ex_closed_last : client := Eval vm_compute in ex_clients 9.
Lemma ex_closed_stays n : ex_clients (n + 9) = ex_closed_last.
Proof. induction n as [|n IH]; [vm_compute; reflexivity|]. cbn [plus ex_clients]. rewrite IH. unfold ex_end. rewrite nth_overflow by (cbn; lia). vm_compute. reflexivity. Qed.
Example C95_ends_example : cexecution ex_clients ex_end /\ cfair ex_clients ex_end /\ Forall arrival_ok [Bytes (B "16XK")] /\
  carrivals ex_end 8 = [Bytes (B "16XK")] ++ [PeerClose] /\ (exists left, owed [] [Bytes (B "16XK")] [] left) /\ (forall m x, (8 <= m)%nat -> ex_end m <> CArrive x) /\
  k_state (ex_clients 9) = IFail "bytes remaining on stream"%string.
Proof.
  split.
  { split; [reflexivity|]. intros n. split; [|reflexivity]. unfold ex_end. assert (F : Forall cact_ok (ex_waiting ++ [CArrive PeerClose])) by (unfold ex_waiting; repeat constructor; vm_compute; reflexivity).
    destruct (nth_in_or_default n (ex_waiting ++ [CArrive PeerClose]) CRun) as [H|H]; [rewrite Forall_forall in F; exact (F _ H) | rewrite H; exact Logic.I]. }
  split.
  { split; intros n; exists (n + 9)%nat; (split; [lia|]).
    - left. unfold ex_end. apply nth_overflow. cbn. lia.
    - left. rewrite ex_closed_stays. vm_compute. discriminate. }
  split; [constructor; [split; [vm_compute; discriminate | vm_compute; repeat constructor] | constructor]|]. split; [vm_compute; reflexivity|].
  split; [exists (B "16XK"); change (@nil outcome) with (map Packet [] ++ []); eapply Owed_bytes; [vm_compute; reflexivity | constructor]|].
  split; [|vm_compute; reflexivity]. intros m x L. unfold ex_end. rewrite nth_overflow by (cbn; lia). discriminate.
Qed.

Print Assumptions C95_no_lost_wakeup.
Print Assumptions C95_woken.
Print Assumptions C95_as_if_always_run.
Print Assumptions C95_connect_succeeds.
Print Assumptions C95_ends.
