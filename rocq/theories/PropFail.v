(* PropFail.v: C85, when and how connecting fails (state.rs:135-209, tokio.rs). *)
From Verif Require Import Base BaseFacts Pkt SpecPkt PktFacts DecodeFacts Msg SpecMsg DecFacts MsgFacts WireFacts IsoFacts
  Tokio SpecConn ConnFacts OwedFacts State SpecState StateFacts RunFacts HistFacts ViewFacts SpecInit InitFacts SpecReason ReasonFacts SerdeFacts ShowFacts SpecFail ExState PropState PropSink PropLive PropConn PropInit.
From Coq Require Import ZifyBool ZifyNat ZifyN.
Ltac Zify.zify_post_hook ::= Z.div_mod_to_equations.

(* ---- the network's side of a history ---- *)
Lemma iarrivals_app h h' : iarrivals (h ++ h') = iarrivals h ++ iarrivals h'.
Proof. unfold iarrivals. apply flat_map_app. Qed.
Lemma network_iop_ok h a closed : network h a closed -> Forall iop_ok h.
Proof.
  intros (A & E). assert (X : Forall arrival_u8 (iarrivals h)).
  { rewrite E. apply Forall_app. split; [|destruct closed; repeat constructor]. eapply Forall_impl; [|exact A]. intros [c|e|]; cbn; tauto. }
  clear -X. induction h as [|o h IH]; [constructor|]. change (o :: h) with ([o] ++ h) in X. rewrite iarrivals_app in X. apply Forall_app in X as [X1 X2].
  constructor; [|auto]. destruct o; [|exact I]. inversion X1; subst. assumption.
Qed.
Lemma network_step h now ws a closed : network (h ++ [IStep now ws]) a closed <-> network h a closed.
Proof. unfold network. rewrite iarrivals_app. cbn. rewrite app_nil_r. reflexivity. Qed.
Lemma network_arrive h x a closed : network (h ++ [IArrive x]) a closed ->
  (closed = true /\ x = PeerClose /\ network h a false) \/ (closed = false /\ exists a0, a = a0 ++ [x] /\ network h a0 false /\ arrival_ok x).
Proof.
  intros (A & E). rewrite iarrivals_app in E. cbn in E. destruct closed.
  - apply app_inj_tail in E as [E ->]. left. split; [reflexivity|]. split; [reflexivity|]. split; [exact A|]. rewrite app_nil_r. exact E.
  - right. split; [reflexivity|]. rewrite app_nil_r in E. exists (iarrivals h). subst a. apply Forall_app in A as [A1 A2]. inversion A2; subst.
    split; [reflexivity|]. split; [|assumption]. split; [exact A1 | rewrite app_nil_r; reflexivity].
Qed.
Lemma network_good h hs a closed : Forall good_step hs -> network h a closed -> network (h ++ hs) a closed.
Proof.
  intros G (A & E). split; [exact A|]. rewrite iarrivals_app, E. replace (iarrivals hs) with (@nil arrival); [apply app_nil_r|].
  clear -G. induction G as [|o hs G _ IH]; [reflexivity|]. destruct o; [destruct G|]. exact IH.
Qed.

(* ---- reading, while connecting ---- *)
Definition is_packet (o : outcome) : Prop := exists p, o = Packet p.
Lemma owed_end b a os left : owed b a os left -> forall k, Forall is_packet (firstn k os) -> nth_error os k <> Some End.
Proof.
  induction 1 as [b|b c ps l a os left D O IH|b e a os left O IH]; intros k F.
  - destruct k; discriminate.
  - clear -F IH. revert k F. induction ps as [|p ps IHp]; intros k F; [apply IH; exact F|]. destruct k as [|k]; [discriminate|]. cbn [map app firstn nth_error] in *.
    inversion F; subst. auto.
  - destruct k as [|k]; [discriminate|]. cbn [firstn] in F. inversion F as [|? ? (p & X) _]. discriminate X.
Qed.
Lemma after_read c c' a closed k : same_read c c' -> after c a closed k -> after c' a closed k.
Proof.
  intros S (CI & EP & os & left & O & U & K & F). pose proof (same_read_inv _ _ S CI) as CI'. destruct S as (S1 & S2 & S3 & S4 & S5 & S6).
  split; [exact CI'|]. split; [congruence|]. exists os, left. split; [exact O|]. split; [exact U|]. split; [exact K|].
  unfold fut in *. rewrite S1, S2, S3, S4, S5, S6. exact F.
Qed.
Lemma packets_of os : Forall is_packet os -> exists ps, os = map Packet ps.
Proof. induction 1 as [|o os (p & ->) _ (ps & ->)]; [exists []; reflexivity | exists (p :: ps); reflexivity]. Qed.

(* where connecting is, in terms of the network: k packets read, and the requests sent *)
Definition read_so_far (c : conn) (a : list arrival) (closed : bool) (k : nat) : Prop :=
  after c a closed k /\ forall os left, owed [] a os left -> (k <= length os)%nat /\ Forall is_packet (firstn k os).
Definition sent_so_far (s : stage) (ph : phase) (p : Panel) : Prop := exists qs fs, Forall2 request_frame qs fs /\
  match ph with
  | PhReady => sent (p_conn p) = concat fs
  | PhFlush => exists g, request_frame (stage_msg s) (g ++ wbuf (p_conn p)) /\ sent (p_conn p) = concat fs ++ g
  | PhWait => exists f, request_frame (stage_msg s) f /\ sent (p_conn p) = concat fs ++ f
  end.

(* one read *)
Lemma read_case_at c a closed k : read_so_far c a closed k -> exists os left c' r, owed [] a os left /\ conn_poll_next c = Ok (c', r) /\ same_write c c' /\
  ((exists p, r = Ready (Some (IoOk p)) /\ nth_error os k = Some (Packet p) /\ read_so_far c' a closed (S k)) \/
   (exists e ps os', r = Ready (Some (IoErr e)) /\ os = map Packet ps ++ Error e :: os' /\ k = length ps) \/
   (exists ps, r = Ready (Some (IoErr "bytes remaining on stream")) /\ closed = true /\ os = map Packet ps /\ left <> [] /\ k = length ps) \/
   (exists ps, r = Ready None /\ closed = true /\ os = map Packet ps /\ left = [] /\ k = length ps) \/
   (exists ps, r = Pending /\ closed = false /\ os = map Packet ps /\ k = length os /\ read_so_far c' a closed k)).
Proof.
  intros (A & H). destruct (after_poll _ _ _ _ A) as (os & left & c' & r & O & E & R & A'). destruct (H os left O) as [K F].
  exists os, left, c', r. split; [exact O|]. split; [exact E|]. split; [eapply nexts_same_write, conn_next_nexts; [apply A | exact E]|].
  unfold answer in R. destruct (nth_error os k) as [o|] eqn:EO.
  - assert (L : (k < length os)%nat) by (apply nth_error_Some; congruence). destruct o as [p|e|]; cbn [ready_of] in R; subst r; cbn [is_ready] in A'.
    + left. exists p. split; [reflexivity|]. split; [exact eq_refl|]. split; [exact A'|]. intros os2 left2 O2. destruct (owed_fun _ _ _ _ O _ _ O2) as [<- <-]. split; [lia|].
      destruct (nth_error_split _ _ EO) as (x & y & -> & <-). rewrite firstn_app, (firstn_all2 x) by lia. rewrite Nat.sub_succ_l, Nat.sub_diag by lia. cbn [firstn].
       apply Forall_app. split; [|repeat constructor; eexists; reflexivity]. rewrite firstn_app, Nat.sub_diag, firstn_all in F. cbn [firstn] in F. rewrite app_nil_r in F. exact F.
    + right; left. destruct (nth_error_split _ _ EO) as (x & y & -> & <-). rewrite firstn_app, Nat.sub_diag, firstn_all in F. cbn [firstn] in F. rewrite app_nil_r in F.
      destruct (packets_of _ F) as (ps & ->). exists e, ps, y. rewrite map_length. auto.
    + elim (owed_end _ _ _ _ O k F EO).
  - apply nth_error_None in EO. assert (k = length os) by lia. subst k. rewrite firstn_all in F. destruct (packets_of _ F) as (ps & P).
    destruct closed; [|right; right; right; right; exists ps; subst r; cbn [is_ready] in A'; do 4 (split; [auto|]); split; [exact A' | exact H]].
    destruct left as [|x left]; cbn [ready_of] in R.
    + right; right; right; left. exists ps. pose proof (f_equal (@length _) P) as LP. rewrite map_length in LP. auto.
    + rewrite Nat.eqb_refl in R. cbn [ready_of] in R. right; right; left. exists ps. pose proof (f_equal (@length _) P) as LP. rewrite map_length in LP. do 3 (split; [auto|]). split; [discriminate | exact LP].
Qed.
Lemma read_case c a closed k : read_so_far c a closed k -> exists os left c' r, owed [] a os left /\ conn_poll_next c = Ok (c', r) /\ same_write c c' /\
  ((exists p, r = Ready (Some (IoOk p)) /\ nth_error os k = Some (Packet p) /\ read_so_far c' a closed (S k)) \/
   (exists e ps os', r = Ready (Some (IoErr e)) /\ os = map Packet ps ++ Error e :: os') \/
   (exists ps, r = Ready (Some (IoErr "bytes remaining on stream")) /\ closed = true /\ os = map Packet ps /\ left <> []) \/
   (exists ps, r = Ready None /\ closed = true /\ os = map Packet ps /\ left = []) \/
   (exists ps, r = Pending /\ closed = false /\ os = map Packet ps /\ k = length os /\ read_so_far c' a closed k)).
Proof.
  intros R. destruct (read_case_at _ _ _ _ R) as (os & left & c' & r & O & E & S & H). exists os, left, c', r. do 3 (split; [assumption|]).
  destruct H as [H|[(e & ps & os' & H1 & H2 & _)|[(ps & H1 & H2 & H3 & H4 & _)|[(ps & H1 & H2 & H3 & H4 & _)|H]]]]; [left; exact H | right; left | right; right; left | right; right; right; left | right; right; right; right; exact H]; eauto 8.
Qed.

(* ---- one step ---- *)
Lemma framed_flush_err ws : forall buf out buf' out' ws' e, framed_flush ws buf out = (buf', out', ws', Ready (IoErr e)) ->
  In (WErr e) ws \/ In (WAccept 0) ws /\ e = "failed to write frame to transport"%string.
Proof.
  induction ws as [|w ws IH]; intros [|x buf] out buf' out' ws' e E; cbn [framed_flush] in E; try discriminate.
  destruct w as [[|n]| |er]; try discriminate.
  - injection E as <- <- <- <-. right. split; [left|]; reflexivity.
  - apply IH in E as [E|[E ->]]; [left; right; exact E | right; split; [right; exact E | reflexivity]].
  - injection E as <- <- <- <-. left. left. reflexivity.
Qed.
Lemma interpret_conn now p pkt p' e w : interpret now p pkt = Ok (p', e, w) -> p_conn p' = p_conn p.
Proof.
  unfold interpret. intros E. destruct (parse pkt) as [[m|]|er|why]; try (injection E as <- _ _; reflexivity); [|discriminate].
  apply bind_inv in E as ([p1 ch] & E1 & E).
  assert (P1 : p_conn p1 = p_conn p).
  { destruct m; cbn [interpret_msg] in E1; try (injection E1 as <- _; reflexivity).
    - injection E1 as E1. unfold interpret_arming_status in E1. destruct (s_arming (p_state p)); [|injection E1 as <- _; reflexivity].
      destruct (pending_arm p) as [x|]; [|destruct (is_transition_suspicious a m); [injection E1 as <- _; reflexivity|]];
      (destruct (ArmingStatusReport_eqb a m); injection E1 as <- _; reflexivity).
    - destruct (s_zones (p_state p)); [|injection E1 as <- _; reflexivity]. apply bind_inv in E1 as (i & _ & E1). apply bind_inv in E1 as (x & _ & E1).
      apply bind_inv in E1 as (y & _ & E1). injection E1 as <- _. reflexivity. }
  unfold interpret_reply in E. destruct (cmd_state p1); [|destruct (is_response_to m request)]; injection E as <- _ _; exact P1.
Qed.
(* what after_reply makes of the connection: nothing *)
Lemma after_reply_conn s p m : match after_reply s p m with IRun s' ph' p' => ph' = PhReady /\ p_conn p' = p_conn p | IDone p' => p_conn p' = p_conn p | IFail _ => False | ICrash _ => True end.
Proof.
  destruct s as [| |ty max i]; cbn [after_reply]; [split; reflexivity..|]. unfold sds_reply.
  assert (A : forall q, match after_sds ty q with IRun s' ph' p' => ph' = PhReady /\ p_conn p' = p_conn q | IDone p' => p_conn p' = p_conn q | IFail _ => False | ICrash _ => True end)
    by (intros q; destruct ty; cbn; auto).
  destruct m; try exact I. destruct (negb _); [exact I|]. destruct (names_of _ _) as [l|]; [|exact I]. destruct (sd_num m =? 0); [apply A|].
  destruct (_ <? _)%nat; [exact I|]. destruct (set_nth _ _ _); try exact I. destruct (_ <? _)%nat; [split; reflexivity|]. apply (A (with_state p _)).
Qed.

Definition so_far (a : list arrival) (closed : bool) (k : nat) (i : istate) : Prop :=
  match i with IRun s ph p => read_so_far (p_conn p) a closed k /\ sent_so_far s ph p | IDone p => read_so_far (p_conn p) a closed k | _ => True end.
Definition steps_left (n k : nat) (i : istate) : nat :=
  match i with IRun _ ph _ => (3 * (n - k) + match ph with PhReady => 2 | PhFlush => 1 | PhWait => 0 end)%nat | _ => 0%nat end.

Lemma request_length s p f : stage_ok s p -> request_frame (stage_msg s) f -> (length f <= 15)%nat.
Proof.
  intros S (_ & b & W & nn & cc & c & (i & j & x & y & _ & _ & _ & ->) & (i' & j' & x' & y' & _ & _ & _ & ->) & _ & ->).
  rewrite !app_length. cbn [length]. assert (length b <= 9)%nat; [|lia].
  destruct s as [| |ty max u]; cbn [stage_msg wire] in W; [subst b; cbn; lia..|].
  unfold sdq_layout in W. firstorder subst; rewrite ?app_length; cbn; lia.
Qed.
Lemma step_case now ws s ph p a closed k : iinv (IRun s ph p) -> so_far a closed k (IRun s ph p) ->
  exists k' os left, owed [] a os left /\
  (so_far a closed k' (istep now ws (IRun s ph p)) /\
   (good_step (IStep now ws) -> closed = true \/ (exists e, In (Error e) os) ->
      running (istep now ws (IRun s ph p)) -> (k <= length os)%nat /\ (k' <= length os)%nat /\ (steps_left (S (length os)) k' (istep now ws (IRun s ph p)) < steps_left (S (length os)) k (IRun s ph p))%nat) /\
   (forall e, istep now ws (IRun s ph p) = IFail e ->
      In (WErr e) ws \/ In (WAccept 0) ws /\ e = "failed to write frame to transport"%string \/
      (exists ps os', os = map Packet ps ++ Error e :: os') \/
      (exists ps, closed = true /\ os = map Packet ps /\ left <> [] /\ e = "bytes remaining on stream"%string) \/
      (exists ps, closed = true /\ os = map Packet ps /\ left = [] /\ last_sent (IRun s ph p) (stage_msg s) /\ await_eof s = IFail e))).
Proof.
  intros I (R & T). pose proof I as (PI & C & S & W). destruct (proj1 R) as (_ & _ & os & left & O & _).
  destruct (proj2 R os left O) as [K _]. destruct ph.
  - exists k, os, left. split; [exact O|]. cbn [istep]. unfold conn_poll_ready. rewrite W by discriminate. cbn [length].
    change (BACKPRESSURE <=? N.of_nat 0) with false. cbv beta iota.
    destruct (to_pkt_spec _ (stage_msg_wf s p S)) as (b & -> & Hw & Hb & _). cbn [bind].
    destruct (encode_valid (PAscii b) Hb) as (f & HF & HE). unfold conn_start_send. rewrite HE. cbn [bind]. rewrite W by discriminate. cbn [app].
    split; [|split; [|intros e X; discriminate X]].
    + split; [destruct R as [R1 R2]; split; [eapply after_read; [|exact R1]; repeat split | exact R2]|].
      destruct T as (qs & fs & F & T). exists qs, fs. split; [exact F|]. exists []. cbn [p_conn with_conn set_write wbuf sent app]. split; [|rewrite app_nil_r; exact T].
      split; [eapply stage_msg_wf; eauto | exists b; auto].
    + intros _ _ _. split; [exact K|]. split; [exact K|]. cbn [steps_left]. lia.
  - exists k, os, left. split; [exact O|]. cbn [istep]. destruct (conn_poll_flush (p_conn p) ws) as [[c ws'] r] eqn:EF.
    destruct (conn_flush_spec _ _ _ _ _ EF) as (SR & _ & SW & (j & EJ) & WE & _).
    assert (R' : read_so_far (p_conn (with_conn p c)) a closed k) by (destruct R as [R1 R2]; split; [eapply after_read; eauto | exact R2]).
    destruct T as (qs & fs & F & g & Fg & Sg).
    assert (T1 : g ++ wbuf (p_conn p) = (g ++ firstn j (wbuf (p_conn p))) ++ wbuf c).
    { rewrite EJ, <- app_assoc in SW. apply app_inv_head in SW. rewrite <- app_assoc, SW. reflexivity. }
    destruct r as [|[[]|e]].
    + split; [|split; [|intros e X; discriminate X]].
      * split; [exact R'|]. exists qs, fs. split; [exact F|]. exists (g ++ firstn j (wbuf (p_conn p))). cbn [p_conn with_conn]. rewrite <- T1. split; [exact Fg|]. rewrite EJ, Sg, <- app_assoc. reflexivity.
      * intros (G1 & G2) _ _. exfalso. pose proof (request_length _ _ _ S Fg) as L. rewrite app_length in L.
        destruct (PropLive.framed_flush_takes ws (wbuf (p_conn p)) (sent (p_conn p)) G1 ltac:(lia)) as (o & w' & X & _). unfold conn_poll_flush in EF. rewrite X in EF. discriminate EF.
    + specialize (WE eq_refl). split; [|split; [|intros e X; discriminate X]].
      * split; [exact R'|]. exists qs, fs. split; [exact F|]. exists (g ++ wbuf (p_conn p)). split; [exact Fg|]. cbn [p_conn with_conn].
        rewrite T1, WE, app_nil_r, EJ, Sg, <- app_assoc. reflexivity.
      * intros _ _ _. split; [exact K|]. split; [exact K|]. cbn [steps_left]. lia.
    + split; [exact Logic.I|]. split; [intros _ _ (? & ? & ? & X); discriminate X|]. intros e' [= <-].
      unfold conn_poll_flush in EF. destruct (framed_flush ws (wbuf (p_conn p)) (sent (p_conn p))) as [[[b o] w'] r'] eqn:E2. injection EF as _ _ ->.
      apply framed_flush_err in E2. tauto.
  - clear os left O K. destruct (read_case _ _ _ _ R) as (os & left & c & r & O & E & SW & H). destruct (proj2 R os left O) as [K _].
    assert (LS : last_sent (IRun s PhWait p) (stage_msg s)).
    { destruct T as (qs & fs & F & g & Fg & Sg). exists qs, (fs ++ [g]). split; [apply Forall2_app; [exact F | repeat constructor; apply Fg]|].
      cbn [client_sent]. rewrite concat_app, Sg. cbn. rewrite app_nil_r. reflexivity. }
    destruct H as [(pkt & -> & EN & R')|[(e & ps & os' & -> & EO)|[(ps & -> & -> & EO & NE)|[(ps & -> & -> & EO & EL)|(ps & -> & -> & EO & EK & R')]]]].
    + exists (Datatypes.S k), os, left. split; [exact O|]. cbn [istep]. rewrite E.
      assert (KL : (k < length os)%nat) by (apply nth_error_Some; congruence).
      pose proof (with_conn_inv p c PI (proj1 (proj1 R')) (proj1 SW)) as PI'.
      destruct (interpret now (with_conn p c) pkt) as [[[p' ev] w]|er|why] eqn:EI; [|split; [exact Logic.I | split; [intros _ _ (? & ? & ? & X); discriminate X | discriminate]]..].
      pose proof (interpret_conn _ _ _ _ _ _ EI) as EC. cbn [p_conn with_conn] in EC.
      assert (Stay : so_far a closed (Datatypes.S k) (IRun s PhWait p') /\
        (good_step (IStep now ws) -> closed = true \/ (exists e, In (Error e) os) -> running (IRun s PhWait p') -> (k <= length os)%nat /\ (Datatypes.S k <= length os)%nat /\ (steps_left (Datatypes.S (length os)) (Datatypes.S k) (IRun s PhWait p') < steps_left (Datatypes.S (length os)) k (IRun s PhWait p))%nat)).
      { split; [split; [rewrite EC; exact R'|]; unfold sent_so_far; rewrite EC; destruct SW as (_ & -> & _); exact T|].
        intros _ _ _. split; [exact K|]. split; [lia|]. cbn [steps_left]. lia. }
      destruct (e_msg ev) as [[m|]|]; [|split; [apply Stay | split; [apply Stay | discriminate]]..].
      destruct (is_response_to m (stage_msg s)); [|split; [apply Stay | split; [apply Stay | discriminate]]].
      pose proof (after_reply_conn s p' m) as AR. destruct (after_reply s p' m) as [s2 ph2 p2|p2|e|w2]; [| |destruct AR|].
      * destruct AR as [-> EC2]. split; [|split; [|discriminate]].
        -- split; [rewrite EC2, EC; exact R'|]. destruct LS as (qs & fs & F & Sg). exists (qs ++ [stage_msg s]), fs. split; [exact F|]. rewrite EC2, EC. destruct SW as (_ & -> & _). exact Sg.
        -- intros _ _ _. split; [exact K|]. split; [lia|]. cbn [steps_left]. lia.
      * split; [cbn [so_far]; rewrite AR, EC; exact R'|]. split; [intros _ _ (? & ? & ? & X); discriminate X | discriminate].
      * split; [exact Logic.I|]. split; [intros _ _ (? & ? & ? & X); discriminate X | discriminate].
    + exists k, os, left. split; [exact O|]. cbn [istep]. rewrite E. split; [exact Logic.I|]. split; [intros _ _ (? & ? & ? & X); discriminate X|]. intros e' [= <-]. right; right; left. eauto.
    + exists k, os, left. split; [exact O|]. cbn [istep]. rewrite E. split; [exact Logic.I|]. split; [intros _ _ (? & ? & ? & X); discriminate X|]. intros e' [= <-]. right; right; right; left. eauto.
    + exists k, os, left. split; [exact O|]. cbn [istep]. rewrite E. destruct (await_eof_fails s) as (e & EA). rewrite EA. split; [exact Logic.I|]. split; [intros _ _ (? & ? & ? & X); discriminate X|]. intros e' [= <-]. right; right; right; right. exists ps. auto.
    + exists k, os, left. split; [exact O|]. cbn [istep]. rewrite E. split; [|split; [|discriminate]].
      * split; [exact R'|]. destruct T as (qs & fs & F & g & Fg & Sg). exists qs, fs. split; [exact F|]. exists g. split; [exact Fg|]. cbn [p_conn with_conn]. destruct SW as (_ & -> & _). exact Sg.
      * intros _ [X|(e & X)] _; [discriminate X|]. rewrite EO in X. apply in_map_iff in X as (? & X & _). discriminate X.
Qed.

(* ---- whole histories ---- *)
Lemma so_far_arrive a closed a' closed' k x i : (forall c, read_so_far c a closed k -> read_so_far (arrive c x) a' closed' k) ->
  so_far a closed k i -> so_far a' closed' k (iarrive x i).
Proof.
  intros H. destruct i as [s ph p|p|e|w]; auto; [|exact (H _)]. intros (R & T). split; [apply H; exact R|].
  assert (EW : wbuf (arrive (p_conn p) x) = wbuf (p_conn p) /\ sent (arrive (p_conn p) x) = sent (p_conn p)) by (destruct x; split; reflexivity).
  destruct EW as [E1 E2]. unfold sent_so_far in *. cbn [p_conn with_conn]. rewrite E1, E2. exact T.
Qed.
Lemma owed_prefix b a a2 os left : owed b (a ++ a2) os left -> exists os1 left1 more, owed b a os1 left1 /\ os = os1 ++ more.
Proof.
  revert b os left. induction a as [|y a IH]; intros b os left O.
  - exists [], b, os. split; [constructor | reflexivity].
  - cbn [app] in O. inversion O as [|? c ps l ? os' ? D O'|? e ? os' ? O']; subst; destruct (IH _ _ _ O') as (os1 & left1 & more & O1 & ->).
    + exists (map Packet ps ++ os1), left1, more. rewrite app_assoc. split; [econstructor; eauto | reflexivity].
    + exists (Error e :: End :: os1), left1, more. split; [constructor; exact O1 | reflexivity].
Qed.
Lemma so_far_run h : forall a closed, network h a closed -> exists k, so_far a closed k (irun conn_new h).
Proof.
  induction h as [|o h IH] using rev_ind; intros a closed N.
  - destruct N as [_ E]. destruct a as [|x a]; [|destruct closed; discriminate E]. destruct closed; [discriminate E|].
    exists 0%nat. split; [split; [exact after_new|] | exists [], []; split; [constructor | reflexivity]].
    intros os left O. inversion O; subst. split; [apply le_n | constructor].
  - destruct o as [x|now ws].
    + destruct (network_arrive _ _ _ _ N) as [(-> & -> & N')|(-> & a0 & -> & N' & OX)]; destruct (IH _ _ N') as (k & S); exists k; rewrite irun_snoc; cbn [iop_step];
        (eapply so_far_arrive; [|exact S]); intros c (A & H).
      * split; [apply after_close; exact A | exact H].
      * split; [eapply after_arrive; eauto|]. intros os left O. destruct (owed_prefix _ _ _ _ _ O) as (os1 & l1 & more & O1 & ->).
        destruct (H _ _ O1) as [K F]. split; [rewrite app_length; lia|]. rewrite firstn_app. replace (k - length os1)%nat with 0%nat by lia. cbn [firstn]. rewrite app_nil_r. exact F.
    + pose proof (proj1 (network_step _ _ _ _ _) N) as N0. clear N. rename N0 into N. destruct (IH _ _ N) as (k & S). pose proof (irun_inv h (network_iop_ok _ _ _ N)) as I. rewrite irun_snoc. cbn [iop_step].
      destruct (irun conn_new h) as [s ph p|p|e|w]; [|exists k; exact S..].
      destruct (step_case now ws s ph p a closed k I S) as (k' & os & left & _ & S' & _). exists k'. exact S'.
Qed.
Lemma stopped i o : ~ running i -> ~ running (iop_step i o).
Proof. intros H. destruct i as [s ph p|p|e|w]; [elim H; repeat eexists|..]; destruct o; intros (? & ? & ? & X); discriminate X. Qed.
Lemma stopped_run hs : forall h, ~ running (irun conn_new h) -> ~ running (irun conn_new (h ++ hs)).
Proof.
  induction hs as [|o hs IH]; intros h H; [rewrite app_nil_r; exact H|]. replace (h ++ o :: hs) with ((h ++ [o]) ++ hs) by (rewrite <- app_assoc; reflexivity).
  apply IH. rewrite irun_snoc. apply stopped. exact H.
Qed.
Lemma network_prefix h2 : forall h1 a closed, network (h1 ++ h2) a closed -> exists a1 closed1 a2, network h1 a1 closed1 /\ a = a1 ++ a2 /\ (closed1 = true -> a2 = []).
Proof.
  induction h2 as [|o h2 IH] using rev_ind; intros h1 a closed N; [rewrite app_nil_r in N; exists a, closed, []; rewrite app_nil_r; auto|].
  rewrite app_assoc in N. destruct o as [x|now ws]; [|exact (IH _ _ _ (proj1 (network_step _ _ _ _ _) N))].
  destruct (network_arrive _ _ _ _ N) as [(_ & _ & N')|(_ & a0 & -> & N' & _)]; destruct (IH _ _ _ N') as (a1 & c1 & a2 & N1 & -> & H).
  - exists a1, c1, a2. auto.
  - exists a1, c1, (a2 ++ [x]). rewrite app_assoc. split; [exact N1|]. split; [reflexivity|]. intros ->. exfalso.
    destruct N1 as (_ & E1). destruct N' as (A & E). rewrite (H eq_refl), app_nil_r in *. pose proof (iarrivals_app h1 h2) as X. rewrite E, E1, app_nil_r in X.
    apply (f_equal (@length _)) in X. rewrite !app_length in X. cbn in X. lia.
Qed.
Lemma stops_at h : ~ running (irun conn_new h) -> exists h1 now ws h2 s ph p, h = h1 ++ IStep now ws :: h2 /\ irun conn_new h1 = IRun s ph p /\ ~ running (istep now ws (IRun s ph p)).
Proof.
  induction h as [|o h IH] using rev_ind; intros H; [elim H; repeat eexists|].
  destruct (irun conn_new h) as [s ph p|p|e|w] eqn:E.
  2-4: destruct IH as (h1 & now & ws & h2 & s & ph & p' & -> & X); [intros (? & ? & ? & X); discriminate X|]; exists h1, now, ws, (h2 ++ [o]), s, ph, p'; split; [rewrite <- app_assoc; reflexivity | exact X].
  rewrite irun_snoc, E in H. destruct o as [x|now ws]; [elim H; repeat eexists|]. exists h, now, ws, [], s, ph, p. auto.
Qed.
Lemma failed_stays h1 o hs e : irun conn_new (h1 ++ [o]) = IFail e -> irun conn_new (h1 ++ o :: hs) = IFail e.
Proof.
  intros E. induction hs as [|x hs IH] using rev_ind; [exact E|]. replace (h1 ++ o :: hs ++ [x]) with ((h1 ++ o :: hs) ++ [x]) by (rewrite <- app_assoc; reflexivity).
  rewrite irun_snoc, IH. destruct x; reflexivity.
Qed.
Lemma crashed_stays h1 o hs w : irun conn_new (h1 ++ [o]) = ICrash w -> irun conn_new (h1 ++ o :: hs) = ICrash w.
Proof.
  intros E. induction hs as [|x hs IH] using rev_ind; [exact E|]. replace (h1 ++ o :: hs ++ [x]) with ((h1 ++ o :: hs) ++ [x]) by (rewrite <- app_assoc; reflexivity).
  rewrite irun_snoc, IH. destruct x; reflexivity.
Qed.
Lemma done_stays h1 o hs p : irun conn_new (h1 ++ [o]) = IDone p -> exists p', irun conn_new (h1 ++ o :: hs) = IDone p'.
Proof.
  intros E. induction hs as [|x hs (q & IH)] using rev_ind; [eauto|]. replace (h1 ++ o :: hs ++ [x]) with ((h1 ++ o :: hs) ++ [x]) by (rewrite <- app_assoc; reflexivity).
  rewrite irun_snoc, IH. destruct x; eexists; reflexivity.
Qed.

Lemma eof_text_is s p e : stage_ok s p -> await_eof s = IFail e -> eof_text (stage_msg s) e.
Proof.
  intros S E. destruct s as [| |ty max i].
  - injection E as <-. constructor.
  - injection E as <-. constructor.
  - destruct S as (_ & T & _). cbn [stage_msg]. set (n := N.of_nat i mod 256 + 1) in *.
    assert (X : e = ("EOF while expecting reply to StringDescriptionRequest(StringDescriptionRequest { ty: " ++ type_name ty ++ ", num: " ++ string_of_bytes (fmt_dec n) ++ " })")%string).
    { assert (e = string_of_bytes (B "EOF while expecting reply to StringDescriptionRequest(StringDescriptionRequest { ty: " ++ bytes_of_string (type_name ty) ++ B ", num: " ++ fmt_dec n ++ B " })")) as ->.
      { unfold await_eof in E. cbn [stage_msg] in E. fold n in E. injection E as <-. f_equal. destruct T as [[-> _]|[[-> _]|[-> _]]]; cbn; rewrite <- ?app_assoc; reflexivity. }
      rewrite !append_bytes, string_bytes_inv. reflexivity. }
    rewrite X. constructor; [destruct T as [[-> _]|[[-> _]|[-> _]]]; cbn; tauto|]. apply numeral_shown. apply bytes_string. apply fmt_dec_u8s.
Qed.

(* ================= C85 ================= *)
(* Connecting fails in one step, and for one of five reasons, which the error's text says. *)
Theorem C85_fails_only_because : forall h a closed e, network h a closed -> irun conn_new h = IFail e ->
  exists h1 now ws h2, h = h1 ++ IStep now ws :: h2 /\ running (irun conn_new h1) /\ irun conn_new (h1 ++ [IStep now ws]) = IFail e /\ fails_because h1 ws e.
Proof.
  intros h a closed e N E. destruct (stops_at h) as (h1 & now & ws & h2 & s & ph & p & -> & E1 & NR); [rewrite E; intros (? & ? & ? & X); discriminate X|].
  assert (E2 : irun conn_new (h1 ++ [IStep now ws]) = istep now ws (IRun s ph p)) by (rewrite irun_snoc, E1; reflexivity).
  assert (E3 : istep now ws (IRun s ph p) = IFail e).
  { destruct (istep now ws (IRun s ph p)) as [s' ph' p'|p'|e'|w]; [elim NR; repeat eexists|..].
    - destruct (done_stays _ _ h2 _ E2) as (q & X). congruence.
    - rewrite (failed_stays _ _ h2 _ E2) in E. exact E.
    - rewrite (crashed_stays _ _ h2 _ E2) in E. discriminate E. }
  exists h1, now, ws, h2. split; [reflexivity|]. split; [rewrite E1; repeat eexists|]. split; [congruence|].
  destruct (network_prefix _ _ _ _ N) as (a1 & c1 & a2 & N1 & _ & _). destruct (so_far_run _ _ _ N1) as (k & S). pose proof (irun_inv h1 (network_iop_ok _ _ _ N1)) as I.
  pose proof E1 as E4. rewrite E1 in S, I. destruct (step_case now ws s ph p a1 c1 k I S) as (k' & os & left & O & _ & _ & C).
  destruct (C e E3) as [W|[(W & ->)|[(ps & os' & ->)|[(ps & -> & -> & NE & ->)|(ps & -> & -> & -> & LS & EO)]]]].
  - apply F_write. exact W.
  - apply F_write_zero. exact W.
  - eapply F_read; eauto.
  - eapply F_partial; eauto.
  - eapply F_end with (q := stage_msg s); [exact N1 | exact O | rewrite E4; exact LS | eapply eof_text_is; [apply I | exact EO]].
Qed.

(* Once the connection is closed or a read error has arrived, connecting ends, whatever was received, as soon as the socket takes the requests. *)
Lemma ends_within os left hs : forall h a closed k, Forall good_step hs -> network h a closed -> owed [] a os left -> closed = true \/ (exists e, In (Error e) os) ->
  so_far a closed k (irun conn_new h) -> (steps_left (S (length os)) k (irun conn_new h) < length hs)%nat -> ~ running (irun conn_new (h ++ hs)).
Proof.
  induction hs as [|o hs IH]; intros h a closed k G N O X S L; [cbn in L; lia|]. inversion G as [|? ? Go G']; subst. destruct o as [x|now ws]; [destruct Go|].
  replace (h ++ IStep now ws :: hs) with ((h ++ [IStep now ws]) ++ hs) by (rewrite <- app_assoc; reflexivity).
  pose proof (irun_inv h (network_iop_ok _ _ _ N)) as I. destruct (irun conn_new h) as [s ph p|p|e|w] eqn:E.
  2-4: apply stopped_run; rewrite irun_snoc, E; apply stopped; intros (? & ? & ? & Y); discriminate Y.
  destruct (step_case now ws s ph p a closed k I S) as (k' & os' & left' & O' & S' & M & _). destruct (owed_fun _ _ _ _ O _ _ O') as [<- <-].
  assert (E' : irun conn_new (h ++ [IStep now ws]) = istep now ws (IRun s ph p)) by (rewrite irun_snoc, E; reflexivity).
  assert (R : running (istep now ws (IRun s ph p)) \/ ~ running (istep now ws (IRun s ph p))).
  { destruct (istep now ws (IRun s ph p)); [left; repeat eexists | right; intros (? & ? & ? & Y); discriminate Y..]. }
  destruct R as [R|R]; [|apply stopped_run; rewrite E'; exact R]. destruct (M Go X R) as (_ & _ & D).
  eapply IH with (k := k'); [exact G' | apply network_step; exact N | exact O | exact X | rewrite E'; exact S' | rewrite E'; cbn [length] in L; lia].
Qed.
Theorem C85_ends : forall h a closed os left hs, network h a closed -> owed [] a os left -> closed = true \/ (exists e, In (Error e) os) ->
  Forall good_step hs -> (3 * length os + 6 <= length hs)%nat -> ~ running (irun conn_new (h ++ hs)).
Proof.
  intros h a closed os left hs N O X G L. destruct (so_far_run _ _ _ N) as (k & S). eapply ends_within; eauto.
  destruct (irun conn_new h) as [s [| |] p|p|e|w]; cbn [steps_left]; lia.
Qed.

(* The panel hangs up without ever having reported its arming state: the error names the first request. *)
Lemma only_packets b a os left : owed b a os left -> Forall arrival_ok a -> forall ps, os = map Packet ps -> exists chunks, a = map Bytes chunks /\ Forall (fun c => u8s c) chunks.
Proof.
  induction 1 as [b|b c qs l a os left D O IH|b e a os left O IH]; intros A ps E.
  - exists []. split; [reflexivity | constructor].
  - inversion A as [|? ? Ac A']; subst. assert (Y : exists ps', os = map Packet ps').
    { clear -E. revert ps E. induction qs as [|q qs IH]; intros ps E; [eauto|]. destruct ps as [|p ps]; [discriminate|]. injection E as _ E. eauto. }
    destruct Y as (ps' & Y). destruct (IH A' _ Y) as (cs & -> & U). exists (c :: cs). split; [reflexivity|]. constructor; [apply Ac | exact U].
  - destruct ps; discriminate E.
Qed.
Lemma network_bytes h a closed : network h a closed -> iarrived h = concat (map arrival_data a).
Proof.
  intros (_ & E). transitivity (concat (map arrival_data (iarrivals h))).
  - clear. induction h as [|o h IH]; [reflexivity|]. change (o :: h) with ([o] ++ h). rewrite iarrived_app, iarrivals_app, map_app, concat_app, IH. f_equal. destruct o as [[]|]; reflexivity.
  - rewrite E, map_app, concat_app. destruct closed; cbn; rewrite ?app_nil_r; reflexivity.
Qed.
Lemma no_report h1 h2 a closed ps left : network (h1 ++ h2) a closed -> owed [] a (map Packet ps) left -> reports_in ps = [] ->
  match irun conn_new h1 with IRun s _ _ => s = St_as | IDone _ => False | _ => True end.
Proof.
  intros N O R. pose proof (network_iop_ok _ _ _ N) as HO. pose proof HO as HO2. apply Forall_app in HO as [HO1 _]. destruct (only_packets _ _ _ _ O (proj1 N) ps eq_refl) as (cs & -> & U).
  destruct (C45_owed_packets cs U) as (ps' & left' & D & O'). destruct (owed_fun _ _ _ _ O _ _ O') as [EP <-].
  assert (ps' = ps) as ->. { clear -EP. revert ps' EP. induction ps as [|p ps IH]; intros [|q qs] E; try discriminate; [reflexivity|]. injection E as -> E. f_equal. auto. }
  pose proof (network_bytes _ _ _ N) as EB. rewrite map_map in EB. cbn [arrival_data] in EB. rewrite map_id in EB. rewrite <- EB, iarrived_app in D.
  pose proof (iarrived_u8 _ HO2) as UB. rewrite iarrived_app in UB. apply drain_iff in D; [|exact UB]. apply u8s_app in UB as [UB1 UB2].
  assert (NS : forall p, viewed (iarrived h1) p -> s_arming (p_state p) = None).
  { intros p (qs & T & S & _). pose proof (takes_more _ _ _ (iarrived h2) T UB1 UB2) as T2.
    destruct (drain_total _ (takes_u8 _ _ _ T2 ltac:(apply u8s_app; auto))) as (rs & l & _ & D2). pose proof (takes_drains _ _ _ T2 _ _ D2) as D3. destruct (drains_det _ _ _ D _ _ D3) as [-> _].
    rewrite reports_in_app in R. apply app_eq_nil in R as [R _]. rewrite R in S. unfold seen in S. destruct (held p); [|exact S]. destruct S as (rs' & X & _). destruct rs'; discriminate X. }
  pose proof (irun_viewed h1 HO1) as V. pose proof (irun_inv h1 HO1) as I. destruct (irun conn_new h1) as [s ph p|p|e|w]; auto; cbn [iviewed] in V; apply NS in V.
  - destruct I as (_ & _ & S & _). destruct s as [| |ty max i]; [reflexivity | destruct S as (r & S); congruence | destruct S as (((r & S) & _) & _); congruence].
  - destruct I as (_ & _ & ((r & S) & _) & _). congruence.
Qed.
Theorem C85_ended_early : forall h a ps hs, network h a true -> owed [] a (map Packet ps) [] -> reports_in ps = [] -> Forall writes_ok h ->
  Forall good_step hs -> (3 * length ps + 6 <= length hs)%nat ->
  irun conn_new (h ++ hs) = IFail "EOF while expecting reply to ArmingStatusRequest(ArmingStatusRequest)"%string.
Proof.
  intros h a ps hs N O R W G L. pose proof (network_good _ _ _ _ G N) as N2.
  assert (W2 : Forall writes_ok (h ++ hs)).
  { apply Forall_app. split; [exact W|]. eapply Forall_impl; [|exact G]. intros [x|now ws] Y; [destruct Y|]. destruct Y as [Y _]. eapply Forall_impl; [|exact Y]. intros w (n & ->). discriminate. }
  assert (NR : ~ running (irun conn_new (h ++ hs))) by (eapply C85_ends; eauto; rewrite map_length; exact L).
  pose proof (no_report (h ++ hs) [] a true ps [] ltac:(rewrite app_nil_r; exact N2) O R) as Q.
  destruct (irun conn_new (h ++ hs)) as [s ph p|p|e|w] eqn:E; [elim NR; repeat eexists | destruct Q | |].
  - destruct (stops_at (h ++ hs)) as (h1 & now & ws & h2 & s & ph & p & EH & E1 & NR1); [rewrite E; exact NR|]. rewrite EH in *. clear EH h hs N W G L.
    pose proof (no_report _ _ _ _ _ _ N2 O R) as Q1. rewrite E1 in Q1. subst s.
    assert (E2 : irun conn_new (h1 ++ [IStep now ws]) = istep now ws (IRun St_as ph p)) by (rewrite irun_snoc, E1; reflexivity).
    assert (E3 : istep now ws (IRun St_as ph p) = IFail e).
    { destruct (istep now ws (IRun St_as ph p)) as [s' ph' p'|p'|e'|w]; [elim NR1; repeat eexists|..].
      - destruct (done_stays _ _ h2 _ E2) as (q & X). congruence.
      - rewrite (failed_stays _ _ h2 _ E2) in E. exact E.
      - rewrite (crashed_stays _ _ h2 _ E2) in E. discriminate E. }
    assert (Wn : Forall write_ok ws) by (rewrite Forall_forall in W2; apply (W2 (IStep now ws)); apply in_or_app; right; left; reflexivity). rewrite Forall_forall in Wn.
    destruct (network_prefix _ _ _ _ N2) as (a1 & c1 & a2 & N1 & -> & CL). destruct (so_far_run _ _ _ N1) as (k & S). pose proof (irun_inv h1 (network_iop_ok _ _ _ N1)) as I.
    rewrite E1 in S, I. destruct (step_case now ws _ ph p a1 c1 k I S) as (k' & os & left & O1 & _ & _ & C).
    destruct (owed_prefix _ _ _ _ _ O) as (os2 & left2 & more & O2 & EM). destruct (owed_fun _ _ _ _ O1 _ _ O2) as [<- <-].
    destruct (C e E3) as [X|[(X & _)|[(qs & os' & ->)|[(qs & -> & -> & NE & _)|(qs & -> & -> & -> & _ & EO)]]]].
    + elim (Wn _ X).
    + elim (Wn _ X). reflexivity.
    + exfalso. assert (X : In (Error e) (map Packet ps)) by (rewrite EM; apply in_or_app; left; apply in_or_app; right; left; reflexivity). apply in_map_iff in X as (? & X & _). discriminate X.
    + exfalso. rewrite (CL eq_refl), app_nil_r in O. destruct (owed_fun _ _ _ _ O _ _ O1) as [_ X]. congruence.
    + cbn in EO. congruence.
  - destruct (stops_at (h ++ hs)) as (h1 & now & ws & h2 & s & ph & p & EH & E1 & NR1); [rewrite E; exact NR|]. rewrite EH in *. clear EH h hs N W G L.
    pose proof (no_report _ _ _ _ _ _ N2 O R) as Q1. rewrite E1 in Q1. subst s.
    assert (E2 : irun conn_new (h1 ++ [IStep now ws]) = istep now ws (IRun St_as ph p)) by (rewrite irun_snoc, E1; reflexivity).
    assert (E3 : istep now ws (IRun St_as ph p) = ICrash w).
    { destruct (istep now ws (IRun St_as ph p)) as [s' ph' p'|p'|e'|w']; [elim NR1; repeat eexists|..].
      - destruct (done_stays _ _ h2 _ E2) as (q & X). congruence.
      - rewrite (failed_stays _ _ h2 _ E2) in E. discriminate E.
      - rewrite (crashed_stays _ _ h2 _ E2) in E. exact E. }
    destruct (network_prefix _ _ _ _ N2) as (a1 & c1 & a2 & N1 & _). exfalso.
    destruct (proj1 (C37_crash_exactly_partial h1 now ws (network_iop_ok _ _ _ N1) ltac:(rewrite E1; discriminate)) ltac:(exists w; congruence)) as (ty & max & i & p0 & pkt & r & X & _). congruence.
Qed.

(* a connection closed inside a packet, one closed between packets after a zone report was asked for, and a panel that says nothing about arming *)
Definition ex_steps : list iop := repeat (IStep 0 (repeat (WAccept 1) 15)) 15.
Definition ex_as : iop := IArrive (Bytes (bytes_of (MArmingStatusReport ex_disarmed))).
Example C85_example :
  irun conn_new (ex_as :: IArrive (Bytes (B "16XK")) :: IArrive PeerClose :: ex_steps) = IFail "bytes remaining on stream"%string /\
  irun conn_new (ex_as :: IArrive PeerClose :: ex_steps) = IFail "EOF while expecting reply to ZoneStatusRequest(ZoneStatusRequest)"%string /\
  irun conn_new (ex_as :: IArrive (ReadError "reset"%string) :: ex_steps) = IFail "reset"%string /\
  irun conn_new (IStep 0 [] :: IStep 0 [WAccept 3; WErr "broken pipe"%string] :: ex_steps) = IFail "broken pipe"%string /\
  irun conn_new (IStep 0 [] :: IStep 0 [WAccept 0] :: ex_steps) = IFail "failed to write frame to transport"%string /\
  irun conn_new (firstn 4 ex_init ++ [IArrive PeerClose] ++ ex_steps) = IFail "EOF while expecting reply to StringDescriptionRequest(StringDescriptionRequest { ty: Area, num: 2 })"%string.
Proof. vm_compute. repeat split. Qed.
Definition ex_zc : bytes := bytes_of (MZoneChange (mkZC 2 1)).
Example C85_early_example : exists ps, network [IArrive (Bytes ex_zc); IArrive PeerClose] [Bytes ex_zc] true /\ owed [] [Bytes ex_zc] (map Packet ps) [] /\ reports_in ps = [] /\
  length ps = 1%nat /\ Forall good_step ex_steps /\ (3 * length ps + 6 <= length ex_steps)%nat.
Proof.
  assert (D : exists p, drain ([] ++ ex_zc) = Ok ([p], []) /\ reports_in [p] = []) by (eexists; split; vm_compute; reflexivity).
  destruct D as (p & D & R). exists [p]. split; [split; [constructor; [split; [vm_compute; discriminate | vm_compute; repeat constructor] | constructor] | reflexivity]|].
  split; [change (map Packet [p]) with (map Packet [p] ++ []); econstructor; [exact D | constructor]|]. split; [exact R|]. split; [reflexivity|]. split; [|cbn; lia].
  apply Forall_forall. intros x H. apply repeat_spec in H. subst x. split; [|cbn; lia]. apply Forall_forall. intros w Hw. apply repeat_spec in Hw. eauto.
Qed.

Print Assumptions C85_fails_only_because.
Print Assumptions C85_ends.
Print Assumptions C85_ended_early.
