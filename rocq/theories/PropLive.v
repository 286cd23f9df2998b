(* PropLive.v: C71 and C72, what a Panel does sooner or later; and C43, what a finished flush means (state.rs). *)
From Verif Require Import Base BaseFacts Pkt SpecPkt PktFacts DecodeFacts Msg SpecMsg DecFacts MsgFacts WireFacts IsoFacts
  Tokio SpecConn ConnFacts State SpecState StateFacts RunFacts HistFacts ViewFacts ExState PropState PropSink.
From Coq Require Import ZifyBool ZifyNat ZifyN.
Ltac Zify.zify_post_hook ::= Z.div_mod_to_equations.

(* ---- healthy panels: the network has delivered nothing but data so far ---- *)
Definition data (a : arrival) : Prop := match a with Bytes c => c <> [] /\ u8s c | _ => False end.
Definition data_op (o : op) : Prop := match o with Arrive a => data a | _ => True end.
Definition data_iop (o : iop) : Prop := match o with IArrive a => data a | _ => True end.
Definition healthy (p : Panel) : Prop := exists h0 p0 h bs,
  Forall data_iop h0 /\ irun conn_new h0 = IDone p0 /\ Forall op_ok h /\ Forall data_op h /\ run p0 h = Ok (p, bs).

Definition alive (c : conn) : Prop :=
  has_errored c = false /\ c_eof c = false /\ peer_closed c = false /\ Forall (fun r => exists x b, r = RData (x :: b)) (rq c).
Lemma alive_nexts c c' r : nexts c c' r -> alive c -> alive c' /\ (r = Pending \/ exists p, r = Ready (Some (IoOk p))).
Proof.
  induction 1 as [c HE|c p rest HE HR HD|c HE HR EE EB|c HE HR EE EB HD|c HE HR HD EQ EP|c e q HE HR HD EQ|
    c q HE HR EE HD HZ|c q c' r HE EE HD HZ X IH|c x b q c' r HE HR HD EQ X IH]; intros (A1 & A2 & A3 & A4); try congruence.
  - split; [|eauto]. unfold alive. cbn. auto.
  - split; [|auto]. unfold alive. cbn. auto.
  - rewrite EQ in A4. inversion A4 as [|? ? (x & b & F) _]; discriminate F.
  - exfalso. destruct HZ as [Z|(_ & Z & _)]; [|congruence]. rewrite Z in A4. inversion A4 as [|? ? (x & b & F) _]; discriminate F.
  - apply IH. rewrite EQ in A4. inversion A4; subst. unfold alive. cbn. auto.
Qed.
Lemma alive_arrive c a : alive c -> data a -> alive (arrive c a).
Proof.
  intros (A1 & A2 & A3 & A4) H. destruct a as [[|x b]|e|]; cbn in H; try (destruct H; congruence).
  repeat split; auto. cbn. apply Forall_app. split; [exact A4|]. constructor; eauto.
Qed.
Lemma alive_read c c' : same_read c c' -> alive c -> alive c'.
Proof. intros (_ & E2 & _ & E4 & E5 & E6) (A1 & A2 & A3 & A4). unfold alive. rewrite E2, E4, E5, E6. auto. Qed.
Definition ialive (i : istate) : Prop := match i with IRun _ _ p | IDone p => alive (p_conn p) | _ => True end.
Lemma istep_alive now ws i : iinv i -> ialive i -> ialive (istep now ws i).
Proof.
  destruct i as [s ph p|p|e|w]; auto. intros (I & C & S & W) A. cbn [ialive] in A. destruct ph; cbn [istep].
  - unfold conn_poll_ready. rewrite W by discriminate. cbn [length]. change (BACKPRESSURE <=? N.of_nat 0) with false. cbv beta iota.
    destruct (to_pkt_spec _ (stage_msg_wf s p S)) as (b & -> & _ & Hb & _). cbn [bind].
    destruct (encode_valid (PAscii b) Hb) as (f & HF & HE). unfold conn_start_send. rewrite HE. cbn [bind ialive]. exact A.
  - destruct (conn_poll_flush (p_conn p) ws) as [[c ws'] r] eqn:EF. destruct (conn_flush_spec _ _ _ _ _ EF) as (R & _).
    destruct r as [|[[]|e]]; cbn [ialive]; auto; eapply alive_read; eauto.
  - pose proof I as (CI & _). destruct (conn_next_total _ CI) as (c & r & E & X). rewrite E.
    destruct (await_eof_fails s) as (eof & ->). destruct (alive_nexts _ _ _ X A) as [A' _].
    destruct r as [|[[pkt|e]|]]; cbn [ialive]; auto.
    destruct (nexts_same_write _ _ _ X) as (Ew & _). pose proof (with_conn_inv p c I (nexts_inv _ _ _ X CI) Ew) as I'.
    destruct (interpret_spec now (with_conn p c) pkt I' (nexts_pkt_ok _ _ _ X CI)) as (p' & ev' & w & -> & _ & Ec & _). cbn [p_conn with_conn] in Ec.
    assert (V' : alive (p_conn p')) by (rewrite Ec; exact A').
    destruct (e_msg ev') as [[m|]|]; try exact V'. destruct (is_response_to m (stage_msg s)); [|exact V'].
    destruct s as [| |ty max i]; cbn [after_reply]; try exact V'.
    unfold sds_reply. destruct m; try exact Logic.I. destruct (negb _); [exact Logic.I|].
    assert (AS : forall q, alive (p_conn q) -> ialive (after_sds ty q)) by (intros q Vq; destruct ty; exact Vq).
    destruct (names_of (p_state p') ty); [|exact Logic.I]. destruct (sd_num m =? 0); [auto|].
    destruct (_ <? _)%nat; [exact Logic.I|]. destruct (set_nth l _ _) as [l'|?|?]; try exact Logic.I.
    destruct (_ <? _)%nat; [exact V' | apply AS; exact V'].
Qed.
Lemma data_iop_ok o : data_iop o -> iop_ok o.
Proof. destruct o as [[c|e|]|]; cbn; tauto. Qed.
Lemma irun_alive h : Forall data_iop h -> ialive (irun conn_new h).
Proof.
  induction h as [|o h IH] using rev_ind; intros HO; [repeat split; constructor|].
  apply Forall_app in HO as [HO Ho]. inversion Ho as [|? ? Oo _]; subst. specialize (IH HO).
  assert (I : iinv (irun conn_new h)) by (apply irun_inv; eapply Forall_impl; [exact data_iop_ok | exact HO]).
  rewrite irun_snoc. destruct o as [a|now ws]; cbn [iop_step].
  - destruct (irun conn_new h); auto; apply alive_arrive; auto.
  - apply istep_alive; auto.
Qed.
Lemma step_alive p o p' b : stepped p o p' b -> data_op o -> alive (p_conn p) -> alive (p_conn p').
Proof.
  intros S D A. destruct o as [a|now|w ws|c|ws|ws]; cbn [stepped] in S.
  - destruct S as [_ ->]. apply alive_arrive; auto.
  - destruct S as (r & w & _ & (rc & X & _)). apply (alive_nexts _ _ _ X A).
  - destruct S as (r & _ & (_ & _ & S & _) & _). eapply alive_read; eauto.
  - destruct S as (_ & _ & (_ & _ & S & _) & _). eapply alive_read; eauto.
  - destruct S as (r & _ & (_ & _ & S & _) & _). eapply alive_read; eauto.
  - destruct S as (r & _ & (_ & _ & S & _) & _). eapply alive_read; eauto.
Qed.
Lemma run_alive h : forall p p' bs, pinv p -> Forall op_ok h -> Forall data_op h -> run p h = Ok (p', bs) -> alive (p_conn p) -> alive (p_conn p').
Proof.
  induction h as [|o h IH]; intros p p' bs I HO HD E A; cbn [run] in E; [injection E as <- _; exact A|].
  inversion HO; inversion HD; subst. apply bind_inv in E as ([p1 b] & E1 & E). apply bind_inv in E as ([p2 bs2] & E2 & [= <- _]).
  destruct (step_inv _ _ _ _ I H1 E1) as [I1 S]. eapply IH; eauto. eapply step_alive; eauto.
Qed.
Lemma healthy_alive p : healthy p -> reachable p /\ pinv p /\ up p /\ alive (p_conn p).
Proof.
  intros (h0 & p0 & h & bs & D0 & E0 & HO & HD & E).
  assert (C : connected p0) by (exists h0; split; [eapply Forall_impl; [exact data_iop_ok | exact D0] | exact E0]).
  assert (R : reachable p) by (exists p0, h, bs; auto). destruct (reachable_inv _ R) as [I U]. split; [exact R|]. split; [exact I|]. split; [exact U|].
  pose proof (irun_alive h0 D0) as A. rewrite E0 in A. destruct (connected_inv _ C) as (I0 & _). exact (run_alive _ _ _ _ I0 HO HD E A).
Qed.
Lemma healthy_run p h p' bs : healthy p -> Forall op_ok h -> Forall data_op h -> run p h = Ok (p', bs) -> healthy p'.
Proof.
  intros (h0 & p0 & h1 & bs1 & D0 & E0 & HO & HD & E) HO' HD' E'. exists h0, p0, (h1 ++ h), (bs1 ++ bs). split; [exact D0|]. split; [exact E0|].
  split; [apply Forall_app; auto|]. split; [apply Forall_app; auto|]. rewrite run_app, E. cbn [bind]. rewrite E'. reflexivity.
Qed.

(* a poll of a healthy panel: the next packet, or none to come *)
Lemma alive_poll now p : pinv p -> alive (p_conn p) ->
  exists p' r w, poll_next now p = Ok (p', r, w) /\ pinv p' /\ alive (p_conn p') /\ poll_case now p p' r w /\
    ((exists e pkt, yields r e /\ e_pkt e = Some pkt /\ decode (unread (p_conn p)) = Ok (Some pkt, unread (p_conn p'))) \/
     (decode (unread (p_conn p)) = Ok (None, unread (p_conn p)) /\ unread (p_conn p') = unread (p_conn p) /\
      exists c, conn_poll_next (p_conn p) = Ok (c, Pending))).
Proof.
  intros I A. destruct (poll_next_spec now p I) as (p' & r & w & E & I' & P). pose proof (polled_case _ _ _ _ _ P I) as PC.
  destruct P as (rc & X & H). destruct (alive_nexts _ _ _ X A) as [A' B]. exists p', r, w. repeat (split; [assumption|]).
  pose proof (nexts_unread _ _ _ X (proj1 I)) as U. destruct B as [->|(pkt & ->)].
  - right. destruct U as (U1 & U2 & U3). split; [exact U3|]. split; [exact U1|].
    destruct (conn_next_total _ (proj1 I)) as (c & r2 & E2 & X2). exists c. rewrite E2. f_equal. f_equal.
    destruct (alive_nexts _ _ _ X2 A) as [_ [B|(pkt & ->)]]; [exact B|]. pose proof (nexts_unread _ _ _ X2 (proj1 I)) as U'. cbv beta iota in U'. congruence.
  - left. destruct H as (e & -> & _ & (EP & _)). exists e, pkt. split; [reflexivity|]. auto.
Qed.
Lemma drains_polls ps : forall nows p left, pinv p -> alive (p_conn p) -> drains (unread (p_conn p)) ps left -> length nows = length ps ->
  exists p' bs, run p (map PollNext nows) = Ok (p', bs) /\ pinv p' /\ alive (p_conn p') /\ unread (p_conn p') = left /\
    packets (events bs) = ps /\ Forall (fun e => ~ deferred e) (events bs).
Proof.
  induction ps as [|pkt ps IH]; intros [|now nows] p left I A D L; try discriminate.
  - exists p, []. inversion D; subst. do 5 (split; [auto|]). constructor.
  - injection L as L. inversion D as [|? ? rest ? ? HD HT]; subst.
    destruct (alive_poll now p I A) as (p1 & r & w & E & I1 & A1 & _ & [(e & pkt' & Y & EP & HD')|(HN & _)]); [|congruence].
    rewrite HD in HD'. injection HD' as <- ->. destruct (IH nows p1 left I1 A1 HT L) as (p2 & bs & E2 & I2 & A2 & U2 & P2 & F2).
    exists p2, (ONext r w :: bs). cbn [map run step]. rewrite E. cbn [bind]. rewrite E2. cbn [bind]. unfold yields in Y. subst r.
    change (events (ONext (Ready (Some (IoOk e))) w :: bs)) with (e :: events bs). change (packets (e :: events bs)) with (catMaybes (e_pkt e :: map e_pkt (events bs))). rewrite EP. cbn [catMaybes].
    do 4 (split; [auto|]). split; [f_equal; exact P2 | constructor; [unfold deferred; congruence | exact F2]].
Qed.

(* ------------------------------------------------------------------ C71 *)
(* Packets that say nothing about arming. *)
Definition ex_zc : message := MZoneChange (mkZC 1 2).
Definition chatter (nows : list N) : list op := flat_map (fun t => [got ex_zc; PollNext t]) nows.
Lemma ex_zc_bytes : bytes_of ex_zc <> [] /\ u8s (bytes_of ex_zc) /\ exists pkt, decode (bytes_of ex_zc) = Ok (Some pkt, []) /\ message_of pkt = Some ex_zc.
Proof. split; [discriminate|]. split; [repeat constructor|]. eexists. split; vm_compute; reflexivity. Qed.
Lemma chatter_hides nows : forall p, pinv p -> up p -> alive (p_conn p) -> unread (p_conn p) = [] ->
  exists p' bs, run p (chatter nows) = Ok (p', bs) /\ as_reports bs = [] /\ length (events bs) = length nows /\
    panel_arming_status p' = panel_arming_status p /\ pending_arm p' = pending_arm p.
Proof.
  destruct ex_zc_bytes as (BN & BU & pkt & BD & BM).
  induction nows as [|t nows IH]; intros p I U A E0; [exists p, []; repeat split|].
  set (p0 := with_conn p (arrive (p_conn p) (Bytes (bytes_of ex_zc)))).
  assert (I0 : pinv p0) by (apply with_conn_inv; auto; apply arrive_inv; [apply I | exact BU]).
  assert (A0 : alive (p_conn p0)) by (apply alive_arrive; [exact A | split; assumption]).
  assert (U0 : unread (p_conn p0) = bytes_of ex_zc) by (unfold p0; cbn [p_conn with_conn]; rewrite arrive_unread, E0; reflexivity).
  destruct (alive_poll t p0 I0 A0) as (p1 & r & w & E & I1 & A1 & PC & [(e & pkt' & Y & EP & HD')|(HN & _)]); [|rewrite U0, BD in HN; discriminate HN].
  rewrite U0, BD in HD'. injection HD' as <- HU.
  destruct (step_inv p0 (PollNext t) p1 (ONext r w) I0 Logic.I) as [_ S1]; [cbn [step]; rewrite E; reflexivity|].
  assert (Up0 : up p0) by exact U. pose proof (up_step _ _ _ _ S1 I0 Up0) as U1.
  destruct (IH p1 I1 U1 A1 (eq_sym HU)) as (p2 & bs & E2 & R2 & L2 & S2 & H2).
  exists p2, (ONone :: ONext r w :: bs). unfold chatter. cbn [flat_map app run step got]. cbn [bind]. fold p0. rewrite E. cbn [bind]. fold (chatter nows). rewrite E2. cbn [bind].
  assert (EV : events [ONext r w] = [e]) by (unfold yields in Y; subst r; reflexivity).
  assert (RN : reports_in (catMaybes [e_pkt e]) = []) by (rewrite EP; cbn; unfold reports_in, messages_in; cbn [map catMaybes]; rewrite BM; reflexivity).
  split; [reflexivity|]. change (ONone :: ONext r w :: bs) with ([ONone] ++ [ONext r w] ++ bs). rewrite !as_reports_app, !events_app, (reports_event _ _ EV), RN, R2, EV.
  split; [reflexivity|]. split; [cbn; rewrite L2; reflexivity|]. rewrite S2, H2.
  destruct (event_arming _ _ _ _ _ _ PC Y I0 Up0) as (a & a' & B1 & B2 & [(x & _ & RX & _)|[(EN & _)|(_ & _ & -> & EP' & _)]]); try congruence.
  change (panel_arming_status p) with (panel_arming_status p0). change (pending_arm p) with (pending_arm p0). unfold status_is in *. split; congruence.
Qed.

Definition ex_suspicious : Panel := Eval vm_compute in match run ex_panel [got (MArmingStatusReport ex_armed)] with Ok (p, _) => p | _ => ex_panel end.
Lemma ex_init_data : Forall data_iop ex_init.
Proof.
  apply Forall_forall. intros o Ho. pose proof ex_init_ok as K. rewrite Forall_forall in K. specialize (K o Ho). destruct o as [[c|e|]|]; [| | |exact Logic.I]; cbn [iop_ok arrival_u8 data_iop data] in *.
  - split; [|exact K]. unfold ex_init in Ho. apply in_app_or in Ho as [Ho|Ho]; [|apply repeat_spec in Ho; discriminate].
    apply in_map_iff in Ho as (m & [= <-] & Hm). assert (X : forallb (fun m => match bytes_of m with [] => false | _ => true end) ex_replies = true) by (vm_compute; reflexivity).
    rewrite forallb_forall in X. specialize (X m Hm). destruct (bytes_of m); [discriminate X | discriminate].
  - unfold ex_init in Ho. apply in_app_or in Ho as [Ho|Ho]; [|apply repeat_spec in Ho; discriminate]. apply in_map_iff in Ho as (m & ? & _). discriminate.
  - unfold ex_init in Ho. apply in_app_or in Ho as [Ho|Ho]; [|apply repeat_spec in Ho; discriminate]. apply in_map_iff in Ho as (m & ? & _). discriminate.
Qed.
Lemma ex_suspicious_healthy : healthy ex_suspicious.
Proof.
  exists ex_init, ex_panel, [got (MArmingStatusReport ex_armed)]; eexists. split; [exact ex_init_data|]. split; [vm_compute; reflexivity|].
  split; [repeat constructor|]. split; [repeat constructor; discriminate|]. vm_compute. reflexivity.
Qed.

(* x is held by a poll; the panel goes on sending other packets, and the caller takes each as it comes. *)
Theorem C71_takes_effect_refuted : exists p t p1 r w x a,
  healthy p /\ held p = None /\ poll_next t p = Ok (p1, r, w) /\ held p1 = Some x /\ status_is p1 a /\ a <> x /\
  forall nows, exists p2 bs, run p1 (chatter nows) = Ok (p2, bs) /\ as_reports bs = [] /\
    length (events bs) = length nows /\ status_is p2 a /\ held p2 = Some x.
Proof.
  destruct (healthy_alive _ ex_suspicious_healthy) as (_ & I0 & _). destruct (poll_next_spec 0 ex_suspicious I0) as (p1 & r & w & E & _).
  pose proof (healthy_alive _ ex_suspicious_healthy) as (R & _).
  assert (H1 : healthy p1).
  { eapply (healthy_run ex_suspicious [PollNext 0]); [exact ex_suspicious_healthy | repeat constructor .. |]. cbn [run step]. rewrite E. reflexivity. }
  destruct (healthy_alive _ H1) as (_ & I1 & U1 & A1).
  assert (X : unread (p_conn p1) = [] /\ held p1 = Some ex_armed /\ status_is p1 ex_disarmed).
  { assert (F : match poll_next 0 ex_suspicious with Ok (p1, _, _) => Some (unread (p_conn p1), held p1, panel_arming_status p1) | _ => None end = Some ([], Some ex_armed, Ok ex_disarmed)) by (vm_compute; reflexivity).
    rewrite E in F. assert (G : forall (A : Type) (x y : A), Some x = Some y -> x = y) by (intros; congruence). apply G in F. repeat (apply pair_equal_spec in F as [F ?]). unfold status_is. auto. }
  destruct X as (X1 & X2 & X3).
  exists ex_suspicious, 0, p1, r, w, ex_armed, ex_disarmed. split; [exact ex_suspicious_healthy|]. split; [reflexivity|]. split; [exact E|].
  split; [exact X2|]. split; [exact X3|]. split; [discriminate|]. intros nows. destruct (chatter_hides nows p1 I1 U1 A1 X1) as (p2 & bs & E2 & R2 & L2 & S2 & H2).
  exists p2, bs. split; [exact E2|]. split; [exact R2|]. split; [exact L2|]. unfold status_is, held in *. rewrite S2, H2. auto.
Qed.

(* What holds: x takes effect at the first poll after 5 s that finds no packet to deliver.  With n packets received by then,
   none of them about arming, that is the n+1st poll.
   Missing from C71: a bound when packets keep coming, or the connection ends. *)
Theorem C71_takes_effect_partial : forall p t p1 r w x h p2 bs ps left nows now,
  healthy p -> held p = None -> poll_next t p = Ok (p1, r, w) -> held p1 = Some x ->
  Forall op_ok h -> Forall data_op h -> run p1 h = Ok (p2, bs) -> as_reports bs = [] -> Forall (fun e => ~ deferred e) (events bs) ->
  drain (unread (p_conn p2)) = Ok (ps, left) -> reports_in ps = [] -> length nows = length ps -> t + 5000 <= now ->
  exists p3 bs' p4 e wk, run p2 (map PollNext nows) = Ok (p3, bs') /\ packets (events bs') = ps /\
    poll_next now p3 = Ok (p4, Ready (Some (IoOk e)), wk) /\ deferred e /\ status_is p4 x.
Proof.
  intros p t p1 r w x h p2 bs ps left nows now H HN E HS HO HD E2 RN ND DR RP L LT. destruct (healthy_alive _ H) as (R & _).
  assert (H1 : healthy p1) by (eapply (healthy_run p [PollNext t]); [exact H | repeat constructor .. | cbn [run step]; rewrite E; reflexivity]).
  pose proof (healthy_run _ _ _ _ H1 HO HD E2) as H2. destruct (healthy_alive _ H2) as (R2 & I2 & U2 & A2).
  apply drain_iff in DR; [|apply unread_u8, I2].
  destruct (drains_polls ps nows p2 left I2 A2 DR L) as (p3 & bs' & E3 & I3 & A3 & U3 & P3 & F3).
  assert (DL : decode left = Ok (None, left)) by (eapply drains_left; eauto).
  destruct (alive_poll now p3 I3 A3) as (p4 & r4 & w4 & E4 & _ & _ & _ & [(e & pkt & _ & _ & HD')|(_ & _ & c & CP)]); [rewrite U3 in HD'; congruence|].
  destruct (C34_held_report_fires_after_5s p t p1 r w x (h ++ map PollNext nows) p3 (bs ++ bs') now p4 r4 w4 R HN E HS) as [F1 F2]; auto.
  - apply Forall_app. split; [exact HO|]. apply Forall_forall. intros o Ho. apply in_map_iff in Ho as (? & <- & _). exact Logic.I.
  - rewrite run_app, E2. cbn [bind]. rewrite E3. reflexivity.
  - rewrite as_reports_app, RN. unfold as_reports. rewrite P3. exact RP.
  - rewrite events_app. apply Forall_app. auto.
  - destruct (proj2 F1) as (e & Y & De); [split; [exact LT | eauto]|]. exists p3, bs', p4, e, w4. split; [exact E3|]. split; [exact P3|].
    unfold yields in Y. subst r4. split; [exact E4|]. split; [exact De|]. apply (F2 e eq_refl De).
Qed.

(* ---- after the end of the stream ---- *)
Definition ended (c : conn) : Prop :=
  has_errored c = false /\ is_readable c = false /\ c_eof c = true /\ rq c = [] /\ peer_closed c = true.
Lemma ended_nexts c c' r : nexts c c' r -> ended c -> ended c' /\ r = Ready None.
Proof.
  intros X (A1 & A2 & A3 & A4 & A5). inversion X; subst; try congruence.
  destruct H3 as [Z|(_ & _ & ->)]; [congruence|]. split; [|reflexivity]. unfold ended. cbn. auto.
Qed.
Lemma ended_read c c' : same_read c c' -> ended c -> ended c'.
Proof. intros (_ & E2 & E3 & E4 & E5 & E6). unfold ended. rewrite E2, E3, E4, E5, E6. auto. Qed.
Definition not_arrive (o : op) : Prop := match o with Arrive _ => False | _ => True end.
Definition nothing_to_say (q : list message) (o : op) (b : obs) : Prop :=
  match o, b with
  | PollNext _, ONext r w => r = Ready None /\ w = None
  | PollReady _ _, OSink r => q <> [] -> r <> Ready (IoOk tt)
  | _, _ => True
  end.
Lemma ended_step p o p' b : pinv p -> ended (p_conn p) -> not_arrive o -> stepped p o p' b ->
  ended (p_conn p') /\ p_state p' = p_state p /\ pending_arm p' = pending_arm p /\ (outstanding p <> [] -> outstanding p' = outstanding p) /\
  nothing_to_say (outstanding p) o b /\ events [b] = [].
Proof.
  intros I En NA S. destruct o as [a|now|w ws|c|ws|ws]; cbn [stepped] in S; [destruct NA| | | | |].
  - destruct S as (r & w & -> & (rc & X & H)). destruct (ended_nexts _ _ _ X En) as [En' ->]. destruct H as (-> & EQ & ->).
    rewrite EQ. cbn. auto 10.
  - destruct S as (r & -> & (S1 & S2 & S3 & _) & _ & S). pose proof (ended_read _ _ S3 En) as En'. unfold outstanding. destruct (cmd_state p) as [|q f k] eqn:C.
    + destruct S as [-> ->]. rewrite C. cbn. split; [exact En|]. repeat split; auto; congruence.
    + destruct S as (N & f' & k' & C' & _). rewrite C'. cbn. repeat split; auto; apply En'.
  - destruct S as (-> & C & (S1 & S2 & S3 & _) & _). pose proof (ended_read _ _ S3 En) as En'. unfold outstanding. rewrite C. cbn. split; [exact En'|]. repeat split; auto; congruence.
  - destruct S as (r & -> & (S1 & S2 & S3 & _) & _ & S). pose proof (ended_read _ _ S3 En) as En'. unfold outstanding. destruct (cmd_state p) as [|q f k] eqn:C.
    + destruct S as [-> ->]. rewrite C. cbn. split; [exact En'|]. repeat split; auto; congruence.
    + destruct S as (f' & C' & _). rewrite C'. cbn. repeat split; auto; apply En'.
  - destruct S as (r & -> & (S1 & S2 & S3 & _) & _ & _ & S). pose proof (ended_read _ _ S3 En) as En'. unfold outstanding. destruct (cmd_state p) as [|q f k] eqn:C.
    + rewrite S. cbn. split; [exact En'|]. repeat split; auto; congruence.
    + destruct S as (f' & C'). rewrite C'. cbn. repeat split; auto; apply En'.
Qed.
Lemma ended_run h : forall p p' bs, pinv p -> ended (p_conn p) -> Forall op_ok h -> Forall not_arrive h -> run p h = Ok (p', bs) ->
  p_state p' = p_state p /\ pending_arm p' = pending_arm p /\ events bs = [] /\
  (outstanding p <> [] -> outstanding p' = outstanding p /\ Forall2 (nothing_to_say (outstanding p)) h bs).
Proof.
  induction h as [|o h IH]; intros p p' bs I En HO NA E; cbn [run] in E; [injection E as <- <-; repeat split; constructor|].
  inversion HO; inversion NA; subst. apply bind_inv in E as ([p1 b] & E1 & E). apply bind_inv in E as ([p2 bs2] & E2 & [= <- <-]).
  destruct (step_inv _ _ _ _ I H1 E1) as [I1 S]. destruct (ended_step _ _ _ _ I En H5 S) as (En1 & S1 & S2 & S3 & S4 & S5).
  destruct (IH _ _ _ I1 En1 H2 H6 E2) as (T1 & T2 & T3 & T4). rewrite T1, T2. split; [exact S1|]. split; [exact S2|].
  change (b :: bs2) with ([b] ++ bs2). rewrite events_app, S5, T3. split; [reflexivity|]. intros N. specialize (S3 N). rewrite S3 in T4. destruct (T4 N) as [T5 T6].
  split; [exact T5|]. constructor; assumption.
Qed.
(* x is held when the connection ends: no call ever shows it. *)
Theorem C71_lost_at_the_end_refuted : exists p x a,
  reachable p /\ held p = Some x /\ status_is p a /\ a <> x /\
  forall h p' bs, Forall op_ok h -> Forall not_arrive h -> run p h = Ok (p', bs) -> status_is p' a /\ events bs = [].
Proof.
  set (h0 := [got (MArmingStatusReport ex_armed); PollNext 0; Arrive PeerClose; PollNext 1]).
  assert (O0 : Forall op_ok h0) by (repeat constructor).
  assert (F : match run ex_panel h0 with Ok (p, _) => Some (held p, panel_arming_status p, has_errored (p_conn p), is_readable (p_conn p), c_eof (p_conn p), rq (p_conn p), peer_closed (p_conn p)) | _ => None end =
    Some (Some ex_armed, Ok ex_disarmed, false, false, true, [], true)) by (vm_compute; reflexivity).
  destruct (run ex_panel h0) as [[p bs0]|?|?] eqn:E; try discriminate F.
  assert (R : reachable p) by (exists ex_panel, h0, bs0; split; [exact ex_connected | auto]).
  assert (X : ended (p_conn p) /\ held p = Some ex_armed /\ status_is p ex_disarmed).
  { unfold ended, status_is. assert (G : forall (A : Type) (x y : A), Some x = Some y -> x = y) by (intros; congruence). apply G in F. repeat (apply pair_equal_spec in F as [F ?]). auto 10. }
  destruct X as (X1 & X2 & X3). clear E. exists p, ex_armed, ex_disarmed. split; [exact R|]. split; [exact X2|]. split; [exact X3|]. split; [discriminate|].
  intros h p' bs HO NA E. destruct (reachable_inv _ R) as [I _]. destruct (ended_run h p p' bs I X1 HO NA E) as (T1 & _ & T3 & _). split; [|exact T3].
  unfold status_is, panel_arming_status in *. rewrite T1. exact X3.
Qed.

(* ------------------------------------------------------------------ C72 *)
(* A task waits to send; the connection ends, and the stream says so.  No later call wakes the task, and poll_ready is never ready. *)
Lemma busy_step p o p' b q k : pinv p -> ended (p_conn p) -> not_arrive o -> op_ok o -> cmd_state p = Busy q true k -> step p o = Ok (p', b) ->
  (exists k', cmd_state p' = Busy q true k') /\ ended (p_conn p') /\
  match o with PollNext _ => b = ONext (Ready None) None | PollReady _ _ => b = OSink Pending | _ => True end.
Proof.
  intros I En NA HO C E. destruct (step_inv _ _ _ _ I HO E) as [_ S]. destruct (ended_step _ _ _ _ I En NA S) as (En' & _ & _ & _ & _ & _). destruct o as [a|now|w ws|c|ws|ws]; [destruct NA| | | | |]; cbn [step] in E.
  - cbn [stepped] in S. destruct S as (r & w & -> & (rc & X & H)). destruct (ended_nexts _ _ _ X En) as [_ ->]. destruct H as (-> & EQ & ->).
    split; [rewrite EQ; cbn [with_conn cmd_state]; eauto | auto].
  - unfold poll_ready in E. rewrite C in E. injection E as <- <-. cbn [with_cmd cmd_state]. split; [eauto | auto].
  - cbn [stepped] in S. destruct S as (_ & S & _). congruence.
  - unfold poll_flush, panel_flush in E. rewrite C in E. injection E as <- <-. split; [eauto | auto].
  - unfold poll_close, panel_flush in E. rewrite C in E. destruct (conn_poll_close (p_conn p) ws) as [[c' ws'] r]. injection E as <- <-. split; [cbn [with_conn cmd_state]; eauto | auto].
Qed.
Lemma busy_run h : forall p p' bs q k, pinv p -> ended (p_conn p) -> Forall not_arrive h -> Forall op_ok h -> cmd_state p = Busy q true k -> run p h = Ok (p', bs) ->
  (exists k', cmd_state p' = Busy q true k') /\
  Forall2 (fun o b => match o with PollNext _ => b = ONext (Ready None) None | PollReady _ _ => b = OSink Pending | _ => True end) h bs.
Proof.
  induction h as [|o h IH]; intros p p' bs q k I En NA HO C E; cbn [run] in E; [injection E as <- <-; split; [eauto | constructor]|].
  inversion HO; inversion NA; subst. apply bind_inv in E as ([p1 b] & E1 & E). apply bind_inv in E as ([p2 bs2] & E2 & [= <- <-]).
  destruct (busy_step _ _ _ _ _ _ I En H5 H1 C E1) as ((k1 & C1) & En1 & O1). destruct (step_inv _ _ _ _ I H1 E1) as [I1 _].
  destruct (IH _ _ _ _ _ I1 En1 H6 H2 C1 E2) as [T1 T2]. split; [exact T1|]. constructor; assumption.
Qed.
Definition flags (c : conn) := (has_errored c, is_readable c, c_eof c, rq c, peer_closed c).
Lemma ex_waiting : match run ex_panel [StartSend ex_cmd] with
  | Ok (p, _) => let '(p1, r1) := poll_ready 7 [WAccept 100] p in
      match poll_next 0 (with_conn p1 (arrive (p_conn p1) PeerClose)) with
      | Ok (p2, r2, w2) => Some (r1, r2, w2, flags (p_conn p2), match cmd_state p2 with Busy _ true _ => true | _ => false end)
      | _ => None
      end
  | _ => None
  end = Some (Pending, Ready None, None, (false, false, true, [], true), true).
Proof. vm_compute. reflexivity. Qed.
Theorem C72_waiter_learns_of_the_end_refuted : exists p w ws p1 p2,
  reachable p /\ poll_ready w ws p = (p1, Pending) /\
  poll_next 0 (with_conn p1 (arrive (p_conn p1) PeerClose)) = Ok (p2, Ready None, None) /\
  forall h p' bs, Forall op_ok h -> Forall not_arrive h -> run p2 h = Ok (p', bs) ->
    Forall2 (fun o b => match o with PollNext _ => b = ONext (Ready None) None | PollReady _ _ => b = OSink Pending | _ => True end) h bs.
Proof.
  pose proof ex_waiting as X. destruct (run ex_panel [StartSend ex_cmd]) as [[p bs0]|?|?] eqn:E; try discriminate X.
  assert (R : reachable p) by (exists ex_panel, [StartSend ex_cmd], bs0; split; [exact ex_connected|]; split; [repeat constructor; cbn; lia | exact E]).
  destruct (poll_ready 7 [WAccept 100] p) as [p1 r1] eqn:E1. set (pc := with_conn p1 (arrive (p_conn p1) PeerClose)) in *.
  destruct (poll_next 0 pc) as [[[p2 r2] w2]|?|?] eqn:E2; try discriminate X. injection X as -> -> -> X4 X5 X6 X7 X8 X9.
  assert (En : ended (p_conn p2)) by (unfold ended; auto). destruct (cmd_state p2) as [|q [] k] eqn:C; try discriminate X9.
  exists p, 7%nat, [WAccept 100], p1, p2. split; [exact R|]. split; [exact E1|]. split; [exact E2|].
  assert (R2 : reachable p2).
  { eapply (reachable_run p [PollReady 7 [WAccept 100]; Arrive PeerClose; PollNext 0]); [exact R | repeat constructor|]. cbn [run step]. rewrite E1. cbn [bind]. fold pc. rewrite E2. reflexivity. }
  intros h p' bs HO NA ER. destruct (reachable_inv _ R2) as [I2 _]. eapply busy_run; eauto.
Qed.
(* Only a reply ends the wait: through any calls that complete nothing, poll_ready is never ready and no one is woken. *)
Theorem C72_only_a_reply_wakes : forall p q h p' bs, reachable p -> outstanding p = [q] -> Forall op_ok h -> run p h = Ok (p', bs) -> completions bs = [] ->
  outstanding p' = [q] /\ (forall r w, In (ONext r w) bs -> w = None) /\
  Forall2 (fun o b => match o with PollReady _ _ => b <> OSink (Ready (IoOk tt)) | _ => True end) h bs.
Proof.
  intros p q h. revert p. induction h as [|o h IH]; intros p p' bs R O HO E CN; cbn [run] in E; [injection E as <- <-; split; [exact O|]; split; [intros ? ? [] | constructor]|].
  inversion HO as [|? ? H1 H2]; subst. apply bind_inv in E as ([p1 b] & E1 & E). apply bind_inv in E as ([p2 bs2] & E2 & [= <- <-]).
  change (b :: bs2) with ([b] ++ bs2) in CN. rewrite completions_app in CN. apply app_eq_nil in CN as [CN1 CN2].
  destruct (reachable_inv _ R) as [I _]. destruct (step_inv _ _ _ _ I H1 E1) as [I1 S]. pose proof (reachable_step _ _ _ _ R H1 E1) as R1.
  assert (NS : forall c, o <> StartSend c).
  { intros c ->. cbn [stepped] in S. destruct S as (_ & S & _). unfold outstanding in O. rewrite S in O. discriminate. }
  pose proof (step_outstanding _ _ _ _ S I) as SO. rewrite O, CN1 in SO. cbn [app] in SO.
  assert (O1 : outstanding p1 = [q]) by (destruct o; try (cbn in SO; congruence); elim (NS c eq_refl)).
  destruct (IH p1 p2 bs2 R1 O1 H2 E2 CN2) as (T1 & T2 & T3). split; [exact T1|]. unfold outstanding in O. destruct (cmd_state p) as [|q' f k] eqn:C; [discriminate|].
  split.
  - intros r w [->|Hin]; [|eauto]. destruct o; cbn [stepped] in S; try (destruct S as (? & ? & _); discriminate); try (destruct S as (? & _); discriminate).
    destruct S as (r' & w' & [= <- <-] & P). pose proof (polled_case _ _ _ _ _ P I) as PC. destruct (yields_dec r) as [(e & Y)|NY].
    + rewrite (completes_event _ e) in CN1 by (unfold yields in Y; subst r; reflexivity). pose proof (event_cmd _ _ _ _ _ _ PC Y) as K. rewrite C in K.
      destruct K as [(m & _ & _ & _ & K & _)|(_ & _ & _ & K)]; [rewrite K in CN1; discriminate | exact K].
    + apply (poll_no_event _ _ _ _ _ PC NY).
  - constructor; [|exact T3]. destruct o; auto. cbn [stepped] in S. destruct S as (r & -> & _ & _ & S). rewrite C in S. destruct S as (S & _). congruence.
Qed.

Lemma idle_polls nows : forall p p' bs, pinv p -> cmd_state p = Idle -> run p (map PollNext nows) = Ok (p', bs) -> cmd_state p' = Idle.
Proof.
  induction nows as [|now nows IH]; intros p p' bs I C E; cbn [map run] in E; [injection E as <- _; exact C|].
  apply bind_inv in E as ([p1 b] & E1 & E). apply bind_inv in E as ([p2 bs2] & E2 & [= <- _]). destruct (step_inv _ (PollNext now) _ _ I Logic.I E1) as [I1 S].
  apply (IH _ _ _ I1) in E2; [exact E2|]. cbn [stepped] in S. destruct S as (r & w & _ & P). pose proof (polled_case _ _ _ _ _ P I) as PC. destruct (yields_dec r) as [(e & Y)|NY].
  - pose proof (event_cmd _ _ _ _ _ _ PC Y) as K. rewrite C in K. apply K.
  - destruct (poll_no_event _ _ _ _ _ PC NY) as [EQ _]. rewrite EQ. exact C.
Qed.
Lemma messages_cons pkt ps : messages_in (pkt :: ps) = match message_of pkt with Some m => m :: messages_in ps | None => messages_in ps end.
Proof. unfold messages_in. cbn [map catMaybes]. destruct (message_of pkt); reflexivity. Qed.
Lemma wakes q w ps : forall nows p left f, pinv p -> alive (p_conn p) -> drains (unread (p_conn p)) ps left -> length nows = length ps ->
  cmd_state p = Busy q f (Some w) -> Exists (fun m => replies m q) (messages_in ps) ->
  exists p2 bs e, run p (map PollNext nows) = Ok (p2, bs) /\ In (ONext (Ready (Some (IoOk e))) (Some w)) bs /\ e_completes e = Some q /\ cmd_state p2 = Idle.
Proof.
  induction ps as [|pkt ps IH]; intros [|now nows] p left f I A D L C X; try discriminate; [inversion X|]. injection L as L. inversion D as [|? ? rest ? ? HD HT]; subst.
  destruct (alive_poll now p I A) as (p1 & r & wk & E & I1 & A1 & PC & [(e & pkt' & Y & EP & HD')|(HN & _)]); [|congruence].
  rewrite HD in HD'. injection HD' as <- ->. pose proof (event_cmd _ _ _ _ _ _ PC Y) as K. rewrite C in K.
  cbn [map run step]. rewrite E. cbn [bind]. destruct K as [(m & _ & _ & C1 & K1 & ->)|(K1 & C1 & _ & _)].
  - destruct (drains_polls ps nows p1 left I1 A1 HT L) as (p2 & bs & E2 & _). pose proof (idle_polls _ _ _ _ I1 C1 E2) as C2. rewrite E2. cbn [bind]. unfold yields in Y. subst r.
    exists p2, (ONext (Ready (Some (IoOk e))) (Some w) :: bs), e. split; [reflexivity|]. split; [left; reflexivity|]. auto.
  - assert (X' : Exists (fun m => replies m q) (messages_in ps)).
    { rewrite messages_cons in X. destruct (message_of pkt) as [m|] eqn:M; [|exact X]. inversion X as [? ? X1|? ? X1]; subst; [|exact X1]. elim (K1 m); [|exact X1].
      destruct (poll_event _ _ _ _ _ _ PC Y) as [(k & m' & P1 & P2 & _ & P3 & _)|[(k & P1 & P2 & _)|(? & ? & ? & -> & _)]]; [| |discriminate EP].
      - rewrite EP in P1. injection P1 as <-. apply as_of_msg in P2. congruence.
      - rewrite EP in P1. injection P1 as <-. congruence. }
    destruct (IH nows p1 left f I1 A1 HT L C1 X') as (p2 & bs & e2 & E2 & B1 & B2 & B3). rewrite E2. cbn [bind]. exists p2, (ONext r wk :: bs), e2. split; [reflexivity|]. split; [right; exact B1|]. auto.
Qed.
(* A task waits with everything written, and the bytes received hold a reply to its command.  As many polls as there are packets
   include one that completes the command and wakes the task; then poll_ready is ready.
   Missing from C72: the connection ends instead. *)
Theorem C72_reply_wakes_partial : forall p w ws p1 q ps left nows, healthy p -> outstanding p = [q] ->
  poll_ready w ws p = (p1, Pending) -> wbuf (p_conn p1) = [] ->
  drain (unread (p_conn p1)) = Ok (ps, left) -> Exists (fun m => replies m q) (messages_in ps) -> length nows = length ps ->
  exists p2 bs e, run p1 (map PollNext nows) = Ok (p2, bs) /\ In (ONext (Ready (Some (IoOk e))) (Some w)) bs /\ e_completes e = Some q /\
    forall w' ws', exists p3, poll_ready w' ws' p2 = (p3, Ready (IoOk tt)).
Proof.
  intros p w ws p1 q ps left nows H O EP W DR X L. destruct (healthy_alive _ H) as (_ & I & _ & A). destruct (poll_ready_spec _ _ _ _ _ EP I) as (I1 & (_ & _ & S & _) & _ & K).
  pose proof (alive_read _ _ S A) as A1. unfold outstanding in O. destruct (cmd_state p) as [|q' f k]; [discriminate|]. injection O as ->. destruct K as (_ & f' & k' & C1 & K & _). rewrite (K eq_refl W) in C1.
  apply drain_iff in DR; [|apply unread_u8, I1]. destruct (wakes q w ps nows p1 left f' I1 A1 DR L C1 X) as (p2 & bs & e & E & B1 & B2 & B3).
  exists p2, bs, e. split; [exact E|]. split; [exact B1|]. split; [exact B2|]. intros w' ws'. exists p2. unfold poll_ready. rewrite B3. reflexivity.
Qed.

Lemma accepted_run p h p' bs q : reachable p -> outstanding p = [q] -> Forall op_ok h -> run p h = Ok (p', bs) -> completions bs = [] -> accepted h = [].
Proof.
  revert p bs. induction h as [|o h IH]; intros p bs R O HO E CN; [reflexivity|]. inversion HO as [|? ? H1 H2]; subst.
  cbn [run] in E. apply bind_inv in E as ([p1 b] & E1 & E). apply bind_inv in E as ([p2 bs2] & E2 & [= <- <-]).
  change (b :: bs2) with ([b] ++ bs2) in CN. rewrite completions_app in CN. apply app_eq_nil in CN as [CN1 CN2].
  destruct (reachable_inv _ R) as [I _]. destruct (step_inv _ _ _ _ I H1 E1) as [_ S]. pose proof (step_outstanding _ _ _ _ S I) as SO. rewrite O, CN1 in SO.
  change (o :: h) with ([o] ++ h). rewrite accepted_app. pose proof (reachable_step _ _ _ _ R H1 E1) as R1.
  destruct (map into_msg (accepted [o])) as [|m l] eqn:M; [|exfalso; unfold outstanding in SO; destruct (cmd_state p1); discriminate SO].
  apply map_eq_nil in M. rewrite M. cbn [app]. apply (IH p1 bs2); auto.
Qed.
(* ------------------------------------------------------------------ C43, exactly *)
(* A flush that is done has written everything, or it did nothing because the panel had no command outstanding; what is left then
   is written by the flush of the next command. *)
Theorem C43_flush_exactly : forall p ws p', reachable p -> poll_flush ws p = (p', Ready (IoOk tt)) ->
  wbuf (p_conn p') = [] \/ (outstanding p = [] /\ p' = p).
Proof.
  intros p ws p' R E. destruct (reachable_inv _ R) as [I _]. destruct (poll_flush_spec _ _ _ _ E I) as (_ & _ & _ & H).
  unfold outstanding. destruct (cmd_state p) as [|q f k]; [right; split; [reflexivity | apply H]|]. left. destruct H as (f' & _ & H). auto.
Qed.
Theorem C43_next_flush_writes_it : forall p c p1 h p2 bs ws p3, reachable p -> op_ok (StartSend c) -> start_send c p = Ok p1 ->
  Forall op_ok h -> run p1 h = Ok (p2, bs) -> completions bs = [] -> poll_flush ws p2 = (p3, Ready (IoOk tt)) ->
  exists f, command_frame c f /\ wbuf (p_conn p3) = [] /\ sent (p_conn p3) = sent (p_conn p) ++ wbuf (p_conn p) ++ f.
Proof.
  intros p c p1 h p2 bs ws p3 R HO E HH E2 CN EF. destruct (reachable_inv _ R) as [I _].
  assert (ES : step p (StartSend c) = Ok (p1, ONone)) by (cbn [step]; rewrite E; reflexivity).
  destruct (step_inv _ _ _ _ I HO ES) as [I1 S]. pose proof (reachable_step _ _ _ _ R HO ES) as R1. cbn [stepped] in S. destruct S as (_ & _ & _ & C1 & f & F & S1 & S2).
  assert (O1 : outstanding p1 = [into_msg c]) by (unfold outstanding; rewrite C1; reflexivity).
  destruct (C72_only_a_reply_wakes p1 (into_msg c) h p2 bs R1 O1 HH E2 CN) as (O2 & _). pose proof (reachable_run _ _ _ _ R1 HH E2) as R2.
  destruct (wire_run _ _ _ _ I1 HH E2) as (fs & F2 & W2).
  assert (AN : accepted h = []).
  { pose proof (accepted_run p1 h p2 bs (into_msg c) R1 O1 HH E2 CN) as K. exact K. }
  rewrite AN in F2. inversion F2; subst. cbn [concat] in W2. rewrite app_nil_r in W2.
  destruct (reachable_inv _ R2) as [I2 _]. destruct (poll_flush_spec _ _ _ _ EF I2) as (_ & _ & W3 & _).
  assert (W : wbuf (p_conn p3) = []) by (destruct (C43_flush_exactly _ _ _ R2 EF) as [W|[W _]]; [exact W | congruence]).
  exists f. split; [exact F|]. split; [exact W|]. unfold written in *. rewrite W, app_nil_r, W2, S1, S2 in W3. exact W3.
Qed.

(* A flush comes to an end on a socket that goes on taking bytes, in whatever pieces, whether or not the panel ever replies; and so
   does a close.  ws are the answers of the socket to the writes. *)
Definition accepts (w : wr) : Prop := exists n, w = WAccept (S n).
Lemma framed_flush_takes ws : forall buf out, Forall accepts ws -> (length buf <= length ws)%nat ->
  exists out' ws', framed_flush ws buf out = ([], out', ws', Ready (IoOk tt)) /\ Forall accepts ws' /\ (buf = [] -> ws' = ws).
Proof.
  induction ws as [|w ws IH]; intros [|x buf] out F L; cbn [framed_flush].
  1: exists out, []; auto. 1: cbn in L; lia. 1: exists out, (w :: ws); auto.
  inversion_clear F as [|? ? (n & ->) F']. destruct (IH (skipn (S n) (x :: buf)) (out ++ firstn (S n) (x :: buf)) F') as (o & ws' & E & H & _).
  - rewrite skipn_length. cbn [length] in *. lia.
  - exists o, ws'. split; [exact E|]. split; [exact H | discriminate].
Qed.
Theorem C43_flush_finishes : forall p ws, Forall accepts ws -> (length (wbuf (p_conn p)) <= length ws)%nat ->
  (exists p', poll_flush ws p = (p', Ready (IoOk tt))) /\ (exists p', poll_close ws p = (p', Ready (IoOk tt)) /\ wbuf (p_conn p') = []).
Proof.
  intros p ws F L. assert (X : forall c v, Forall accepts v -> (length (wbuf c) <= length v)%nat -> exists c' v',
    conn_poll_flush c v = (c', v', Ready (IoOk tt)) /\ wbuf c' = [] /\ Forall accepts v').
  { intros c v Fv Lv. unfold conn_poll_flush. destruct (framed_flush_takes v (wbuf c) (sent c) Fv Lv) as (o & v' & -> & H & _).
    eexists _, _. split; [reflexivity|]. split; [reflexivity | exact H]. }
  destruct (X _ _ F L) as (c & v & E & Z & Fv). unfold poll_close, poll_flush, panel_flush, conn_poll_close.
  destruct (cmd_state p) as [|m [] w].
  1,2: rewrite E; split; eexists; [reflexivity | split; [reflexivity | exact Z]].
  rewrite E. split; [eexists; reflexivity|]. cbn [with_cmd with_conn p_conn]. destruct (X c v Fv) as (c2 & v2 & -> & Z2 & _); [rewrite Z; apply Nat.le_0_l|].
  eexists. split; [reflexivity | exact Z2].
Qed.
(* A second flush has nothing to do, whatever the socket says, unless a command was sent in between. *)
Theorem C43_flush_again : forall p ws p' h q bs ws', reachable p -> poll_flush ws p = (p', Ready (IoOk tt)) ->
  Forall op_ok h -> run p' h = Ok (q, bs) -> accepted h = [] -> poll_flush ws' q = (q, Ready (IoOk tt)).
Proof.
  intros p ws p' h q bs ws' R E.
  assert (K : match cmd_state p' with Busy _ f _ => f = true | Idle => True end).
  { unfold poll_flush, panel_flush in E. destruct (cmd_state p) as [|m [] w] eqn:C.
    1,2: injection E as <-; rewrite C; auto.
    destruct (conn_poll_flush (p_conn p) ws) as [[c ws1] [|[[]|e]]]; try discriminate E. injection E as <-. reflexivity. }
  clear E R ws p. revert p' q bs K. induction h as [|o h IH]; intros p q bs K HO E A.
  - injection E as <- <-. unfold poll_flush, panel_flush. destruct (cmd_state p) as [|m f w]; [reflexivity|]. subst f. reflexivity.
  - cbn [run] in E. apply bind_inv in E as ([p1 b] & E1 & E). apply bind_inv in E as ([p2 bs2] & E2 & [= <- <-]). inversion_clear HO.
    assert (A' : accepted h = []) by (destruct o; unfold accepted in *; cbn in A; try exact A; discriminate A).
    eapply (IH p1); eauto. clear IH E2. destruct o; cbn [step] in E1.
    + injection E1 as <- <-. exact K.
    + apply bind_inv in E1 as ([[p1' r] w] & E1 & [= <- <-]). unfold poll_next in E1. apply bind_inv in E1 as ([c r0] & _ & E1).
      destruct r0 as [|[[pkt|e]|]].
      * change (pending_arm (with_conn p c)) with (pending_arm p) in E1. destruct (pending_arm p) as [[d m]|]; [destruct (d <=? now)|]; try (injection E1 as <- <- <-; exact K).
        destruct (s_arming (p_state (with_conn p c))); [injection E1 as <- <- <-; exact K | discriminate].
      * apply bind_inv in E1 as ([[p3 e] w3] & E1 & [= <- <- <-]). unfold interpret in E1.
        destruct (parse pkt) as [[m|]|e'|w']; try discriminate; try (injection E1 as <- <- <-; exact K).
        apply bind_inv in E1 as ([p4 ch] & E3 & E1).
        assert (C4 : cmd_state p4 = cmd_state p).
        { clear -E3. unfold interpret_msg in E3. destruct m; try (injection E3 as <- <-; reflexivity).
          - unfold interpret_arming_status in E3. destruct (s_arming (p_state (with_conn p c))); [|injection E3 as <- <-; reflexivity].
            destruct (pending_arm (with_conn p c)); [|destruct (is_transition_suspicious _ _); [injection E3 as <- <-; reflexivity|]];
              (destruct (ArmingStatusReport_eqb _ _); injection E3 as <- <-; reflexivity).
          - destruct (s_zones (p_state (with_conn p c))); [|injection E3 as <- <-; reflexivity]. apply bind_inv in E3 as (i & _ & E3). apply bind_inv in E3 as (x & _ & E3).
            apply bind_inv in E3 as (y & _ & E3). injection E3 as <- _. reflexivity. }
        unfold interpret_reply in E1. rewrite C4 in E1. destruct (cmd_state p) as [|r f k] eqn:C.
        -- injection E1 as <- <- <-. rewrite C4. exact I.
        -- destruct (is_response_to m r); injection E1 as <- <- <-; [exact I | rewrite C4; exact K].
      * injection E1 as <- <- <-. exact K.
      * injection E1 as <- <- <-. exact K.
    + unfold poll_ready in E1. destruct (cmd_state p) as [|m f k] eqn:C; [injection E1 as <- <-; rewrite C; exact I|]. subst f.
      injection E1 as <- <-. reflexivity.
    + discriminate A.
    + unfold poll_flush, panel_flush in E1. destruct (cmd_state p) as [|m f k] eqn:C; [|subst f]; injection E1 as <- <-; rewrite C; auto.
    + unfold poll_close, panel_flush in E1. destruct (cmd_state p) as [|m f k] eqn:C; [|subst f];
        (destruct (conn_poll_close (p_conn p) ws) as [[c w2] r]; injection E1 as <- <-; cbn [with_conn cmd_state]; rewrite C; auto).
Qed.

(* ---- examples ---- *)
Example C71_C72_C43_example :
  match run ex_suspicious [PollNext 0; StartSend ex_cmd; PollReady 7 [WAccept 100]; got ex_zc; got (MTaskChange 5); got ex_zc; PollNext 5000; PollNext 5001; PollNext 5002; PollNext 5003] with
  | Ok (p, bs) => Some (map (fun b => match b with ONext (Ready (Some (IoOk e))) w => Some (e_change e, e_completes e, w) | _ => None end) bs, panel_arming_status p, wbuf (p_conn p))
  | _ => None
  end = Some ([Some (None, None, None); None; None; None; None; None; Some (None, None, None); Some (None, Some (into_msg ex_cmd), Some 7%nat); Some (None, None, None);
               Some (Some (CArmingStatus ex_disarmed), None, None)], Ok ex_armed, []).
Proof. vm_compute. reflexivity. Qed.

Print Assumptions C71_takes_effect_refuted.
Print Assumptions C71_takes_effect_partial.
Print Assumptions C71_lost_at_the_end_refuted.
Print Assumptions C72_waiter_learns_of_the_end_refuted.
Print Assumptions C72_only_a_reply_wakes.
Print Assumptions C72_reply_wakes_partial.
Print Assumptions C43_flush_exactly.
Print Assumptions C43_next_flush_writes_it.
Print Assumptions C43_flush_finishes.
Print Assumptions C43_flush_again.
