(* PropGone.v: C134: is it noticed when the panel has gone? *)
From Verif Require Import Base BaseFacts Pkt SpecPkt PktFacts DecodeFacts Msg SpecMsg DecFacts MsgFacts WireFacts IsoFacts
  PropMsg Tokio SpecConn ConnFacts State SpecState StateFacts RunFacts HistFacts ViewFacts ExState PropState PropSink SpecInit
  Mqtt SpecMqtt MqttFacts PropMqtt Config SpecConfig PropConfig SpecServe SpecDeaf SpecGone.
From Coq Require Import ZifyBool ZifyNat ZifyN.
Ltac Zify.zify_post_hook ::= Z.div_mod_to_equations.
Import SpecMqtt.

(* ---- the connection ---- *)
Definition quiet (c : conn) : Prop := has_errored c = false /\ is_readable c = false /\ rq c = [] /\ peer_closed c = false.
Lemma pending_quiet c c' r : nexts c c' r -> r = Pending -> quiet c'.
Proof. induction 1; intros EQ; try discriminate; auto. repeat split; assumption. Qed.
Lemma quiet_same c c' : same_read c c' -> quiet c -> quiet c'.
Proof. intros (_ & _ & A & B & C & D) (E & F & G & H). unfold quiet. rewrite A, B, C, D. auto. Qed.
Lemma quiet_next c : quiet c -> conn_poll_next c = Ok (c, Pending).
Proof. intros (A & B & C & D). unfold conn_poll_next. rewrite C. cbn [length plus framed_loop]. rewrite A, B, C, D. reflexivity. Qed.
Lemma awaits_quiet p : pinv p -> awaits p -> quiet (p_conn p).
Proof.
  intros (CI & _) (now & w & E). unfold poll_next in E. apply bind_inv in E as ([c r] & EC & E). pose proof (conn_next_nexts _ _ _ CI EC) as N.
  destruct r as [|[[pkt|e]|]].
  - pose proof (pending_quiet _ _ _ N eq_refl) as Q. destruct (pending_arm (with_conn p c)) as [[d m]|]; [destruct (d <=? now); [destruct (s_arming _); discriminate E|]|]; injection E as E _; rewrite <- E; exact Q.
  - apply bind_inv in E as ([[? ?] ?] & _ & E). discriminate E.
  - discriminate E.
  - discriminate E.
Qed.
Lemma with_conn_id p : with_conn p (p_conn p) = p.
Proof. destruct p; reflexivity. Qed.
Lemma quiet_poll now p : quiet (p_conn p) -> poll_next now p =
  match pending_arm p with
  | Some (d, m) => if d <=? now then match s_arming (p_state p) with None => Panic "have prior arming_status when transition pending" | Some prior => Ok (with_pending (with_arming p m) None, ev (at_last prior), None) end
                   else Ok (p, Pending, None)
  | None => Ok (p, Pending, None) end.
Proof. intros Q. unfold poll_next. rewrite (quiet_next _ Q). cbn [bind]. rewrite with_conn_id. reflexivity. Qed.

(* ---- the panel ---- *)
Lemma silence_run p h p' bs : pinv p -> quiet (p_conn p) -> Forall op_ok h -> silence h -> run p h = Ok (p', bs) ->
  quiet (p_conn p') /\ completions bs = [] /\ outstanding p' = outstanding p ++ map into_msg (accepted h) /\ no_news p p' (events bs) /\ goes_on bs.
Proof.
  intros I S HO HS E. refine (proj2 (run_ind (fun h bs p' => silence h -> quiet (p_conn p') /\ completions bs = [] /\ outstanding p' = outstanding p ++ map into_msg (accepted h) /\ no_news p p' (events bs) /\ goes_on bs) p I _ _ h bs p' HO E) HS).
  { intros _. split; [exact S|]. split; [reflexivity|]. split; [rewrite app_nil_r; reflexivity|]. split; [split; [reflexivity|]; left; auto | intros r w []]. }
  clear h bs p' HO HS E. intros h bs p1 o p2 b E HO I1 IH Oo Es I2 ST HS. apply Forall_app in HS as [HS Ho]. inversion Ho as [|? ? No _]; subst. destruct (IH HS) as (S1 & C1 & O1 & N1 & G1). clear IH Ho HS.
  rewrite completions_app, events_app, accepted_app, C1, map_app. cbn [app].
  assert (SINK : sink_only p1 p2 -> events [b] = [] -> (forall r w, b <> ONext r w) -> quiet (p_conn p2) /\ completions [b] = [] /\ no_news p p2 (events bs ++ events [b]) /\ goes_on (bs ++ [b])).
  { intros SO EB NB. pose proof SO as (A & B & D & _). split; [eapply quiet_same; eauto|]. split; [unfold completions; rewrite EB; reflexivity|]. split.
    - rewrite EB, app_nil_r. unfold no_news, panel_zone_statuses, status_is, panel_arming_status, held in *. rewrite A, B. exact N1.
    - intros r w H. apply in_app_or in H as [H|[H|[]]]; [eauto | elim (NB _ _ H)]. }
  destruct o as [a|now|w ws|c|ws|ws]; cbn [stepped] in ST; try change (map into_msg (accepted _)) with (@nil message); rewrite ?app_nil_r.
  - elim (No a eq_refl).
  - destruct ST as (r & w & -> & _). cbn [step] in Es. rewrite (quiet_poll now p1 S1) in Es.
    destruct (pending_arm p1) as [[d m]|] eqn:EA; [destruct (d <=? now) eqn:ED; [destruct (s_arming (p_state p1)) as [prior|] eqn:EB; [|discriminate Es]|]|]; cbn [bind] in Es; injection Es as <- <- <-.
    + split; [exact S1|]. split; [reflexivity|]. split; [exact O1|]. destruct N1 as [NZ N1]. split.
      * split; [exact NZ|]. right. destruct N1 as [(EE & A1 & A2)|(pr & r & EE & A1 & A2 & A3 & A4)]; [|unfold held in A4; rewrite EA in A4; discriminate A4].
        exists prior, m. rewrite EE. split; [reflexivity|]. split; [unfold status_is; rewrite <- A1; unfold panel_arming_status; rewrite EB; reflexivity|]. split; [rewrite <- A2; unfold held; rewrite EA; reflexivity|]. split; reflexivity.
      * intros r w H. apply in_app_or in H as [H|[[= <- _]|[]]]; eauto.
    + split; [exact S1|]. split; [reflexivity|]. split; [exact O1|]. split; [rewrite app_nil_r; exact N1|]. intros r w H. apply in_app_or in H as [H|[[=]|[]]]; eauto.
    + split; [exact S1|]. split; [reflexivity|]. split; [exact O1|]. split; [rewrite app_nil_r; exact N1|]. intros r w H. apply in_app_or in H as [H|[[=]|[]]]; eauto.
  - destruct ST as (r & -> & SO & _ & K). destruct (SINK SO eq_refl ltac:(discriminate)) as (X1 & X2 & X3). split; [exact X1|]. split; [exact X2|]. split; [|exact X3].
    rewrite <- O1. unfold outstanding. destruct (cmd_state p1) as [|q f k] eqn:EC; [destruct K as [-> _]; rewrite EC; reflexivity | destruct K as (_ & f' & k' & -> & _); reflexivity].
  - destruct ST as (-> & K1 & SO & K2 & _). destruct (SINK SO eq_refl ltac:(discriminate)) as (X1 & X2 & X3). split; [exact X1|]. split; [exact X2|]. split; [|exact X3].
    rewrite app_assoc, <- O1. unfold outstanding. rewrite K1, K2. reflexivity.
  - destruct ST as (r & -> & SO & _ & K). destruct (SINK SO eq_refl ltac:(discriminate)) as (X1 & X2 & X3). split; [exact X1|]. split; [exact X2|]. split; [|exact X3].
    rewrite <- O1. unfold outstanding. destruct (cmd_state p1) as [|q f k] eqn:EC; [destruct K as [-> _]; rewrite EC; reflexivity | destruct K as (f' & -> & _); reflexivity].
  - destruct ST as (r & -> & SO & _ & _ & K). destruct (SINK SO eq_refl ltac:(discriminate)) as (X1 & X2 & X3). split; [exact X1|]. split; [exact X2|]. split; [|exact X3].
    rewrite <- O1. unfold outstanding. destruct (cmd_state p1) as [|q f k] eqn:EC; [rewrite K; reflexivity | destruct K as (f' & ->); reflexivity].
Qed.
(* However long nothing comes and whatever is called: the stream of events neither ends nor fails, and brings nothing but a report that is held already; no command is completed, and at most one is taken. *)
Theorem C134_panel_refuted : forall p h p' bs, reachable p -> awaits p -> Forall op_ok h -> silence h -> run p h = Ok (p', bs) ->
  goes_on bs /\ no_news p p' (events bs) /\ completions bs = [] /\ outstanding p' = outstanding p ++ map into_msg (accepted h) /\ (length (outstanding p') <= 1)%nat.
Proof.
  intros p h p' bs R A HO HS E. destruct (reachable_inv _ R) as [I _]. destruct (silence_run p h p' bs I (awaits_quiet _ I A) HO HS E) as (_ & C & O & N & G).
  do 4 (split; [assumption|]). unfold outstanding. destruct (cmd_state p'); cbn; lia.
Qed.

(* ---- connecting ---- *)
Lemma reply_phase i : iinv i -> connecting i -> awaits_reply i -> exists s p, i = IRun s PhWait p /\ quiet (p_conn p).
Proof.
  intros IV (ND & NF & NC) (now & E). destruct i as [s ph p|p|e|w]; [|elim (ND p eq_refl)|elim (NF e eq_refl)|elim (NC w eq_refl)]. destruct IV as (I & C & S & W). destruct ph.
  - exfalso. specialize (E []). revert E. cbn [istep]. unfold conn_poll_ready. rewrite W by discriminate. cbn [length]. change (BACKPRESSURE <=? N.of_nat 0) with false. cbv beta iota.
    destruct (to_pkt_spec _ (stage_msg_wf s p S)) as (b & -> & _ & Hb & _). cbn [bind]. destruct (encode_valid (PAscii b) Hb) as (f & HF & HE). unfold conn_start_send. rewrite HE. cbn [bind]. discriminate.
  - exfalso. specialize (E [WAccept (Datatypes.S (length (wbuf (p_conn p))))]). revert E. cbn [istep]. unfold conn_poll_flush. destruct (wbuf (p_conn p)) as [|x xs] eqn:EW; cbn [framed_flush]; [discriminate|].
    rewrite skipn_all2 by (cbn; lia). cbn [framed_flush]. discriminate.
  - exists s, p. split; [reflexivity|]. specialize (E []). revert E. cbn [istep]. destruct (conn_poll_next (p_conn p)) as [[c r]|e|w] eqn:EN; [|discriminate|discriminate].
    pose proof I as (CI & _). pose proof (conn_next_nexts _ _ _ CI EN) as N. destruct r as [|[[pkt|e]|]].
    + intros [= <-]. exact (pending_quiet _ _ _ N eq_refl).
    + destruct (nexts_same_write _ _ _ N) as (Ew & _). pose proof (with_conn_inv p c I (nexts_inv _ _ _ N CI) Ew) as I'. pose proof (nexts_unread _ _ _ N CI) as U. cbv beta iota in U.
      destruct (interpret_spec now (with_conn p c) pkt I' (nexts_pkt_ok _ _ _ N CI)) as (p' & ee & w & -> & _ & C2 & _).
      assert (K : p' <> p). { intros EP. rewrite EP in C2. cbn [p_conn with_conn] in C2. rewrite <- C2 in U. pose proof (unread_u8 _ CI) as UU. destruct (decode_some_inv _ _ _ UU U) as (raw & Es & Lr & _). apply (f_equal (@length BinNums.N)) in Es. rewrite app_length in Es. lia. }
      assert (K2 : forall q m, after_reply s p' m <> IRun s PhWait q).
      { intros q m. destruct s as [| |ty max j]; cbn [after_reply]; try discriminate. unfold sds_reply. destruct m; try discriminate. destruct (negb _); [discriminate|]. destruct (names_of _ _); [|discriminate].
        destruct (_ =? 0); [destruct ty; discriminate|]. destruct (_ <? _)%nat; [discriminate|]. destruct (set_nth _ _ _); try discriminate. destruct (_ <? _)%nat; [discriminate | destruct ty; discriminate]. }
      destruct (e_msg ee) as [[m|]|]; [destruct (is_response_to m (stage_msg s)); [intros E; elim (K2 _ _ E)|]| |]; intros [= E]; elim (K E).
    + discriminate.
    + unfold await_eof. destruct (FmtMsg.Message_dbg _); discriminate.
Qed.
(* While Panel::connect waits for a reply and nothing comes, it goes on waiting. *)
Theorem C134_connect_refuted : forall h h', Forall iop_ok h -> connecting (irun conn_new h) -> awaits_reply (irun conn_new h) -> Forall (fun o => forall a, o <> IArrive a) h' ->
  irun conn_new (h ++ h') = irun conn_new h.
Proof.
  intros h h' HO C A S. destruct (reply_phase _ (irun_inv h HO) C A) as (s & p & E & Q). unfold irun in *. rewrite fold_left_app, E. induction h' as [|o h' IH]; [reflexivity|]. inversion S as [|? ? So S']; subst.
  destruct o as [a|now ws]; [elim (So a eq_refl)|]. cbn [fold_left iop_step istep]. rewrite (quiet_next _ Q). cbv beta iota. rewrite with_conn_id. exact (IH S').
Qed.

(* ---- the bridge ---- *)
Section Bridge.
Variables (cl : client) (cfg : Cfg).
Lemma writes_fine ws : Forall write_ok ws -> ~ write_fails ws.
Proof. intros F [H|(e & H)]; rewrite Forall_forall in F; specialize (F _ H); cbn in F; congruence. Qed.
Definition still (u u' : up) (is : list input) : Prop :=
  binv cl cfg u' /\ Forall (readable cfg) (u_rx u') /\ u_log u' = u_log u /\
  exists ops bs, Forall op_ok ops /\ silence ops /\ run (u_panel u) ops = Ok (u_panel u', bs).
Lemma still_step u u1 is i : topic_ok cl (topic_prefix cfg ++ B "/event") = true -> reachable (u_panel u) -> quiet (p_conn (u_panel u)) -> held (u_panel u) = None ->
  still u u1 is -> silent cfg i -> exists u2, bstep cl cfg (Up u1) i = Up u2 /\ still u u2 (is ++ [i]).
Proof.
  intros T R Q HN (B & RX & EL & ops & bs & HO & HS & E) Si. pose proof B as (R1 & RG & DC & _). destruct (reachable_inv _ R) as [I _]. destruct (reachable_inv _ R1) as [I1 _].
  destruct (silence_run _ _ _ _ I Q HO HS E) as (Q1 & _ & _ & (_ & N) & _). assert (H1 : pending_arm (u_panel u1) = None).
  { destruct N as [(_ & _ & N)|(pr & r & _ & _ & N & _)]; [|congruence]. rewrite HN in N. unfold held in N. destruct (pending_arm (u_panel u1)); [discriminate N | reflexivity]. }
  assert (IN : input_ok i) by (destruct i; try exact Logic.I; elim Si).
  assert (ALIVE : forall u2, bstep cl cfg (Up u1) i = Up u2 -> Forall (readable cfg) (u_rx u2) -> u_log u2 = u_log u1 ->
     (exists o2 b2, Forall op_ok o2 /\ silence o2 /\ run (u_panel u1) o2 = Ok (u_panel u2, b2)) -> exists u2, bstep cl cfg (Up u1) i = Up u2 /\ still u u2 (is ++ [i])).
  { intros u2 E2 RX2 EL2 (o2 & b2 & HO2 & HS2 & ER2). exists u2. split; [exact E2|]. split; [exact (moved_binv _ _ _ _ _ B (bstep_up _ _ _ _ _ B IN E2))|]. split; [exact RX2|]. split; [congruence|].
    exists (ops ++ o2), (bs ++ b2). split; [apply Forall_app; auto|]. split; [apply Forall_app; auto|]. rewrite run_app, E. cbn [bind]. rewrite ER2. reflexivity. }
  assert (SAME : forall u2, bstep cl cfg (Up u1) i = Up u2 -> Forall (readable cfg) (u_rx u2) -> u_log u2 = u_log u1 -> u_panel u2 = u_panel u1 -> exists u2, bstep cl cfg (Up u1) i = Up u2 /\ still u u2 (is ++ [i])).
  { intros u2 A2 B2 C2 D2. apply (ALIVE u2 A2 B2 C2). exists [], []. split; [constructor|]. split; [constructor|]. cbn. rewrite D2. reflexivity. }
  assert (NF : ~ fatal cfg u1 i).
  { destruct i as [a|t pl| |now ws|now| |ws]; cbn [fatal]; try tauto.
    - intros (_ & p & r & w & EP & K). rewrite (quiet_poll now _ Q1), H1 in EP. injection EP as <- <- <-. destruct K as [K|[(? & K)|(? & ? & K & _)]]; discriminate K.
    - intros (_ & area & name & pl & rest & IA & EX & U8). rewrite EX in RX. inversion RX as [|? ? RD _]; subst. destruct RD as [RD|RD]; cbn [snd fst] in RD; [congruence | exact (RD _ _ IA eq_refl)].
    - intros F. exact (writes_fine _ Si (C51_send_fails_only_on_write_errors _ _ F)). }
  assert (ND : forall log why, bstep cl cfg (Up u1) i <> Dead log why) by (intros log why ED; apply NF, (bstep_dead cl cfg u1 i B T); eauto).
  destruct i as [a|t pl| |now ws|now| |ws]; cbn [silent] in Si; try contradiction.
  - eapply SAME; [reflexivity| |reflexivity|reflexivity]. cbn [u_rx]. apply Forall_app. auto.
  - apply (SAME u1); auto.
  - destruct (u_mode u1) eqn:EM; [| apply (SAME u1); auto; cbn [bstep]; rewrite EM; reflexivity..].
    apply (SAME (set_panel u1 (u_panel u1))); auto. cbn [bstep]. rewrite EM, (quiet_poll now _ Q1), H1. reflexivity.
  - destruct (u_mode u1) eqn:EM; [| apply (SAME u1); auto; cbn [bstep]; rewrite EM; reflexivity..].
    destruct (u_rx u1) as [|[t pl] rx] eqn:EX; [apply (SAME u1); [cbn [bstep]; rewrite EM, EX; reflexivity | rewrite EX; constructor | reflexivity..]|].
    inversion RX as [|? ? _ RX2]; subst. destruct (requested (topic_prefix cfg) (u_code u1) (areas cfg) t pl) as [[c|]|e|y] eqn:EQ.
    + eapply SAME; [cbn [bstep]; rewrite EM, EX, EQ; reflexivity | exact RX2 | reflexivity..].
    + eapply SAME; [cbn [bstep]; rewrite EM, EX, EQ; reflexivity | exact RX2 | reflexivity..].
    + exfalso. eapply ND. cbn [bstep]. rewrite EM, EX, EQ. reflexivity.
    + exfalso. eapply ND. cbn [bstep]. rewrite EM, EX, EQ. reflexivity.
  - assert (FL : forall v o0 b0, u_rx v = u_rx u1 -> u_log v = u_log u1 -> Forall op_ok o0 -> silence o0 -> run (u_panel u1) o0 = Ok (u_panel v, b0) -> bstep cl cfg (Up u1) (PollSend ws) = poll_send_flush ws v ->
       exists u2, bstep cl cfg (Up u1) (PollSend ws) = Up u2 /\ still u u2 (is ++ [PollSend ws])).
    { intros v o0 b0 V1 V2 V3 V4 V5 EV. unfold poll_send_flush in EV. destruct (poll_flush ws (u_panel v)) as [p r] eqn:EF.
      assert (ER : run (u_panel u1) (o0 ++ [PollFlush ws]) = Ok (p, b0 ++ [OSink r])) by (rewrite run_app, V5; cbn [bind run step]; rewrite EF; reflexivity).
      assert (KO : Forall op_ok (o0 ++ [PollFlush ws]) /\ silence (o0 ++ [PollFlush ws])) by (split; apply Forall_app; split; auto; repeat constructor; discriminate).
      destruct KO as [K1 K2]. destruct r as [|[[]|e]]; [| |exfalso; eapply ND; exact EV].
      - eapply ALIVE; [exact EV | change (Forall (readable cfg) (u_rx v)); rewrite V1; exact RX | exact V2|]. exists (o0 ++ [PollFlush ws]), (b0 ++ [OSink Pending]). auto.
      - eapply ALIVE; [exact EV | change (Forall (readable cfg) (u_rx v)); rewrite V1; exact RX | exact V2|]. exists (o0 ++ [PollFlush ws]), (b0 ++ [OSink (Ready (IoOk tt))]). auto. }
    destruct (u_mode u1) as [|c|] eqn:EM.
    + apply (SAME u1); auto. cbn [bstep]. rewrite EM. reflexivity.
    + destruct (poll_ready TASK ws (u_panel u1)) as [p [|[[]|e]]] eqn:EP.
      * eapply ALIVE; [cbn [bstep]; rewrite EM, EP; reflexivity | exact RX | reflexivity|]. exists [PollReady TASK ws], [OSink Pending]. split; [repeat constructor|]. split; [repeat constructor; discriminate|]. cbn [run step]. rewrite EP. reflexivity.
      * destruct (start_send c p) as [p2|e|y] eqn:ES; [|exfalso; eapply ND; cbn [bstep]; rewrite EM, EP, ES; reflexivity..].
        apply (FL (set_panel u1 p2) [PollReady TASK ws; StartSend c] [OSink (Ready (IoOk tt)); ONone]); auto.
        -- constructor; [exact Logic.I|]. constructor; [|constructor]. destruct B as (_ & _ & _ & _ & WF). exact (WF c EM).
        -- repeat constructor; discriminate.
        -- cbn [run step bind]. rewrite EP. cbn [bind]. rewrite ES. reflexivity.
        -- cbn [bstep]. rewrite EM, EP, ES. reflexivity.
      * exfalso. eapply ND. cbn [bstep]. rewrite EM, EP. reflexivity.
    + apply (FL u1 [] []); auto; try constructor. cbn [bstep]. rewrite EM. reflexivity.
Qed.
End Bridge.
(* A bridge that has used all that came, and holds no report back, runs on for ever when nothing comes any more, whatever else happens and however much time passes:
   it publishes nothing, not even that it is offline; the broker shows it as online; and at most one of the commands it gets is put on the wire. *)
Theorem C134_gone_refuted : forall v o h cl cfg is u is', main_setup v = Ok (o, h, cfg) -> bridge_after cl cfg is (Up u) -> topic_ok cl (topic_prefix cfg ++ B "/event") = true ->
  awaits (u_panel u) -> held (u_panel u) = None -> Forall (readable cfg) (u_rx u) -> Forall (silent cfg) is' ->
  exists u', bridge_after cl cfg (is ++ is') (Up u') /\ u_log u' = u_log u /\
    holds (broker_sees (o_last_will o) (Up u')) (topic_prefix cfg ++ B "/availability") (PText (B "online")) /\
    exists cs fs, (length (outstanding (u_panel u)) + length cs <= 1)%nat /\ Forall2 command_frame cs fs /\ written (p_conn (u_panel u')) = written (p_conn (u_panel u)) ++ concat fs.
Proof.
  intros v o h cl cfg is u is' M A T W HN RX S. pose proof (bridge_binv _ _ _ _ A) as B. pose proof B as (R & _). destruct (reachable_inv _ R) as [I _]. pose proof (awaits_quiet _ I W) as Q. pose proof A as [F E].
  assert (X : exists u', brun cl cfg (is ++ is') = Up u' /\ still cl cfg u u' is').
  { induction is' as [|i is' IH] using rev_ind.
    - exists u. rewrite app_nil_r. split; [exact E|]. split; [exact B|]. split; [exact RX|]. split; [reflexivity|]. exists [], []. split; [constructor|]. split; [constructor | reflexivity].
    - apply Forall_app in S as [S Si]. inversion Si as [|? ? Si' _]; subst. destruct (IH S) as (u1 & E1 & K). destruct (still_step cl cfg u u1 is' i T R Q HN K Si') as (u2 & E2 & K2).
      exists u2. split; [rewrite app_assoc, brun_snoc, E1; exact E2 | exact K2]. }
  destruct X as (u' & E' & B' & _ & EL & ops & bs & HO & HS & ER).
  assert (A' : bridge_after cl cfg (is ++ is') (Up u')).
  { split; [|exact E']. apply Forall_app. split; [exact F|]. eapply Forall_impl; [|exact S]. intros i Hi. destruct i; try exact Logic.I. elim Hi. }
  exists u'. split; [exact A'|]. split; [exact EL|]. split; [exact (C69_availability_retained v o h cl cfg _ (Up u') M A')|].
  destruct (wire_run _ _ _ _ I HO ER) as (fs & F1 & F2). exists (accepted ops), fs. split; [|auto].
  destruct (C134_panel_refuted _ _ _ _ R W HO HS ER) as (_ & _ & _ & O & L). rewrite O, app_length, map_length in L. exact L.
Qed.
(* Nor does a bridge that waits for a reply while connecting: it never comes up, and the availability topic is never written. *)
Theorem C134_start_refuted : forall v o h cl cfg is i rx is', main_setup v = Ok (o, h, cfg) -> bridge_after cl cfg is (Connecting i rx) -> awaits_reply i -> Forall (silent cfg) is' ->
  bridge_after cl cfg (is ++ is') (Connecting i (rx ++ mqtt_in is')) /\
  forall p, ~ holds (broker_sees (o_last_will o) (Connecting i (rx ++ mqtt_in is'))) (topic_prefix cfg ++ B "/availability") p.
Proof.
  intros v o h cl cfg is i rx is' M A W S. pose proof A as [F E]. pose proof (brun_cases cl cfg is F) as BC. rewrite E in BC. destruct BC as (_ & hh & HH & Ei & (s0 & ph0 & p0 & EI)).
  assert (C : connecting i) by (rewrite EI; repeat split; discriminate). destruct (reply_phase i) as (s & p & E2 & Q); [rewrite Ei; apply irun_inv; exact HH | exact C | exact W|]. clear Ei EI C W.
  assert (X : brun cl cfg (is ++ is') = Connecting i (rx ++ mqtt_in is')).
  { induction is' as [|x is' IH] using rev_ind; [rewrite !app_nil_r; exact E|]. apply Forall_app in S as [S Sx]. inversion Sx as [|? ? Sx' _]; subst. rewrite app_assoc, brun_snoc, (IH S), mqtt_in_app.
    destruct x as [a|t pl| |now ws|now| |ws]; cbn [silent] in Sx'; try contradiction; cbn [bstep]; cbn [mqtt_in flat_map app]; rewrite ?app_nil_r; try reflexivity.
    - rewrite <- app_assoc. reflexivity.
    - cbn [istep]. rewrite (quiet_next _ Q). cbv beta iota. rewrite with_conn_id. reflexivity. }
  assert (A' : bridge_after cl cfg (is ++ is') (Connecting i (rx ++ mqtt_in is'))).
  { split; [|exact X]. apply Forall_app. split; [exact F|]. eapply Forall_impl; [|exact S]. intros j Hj. destruct j; try exact Logic.I. elim Hj. }
  split; [exact A'|]. exact (C69_availability_retained v o h cl cfg _ _ M A').
Qed.
(* It is noticed if the connection is closed or fails, and the bridge is in its loop: the next time it asks the panel, it ends, and is shown as offline. *)
Theorem C134_noticed_partial : forall v o h cl cfg is u a now, main_setup v = Ok (o, h, cfg) -> bridge_after cl cfg is (Up u) -> u_mode u = Selecting -> awaits (u_panel u) -> gone a ->
  exists log why, bridge_after cl cfg (is ++ [NetArrive a; PollPanel now]) (Dead log why) /\ log = u_log u /\
    holds (broker_sees (o_last_will o) (Dead log why)) (topic_prefix cfg ++ B "/availability") (PText (B "offline")).
Proof.
  intros v o h cl cfg is u a now M A EM W G. destruct (bridge_binv _ _ _ _ A) as (R & _). destruct (reachable_inv _ R) as [I _]. pose proof I as (CI & _). destruct (awaits_quiet _ I W) as (Q1 & Q2 & Q3 & Q4). pose proof A as [F E].
  assert (DN : decode (rbuf (p_conn (u_panel u))) = Ok (None, rbuf (p_conn (u_panel u)))).
  { destruct W as (n & w & EP). pose proof (poll_next_case _ _ _ _ _ I EP) as PC. inversion PC as [| | |r' NE UU K EP' HR]; subst. destruct (K eq_refl) as (_ & DN & _). unfold unread in DN. rewrite Q3, app_nil_r in DN. exact DN. }
  assert (X : exists why, brun cl cfg (is ++ [NetArrive a; PollPanel now]) = Dead (u_log u) why).
  { replace (is ++ [NetArrive a; PollPanel now]) with ((is ++ [NetArrive a]) ++ [PollPanel now]) by (rewrite <- app_assoc; reflexivity). rewrite !brun_snoc, E. cbn [bstep set_panel u_mode u_panel u_log]. rewrite EM.
    unfold poll_next. cbn [with_conn p_conn]. unfold conn_poll_next. destruct G as [->|(e & ->)]; cbn [arrive rq peer_closed]; rewrite Q3; cbn [app length plus framed_loop arrive has_errored is_readable rq peer_closed c_eof rbuf set_read]; rewrite Q1, Q2.
    - rewrite Q3. cbn [app length plus framed_loop arrive has_errored is_readable rq peer_closed c_eof rbuf set_read].
      destruct (c_eof (p_conn (u_panel u))); cbn [bind]; [eexists; reflexivity|]. cbn [framed_loop has_errored is_readable c_eof rbuf set_read rq]. unfold codec_decode_eof. 
      destruct (rbuf (p_conn (u_panel u))) as [|x xs] eqn:ER; [eexists; vm_compute; reflexivity|]. unfold codec_decode. rewrite DN. cbn [bind]. eexists. reflexivity.
    - rewrite Q3. cbn [app]. eexists. reflexivity. }
  destruct X as (why & X). exists (u_log u), why. assert (A' : bridge_after cl cfg (is ++ [NetArrive a; PollPanel now]) (Dead (u_log u) why)).
  { split; [|exact X]. apply Forall_app. split; [exact F|]. constructor; [|repeat constructor]. destruct G as [->|(e & ->)]; exact Logic.I. }
  split; [exact A'|]. split; [reflexivity|]. exact (C69_availability_retained v o h cl cfg _ _ M A').
Qed.
(* And if it has a command to send, no command is outstanding, and the socket does not take it but fails. *)
Theorem C134_noticed_sending_partial : forall v o h cl cfg is u c e ws, main_setup v = Ok (o, h, cfg) -> bridge_after cl cfg is (Up u) -> u_mode u = Feeding c -> outstanding (u_panel u) = [] ->
  exists log why, bridge_after cl cfg (is ++ [PollSend (WErr e :: ws)]) (Dead log why) /\ log = u_log u /\
    holds (broker_sees (o_last_will o) (Dead log why)) (topic_prefix cfg ++ B "/availability") (PText (B "offline")).
Proof.
  intros v o h cl cfg is u c e ws M A EM EO. destruct (bridge_binv _ _ _ _ A) as (R & _ & _ & _ & WF). destruct (reachable_inv _ R) as [I _]. pose proof A as [F E].
  assert (EC : cmd_state (u_panel u) = Idle) by (unfold outstanding in EO; destruct (cmd_state (u_panel u)); [reflexivity | discriminate EO]).
  assert (X : exists why, brun cl cfg (is ++ [PollSend (WErr e :: ws)]) = Dead (u_log u) why).
  { rewrite brun_snoc, E. cbn [bstep]. rewrite EM. unfold poll_ready. rewrite EC.
    destruct (command_pkt c (WF c EM)) as (b & f & EP & FR & HE). unfold start_send. rewrite EC, EP. cbn [bind]. unfold conn_start_send. rewrite HE. cbn [bind].
    unfold poll_send_flush, poll_flush, panel_flush. cbn [u_panel set_panel cmd_state with_cmd with_conn p_conn]. unfold conn_poll_flush. cbn [wbuf set_write sent].
    assert (NE : wbuf (p_conn (u_panel u)) ++ f <> []) by (intros N; apply app_eq_nil in N as [_ ->]; destruct FR as (bd & _ & nn & cc & k & _ & _ & _ & K); apply (f_equal (@length _)) in K; rewrite !app_length in K; cbn [length] in K; lia).
    destruct (wbuf (p_conn (u_panel u)) ++ f); [congruence|]. cbn [framed_flush]. eexists. reflexivity. }
  destruct X as (why & X). exists (u_log u), why. assert (A' : bridge_after cl cfg (is ++ [PollSend (WErr e :: ws)]) (Dead (u_log u) why)).
  { split; [|exact X]. apply Forall_app. split; [exact F|]. repeat constructor. }
  split; [exact A'|]. split; [reflexivity|]. exact (C69_availability_retained v o h cl cfg _ _ M A').
Qed.

(* ---- examples ---- *)
(* The bridge of ex_start, which shows area 1 and zone 2; then nothing more comes for a day.  Two commands are published: one is written and never completed, with the other the bridge waits for ever. *)
Definition ex_gone : list input :=
  [PollPanel 99; MqttArrive (B "elkm1/0001/area/house/ha_command") (B "ARM_AWAY"); PollRx; PollSend [WAccept 100]; PollPanel 6000; PollPanel 86400000;
   MqttArrive (B "elkm1/0001/area/house/ha_command") (B "DISARM"); PollRx; PollSend [WAccept 100]; PollPanel 172800000].
Definition ex_here : list input := ex_start ++ [PollPanel 50].
Example C134_example : main_setup ex_file_1 = Ok (mkMqttOptions [] (B "broker") 1883 None ex_will, B "elk:2101", ex_cfg) /\
  exists u u', bridge_after ex_cl ex_cfg ex_here (Up u) /\ topic_ok ex_cl (topic_prefix ex_cfg ++ B "/event") = true /\ awaits (u_panel u) /\ held (u_panel u) = None /\ u_rx u = [] /\ u_mode u = Selecting /\
    Forall (silent ex_cfg) ex_gone /\ bridge_after ex_cl ex_cfg (ex_here ++ ex_gone) (Up u') /\ u_log u' = u_log u /\ length (outstanding (u_panel u')) = 1%nat /\ u_mode u' <> Selecting /\
    gone PeerClose /\ brun ex_cl ex_cfg (ex_here ++ [NetArrive PeerClose; PollPanel 99]) = Dead (u_log u) "called `Option::unwrap()` on a `None` value".
Proof.
  split; [exact ex_file_setup|].
  set (u := match brun ex_cl ex_cfg ex_here with Up u => u | _ => ex_up end). set (u' := match brun ex_cl ex_cfg (ex_here ++ ex_gone) with Up u => u | _ => ex_up end).
  assert (F : Forall input_ok ex_here) by (apply Forall_app; split; [exact ex_start_ok | repeat constructor]).
  exists u, u'. split; [split; [exact F | vm_compute; reflexivity]|]. split; [vm_compute; reflexivity|]. split; [exists 60, None; vm_compute; reflexivity|]. split; [vm_compute; reflexivity|]. split; [vm_compute; reflexivity|]. split; [vm_compute; reflexivity|].
  split. { repeat first [apply Forall_nil | apply Forall_cons]; cbn [silent]; try exact Logic.I; try (left; vm_compute; reflexivity); repeat constructor; discriminate. }
  split; [split; [apply Forall_app; split; [exact F | repeat constructor] | vm_compute; reflexivity]|]. split; [vm_compute; reflexivity|]. split; [vm_compute; reflexivity|]. split; [vm_compute; discriminate|].
  split; [left; reflexivity | vm_compute; reflexivity].
Qed.
(* The same with a socket that fails when the command is written. *)
Example C134_example_sending : exists u c, bridge_after ex_cl ex_cfg (ex_here ++ firstn 3 ex_gone) (Up u) /\ u_mode u = Feeding c /\ outstanding (u_panel u) = [] /\
  exists log, brun ex_cl ex_cfg ((ex_here ++ firstn 3 ex_gone) ++ [PollSend [WErr "broken pipe"]]) = Dead log "broken pipe".
Proof.
  set (u := match brun ex_cl ex_cfg (ex_here ++ firstn 3 ex_gone) with Up u => u | _ => ex_up end).
  assert (F : Forall input_ok (ex_here ++ firstn 3 ex_gone)) by (apply Forall_app; split; [apply Forall_app; split; [exact ex_start_ok | repeat constructor] | repeat constructor]).
  exists u. eexists. split; [split; [exact F | vm_compute; reflexivity]|]. split; [vm_compute; reflexivity|]. split; [vm_compute; reflexivity|]. exists (u_log u). vm_compute. reflexivity.
Qed.
(* The panel of ex_panel: a day passes and an hour, nothing comes; a command is sent in between. *)
Definition ex_still : Panel := match poll_next 0 ex_panel with Ok (p, _, _) => p | _ => ex_panel end.
Definition ex_ask : Command := CmdArm (mkArmRequest 1 AL_ArmedAway (B "001234")).
Example C134_example_panel : exists p bs, reachable ex_still /\ awaits ex_still /\ silence [PollNext 1; StartSend ex_ask; PollFlush [WAccept 100]; PollNext 86400000; PollReady 1 []] /\
  run ex_still [PollNext 1; StartSend ex_ask; PollFlush [WAccept 100]; PollNext 86400000; PollReady 1 []] = Ok (p, bs) /\ outstanding p = [into_msg ex_ask] /\ events bs = [].
Proof.
  assert (E : exists r w, poll_next 0 ex_panel = Ok (ex_still, r, w)) by (eexists _, _; vm_compute; reflexivity). destruct E as (r & w & E).
  eexists _, _. split; [exact (reachable_poll _ _ _ _ _ (connected_reachable _ ex_connected) E)|]. split; [exists 0, None; vm_compute; reflexivity|]. split; [repeat constructor; discriminate|].
  split; [vm_compute; reflexivity|]. split; vm_compute; reflexivity.
Qed.

(* A bridge that has asked for the arming status and gets no answer, and what it does when asked to run again and again. *)
Definition ex_asking : list input := [PollConnect 0 []; PollConnect 0 [WAccept 100]; PollConnect 0 []].
Example C134_example_connect : exists i, bridge_after ex_cl ex_cfg ex_asking (Connecting i []) /\ awaits_reply i /\ connecting i /\ irun conn_new [IStep 0 []; IStep 0 [WAccept 100]; IStep 0 []] = i /\
  Forall (silent ex_cfg) [PollConnect 5000 []; MqttArrive (B "elkm1/0001/area/house/ha_command") (B "ARM_AWAY"); PollConnect 86400000 []].
Proof.
  eexists. split; [split; [repeat constructor | vm_compute; reflexivity]|]. split; [exists 7; intros ws; vm_compute; reflexivity|]. split; [repeat split; discriminate|]. split; [vm_compute; reflexivity|].
  constructor; [exact Logic.I|]. constructor; [left; vm_compute; reflexivity|]. repeat constructor.
Qed.

Print Assumptions C134_connect_refuted.
Print Assumptions C134_start_refuted.
Print Assumptions C134_panel_refuted.
Print Assumptions C134_gone_refuted.
Print Assumptions C134_noticed_partial.
Print Assumptions C134_noticed_sending_partial.
