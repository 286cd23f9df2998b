(* ServeFacts.v: the MQTT bridge with a panel that answers: every move of it is one or two moves of the exchange of SpecSend.v. *)
From Verif Require Import Base BaseFacts Pkt SpecPkt PktFacts DecodeFacts Msg SpecMsg DecFacts MsgFacts WireFacts IsoFacts
  PropMsg Tokio SpecConn ConnFacts State SpecState StateFacts RunFacts HistFacts ViewFacts ExState PropState PropSink PropLive
  Serde SerdeFacts PropSerde SpecInit InitFacts SpecSend SendFacts PropSend Mqtt SpecMqtt MqttFacts PropMqtt SpecServe.
From Coq Require Import ZifyBool ZifyNat ZifyN.
Ltac Zify.zify_post_hook ::= Z.div_mod_to_equations.

Lemma catMaybes_app {A} (l l' : list (option A)) : catMaybes (l ++ l') = catMaybes l ++ catMaybes l'.
Proof. induction l as [|[x|] l IH]; cbn [catMaybes app]; [reflexivity | rewrite IH; reflexivity | exact IH]. Qed.
Lemma completed_app es es' : completed (es ++ es') = completed es ++ completed es'.
Proof. unfold completed. rewrite map_app. apply catMaybes_app. Qed.
Lemma completed_one es e : completed (es ++ [e]) = match e_completes e with Some q => completed es ++ [q] | None => completed es end.
Proof. rewrite completed_app. unfold completed at 2. cbn [map]. destruct (e_completes e); cbn [catMaybes]; [reflexivity | apply app_nil_r]. Qed.

(* the commands asked for in the channel *)
Definition want (cfg : Cfg) (code : bytes) (m : bytes * bytes) : list Command :=
  match requested (topic_prefix cfg) code (areas cfg) (fst m) (snd m) with Ok (Some c) => [c] | _ => [] end.
Definition wants (cfg : Cfg) (u : up) : list Command := concat (map (want cfg (u_code u)) (u_rx u)).
Lemma want_asked cfg k t pl o : distinct_area_names cfg -> in_range cfg -> dec_canon 6 (code cfg) k -> readable cfg (t, pl) -> asked cfg (t, pl) o ->
  requested (topic_prefix cfg) k (areas cfg) t pl = Ok o.
Proof.
  intros D RG DC RD A. pose proof (requested_spec cfg k t pl RG DC) as H. destruct (requested _ _ _ _ _) as [o'|er|why].
  - destruct H as (A' & _). f_equal. destruct o as [c|], o' as [c'|]; cbn [asked] in *; auto.
    + f_equal. eapply asks_fun; eauto.
    + elim (A' c A).
    + elim (A c' A').
  - destruct H.
  - destruct H as (U & a & n & HI & E). destruct RD as [RD|RD]; cbn [fst snd] in RD; [congruence|]. elim (RD a n HI E).
Qed.

(* what is on its way from the panel *)
Definition flow (p : Panel) (net : bytes) : Prop := exists pk, under_way p net pk /\ Forall harmless pk.
Lemma flow_u8 p net : flow p net -> u8s (unread (p_conn p)) /\ u8s net.
Proof. intros (pk & (pf & V & F & E) & _). pose proof (frames_u8 _ _ V F) as U. rewrite <- E in U. apply u8s_app in U. exact U. Qed.
Lemma flow_same p p' net : flow p net -> unread (p_conn p') = unread (p_conn p) -> flow p' net.
Proof. intros (pk & (pf & V & F & E) & H) U. exists pk. split; [exists pf; rewrite U; auto | exact H]. Qed.
Lemma flow_more p net pkt f : flow p net -> valid_packet pkt -> frame_of pkt f -> harmless pkt -> flow p (net ++ f).
Proof.
  intros (pk & (pf & V & F & E) & H) Vp Fp Hp. exists (pk ++ [pkt]). split; [|apply Forall_app; auto]. exists (pf ++ [f]).
  split; [apply Forall_app; auto|]. split; [apply Forall2_app; auto|]. rewrite app_assoc, E, concat_app. cbn. rewrite app_nil_r. reflexivity.
Qed.
(* the panel as a move of the caller's leaves it *)
Lemma flow_deliver p a b : flow p (a ++ b) -> flow (with_conn p (arrive (p_conn p) (Bytes a))) b.
Proof.
  intros (pk & (pf & V & F & E) & H). exists pk. split; [|exact H]. exists pf. split; [exact V|]. split; [exact F|].
  cbn [p_conn with_conn]. rewrite arrive_unread. cbn [arrival_data]. rewrite <- app_assoc. exact E.
Qed.

(* the bridge as a caller *)
Definition flushing (m : mode) : bool := match m with Flushing => true | _ => false end.
Definition exch (u : up) (v : service) : exchange :=
  mkExchange (mkSending (u_panel u) (waiting u) (flushing (u_mode u)) (completed (v_events v)) false) (v_net v) (v_replied v).
Definition event_pub (cfg : Cfg) (e : Event) (a : action) : Prop :=
  exists j, Event_ser e = Ok j /\ Event_de FromText j = Ok e /\ a = APublish (topic_prefix cfg ++ B "/event") false (PJson j).
Definition told (cfg : Cfg) (log0 : list action) (u : up) (es : list Event) : Prop :=
  exists log, u_log u = log0 ++ log /\ Forall2 (event_pub cfg) es (filter is_event_pub log).
(* ---- the invariant ---- *)
(* p0, net0, log0: where it started; l: the commands taken from the channel *)
Definition sv (cl : client) (cfg : Cfg) (may : packet -> Prop) (p0 : Panel) (net0 : bytes) (log0 : list action) (v : service) (u : up) (l : list Command) : Prop :=
  v_bridge v = Up u /\ (exists is, bridge_after cl cfg is (Up u)) /\
  after may (base_of p0) (exchange_new p0 net0 []) l (exch u v) /\
  v_asked v = l ++ wants cfg u /\ Forall (readable cfg) (u_rx u) /\ (length (v_asked v) <= S (length (completed (v_events v))))%nat /\
  flow (u_panel u) (v_net v) /\ told cfg log0 u (v_events v).

(* the moves of the exchange *)
Definition first_move (a : smove) : SpecSend.move := match a with SSend ws => MSend TASK ws | _ => MIdle end.
Definition half (x : exchange) (a : smove) : exchange :=
  match a with SSend ws => mkExchange (send_task TASK ws (x_caller x)) (x_net x) (x_replied x) | _ => x end.
Definition taking (cfg : Cfg) (u : up) : list Command :=
  match u_mode u, u_rx u with Selecting, m :: _ => want cfg (u_code u) m | _, _ => [] end.
Definition second_move (cfg : Cfg) (u : up) (a : smove) : SpecSend.move :=
  match a with
  | SPanel now => match u_mode u with Selecting => MRead now | _ => MIdle end
  | SRx => match taking cfg u with c :: _ => MGive c | [] => MIdle end
  | SSend ws => match u_mode u with Feeding _ => MSend TASK ws | _ => MIdle end
  | SMqtt _ _ => MIdle
  | SUnasked => MUnasked
  | SReply => MReply
  | SDeliver => MDeliver
  | SIdle => MIdle
  end.
Lemma event_told cl cfg p e l : reachable p -> in_range cfg -> event_ok e -> handle_event cl cfg p e = (l, Ok tt) -> Forall2 (event_pub cfg) [e] (filter is_event_pub l).
Proof.
  intros R RG O E. destruct (handle_event_ok _ _ _ _ _ R RG E) as (j & l' & S & -> & EP & _). cbn [filter is_event_pub negb].
  assert (NZ : ~ event_zs e) by (intros H; destruct (Event_zs e H); congruence).
  destruct (Event_rt e O NZ) as (j' & S' & D & _). assert (j' = j) by congruence. subst j'.
  assert (EN : filter is_event_pub l' = []).
  { unfold event_pubs in EP. destruct (e_change e) as [[z s|r]|].
    - destruct EP as [(c & a & _ & (t & _ & ->) & ->)|(_ & ->)]; reflexivity.
    - clear -EP. induction EP as [|[n b] a as_ l' (t & _ & ->) EP IH]; [reflexivity | exact IH].
    - subst l'. reflexivity. }
  rewrite EN. constructor; [|constructor]. exists j. auto.
Qed.

Lemma harmless_reply m c body : grammar m body -> replies m (into_msg c) -> harmless (PAscii body).
Proof.
  intros G R z E. unfold message_of in E. cbn [parse] in E. rewrite (proj2 (parse_some_iff body m) G) in E. injection E as ->. destruct c; destruct R.
Qed.
Lemma read_event now p : pinv p -> alive (p_conn p) ->
  exists p' r w, poll_next now p = Ok (p', r, w) /\
   ((exists e pkt, r = Ready (Some (IoOk e)) /\ decode (unread (p_conn p)) = Ok (Some pkt, unread (p_conn p')) /\ e_msg e = parse_result pkt) \/
    (unread (p_conn p') = unread (p_conn p) /\ (r = Pending \/ exists e, r = Ready (Some (IoOk e)) /\ e_msg e = None))).
Proof.
  intros I A. destruct (alive_poll now p I A) as (p' & r & w & E & I' & A' & PC & H). exists p', r, w. split; [exact E|].
  destruct (poll_next_inv _ _ _ _ _ I E) as (_ & (rc & X & HX)).
  destruct H as [(e & pkt & Y & EP & D)|(D & U & _)].
  - left. exists e, pkt. split; [exact Y|]. split; [exact D|].
    destruct (poll_event _ _ _ _ _ _ PC Y) as [(pkt' & m & E1 & E2 & _ & E3 & _)|[(pkt' & E1 & _ & E3 & _)|(d & m & prior & -> & _)]]; [| |discriminate EP].
    + rewrite EP in E1. injection E1 as <-. unfold parse_result. rewrite E2. exact E3.
    + rewrite EP in E1. injection E1 as <-. exact E3.
  - right. split; [exact U|]. destruct (alive_nexts _ _ _ X A) as [_ [->|(pkt & ->)]].
    + destruct HX as [-> [(d & m & prior & H1 & H2 & H3 & -> & H5)|(H1 & -> & H3)]]; [|auto]. right. exists (deferred_event prior). split; reflexivity.
    + exfalso. pose proof (nexts_unread _ _ _ X (proj1 I)) as U'. cbv beta iota in U'. congruence.
Qed.
(* what select! does with what the panel's stream yields *)
Lemma panel_step cl cfg u now net : binv cl cfg u -> alive (p_conn (u_panel u)) -> topic_ok cl (event_topic (topic_prefix cfg)) = true ->
  u_mode u = Selecting -> flow (u_panel u) net ->
  exists p' r w, poll_next now (u_panel u) = Ok (p', r, w) /\ flow p' net /\
    (r = Pending /\ bstep cl cfg (Up u) (PollPanel now) = Up (set_panel u p') \/
     exists e log, r = Ready (Some (IoOk e)) /\ bstep cl cfg (Up u) (PollPanel now) = Up (mkUp p' (u_code u) Selecting (u_rx u) (u_log u ++ log)) /\
       Forall2 (event_pub cfg) [e] (filter is_event_pub log)).
Proof.
  intros BI A TE EM FL. pose proof BI as (R & RG & DC & AC & WF). destruct (reachable_inv _ R) as [I _].
  destruct (read_event now (u_panel u) I A) as (p' & r & w & E & H). exists p', r, w. split; [exact E|].
  assert (FZ : flow p' net /\ forall e z, r = Ready (Some (IoOk e)) -> e_msg e <> Some (inl (MZoneStatusReport z))).
  { destruct (flow_u8 _ _ FL) as [Uu Un]. destruct FL as (pk & (pf & V & F & EU) & HH). destruct H as [(e & pkt & -> & D & EP)|(EU' & H)].
    - destruct (first_packet _ _ _ _ _ _ V F EU Uu Un D) as (pk' & f & pf' & -> & -> & _ & Eu & V' & F' & _). inversion HH as [|? ? Hh HH']; subst.
      split; [exists pk'; split; [exists pf'; auto | exact HH']|]. intros e' z [= <-] EMsg. apply (Hh z). unfold message_of, parse_result in *.
      rewrite EMsg in EP. destruct (parse pkt) as [[]| |]; congruence.
    - split; [exists pk; split; [exists pf; rewrite EU'; auto | exact HH]|]. intros e' z Y EMsg. destruct H as [->|(e & -> & EN)]; congruence. }
  destruct FZ as [FL' NZ]. split; [exact FL'|]. cbn [bstep]. rewrite EM, E.
  assert (H' : r = Pending \/ exists e, r = Ready (Some (IoOk e))) by (destruct H as [(e & _ & -> & _)|(_ & [->|(e & -> & _)])]; eauto).
  destruct H' as [->|(e & ->)]; [left; auto|]. right. pose proof (reachable_poll _ _ _ _ _ R E) as R'.
  destruct (C56_event_roundtrip_partial _ _ _ _ _ e R E eq_refl) as [((z & Z) & _)|(_ & j & S & _)]; [elim (NZ e z eq_refl Z)|].
  destruct (handle_event_succeeds cl cfg p' e j R' RG AC TE S) as (log & EH). exists e, log. split; [reflexivity|]. unfold settle. rewrite EH. split; [reflexivity|].
  eapply event_told; eauto. eapply emitted_ok; eauto. reflexivity.
Qed.
(* ---- moves ---- *)
Section Step.
  Variables (cl : client) (cfg : Cfg) (may : packet -> Prop) (p0 : Panel) (net0 : bytes) (pk0 : list packet) (log0 : list action).
  Hypothesis HL : healthy p0.
  Hypothesis O0 : outstanding p0 = [].
  Hypothesis U0 : under_way p0 net0 pk0.
  Hypothesis TE : topic_ok cl (topic_prefix cfg ++ B "/event") = true.
  Hypothesis DN : distinct_area_names cfg.

  Lemma sv_inv v u l : sv cl cfg may p0 net0 log0 v u l ->
    binv cl cfg u /\ pinv (u_panel u) /\ alive (p_conn (u_panel u)) /\
    map into_msg l = completed (v_events v) ++ outstanding (u_panel u) ++ map into_msg (waiting u) /\
    (length (outstanding (u_panel u)) + length (waiting u) + length (wants cfg u) <= 1)%nat.
  Proof.
    intros (E1 & (is & E2) & E3 & E4 & E5 & E6 & E7 & E8). split; [eapply bridge_binv; eauto|].
    destruct (started None may p0 net0 [] pk0 l _ HL O0 (Forall_nil _) U0 ltac:(discriminate) E3) as (p & todo & fl & done & acc & fs & pk & pf & K).
    pose proof K as (EC & I & A & (B1 & _ & _ & _ & B5) & _). unfold exch in EC. cbn [x_caller] in EC. injection EC as <- <- <- <-.
    split; [exact I|]. split; [exact A|]. cbn [app] in B1.
    assert (EL : map into_msg l = completed (v_events v) ++ outstanding (u_panel u) ++ map into_msg (waiting u)) by (rewrite B1, map_app, B5, app_assoc; reflexivity).
    split; [exact EL|]. rewrite E4 in E6. apply (f_equal (@length _)) in EL. rewrite !app_length, !map_length in *. lia.
  Qed.

  Lemma sv_step v u l a v' : sv cl cfg may p0 net0 log0 v u l -> serves cl cfg may (base_of p0) v a v' ->
    exists u', sv cl cfg may p0 net0 log0 v' u' (l ++ given_in (second_move cfg u a)) /\
      moves may (base_of p0) (exch u v) (first_move a) (half (exch u v) a) /\
      moves may (base_of p0) (half (exch u v) a) (second_move cfg u a) (exch u' v').
  Proof.
    intros S M. pose proof S as (E1 & (is & E2) & E3 & E4 & E5 & E6 & E7 & E8).
    destruct (sv_inv _ _ _ S) as (BI & I & A & EL & L1). pose proof BI as (R & RG & DC & AC & WF).
    assert (Next : forall i u' , input_ok i -> bstep cl cfg (Up u) i = Up u' -> exists is', bridge_after cl cfg is' (Up u')).
    { intros i u' IO EB. exists (is ++ [i]). destruct E2 as [E2 E2']. split; [apply Forall_app; auto|]. rewrite brun_snoc, E2'. exact EB. }
    assert (Fin : forall b u' net r as_ es, b = Up u' -> (exists is', bridge_after cl cfg is' (Up u')) ->
      moves may (base_of p0) (exch u v) (first_move a) (half (exch u v) a) ->
      moves may (base_of p0) (half (exch u v) a) (second_move cfg u a) (exch u' (mkService (Up u') net r as_ es)) ->
      as_ = (l ++ given_in (second_move cfg u a)) ++ wants cfg u' -> Forall (readable cfg) (u_rx u') -> (length as_ <= Datatypes.S (length (completed es)))%nat ->
      flow (u_panel u') net -> told cfg log0 u' es ->
      exists u2, sv cl cfg may p0 net0 log0 (mkService b net r as_ es) u2 (l ++ given_in (second_move cfg u a)) /\
        moves may (base_of p0) (exch u v) (first_move a) (half (exch u v) a) /\
        moves may (base_of p0) (half (exch u v) a) (second_move cfg u a) (exch u2 (mkService b net r as_ es))).
    { intros b u' net r as_ es -> BA M1 M2 H1 H2 H3 H4 H5. exists u'. split; [|auto]. unfold sv. cbn [v_bridge v_asked v_events v_net].
      split; [reflexivity|]. split; [exact BA|]. split; [|auto].
      pose proof (A_move _ _ _ _ _ _ _ E3 M1) as A1. replace (given_in (first_move a)) with (@nil Command) in A1 by (destruct a; reflexivity).
      rewrite app_nil_r in A1. exact (A_move _ _ _ _ _ _ _ A1 M2). }
    assert (Id : forall x, moves may (base_of p0) x MIdle x) by (intros; constructor).
    assert (Stay : exists is', bridge_after cl cfg is' (Up u)) by eauto.
    destruct M as [now| |ws HW|t pl o RD AS PT|pkt f Vp Mp Hp Fp|q m body f N RP G Hb HF|y z EN Ny|];
      rewrite ?E1 in *; cbn [first_move half second_move] in *.
    - (* panel.next() *)
      unfold yielded_by. destruct (u_mode u) as [|c|] eqn:EM.
      2,3: rewrite (app_nil_r (v_events v)) in *; apply (Fin _ u); auto; cbn [bstep]; rewrite ?EM; cbn [given_in]; rewrite ?app_nil_r; auto.
      destruct (panel_step cl cfg u now (v_net v) BI A TE EM E7) as (p' & r & w & E & FL & H). rewrite E.
      assert (RD : moves may (base_of p0) (exch u v) (MRead now) (mkExchange (read_task now (x_caller (exch u v))) (v_net v) (v_replied v))) by constructor.
      unfold exch in RD at 2. cbn [x_caller read_task] in RD. rewrite E in RD.
      destruct H as [(-> & EB)|(e & log & -> & EB & ET)].
      + rewrite (app_nil_r (v_events v)). apply (Fin _ (set_panel u p')); auto; [apply (Next (PollPanel now)); auto; exact Logic.I|]. cbn [given_in]. rewrite app_nil_r. exact E4.
      + apply (Fin _ (mkUp p' (u_code u) Selecting (u_rx u) (u_log u ++ log))); auto.
        * apply (Next (PollPanel now)); auto; exact Logic.I.
        * unfold exch at 2. unfold waiting. cbn [v_events v_net v_replied u_panel u_mode flushing]. rewrite completed_one.
          unfold waiting in RD. rewrite EM in RD. cbn [flushing] in RD. exact RD.
        * cbn [given_in]. rewrite app_nil_r. exact E4.
        * rewrite completed_app, app_length. lia.
        * destruct E8 as (lg & -> & F). exists (lg ++ log). cbn [u_log]. rewrite app_assoc. split; [reflexivity|]. rewrite filter_app. apply Forall2_app; auto.
    - (* rx.recv() *)
      unfold taking in *. destruct (u_mode u) as [|c|] eqn:EM.
      2,3: apply (Fin _ u); auto; cbn [bstep]; rewrite ?EM; cbn [given_in]; rewrite ?app_nil_r; auto.
      destruct (u_rx u) as [|[t pl] rx] eqn:ER.
      { apply (Fin _ u); auto; cbn [bstep]; rewrite ?EM, ?ER; cbn [given_in]; rewrite ?app_nil_r; auto. }
      inversion E5 as [|? ? RD E5']; subst. unfold want in *. cbn [fst snd] in *.
      pose proof (requested_spec cfg (u_code u) t pl RG DC) as H. unfold wants in E4. rewrite ER in E4. cbn [map concat] in E4. unfold want at 1 in E4. cbn [fst snd] in E4.
      destruct (requested (topic_prefix cfg) (u_code u) (areas cfg) t pl) as [[c|]|er|why] eqn:EQ.
      + destruct H as (_ & _ & W). assert (EB : bstep cl cfg (Up u) PollRx = Up (mkUp (u_panel u) (u_code u) (Feeding c) rx (u_log u))) by (cbn [bstep]; rewrite EM, ER, EQ; reflexivity).
        apply (Fin _ (mkUp (u_panel u) (u_code u) (Feeding c) rx (u_log u))); auto.
        * apply (Next PollRx); auto; exact Logic.I.
        * assert (MG : moves may (base_of p0) (exch u v) (MGive c) (mkExchange (give c (x_caller (exch u v))) (v_net v) (v_replied v))) by (apply M_give; auto).
          unfold exch in MG at 2. unfold waiting in MG. rewrite EM in MG. exact MG.
        * cbn [given_in]. rewrite <- app_assoc. exact E4.
      + assert (EB : bstep cl cfg (Up u) PollRx = Up (mkUp (u_panel u) (u_code u) Selecting rx (u_log u))) by (cbn [bstep]; rewrite EM, ER, EQ; reflexivity).
        apply (Fin _ (mkUp (u_panel u) (u_code u) Selecting rx (u_log u))); auto.
        * apply (Next PollRx); auto; exact Logic.I.
        * unfold exch, waiting. rewrite EM. constructor.
        * cbn [given_in]. rewrite app_nil_r. exact E4.
      + destruct H.
      + exfalso. destruct H as (H1 & ar & n & H2 & H3). destruct RD as [RD|RD]; cbn [fst snd] in RD; [congruence|]. elim (RD ar n H2 H3).
    - (* panel.send() *)
      assert (M1 : moves may (base_of p0) (exch u v) (MSend TASK ws) (mkExchange (send_task TASK ws (x_caller (exch u v))) (v_net v) (v_replied v))) by (constructor; auto).
      destruct (u_mode u) as [|c|] eqn:EM.
      + apply (Fin _ u); auto; cbn [bstep]; rewrite ?EM; cbn [given_in]; rewrite ?app_nil_r; auto.
        unfold exch, waiting. rewrite EM. constructor.
      + assert (OO : outstanding (u_panel u) = []).
        { unfold waiting in L1. rewrite EM in L1. destruct (outstanding (u_panel u)); [reflexivity | cbn [length] in L1; lia]. }
        assert (CS : cmd_state (u_panel u) = Idle) by (unfold outstanding in OO; destruct (cmd_state (u_panel u)); [reflexivity | discriminate]).
        pose proof (start_send_spec c (u_panel u) I (WF c eq_refl)) as SS. rewrite CS in SS. destruct SS as (p1 & f & ES & I1 & S1 & CS1 & _).
        destruct (poll_flush ws p1) as [p2 r] eqn:EF. destruct (flush_ok _ _ _ _ _ _ _ HW I1 CS1 EF) as (I2 & S2 & _ & O2 & HR & _).
        assert (FL : flow p2 (v_net v)) by (eapply flow_same; [exact E7|]; rewrite (sink_unread _ _ S2), (sink_unread _ _ S1); reflexivity).
        assert (EH : mkExchange (send_task TASK ws (x_caller (exch u v))) (v_net v) (v_replied v)
          = mkExchange (mkSending p1 [] true (completed (v_events v)) false) (v_net v) (v_replied v)).
        { unfold exch, waiting. rewrite EM. cbn [x_caller send_task flushing]. rewrite (idle_ready _ ws OO), ES. reflexivity. }
        assert (EB : bstep cl cfg (Up u) (PollSend ws) = poll_send_flush ws (set_panel u p1)) by (cbn [bstep]; rewrite EM, (idle_ready _ ws OO), ES; reflexivity).
        unfold poll_send_flush in EB. cbn [set_panel u_panel] in EB. rewrite EF in EB.
        assert (M2 : moves may (base_of p0) (mkExchange (mkSending p1 [] true (completed (v_events v)) false) (v_net v) (v_replied v)) (MSend TASK ws)
          (mkExchange (send_task TASK ws (mkSending p1 [] true (completed (v_events v)) false)) (v_net v) (v_replied v))) by (apply (M_send _ _ (mkExchange _ _ _)); auto).
        cbn [send_task] in M2. rewrite EF in M2.
        assert (Go : forall md, bstep cl cfg (Up u) (PollSend ws) = Up (mkUp p2 (u_code u) md (u_rx u) (u_log u)) ->
          waiting (mkUp p2 (u_code u) md (u_rx u) (u_log u)) = [] ->
          moves may (base_of p0) (mkExchange (mkSending p1 [] true (completed (v_events v)) false) (v_net v) (v_replied v)) (MSend TASK ws)
            (mkExchange (mkSending p2 [] (flushing md) (completed (v_events v)) false) (v_net v) (v_replied v)) ->
          exists u2, sv cl cfg may p0 net0 log0 (mkService (bstep cl cfg (Up u) (PollSend ws)) (v_net v) (v_replied v) (v_asked v) (v_events v)) u2 (l ++ given_in (MSend TASK ws)) /\
            moves may (base_of p0) (exch u v) (MSend TASK ws) (mkExchange (send_task TASK ws (x_caller (exch u v))) (x_net (exch u v)) (x_replied (exch u v))) /\
            moves may (base_of p0) (mkExchange (send_task TASK ws (x_caller (exch u v))) (x_net (exch u v)) (x_replied (exch u v))) (MSend TASK ws)
              (exch u2 (mkService (bstep cl cfg (Up u) (PollSend ws)) (v_net v) (v_replied v) (v_asked v) (v_events v)))).
        { intros md EB' WN M2'. apply (Fin _ (mkUp p2 (u_code u) md (u_rx u) (u_log u))); auto.
          - apply (Next (PollSend ws)); auto; exact Logic.I.
          - change (x_net (exch u v)) with (v_net v). change (x_replied (exch u v)) with (v_replied v). rewrite EH. unfold exch. rewrite WN. exact M2'.
          - cbn [given_in]. rewrite app_nil_r. exact E4. }
        destruct HR as [(-> & _)|(-> & _)]; [apply (Go Flushing) | apply (Go Selecting)]; auto.
      + assert (FR : exists p2 r, poll_flush ws (u_panel u) = (p2, r) /\ sink_only (u_panel u) p2 /\ (r = Pending \/ r = Ready (IoOk tt))).
        { destruct (poll_flush ws (u_panel u)) as [p2 r] eqn:EF. exists p2, r. split; [reflexivity|].
          destruct (outstanding_cases (u_panel u)) as [[_ CS]|(q & f & k & _ & CS)].
          - unfold poll_flush, panel_flush in EF. rewrite CS in EF. injection EF as <- <-. split; [apply sink_only_refl | auto].
          - destruct (flush_ok _ _ _ _ _ _ _ HW I CS EF) as (_ & S2 & _ & _ & [[-> _]|[-> _]] & _); auto. }
        destruct FR as (p2 & r & EF & S2 & HR).
        assert (FL : flow p2 (v_net v)) by (eapply flow_same; [exact E7|]; rewrite (sink_unread _ _ S2); reflexivity).
        assert (EB : bstep cl cfg (Up u) (PollSend ws) = poll_send_flush ws u) by (cbn [bstep]; rewrite EM; reflexivity).
        unfold poll_send_flush in EB. rewrite EF in EB.
        assert (Go : forall md, bstep cl cfg (Up u) (PollSend ws) = Up (mkUp p2 (u_code u) md (u_rx u) (u_log u)) ->
          waiting (mkUp p2 (u_code u) md (u_rx u) (u_log u)) = [] ->
          send_task TASK ws (x_caller (exch u v)) = mkSending p2 [] (flushing md) (completed (v_events v)) false ->
          exists u2, sv cl cfg may p0 net0 log0 (mkService (bstep cl cfg (Up u) (PollSend ws)) (v_net v) (v_replied v) (v_asked v) (v_events v)) u2 (l ++ given_in MIdle) /\
            moves may (base_of p0) (exch u v) (MSend TASK ws) (mkExchange (send_task TASK ws (x_caller (exch u v))) (x_net (exch u v)) (x_replied (exch u v))) /\
            moves may (base_of p0) (mkExchange (send_task TASK ws (x_caller (exch u v))) (x_net (exch u v)) (x_replied (exch u v))) MIdle
              (exch u2 (mkService (bstep cl cfg (Up u) (PollSend ws)) (v_net v) (v_replied v) (v_asked v) (v_events v)))).
        { intros md EB' WN M2'. apply (Fin _ (mkUp p2 (u_code u) md (u_rx u) (u_log u))); auto.
          - apply (Next (PollSend ws)); auto; exact Logic.I.
          - rewrite M2'. unfold exch at 3. rewrite WN. constructor.
          - cbn [given_in]. rewrite app_nil_r. exact E4. }
        destruct HR as [->| ->]; [apply (Go Flushing) | apply (Go Selecting)]; auto;
          unfold exch, waiting; rewrite EM; cbn [x_caller send_task flushing]; rewrite EF; reflexivity.
    - (* a publish arrives *)
      apply (Fin _ (mkUp (u_panel u) (u_code u) (u_mode u) (u_rx u ++ [(t, pl)]) (u_log u))); auto.
      + apply (Next (MqttArrive t pl)); auto; exact Logic.I.
      + cbn [given_in]. rewrite app_nil_r, E4. unfold wants. cbn [u_rx u_code]. rewrite map_app, concat_app, <- app_assoc. f_equal. f_equal.
        cbn [map concat]. rewrite app_nil_r. unfold want. cbn [fst snd]. rewrite (want_asked cfg (u_code u) t pl o DN RG DC RD AS). destruct o; reflexivity.
      + apply Forall_app. auto.
      + rewrite app_length. destruct o as [c|]; cbn [catMaybes length]; [|lia]. specialize (PT ltac:(discriminate)). lia.
    - apply (Fin _ u); auto.
      + apply (M_unasked _ _ (exch u v) pkt); auto.
      + cbn [given_in]. rewrite app_nil_r. exact E4.
      + eapply flow_more; eauto.
    - assert (N' : next_command (base_of p0) (exch u v) q).
      { destruct N as (qs & fs & rest & F & P & L). exists qs, fs, rest. split; [exact F|]. rewrite E1 in P. split; [exact P | exact L]. }
      apply (Fin _ u); auto.
      + apply (M_reply _ _ (exch u v) q m body); auto.
      + cbn [given_in]. rewrite app_nil_r. exact E4.
      + apply (flow_more _ _ (PAscii body)); auto.
        destruct (started None may p0 net0 [] pk0 l _ HL O0 (Forall_nil _) U0 ltac:(discriminate) E3) as (p & todo & fl & done & acc & fs & pk & pf & K).
        pose proof (next_accepted _ _ _ _ _ _ _ _ _ _ _ _ _ K N') as NA. apply nth_error_In in NA. apply in_map_iff in NA as (c & <- & _).
        eapply harmless_reply; eauto.
    - rewrite EN in E7. destruct (flow_u8 _ _ E7) as [_ U8]. apply u8s_app in U8 as [U8 _].
      apply (Fin _ (set_panel u (with_conn (u_panel u) (arrive (p_conn (u_panel u)) (Bytes y))))); auto.
      + apply (Next (NetArrive (Bytes y))); [exact U8 | reflexivity].
      + apply (M_deliver _ _ (exch u v) y z); auto.
      + cbn [given_in]. rewrite app_nil_r. exact E4.
      + apply flow_deliver. exact E7.
    - exists u. cbn [given_in]. rewrite app_nil_r. auto.
  Qed.
End Step.

(* ---- where the bridge's loop is ---- *)
Lemma panel_shape cl cfg u now u' : bstep cl cfg (Up u) (PollPanel now) = Up u' -> u_code u' = u_code u /\ u_mode u' = u_mode u /\ u_rx u' = u_rx u.
Proof.
  cbn [bstep]. destruct (u_mode u) eqn:EM; try (intros [= <-]; auto; fail).
  destruct (poll_next now (u_panel u)) as [[[p [|[[e|er]|]]] w]|er|why]; try discriminate; [intros [= <-]; auto|].
  unfold settle. destruct (handle_event _ _ _ _) as [? []]; try discriminate. intros [= <-]. auto.
Qed.
Lemma flush_shape ws u u' : poll_send_flush ws u = Up u' -> u_code u' = u_code u /\ u_rx u' = u_rx u /\ (u_mode u' = Flushing \/ u_mode u' = Selecting).
Proof. unfold poll_send_flush. destruct (poll_flush ws (u_panel u)) as [p [|[[]|e]]]; intros [= <-]; cbn; auto. Qed.
Section Mode.
  Variables (cl : client) (cfg : Cfg) (may : packet -> Prop) (p0 : Panel) (net0 : bytes) (pk0 : list packet) (log0 : list action).
  Hypothesis HL : healthy p0.
  Hypothesis O0 : outstanding p0 = [].
  Hypothesis U0 : under_way p0 net0 pk0.
  Variables (v v' : service) (u u' : up) (l l' : list Command) (a : smove).
  Hypothesis S : sv cl cfg may p0 net0 log0 v u l.
  Hypothesis S' : sv cl cfg may p0 net0 log0 v' u' l'.
  Hypothesis M : serves cl cfg may (base_of p0) v a v'.
  (* the channel *)
  Definition pops (u : up) (a : smove) : Prop := u_mode u = Selecting /\ a = SRx.
  Lemma pops_dec : pops u a \/ ~ pops u a.
  Proof. unfold pops. destruct (u_mode u); try (right; intros [X _]; discriminate). destruct a; try (right; intros [_ X]; discriminate). auto. Qed.
  Lemma code_same : u_code u' = u_code u.
  Proof.
    destruct S as (E1 & _), S' as (E1' & _). destruct M as [now| |ws HW|t pl o RD AS PT|pkt f Vp Mp Hp Fp|q m body f N RP G Hb HF|y z EN Ny|];
      cbn [v_bridge] in E1'; rewrite E1 in E1'.
    - apply (panel_shape _ _ _ _ _ E1').
    - cbn [bstep] in E1'. destruct (u_mode u); try congruence. destruct (u_rx u) as [|[t pl] rx]; [congruence|].
      destruct (requested _ _ _ _ _) as [[c|]| |]; try discriminate; injection E1' as <-; reflexivity.
    - cbn [bstep] in E1'. destruct (u_mode u); [congruence| |apply (flush_shape _ _ _ E1')].
      destruct (poll_ready TASK ws (u_panel u)) as [p [|[[]|e]]]; [injection E1' as <-; reflexivity| |discriminate].
      destruct (start_send c p); try discriminate. apply (flush_shape _ _ _ E1').
    - injection E1' as <-. reflexivity.
    - congruence.
    - congruence.
    - injection E1' as <-. reflexivity.
    - congruence.
  Qed.
  Lemma not_popped : ~ pops u a -> given_in (second_move cfg u a) = [] /\ exists more, u_rx u' = u_rx u ++ more.
  Proof.
    intros NP. assert (Z : u_rx u' = u_rx u -> exists more, u_rx u' = u_rx u ++ more) by (exists []; rewrite app_nil_r; assumption).
    destruct S as (E1 & _), S' as (E1' & _). destruct M as [now| |ws HW|t pl o RD AS PT|pkt f Vp Mp Hp Fp|q m body f N RP G Hb HF|y z EN Ny|];
      cbn [v_bridge second_move given_in] in *; rewrite E1 in E1'.
    - split; [destruct (u_mode u); reflexivity|]. apply Z, (panel_shape _ _ _ _ _ E1').
    - unfold pops, taking in *. cbn [bstep] in E1'. destruct (u_mode u); [elim NP; auto | |]; (split; [reflexivity | apply Z; congruence]).
    - split; [destruct (u_mode u); reflexivity|]. apply Z. cbn [bstep] in E1'. destruct (u_mode u); [congruence| |apply (flush_shape _ _ _ E1')].
      destruct (poll_ready TASK ws (u_panel u)) as [p [|[[]|e]]]; [injection E1' as <-; reflexivity| |discriminate].
      destruct (start_send c p); try discriminate. apply (flush_shape _ _ _ E1').
    - split; [reflexivity|]. injection E1' as <-. eexists. reflexivity.
    - split; [reflexivity|]. apply Z. congruence.
    - split; [reflexivity|]. apply Z. congruence.
    - split; [reflexivity|]. injection E1' as <-. apply Z. reflexivity.
    - split; [reflexivity|]. apply Z. congruence.
  Qed.
  Lemma popped : pops u a -> given_in (second_move cfg u a) = match u_rx u with m :: _ => want cfg (u_code u) m | [] => [] end /\ u_rx u' = tl (u_rx u) /\
    (u_mode u' = Selecting /\ given_in (second_move cfg u a) = [] \/ exists c, u_mode u' = Feeding c /\ given_in (second_move cfg u a) = [c]).
  Proof.
    intros (EM & ->). destruct S as (E1 & _), S' as (E1' & _). cbn [second_move]. unfold taking. rewrite EM.
    inversion M as [|HM| | | | | |]. subst v'. cbn [v_bridge] in E1'. rewrite E1 in E1'. cbn [bstep] in E1'. rewrite EM in E1'.
    destruct (u_rx u) as [|[t pl] rx] eqn:ER.
    - injection E1' as <-. rewrite ER. cbn. auto.
    - unfold want. cbn [fst snd]. destruct (requested _ _ _ _ _) as [[c|]| |]; try discriminate; injection E1' as <-; cbn; eauto 10.
  Qed.
  Lemma selecting_stays : u_mode u = Selecting -> ~ pops u a -> u_mode u' = Selecting.
  Proof.
    intros EM NP. destruct S as (E1 & _), S' as (E1' & _). destruct M as [now| |ws HW|t pl o RD AS PT|pkt f Vp Mp Hp Fp|q m body f N RP G Hb HF|y z EN Ny|];
      cbn [v_bridge] in *; rewrite E1 in E1'.
    - destruct (panel_shape _ _ _ _ _ E1') as (_ & -> & _). exact EM.
    - elim NP. split; auto.
    - cbn [bstep] in E1'. rewrite EM in E1'. congruence.
    - injection E1' as <-. exact EM.
    - congruence.
    - congruence.
    - injection E1' as <-. exact EM.
    - congruence.
  Qed.
  Lemma feeding_goes c : u_mode u = Feeding c -> u_mode u' = Flushing \/ u_mode u' = Selecting \/ u_mode u' = Feeding c /\ forall ws, a <> SSend ws.
  Proof.
    intros EM. destruct (sv_inv _ _ _ _ _ _ _ HL O0 U0 _ _ _ S) as (_ & _ & _ & _ & L1).
    destruct S as (E1 & _), S' as (E1' & _). destruct M as [now| |ws HW|t pl o RD AS PT|pkt f Vp Mp Hp Fp|q m body f N RP G Hb HF|y z EN Ny|];
      cbn [v_bridge] in *; rewrite E1 in E1'.
    - destruct (panel_shape _ _ _ _ _ E1') as (_ & -> & _). right; right. split; [exact EM | discriminate].
    - cbn [bstep] in E1'. rewrite EM in E1'. right; right. split; [congruence | discriminate].
    - assert (OO : outstanding (u_panel u) = []).
      { unfold waiting in L1. rewrite EM in L1. destruct (outstanding (u_panel u)); [reflexivity | cbn [length] in L1; lia]. }
      cbn [bstep] in E1'. rewrite EM, (idle_ready _ ws OO) in E1'. destruct (start_send c (u_panel u)); try discriminate.
      destruct (flush_shape _ _ _ E1') as (_ & _ & H). tauto.
    - injection E1' as <-. right; right. split; [exact EM | discriminate].
    - right; right. split; [congruence | discriminate].
    - right; right. split; [congruence | discriminate].
    - injection E1' as <-. right; right. split; [exact EM | discriminate].
    - right; right. split; [congruence | discriminate].
  Qed.
  Definition left_over (u : up) : nat := length (wbuf (p_conn (u_panel u))).
  Lemma flushing_goes : u_mode u = Flushing -> u_mode u' = Selecting \/
    u_mode u' = Flushing /\ (left_over u' <= left_over u)%nat /\ (forall k ws, a = SSend (WAccept (Datatypes.S k) :: ws) -> left_over u' < left_over u)%nat.
  Proof.
    intros EM. destruct (sv_inv _ _ _ _ _ _ _ HL O0 U0 _ _ _ S) as (_ & I & _). unfold left_over.
    destruct S as (E1 & _), S' as (E1' & _). destruct M as [now| |ws HW|t pl o RD AS PT|pkt f Vp Mp Hp Fp|q m body f N RP G Hb HF|y z EN Ny|];
      cbn [v_bridge] in *; rewrite E1 in E1'.
    - cbn [bstep] in E1'. rewrite EM in E1'. injection E1' as <-. right. split; [exact EM|]. split; [lia | discriminate].
    - cbn [bstep] in E1'. rewrite EM in E1'. injection E1' as <-. right. split; [exact EM|]. split; [lia | discriminate].
    - cbn [bstep] in E1'. rewrite EM in E1'. unfold poll_send_flush in E1'. destruct (poll_flush ws (u_panel u)) as [p r] eqn:EF.
      destruct (outstanding_cases (u_panel u)) as [[_ CS]|(q & f & k & _ & CS)].
      + unfold poll_flush, panel_flush in EF. rewrite CS in EF. injection EF as <- <-. injection E1' as <-. auto.
      + destruct (flush_ok _ _ _ _ _ _ _ HW I CS EF) as (_ & _ & _ & _ & HR & LE & LT). destruct HR as [(-> & NW)|(-> & _)]; injection E1' as <-; [|auto].
        right. split; [reflexivity|]. cbn [set_mode set_panel u_panel]. split; [exact LE|]. intros k' ws' [= ->]. apply (LT k' ws' eq_refl).
        intros Z. rewrite Z in LE. destruct (wbuf (p_conn p)); [congruence | cbn in LE; lia].
    - injection E1' as <-. right. split; [exact EM|]. split; [cbn; lia | discriminate].
    - injection E1' as <-. right. split; [exact EM|]. split; [lia | discriminate].
    - injection E1' as <-. right. split; [exact EM|]. split; [lia | discriminate].
    - injection E1' as <-. right. split; [exact EM|]. split; [cbn; lia | discriminate].
    - injection E1' as <-. right. split; [exact EM|]. split; [lia | discriminate].
  Qed.
  (* events *)
  Lemma not_read : ~ (u_mode u = Selecting /\ exists now, a = SPanel now) -> v_events v' = v_events v.
  Proof.
    intros NR. destruct S as (E1 & _). destruct M as [now| |ws HW|t pl o RD AS PT|pkt f Vp Mp Hp Fp|q m body f N RP G Hb HF|y z EN Ny|]; try reflexivity.
    cbn [v_events]. rewrite E1. unfold yielded_by. destruct (u_mode u); [elim NR; eauto | apply app_nil_r | apply app_nil_r].
  Qed.
End Mode.

(* ---- executions ---- *)
(* two sequences, by turns *)
Definition two {A} (f g : nat -> A) (n : nat) : A := if Nat.even n then f (Nat.div2 n) else g (Nat.div2 n).
Lemma two_even {A} (f g : nat -> A) k : two f g (2 * k) = f k.
Proof. unfold two. rewrite Nat.even_mul. cbn [Nat.even orb]. rewrite Nat.div2_double. reflexivity. Qed.
Lemma two_odd {A} (f g : nat -> A) k : two f g (S (2 * k)) = g k.
Proof. unfold two. rewrite Nat.even_succ, <- Nat.negb_even, Nat.even_mul. cbn [Nat.even orb negb]. rewrite Nat.div2_succ_double. reflexivity. Qed.
Lemma even_or_odd n : exists k, n = (2 * k)%nat \/ n = S (2 * k).
Proof. exists (Nat.div2 n). pose proof (Nat.div2_odd n) as E. destruct (Nat.odd n); cbn [Nat.b2n] in E; lia. Qed.
Section ServeRun.
  Variables (cl : client) (cfg : Cfg) (may : packet -> Prop) (u0 : up) (net0 : bytes) (pk0 : list packet).
  Hypothesis HL : healthy (u_panel u0).
  Hypothesis O0 : outstanding (u_panel u0) = [].
  Hypothesis U0 : under_way (u_panel u0) net0 pk0.
  Hypothesis TE : topic_ok cl (topic_prefix cfg ++ B "/event") = true.
  Hypothesis DN : distinct_area_names cfg.
  Variables (vs : nat -> service) (acts : nat -> smove).
  Hypothesis S0 : sv cl cfg may (u_panel u0) net0 (u_log u0) (vs 0%nat) u0 [].
  Hypothesis K : forall n, serves cl cfg may (base_of (u_panel u0)) (vs n) (acts n) (vs (S n)).
  Definition ub (n : nat) : up := match v_bridge (vs n) with Up u => u | _ => u0 end.
  Definition mv2 (n : nat) : SpecSend.move := second_move cfg (ub n) (acts n).
  Fixpoint taken (n : nat) : list Command := match n with O => [] | S n' => taken n' ++ given_in (mv2 n') end.
  Definition mvs : nat -> SpecSend.move := two (fun n => first_move (acts n)) mv2.
  Definition xs : nat -> exchange := two (fun n => exch (ub n) (vs n)) (fun n => half (exch (ub n) (vs n)) (acts n)).
  Notation SV n := (sv cl cfg may (u_panel u0) net0 (u_log u0) (vs n) (ub n) (taken n)).
  Lemma run_sv n : SV n.
  Proof.
    induction n as [|n IH].
    - unfold ub. pose proof S0 as (E & _). rewrite E. exact S0.
    - destruct (sv_step cl cfg may _ _ _ _ HL O0 U0 TE DN _ _ _ _ _ IH (K n)) as (u' & S' & _). cbn [taken]. unfold mv2.
      pose proof S' as (E & _). unfold ub at 1. rewrite E. exact S'.
  Qed.
  Lemma run_moves n : moves may (base_of (u_panel u0)) (xs n) (mvs n) (xs (S n)).
  Proof.
    destruct (even_or_odd n) as (k & H).
    destruct (sv_step cl cfg may _ _ _ _ HL O0 U0 TE DN _ _ _ _ _ (run_sv k) (K k)) as (u' & S' & M1 & M2).
    destruct H as [-> | ->]; unfold xs, mvs.
    - rewrite !two_even, two_odd. exact M1.
    - rewrite !two_odd. replace (S (S (2 * k))) with (2 * S k)%nat by lia. rewrite two_even.
      assert (E : ub (S k) = u') by (pose proof S' as (E & _); unfold ub; rewrite E; reflexivity). rewrite E. exact M2.
  Qed.
  Lemma run_given n : given mvs (2 * n) = taken n.
  Proof.
    induction n as [|n IH]; [reflexivity|]. replace (2 * S n)%nat with (S (S (2 * n))) by lia. cbn [given taken].
    rewrite IH. unfold mvs. rewrite two_even, two_odd. destruct (acts n); cbn [first_move given_in]; rewrite app_nil_r; reflexivity.
  Qed.
  Hypothesis FP : forall n, exists m now, (n <= m)%nat /\ acts m = SPanel now.
  Hypothesis FR : forall n, exists m, (n <= m)%nat /\ acts m = SRx.
  Hypothesis FS : forall n, exists m k ws, (n <= m)%nat /\ acts m = SSend (WAccept (S k) :: ws).
  Lemma pops_at n : pops (ub n) (acts n) \/ ~ pops (ub n) (acts n).
  Proof. exact (pops_dec _ _ _ _ _ _ _ _ (K n)). Qed.
  (* it gets back to select! *)
  Lemma flushed w : forall n, u_mode (ub n) = Flushing -> (left_over (ub n) <= w)%nat -> exists m, (n <= m)%nat /\ u_mode (ub m) = Selecting.
  Proof.
    induction w as [w IH] using (well_founded_induction lt_wf). intros n EM LW. destruct (FS n) as (m & k & ws & L & EA).
    assert (G : forall j i, (i + j = m)%nat -> u_mode (ub i) = Flushing -> (left_over (ub i) <= w)%nat -> exists m, (i <= m)%nat /\ u_mode (ub m) = Selecting).
    { induction j as [|j IHj]; intros i EI EMi LWi.
      - rewrite Nat.add_0_r in EI. subst i.
        destruct (flushing_goes cl cfg may _ _ _ _ HL O0 U0 _ _ _ _ _ _ _ (run_sv m) (run_sv (S m)) (K m) EMi) as [X|(X & LE & LT)]; [exists (S m); auto|].
        destruct (IH (left_over (ub (S m))) ltac:(specialize (LT _ _ EA); lia) (S m) X (le_n _)) as (m2 & L2 & X2). exists m2. split; [lia | exact X2].
      - destruct (flushing_goes cl cfg may _ _ _ _ HL O0 U0 _ _ _ _ _ _ _ (run_sv i) (run_sv (S i)) (K i) EMi) as [X|(X & LE & _)]; [exists (S i); auto|].
        destruct (IHj (S i) ltac:(lia) X ltac:(lia)) as (m2 & L2 & X2). exists m2. split; [lia | exact X2]. }
    apply (G (m - n)%nat n); auto. lia.
  Qed.
  Lemma to_select n : exists m, (n <= m)%nat /\ u_mode (ub m) = Selecting.
  Proof.
    destruct (u_mode (ub n)) as [|c|] eqn:EM; [eauto| |eapply flushed; eauto].
    destruct (FS n) as (m & k & ws & L & EA).
    assert (G : forall j i, (i + j = m)%nat -> u_mode (ub i) = Feeding c -> exists m, (i <= m)%nat /\ u_mode (ub m) = Selecting).
    { assert (D : forall i, u_mode (ub (S i)) = Flushing \/ u_mode (ub (S i)) = Selecting -> exists m, (i <= m)%nat /\ u_mode (ub m) = Selecting).
      { intros i [X|X]; [|eauto]. destruct (flushed _ (S i) X (le_n _)) as (m2 & L2 & X2). exists m2. split; [lia | exact X2]. }
      induction j as [|j IHj]; intros i EI EMi;
        destruct (feeding_goes cl cfg may _ _ _ _ HL O0 U0 _ _ _ _ _ _ _ (run_sv i) (run_sv (S i)) (K i) c EMi) as [X|[X|(X & NS)]]; try (apply D; auto; fail).
      - rewrite Nat.add_0_r in EI. subst i. elim (NS _ EA).
      - destruct (IHj (S i) ltac:(lia) X) as (m2 & L2 & X2). exists m2. split; [lia | exact X2]. }
    apply (G (m - n)%nat n); auto. lia.
  Qed.
  (* it takes messages from the channel again and again *)
  Lemma next_pop n : exists m, (n <= m)%nat /\ pops (ub m) (acts m) /\ taken m = taken n /\ exists more, u_rx (ub m) = u_rx (ub n) ++ more.
  Proof.
    assert (P : exists m, (n <= m)%nat /\ pops (ub m) (acts m)).
    { destruct (to_select n) as (m1 & L1 & E1). destruct (FR m1) as (m2 & L2 & E2).
      assert (G : forall j i, (i + j = m2)%nat -> u_mode (ub i) = Selecting -> exists m, (i <= m)%nat /\ pops (ub m) (acts m)).
      { induction j as [|j IHj]; intros i EI EMi; destruct (pops_at i) as [X|X]; eauto.
        - rewrite Nat.add_0_r in EI. subst i. elim X. split; auto.
        - pose proof (selecting_stays _ _ _ _ _ _ _ _ _ _ _ _ _ (run_sv i) (run_sv (S i)) (K i) EMi X) as EM'.
          destruct (IHj (S i) ltac:(lia) EM') as (m & L & Hm). exists m. split; [lia | exact Hm]. }
      destruct (G (m2 - m1)%nat m1 ltac:(lia) E1) as (m & L & Hm). exists m. split; [lia | exact Hm]. }
    destruct P as (m & L & Pm).
    assert (G : forall j i, (i + j = m)%nat -> exists m, (i <= m)%nat /\ pops (ub m) (acts m) /\ taken m = taken i /\ exists more, u_rx (ub m) = u_rx (ub i) ++ more).
    { induction j as [|j IHj]; intros i EI; destruct (pops_at i) as [X|X].
      1,3: exists i; split; [lia|]; split; [exact X|]; split; [reflexivity|]; exists []; rewrite app_nil_r; reflexivity.
      - rewrite Nat.add_0_r in EI. subst i. elim (X Pm).
      - destruct (not_popped _ _ _ _ _ _ _ _ _ _ _ _ _ (run_sv i) (run_sv (S i)) (K i) X) as (G & more & ER).
        destruct (IHj (S i) ltac:(lia)) as (m2 & L2 & P2 & T2 & more2 & R2). exists m2. split; [lia|]. split; [exact P2|]. split.
        + rewrite T2. cbn [taken]. unfold mv2. rewrite G. apply app_nil_r.
        + rewrite R2, ER, <- app_assoc. eauto. }
    apply (G (m - n)%nat n). lia.
  Qed.
  Lemma run_code n : u_code (ub n) = u_code u0.
  Proof.
    induction n as [|n IH]; [unfold ub; pose proof S0 as (E & _); rewrite E; reflexivity|].
    rewrite <- IH. exact (code_same _ _ _ _ _ _ _ _ _ _ _ _ _ (run_sv n) (run_sv (S n)) (K n)).
  Qed.
  Lemma drains a : forall n b, u_rx (ub n) = a ++ b -> exists m later, (n <= m)%nat /\ taken m = taken n ++ concat (map (want cfg (u_code u0)) a) ++ later.
  Proof.
    induction a as [|x a IH]; intros n b E.
    - exists n, []. split; [lia|]. cbn. rewrite app_nil_r. reflexivity.
    - destruct (next_pop n) as (m & L & P & T & more & R). rewrite E in R. cbn [app] in R.
      destruct (popped _ _ _ _ _ _ _ _ _ _ _ _ _ (run_sv m) (run_sv (S m)) (K m) P) as (G & RX & _). rewrite R in G, RX. cbn [tl] in RX.
      rewrite <- app_assoc in RX. destruct (IH (S m) _ RX) as (m2 & later & L2 & T2). exists m2, later. split; [lia|].
      rewrite T2. cbn [taken map concat]. unfold mv2. rewrite G, T, run_code, <- !app_assoc. reflexivity.
  Qed.
  (* it reads the panel's events again and again *)
  Definition reading (n : nat) : Prop := u_mode (ub n) = Selecting /\ exists now, acts n = SPanel now.
  Lemma reading_dec n : reading n \/ ~ reading n.
  Proof.
    unfold reading. destruct (u_mode (ub n)); try (right; intros [X _]; discriminate).
    destruct (acts n) as [now| | | | | | |]; try (right; intros [_ (z & X)]; discriminate). eauto.
  Qed.
  Definition room (n : nat) : nat := (S (length (completed (v_events (vs n)))) - length (taken n))%nat.
  Lemma has_room n : (length (taken n) <= S (length (completed (v_events (vs n)))))%nat.
  Proof. destruct (run_sv n) as (_ & _ & _ & E & _ & L & _). rewrite E, app_length in L. lia. Qed.
  Lemma reads_again d : forall n, (room n <= d)%nat -> exists m, (n <= m)%nat /\ reading m.
  Proof.
    induction d as [d IH] using (well_founded_induction lt_wf). intros n LR. destruct (to_select n) as (m1 & L1 & E1). destruct (FP m1) as (m2 & now & L2 & E2).
    (* up to m1 *)
    assert (G1 : forall j i, (i + j = m1)%nat -> (exists m, (i <= m)%nat /\ reading m) \/ (room m1 <= room i)%nat).
    { induction j as [|j IHj]; intros i EI; [right; rewrite Nat.add_0_r in EI; subst i; lia|].
      destruct (reading_dec i) as [X|X]; [left; eauto|]. destruct (IHj (S i) ltac:(lia)) as [(m & L & Hm)|G]; [left; exists m; split; [lia | exact Hm]|].
      right. pose proof (not_read _ _ _ _ _ _ _ _ _ _ _ _ _ (run_sv i) (run_sv (S i)) (K i) X) as EV. unfold room in G at 2. rewrite EV in G. cbn [taken] in G.
      rewrite app_length in G. unfold room at 2. lia. }
    destruct (G1 (m1 - n)%nat n ltac:(lia)) as [G|G]; [exact G|].
    (* from there *)
    assert (G2 : forall j i, (i + j = m2)%nat -> u_mode (ub i) = Selecting -> (room i <= d)%nat -> exists m, (i <= m)%nat /\ reading m).
    { induction j as [|j IHj]; intros i EI EMi LRi; (destruct (reading_dec i) as [X|X]; [eauto|]).
      - rewrite Nat.add_0_r in EI. subst i. elim X. split; eauto.
      - pose proof (not_read _ _ _ _ _ _ _ _ _ _ _ _ _ (run_sv i) (run_sv (S i)) (K i) X) as EV.
        destruct (pops_at i) as [P|P].
        + destruct (popped _ _ _ _ _ _ _ _ _ _ _ _ _ (run_sv i) (run_sv (S i)) (K i) P) as (_ & _ & [(EM' & G')|(c & _ & G')]).
          * destruct (IHj (S i) ltac:(lia) EM') as (m & L & Hm); [|exists m; split; [lia | exact Hm]].
            unfold room in *. rewrite EV. cbn [taken]. unfold mv2. rewrite G', app_nil_r. exact LRi.
          * pose proof (has_room (S i)) as HR. rewrite EV in HR. cbn [taken] in HR. unfold mv2 in HR. rewrite G', app_length in HR. cbn [length] in HR.
            destruct (IH (room (S i))) with (n := S i) as (m & L & Hm); [|lia|exists m; split; [lia | exact Hm]].
            unfold room in *. rewrite EV. cbn [taken]. unfold mv2. rewrite G', app_length. cbn [length]. lia.
        + destruct (not_popped _ _ _ _ _ _ _ _ _ _ _ _ _ (run_sv i) (run_sv (S i)) (K i) P) as (G' & _).
          pose proof (selecting_stays _ _ _ _ _ _ _ _ _ _ _ _ _ (run_sv i) (run_sv (S i)) (K i) EMi P) as EM'.
          destruct (IHj (S i) ltac:(lia) EM') as (m & L & Hm); [|exists m; split; [lia | exact Hm]].
          unfold room in *. rewrite EV. cbn [taken]. unfold mv2. rewrite G', app_nil_r. exact LRi. }
    destruct (G2 (m2 - m1)%nat m1 ltac:(lia) E1 ltac:(lia)) as (m & L & Hm). exists m. split; [lia | exact Hm].
  Qed.
  Hypothesis FA : forall n, exists m, (n <= m)%nat /\ (acts m = SReply \/ forall q, ~ next_request (base_of (u_panel u0)) (vs m) q).
  Hypothesis FD : forall n, exists m, (n <= m)%nat /\ (acts m = SDeliver \/ v_net (vs m) = []).
  Lemma run_just : just (base_of (u_panel u0)) xs mvs.
  Proof.
    split; [|split; [|split]]; intros n.
    - destruct (FS n) as (m & k & ws & L & E). exists (2 * m)%nat. split; [lia|]. unfold mvs. rewrite two_even, E. exact Logic.I.
    - destruct (reads_again _ n (le_n _)) as (m & L & EM & now & E). exists (S (2 * m)). split; [lia|]. unfold mvs. rewrite two_odd. unfold mv2. rewrite E. cbn [second_move].
      rewrite EM. exact Logic.I.
    - destruct (FA n) as (m & L & [E|E]).
      + exists (S (2 * m)). split; [lia|]. left. unfold mvs. rewrite two_odd. unfold mv2. rewrite E. reflexivity.
      + exists (2 * m)%nat. split; [lia|]. right. unfold xs. rewrite two_even. intros q (qs & fs & rest & F & P & LQ). apply (E q). exists qs, fs, rest.
        split; [exact F|]. split; [|exact LQ]. destruct (run_sv m) as (EB & _). rewrite EB. exact P.
    - destruct (FD n) as (m & L & [E|E]).
      + exists (S (2 * m)). split; [lia|]. left. unfold mvs. rewrite two_odd. unfold mv2. rewrite E. reflexivity.
      + exists (2 * m)%nat. split; [lia|]. right. unfold xs. rewrite two_even. exact E.
  Qed.
  Lemma all_served : v_net (vs 0%nat) = net0 -> v_replied (vs 0%nat) = 0%nat -> v_events (vs 0%nat) = [] -> u_mode u0 = Selecting -> forall k, exists n, forall m, (n <= m)%nat ->
    exists later, completed (v_events (vs m)) = map into_msg (v_asked (vs k)) ++ later.
  Proof.
    intros EN0 ER0 EV0 EM0 k. destruct (run_sv k) as (_ & _ & _ & EA & _).
    destruct (drains (u_rx (ub k)) k [] (eq_sym (app_nil_r _))) as (j & later0 & Lj & Tj).
    assert (X0 : xs 0%nat = exchange_new (u_panel u0) net0 []).
    { unfold xs, two. cbn [Nat.even Nat.div2]. unfold ub. destruct S0 as (EB & _). rewrite EB. unfold exch, waiting. rewrite EN0, ER0, EV0, EM0. reflexivity. }
    destruct (C93_all_completed may (u_panel u0) net0 [] pk0 xs mvs (2 * j) HL O0 (Forall_nil _) U0 (conj X0 run_moves) run_just) as (n & H).
    exists n. intros m L. destruct (H (2 * m)%nat ltac:(lia)) as (_ & later & E). rewrite run_given in E. unfold xs in E. rewrite two_even in E. cbn [exch x_caller s_done app] in E.
    rewrite E, Tj, app_assoc. unfold wants in EA. rewrite run_code in EA. rewrite <- EA, map_app, <- app_assoc. eauto.
  Qed.
End ServeRun.
