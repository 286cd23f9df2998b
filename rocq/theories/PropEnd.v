(* PropEnd.v: the property C83: the bridge as a whole, from the bytes the panel sends to what is published. *)
From Verif Require Import Base BaseFacts Pkt SpecPkt PktFacts DecodeFacts Msg SpecMsg MsgFacts IsoFacts Tokio SpecConn ConnFacts State SpecState StateFacts RunFacts HistFacts ViewFacts PropState Serde SerdeFacts Mqtt SpecMqtt MqttFacts ExState PropMqtt.
From Coq Require Import ZifyBool ZifyNat ZifyN.

(* While the bridge is up, its panel has been connected and then polled, and has been given the bytes that arrived. *)
Lemma net_in_app a b : net_in (a ++ b) = net_in a ++ net_in b.
Proof. unfold net_in. rewrite map_app. apply concat_app. Qed.
Lemma bridge_history cl cfg is : Forall input_ok is ->
  match brun cl cfg is with
  | Connecting i _ => exists h, Forall iop_ok h /\ i = irun conn_new h /\ iarrived h = net_in is
  | Up u => exists h p0 u0 is1 is2, Forall iop_ok h /\ irun conn_new h = IDone p0 /\ is = is1 ++ is2 /\ iarrived h = net_in is1 /\
      start_up cl cfg p0 = (u_log u0, Ok (u_code u0)) /\ u_panel u0 = p0 /\ brun cl cfg is1 = Up u0
  | Dead _ _ => True
  end.
Proof.
  induction is as [|i is IH] using rev_ind; intros HI.
  - cbn. exists []. repeat split. constructor.
  - apply Forall_app in HI as [HI Hi]. inversion Hi as [|? ? Hi' _]; subst. specialize (IH HI). rewrite brun_snoc.
    destruct (brun cl cfg is) as [s rx|u|l w] eqn:EB; [| |exact Logic.I].
    + destruct IH as (h & HO & -> & EA). destruct i as [a|t pl| |now ws|now| |ws]; cbn [bstep];
        try (exists h; rewrite net_in_app; split; [exact HO|]; split; [reflexivity|]; rewrite EA; unfold net_in; cbn; rewrite app_nil_r; reflexivity); [| exact Logic.I |].
      * exists (h ++ [IArrive a]). split; [apply Forall_app; auto|]. rewrite irun_snoc. split; [reflexivity|]. rewrite iarrived_app, net_in_app, EA. reflexivity.
      * assert (HO' : Forall iop_ok (h ++ [IStep now ws])) by (apply Forall_app; split; [exact HO | repeat constructor]).
        assert (EI : irun conn_new (h ++ [IStep now ws]) = istep now ws (irun conn_new h)) by (rewrite irun_snoc; reflexivity).
        assert (EA' : iarrived (h ++ [IStep now ws]) = net_in (is ++ [PollConnect now ws])) by (rewrite iarrived_app, net_in_app, EA; reflexivity).
        unfold after_connect. destruct (istep now ws (irun conn_new h)) as [st ph p|p|er|why] eqn:ES; try exact Logic.I.
        -- exists (h ++ [IStep now ws]). auto.
        -- unfold settle. destruct (start_up cl cfg p) as [l [c|er|why]] eqn:EU; try exact Logic.I. cbn [app].
           exists (h ++ [IStep now ws]), p, (mkUp p c Selecting rx l), (is ++ [PollConnect now ws]), []. rewrite app_nil_r.
           split; [exact HO'|]. split; [exact EI|]. split; [reflexivity|]. split; [exact EA'|]. split; [exact EU|]. split; [reflexivity|].
           rewrite brun_snoc, EB. cbn [bstep]. unfold after_connect. rewrite ES. unfold settle. rewrite EU. reflexivity.
    + destruct IH as (h & p0 & u0 & is1 & is2 & HO & E0 & -> & EA & EU & EP & E1).
      assert (K : exists h p0 u0 is3 is4, Forall iop_ok h /\ irun conn_new h = IDone p0 /\ (is1 ++ is2) ++ [i] = is3 ++ is4 /\ iarrived h = net_in is3 /\
        start_up cl cfg p0 = (u_log u0, Ok (u_code u0)) /\ u_panel u0 = p0 /\ brun cl cfg is3 = Up u0) by (exists h, p0, u0, is1, (is2 ++ [i]); rewrite app_assoc; auto 8).
      destruct (bstep cl cfg (Up u) i) as [s rx|u'|l w] eqn:ES; [|exact K | exact Logic.I].
      exfalso. clear -ES. destruct i; cbn [bstep] in ES; try discriminate.
      * destruct (u_mode u); try discriminate. destruct (poll_next now (u_panel u)) as [[[p [|[[e|e]|]]] w]|e|w]; try discriminate.
        unfold settle in ES. destruct (handle_event cl cfg p e) as [l [[]|?|?]]; discriminate.
      * destruct (u_mode u), (u_rx u) as [|[t p] rx']; try discriminate. destruct (requested _ _ _ _ _) as [[c|]|?|?]; discriminate.
      * unfold poll_send_flush in ES. destruct (u_mode u); try discriminate.
        -- destruct (poll_ready TASK ws (u_panel u)) as [p [|[[]|e]]]; try discriminate. destruct (start_send c p); try discriminate.
           destruct (poll_flush ws _) as [p' [|[[]|e]]]; discriminate.
        -- destruct (poll_flush ws _) as [p' [|[[]|e]]]; discriminate.
Qed.
(* starting up publishes retained messages only *)
Lemma filter_none {A} (f : A -> bool) l : Forall (fun a => f a = false) l -> filter f l = [].
Proof. induction 1 as [|a l H _ IH]; cbn; [reflexivity | rewrite H; exact IH]. Qed.

Lemma start_up_no_events cl cfg p l c : reachable p -> start_up cl cfg p = (l, Ok c) -> filter is_event_pub l = [].
Proof.
  intros R E. destruct (start_up_ok _ _ _ _ _ R E) as (_ & _ & _ & ld & la & lz & fs & -> & D & FA & FZ & _).
  assert (G : forall A (P : A -> action -> Prop) xs l, (forall x a, P x a -> is_event_pub a = false) -> Forall2 P xs l -> filter is_event_pub l = []).
  { intros A P xs l0 H F. apply filter_none. induction F; constructor; eauto. }
  assert (XA : filter is_event_pub la = []) by (eapply G; [|exact FA]; intros x a (t & _ & ->); reflexivity).
  assert (XZ : filter is_event_pub lz = []) by (eapply G; [|exact FZ]; intros x a (t & _ & ->); reflexivity).
  rewrite !filter_app, XA, XZ. cbn.
  unfold discovery in D. destruct (ha_discovery_prefix cfg); [|subst ld; reflexivity].
  destruct D as (l1 & l2 & -> & F1 & F2). rewrite app_nil_r, filter_app.
  assert (X1 : filter is_event_pub l1 = []) by (eapply G; [|exact F1]; intros x a H; unfold area_disc in H; subst; reflexivity).
  assert (X2 : filter is_event_pub l2 = []) by (eapply G; [|exact F2]; intros x a H; unfold zone_disc in H; subst; reflexivity).
  rewrite X1, X2. reflexivity.
Qed.

(* all that the bridge has done since it came up, ps being what it read while connecting *)
Lemma topics_from cl cfg h p0 u0 is1 ps is2 u : Forall iop_ok h -> irun conn_new h = IDone p0 -> iarrived h = net_in is1 ->
  start_up cl cfg p0 = (u_log u0, Ok (u_code u0)) -> u_panel u0 = p0 -> brun cl cfg is1 = Up u0 ->
  takes (iarrived h) ps (unread (p_conn p0)) -> seen p0 (reports_in ps) -> zones_from p0 (messages_in ps) ->
  bridge_after cl cfg (is1 ++ is2) (Up u) -> cfg_ok cfg -> distinct_area_names cfg -> distinct_zone_names cfg ->
  exists es qs left, drains (unread (p_conn (u_panel u))) qs left /\
    drain (net_in (is1 ++ is2)) = Ok (ps ++ packets es ++ qs, left) /\
    (forall now p' w, poll_next now (u_panel u) = Ok (p', Pending, w) -> qs = []) /\
    Forall2 (fun e a => exists v, Event_ser e = Ok v /\ Event_de FromText v = Ok e /\ a = APublish (topic_prefix cfg ++ B "/event") false (PJson v))
      es (filter is_event_pub (u_log u)) /\
    (forall zone z, In (zone, z) (zones cfg) -> exists t, (forall s, shows_zone (zone_after zone s (messages_in (ps ++ packets es))) t) /\
       holds (u_log u) (topic_prefix cfg ++ B "/zone/" ++ z_name z ++ B "/ha_state") (PText t)) /\
    exists rs latest shown, reports_in (ps ++ packets es) = rs ++ [latest] /\
      (shown = latest \/ (exists rs', rs = rs' ++ [shown]) /\ became_fully_armed shown latest) /\ (held (u_panel u) = None -> shown = latest) /\
      forall area name, In (area, name) (areas cfg) -> exists s up a t, area_in shown area s up a /\ shows_area s up a t /\
        holds (u_log u) (topic_prefix cfg ++ B "/area/" ++ name ++ B "/ha_state") (PText t).
Proof.
  intros HO E0 EA EU EP E1 T0 L0 Z0 A K DA DZ. pose proof A as (HI & E).
  assert (A1 : bridge_after cl cfg is1 (Up u0)) by (apply Forall_app in HI as [HI _]; split; auto).
  destruct (C58_events_published _ _ _ _ _ _ A1 A) as (ops & bs & log & H1 & H2 & H3 & H4 & H5). rewrite EP in H2.
  assert (C : connected p0) by (exists h; auto).
  destruct (C28_events_are_the_packets p0 ops (u_panel u) bs 0 C H1 H2) as (_ & _ & _ & qs & left & _ & D & _).
  destruct (connected_inv _ C) as (I0 & _ & U0 & _). pose proof U0 as (_ & zs0 & UZ).
  exists (events bs), qs, left. split; [|split; [|split; [|split; [|split]]]].
  - pose proof (run_takes _ _ _ _ I0 H1 H2) as T2. assert (U2 : u8s (unread (p_conn p0) ++ arrived ops)) by (apply u8s_app; split; [apply unread_u8, I0 | apply arrived_u8; auto]).
    destruct (drain_total _ (takes_u8 _ _ _ T2 U2)) as (rs & l & _ & D2). pose proof (takes_drains _ _ _ T2 _ _ D2) as D3.
    apply drain_iff in D; [|exact U2]. destruct (drains_det _ _ _ D _ _ D3) as [X ->]. apply app_inv_head in X as ->. exact D2.
  - rewrite net_in_app, <- EA, <- H3. apply drain_iff; [apply u8s_app; split; [apply iarrived_u8 | apply arrived_u8]; auto|].
    eapply takes_drains; [apply takes_more; [exact T0 | apply iarrived_u8; auto | apply arrived_u8; auto]|].
    apply drain_iff; [apply u8s_app; split; [apply unread_u8, I0 | apply arrived_u8; auto] | exact D].
  - intros now p' w EN. destruct (C28_events_are_the_packets p0 ops (u_panel u) bs now C H1 H2) as (p2 & r2 & w2 & qs2 & left2 & EN2 & D2 & HP & _).
    rewrite EN in EN2. injection EN2 as <- <- <-. rewrite D in D2. injection D2 as X _. apply app_inv_head in X. rewrite X. apply HP. reflexivity.
  - rewrite H4, filter_app, (start_up_no_events _ _ _ _ _ (connected_reachable _ C) EU). exact H5.
  - intros zone z HZ. destruct (C49_zone_topics_match _ _ _ _ _ _ A K DZ HZ) as (t & (s1 & S1 & S2) & Ht). exists t. split; [|exact Ht].
    intros s. rewrite messages_in_app, zone_after_app.
    assert (Hz : zone_ok zone).
    { destruct (start_up_ok _ _ _ _ _ (connected_reachable _ C) EU) as ((_ & RZ & _) & _). rewrite Forall_forall in RZ. exact (RZ _ HZ). }
    assert (X : zone_status_is (u_panel u) zone (zone_after zone (zone_after zone s (messages_in ps)) (messages bs))).
    { apply (zone_run p0 ops); auto. exists zs0. split; [apply zones_some; exact UZ | apply Z0; auto]. }
    destruct S1 as (zs1 & P1 & P2), X as (zs2 & Q1 & Q2). unfold messages in Q2. assert (zs1 = zs2) by congruence. subst zs2. rewrite P2 in Q2. injection Q2 as <-. exact S2.
  - assert (X : seen (u_panel u) (reports_in ps ++ as_reports bs)) by (apply (seen_run p0 ops); auto).
    destruct (run_up _ _ _ _ I0 U0 H1 H2) as [I [(r & Ur) _]].
    assert (Ex : exists rs m, reports_in ps ++ as_reports bs = rs ++ [m] /\ (r = m \/ (exists rs', rs = rs' ++ [r]) /\ became_fully_armed r m) /\ (held (u_panel u) = None -> r = m)).
    { unfold seen, held in *. rewrite Ur in X. destruct I as (_ & _ & _ & AR & _). unfold arming_ok in AR. rewrite Ur in AR.
      destruct (pending_arm (u_panel u)) as [[d m]|]; cbn in X.
      - destruct X as (rs & -> & Y). symmetry in Y. apply last_some in Y. exists rs, m. split; [reflexivity|]. split; [|discriminate]. right. split; [exact Y|]. apply suspicious_spec, AR.
      - symmetry in X. apply last_some in X as (rs & ->). exists rs, r. auto. }
    destruct Ex as (rs & m & Em & Q & Qh). exists rs, m, r. rewrite reports_in_app. split; [exact Em|]. split; [exact Q|]. split; [exact Qh|].
    intros area name HA. destruct (C48_area_topics_match _ _ _ _ _ _ A DA HA) as (t & (r' & s & up & a & S1 & S2 & S3) & Ht).
    apply status_some in S1. assert (r' = r) by congruence. subst r'. exists s, up, a, t. auto.
Qed.

(* ---- C83 ---- *)
(* While the bridge runs, everything on the broker is given by the bytes the panel has sent since the connection was
   made: the packets they hold are those read while connecting (ps0), those of the events published (es) and those not
   taken up yet (qs: none once there is nothing to do).  One event is published for each, in order, and no other
   message without the retain flag.  Each zone's topic shows its status after all of ps0 and es; each area's topic shows the latest arming
   report among them, or, while that one turns an area from disarmed to fully armed and is held back, the one before. *)
Theorem C83_topics_follow_the_wire : forall cl cfg is u,
  bridge_after cl cfg is (Up u) -> cfg_ok cfg -> distinct_area_names cfg -> distinct_zone_names cfg ->
  exists ps0 es qs left,
    drain (net_in is) = Ok (ps0 ++ packets es ++ qs, left) /\
    (forall now p' w, poll_next now (u_panel u) = Ok (p', Pending, w) -> qs = []) /\
    Forall2 (fun e a => exists v, Event_ser e = Ok v /\ Event_de FromText v = Ok e /\ a = APublish (topic_prefix cfg ++ B "/event") false (PJson v))
      es (filter is_event_pub (u_log u)) /\
    (forall zone z, In (zone, z) (zones cfg) -> exists t, (forall s, shows_zone (zone_after zone s (messages_in (ps0 ++ packets es))) t) /\
       holds (u_log u) (topic_prefix cfg ++ B "/zone/" ++ z_name z ++ B "/ha_state") (PText t)) /\
    exists rs latest shown, reports_in (ps0 ++ packets es) = rs ++ [latest] /\
      (shown = latest \/ (exists rs', rs = rs' ++ [shown]) /\ became_fully_armed shown latest) /\ (held (u_panel u) = None -> shown = latest) /\
      forall area name, In (area, name) (areas cfg) -> exists s up a t, area_in shown area s up a /\ shows_area s up a t /\
        holds (u_log u) (topic_prefix cfg ++ B "/area/" ++ name ++ B "/ha_state") (PText t).
Proof.
  intros cl cfg is u A K DA DZ. pose proof A as (HI & E). pose proof (bridge_history cl cfg is HI) as H. rewrite E in H.
  destruct H as (h & p0 & u0 & is1 & is2 & HO & E0 & -> & EA & EU & EP & E1). destruct (connected_viewed _ _ HO E0) as (ps & T0 & L0 & Z0).
  exists ps. destruct (topics_from _ _ _ _ _ _ _ _ _ HO E0 EA EU EP E1 T0 L0 Z0 A K DA DZ) as (es & qs & left & _ & H). exists es, qs, left. exact H.
Qed.

(* ---- a case ---- *)
(* the panel sends that area 1 is armed fully, then that zone 2 is normal: the area's topic still shows the report before *)
Definition ex_end : list input := ex_start ++
  [NetArrive (Bytes (bytes_of (MArmingStatusReport ex_armed) ++ bytes_of (MZoneChange (mkZC 2 2)) ++ B "16XK")); PollPanel 7; PollPanel 8].
Definition ex_end_up : up := Eval vm_compute in up_of (brun ex_cl ex_cfg ex_end).
Example C83_example :
  bridge_after ex_cl ex_cfg ex_end (Up ex_end_up) /\ cfg_ok ex_cfg /\ distinct_area_names ex_cfg /\ distinct_zone_names ex_cfg /\
  match drain (net_in ex_end) with
  | Ok (ps, rest) => rest = B "16XK" /\ reports_in ps = [ex_disarmed; ex_armed] /\ became_fully_armed ex_disarmed ex_armed /\ zone_after 2 0 (messages_in ps) = 2
  | _ => False
  end /\
  (exists p' w, poll_next 9 (u_panel ex_end_up) = Ok (p', Pending, w)) /\
  retained (u_log ex_end_up) (B "elkm1/0001/area/house/ha_state") = Some (PText (B "disarmed")) /\
  retained (u_log ex_end_up) (B "elkm1/0001/zone/front/ha_state") = Some (PText (B "off")) /\
  length (filter is_event_pub (u_log ex_end_up)) = 2%nat.
Proof.
  split; [split; [apply Forall_app; split; [exact ex_start_ok|]; repeat constructor; cbn; repeat constructor | vm_compute; reflexivity]|].
  split; [repeat split; cbn; repeat constructor; cbn; lia || tauto|]. split; [repeat constructor; cbn; tauto|]. split; [repeat constructor; cbn; tauto|].
  split.
  - replace (drain (net_in ex_end)) with ltac:(let x := eval vm_compute in (drain (net_in ex_end)) in exact x) by (vm_compute; reflexivity).
    split; [reflexivity|]. split; [vm_compute; reflexivity|]. split; [|vm_compute; reflexivity].
    exists 0%nat, AST_ArmedAway. vm_compute. repeat split. tauto.
  - split; [eexists; eexists; vm_compute; reflexivity | vm_compute; repeat split].
Qed.

Print Assumptions C83_topics_follow_the_wire.
