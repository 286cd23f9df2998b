(* PropState.v: theorems C28-C35, C38 and C46 about Panel as a stream (state.rs). *)
From Verif Require Import Base BaseFacts Pkt SpecPkt PktFacts DecodeFacts Msg SpecMsg DecFacts MsgFacts WireFacts IsoFacts
  Tokio SpecConn ConnFacts State SpecState StateFacts RunFacts HistFacts ViewFacts ExState.
From Coq Require Import ZifyBool ZifyNat ZifyN.
Ltac Zify.zify_post_hook ::= Z.div_mod_to_equations.

Lemma poll_event now p p' r w e : poll_case now p p' r w -> yields r e ->
  (exists pkt m, e_pkt e = Some pkt /\ parse pkt = Ok (Some m) /\ wf_message m /\ e_msg e = Some (inl m) /\ same_names p p' /\
     msg_effect now p p' (e_change e) m /\ reply_effect p p' m (e_completes e) w) \/
  (exists pkt, e_pkt e = Some pkt /\ message_of pkt = None /\ e_msg e = parse_result pkt /\ p' = with_conn p (p_conn p') /\
     e_change e = None /\ e_completes e = None /\ w = None) \/
  (exists d m prior, e = deferred_event prior /\ pending_arm p = Some (d, m) /\ d <= now /\ s_arming (p_state p) = Some prior /\
     p' = with_pending (with_arming (with_conn p (p_conn p')) m) None /\ w = None /\ decode (unread (p_conn p)) = Ok (None, unread (p_conn p))).
Proof.
  unfold yields. intros P Y. destruct P as [pkt m e' w' D K EP E1 E2 N M R|pkt e' D K EP E1 E2 E3 E4 E5|d m prior D U X E1 E2 E3 E4|r' NE U F E].
  - injection Y as ->. left. exists pkt, m. repeat split; auto; try apply N. eapply parsed_wf; eauto.
  - injection Y as ->. right; left. exists pkt. repeat split; auto. rewrite E2. unfold parse_result.
    unfold message_of in E1. destruct (parse pkt) as [[m|]|er|why]; congruence.
  - injection Y as <-. right; right. exists d, m, prior. repeat split; auto.
  - elim (NE e). exact Y.
Qed.
(* Only a poll that yields an event can change anything but the connection. *)
Lemma poll_no_event now p p' r w : poll_case now p p' r w -> (forall e, ~ yields r e) -> p' = with_conn p (p_conn p') /\ w = None.
Proof.
  intros P NE. destruct P as [pkt m e' w' D K EP E1 E2 N M R|pkt e' D K EP E1 E2 E3 E4 E5|d m prior D U X E1 E2 E3 E4|r' NE' U F E];
  try (exfalso; eapply NE; reflexivity). auto.
Qed.
Lemma yields_dec r : (exists e, yields r e) \/ forall e, ~ yields r e.
Proof. destruct r as [|[[e|er]|]]; [right|left; exists e; reflexivity|right|right]; intros ? ?; discriminate. Qed.
Lemma status_some p r : status_is p r <-> s_arming (p_state p) = Some r.
Proof. unfold status_is, panel_arming_status. destruct (s_arming (p_state p)); split; congruence. Qed.
Lemma zones_some p z : panel_zone_statuses p = Ok z <-> s_zones (p_state p) = Some z.
Proof. unfold panel_zone_statuses. destruct (s_zones (p_state p)); split; congruence. Qed.
Lemma as_of_msg pkt m : parse pkt = Ok (Some m) -> message_of pkt = Some m.
Proof. unfold message_of. intros ->. reflexivity. Qed.

(* ---- C28 ---- *)
(* Polling never panics, and the events with packets are, in order, the packets of the bytes received; the ones
   still to come are ps, and a poll only waits when there are none.  Each event has its packet's parse result. *)
Theorem C28_events_are_the_packets : forall p0 h p bs now,
  connected p0 -> Forall op_ok h -> run p0 h = Ok (p, bs) ->
  exists p' r w ps left,
    poll_next now p = Ok (p', r, w) /\
    drain (unread (p_conn p0) ++ arrived h) = Ok (packets (events bs) ++ ps, left) /\
    (r = Pending -> ps = []) /\
    (forall e pkt, yields r e -> e_pkt e = Some pkt -> exists qs, ps = pkt :: qs) /\
    Forall (fun e => match e_pkt e with Some pkt => e_msg e = parse_result pkt | None => e_msg e = None end) (events bs).
Proof.
  intros p0 h p bs now C HO E. destruct (connected_inv _ C) as (I0 & _ & _ & _). pose proof (run_pinv _ _ _ _ I0 HO E) as I.
  destruct (poll_next_spec now p I) as (p' & r & w & EN & I' & P). pose proof (polled_case _ _ _ _ _ P I) as PC.
  pose proof (run_takes _ _ _ _ I0 HO E) as T. pose proof (unread_u8 _ (proj1 I)) as U.
  assert (U0 : u8s (unread (p_conn p0) ++ arrived h)) by (apply u8s_app; split; [apply unread_u8, I0 | apply arrived_u8; auto]).
  destruct (drain_total _ U) as (ps & left & D1 & D2). exists p', r, w, ps, left. split; [exact EN|].
  split; [apply drain_iff; auto; eapply takes_drains; eauto|].
  assert (None1 : decode (unread (p_conn p)) = Ok (None, unread (p_conn p)) -> ps = []).
  { intros X. destruct (drains_det _ _ _ D2 [] (unread (p_conn p)) (drains_nil _ X)) as [-> _]. reflexivity. }
  assert (Some1 : forall pkt rest, decode (unread (p_conn p)) = Ok (Some pkt, rest) -> exists qs, ps = pkt :: qs).
  { intros pkt rest X. inversion D2 as [src HD|src q rest' qs l HD HT]; subst; rewrite X in HD; [discriminate|]. injection HD as <- <-. eauto. }
  split; [|split].
  - intros ->. inversion PC as [| | |r' NE U' F EQ]; subst. apply None1. apply F. reflexivity.
  - intros e pkt Y EP. inversion PC as [pkt' m e' w' D K EP' E1 E2 N M R|pkt' e' D K EP' E1 E2 E3 E4 E5|d m prior D U' X E1 E2 E3 E4|r' NE U' F EQ]; subst.
    + injection Y as ->. rewrite EP' in EP. injection EP as <-. eauto.
    + injection Y as ->. rewrite EP' in EP. injection EP as <-. eauto.
    + injection Y as <-. discriminate.
    + elim (NE e). exact Y.
  - refine (proj2 (run_ind (fun _ bs _ => Forall (fun e => match e_pkt e with Some pkt => e_msg e = parse_result pkt | None => e_msg e = None end) (events bs)) p0 I0 _ _ h bs p HO E)).
    { constructor. }
    clear -I0. intros h bs p o p' b _ _ Ip IH _ _ _ S. rewrite events_app. apply Forall_app. split; [exact IH|].
    destruct o as [a|now|w ws|c|ws|ws]; cbn [stepped] in S; try (destruct S as (r & -> & _); constructor); try (destruct S as (-> & _); constructor).
    destruct S as (r & w & -> & P). pose proof (polled_case _ _ _ _ _ P Ip) as PC. destruct (yields_dec r) as [(e & Y)|NY].
    + destruct (poll_event _ _ _ _ _ _ PC Y) as [(pkt & m & E1 & E2 & _ & E3 & _)|[(pkt & E1 & _ & E2 & _)|(d & m & prior & -> & _)]];
      unfold yields in Y; subst r; constructor; try constructor.
      * rewrite E1, E3. unfold parse_result. rewrite E2. reflexivity.
      * rewrite E1, E2. reflexivity.
    + destruct r as [|[[e|er]|]]; try exact (Forall_nil _). elim (NY e eq_refl).
Qed.

(* what a history makes of a zone's status *)
Lemma zone_run p0 h p bs z s0 : pinv p0 -> Forall op_ok h -> run p0 h = Ok (p, bs) -> 1 <= z <= 208 ->
  zone_status_is p0 z s0 -> zone_status_is p z (zone_after z s0 (messages bs)).
Proof.
  intros I0 HO E Hz X.
  refine (proj2 (run_ind (fun _ bs p => zone_status_is p z (zone_after z s0 (messages bs))) p0 I0 X _ h bs p HO E)).
    clear -I0 Hz. intros h bs p o p' b _ _ Ip (zs & IH1 & IH2) _ _ _ S. apply zones_some in IH1. rewrite messages_app, zone_after_app.
    assert (K : messages [b] = [] -> s_zones (p_state p') = s_zones (p_state p) -> zone_status_is p' z (zone_after z (zone_after z s0 (messages bs)) (messages [b]))).
    { intros -> EZ. exists zs. split; [apply zones_some; congruence | exact IH2]. }
    destruct o as [a|now|w ws|c|ws|ws]; cbn [stepped] in S;
      try (destruct S as (r & -> & (S & _) & _); apply K; [reflexivity | congruence]).
    + destruct S as [-> ->]. apply K; reflexivity.
    + destruct S as (r & w & -> & P). pose proof (polled_case _ _ _ _ _ P Ip) as PC. destruct (yields_dec r) as [(e & Y)|NY].
      * pose proof (poll_event _ _ _ _ _ _ PC Y) as PE. unfold yields in Y. subst r.
        assert (EE : messages [ONext (Ready (Some (IoOk e))) w] = catMaybes (map message_of (catMaybes [e_pkt e]))) by reflexivity.
        destruct PE as [(pkt & m & E1 & E2 & W & E3 & _ & M & _)|[(pkt & E1 & E2 & _ & EQ & _)|(d & m & prior & -> & _ & _ & _ & EQ & _)]].
        -- rewrite EE, E1. cbn [catMaybes map]. rewrite (as_of_msg _ _ E2). cbn [catMaybes].
           destruct (effect_zone _ _ _ _ _ _ z M W IH1 Hz) as (zs' & E4 & E5). exists zs'. split; [apply zones_some; exact E4 | auto].
        -- apply K; [rewrite EE, E1; cbn; rewrite E2; reflexivity | rewrite EQ; reflexivity].
        -- apply K; [reflexivity | rewrite EQ; reflexivity].
      * destruct (poll_no_event _ _ _ _ _ PC NY) as [EQ ->]. apply K; [|rewrite EQ; reflexivity].
        destruct r as [|[[e|er]|]]; try reflexivity. elim (NY e eq_refl).
    + destruct S as (-> & _ & (S & _) & _); apply K; [reflexivity | congruence].
Qed.
(* ---- C29 ---- *)
(* A zone's status is the one given by the last ZS or ZC message about it among all packets received since the
   connection was made (ps during connect, then those of the events); s, the value before all of them, does not matter. *)
Theorem C29_zone_status_is_last_reported : forall h0 p0 h p bs z,
  Forall iop_ok h0 -> irun conn_new h0 = IDone p0 -> Forall op_ok h -> run p0 h = Ok (p, bs) -> 1 <= z <= 208 ->
  exists ps qs left, drain (iarrived h0 ++ arrived h) = Ok (ps ++ packets (events bs) ++ qs, left) /\
    forall s, zone_status_is p z (zone_after z s (messages_in ps ++ messages bs)).
Proof.
  intros h0 p0 h p bs z HO0 E0 HO E Hz. destruct (connected_viewed _ _ HO0 E0) as (ps & T0 & _ & Z0).
  assert (C : connected p0) by (exists h0; auto). destruct (connected_inv _ C) as (I0 & _ & (_ & zs0 & U0) & _).
  pose proof (run_pinv _ _ _ _ I0 HO E) as I. pose proof (run_takes _ _ _ _ I0 HO E) as T.
  destruct (drain_total _ (unread_u8 _ (proj1 I))) as (qs & left & _ & D).
  exists ps, qs, left. split.
  - apply drain_iff; [apply u8s_app; split; [apply iarrived_u8 | apply arrived_u8]; auto|].
    rewrite app_assoc. eapply takes_drains; [|exact D]. eapply takes_app; [apply takes_more; [exact T0 | apply iarrived_u8; auto | apply arrived_u8; auto]|]. exact T.
  - intros s. rewrite zone_after_app.
    assert (X : zone_status_is p0 z (zone_after z s (messages_in ps))).
    { exists zs0. split; [apply zones_some; exact U0 | apply Z0; auto]. }
    apply (zone_run p0 h); auto.
Qed.
Lemma step_view p o p' b : stepped p o p' b -> pinv p ->
  (events [b] = [] /\ p_state p' = p_state p /\ pending_arm p' = pending_arm p) \/
  (exists now r w e, o = PollNext now /\ b = ONext r w /\ yields r e /\ events [b] = [e] /\ poll_case now p p' r w).
Proof.
  intros S I. destruct o as [a|now|w ws|c|ws|ws]; cbn [stepped] in S.
  - destruct S as [-> ->]. auto.
  - destruct S as (r & w & -> & P). pose proof (polled_case _ _ _ _ _ P I) as PC. destruct (yields_dec r) as [(e & Y)|NY].
    + right. exists now, r, w, e. repeat split; auto. unfold yields in Y. subst r. reflexivity.
    + left. destruct (poll_no_event _ _ _ _ _ PC NY) as [EQ ->]. rewrite EQ. split; [|auto].
      destruct r as [|[[e|er]|]]; try reflexivity. elim (NY e eq_refl).
  - destruct S as (r & -> & (A & B & _) & _). auto.
  - destruct S as (-> & _ & (A & B & _) & _). auto.
  - destruct S as (r & -> & (A & B & _) & _). auto.
  - destruct S as (r & -> & (A & B & _) & _). auto.
Qed.
Lemma reports_event b e : events [b] = [e] -> as_reports [b] = reports_in (catMaybes [e_pkt e]).
Proof. unfold as_reports. intros ->. reflexivity. Qed.
Lemma reports_none b : events [b] = [] -> as_reports [b] = [].
Proof. unfold as_reports. intros ->. reflexivity. Qed.
Lemma reports_msg pkt m : parse pkt = Ok (Some m) -> reports_in [pkt] = match as_report m with Some r => [r] | None => [] end.
Proof. intros E. unfold reports_in, messages_in. cbn [map]. rewrite (as_of_msg _ _ E). cbn. destruct (as_report m); reflexivity. Qed.
Lemma reports_not pkt : message_of pkt = None -> reports_in [pkt] = [].
Proof. intros E. unfold reports_in, messages_in. cbn [map]. rewrite E. reflexivity. Qed.

(* the three ways an event changes the arming status *)
Lemma event_arming now p p' r w e : poll_case now p p' r w -> yields r e -> pinv p -> up p ->
  exists a a', status_is p a /\ status_is p' a' /\
  ((exists x, e_msg e = Some (inl (MArmingStatusReport x)) /\ reports_in (catMaybes [e_pkt e]) = [x] /\ as_ok x /\
      ((held p = None /\ became_fully_armed a x /\ a' = a /\ pending_arm p' = Some (now + 5000, x) /\ e_change e = None) \/
       ((held p <> None \/ ~ became_fully_armed a x) /\ a' = x /\ pending_arm p' = None /\
        (a = x /\ e_change e = None \/ a <> x /\ e_change e = Some (CArmingStatus a))))) \/
   (e_pkt e = None /\ exists d x, pending_arm p = Some (d, x) /\ d <= now /\ a' = x /\ a <> x /\ pending_arm p' = None /\ e_change e = Some (CArmingStatus a)) \/
   (e_pkt e <> None /\ reports_in (catMaybes [e_pkt e]) = [] /\ a' = a /\ pending_arm p' = pending_arm p /\ forall prior, e_change e <> Some (CArmingStatus prior))).
Proof.
  intros PC Y I [(a & U1) (zs & U2)]. exists a. pose proof I as (_ & _ & _ & AI & _). unfold arming_ok in AI. rewrite U1 in AI. destruct AI as [AI1 AI2].
  destruct (poll_event _ _ _ _ _ _ PC Y) as [(pkt & m & E1 & E2 & W & E3 & _ & M & _)|[(pkt & E1 & E2 & _ & EQ & E3 & _)|(d & m & prior & -> & E1 & E2 & E3 & EQ & _)]].
  - assert (Rp : reports_in (catMaybes [e_pkt e]) = match as_report m with Some r => [r] | None => [] end) by (rewrite E1; apply reports_msg; exact E2).
    assert (Other : as_report m = None -> s_arming (p_state p') = s_arming (p_state p) -> pending_arm p' = pending_arm p ->
       (forall prior, e_change e <> Some (CArmingStatus prior)) -> exists a', status_is p a /\ status_is p' a' /\
       ((exists x, e_msg e = Some (inl (MArmingStatusReport x)) /\ reports_in (catMaybes [e_pkt e]) = [x] /\ as_ok x /\
      ((held p = None /\ became_fully_armed a x /\ a' = a /\ pending_arm p' = Some (now + 5000, x) /\ e_change e = None) \/
       ((held p <> None \/ ~ became_fully_armed a x) /\ a' = x /\ pending_arm p' = None /\
        (a = x /\ e_change e = None \/ a <> x /\ e_change e = Some (CArmingStatus a))))) \/
   (e_pkt e = None /\ exists d x, pending_arm p = Some (d, x) /\ d <= now /\ a' = x /\ a <> x /\ pending_arm p' = None /\ e_change e = Some (CArmingStatus a)) \/
   (e_pkt e <> None /\ reports_in (catMaybes [e_pkt e]) = [] /\ a' = a /\ pending_arm p' = pending_arm p /\ forall prior, e_change e <> Some (CArmingStatus prior)))).
    { intros H1 H2 H3 H4. exists a. split; [apply status_some; auto|]. split; [apply status_some; congruence|]. right; right.
      rewrite Rp, H1. repeat split; auto. congruence. }
    destruct m; cbn [msg_effect] in M; try (destruct M as (M1 & M2 & M3 & M4); apply Other; auto; rewrite M2; discriminate).
    + destruct M as [M _]. unfold arming_effect in M. rewrite U1 in M.
      destruct M as [(M1 & M2 & M3 & M4 & M5)|(M1 & M2 & M3 & M4)].
      * exists a. split; [apply status_some; auto|]. split; [apply status_some; congruence|]. left. exists m.
        split; [exact E3|]. split; [exact Rp|]. split; [exact W|]. left. unfold held. rewrite M1. apply suspicious_spec in M2. auto.
      * exists m. split; [apply status_some; auto|]. split; [apply status_some; congruence|]. left. exists m.
        split; [exact E3|]. split; [exact Rp|]. split; [exact W|]. right. split; [|auto].
        destruct M1 as [M1|M1]; [left; unfold held; destruct (pending_arm p); [discriminate | congruence]|].
        right. intros F. apply suspicious_spec in F. congruence.
    + destruct M as (M & M1 & M2). apply Other; auto. unfold zone_effect in M. rewrite U2 in M.
      destruct M as (zs' & s & _ & _ & _ & _ & ->). destruct (s =? _); discriminate.
  - exists a. split; [apply status_some; auto|]. split; [apply status_some; rewrite EQ; auto|]. right; right.
    rewrite E1. cbn [catMaybes]. rewrite (reports_not _ E2). repeat split; try congruence. rewrite EQ. reflexivity.
  - rewrite U1 in E3. injection E3 as <-. rewrite E1 in AI2. destruct AI2 as [AI2 AI3].
    exists m. split; [apply status_some; auto|]. split; [apply status_some; rewrite EQ; auto|]. right; left. split; [reflexivity|].
    exists d, m. repeat split; auto; [apply suspicious_neq; auto | rewrite EQ; reflexivity].
Qed.

(* the reports seen, after a history *)
Lemma seen_run p0 h p bs rs : pinv p0 -> up p0 -> Forall op_ok h -> run p0 h = Ok (p, bs) ->
  seen p0 rs -> seen p (rs ++ as_reports bs).
Proof.
  intros I0 U0 HO E L0.
  refine (proj2 (run_ind (fun _ bs p => seen p (rs ++ as_reports bs)) p0 I0 _ _ h bs p HO E)).
  { unfold as_reports. cbn. rewrite app_nil_r. exact L0. }
  clear -I0 U0. intros h bs p o p' b E HO Ip IH Oo Es _ S. rewrite as_reports_app, app_assoc.
  destruct (step_view _ _ _ _ S Ip) as [(V1 & V2 & V3)|(now & r & w & e & -> & -> & Y & V & PC)].
  - rewrite (reports_none _ V1), app_nil_r. unfold seen, held. rewrite V2, V3. exact IH.
  - rewrite (reports_event _ _ V). destruct (run_up _ _ _ _ I0 U0 HO E) as [_ Up].
    destruct (event_arming _ _ _ _ _ _ PC Y Ip Up) as (a & a' & A1 & A2 & [(x & _ & -> & _ & B)|[(EN & d & x & B1 & _ & B2 & _ & B3 & _)|(_ & -> & B1 & B2 & _)]]);
      apply status_some in A1, A2.
    + unfold seen in *. destruct B as [(B1 & _ & -> & B2 & _)|(_ & -> & B2 & _)]; unfold held at 1; rewrite B2; cbn [option_map snd].
      * exists (rs ++ as_reports bs). rewrite B1 in IH. split; [reflexivity | congruence].
      * rewrite map_app. cbn [map]. rewrite last_snoc. exact A2.
    + rewrite EN. cbn. rewrite app_nil_r. apply seen_latest in IH. unfold seen, held. rewrite B3. cbn. rewrite <- IH. unfold latest, held. rewrite B1. cbn. congruence.
    + rewrite app_nil_r. unfold seen, held in *. rewrite B2, A2, B1, <- A1. exact IH.
Qed.
Lemma last_some {A} (l : list A) x : last (map Some l) None = Some x -> exists l', l = l' ++ [x].
Proof. induction l as [|y l _] using rev_ind; [discriminate|]. rewrite map_app. cbn [map]. rewrite last_snoc. intros [= ->]. eauto. Qed.

(* ---- C30 ---- *)
(* The most recent report is either in effect or held, and then the one before it is in effect. *)
Theorem C30_latest_report_in_effect_or_held : forall h0 p0 h p bs,
  Forall iop_ok h0 -> irun conn_new h0 = IDone p0 -> Forall op_ok h -> run p0 h = Ok (p, bs) ->
  exists ps qs left rs r, drain (iarrived h0 ++ arrived h) = Ok (ps ++ packets (events bs) ++ qs, left) /\
    reports_in ps ++ as_reports bs = rs ++ [r] /\
    (held p = None -> status_is p r) /\
    (forall m, held p = Some m -> m = r /\ exists rs' a, rs = rs' ++ [a] /\ status_is p a /\ became_fully_armed a r).
Proof.
  intros h0 p0 h p bs HO0 E0 HO E. destruct (connected_viewed _ _ HO0 E0) as (ps & T0 & L0 & _).
  assert (C : connected p0) by (exists h0; auto). destruct (connected_inv _ C) as (I0 & _ & U0 & _).
  destruct (run_up _ _ _ _ I0 U0 HO E) as [I [(r1 & U1) _]]. pose proof (run_takes _ _ _ _ I0 HO E) as T.
  destruct (drain_total _ (unread_u8 _ (proj1 I))) as (qs & left & _ & D).
  assert (X : seen p (reports_in ps ++ as_reports bs)) by (apply (seen_run p0 h); auto).
  assert (DD : drain (iarrived h0 ++ arrived h) = Ok (ps ++ packets (events bs) ++ qs, left)).
  { apply drain_iff; [apply u8s_app; split; [apply iarrived_u8 | apply arrived_u8]; auto|].
    rewrite app_assoc. eapply takes_drains; [|exact D]. eapply takes_app; [apply takes_more; [exact T0 | apply iarrived_u8; auto | apply arrived_u8; auto]|]. exact T. }
  exists ps, qs, left. unfold seen in X. destruct (held p) as [m|] eqn:EH.
  - destruct X as (rs & X & Y). exists rs, m. split; [exact DD|]. split; [exact X|]. split; [discriminate|].
    intros m' [= <-]. split; [reflexivity|]. rewrite U1 in Y. symmetry in Y. apply last_some in Y as (rs' & ->).
    exists rs', r1. split; [reflexivity|]. split; [apply status_some; exact U1|].
    destruct I as (_ & _ & _ & AR & _). unfold arming_ok in AR. rewrite U1 in AR. unfold held in EH.
    destruct (pending_arm p) as [[d m']|]; [|discriminate]. injection EH as ->. apply suspicious_spec, AR.
  - rewrite U1 in X. symmetry in X. apply last_some in X as (rs & X). exists rs, r1. split; [exact DD|]. split; [exact X|].
    split; [intros _; apply status_some; exact U1 | discriminate].
Qed.
(* What each report does: it takes effect at once, or (only if none was held, and it is a transition to fully armed
   from disarmed) it is held and the status stays what it was before it; with one held, the next takes effect.  Events
   without report leave both alone, except the deferred event, which puts the held report in effect. *)
Theorem C30_no_report_lost : forall p now p' r w e a,
  reachable p -> poll_next now p = Ok (p', r, w) -> yields r e -> status_is p a ->
  match e_msg e with
  | Some (inl (MArmingStatusReport x)) =>
      (status_is p' x /\ held p' = None /\ (held p <> None \/ ~ became_fully_armed a x)) \/
      (status_is p' a /\ held p' = Some x /\ held p = None /\ became_fully_armed a x)
  | _ =>
      if e_pkt e then status_is p' a /\ held p' = held p
      else exists x, held p = Some x /\ status_is p' x /\ held p' = None
  end.
Proof.
  intros p now p' r w e a R E Y A. destruct (reachable_inv _ R) as [I U]. pose proof (poll_next_case _ _ _ _ _ I E) as PC.
  destruct (event_arming _ _ _ _ _ _ PC Y I U) as (a1 & a' & A1 & A2 & H). unfold status_is in A, A1. rewrite A in A1. injection A1 as <-.
  destruct H as [(x & -> & _ & _ & B)|[(EN & d & x & B1 & _ & -> & _ & B3 & _)|(NE & RN & -> & B2 & _)]].
  - destruct B as [(B1 & B2 & -> & B3 & _)|(B1 & -> & B3 & _)]; unfold held in *; rewrite B3; auto 10.
  - assert (EM : e_msg e = None).
    { destruct (poll_event _ _ _ _ _ _ PC Y) as [(pkt & m & E1 & _)|[(pkt & E1 & _)|(? & ? & prior & -> & _)]]; try congruence. reflexivity. }
    rewrite EM, EN. exists x. unfold held. rewrite B1, B3. auto.
  - assert (EM : forall x, e_msg e <> Some (inl (MArmingStatusReport x))).
    { intros x EM. destruct (poll_event _ _ _ _ _ _ PC Y) as [(pkt & m & E1 & E2 & _ & E3 & _)|[(pkt & E1 & E2 & E3 & _)|(? & ? & prior & -> & _)]]; try discriminate.
      - rewrite E1 in RN. cbn [catMaybes] in RN. rewrite (reports_msg _ _ E2) in RN. rewrite EM in E3. injection E3 as <-. discriminate.
      - rewrite EM in E3. unfold parse_result in E3. unfold message_of in E2. destruct (parse pkt) as [[?|]|?|?]; congruence. }
    assert (G : status_is p' a /\ held p' = held p) by (unfold held; rewrite B2; auto).
    destruct (e_pkt e); [|congruence].
    destruct (e_msg e) as [[m|]|]; auto. destruct m; auto. elim (EM _ eq_refl).
Qed.
(* Nothing else changes either. *)
Theorem C30_only_events_change_arming : forall p o p' b, reachable p -> op_ok o -> step p o = Ok (p', b) -> events [b] = [] ->
  panel_arming_status p' = panel_arming_status p /\ held p' = held p.
Proof.
  intros p o p' b R HO E EV. destruct (reachable_inv _ R) as [I _]. destruct (step_inv _ _ _ _ I HO E) as [_ S].
  destruct (step_view _ _ _ _ S I) as [(_ & V2 & V3)|(now & r & w & e & _ & _ & _ & V & _)]; [|congruence].
  unfold panel_arming_status, held. rewrite V2, V3. auto.
Qed.

(* ---- C31 ---- *)
Theorem C31_arming_changes_announced : forall p now p' r w,
  reachable p -> poll_next now p = Ok (p', r, w) ->
  exists a a', status_is p a /\ status_is p' a' /\
    (a' <> a <-> exists e prior, yields r e /\ e_change e = Some (CArmingStatus prior)) /\
    (forall e prior, yields r e -> e_change e = Some (CArmingStatus prior) -> prior = a).
Proof.
  intros p now p' r w R E. destruct (reachable_inv _ R) as [I U]. pose proof (poll_next_case _ _ _ _ _ I E) as PC.
  destruct (yields_dec r) as [(e & Y)|NY].
  - destruct (event_arming _ _ _ _ _ _ PC Y I U) as (a & a' & A1 & A2 & H). exists a, a'. split; [exact A1|]. split; [exact A2|].
    assert (Y1 : forall e', yields r e' -> e' = e) by (unfold yields; congruence).
    destruct H as [(x & _ & _ & _ & [(_ & _ & -> & _ & EC)|(_ & -> & _ & [(-> & EC)|(N & EC)])])|[(_ & d & x & _ & _ & -> & N & _ & EC)|(_ & _ & -> & _ & EC)]];
    (split; [split; [intros D; try congruence; exists e, a; auto | intros (e' & prior & Y' & EC'); rewrite (Y1 _ Y') in EC'; congruence]
            | intros e' prior Y' EC'; rewrite (Y1 _ Y') in EC'; try congruence]).
  - destruct (poll_no_event _ _ _ _ _ PC NY) as [EQ _]. destruct U as [(a & U) _]. exists a, a.
    split; [apply status_some; exact U|]. split; [apply status_some; rewrite EQ; exact U|].
    split; [split; [congruence | intros (e & prior & Y & _); elim (NY _ Y)] | intros e prior Y; elim (NY _ Y)].
Qed.

(* ---- C32 ---- *)
Lemma nth_error_ext {A} : forall l l' : list A, (forall j, nth_error l j = nth_error l' j) -> l = l'.
Proof.
  induction l as [|x l IH]; intros [|y l'] H; auto; try (specialize (H 0%nat); discriminate).
  pose proof (H 0%nat) as H0. injection H0 as <-. f_equal. apply IH. intros j. exact (H (S j)).
Qed.
(* False as stated: a ZS report changes statuses without any change in the event. *)
Definition ex_zones' : list N := 2 :: 2 :: repeat 0 206.
Definition ex_zs_ops : list op := [Arrive (Bytes (bytes_of (MZoneStatusReport ex_zones')))].
Theorem C32_zone_changes_announced_refuted :
  exists p now p' r w e, reachable p /\ poll_next now p = Ok (p', r, w) /\ yields r e /\ e_change e = None /\
    zone_status_is p 2 9 /\ zone_status_is p' 2 2.
Proof.
  eexists _, 7, _, _, _, _. split.
  { exists ex_panel, ex_zs_ops. eexists. split; [exact ex_connected|]. split; [|vm_compute; reflexivity]. constructor; [|constructor].
    assert (X : forallb (fun b => b <? 256) (bytes_of (MZoneStatusReport ex_zones')) = true) by (vm_compute; reflexivity).
    cbn. apply Forall_forall. intros b Hb. rewrite forallb_forall in X. apply N.ltb_lt. auto. }
  split; [vm_compute; reflexivity|]. split; [reflexivity|]. split; [reflexivity|]. split; eexists; split; reflexivity.
Qed.
(* True of every poll that does not receive a ZS report, which replaces all statuses at once and announces nothing. *)
Theorem C32_zone_changes_announced_partial : forall p now p' r w,
  reachable p -> poll_next now p = Ok (p', r, w) ->
  exists zs zs', panel_zone_statuses p = Ok zs /\ panel_zone_statuses p' = Ok zs' /\
    ((forall e new, yields r e -> e_msg e <> Some (inl (MZoneStatusReport new))) ->
     (zs' <> zs <-> exists e z prior, yields r e /\ e_change e = Some (CZoneChange z prior))) /\
    (forall e new, yields r e -> e_msg e = Some (inl (MZoneStatusReport new)) -> zs' = new /\ e_change e = None) /\
    (forall e z prior, yields r e -> e_change e = Some (CZoneChange z prior) ->
       1 <= z <= 208 /\ nth_error zs (N.to_nat (z - 1)) = Some prior /\
       exists s, nth_error zs' (N.to_nat (z - 1)) = Some s /\ s <> prior /\ e_msg e = Some (inl (MZoneChange (mkZC z s))) /\
       forall j, j <> N.to_nat (z - 1) -> nth_error zs' j = nth_error zs j).
Proof.
  intros p now p' r w R E. destruct (reachable_inv _ R) as [I [(a & U1) (zs & U2)]]. pose proof (poll_next_case _ _ _ _ _ I E) as PC.
  destruct (yields_dec r) as [(e & Y)|NY].
  - assert (Y1 : forall e', yields r e' -> e' = e) by (unfold yields; congruence).
    assert (Same : s_zones (p_state p') = s_zones (p_state p) -> (forall z prior, e_change e <> Some (CZoneChange z prior)) ->
      (forall new, e_msg e <> Some (inl (MZoneStatusReport new))) ->
      exists zs zs', panel_zone_statuses p = Ok zs /\ panel_zone_statuses p' = Ok zs' /\
    ((forall e new, yields r e -> e_msg e <> Some (inl (MZoneStatusReport new))) ->
     (zs' <> zs <-> exists e z prior, yields r e /\ e_change e = Some (CZoneChange z prior))) /\
    (forall e new, yields r e -> e_msg e = Some (inl (MZoneStatusReport new)) -> zs' = new /\ e_change e = None) /\
    (forall e z prior, yields r e -> e_change e = Some (CZoneChange z prior) ->
       1 <= z <= 208 /\ nth_error zs (N.to_nat (z - 1)) = Some prior /\
       exists s, nth_error zs' (N.to_nat (z - 1)) = Some s /\ s <> prior /\ e_msg e = Some (inl (MZoneChange (mkZC z s))) /\
       forall j, j <> N.to_nat (z - 1) -> nth_error zs' j = nth_error zs j)).
    { intros EZ EC EM. exists zs, zs. split; [apply zones_some; auto|]. split; [apply zones_some; congruence|]. split; [|split].
      - intros _. split; [congruence|]. intros (e' & z & prior & Y' & EC'). rewrite (Y1 _ Y') in EC'. elim (EC _ _ EC').
      - intros e' new Y' EM'. rewrite (Y1 _ Y') in EM'. elim (EM _ EM').
      - intros e' z prior Y' EC'. rewrite (Y1 _ Y') in EC'. elim (EC _ _ EC'). }
    destruct (poll_event _ _ _ _ _ _ PC Y) as [(pkt & m & E1 & E2 & W & E3 & _ & M & _)|[(pkt & E1 & E2 & E3' & EQ & E3 & _)|(d & m & prior & -> & E1 & E2 & E3 & EQ & _)]].
    + destruct m; cbn [msg_effect] in M; try (destruct M as (M1 & M2 & M3); apply Same; [exact M1 | rewrite M2; discriminate | rewrite E3; discriminate]).
      * destruct M as [M M1]. apply Same; [exact M1 | | rewrite E3; discriminate]. unfold arming_effect in M. rewrite U1 in M.
        destruct M as [(_ & _ & _ & _ & ->)|(_ & _ & _ & [(_ & ->)|(_ & ->)])]; discriminate.
      * destruct M as [M _]. unfold zone_effect in M. rewrite U2 in M. destruct M as (zs' & s & M1 & L & M2 & M3 & M4).
        exists zs, zs'. split; [apply zones_some; auto|]. split; [apply zones_some; auto|]. destruct W as [W _].
        assert (Hn : nth_error zs' (N.to_nat (zc_zone m - 1)) = Some (zc_status m)) by (rewrite M3, Nat.eqb_refl; reflexivity).
        split; [|split].
        -- intros _. split.
           ++ intros D. exists e, (zc_zone m), s. split; [exact Y|]. rewrite M4. destruct (N.eqb_spec s (zc_status m)) as [EQ|]; [|reflexivity].
              elim D. apply nth_error_ext. intros j. rewrite M3. destruct (Nat.eqb_spec j (N.to_nat (zc_zone m - 1))) as [->|]; congruence.
           ++ intros (e' & z & prior & Y' & EC'). rewrite (Y1 _ Y'), M4 in EC'. destruct (N.eqb_spec s (zc_status m)); [discriminate|].
              intros ->. congruence.
        -- intros e' new Y' EM'. rewrite (Y1 _ Y'), E3 in EM'. discriminate.
        -- intros e' z prior Y' EC'. rewrite (Y1 _ Y') in *. rewrite M4 in EC'. destruct (N.eqb_spec s (zc_status m)) as [|NQ]; [discriminate|].
           injection EC' as <- <-. split; [exact W|]. split; [exact M2|]. exists (zc_status m). split; [exact Hn|]. split; [congruence|].
           split; [rewrite E3; destruct m; reflexivity|]. intros j Hj. rewrite M3. destruct (Nat.eqb_spec j (N.to_nat (zc_zone m - 1))); [contradiction | reflexivity].
      * destruct M as (M1 & M2 & _). exists zs, zones. split; [apply zones_some; auto|]. split; [apply zones_some; auto|]. split; [|split].
        -- intros H. elim (H e zones Y E3).
        -- intros e' new Y' EM'. rewrite (Y1 _ Y') in *. rewrite E3 in EM'. injection EM' as <-. auto.
        -- intros e' z prior Y' EC'. rewrite (Y1 _ Y') in EC'. congruence.
    + apply Same; [rewrite EQ; reflexivity | congruence|]. intros new EM. rewrite EM in E3'. unfold parse_result in E3'. unfold message_of in E2.
      destruct (parse pkt) as [[?|]|?|?]; congruence.
    + apply Same; [rewrite EQ; reflexivity | discriminate | discriminate].
  - destruct (poll_no_event _ _ _ _ _ PC NY) as [EQ _]. exists zs, zs.
    split; [apply zones_some; auto|]. split; [apply zones_some; rewrite EQ; auto|].
    split; [intros _; split; [congruence | intros (e & z & prior & Y & _); elim (NY _ Y)]|].
    split; [intros e new Y; elim (NY _ Y) | intros e z prior Y; elim (NY _ Y)].
Qed.
Theorem C32_only_polls_change_zones : forall p o p' b, reachable p -> op_ok o -> step p o = Ok (p', b) -> events [b] = [] ->
  panel_zone_statuses p' = panel_zone_statuses p.
Proof.
  intros p o p' b R HO E EV. destruct (reachable_inv _ R) as [I _]. destruct (step_inv _ _ _ _ I HO E) as [_ S].
  destruct (step_view _ _ _ _ S I) as [(_ & V2 & V3)|(now & r & w & e & _ & _ & _ & V & _)]; [|congruence].
  unfold panel_zone_statuses. rewrite V2. reflexivity.
Qed.

(* ---- C33 ---- *)
(* x arrives when a is in effect, none is held, and x says an area became fully armed: nothing visible happens.  From then on,
   through any history h without another report and without the deferred event, a stays in effect, and if then a report y
   arrives, y takes effect and nothing is held any more. *)
Lemma no_report_held p h p' bs : pinv p -> up p -> Forall op_ok h -> run p h = Ok (p', bs) ->
  as_reports bs = [] -> Forall (fun e => e_pkt e <> None) (events bs) ->
  panel_arming_status p' = panel_arming_status p /\ pending_arm p' = pending_arm p.
Proof.
  intros I U HO E.
  refine (proj2 (run_ind (fun _ bs p' => as_reports bs = [] -> Forall (fun e => e_pkt e <> None) (events bs) ->
     panel_arming_status p' = panel_arming_status p /\ pending_arm p' = pending_arm p) p I _ _ h bs p' HO E)); [auto|].
  clear -I U. intros h bs p1 o p2 b E HO I1 IH _ _ _ S. rewrite as_reports_app, events_app. intros RN F.
  apply app_eq_nil in RN as [RN1 RN2]. apply Forall_app in F as [F1 F2]. destruct (IH RN1 F1) as [IH1 IH2].
  destruct (step_view _ _ _ _ S I1) as [(_ & V2 & V3)|(now & r & w & e & -> & -> & Y & V & PC)].
  - unfold panel_arming_status in *. rewrite V2, V3. auto.
  - destruct (run_up _ _ _ _ I U HO E) as [_ U1]. rewrite (reports_event _ _ V) in RN2. rewrite V in F2. inversion F2; subst.
    destruct (event_arming _ _ _ _ _ _ PC Y I1 U1) as (a & a' & A1 & A2 & [(x & _ & RX & _)|[(EN & _)|(_ & _ & -> & EP & _)]]); try congruence.
    unfold status_is in *. split; congruence.
Qed.
Theorem C33_suspicious_report_hidden : forall p now p1 r w e a x h p2 bs,
  reachable p -> held p = None -> status_is p a -> became_fully_armed a x ->
  poll_next now p = Ok (p1, r, w) -> yields r e -> e_msg e = Some (inl (MArmingStatusReport x)) ->
  Forall op_ok h -> run p1 h = Ok (p2, bs) -> as_reports bs = [] -> Forall (fun e => ~ deferred e) (events bs) ->
  e_change e = None /\ status_is p1 a /\ status_is p2 a /\
  forall now' p3 r' w' e' y, poll_next now' p2 = Ok (p3, r', w') -> yields r' e' -> e_msg e' = Some (inl (MArmingStatusReport y)) ->
    status_is p3 y /\ held p3 = None /\ (a <> y <-> e_change e' = Some (CArmingStatus a)).
Proof.
  intros p now p1 r w e a x h p2 bs R HN A BF E Y EM HO E2 RN ND.
  destruct (reachable_inv _ R) as [I U]. pose proof (poll_next_case _ _ _ _ _ I E) as PC.
  pose proof (reachable_poll _ _ _ _ _ R E) as R1. destruct (reachable_inv _ R1) as [I1 U1].
  assert (R2 : reachable p2) by (eapply reachable_run; eauto). destruct (reachable_inv _ R2) as [I2 U2].
  assert (AM : forall e m, e_msg e = Some (inl m) -> e_msg e = Some (inl m)) by auto.
  destruct (event_arming _ _ _ _ _ _ PC Y I U) as (a0 & a1 & A0 & A1 & H). unfold status_is in A, A0. rewrite A in A0. injection A0 as <-.
  pose proof (poll_event _ _ _ _ _ _ PC Y) as PE.
  assert (RX : reports_in (catMaybes [e_pkt e]) = [x] /\ e_pkt e <> None).
  { destruct PE as [(pkt & m & P1 & P2 & _ & P3 & _)|[(pkt & P1 & P2 & P3 & _)|(? & ? & prior & -> & _)]]; try discriminate.
    - rewrite P1. cbn [catMaybes]. rewrite (reports_msg _ _ P2). rewrite EM in P3. injection P3 as <-. split; [reflexivity | discriminate].
    - rewrite EM in P3. unfold parse_result in P3. unfold message_of in P2. destruct (parse pkt) as [[?|]|?|?]; congruence. }
  destruct RX as [RX PN]. destruct H as [(x' & EM' & _ & _ & B)|[(EN & _)|(_ & RN' & _)]]; try congruence.
  rewrite EM in EM'. injection EM' as <-. destruct B as [(_ & _ & -> & PA & EC)|([B|B] & _)]; try contradiction.
  split; [exact EC|]. split; [exact A1|].
  destruct (no_report_held _ _ _ _ I1 U1 HO E2 RN) as [S1 S2].
  { eapply Forall_impl; [|exact ND]. intros q Hq. exact Hq. }
  assert (A2 : status_is p2 a) by (unfold status_is in *; congruence). split; [exact A2|].
  intros now' p3 r' w' e' y E3 Y' EM'. pose proof (poll_next_case _ _ _ _ _ I2 E3) as PC'.
  destruct (event_arming _ _ _ _ _ _ PC' Y' I2 U2) as (a2 & a3 & A2' & A3 & H). unfold status_is in A2, A2'. rewrite A2 in A2'. injection A2' as <-.
  destruct H as [(x' & EM'' & _ & _ & B)|[(EN & _)|(_ & RN' & _)]].
  - rewrite EM' in EM''. injection EM'' as <-. destruct B as [(B & _)|(_ & -> & B1 & B2)].
    + unfold held in B. rewrite S2, PA in B. discriminate.
    + split; [exact A3|]. split; [unfold held; rewrite B1; reflexivity|]. destruct B2 as [(B2 & B3)|(B2 & B3)]; rewrite B3; split; congruence.
  - destruct (poll_event _ _ _ _ _ _ PC' Y') as [(pkt & m & P1 & _)|[(pkt & P1 & _)|(? & ? & prior & -> & _)]]; try congruence. discriminate.
  - destruct (poll_event _ _ _ _ _ _ PC' Y') as [(pkt & m & P1 & P2 & _ & P3 & _)|[(pkt & P1 & P2 & P3 & _)|(? & ? & prior & -> & _)]]; try discriminate.
    + rewrite P1 in RN'. cbn [catMaybes] in RN'. rewrite (reports_msg _ _ P2) in RN'. rewrite EM' in P3. injection P3 as <-. discriminate.
    + rewrite EM' in P3. unfold parse_result in P3. unfold message_of in P2. destruct (parse pkt) as [[?|]|?|?]; congruence.
Qed.

(* ---- C34 ---- *)
(* x is held by a poll at time t.  After any history without another report and without the deferred event, a poll at time
   now yields the deferred event exactly when now is 5 s later or more and the connection has nothing to say; then x is in
   effect, with the right change. *)
Theorem C34_held_report_fires_after_5s : forall p t p1 r w x h p2 bs now p3 r3 w3,
  reachable p -> held p = None -> poll_next t p = Ok (p1, r, w) -> held p1 = Some x ->
  Forall op_ok h -> run p1 h = Ok (p2, bs) -> as_reports bs = [] -> Forall (fun e => ~ deferred e) (events bs) ->
  poll_next now p2 = Ok (p3, r3, w3) ->
  ((exists e, yields r3 e /\ deferred e) <-> t + 5000 <= now /\ exists c, conn_poll_next (p_conn p2) = Ok (c, Pending)) /\
  (forall e, yields r3 e -> deferred e ->
     status_is p3 x /\ held p3 = None /\ exists a, status_is p a /\ e = mkEvent None None None (Some (CArmingStatus a))).
Proof.
  intros p t p1 r w x h p2 bs now p3 r3 w3 R HN E HS HO E2 RN ND E3.
  destruct (reachable_inv _ R) as [I U]. pose proof (poll_next_case _ _ _ _ _ I E) as PC.
  pose proof (reachable_poll _ _ _ _ _ R E) as R1. destruct (reachable_inv _ R1) as [I1 U1].
  assert (R2 : reachable p2) by (eapply reachable_run; eauto). destruct (reachable_inv _ R2) as [I2 U2].
  assert (HP : pending_arm p1 = Some (t + 5000, x) /\ panel_arming_status p1 = panel_arming_status p).
  { destruct (yields_dec r) as [(e & Y)|NY].
    - destruct (event_arming _ _ _ _ _ _ PC Y I U) as (a & a' & A1 & A2 & [(x' & _ & _ & _ & [(_ & _ & -> & B & _)|(_ & _ & B & _)])|[(_ & d & y & _ & _ & _ & _ & B & _)|(_ & _ & _ & B & _)]]);
      unfold held in HS; rewrite B in HS.
      + injection HS as <-. unfold status_is in *. split; congruence.
      + discriminate.
      + discriminate.
      + unfold held in HN. rewrite HN in HS. discriminate.
    - destruct (poll_no_event _ _ _ _ _ PC NY) as [EQ _]. unfold held in HS. rewrite EQ in HS. cbn in HS. unfold held in HN. rewrite HN in HS. discriminate. }
  destruct HP as [HP HA]. destruct (no_report_held _ _ _ _ I1 U1 HO E2 RN) as [S1 S2].
  { eapply Forall_impl; [|exact ND]. intros q Hq. exact Hq. }
  assert (X : forall c, conn_poll_next (p_conn p2) = Ok (c, Pending) ->
    (t + 5000 <= now -> exists a, panel_arming_status p = Ok a /\ r3 = Ready (Some (IoOk (deferred_event a))) /\ p3 = with_pending (with_arming (with_conn p2 c) x) None) /\
    (now < t + 5000 -> r3 = Pending)).
  { intros c EC. unfold poll_next in E3. rewrite EC in E3. cbn [bind] in E3. cbn [pending_arm with_conn] in E3. rewrite S2, HP in E3.
    destruct U2 as [(a & U2) _]. split; intros L.
    - rewrite (proj2 (N.leb_le _ _) L) in E3. cbn [p_state with_conn] in E3. rewrite U2 in E3. injection E3 as <- <- <-.
      exists a. split; [|auto]. rewrite <- HA, <- S1. apply status_some. exact U2.
    - rewrite (proj2 (N.leb_gt _ _) L) in E3. congruence. }
  assert (PC3 := poll_next_case _ _ _ _ _ I2 E3).
  assert (F : forall e, yields r3 e -> deferred e -> t + 5000 <= now /\ exists c, conn_poll_next (p_conn p2) = Ok (c, Pending)).
  { intros e Y De. destruct (poll_event _ _ _ _ _ _ PC3 Y) as [(pkt & m & P1 & _)|[(pkt & P1 & _)|(d & m & prior & -> & P1 & P2 & P3 & EQ & _ & D)]]; unfold deferred in De; try congruence.
    split; [rewrite S2, HP in P1; congruence|]. pose proof I2 as (CI & _). destruct (conn_next_total _ CI) as (c & rc & EC & NX).
    exists c. rewrite EC. f_equal. f_equal. unfold poll_next in E3. rewrite EC in E3. cbn [bind] in E3.
    destruct rc as [|[[pkt|er]|]]; auto; try (unfold yields in Y; congruence).
    destruct (interpret now (with_conn p2 c) pkt) as [[[q ev'] wk]| |] eqn:EI; cbn [bind] in E3; try discriminate. unfold yields in Y.
    unfold interpret in EI. exfalso. assert (e_pkt ev' = None) by congruence.
    destruct (parse pkt) as [[m'|]| |]; try (injection EI as <- <- <-; discriminate); try discriminate.
    destruct (interpret_msg now (with_conn p2 c) m') as [[q1 ch1]| |]; cbn [bind] in EI; try discriminate.
    destruct (interpret_reply q1 m') as [[q2 rt] wk2]. injection EI as <- <- <-. discriminate. }
  split; [split|].
  - intros (e & Y & De). eauto.
  - intros (L & c & EC). destruct (X c EC) as [X1 _]. destruct (X1 L) as (a & _ & -> & _). exists (deferred_event a). split; reflexivity.
  - intros e Y De. destruct (F e Y De) as (L & c & EC). destruct (X c EC) as [X1 _]. destruct (X1 L) as (a & XA & -> & ->).
    split; [reflexivity|]. split; [reflexivity|]. exists a. split; [exact XA|]. unfold yields in Y. injection Y as <-. reflexivity.
Qed.

(* ---- C35 ---- *)
Theorem C35_accessors_safe : forall p, reachable p ->
  (exists r, panel_arming_status p = Ok r) /\ (exists zs, panel_zone_statuses p = Ok zs /\ length zs = 208%nat) /\
  (forall z, 1 <= z <= 208 -> exists n, panel_zone_name p z = Ok n) /\ length (panel_area_names p) = 8%nat.
Proof.
  intros p R. destruct (reachable_inv _ R) as [I [(r & U1) (zs & U2)]]. pose proof I as (_ & ((LZ & _) & (LA & _) & _) & ZI & _).
  split; [exists r; apply status_some; exact U1|]. split; [exists zs; split; [apply zones_some; exact U2 | apply (ZI _ U2)]|]. split; [|exact LA].
  intros z Hz. unfold panel_zone_name. rewrite (to_index_ok _ Hz). cbn [bind].
  destruct (index_ok (zone_names (p_state p)) (N.to_nat (z - 1)) ltac:(lia)) as (n & -> & _). eauto.
Qed.

(* ---- C38 ---- *)
Theorem C38_names_do_not_change : forall p0 h p bs, connected p0 -> Forall op_ok h -> run p0 h = Ok (p, bs) ->
  (forall z, panel_zone_name p z = panel_zone_name p0 z) /\ panel_area_names p = panel_area_names p0 /\
  task_names (p_state p) = task_names (p_state p0).
Proof.
  intros p0 h p bs C HO E. destruct (connected_inv _ C) as (I0 & _).
  assert (X : same_names p0 p).
  { refine (proj2 (run_ind (fun _ _ p => same_names p0 p) p0 I0 (same_names_refl p0) _ h bs p HO E)).
    clear -I0. intros h bs p o p' b _ _ Ip IH _ _ _ S. destruct (step_view _ _ _ _ S Ip) as [(_ & V & _)|(now & r & w & e & -> & -> & Y & V & PC)].
    - unfold same_names in *. rewrite V. exact IH.
    - destruct IH as (A & B & K).
      destruct (poll_event _ _ _ _ _ _ PC Y) as [(pkt & m & _ & _ & _ & _ & (A' & B' & K') & _)|[(pkt & _ & _ & _ & EQ & _)|(d & m & prior & _ & _ & _ & _ & EQ & _)]].
      + repeat split; congruence.
      + rewrite EQ. repeat split; assumption.
      + rewrite EQ. repeat split; assumption. }
  destruct X as (A & B & K). unfold panel_zone_name, panel_area_names. rewrite A. auto.
Qed.

(* ---- C46 ---- *)
(* pkt is not a message (noise, RP, an unknown command or malformed): its event has no change and completes nothing, and the
   panel is as before, but for the read half of its connection. *)
Theorem C46_other_packets_are_inert : forall p now p' r w e pkt,
  reachable p -> poll_next now p = Ok (p', r, w) -> yields r e -> e_pkt e = Some pkt ->
  (forall m, parse pkt <> Ok (Some m)) ->
  e_change e = None /\ e_completes e = None /\ w = None /\ p_state p' = p_state p /\ pending_arm p' = pending_arm p /\
  cmd_state p' = cmd_state p /\ sent (p_conn p') = sent (p_conn p) /\ wbuf (p_conn p') = wbuf (p_conn p).
Proof.
  intros p now p' r w e pkt R E Y EP NM. destruct (reachable_inv _ R) as [I _].
  destruct (poll_next_inv _ _ _ _ _ I E) as [_ (rc & X & _)]. destruct (nexts_same_write _ _ _ X) as (W1 & W2 & _).
  pose proof (poll_next_case _ _ _ _ _ I E) as PC.
  destruct (poll_event _ _ _ _ _ _ PC Y) as [(pkt' & m & P1 & P2 & _)|[(pkt' & P1 & P2 & P3 & EQ & P4 & P5 & ->)|(d & m & prior & -> & _)]].
  - rewrite EP in P1. injection P1 as <-. elim (NM _ P2).
  - rewrite EQ at 1 2 3. repeat split; auto.
  - discriminate.
Qed.

(* ---- examples: concrete histories of a connected panel ---- *)
Definition got (m : message) : op := Arrive (Bytes (bytes_of m)).
Definition view (p : Panel) := (panel_arming_status p, match panel_zone_statuses p with Ok z => firstn 2 z | _ => [] end, held p).
Definition final (h : list op) := match run ex_panel h with Ok (p, bs) => Some (view p, map (fun e => (e_msg e, e_change e)) (events bs)) | _ => None end.
(* C28, C29, C32: three packets in one arrival (one of them noise), then nothing *)
Example C28_C29_C32_example :
  final [Arrive (Bytes (bytes_of (MZoneChange (mkZC 2 1)) ++ B "noise" ++ [13; 10] ++ bytes_of (MZoneStatusReport ex_zones')));
         PollNext 0; PollNext 0; PollNext 0; PollNext 0] =
  Some ((Ok ex_disarmed, [2; 2], None),
        [(Some (inl (MZoneChange (mkZC 2 1))), Some (CZoneChange 2 9)); (None, None); (Some (inl (MZoneStatusReport ex_zones')), None)]).
Proof. vm_compute. reflexivity. Qed.
(* C30, C31, C34: a report is held and takes effect 5 s later *)
Example C30_C31_C34_example :
  final [got (MArmingStatusReport ex_armed); PollNext 100] =
    Some ((Ok ex_disarmed, [2; 9], Some ex_armed), [(Some (inl (MArmingStatusReport ex_armed)), None)]) /\
  final [got (MArmingStatusReport ex_armed); PollNext 100; PollNext 5099] =
    Some ((Ok ex_disarmed, [2; 9], Some ex_armed), [(Some (inl (MArmingStatusReport ex_armed)), None)]) /\
  final [got (MArmingStatusReport ex_armed); PollNext 100; PollNext 5099; PollNext 5100] =
    Some ((Ok ex_armed, [2; 9], None), [(Some (inl (MArmingStatusReport ex_armed)), None); (None, Some (CArmingStatus ex_disarmed))]).
Proof. repeat split; vm_compute; reflexivity. Qed.
(* C33: a report is held and superseded *)
Lemma ex_armed_suspicious : became_fully_armed ex_disarmed ex_armed.
Proof. exists 0%nat, AST_ArmedAway. repeat split. left. reflexivity. Qed.
Example C33_example :
  final [got (MArmingStatusReport ex_armed); PollNext 100; got (MZoneChange (mkZC 1 3)); PollNext 9000; got (MArmingStatusReport ex_arming); PollNext 9100; PollNext 99999] =
    Some ((Ok ex_arming, [3; 9], None), [(Some (inl (MArmingStatusReport ex_armed)), None); (Some (inl (MZoneChange (mkZC 1 3))), Some (CZoneChange 1 2));
       (Some (inl (MArmingStatusReport ex_arming)), Some (CArmingStatus ex_disarmed))]).
Proof. vm_compute. reflexivity. Qed.
Example C35_C38_example : reachable ex_panel /\ panel_zone_name ex_panel 2 = Ok (B "Front DoorKeypad").
Proof. split; [apply connected_reachable, ex_connected | reflexivity]. Qed.
Example C46_example :
  final [Arrive (Bytes ([222] ++ bytes_of (MZoneChange (mkZC 1 2)))); PollNext 0] =
    Some (view ex_panel, [(None, None)]) /\
  (forall m, parse (PInvalid [222] "bytes without ASCII length or RP prefix") <> Ok (Some m)).
Proof. split; [vm_compute; reflexivity | discriminate]. Qed.

Print Assumptions C28_events_are_the_packets.
Print Assumptions C29_zone_status_is_last_reported.
Print Assumptions C30_latest_report_in_effect_or_held.
Print Assumptions C30_no_report_lost.
Print Assumptions C30_only_events_change_arming.
Print Assumptions C31_arming_changes_announced.
Print Assumptions C32_zone_changes_announced_refuted.
Print Assumptions C32_zone_changes_announced_partial.
Print Assumptions C32_only_polls_change_zones.
Print Assumptions C33_suspicious_report_hidden.
Print Assumptions C34_held_report_fires_after_5s.
Print Assumptions C35_accessors_safe.
Print Assumptions C38_names_do_not_change.
Print Assumptions C46_other_packets_are_inert.
