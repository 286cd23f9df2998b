(* PropHost.v: C100: the MQTT bridge as a task that is only run when woken. *)
From Verif Require Import Base BaseFacts Pkt SpecPkt PktFacts DecodeFacts Msg SpecMsg DecFacts MsgFacts WireFacts IsoFacts
  PropMsg Tokio SpecConn ConnFacts State SpecState StateFacts RunFacts HistFacts ViewFacts ExState PropState PropSink PropLive
  Serde SerdeFacts PropSerde SpecInit InitFacts PropConnect SpecSend SendFacts PropSend Mqtt SpecMqtt MqttFacts PropMqtt PropEnd SpecServe ServeFacts PropServe
  SpecProgram ProgramFacts PropProgram.
From Verif Require SpecWakeInit PropWakeInit PropTasks.
From Verif Require Import Wake PropWake WakeBridge SpecHost HostFacts.
From Coq Require Import ZifyBool ZifyNat ZifyN.
Ltac Zify.zify_post_hook ::= Z.div_mod_to_equations.

(* ---- whatever happens ---- *)
(* Run only when woken, the bridge goes through states that it can also go through when it is polled at will (Mqtt.v), with the same
   bytes from the panel and the same publishes arriving. *)
Theorem C100_is_the_bridge : forall cl cfg l, Forall hact_ok l ->
  exists is, bridge_after cl cfg is (h_bridge (hrun cl cfg l)) /\ mqtt_in is = h_mail l /\ net_in is = h_bytes l.
Proof.
  intros cl cfg l. induction l as [|a l IH] using rev_ind; intros F.
  - exists []. split; [split; [constructor | reflexivity] | split; reflexivity].
  - apply Forall_app in F as [F Fa]. inversion Fa; subst. destruct (IH F) as (is & (F1 & E1) & M1 & N1). destruct (hrun_hinv cl cfg l F) as [SO _].
    destruct (hstep_inputs cl cfg (hrun cl cfg l) a H1 SO) as (is2 & F2 & E2 & M2 & N2). exists (is ++ is2). unfold hrun in *. rewrite fold_left_app. cbn [fold_left]. split; [split|split].
    + apply Forall_app; auto.
    + unfold brun in *. rewrite fold_left_app, E1, E2. reflexivity.
    + rewrite mqtt_in_app, M1, M2. unfold h_mail. rewrite map_app, catMaybes_app. reflexivity.
    + rewrite PropMqtt.net_in_app, N1, N2. unfold h_bytes. rewrite map_app, concat_app. reflexivity.
Qed.
Lemma hrun_snoc2 cl cfg l a b : hrun cl cfg (l ++ [a; b]) = hstep cl cfg (hstep cl cfg (hrun cl cfg l) a) b.
Proof. unfold hrun. rewrite fold_left_app. reflexivity. Qed.
Lemma heard_intro p : pinv p -> is_readable (p_conn p) = false -> rq (p_conn p) = [] -> peer_closed (p_conn p) = false -> heard_all (p_conn p).
Proof. intros I Q2 Q3 Q4. split; [|auto]. unfold unread. rewrite Q3. cbn. rewrite app_nil_r. apply I. left. exact Q2. Qed.
Lemma quiet_nothing cl cfg h : sound cl cfg h -> quiet h -> nothing_to_do h.
Proof.
  intros SO Q. unfold quiet, nothing_to_do in *. destruct (h_bridge h) as [i rx|u|l w] eqn:EB; [| |contradiction].
  - destruct (sound_connecting _ _ _ _ _ SO EB) as [I (s & ph & p & ->)]. exists s, ph, p. split; [reflexivity|]. unfold PropWakeInit.rests in Q.
    cbn [client_of WakeInit.k_state WakeInit.k_writer WakeInit.k_reader WakeInit.k_room WakeInit.k_broken] in Q. destruct ph; try contradiction.
    + right. destruct Q as (R1 & R2 & R3 & R4). repeat split; assumption.
    + left. destruct Q as (R1 & Q1 & Q2 & Q3 & Q4). pose proof I as (PI & _ & _ & W). split; [apply W; discriminate|]. apply heard_intro; assumption.
  - destruct (sound_up _ _ _ _ SO EB) as [I _]. assert (J : jammed TASK (world_of h u) -> stuffed h (p_conn (u_panel u))) by (intros ((_ & B1 & B2 & B3) & _); repeat split; assumption).
    cbv zeta. destruct (u_mode u).
    + destruct Q as (Q1 & _ & (_ & (P1 & P2 & P3 & P4) & P5)). split; [exact Q1|]. split; [apply heard_intro; assumption|]. intros d r E. cbn [world_of w_panel w_now] in P5. rewrite E in P5. apply P5.
    + destruct Q as [Q|(q & Q)]; [left; apply J; exact Q|]. right. unfold outstanding. cbn [world_of w_panel] in Q. rewrite Q. discriminate.
    + apply J. exact Q.
Qed.
(* No wake-up is lost: when the bridge is not due there is nothing it could do, and running it anyway changes nothing. *)
Theorem C100_no_lost_wakeup : forall cl cfg l, Forall hact_ok l -> h_due (hrun cl cfg l) = false ->
  nothing_to_do (hrun cl cfg l) /\
  forall first, let h := hrun cl cfg (l ++ [HWake; HRun first]) in h_bridge h = h_bridge (hrun cl cfg l) /\ h_room h = h_room (hrun cl cfg l) /\ h_due h = false.
Proof.
  intros cl cfg l F D. destruct (hrun_hinv cl cfg l F) as [SO Q]. specialize (Q D). split; [eapply quiet_nothing; eauto|]. intros first. cbv zeta. rewrite hrun_snoc2.
  destruct (quiet_run cl cfg _ first SO Q) as (E1 & E2 & _ & E4 & _). auto.
Qed.
Lemma quiet_woken cl cfg h : sound cl cfg h -> quiet h -> h_due h = false -> can_be_woken cl cfg h.
Proof.
  intros SO Q D. unfold can_be_woken, would_wake, quiet, hstep in *. cbv zeta.
  destruct (h_bridge h) as [i rx|u|lg w] eqn:EB; [| |contradiction].
  - destruct (sound_connecting _ _ _ _ _ SO EB) as [I (s & ph & p & ->)]. exists s, ph, p. split; [reflexivity|]. unfold PropWakeInit.rests in Q.
    cbn [client_of WakeInit.k_state WakeInit.k_writer WakeInit.k_reader WakeInit.k_room WakeInit.k_broken] in Q. unfold connect_step, client_of. rewrite D. cbn [WakeInit.cstep h_due WakeInit.k_runnable orb]. destruct ph; try contradiction.
    + destruct Q as (R1 & _ & _ & R4). rewrite R1. split; [congruence | auto].
    + destruct Q as (R1 & _). pose proof I as (_ & _ & _ & W). rewrite R1. split; [auto|]. intros H. elim H. apply W. discriminate.
  - assert (J : blocked TASK (world_of h u) -> (forall n, h_due (outside h u (WRoom (S n))) = true) /\ forall e, h_due (outside h u (WBreak e)) = true).
    { intros (B1 & _). unfold outside. cbn [wstep]. rewrite B1. cbn. rewrite D. auto. }
    destruct (u_mode u).
    + destruct Q as (_ & Q2 & (P1 & _ & P5)). split; [|split].
      * intros x. unfold outside. cbn [wstep]. rewrite P1. cbn. rewrite D. reflexivity.
      * intros t pl. cbn. rewrite D, Q2. reflexivity.
      * intros d r w E L. unfold outside. cbn [wstep world_of w_panel w_now w_regs] in *. rewrite E in *. destruct (d <=? h_now h + w) eqn:EL; [|lia]. destruct P5 as [_ P5]. rewrite P5. cbn. rewrite D. reflexivity.
    + intros H. destruct Q as [Q|(q & Q)]; [apply J, Q|]. destruct H as [H|(H & _)]; [unfold outstanding in H; cbn [world_of w_panel] in Q; rewrite Q in H; discriminate H|].
      destruct (sound_up _ _ _ _ SO EB) as [I _]. exfalso. apply H. cbn [world_of w_panel] in Q. destruct I as (_ & _ & _ & _ & C). unfold cmd_ok in C. rewrite Q in C. apply C. reflexivity.
    + apply J, Q.
Qed.
(* And it is due again as soon as there is something for it to do. *)
Theorem C100_is_woken : forall cl cfg l, Forall hact_ok l -> h_due (hrun cl cfg l) = false -> can_be_woken cl cfg (hrun cl cfg l).
Proof. intros cl cfg l F D. destruct (hrun_hinv cl cfg l F) as [SO Q]. apply quiet_woken; auto. Qed.

(* ---- with a panel and MQTT clients ---- *)
Lemma connect_same cl cfg h i rx : (exists s ph p, i = IRun s ph p) -> h_due h = false -> h_bridge (connect_step cl cfg h i rx WakeInit.CRun) = Connecting i rx.
Proof. intros (s & ph & p & ->) D. unfold connect_step, client_of. rewrite D. reflexivity. Qed.
Lemma cstep_broken k a : (forall e, a <> WakeInit.CBreak e) -> WakeInit.k_broken (WakeInit.cstep k a) = WakeInit.k_broken k.
Proof. intros N. destruct k as [i run rd wt now room br]. destruct a as [x|[|n]|e|d| |]; try reflexivity; [elim (N e); reflexivity|]. cbn. destruct run; [|reflexivity]. destruct (WakeInit.iwaits _ _) as [[]|]; reflexivity. Qed.
Lemma flush_broken w : w_broken (fst (run_flush w)) = w_broken w.
Proof. unfold run_flush. destruct (wstep w (WFlush TASK)) as [[[w1 [|r k|[|r]]] ks]|e|y] eqn:E; try reflexivity; (eapply PropTasks.wstep_broken; [exact E | discriminate]). Qed.
Lemma send_broken w m : w_broken (fst (run_send w m)) = w_broken w.
Proof.
  destruct m as [|c|]; [apply flush_broken| |apply flush_broken]. cbn [run_send]. destruct (wstep w (WReady TASK)) as [[[w1 b] ks]|e|y] eqn:E; try reflexivity.
  assert (B : w_broken w1 = w_broken w) by (eapply PropTasks.wstep_broken; [exact E | discriminate]).
  destruct b as [|r k|[|[[]|e]]]; try exact B. destruct (wstep w1 (WSend c)) as [[[w2 b2] k2]|e|y] eqn:E2; try exact B. rewrite flush_broken, <- B. eapply PropTasks.wstep_broken; [exact E2 | discriminate].
Qed.
Lemma panel_broken cl cfg h u : h_broken (fst (select_panel cl cfg h u)) = h_broken h.
Proof.
  unfold select_panel. destruct (wstep _ _) as [[[w b] ks]|e|y] eqn:E; try reflexivity. assert (B : w_broken w = h_broken h) by (rewrite (PropTasks.wstep_broken _ _ _ _ _ E); [reflexivity | discriminate]).
  destruct b as [|[|[[e|e]|]] k|o]; exact B.
Qed.
Lemma rx_broken cl cfg h u : h_broken (fst (select_rx cl cfg h u)) = h_broken h.
Proof. unfold select_rx. destruct (u_rx u); reflexivity. Qed.
Lemma hstep_broken cl cfg h a : (forall e, a <> HBreak e) -> h_broken (hstep cl cfg h a) = h_broken h.
Proof.
  intros N. unfold hstep. destruct (h_bridge h) as [i rx|u|l w] eqn:EB; [| |reflexivity].
  - destruct a as [x|n|e|d|t pl| | |first]; try reflexivity; try (apply (cstep_broken (client_of h i)); discriminate). elim (N e). reflexivity.
  - assert (O : forall a, (forall e, a <> WBreak e) -> h_broken (outside h u a) = h_broken h).
    { intros b NB. unfold outside. destruct (wstep _ _) as [[[w o] ks]|e|y] eqn:E; try reflexivity. exact (PropTasks.wstep_broken _ _ _ _ _ E NB). }
    destruct a as [x|n|e|d|t pl| | |first]; try reflexivity; try (apply O; discriminate); [elim (N e); reflexivity|]. destruct (h_due h); [|reflexivity].
    assert (S : forall m, h_broken (let '(w, r) := run_send (world_of h u) m in put (bstep cl cfg (Up u) (PollSend (writes (world_of h u)))) w (h_chan h) r) = h_broken h).
    { intros m. pose proof (send_broken (world_of h u) m) as B. destruct (run_send (world_of h u) m) as [w r]. exact B. }
    destruct (u_mode u); [|apply S..]. unfold select. destruct first.
    + pose proof (panel_broken cl cfg h u) as B. destruct (select_panel cl cfg h u) as [h1 r]. cbn [fst] in B. destruct r; [exact B|]. destruct (h_bridge h1); try exact B. rewrite rx_broken. exact B.
    + pose proof (rx_broken cl cfg h u) as B. destruct (select_rx cl cfg h u) as [h1 r]. cbn [fst] in B. destruct r; [exact B|]. destruct (h_bridge h1); try exact B. rewrite panel_broken. exact B.
Qed.

Section Turns.
Variables (nm : naming) (cl : client) (cfg : Cfg) (may : packet -> Prop).
Notation turns := (hturns nm cl cfg may).
Notation go := (goes nm cl cfg may).
Definition tinv (t : hosted) : Prop := hinv cl cfg (t_host t) /\ h_broken (t_host t) = None /\ u8s (t_net t).
Lemma tinv_new : tinv hosted_new.
Proof. split; [apply hinv_new|]. split; [reflexivity | constructor]. Qed.
Lemma frame_bytes pkt f : valid_packet pkt -> frame_of pkt f -> u8s f.
Proof. intros V F. pose proof (frames_u8 [pkt] [f] ltac:(auto) ltac:(auto)) as U. cbn in U. rewrite app_nil_r in U. exact U. Qed.
Lemma tinv_step t a t' : tinv t -> turns t a t' -> tinv t'.
Proof.
  intros (H & B & U) T. assert (G : forall x, hact_ok x -> (forall e, x <> HBreak e) -> hinv cl cfg (hstep cl cfg (t_host t) x) /\ h_broken (hstep cl cfg (t_host t) x) = None).
  { intros x O N. split; [apply hstep_hinv; assumption | rewrite hstep_broken; assumption]. }
  destruct T as [first|n|d| |tp pl o RD AS PT|pkt f Vp Mp Hp Np Fp|q m body f NR AN GR Hb HF|a b E Na]; unfold tinv, by_act; cbn [t_host t_net].
  - destruct (G (HRun first)); [exact Logic.I | discriminate | auto].
  - destruct (G (HRoom n)); [exact Logic.I | discriminate | auto].
  - destruct (G (HWait d)); [exact Logic.I | discriminate | auto].
  - destruct (G HWake); [exact Logic.I | discriminate | auto].
  - destruct (G (HMqtt tp pl)); [exact Logic.I | discriminate | auto].
  - split; [exact H|]. split; [exact B|]. apply u8s_app. split; [exact U | eapply frame_bytes; eauto].
  - split; [exact H|]. split; [exact B|]. apply u8s_app. split; [exact U|]. apply (frame_bytes (PAscii body) f); assumption.
  - rewrite E in U. apply u8s_app in U as [Ua Ub]. destruct (G (HArrive (Bytes a))); [exact Ua | discriminate | auto].
Qed.
Lemma tinv_all t : turns_to nm cl cfg may t -> tinv t.
Proof. induction 1 as [|t a t' _ IH T]; [apply tinv_new | eapply tinv_step; eauto]. Qed.

(* what the turns other than running the task do to the bridge *)
Lemma aside_bridge h a : sound cl cfg h -> (exists n, a = HRoom n) \/ (exists d, a = HWait d) \/ a = HWake -> h_bridge (hstep cl cfg h a) = h_bridge h.
Proof.
  intros SO A. unfold hstep. destruct (h_bridge h) as [i rx|u|l w] eqn:EB; [| |exact EB].
  - destruct (sound_connecting _ _ _ _ _ SO EB) as [_ (s & ph & p & ->)]. destruct A as [(n & ->)|[(d & ->)| ->]]; [destruct n|..]; reflexivity.
  - assert (O : forall b, from_outside b -> act_ok b -> match b with WArrive _ => False | _ => True end -> h_bridge (outside h u b) = Up u).
    { intros b F _ N. unfold outside. pose proof (wstep_call (world_of h u) b) as C. destruct b as [x|n|e|d| | | | |]; try contradiction; cbn [call_of step] in C; destruct C as (w & ks & E & S); rewrite E; cbn [put h_bridge];
        rewrite S; cbn [world_of w_panel]; rewrite set_panel_same; reflexivity. }
    destruct A as [(n & ->)|[(d & ->)| ->]]; [apply O; exact Logic.I | apply O; exact Logic.I | reflexivity].
Qed.
Lemma mqtt_bridge h t pl : h_bridge (hstep cl cfg h (HMqtt t pl)) = bstep cl cfg (h_bridge h) (MqttArrive t pl).
Proof. unfold hstep. destruct (h_bridge h) as [i rx|u|l w] eqn:EB; [reflexivity | reflexivity | exact EB]. Qed.
Lemma arrive_bridge h x : sound cl cfg h -> arrival_u8 x -> h_bridge (hstep cl cfg h (HArrive x)) = bstep cl cfg (h_bridge h) (NetArrive x).
Proof.
  intros SO U. unfold hstep. destruct (h_bridge h) as [i rx|u|l w] eqn:EB; [| |exact EB].
  - destruct (sound_connecting _ _ _ _ _ SO EB) as [_ (s & ph & p & ->)]. reflexivity.
  - unfold outside. pose proof (wstep_call (world_of h u) (WArrive x)) as C. cbn [call_of step] in C. destruct C as (w & ks & E & S). rewrite E. cbn [put h_bridge]. rewrite S. reflexivity.
Qed.

(* a turn is at most two moves of C99 *)
Definition selecting (b : bridge) : bool := match b with Up u => match u_mode u with Selecting => true | _ => false end | _ => false end.
Definition sending (b : bridge) : bool := match b with Up u => match u_mode u with Selecting => false | _ => true end | _ => false end.
Definition connects (b : bridge) : bool := match b with Connecting _ _ => true | _ => false end.
Definition no_mail (b : bridge) : bool := match b with Up u => match u_rx u with [] => true | _ => false end | _ => true end.
Definition halves (t : hosted) (a : hturn) : pmove * pmove :=
  let h := t_host t in
  match a with
  | URun first =>
      if h_due h then
        match h_bridge h with
        | Connecting i rx => (PDo SIdle, PConnect (h_now h) (socket h))
        | Up u =>
            match u_mode u with
            | Selecting =>
                if first then (PDo (SPanel (h_now h)), if snd (select_panel cl cfg h u) then PDo SIdle else PDo SRx)
                else (PDo SIdle, match u_rx u with [] => PDo (SPanel (h_now h)) | _ => PDo SRx end)
            | _ => (PDo SIdle, PDo (SSend (socket h)))
            end
        | Dead _ _ => (PDo SIdle, PDo SIdle)
        end
      else (PDo SIdle, PDo SIdle)
  | URoom _ | UWait _ | UWake => (PDo SIdle, PDo SIdle)
  | UMqtt tp pl => (PDo SIdle, PDo (SMqtt tp pl))
  | UUnasked => (PDo SIdle, PDo SUnasked)
  | UReply => (PDo SIdle, PDo SReply)
  | UDeliver => (PDo SIdle, PDo SDeliver)
  end.
Definition mid (t : hosted) (a : hturn) : service :=
  match fst (halves t a) with
  | PDo (SPanel now) => mkService (bstep cl cfg (h_bridge (t_host t)) (PollPanel now)) (t_net t) (t_replied t) (t_asked t) (t_events t ++ yielded_by (h_bridge (t_host t)) now)
  | _ => service_of t
  end.
Lemma idles v : go v (PDo SIdle) v.
Proof. apply G_serve; [discriminate | discriminate | constructor]. Qed.
Lemma polls v now : go v (PDo (SPanel now)) (mkService (bstep cl cfg (v_bridge v) (PollPanel now)) (v_net v) (v_replied v) (v_asked v) (v_events v ++ yielded_by (v_bridge v) now)).
Proof. apply G_serve; [discriminate | discriminate | constructor]. Qed.
Lemma mails v : go v (PDo SRx) (mkService (bstep cl cfg (v_bridge v) PollRx) (v_net v) (v_replied v) (v_asked v) (v_events v)).
Proof. apply G_serve; [discriminate | discriminate | constructor]. Qed.
Lemma socket_fine h : h_broken h = None -> Forall write_ok (socket h).
Proof. intros E. unfold socket. rewrite E. destruct (h_room h); repeat constructor. discriminate. Qed.
Lemma same_service t b e : b = h_bridge (t_host t) -> e = t_events t -> mkService b (t_net t) (t_replied t) (t_asked t) e = service_of t.
Proof. intros -> ->. reflexivity. Qed.
Lemma service_mk h n r a e : service_of (mkHosted h n r a e) = mkService (h_bridge h) n r a e.
Proof. reflexivity. Qed.
Lemma halves_go t a t' : tinv t -> turns t a t' -> go (service_of t) (fst (halves t a)) (mid t a) /\ go (mid t a) (snd (halves t a)) (service_of t').
Proof.
  intros ((SO & Q) & B & U) T. unfold mid. destruct T as [first|n|d| |tp pl o RD AS PT|pkt f Vp Mp Hp Np Fp|q m body f NR AN GR Hb HF|a b E Na]; cbn [halves fst snd];
    try (split; [apply idles|]).
  - rewrite service_mk. destruct (h_due (t_host t)) eqn:D.
    + destruct (h_bridge (t_host t)) as [i rx|u|l w] eqn:EB.
      * cbn [fst snd]. split; [apply idles|]. destruct (connect_inputs cl cfg (t_host t) i rx WakeInit.CRun) as (is & _ & E1 & _ & _ & E2); [eapply sound_connecting; eauto | exact Logic.I|].
        rewrite (E2 eq_refl), D, socket_cwrites in E1. unfold hstep. rewrite EB. cbv iota. rewrite E1. unfold got. rewrite EB, app_nil_r.
        pose proof (G_connect nm cl cfg may (service_of t) (h_now (t_host t)) (socket (t_host t)) (socket_fine _ B)) as X. cbn [service_of v_bridge v_net v_replied v_asked v_events] in X. rewrite EB in X. exact X.
      * unfold hstep, got. rewrite EB, D. cbv iota. cbn [andb]. destruct (u_mode u) as [|c|] eqn:EM.
        -- rewrite (select_inputs cl cfg first (t_host t) u EM). destruct first; cbn [fst snd orb].
           ++ split; [pose proof (polls (service_of t) (h_now (t_host t))) as X; cbn [service_of v_bridge v_net v_replied v_asked v_events] in X; rewrite EB in X; exact X|].
              destruct (snd (select_panel cl cfg (t_host t) u)); [apply idles|]. cbn [fold_left]. exact (mails (mkService _ _ _ _ _)).
           ++ split; [apply idles|]. destruct (u_rx u) eqn:ER.
              ** pose proof (polls (service_of t) (h_now (t_host t))) as X. cbn [service_of v_bridge v_net v_replied v_asked v_events] in X. rewrite EB in X. exact X.
              ** rewrite app_nil_r. pose proof (mails (service_of t)) as X. cbn [service_of v_bridge v_net v_replied v_asked v_events] in X. rewrite EB in X. exact X.
        -- split; [apply idles|]. pose proof (G_serve nm cl cfg may (service_of t) (SSend (socket (t_host t))) _ ltac:(discriminate) ltac:(discriminate) (S_send _ _ _ _ _ _ (socket_fine _ B))) as X.
           cbn [service_of v_bridge v_net v_replied v_asked v_events] in X. rewrite EB in X. cbn [fst snd]. destruct (run_send _ _) as [w r]. cbn [put h_bridge].
           replace (if first || _ then yielded_by (Up u) (h_now (t_host t)) else []) with (@nil Event); [rewrite app_nil_r; exact X|]. cbn [yielded_by]. rewrite EM. destruct (first || _); reflexivity.
        -- split; [apply idles|]. pose proof (G_serve nm cl cfg may (service_of t) (SSend (socket (t_host t))) _ ltac:(discriminate) ltac:(discriminate) (S_send _ _ _ _ _ _ (socket_fine _ B))) as X.
           cbn [service_of v_bridge v_net v_replied v_asked v_events] in X. rewrite EB in X. cbn [fst snd]. destruct (run_send _ _) as [w r]. cbn [put h_bridge].
           replace (if first || _ then yielded_by (Up u) (h_now (t_host t)) else []) with (@nil Event); [rewrite app_nil_r; exact X|]. cbn [yielded_by]. rewrite EM. destruct (first || _); reflexivity.
      * cbn [fst snd]. split; [apply idles|]. unfold hstep, got. rewrite EB, app_nil_r. rewrite same_service by auto. apply idles.
    + cbn [fst snd]. split; [apply idles|]. rewrite same_service; [apply idles| |].
      * unfold hstep. destruct (h_bridge (t_host t)) as [i rx|u|l w] eqn:EB; [|rewrite D; exact EB | exact EB]. apply connect_same; [eapply sound_connecting; eauto | exact D].
      * unfold got. rewrite D. destruct (h_bridge (t_host t)); apply app_nil_r.
  - replace (service_of (by_act cl cfg t (HRoom n))) with (service_of t); [apply idles|]. unfold service_of, by_act. cbn [t_host t_net t_replied t_asked t_events]. rewrite aside_bridge by eauto. reflexivity.
  - replace (service_of (by_act cl cfg t (HWait d))) with (service_of t); [apply idles|]. unfold service_of, by_act. cbn [t_host t_net t_replied t_asked t_events]. rewrite aside_bridge by eauto. reflexivity.
  - replace (service_of (by_act cl cfg t HWake)) with (service_of t); [apply idles|]. unfold service_of, by_act. cbn [t_host t_net t_replied t_asked t_events]. rewrite aside_bridge by auto. reflexivity.
  - rewrite service_mk, mqtt_bridge. apply G_serve; [discriminate | discriminate|]. exact (S_mqtt cl cfg may [] (service_of t) tp pl o RD AS PT).
  - exact (G_unasked nm cl cfg may (service_of t) pkt f Vp Mp Hp Np Fp).
  - exact (G_reply nm cl cfg may (service_of t) q m body f NR AN GR Hb HF).
  - rewrite service_mk. rewrite E in U. apply u8s_app in U as [Ua Ub]. rewrite arrive_bridge by assumption. apply G_serve; [discriminate | discriminate|].
    exact (S_deliver cl cfg may [] (service_of t) a b E Na).
Qed.

(* moves of C99 that change nothing, put in so that all of its polls keep happening *)
Definition v_connect (t : hosted) : pmove :=
  let h := t_host t in
  if connects (h_bridge h) && (h_due h || (h_room h =? 0)%nat) then PDo SIdle
  else PConnect (h_now h) (if connects (h_bridge h) then socket h else [WAccept 1]).
Definition v_panel (t : hosted) : pmove := let h := t_host t in if h_due h && selecting (h_bridge h) then PDo SIdle else PDo (SPanel (h_now h)).
Definition v_rx (t : hosted) : pmove := let h := t_host t in if selecting (h_bridge h) && negb (no_mail (h_bridge h)) then PDo SIdle else PDo SRx.
Definition v_send (t : hosted) : pmove :=
  let h := t_host t in
  if sending (h_bridge h) && (h_due h || (h_room h =? 0)%nat) then PDo SIdle
  else PDo (SSend (if sending (h_bridge h) then socket h else [WAccept 1])).
Lemma one_ok : Forall write_ok [WAccept 1].
Proof. repeat constructor; discriminate. Qed.
Lemma go_same t v' a : go (service_of t) a v' -> v' = service_of t -> go (service_of t) a (service_of t).
Proof. intros H E. rewrite E in H. exact H. Qed.
Lemma v_connect_go t : tinv t -> go (service_of t) (v_connect t) (service_of t).
Proof.
  intros ((SO & Q) & B & _). unfold v_connect. cbv zeta. destruct (h_bridge (t_host t)) as [i rx|u|l w] eqn:EB; cbn [connects andb].
  - destruct (h_due (t_host t)); cbn [orb]; [apply idles|]. destruct (h_room (t_host t) =? 0)%nat; [apply idles|]. specialize (Q eq_refl).
    eapply go_same; [apply (G_connect nm cl cfg may (service_of t)); apply socket_fine; exact B|]. apply same_service; [|reflexivity]. apply quiet_connect; assumption.
  - eapply go_same; [apply (G_connect nm cl cfg may (service_of t)); apply one_ok|]. apply same_service; [|reflexivity]. cbn [service_of v_bridge]. rewrite EB. reflexivity.
  - eapply go_same; [apply (G_connect nm cl cfg may (service_of t)); apply one_ok|]. apply same_service; [|reflexivity]. cbn [service_of v_bridge]. rewrite EB. reflexivity.
Qed.
Lemma v_panel_go t : tinv t -> go (service_of t) (v_panel t) (service_of t).
Proof.
  intros ((SO & Q) & _). unfold v_panel. cbv zeta. destruct (h_due (t_host t)) eqn:D; cbn [andb].
  - destruct (selecting (h_bridge (t_host t))) eqn:SE; [apply idles|].
    eapply go_same; [apply polls|]. cbn [service_of v_bridge v_net v_replied v_asked v_events]. apply same_service.
    + destruct (h_bridge (t_host t)) as [i rx|u|l w]; try reflexivity. cbn [selecting bstep] in *. destruct (u_mode u); [discriminate | reflexivity..].
    + destruct (h_bridge (t_host t)) as [i rx|u|l w]; cbn [yielded_by selecting] in *; try apply app_nil_r. destruct (u_mode u); [discriminate | apply app_nil_r..].
  - specialize (Q eq_refl). eapply go_same; [apply polls|]. cbn [service_of v_bridge v_net v_replied v_asked v_events]. apply same_service; [apply quiet_panel; assumption | rewrite (quiet_yields cl cfg) by assumption; apply app_nil_r].
Qed.
Lemma v_rx_go t : go (service_of t) (v_rx t) (service_of t).
Proof.
  unfold v_rx. cbv zeta. destruct (selecting (h_bridge (t_host t)) && negb (no_mail (h_bridge (t_host t)))) eqn:E; [apply idles|]. eapply go_same; [apply mails|]. cbn [service_of v_bridge v_net v_replied v_asked v_events].
  apply same_service; [|reflexivity]. destruct (h_bridge (t_host t)) as [i rx|u|l w]; try reflexivity. cbn [selecting no_mail bstep] in *. destruct (u_mode u); try reflexivity. destruct (u_rx u); [reflexivity | discriminate E].
Qed.
Lemma v_send_go t : tinv t -> go (service_of t) (v_send t) (service_of t).
Proof.
  intros ((SO & Q) & B & _). unfold v_send. cbv zeta.
  assert (X : forall ws, Forall write_ok ws -> bstep cl cfg (h_bridge (t_host t)) (PollSend ws) = h_bridge (t_host t) -> go (service_of t) (PDo (SSend ws)) (service_of t)).
  { intros ws W E. eapply go_same; [apply G_serve; [discriminate | discriminate | apply S_send; exact W]|]. apply same_service; [exact E | reflexivity]. }
  destruct (sending (h_bridge (t_host t))) eqn:SE; cbn [andb].
  - destruct (h_due (t_host t)); cbn [orb]; [apply idles|]. destruct (h_room (t_host t) =? 0)%nat; [apply idles|]. specialize (Q eq_refl). apply X; [apply socket_fine; exact B | apply quiet_send; assumption].
  - apply X; [apply one_ok|]. destruct (h_bridge (t_host t)) as [i rx|u|l w]; try reflexivity. cbn [sending bstep] in *. destruct (u_mode u); [reflexivity | discriminate..].
Qed.

(* ---- what holds of it ---- *)
Lemma is_the_program t : turns_to nm cl cfg may t -> gets_to nm cl cfg may (service_of t).
Proof.
  intros H. pose proof H as H2. induction H as [|t a t' H IH T]; [exact (G_new nm cl cfg may)|]. destruct (halves_go t a t' (tinv_all t H) T) as [A B]. eapply G_move; [eapply G_move; [exact (IH H) | exact A] | exact B].
Qed.

(* ---- a fair execution ---- *)
Variables (ts : nat -> hosted) (acts : nat -> hturn).
Hypothesis ON : turns_on nm cl cfg may ts acts.
Lemma on_to n : turns_to nm cl cfg may (ts n).
Proof. destruct ON as [E S]. induction n as [|n IH]; [rewrite E; constructor | econstructor; [exact IH | apply S]]. Qed.
Definition ps (k : nat) : service := if (k mod 6 =? 5)%nat then mid (ts (k / 6)) (acts (k / 6)) else service_of (ts (k / 6)).
Definition pas (k : nat) : pmove :=
  let t := ts (k / 6)%nat in let a := acts (k / 6)%nat in
  match (k mod 6)%nat with 0%nat => v_connect t | 1%nat => v_panel t | 2%nat => v_rx t | 3%nat => v_send t | 4%nat => fst (halves t a) | _ => snd (halves t a) end.
Lemma slot q r : (r < 6)%nat -> ((6 * q + r) / 6)%nat = q /\ ((6 * q + r) mod 6)%nat = r.
Proof. intros L. split; symmetry; [eapply Nat.div_unique | eapply Nat.mod_unique]; eauto. Qed.
Lemma ps_at q r : (r < 6)%nat -> ps (6 * q + r) = if (r =? 5)%nat then mid (ts q) (acts q) else service_of (ts q).
Proof. intros L. unfold ps. destruct (slot q r L) as [-> ->]. reflexivity. Qed.
Lemma pas_at q r : (r < 6)%nat -> pas (6 * q + r) =
  match r with 0%nat => v_connect (ts q) | 1%nat => v_panel (ts q) | 2%nat => v_rx (ts q) | 3%nat => v_send (ts q) | 4%nat => fst (halves (ts q) (acts q)) | _ => snd (halves (ts q) (acts q)) end.
Proof. intros L. unfold pas. destruct (slot q r L) as [-> ->]. reflexivity. Qed.
Lemma ps_start m : ps (6 * m) = service_of (ts m).
Proof. replace (6 * m)%nat with (6 * m + 0)%nat by lia. rewrite ps_at by lia. reflexivity. Qed.
Lemma ps_goes : goes_on nm cl cfg may ps pas.
Proof.
  split; [unfold ps; destruct ON as [E _]; cbn; rewrite E; reflexivity|]. intros k.
  assert (K : k = (6 * (k / 6) + k mod 6)%nat) by (apply Nat.div_mod; lia). assert (L : (k mod 6 < 6)%nat) by (apply Nat.mod_upper_bound; lia). revert K L. generalize (k / 6)%nat (k mod 6)%nat. intros q r -> L.
  pose proof (tinv_all _ (on_to q)) as T. destruct (halves_go _ _ _ T (proj2 ON q)) as [A B]. rewrite pas_at, ps_at by exact L.
  replace (ps (S (6 * q + r))) with (if (r =? 4)%nat then mid (ts q) (acts q) else if (r =? 5)%nat then service_of (ts (S q)) else service_of (ts q)).
  - destruct r as [|[|[|[|[|[|]]]]]]; cbn [Nat.eqb]; [apply v_connect_go; exact T | apply v_panel_go; exact T | apply v_rx_go | apply v_send_go; exact T | exact A | exact B | lia].
  - destruct (Nat.eq_dec r 5) as [->|N]; [replace (S (6 * q + 5)) with (6 * S q)%nat by lia; rewrite ps_start; reflexivity|].
    replace (S (6 * q + r)) with (6 * q + S r)%nat by lia. rewrite ps_at by lia. destruct r as [|[|[|[|[|[|]]]]]]; try reflexivity; lia.
Qed.
Lemma wait_turn t a t' : tinv t -> turns t a t' -> (forall first, a <> URun first) -> h_due (t_host t) = true ->
  h_due (t_host t') = true /\ (h_room (t_host t) <= h_room (t_host t'))%nat /\ connects (h_bridge (t_host t')) = connects (h_bridge (t_host t)) /\ sending (h_bridge (t_host t')) = sending (h_bridge (t_host t)).
Proof.
  intros ((SO & _) & _ & U) T N D. assert (O : forall x, hact_ok x -> (forall f, x <> HRun f) -> (forall e, x <> HBreak e) -> h_due (hstep cl cfg (t_host t) x) = true /\ (h_room (t_host t) <= h_room (hstep cl cfg (t_host t) x))%nat).
  { intros x _ NR NB. unfold hstep. destruct (h_bridge (t_host t)) as [i rx|u|l w]; [| |auto].
    - destruct x as [x|[|n]|e|d|tp pl| | |f]; try (elim (NB _ eq_refl)); try (elim (NR _ eq_refl)); unfold connect_step, client_of; cbn; rewrite ?D; cbn; split; try reflexivity; lia.
    - assert (W : forall b, from_outside b -> h_due (outside (t_host t) u b) = true /\ (h_room (t_host t) <= h_room (outside (t_host t) u b))%nat).
      { intros b F. unfold outside. destruct (wstep _ b) as [[[w o] ks]|e|y] eqn:E; [|auto..]. cbn [put h_due h_room]. rewrite D. split; [reflexivity|].
        destruct b as [x2|[|n]|e|d| | | | |]; try contradiction; cbn in E; [..|destruct (pending_arm _) as [[dl r]|]; [destruct (dl <=? _)|]]; injection E as <- _ _; cbn; lia. }
      destruct x as [x|n|e|d|tp pl| | |f]; try (elim (NB _ eq_refl)); try (elim (NR _ eq_refl)); try (apply W; exact Logic.I); cbn; rewrite ?D; split; try reflexivity; lia. }
  destruct T as [first|n|d| |tp pl o RD AS PT|pkt f Vp Mp Hp Np Fp|q m body f NR AN GR Hb HF|a b E Na]; unfold by_act; cbn [t_host].
  - elim (N first eq_refl).
  - destruct (O (HRoom n)); try discriminate; [exact Logic.I|]. rewrite aside_bridge by eauto. auto.
  - destruct (O (HWait d)); try discriminate; [exact Logic.I|]. rewrite aside_bridge by eauto. auto.
  - destruct (O HWake); try discriminate; [exact Logic.I|]. rewrite aside_bridge by eauto. auto.
  - destruct (O (HMqtt tp pl)); try discriminate; [exact Logic.I|]. rewrite mqtt_bridge. destruct (h_bridge (t_host t)); auto.
  - auto.
  - auto.
  - rewrite E in U. apply u8s_app in U as [Ua Ub]. destruct (O (HArrive (Bytes a))); try discriminate; [exact Ua|]. rewrite arrive_bridge by assumption. destruct (h_bridge (t_host t)); auto.
Qed.
Hypothesis FAIR : fair_host ts acts.
Section Fair.
Hypothesis TI : forall n, tinv (ts n).
Hypothesis WT : forall n, (forall first, acts n <> URun first) -> h_due (t_host (ts n)) = true ->
  h_due (t_host (ts (S n))) = true /\ (h_room (t_host (ts n)) <= h_room (t_host (ts (S n))))%nat /\
  connects (h_bridge (t_host (ts (S n)))) = connects (h_bridge (t_host (ts n))) /\ sending (h_bridge (t_host (ts (S n)))) = sending (h_bridge (t_host (ts n))).
(* once it is due, it is run before it gets anywhere else *)
Lemma is_run n : h_due (t_host (ts n)) = true -> exists m first, (n <= m)%nat /\ acts m = URun first /\ h_due (t_host (ts m)) = true /\
  (h_room (t_host (ts n)) <= h_room (t_host (ts m)))%nat /\ connects (h_bridge (t_host (ts m))) = connects (h_bridge (t_host (ts n))) /\ sending (h_bridge (t_host (ts m))) = sending (h_bridge (t_host (ts n))).
Proof.
  intros D. destruct FAIR as [F _]. destruct (F true n) as (m0 & L & R). remember (m0 - n)%nat as k eqn:EK. revert n D L EK. induction k as [|k IH]; intros n D L EK.
  - assert (m0 = n) by lia. subst m0. destruct R as [R|R]; [|congruence]. exists n, true. repeat split; auto.
  - assert (X : (exists f, acts n = URun f) \/ forall f, acts n <> URun f) by (destruct (acts n); eauto; right; discriminate).
    destruct X as [(f & E)|N]; [exists n, f; repeat split; auto|].
    destruct (WT n N D) as (D2 & R2 & C2 & S2). destruct (IH (S n) D2 ltac:(lia) ltac:(lia)) as (m & f & H1 & H2 & H3 & H4 & H5 & H6).
    exists m, f. split; [lia|]. split; [exact H2|]. split; [exact H3|]. split; [lia|]. split; congruence.
Qed.
Lemma socket_room h : h_broken h = None -> h_room h <> 0%nat -> exists k ws, socket h = WAccept (S k) :: ws.
Proof. intros B R. unfold socket. rewrite B. destruct (h_room h) as [|k]; [congruence | eauto]. Qed.
Lemma ps_fair_gen : fair_program ps pas.
Proof.
  pose proof FAIR as (F1 & F2 & F3 & F4). split; [|split; [|split; [|split; [|split]]]]; intros n.
  - destruct (F2 n) as (m1 & L1 & R1). pose proof (TI m1) as ((SO & Q) & B & _). destruct (connects (h_bridge (t_host (ts m1)))) eqn:C.
    + destruct (h_due (t_host (ts m1))) eqn:D.
      * destruct (is_run m1 D) as (m & f & L & A & D2 & R2 & C2 & _). pose proof (TI m) as (_ & B2 & _). destruct (socket_room (t_host (ts m)) B2 ltac:(lia)) as (k & ws & E).
        exists (6 * m + 5)%nat. split; [lia|]. left. rewrite pas_at by lia. rewrite A. cbn [halves snd]. rewrite D2. rewrite C in C2. destruct (h_bridge (t_host (ts m))); try discriminate C2. cbn [snd]. rewrite E. eauto.
      * destruct (socket_room (t_host (ts m1)) B R1) as (k & ws & E). exists (6 * m1 + 0)%nat. split; [lia|]. left. rewrite pas_at by lia. unfold v_connect. rewrite C, D, E. cbn [andb orb].
        destruct (h_room (t_host (ts m1)) =? 0)%nat eqn:Z; [lia|]. eauto.
    + exists (6 * m1)%nat. split; [lia|]. right. rewrite ps_start. intros (i & rx & E). cbn [service_of v_bridge] in E. rewrite E in C. discriminate C.
  - destruct (F1 true n) as (m & L & R). destruct (h_due (t_host (ts m)) && selecting (h_bridge (t_host (ts m)))) eqn:C.
    + apply andb_prop in C as [D C]. destruct R as [A|R]; [|congruence]. exists (6 * m + 4)%nat. eexists. split; [lia|]. rewrite pas_at by lia. rewrite A. cbn [halves]. rewrite D.
      destruct (h_bridge (t_host (ts m))) as [|u|]; try discriminate C. cbn [selecting] in C. destruct (u_mode u); try discriminate C. reflexivity.
    + exists (6 * m + 1)%nat. eexists. split; [lia|]. rewrite pas_at by lia. unfold v_panel. rewrite C. reflexivity.
  - destruct (F1 false n) as (m & L & R). destruct (selecting (h_bridge (t_host (ts m))) && negb (no_mail (h_bridge (t_host (ts m))))) eqn:C.
    + apply andb_prop in C as [C M]. assert (D : h_due (t_host (ts m)) = true).
      { destruct (h_due (t_host (ts m))) eqn:D; [reflexivity|]. pose proof (TI m) as ((SO & Q) & _). specialize (Q D). unfold quiet in Q.
        destruct (h_bridge (t_host (ts m))) as [|u|]; try discriminate C. cbn [selecting no_mail] in *. destruct (u_mode u); try discriminate C. destruct Q as (Q & _). rewrite Q in M. discriminate M. }
      destruct R as [A|R]; [|congruence]. exists (6 * m + 5)%nat. split; [lia|]. rewrite pas_at by lia. rewrite A. cbn [halves]. rewrite D.
      destruct (h_bridge (t_host (ts m))) as [|u|]; try discriminate C. cbn [selecting no_mail] in *. destruct (u_mode u); try discriminate C. destruct (u_rx u); [discriminate M | reflexivity].
    + exists (6 * m + 2)%nat. split; [lia|]. rewrite pas_at by lia. unfold v_rx. rewrite C. reflexivity.
  - destruct (F2 n) as (m1 & L1 & R1). pose proof (TI m1) as ((SO & Q) & B & _). destruct (sending (h_bridge (t_host (ts m1)))) eqn:C.
    + destruct (h_due (t_host (ts m1))) eqn:D.
      * destruct (is_run m1 D) as (m & f & L & A & D2 & R2 & _ & C2). pose proof (TI m) as (_ & B2 & _). destruct (socket_room (t_host (ts m)) B2 ltac:(lia)) as (k & ws & E).
        exists (6 * m + 5)%nat, k, ws. split; [lia|]. rewrite pas_at by lia. rewrite A. cbn [halves snd]. rewrite D2. rewrite C in C2. destruct (h_bridge (t_host (ts m))) as [|u|]; try discriminate C2. cbn [sending] in C2.
        destruct (u_mode u); try discriminate C2; cbn [snd]; rewrite E; reflexivity.
      * destruct (socket_room (t_host (ts m1)) B R1) as (k & ws & E). exists (6 * m1 + 3)%nat, k, ws. split; [lia|]. rewrite pas_at by lia. unfold v_send. rewrite C, D, E. cbn [andb orb].
        destruct (h_room (t_host (ts m1)) =? 0)%nat eqn:Z; [lia | reflexivity].
    + exists (6 * m1 + 3)%nat, 0%nat, []. split; [lia|]. rewrite pas_at by lia. unfold v_send. rewrite C. reflexivity.
  - destruct (F3 n) as (m & L & [A|R]).
    + exists (6 * m + 5)%nat. split; [lia|]. left. rewrite pas_at by lia. rewrite A. reflexivity.
    + exists (6 * m)%nat. split; [lia|]. right. rewrite ps_start. exact R.
  - destruct (F4 n) as (m & L & [A|R]).
    + exists (6 * m + 5)%nat. split; [lia|]. left. rewrite pas_at by lia. rewrite A. reflexivity.
    + exists (6 * m)%nat. split; [lia|]. right. rewrite ps_start. exact R.
Qed.
End Fair.
Lemma ps_fair : fair_program ps pas.
Proof. apply ps_fair_gen; [intros n; apply tinv_all, on_to|]. intros n N D. exact (wait_turn _ _ _ (tinv_all _ (on_to n)) (proj2 ON n) N D). Qed.
End Turns.

(* With a panel and MQTT clients it goes through states of C99's program, so that all that C99 says holds here too. *)
Theorem C100_is_the_program : forall nm cl cfg (may : packet -> Prop) t, turns_to nm cl cfg may t -> gets_to nm cl cfg may (service_of t).
Proof. exact is_the_program. Qed.
(* When it is not due it has come up or waits for the panel's socket; it never sits on a command to send waiting for a reply, which only
   its own polling of the panel could bring. *)
Theorem C100_sleeps_well : forall nm cl cfg (may : packet -> Prop) t, well_configured cl cfg -> turns_to nm cl cfg may t -> h_due (t_host t) = false ->
  nothing_to_do (t_host t) /\ ~ awaits_reply (t_host t) /\ can_be_woken cl cfg (t_host t).
Proof.
  intros nm cl cfg may t W T D. destruct (tinv_all nm cl cfg may t T) as ((SO & Q) & _). specialize (Q D). split; [eapply quiet_nothing; eauto|]. split; [|apply quiet_woken; auto].
  intros (u & c & E & M & O). destruct (C99_in_order nm cl cfg may _ W (is_the_program nm cl cfg may t T)) as (rx & os & out & [((i & EI) & _)|(u2 & EU & _ & EO)] & _ & _ & L); cbn [service_of v_bridge] in *; [congruence|].
  rewrite E in EU. injection EU as <-. unfold waiting in EO. rewrite M in EO. apply O. destruct (outstanding (u_panel u)); [reflexivity|]. subst out. cbn [app length map] in L. rewrite app_length in L. cbn [length] in L. lia.
Qed.
(* Run only when woken, it comes up and stays up, and every command asked for is completed, in order. *)
Theorem C100_all_completed : forall nm cl cfg (may : packet -> Prop) ts acts k, well_configured cl cfg -> turns_on nm cl cfg may ts acts -> fair_host ts acts ->
  exists n, forall m, (n <= m)%nat -> exists u later, h_bridge (t_host (ts m)) = Up u /\
    In (APublish (topic_prefix cfg ++ B "/availability") true (PText (B "online"))) (u_log u) /\
    completed (t_events (ts m)) = map into_msg (t_asked (ts k)) ++ later.
Proof.
  intros nm cl cfg may ts acts k W ON FAIR. destruct (C99_all_completed nm cl cfg may (ps cl cfg ts acts) (pas cl cfg ts acts) (6 * k)%nat W (ps_goes nm cl cfg may ts acts ON) (ps_fair nm cl cfg may ts acts ON FAIR)) as (n & H).
  exists n. intros m L. destruct (H (6 * m)%nat ltac:(lia)) as (u & later & E1 & E2 & E3). rewrite !ps_start in *. exists u, later. auto.
Qed.

(* The configuration of PropMqtt.v and the panel of PropConnect.v, as in C99_example, with the task run only when it is due.  The first
   request is written in two pieces, for want of room; arming away is asked for before the bridge is connected, and written in two pieces,
   while a zone changes; then disarming is asked for. *)
Inductive tmv : Type := ZRun (first : bool) | ZRoom (n : nat) | ZWait (d : N) | ZWake | ZArm | ZDisarm | ZOther | ZUnasked | ZReply | ZDeliver (n : nat).
Definition z_mqtt (z : tmv) : smv := match z with ZArm => YArm | ZDisarm => YDisarm | _ => YOther end.
Definition tgo (t : hosted) (z : tmv) : hosted :=
  let pub := let '(tp, pl, o) := ex_publish (z_mqtt z) in
    mkHosted (hstep ex_cl ex_cfg (t_host t) (HMqtt tp pl)) (t_net t) (t_replied t) (t_asked t ++ catMaybes [o]) (t_events t) in
  match z with
  | ZRun first => mkHosted (hstep ex_cl ex_cfg (t_host t) (HRun first)) (t_net t) (t_replied t) (t_asked t) (t_events t ++ got (t_host t) first)
  | ZRoom n => by_act ex_cl ex_cfg t (HRoom n) | ZWait d => by_act ex_cl ex_cfg t (HWait d) | ZWake => by_act ex_cl ex_cfg t HWake
  | ZArm => pub | ZDisarm => pub | ZOther => pub
  | ZUnasked => mkHosted (t_host t) (t_net t ++ bytes_of ex_extra) (t_replied t) (t_asked t) (t_events t)
  | ZReply => mkHosted (t_host t) (t_net t ++ bytes_of (panel_answer (service_of t))) (S (t_replied t)) (t_asked t) (t_events t)
  | ZDeliver n => mkHosted (hstep ex_cl ex_cfg (t_host t) (HArrive (Bytes (firstn n (t_net t))))) (skipn n (t_net t)) (t_replied t) (t_asked t) (t_events t)
  end.
Definition turn_of (z : tmv) : hturn :=
  match z with
  | ZRun first => URun first | ZRoom n => URoom n | ZWait d => UWait d | ZWake => UWake | ZUnasked => UUnasked | ZReply => UReply | ZDeliver _ => UDeliver
  | _ => UMqtt (fst (fst (ex_publish (z_mqtt z)))) (snd (fst (ex_publish (z_mqtt z))))
  end.
Definition can_turn (t : hosted) (z : tmv) : bool :=
  match z with
  | ZArm | ZDisarm => Nat.eqb (length (t_asked t)) (length (completed (t_events t)))
  | ZReply => can_go (service_of t) (QDo YReply)
  | ZDeliver n => negb (bytes_eqb (firstn n (t_net t)) [])
  | _ => true
  end.
Fixpoint can_turns (t : hosted) (zs : list tmv) : bool := match zs with [] => true | z :: zs' => can_turn t z && can_turns (tgo t z) zs' end.
Definition ex_turns : list tmv :=
  [ZRun true; ZUnasked; ZArm; ZRoom 5; ZRun true; ZRun true; ZRoom 94] ++ concat (repeat (repeat (ZRun true) 5 ++ [ZReply; ZDeliver 999]) 7) ++
  [ZRun true; ZRun true; ZRun true; ZUnasked; ZDeliver 3; ZRun true; ZRoom 100; ZRun true; ZRun true; ZReply; ZDeliver 20; ZRun false; ZRun true; ZDeliver 99; ZRun true;
   ZOther; ZRun true; ZRun true; ZDisarm; ZWait 5; ZRun false; ZRun true; ZRun false; ZReply; ZWake; ZRun true; ZDeliver 99; ZRun true; ZRun true].
Definition ex_last : hosted := Eval vm_compute in fold_left tgo ex_turns hosted_new.
Definition ex_host (n : nat) : hosted := if (n <? length ex_turns)%nat then fold_left tgo (firstn n ex_turns) hosted_new else ex_last.
Definition ex_turn (n : nat) : tmv := nth n ex_turns (ZRun (Nat.even n)).
Lemma can_turn_turns t z : can_turn t z = true -> hturns ex_naming ex_cl ex_cfg ex_may t (turn_of z) (tgo t z).
Proof.
  intros H. destruct z as [f|n|d| | | | | | |n]; cbn [can_turn turn_of tgo] in *; try (constructor; fail).
  - apply Nat.eqb_eq in H. apply U_mqtt; [left; reflexivity | exact (proj1 ex_arms) | auto].
  - apply Nat.eqb_eq in H. apply U_mqtt; [left; reflexivity | exact (proj2 ex_arms) | auto].
  - apply U_mqtt; [left; reflexivity| |intros X; elim X; reflexivity]. intros c (a & n & l & k & HI & E & _). cbn [fst ex_publish] in E. discriminate E.
  - pose proof (can_goes (service_of t) (QDo YUnasked) eq_refl) as G. cbn [pmove_of smove_of pgo sgo] in G. inversion G as [|a v' N1|pkt f V1 V2 V3 V4 V5 E1|]; subst; [elim N1; reflexivity|].
    apply app_inv_head in H0. subst f. exact (U_unasked _ _ _ _ t pkt _ V1 V2 V3 V4 V5).
  - pose proof (can_goes (service_of t) (QDo YReply) H) as G. cbn [pmove_of smove_of pgo sgo] in G. inversion G as [|a v' N1 N2| |q m body f V1 V2 V3 V4 V5 E1]; subst; [elim N2; reflexivity|].
    apply app_inv_head in H0. subst f. exact (U_reply _ _ _ _ t q m body _ V1 V2 V3 V4 V5).
  - apply U_deliver; [symmetry; apply firstn_skipn|]. intros E. rewrite E in H. discriminate H.
Qed.
Lemma can_turns_turns zs : forall t n z, can_turns t zs = true -> nth_error zs n = Some z ->
  hturns ex_naming ex_cl ex_cfg ex_may (fold_left tgo (firstn n zs) t) (turn_of z) (fold_left tgo (firstn (S n) zs) t).
Proof.
  induction zs as [|x zs IH]; intros t n z H E; [destruct n; discriminate|]. cbn [can_turns] in H. apply andb_true_iff in H as [H1 H2]. destruct n as [|n].
  - injection E as ->. cbn [firstn fold_left]. apply can_turn_turns. exact H1.
  - rewrite !firstn_cons. cbn [fold_left]. apply IH; assumption.
Qed.
Lemma ex_host_last n : (length ex_turns <= n)%nat -> ex_host n = ex_last.
Proof. intros L. unfold ex_host. destruct (Nat.ltb_spec n (length ex_turns)); [lia | reflexivity]. Qed.
Lemma ex_turns_go n : hturns ex_naming ex_cl ex_cfg ex_may (ex_host n) (turn_of (ex_turn n)) (ex_host (S n)).
Proof.
  assert (C : can_turns hosted_new ex_turns = true) by (vm_compute; reflexivity). destruct (Nat.ltb_spec n (length ex_turns)) as [L|L].
  - assert (E : ex_host (S n) = fold_left tgo (firstn (S n) ex_turns) hosted_new).
    { unfold ex_host. destruct (Nat.ltb_spec (S n) (length ex_turns)) as [L'|L']; [reflexivity|]. rewrite firstn_all2 by exact L'. vm_compute. reflexivity. }
    rewrite E. unfold ex_host. destruct (Nat.ltb_spec n (length ex_turns)) as [_|L']; [|lia]. apply can_turns_turns; [exact C|]. unfold ex_turn. apply nth_error_nth'. exact L.
  - rewrite !ex_host_last by lia. unfold ex_turn. rewrite nth_overflow by lia. replace ex_last with (tgo ex_last (ZRun (Nat.even n))) at 2; [apply can_turn_turns; reflexivity|]. destruct (Nat.even n); vm_compute; reflexivity.
Qed.
Example C100_example : well_configured ex_cl ex_cfg /\ turns_on ex_naming ex_cl ex_cfg ex_may ex_host (fun n => turn_of (ex_turn n)) /\
  fair_host ex_host (fun n => turn_of (ex_turn n)) /\ (forall n, turns_to ex_naming ex_cl ex_cfg ex_may (ex_host n)) /\
  (* it sleeps while connecting, with a request half written; while flushing a command; and in its loop, at the end *)
  h_due (t_host (ex_host 6)) = false /\ connecting (h_bridge (t_host (ex_host 6))) /\ t_asked (ex_host 6) = firstn 1 ex_asked /\
  h_due (t_host (ex_host 59)) = false /\ sending (h_bridge (t_host (ex_host 59))) = true /\ h_due (t_host (ex_host 63)) = true /\
  h_due (t_host ex_last) = false /\ selecting (h_bridge (t_host ex_last)) = true /\
  completed (t_events ex_last) = map into_msg ex_asked /\ length (t_events ex_last) = 3%nat.
Proof.
  split; [exact (proj1 C99_example)|]. split; [split; [reflexivity | exact ex_turns_go]|]. split; [|split].
  - split; [|split; [|split]].
    + intros first n. exists (n + length ex_turns)%nat. split; [lia|]. right. rewrite ex_host_last by lia. reflexivity.
    + intros n. exists (n + length ex_turns)%nat. split; [lia|]. rewrite ex_host_last by lia. vm_compute. discriminate.
    + intros n. exists (n + length ex_turns)%nat. split; [lia|]. right. intros q (qs & fs & rest & F & E & L). rewrite ex_host_last in E, L by lia.
      assert (E2 : put_by (v_bridge (service_of ex_last)) = concat (map bytes_of all_requests) ++ []) by (vm_compute; reflexivity).
      rewrite E2 in E. cbn [app] in E.
      destruct (requests_unique _ _ (ex_frames _ all_requests_ok) _ _ _ _ F E) as (c & EC); [constructor | reflexivity|].
      apply (f_equal (@length _)) in EC. rewrite !app_length, L in EC. vm_compute in EC. lia.
    + intros n. exists (n + length ex_turns)%nat. split; [lia|]. right. rewrite ex_host_last by lia. reflexivity.
  - induction n as [|n IH]; [constructor | exact (U_turn _ _ _ _ _ _ _ IH (ex_turns_go n))].
  - split; [vm_compute; reflexivity|]. split.
    + assert (E : connects (h_bridge (t_host (ex_host 6))) = true) by (vm_compute; reflexivity). destruct (h_bridge (t_host (ex_host 6))) as [i rx| |]; try discriminate E. exists i, rx. reflexivity.
    + do 7 (split; [vm_compute; reflexivity|]). vm_compute; reflexivity.
Qed.
(* The network may also behave differently, in any way: here the socket takes two bytes, then breaks. *)
Example C100_example_any : let l := [HRun true; HRoom 2; HMqtt ex_topic (B "ARM_AWAY"); HRun false] in
  Forall hact_ok l /\ h_due (hrun ex_cl ex_cfg l) = false /\ h_mail l = [(ex_topic, B "ARM_AWAY")] /\
  h_due (hrun ex_cl ex_cfg (l ++ [HArrive (Bytes (B "x"))])) = false /\ h_due (hrun ex_cl ex_cfg (l ++ [HBreak "Broken pipe"])) = true /\
  exists log why, h_bridge (hrun ex_cl ex_cfg (l ++ [HBreak "Broken pipe"; HRun true])) = Dead log why.
Proof. cbv zeta. split; [repeat constructor|]. do 4 (split; [vm_compute; reflexivity|]). eexists _, _. vm_compute. reflexivity. Qed.

Print Assumptions C100_is_the_bridge.
Print Assumptions C100_no_lost_wakeup.
Print Assumptions C100_is_woken.
Print Assumptions C100_is_the_program.
Print Assumptions C100_sleeps_well.
Print Assumptions C100_all_completed.
