(* PropEvery.v: C103 and C105: everything the panel sends is told. *)
From Verif Require Import Base BaseFacts Pkt SpecPkt PktFacts DecodeFacts Msg SpecMsg DecFacts MsgFacts WireFacts IsoFacts
  PropMsg Tokio SpecConn ConnFacts State SpecState StateFacts RunFacts HistFacts ViewFacts ExState PropState PropSink PropLive
  Serde SerdeFacts PropSerde SpecInit InitFacts PropConnect SpecSend SendFacts PropSend Mqtt SpecMqtt MqttFacts PropMqtt PropEnd SpecServe ServeFacts PropServe
  SpecProgram ProgramFacts PropProgram.
From Verif Require SpecWakeInit PropWakeInit PropTasks PropFail PropRest PropBuffer.
From Verif Require Import Wake PropWake WakeBridge SpecHost HostFacts PropHost SpecAny PropAny SpecEvery.
From Coq Require Import ZifyBool ZifyNat ZifyN.
Ltac Zify.zify_post_hook ::= Z.div_mod_to_equations.

Lemma skipn_firstn_app {A} (a b : list A) : firstn (length (a ++ b) - length b) (a ++ b) = a.
Proof. rewrite app_length. replace (length a + length b - length b)%nat with (length a + 0)%nat by lia. rewrite firstn_app_2. cbn. apply app_nil_r. Qed.
Lemma same_events pre : forall es es' log,
  Forall2 (fun e a => exists j, Event_ser e = Ok j /\ Event_de FromText j = Ok e /\ a = APublish pre false (PJson j)) es log ->
  Forall2 (fun e a => exists j, Event_ser e = Ok j /\ Event_de FromText j = Ok e /\ a = APublish pre false (PJson j)) es' log -> es = es'.
Proof.
  intros es es' log F. revert es'. induction F as [|e a es log (j & _ & E2 & ->) F IH]; intros es' F'; inversion F' as [|e' a' es2 log2 (j' & _ & E2' & EA) F2]; subst; [reflexivity|].
  injection EA as <-. assert (e' = e) by congruence. subst e'. f_equal. apply IH. exact F2.
Qed.
Lemma prefix_drain a b pa la pb lb : u8s (a ++ b) -> drain a = Ok (pa, la) -> drain (a ++ b) = Ok (pb, lb) -> exists r, pb = pa ++ r.
Proof.
  intros U Da Db. pose proof U as U2. apply u8s_app in U2 as [Ua Ub]. apply drain_iff in Da; [|exact Ua]. apply drain_iff in Db; [|exact U].
  assert (Ul : u8s la). { clear -Da Ua. induction Da as [src D|src p rest ps left D R IH]; [exact Ua|]. apply IH. destruct (decode_some_inv _ _ _ Ua D) as (raw & E & _). rewrite E in Ua. apply u8s_app in Ua. tauto. }
  destruct (drain_total (la ++ b)) as (r & l & _ & D); [apply u8s_app; auto|]. exists r.
  destruct (drains_det _ _ _ Db _ _ (drains_app _ _ _ Da Ua b r l Ub D)) as [-> _]. reflexivity.
Qed.
Lemma up_or_dead cl cfg u x : (exists u2, bstep cl cfg (Up u) x = Up u2) \/ exists l w, bstep cl cfg (Up u) x = Dead l w.
Proof.
  destruct (bstep cl cfg (Up u) x) as [i rx|u2|l w] eqn:E; eauto. exfalso. assert (G : forall ws u, poll_send_flush ws u <> Connecting i rx).
  { intros ws u0. unfold poll_send_flush. destruct (poll_flush ws (u_panel u0)) as [p [|[[]|e]]]; discriminate. }
  destruct x as [a|t pl| |now ws|now| |ws]; cbn [bstep] in E; try discriminate E; destruct (u_mode u); try discriminate E.
  - destruct (poll_next now (u_panel u)) as [[[p [|[[e|e]|]]] k]|e|w]; try discriminate E. unfold settle in E. destruct (handle_event cl cfg p e) as [l [c|er|w]]; discriminate E.
  - destruct (u_rx u) as [|[t pl] q]; [discriminate E|]. destruct (requested _ _ _ _ _) as [[c|]|e|w]; discriminate E.
  - destruct (poll_ready TASK ws (u_panel u)) as [p [|[[]|e]]]; try discriminate E. destruct (start_send _ p) as [p'|e|w]; try discriminate E. exact (G _ _ E).
  - exact (G _ _ E).
Qed.

Section Run.
Variables (nm : naming) (cl : client) (cfg : Cfg) (may : packet -> Prop) (ts : nat -> hosted) (acts : nat -> hturn).
Hypothesis ON : host_any nm cl cfg may ts acts.
Notation arrived := (arrived_by ts acts).
Notation sent := (sent_by ts acts).
Lemma at_turn n : turns_to_any nm cl cfg may (ts n).
Proof. exact (host_to nm cl cfg may ts acts ON n). Qed.

(* ---- bytes ---- *)
Lemma sent_on n : exists x, sent (S n) = sent n ++ x /\ (acts n = UDeliver -> (length (arrived n) < length (arrived (S n)))%nat).
Proof.
  unfold sent_by. cbn [arrived_by]. pose proof (proj2 ON n) as T. destruct T as [a0 t0 T|tp pl o RD AS]; [destruct T as [first|k|d| |tp pl o RD AS PT|pkt f Vp Mp Hp Np Fp|q m body f NR AN GR Hb HF|a b E Na]|]; unfold by_act; cbn [delivered t_net];
    try (exists []; rewrite !app_nil_r; split; [reflexivity | discriminate]).
  - exists f. rewrite app_nil_r, app_assoc. split; [reflexivity | discriminate].
  - exists f. rewrite app_nil_r, app_assoc. split; [reflexivity | discriminate].
  - exists []. rewrite E, skipn_firstn_app, !app_nil_r, app_assoc. split; [reflexivity|]. intros _. rewrite app_length. destruct a; [congruence | cbn [length]; lia].
Qed.
Lemma sent_later n d : exists x, sent (d + n) = sent n ++ x.
Proof.
  induction d as [|d (x & IH)]; [exists []; rewrite app_nil_r; reflexivity|]. destruct (sent_on (d + n)) as (y & E & _). exists (x ++ y). cbn [Nat.add]. rewrite E, IH, app_assoc. reflexivity.
Qed.
Lemma arrived_later n d : exists x, arrived (d + n) = arrived n ++ x.
Proof.
  induction d as [|d (x & IH)]; [exists []; rewrite app_nil_r; reflexivity|]. cbn [Nat.add arrived_by]. rewrite IH, <- app_assoc. eexists. reflexivity.
Qed.
(* what the panel sends are packets *)
Lemma sent_spells n : exists ps, spells (sent n) ps.
Proof.
  induction n as [|n (ps & fs & V & F & E)].
  - exists [], []. split; [constructor|]. split; [constructor|]. unfold sent_by. cbn [arrived_by]. rewrite (proj1 ON). reflexivity.
  - assert (Add : forall pkt f, valid_packet pkt -> frame_of pkt f -> sent (S n) = sent n ++ f -> exists ps, spells (sent (S n)) ps).
    { intros pkt f Vp Fp ES. exists (ps ++ [pkt]), (fs ++ [f]). split; [apply Forall_app; auto|]. split; [apply Forall2_app; auto|]. rewrite ES, E, concat_app. cbn. rewrite app_nil_r. reflexivity. }
    assert (Same : sent (S n) = sent n -> exists ps, spells (sent (S n)) ps) by (intros ES; exists ps, fs; rewrite ES; auto).
    unfold sent_by in *. cbn [arrived_by] in *. pose proof (proj2 ON n) as T.
    destruct T as [a0 t0 T|tp pl o RD AS]; [destruct T as [first|k|d| |tp pl o RD AS PT|pkt f Vp Mp Hp Np Fp|q m body f NR AN GR Hb HF|a b EN Na]|]; unfold by_act in *; cbn [delivered t_net] in *; try (apply Same; rewrite app_nil_r; reflexivity).
    + eapply Add; [exact Vp | exact Fp | rewrite app_nil_r, app_assoc; reflexivity].
    + eapply (Add (PAscii body)); [exact Hb | exact HF | rewrite app_nil_r, app_assoc; reflexivity].
    + apply Same. rewrite EN, skipn_firstn_app, app_assoc. reflexivity.
Qed.
Lemma sent_u8 n : u8s (sent n).
Proof. destruct (sent_spells n) as (ps & fs & V & F & ->). eapply frames_u8; eauto. Qed.
Lemma arrived_bytes n : u8s (arrived n).
Proof. pose proof (sent_u8 n) as U. apply u8s_app in U. tauto. Qed.

(* ---- the turns as inputs of the bridge ---- *)
Lemma turn_inputs n : exists is, Forall input_ok is /\ h_bridge (t_host (ts (S n))) = fold_left (bstep cl cfg) is (h_bridge (t_host (ts n))) /\ net_in is = delivered (acts n) (ts n) (ts (S n)).
Proof.
  destruct (tinv_any nm cl cfg may _ (at_turn n)) as ((SO & _) & _ & U). pose proof (proj2 ON n) as T.
  assert (G : forall x, hact_ok x -> exists is, Forall input_ok is /\ h_bridge (hstep cl cfg (t_host (ts n)) x) = fold_left (bstep cl cfg) is (h_bridge (t_host (ts n))) /\ net_in is = match x with HArrive a => arrival_data a | _ => [] end).
  { intros x O. destruct (hstep_inputs cl cfg _ x O SO) as (is & F & E & _ & N). exists is. rewrite N. unfold h_bytes. cbn [map concat]. rewrite app_nil_r. auto. }
  destruct T as [a0 t0 T|tp pl o RD AS]; [destruct T as [first|k|d| |tp pl o RD AS PT|pkt f Vp Mp Hp Np Fp|q m body f NR AN GR Hb HF|a b E Na]|]; unfold by_act; cbn [delivered t_host t_net].
  - exact (G (HRun first) Logic.I).
  - exact (G (HRoom k) Logic.I).
  - exact (G (HWait d) Logic.I).
  - exact (G HWake Logic.I).
  - exact (G (HMqtt tp pl) Logic.I).
  - exists []. repeat split; constructor.
  - exists []. repeat split; constructor.
  - rewrite E in U. apply u8s_app in U as [Ua Ub]. rewrite E, skipn_firstn_app. exact (G (HArrive (Bytes a)) Ua).
  - exact (G (HMqtt tp pl) Logic.I).
Qed.
Lemma inputs_from is n d : bridge_after cl cfg is (h_bridge (t_host (ts n))) -> net_in is = arrived n ->
  exists is2, bridge_after cl cfg (is ++ is2) (h_bridge (t_host (ts (d + n)))) /\ net_in (is ++ is2) = arrived (d + n).
Proof.
  intros A N. induction d as [|d (is2 & (F & E) & N2)]; [exists []; rewrite app_nil_r; auto|].
  destruct (turn_inputs (d + n)) as (is3 & F3 & E3 & N3). exists (is2 ++ is3). rewrite app_assoc. split; [split|].
  - apply Forall_app; auto.
  - cbn [Nat.add]. rewrite E3, <- E. unfold brun. rewrite fold_left_app. reflexivity.
  - rewrite PropMqtt.net_in_app, N2, N3. reflexivity.
Qed.
Lemma inputs_at n : exists is, bridge_after cl cfg is (h_bridge (t_host (ts n))) /\ net_in is = arrived n.
Proof.
  destruct (inputs_from [] 0 n) as (is & A & N); [split; [constructor | rewrite (proj1 ON); reflexivity] | reflexivity|]. rewrite Nat.add_0_r in *. exists is. auto.
Qed.

(* ---- events ---- *)
Lemma events_on n : exists es, t_events (ts (S n)) = t_events (ts n) ++ es /\ Forall (fun e => e_completes e <> None -> e_pkt e <> None) es.
Proof.
  pose proof (proj2 ON n) as T. destruct (tinv_any nm cl cfg may _ (at_turn n)) as ((SO & _) & _).
  destruct T as [a0 t0 T|tp pl o RD AS]; [destruct T as [first|k|d| |tp pl o RD AS PT|pkt f Vp Mp Hp Np Fp|q m body f NR AN GR Hb HF|a b E Na]|]; unfold by_act; cbn [t_events]; try (exists []; rewrite app_nil_r; auto; fail).
  exists (got (t_host (ts n)) first). split; [reflexivity|]. unfold got. destruct (h_bridge (t_host (ts n))) as [i rx|u|l w] eqn:EB; try constructor. destruct (_ && _); [|constructor].
  cbn [yielded_by]. destruct (u_mode u); try constructor. destruct (sound_up _ _ _ _ SO EB) as [I _]. destruct (poll_next _ _) as [[[p' [|[[e|e]|]]] w]|e|y] eqn:EP; try constructor; [|constructor].
  pose proof (poll_next_case _ _ _ _ _ I EP) as PC. inversion PC as [pkt m e0 w0 D1 D2 D3|pkt e0 D1 D2 D3|d m prior D1 D2 D3 D4 D5 D6 D7 D8|r NE]; subst; try congruence; [|elim (NE e); reflexivity].
  intros C. elim C. reflexivity.
Qed.
Lemma events_later n d : exists es, t_events (ts (d + n)) = t_events (ts n) ++ es /\ Forall (fun e => e_completes e <> None -> e_pkt e <> None) es.
Proof.
  induction d as [|d (es & E & F)]; [exists []; rewrite app_nil_r; auto|]. destruct (events_on (d + n)) as (es2 & E2 & F2). exists (es ++ es2). cbn [Nat.add]. rewrite E2, E, app_assoc. split; [reflexivity | apply Forall_app; auto].
Qed.
(* ---- coming up ---- *)
Hypothesis W : well_configured cl cfg.
Definition up_at (n : nat) : Prop := exists u, h_bridge (t_host (ts n)) = Up u.
Lemma stays_up n m : up_at n -> (n <= m)%nat -> up_at m.
Proof.
  intros U L. replace m with ((m - n) + n)%nat by lia. generalize (m - n)%nat as d. clear m L. induction d as [|d (u & E)]; [exact U|]. cbn [Nat.add].
  destruct (C104_in_line nm cl cfg may _ W (host_is_any nm cl cfg may _ (at_turn (S (d + n))))) as [(i & rx & os & E2 & _)|(u2 & E2 & _)]; [|exists u2; exact E2].
  exfalso. cbn [service_of v_bridge] in E2. destruct (turn_inputs (d + n)) as (is & _ & EI & _). rewrite E2, E in EI. clear -EI. revert u EI. induction is as [|x is IH]; intros u EI; [discriminate EI|].
  cbn [fold_left] in EI. destruct (up_or_dead cl cfg u x) as [(u2 & H)|(l & w & H)]; rewrite H in EI; [exact (IH _ EI)|]. rewrite dead_stays in EI. discriminate EI.
Qed.
Hypothesis K : cfg_ok cfg.
Hypothesis DZ : distinct_zone_names cfg.
Lemma taken n0 : up_at n0 -> exists ps0, (exists qs left, drain (arrived n0) = Ok (ps0 ++ qs, left)) /\
  forall m u, (n0 <= m)%nat -> h_bridge (t_host (ts m)) = Up u ->
    exists qs left, DecodeFacts.drains (unread (p_conn (u_panel u))) qs left /\ drain (arrived m) = Ok (ps0 ++ packets (t_events (ts m)) ++ qs, left) /\
      broker_shows cfg u (ps0 ++ packets (t_events (ts m))) (t_events (ts m)).
Proof.
  intros (u1 & EU). destruct (inputs_at n0) as (is & A & N). rewrite EU in A. pose proof A as (HI & E). pose proof (bridge_history cl cfg is HI) as H. rewrite E in H.
  destruct H as (h & p0 & u0 & is1 & is2 & HO & E0 & -> & EA & ES & EP & E1). destruct (connected_viewed _ _ HO E0) as (ps & T0 & L0 & Z0).
  assert (G : forall m u, (n0 <= m)%nat -> h_bridge (t_host (ts m)) = Up u ->
    exists qs left, DecodeFacts.drains (unread (p_conn (u_panel u))) qs left /\ drain (arrived m) = Ok (ps ++ packets (t_events (ts m)) ++ qs, left) /\
      broker_shows cfg u (ps ++ packets (t_events (ts m))) (t_events (ts m))).
  { intros m u L EM. rewrite <- EU in A. destruct (inputs_from (is1 ++ is2) n0 (m - n0) A N) as (is3 & A3 & N3). replace (m - n0 + n0)%nat with m in * by lia. rewrite EM in A3. rewrite <- app_assoc in A3, N3.
    destruct (topics_from _ _ _ _ _ _ _ _ _ HO E0 EA ES EP E1 T0 L0 Z0 A3 K (proj1 (proj2 W)) DZ) as (es & qs & left & D1 & D2 & _ & F & HZ & HA).
    assert (EE : es = t_events (ts m)).
    { eapply same_events; [exact F|]. exact (proj2 (proj2 (any_up nm cl cfg may W _ u (host_is_any nm cl cfg may _ (at_turn m)) EM))). }
    subst es. rewrite N3 in D2. exists qs, left. split; [exact D1|]. split; [exact D2|]. split; [exact F|]. split; [exact HZ | exact HA]. }
  exists ps. split; [|exact G]. destruct (G n0 u1 (le_n _) EU) as (qs & left & _ & D & _). eauto.
Qed.

Hypothesis FAIR : fair_host ts acts.
Hypothesis NO : forall n, ~ overlaps (h_bridge (t_host (ts n))).
Lemma comes_up : exists n0, connecting (h_bridge (t_host (ts n0))) /\ forall m, (S n0 <= m)%nat -> up_at m.
Proof.
  destruct (C104_woken_all_completed nm cl cfg may ts acts 0 W ON FAIR NO) as (N & H). assert (U : forall m, (N <= m)%nat -> up_at m) by (intros m L; destruct (H m L) as (u & _ & E & _); exists u; exact E).
  clear H. induction N as [|N IH].
  - destruct (U 0%nat (le_n _)) as (u & E). rewrite (proj1 ON) in E. discriminate E.
  - destruct (C104_in_line nm cl cfg may _ W (host_is_any nm cl cfg may _ (at_turn N))) as [(i & rx & os & E & _)|(u & E & _)]; cbn [service_of v_bridge] in E.
    + exists N. split; [eexists _, _; exact E | exact U].
    + apply IH. intros m L. destruct (Nat.eq_dec m N) as [->|NE]; [exists u; exact E | apply U; lia].
Qed.

(* ---- packets are taken up ---- *)
Lemma more_packets a b : (length (completed a) < length (completed b))%nat -> forall c, b = a ++ c -> Forall (fun e => e_completes e <> None -> e_pkt e <> None) c -> (length (packets a) < length (packets b))%nat.
Proof.
  intros L c -> F. unfold completed, packets in *. rewrite !map_app, !catMaybes_app, !app_length in *. assert (L2 : (0 < length (catMaybes (map e_completes c)))%nat) by lia. clear L.
  enough (0 < length (catMaybes (map e_pkt c)))%nat by lia. induction F as [|e c H F IH]; [exact L2|]. cbn [map catMaybes] in *. destruct (e_pkt e); [cbn [length]; lia|].
  apply IH. destruct (e_completes e); [elim H; congruence | exact L2].
Qed.
Definition used_up (m : nat) : Prop := exists u, h_bridge (t_host (ts m)) = Up u /\ decode (unread (p_conn (u_panel u))) = Ok (None, unread (p_conn (u_panel u))).
Definition taken_at (n : nat) : nat := length (packets (t_events (ts n))).
Lemma progress_command n : (length (completed (t_events (ts n))) < length (t_asked (ts n)))%nat -> exists m, (n <= m)%nat /\ (taken_at n < taken_at m)%nat.
Proof.
  intros L. destruct (C104_woken_all_completed nm cl cfg may ts acts n W ON FAIR NO) as (N & H). set (m := (N + n)%nat). destruct (H m ltac:(unfold m; lia)) as (u & later & _ & _ & E).
  exists m. split; [unfold m; lia|]. destruct (events_later n N) as (es & E2 & F). apply (more_packets _ _) with (c := es); [|exact E2 | exact F].
  fold m in E2. rewrite E, app_length, map_length. lia.
Qed.
Lemma progress n : (forall m, (n <= m)%nat -> up_at m) -> exists m, (n <= m)%nat /\ (used_up m \/ (taken_at n < taken_at m)%nat).
Proof.
  intros U. destruct (proj1 FAIR true n) as (m & L & R). destruct (U m L) as (u & EU).
  destruct (Nat.lt_ge_cases (length (completed (t_events (ts m)))) (length (t_asked (ts m)))) as [C|C].
  { destruct (progress_command m C) as (m2 & L2 & T). exists m2. split; [lia|]. right. destruct (events_later n (m - n)) as (es & E & _). replace (m - n + n)%nat with m in E by lia.
    unfold taken_at in *. rewrite E, packets_app, app_length in T. lia. }
  destruct (tinv_any nm cl cfg may _ (at_turn m)) as ((SO & Q) & _). destruct (sound_up _ _ _ _ SO EU) as [I _].
  assert (M : u_mode u = Selecting).
  { destruct (any_up nm cl cfg may W _ u (host_is_any nm cl cfg may _ (at_turn m)) EU) as (_ & ((os & _ & EL) & _) & _). cbn [service_of v_events v_asked] in EL.
    apply (f_equal (@length _)) in EL. rewrite map_app, !app_length, !map_length in EL. assert (LO : (length (outstanding (u_panel u)) = 0 /\ length (waiting u) = 0)%nat) by lia. destruct LO as (LO2 & LO).
    destruct (u_mode u) eqn:EM; [reflexivity | unfold waiting in LO; rewrite EM in LO; cbn [length] in LO; lia|].
    destruct SO as (is & A). rewrite EU in A. pose proof (proj2 (PropBuffer.bridge_lows _ _ _ _ A) EM) as B. unfold outstanding in LO2. destruct (cmd_state (u_panel u)); [congruence | cbn [length] in LO2; lia]. }
  destruct (h_due (t_host (ts m))) eqn:D.
  - destruct R as [R|R]; [|congruence]. pose proof (proj2 ON m) as T. rewrite R in T. inversion T as [a0 t0 T0|]; subst. clear T. inversion T0 as [first EF ET| | | | | | |]; subst. clear T0.
    assert (EG : got (t_host (ts m)) true = match poll_next (h_now (t_host (ts m))) (u_panel u) with Ok (_, Ready (Some (IoOk e)), _) => [e] | _ => [] end).
    { unfold got. rewrite EU, D. cbn [andb orb yielded_by]. rewrite M. reflexivity. }
    assert (NB : forall l w, bstep cl cfg (Up u) (PollPanel (h_now (t_host (ts m)))) <> Dead l w).
    { intros l w B. destruct (U (S m) ltac:(lia)) as (u2 & EU2). rewrite <- ET in EU2. cbn [t_host] in EU2. unfold hstep in EU2. rewrite EU, D, M in EU2. rewrite (select_inputs cl cfg true _ u M) in EU2.
      destruct (snd _); cbn [fold_left] in EU2; rewrite B in EU2; discriminate EU2. }
    cbn [bstep] in NB. rewrite M in NB.
    destruct (poll_next (h_now (t_host (ts m))) (u_panel u)) as [[[p r] k]|er|why] eqn:EP; [|elim (NB _ _ eq_refl)..].
    assert (Used : decode (unread (p_conn (u_panel u))) = Ok (None, unread (p_conn (u_panel u))) -> exists m', (n <= m')%nat /\ (used_up m' \/ (taken_at n < taken_at m')%nat)).
    { intros X. exists m. split; [exact L|]. left. exists u. split; [exact EU | exact X]. }
    pose proof (poll_next_case _ _ _ _ _ I EP) as PC. destruct r as [|[[e|er]|]]; [| |elim (NB _ _ eq_refl)..].
    + inversion PC as [| | |r NE U1 F]; subst. apply Used. apply F. reflexivity.
    + assert (More : e_pkt e <> None -> exists m', (n <= m')%nat /\ (used_up m' \/ (taken_at n < taken_at m')%nat)).
      { intros X. exists (S m). split; [lia|]. right. destruct (events_later n (m - n)) as (es & E & _). replace (m - n + n)%nat with m in E by lia.
        unfold taken_at. rewrite <- ET. cbn [t_events]. rewrite EG, E, !packets_app, !app_length. destruct (e_pkt e) as [pkt|] eqn:EK; [|congruence].
        unfold packets at 4. cbn [map catMaybes]. rewrite EK. cbn [length]. lia. }
      inversion PC as [pkt m1 e0 w0 D1 D2 D3|pkt e0 D1 D2 D3|d m1 prior D1|r NE]; subst; [apply More; congruence | apply More; congruence | apply Used; exact D1 | elim (NE e); reflexivity].
  - exists m. split; [exact L|]. left. exists u. split; [exact EU|]. specialize (Q eq_refl). pose proof (quiet_nothing _ _ _ SO Q) as NT. unfold nothing_to_do in NT. rewrite EU, M in NT. apply NT.
Qed.
(* ---- all of it ---- *)
Lemma cut {A} (a b x y : list A) : a ++ b = x ++ y -> (length x <= length a)%nat -> exists z, a = x ++ z.
Proof.
  intros E L. exists (skipn (length x) a). rewrite <- (firstn_skipn (length x) a) at 1. f_equal.
  apply (f_equal (firstn (length x))) in E. rewrite !firstn_app, !(firstn_all2 x), Nat.sub_diag in E by lia. replace (length x - length a)%nat with 0%nat in E by lia. cbn in E. rewrite !app_nil_r in E. exact E.
Qed.
Lemma all_arrive k : exists n, (k <= n)%nat /\ exists x, arrived n = sent k ++ x.
Proof.
  assert (G : forall d n, (k <= n)%nat -> (length (sent k) <= d + length (arrived n))%nat -> exists n, (k <= n)%nat /\ exists x, arrived n = sent k ++ x).
  { induction d as [|d IH]; intros n L LE.
    - exists n. split; [exact L|]. destruct (sent_later k (n - k)) as (y & E). replace (n - k + k)%nat with n in E by lia. unfold sent_by at 1 in E. eapply cut; [exact E | exact LE].
    - pose proof FAIR as (_ & _ & _ & F). destruct (F n) as (m & Lm & [D|E]).
      + destruct (sent_on m) as (x & _ & G). specialize (G D). destruct (arrived_later n (m - n)) as (y & E). replace (m - n + n)%nat with m in E by lia.
        apply (IH (S m)); [lia|]. rewrite E, app_length in G. lia.
      + exists m. split; [lia|]. destruct (sent_later k (m - k)) as (y & E2). replace (m - k + k)%nat with m in E2 by lia. unfold sent_by at 1 in E2. rewrite E, app_nil_r in E2. eauto. }
  apply (G (length (sent k)) k); lia.
Qed.
Lemma progresses d n : (forall m, (n <= m)%nat -> up_at m) -> exists m, (n <= m)%nat /\ (used_up m \/ (d <= taken_at m)%nat).
Proof.
  intros U. induction d as [|d (m & L & [H|H])]; [exists n; split; [lia | right; lia] | eauto|].
  destruct (progress m) as (m2 & L2 & [H2|H2]); [intros m2 L2; apply U; lia | |]; exists m2; (split; [lia|]); [left; exact H2 | right; lia].
Qed.
Lemma used_stays n m ps0 pks rest : (n <= m)%nat -> ps0 ++ packets (t_events (ts n)) = pks ++ rest -> exists later, ps0 ++ packets (t_events (ts m)) = pks ++ later.
Proof.
  intros L E. destruct (events_later n (m - n)) as (es & E2 & _). replace (m - n + n)%nat with m in E2 by lia. exists (rest ++ packets es). rewrite E2, packets_app, !app_assoc, E. reflexivity.
Qed.
Lemma all_told n0 ps0 : (forall m, (n0 <= m)%nat -> up_at m) ->
  (forall m u, (n0 <= m)%nat -> h_bridge (t_host (ts m)) = Up u ->
    exists qs left, DecodeFacts.drains (unread (p_conn (u_panel u))) qs left /\ drain (arrived m) = Ok (ps0 ++ packets (t_events (ts m)) ++ qs, left) /\
      broker_shows cfg u (ps0 ++ packets (t_events (ts m))) (t_events (ts m))) ->
  forall k pks, spells (sent k) pks -> exists n, (n0 <= n)%nat /\ forall m, (n <= m)%nat -> exists later, ps0 ++ packets (t_events (ts m)) = pks ++ later.
Proof.
  intros U G k pks (fs & V & F & ES). destruct (all_arrive k) as (n1 & L1 & x & EX). destruct (progresses (length pks) (n0 + n1)) as (m & Lm & P); [intros m Lm; apply U; lia|].
  enough (X : exists rest, ps0 ++ packets (t_events (ts m)) = pks ++ rest) by (destruct X as (rest & X); exists m; split; [lia|]; intros m2 L2; eapply (used_stays m m2); eauto).
  destruct (U m ltac:(lia)) as (u & EU). destruct (G m u ltac:(lia) EU) as (qs & left & D1 & D2 & _).
  destruct (arrived_later n1 (m - n1)) as (y & EY). replace (m - n1 + n1)%nat with m in EY by lia. rewrite EX, <- app_assoc in EY.
  pose proof (arrived_bytes m) as UB. rewrite EY in UB. rewrite EY in D2.
  assert (D3 : drain (sent k) = Ok (pks, [])).
  { rewrite ES. apply drain_iff; [eapply frames_u8; eauto|]. pose proof (drains_frames pks fs [] [] [] V F ltac:(constructor) ltac:(constructor; reflexivity)) as H. rewrite !app_nil_r in H. exact H. }
  destruct (prefix_drain _ _ _ _ _ _ UB D3 D2) as (r & ER). destruct P as [(u2 & EU2 & DE)|P].
  - assert (u2 = u) by congruence. subst u2. destruct (drains_det _ _ _ D1 [] _ (drains_nil _ DE)) as [-> _]. rewrite app_nil_r in ER. exists r. exact ER.
  - rewrite app_assoc in ER. apply (cut _ qs pks r) in ER as (z & ER); [|rewrite app_length; unfold taken_at in P; lia]. exists z. exact ER.
Qed.
End Run.

(* with clients that wait, two commands never overlap *)
Lemma waits_any nm cl cfg may ts acts : turns_on nm cl cfg may ts acts -> host_any nm cl cfg may ts acts.
Proof. intros (E & H). split; [exact E|]. intros n. apply W_turns. apply H. Qed.
Lemma waits_no_overlap nm cl cfg may ts acts : well_configured cl cfg -> turns_on nm cl cfg may ts acts -> forall n, ~ overlaps (h_bridge (t_host (ts n))).
Proof.
  intros W ON n (u & c & EU & EM & EO). destruct (C99_in_order nm cl cfg may _ W (C100_is_the_program nm cl cfg may _ (on_to nm cl cfg may ts acts ON n))) as (rx & os & out & H & _ & _ & L).
  cbn [service_of v_bridge v_events] in H. rewrite EU in H. destruct H as [((i & H) & _)|(u2 & H & _ & EQ)]; [discriminate H|]. injection H as <-.
  rewrite EQ in L. unfold waiting in L. rewrite EM, app_length in L. destruct (outstanding (u_panel u)); [congruence | cbn [length map] in L; lia].
Qed.
(* Whatever the panel sends in its turns are packets, one after the other. *)
Theorem C103_sends_packets : forall nm cl cfg (may : packet -> Prop) ts acts k, turns_on nm cl cfg may ts acts -> exists pks, spells (sent_by ts acts k) pks.
Proof. intros nm cl cfg may ts acts k ON. eapply sent_spells. apply waits_any. exact ON. Qed.
Theorem C105_sends_packets : forall nm cl cfg (may : packet -> Prop) ts acts k, host_any nm cl cfg may ts acts -> exists pks, spells (sent_by ts acts k) pks.
Proof. intros nm cl cfg may ts acts k ON. eapply sent_spells. exact ON. Qed.
(* With clients that publish whenever they like: whatever they do, once the bridge is up, all that has arrived from the panel has been read
   while connecting (ps0), was taken up by an event of its own, which has been published, or is not taken up yet (qs), in this order; and
   the topics of all zones and areas show what follows from all packets taken up.  If commands overlap, it stays so (C104). *)
Theorem C105_always_shows : forall nm cl cfg (may : packet -> Prop) ts acts n0, well_configured cl cfg -> cfg_ok cfg -> distinct_zone_names cfg ->
  host_any nm cl cfg may ts acts -> (exists u, h_bridge (t_host (ts n0)) = Up u) ->
  exists ps0, (exists qs left, drain (arrived_by ts acts n0) = Ok (ps0 ++ qs, left)) /\ forall m, (n0 <= m)%nat ->
    exists u qs left, h_bridge (t_host (ts m)) = Up u /\ drain (arrived_by ts acts m) = Ok (ps0 ++ packets (t_events (ts m)) ++ qs, left) /\
      broker_shows cfg u (ps0 ++ packets (t_events (ts m))) (t_events (ts m)).
Proof.
  intros nm cl cfg may ts acts n0 W K DZ ON U. destruct (taken nm cl cfg may ts acts ON W K DZ n0 U) as (ps0 & D & G). exists ps0. split; [exact D|]. intros m L.
  destruct (stays_up nm cl cfg may ts acts ON W n0 m U L) as (u & E). destruct (G m u L E) as (qs & left & _ & D2 & H). exists u, qs, left. auto.
Qed.
(* And if commands never overlap, all of it is told: the bridge comes up, in the turn after n0, stays up, and from some time on every
   packet sent until any given time has been taken up, in order. *)
Theorem C105_all_told : forall nm cl cfg (may : packet -> Prop) ts acts, well_configured cl cfg -> cfg_ok cfg -> distinct_zone_names cfg ->
  host_any nm cl cfg may ts acts -> fair_host ts acts -> (forall n, ~ overlaps (h_bridge (t_host (ts n)))) ->
  exists n0 ps0, connecting (h_bridge (t_host (ts n0))) /\ (exists qs left, drain (arrived_by ts acts (S n0)) = Ok (ps0 ++ qs, left)) /\
    (forall m, (n0 < m)%nat -> exists u, h_bridge (t_host (ts m)) = Up u /\ broker_shows cfg u (ps0 ++ packets (t_events (ts m))) (t_events (ts m))) /\
    forall k pks, spells (sent_by ts acts k) pks ->
      exists n, (n0 < n)%nat /\ forall m, (n <= m)%nat -> exists later, ps0 ++ packets (t_events (ts m)) = pks ++ later.
Proof.
  intros nm cl cfg may ts acts W K DZ ON FAIR NO. destruct (comes_up nm cl cfg may ts acts ON W FAIR NO) as (n0 & C & U).
  destruct (taken nm cl cfg may ts acts ON W K DZ (S n0) (U (S n0) (le_n _))) as (ps0 & D & G). exists n0, ps0. split; [exact C|]. split; [exact D|]. split.
  - intros m L. destruct (U m L) as (u & E). destruct (G m u L E) as (_ & _ & _ & _ & H). eauto.
  - intros k pks P. exact (all_told nm cl cfg may ts acts ON W FAIR NO (S n0) ps0 U G k pks P).
Qed.
(* So it is with clients that wait: those not read while connecting (ps0) are each told by an event of its own, which has been published,
   and the topics of all zones and areas show what follows from all packets taken up. *)
Theorem C103_all_told : forall nm cl cfg (may : packet -> Prop) ts acts, well_configured cl cfg -> cfg_ok cfg -> distinct_zone_names cfg ->
  turns_on nm cl cfg may ts acts -> fair_host ts acts ->
  exists n0 ps0, connecting (h_bridge (t_host (ts n0))) /\ (exists qs left, drain (arrived_by ts acts (S n0)) = Ok (ps0 ++ qs, left)) /\
    (forall m, (n0 < m)%nat -> exists u, h_bridge (t_host (ts m)) = Up u /\ broker_shows cfg u (ps0 ++ packets (t_events (ts m))) (t_events (ts m))) /\
    forall k pks, spells (sent_by ts acts k) pks ->
      exists n, (n0 < n)%nat /\ forall m, (n <= m)%nat -> exists later, ps0 ++ packets (t_events (ts m)) = pks ++ later.
Proof.
  intros nm cl cfg may ts acts W K DZ ON FAIR. exact (C105_all_told nm cl cfg may ts acts W K DZ (waits_any _ _ _ _ _ _ ON) FAIR (waits_no_overlap _ _ _ _ _ _ W ON)).
Qed.

(* The execution of C100_example: a zone changes while the bridge connects and again while a command is written; the panel answers seven
   requests for states and names, and two commands.  The last three packets become events. *)
Definition ex_sends : list message := [ex_extra] ++ ex_answers ++ [ex_extra; ex_answer; ex_answer].
Lemma ex_spells ms : Forall wf_message ms -> spells (concat (map bytes_of ms)) (map ex_pkt ms).
Proof.
  intros F. exists (map bytes_of ms). split; [|split; [|reflexivity]]; induction F as [|m ms Wm F IH]; cbn [map]; constructor; try exact IH; destruct (ex_bytes _ Wm) as (body & E & Hw & Hb & HF); rewrite E; assumption.
Qed.
Example C103_example : well_configured ex_cl ex_cfg /\ cfg_ok ex_cfg /\ distinct_zone_names ex_cfg /\
  turns_on ex_naming ex_cl ex_cfg ex_may ex_host (fun n => turn_of (ex_turn n)) /\ fair_host ex_host (fun n => turn_of (ex_turn n)) /\
  spells (sent_by ex_host (fun n => turn_of (ex_turn n)) 82) (map ex_pkt ex_sends) /\
  packets (t_events (ex_host 90)) = map ex_pkt [ex_extra; ex_answer; ex_answer] /\ packets (t_events (ex_host 82)) = map ex_pkt [ex_extra; ex_answer].
Proof.
  pose proof C100_example as (H1 & H2 & H3 & _). split; [exact H1|]. split; [|split; [|split; [exact H2|split; [exact H3|split]]]].
  - repeat split; cbn; repeat constructor; cbn; lia || tauto.
  - repeat constructor; cbn; tauto.
  - replace (sent_by ex_host (fun n => turn_of (ex_turn n)) 82) with (concat (map bytes_of ex_sends)) by (vm_compute; reflexivity). apply ex_spells.
    constructor; [repeat constructor; discriminate|]. apply Forall_app. split; [exact ex_answers_ok|]. repeat constructor; discriminate.
  - split; vm_compute; reflexivity.
Qed.

(* The executions of C104_example: with arming and disarming asked for before the bridge is connected, in the first of which they do not
   overlap.  The panel sends the seven answers to the requests for states and names and its answers to both commands. *)
Example C105_example : cfg_ok ex_cfg /\ distinct_zone_names ex_cfg /\
  let ts := ex_upto ex_lucky ex_lucky_end in let acts := fun n => turn_of (ex_next ex_lucky n) in
  host_any ex_naming ex_cl ex_cfg ex_may ts acts /\ fair_host ts acts /\ (forall n, ~ overlaps (h_bridge (t_host (ts n)))) /\
  spells (sent_by ts acts (length ex_lucky)) (map ex_pkt (ex_answers ++ [ex_answer; ex_answer])) /\ t_asked (ts 3%nat) = ex_asked /\
  packets (t_events (ts (length ex_lucky))) = map ex_pkt [ex_answer; ex_answer].
Proof.
  pose proof C103_example as (_ & H1 & H2 & _). pose proof C104_example as (_ & H3 & H4 & H5 & H6 & _). cbv zeta in *.
  split; [exact H1|]. split; [exact H2|]. split; [exact H3|]. split; [exact H4|]. split; [exact H5|]. split; [|split; [exact H6 | vm_compute; reflexivity]].
  replace (sent_by _ _ (length ex_lucky)) with (concat (map bytes_of (ex_answers ++ [ex_answer; ex_answer]))) by (vm_compute; reflexivity). apply ex_spells.
  apply Forall_app. split; [exact ex_answers_ok|]. repeat constructor; discriminate.
Qed.
(* If they do, it is not so: in the second, what the panel sends after that is never taken up. *)
Theorem C105_all_told_refuted : exists nm cl cfg may ts acts k pks, well_configured cl cfg /\ cfg_ok cfg /\ distinct_zone_names cfg /\
  host_any nm cl cfg may ts acts /\ fair_host ts acts /\ spells (sent_by ts acts k) pks /\
  forall n0 ps0 qs left m, connecting (h_bridge (t_host (ts n0))) -> (exists u, h_bridge (t_host (ts (S n0))) = Up u) ->
    drain (arrived_by ts acts (S n0)) = Ok (ps0 ++ qs, left) -> ~ exists later, ps0 ++ packets (t_events (ts m)) = pks ++ later.
Proof.
  set (ts := ex_upto ex_unlucky ex_unlucky_end). set (acts := fun n => turn_of (ex_next ex_unlucky n)). set (L := length ex_unlucky).
  assert (LAST : forall m, ts m = ts (Nat.min m L)).
  { intros m. destruct (Nat.min_spec m L) as [(H & ->)|(H & ->)]; [reflexivity|]. unfold ts. rewrite !upto_last by (unfold L in *; lia). reflexivity. }
  assert (ON : host_any ex_naming ex_cl ex_cfg ex_may ts acts).
  { apply upto_on; [vm_compute; reflexivity | discriminate | vm_compute; reflexivity|]. intros []; vm_compute; reflexivity. }
  pose proof C103_example as (H0 & H1 & H2 & _).
  exists ex_naming, ex_cl, ex_cfg, ex_may, ts, acts, L, (map ex_pkt (ex_answers ++ [ex_answer; ex_extra])). split; [exact H0|]. split; [exact H1|]. split; [exact H2|]. split; [exact ON|]. split; [|split].
  - apply (upto_fair _ _ (firstn 8 all_requests)); [reflexivity | vm_compute; discriminate | reflexivity | | vm_compute; reflexivity | vm_compute; reflexivity].
    pose proof all_requests_ok as W. rewrite <- (firstn_skipn 8 all_requests) in W. apply Forall_app in W. apply W.
  - replace (sent_by ts acts L) with (concat (map bytes_of (ex_answers ++ [ex_answer; ex_extra]))) by (vm_compute; reflexivity). apply ex_spells.
    apply Forall_app. split; [exact ex_answers_ok|]. repeat constructor; discriminate.
  - intros n0 ps0 qs left m C _ D (later & E).
    assert (EV : packets (t_events (ts m)) = []).
    { assert (A : forallb (fun k => match packets (t_events (ts k)) with [] => true | _ => false end) (seq 0 (S L)) = true) by (vm_compute; reflexivity). rewrite forallb_forall in A.
      rewrite LAST. specialize (A (Nat.min m L)). destruct (packets (t_events (ts (Nat.min m L)))); [reflexivity|]. discriminate A. apply in_seq. lia. }
    rewrite EV, app_nil_r in E. assert (N : (n0 < length ex_both)%nat).
    { destruct (Nat.lt_ge_cases n0 (length ex_both)) as [H|H]; [exact H|]. exfalso. rewrite LAST in C.
      assert (A : forallb (fun k => negb (connects (h_bridge (t_host (ts k))))) (seq (length ex_both) (S L - length ex_both)) = true) by (vm_compute; reflexivity). rewrite forallb_forall in A.
      destruct C as (i & rx & C). specialize (A (Nat.min n0 L)). rewrite C in A. discriminate A. apply in_seq. unfold L, ex_unlucky in *. rewrite app_length in *. lia. }
    assert (DB : drain (arrived_by ts acts (length ex_both)) = Ok (map ex_pkt ex_answers, [])) by (vm_compute; reflexivity).
    destruct (arrived_later ts acts (S n0) (length ex_both - S n0)) as (x & EX). replace (length ex_both - S n0 + S n0)%nat with (length ex_both) in EX by lia.
    pose proof (arrived_bytes ex_naming ex_cl ex_cfg ex_may ts acts ON (length ex_both)) as U. rewrite EX in U, DB. destruct (prefix_drain _ _ _ _ _ _ U D DB) as (r & ER).
    apply (f_equal (@length _)) in ER, E. rewrite !app_length, !map_length in *. rewrite app_length in E. cbn in E, ER. lia.
Qed.

Print Assumptions C103_sends_packets.
Print Assumptions C103_all_told.
Print Assumptions C105_sends_packets.
Print Assumptions C105_always_shows.
Print Assumptions C105_all_told.
Print Assumptions C105_all_told_refuted.
