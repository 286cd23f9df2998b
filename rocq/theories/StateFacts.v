(* StateFacts.v: invariants and one-step facts of the Panel model (State.v). *)
From Verif Require Import Base BaseFacts Pkt SpecPkt PktFacts DecodeFacts Msg SpecMsg DecFacts MsgFacts WireFacts IsoFacts
  Tokio SpecConn ConnFacts State SpecState.
From Coq Require Import ZifyBool ZifyNat ZifyN.
Ltac Zify.zify_post_hook ::= Z.div_mod_to_equations.

(* ---- the invariant ---- *)
Definition names_ok (n : nat) (l : list bytes) : Prop := length l = n /\ Forall text_ok l.
Definition arming_ok (p : Panel) : Prop :=
  match s_arming (p_state p) with
  | Some r => as_ok r /\
      match pending_arm p with Some (_, m) => as_ok m /\ is_transition_suspicious r m = true | None => True end
  | None => pending_arm p = None
  end.
Definition cmd_ok (p : Panel) : Prop :=
  match cmd_state p with
  | Busy q f _ => (exists c, q = into_msg c /\ wf_message q) /\ (f = true -> wbuf (p_conn p) = [])
  | Idle => True
  end.
Definition pinv (p : Panel) : Prop :=
  cinv (p_conn p) /\
  (names_ok 208 (zone_names (p_state p)) /\ names_ok 8 (area_names (p_state p)) /\ names_ok 32 (task_names (p_state p))) /\
  (forall z, s_zones (p_state p) = Some z -> zones_ok z) /\ arming_ok p /\ cmd_ok p.
(* state.rs:175-178: formatting the request does not panic *)
Lemma await_eof_fails s : exists e, await_eof s = IFail e.
Proof. destruct s as [| |ty max i]; eexists; reflexivity. Qed.
Lemma pinv_intro p : cinv (p_conn p) ->
  (names_ok 208 (zone_names (p_state p)) /\ names_ok 8 (area_names (p_state p)) /\ names_ok 32 (task_names (p_state p))) ->
  (forall z, s_zones (p_state p) = Some z -> zones_ok z) -> arming_ok p -> cmd_ok p -> pinv p.
Proof. unfold pinv. auto. Qed.
Definition up (p : Panel) : Prop := (exists r, s_arming (p_state p) = Some r) /\ (exists z, s_zones (p_state p) = Some z).

(* packets that come out of the decoder *)
Definition pkt_ok (p : packet) : Prop := match p with PInvalid raw _ => u8s raw | _ => valid_packet p end.
Lemma parsed_wf pkt m : pkt_ok pkt -> parse pkt = Ok (Some m) -> wf_message m.
Proof.
  destruct pkt as [b|d|r w]; cbn [parse]; intros HP E; try discriminate.
  apply parse_some_iff in E. eapply grammar_wf; [apply HP | exact E].
Qed.
Lemma nexts_pkt_ok c c' p : nexts c c' (Ready (Some (IoOk p))) -> cinv c -> pkt_ok p.
Proof.
  intros X I. pose proof (nexts_unread _ _ _ X I) as D. cbv beta iota in D.
  destruct (decode_some_inv _ _ _ (unread_u8 c I) D) as (raw & ES & _ & HE & _ & HV).
  destruct p; try exact HV. specialize (HE []). cbn in HE. injection HE as ->. pose proof (unread_u8 c I) as U. rewrite ES in U.
  apply u8s_app in U. apply U.
Qed.

(* ---- suspicious is never "the same" ---- *)
Lemma suspicious_neq a b : as_ok a -> is_transition_suspicious a b = true -> a <> b.
Proof.
  intros _ S ->. apply suspicious_spec in S as (i & m & H1 & H2 & H3 & _). rewrite H1 in H2. injection H2 as <-.
  cbn in H3. intuition discriminate.
Qed.

(* ---- interpret_arming_status ---- *)
Lemma ias_spec now p m p' ch : interpret_arming_status now p m = (p', ch) -> arming_ok p -> as_ok m ->
  p_conn p' = p_conn p /\ cmd_state p' = cmd_state p /\ s_zones (p_state p') = s_zones (p_state p) /\
  zone_names (p_state p') = zone_names (p_state p) /\ area_names (p_state p') = area_names (p_state p) /\
  task_names (p_state p') = task_names (p_state p) /\ arming_ok p' /\
  match s_arming (p_state p) with
  | None => s_arming (p_state p') = Some m /\ pending_arm p' = None /\ ch = None
  | Some prior =>
      (pending_arm p = None /\ is_transition_suspicious prior m = true /\
       s_arming (p_state p') = Some prior /\ pending_arm p' = Some (now + 5000, m) /\ ch = None) \/
      ((pending_arm p <> None \/ is_transition_suspicious prior m = false) /\
       s_arming (p_state p') = Some m /\ pending_arm p' = None /\
       (prior = m /\ ch = None \/ prior <> m /\ ch = Some (CArmingStatus prior)))
  end.
Proof.
  unfold interpret_arming_status, arming_ok. intros E A M.
  destruct (s_arming (p_state p)) as [prior|] eqn:EA.
  - destruct A as [A0 A1].
    assert (Ap : forall q, p_conn q = p_conn p -> cmd_state q = cmd_state p -> p_state q = p_state p -> pending_arm q = None ->
      (if ArmingStatusReport_eqb prior m then (q, None) else (with_arming q m, Some (CArmingStatus prior))) = (p', ch) ->
      p_conn p' = p_conn p /\ cmd_state p' = cmd_state p /\ s_zones (p_state p') = s_zones (p_state p) /\
      zone_names (p_state p') = zone_names (p_state p) /\ area_names (p_state p') = area_names (p_state p) /\
      task_names (p_state p') = task_names (p_state p) /\ s_arming (p_state p') = Some m /\ pending_arm p' = None /\
      (prior = m /\ ch = None \/ prior <> m /\ ch = Some (CArmingStatus prior))).
    { intros q E1 E2 E3 E4. destruct (ArmingStatusReport_eqb prior m) eqn:EQ; intros [= <- <-].
      - apply report_eqb_eq in EQ. subst m. rewrite E1, E2, E3, E4. repeat split; auto.
      - assert (prior <> m) by (intros X; apply report_eqb_eq in X; congruence).
        cbn. rewrite E1, E2, E3, E4. repeat split; auto. }
    destruct (pending_arm p) as [[d h]|] eqn:EP.
    + destruct (Ap (with_pending p None) eq_refl eq_refl eq_refl eq_refl E) as (H1 & H2 & H3 & H4 & H5 & H6 & H7 & H8 & H9).
      repeat (split; [assumption|]). rewrite H7, H8. split; [auto|]. right. repeat split; auto. left; discriminate.
    + destruct (is_transition_suspicious prior m) eqn:ES.
      * injection E as <- <-. cbn. rewrite EA. do 6 (split; [reflexivity|]). split; [auto|]. left. auto 10.
      * destruct (Ap p eq_refl eq_refl eq_refl EP E) as (H1 & H2 & H3 & H4 & H5 & H6 & H7 & H8 & H9).
        repeat (split; [assumption|]). rewrite H7, H8. split; [auto|]. right. repeat split; auto.
  - injection E as <- <-. cbn. rewrite A. repeat split; auto; apply M.
Qed.

(* ---- interpret_msg ---- *)
Definition same_names (p p' : Panel) : Prop :=
  zone_names (p_state p') = zone_names (p_state p) /\ area_names (p_state p') = area_names (p_state p) /\
  task_names (p_state p') = task_names (p_state p).
Definition same_arming (p p' : Panel) : Prop :=
  s_arming (p_state p') = s_arming (p_state p) /\ pending_arm p' = pending_arm p.
Lemma same_names_refl p : same_names p p. Proof. repeat split. Qed.

Lemma to_index_ok z : zone_ok z -> to_index z = Ok (N.to_nat (z - 1)).
Proof. unfold zone_ok, to_index. intros H. destruct (N.eqb_spec z 0); [lia|]. f_equal. lia. Qed.

(* what a message does to the state, case by case *)
Definition arming_effect (now : N) (p p' : Panel) (ch : option Change) (m : ArmingStatusReport) : Prop :=
  match s_arming (p_state p) with
  | None => s_arming (p_state p') = Some m /\ pending_arm p' = None /\ ch = None
  | Some prior =>
      (pending_arm p = None /\ is_transition_suspicious prior m = true /\
       s_arming (p_state p') = Some prior /\ pending_arm p' = Some (now + 5000, m) /\ ch = None) \/
      ((pending_arm p <> None \/ is_transition_suspicious prior m = false) /\
       s_arming (p_state p') = Some m /\ pending_arm p' = None /\
       (prior = m /\ ch = None \/ prior <> m /\ ch = Some (CArmingStatus prior)))
  end.
Definition zone_effect (p p' : Panel) (ch : option Change) (z : ZoneChange) : Prop :=
  match s_zones (p_state p) with
  | None => s_zones (p_state p') = None /\ ch = None
  | Some zs => exists zs' s, s_zones (p_state p') = Some zs' /\ length zs' = length zs /\
      nth_error zs (N.to_nat (zc_zone z - 1)) = Some s /\
      (forall j, nth_error zs' j = if (j =? N.to_nat (zc_zone z - 1))%nat then Some (zc_status z) else nth_error zs j) /\
      ch = if s =? zc_status z then None else Some (CZoneChange (zc_zone z) s)
  end.
Definition msg_effect (now : N) (p p' : Panel) (ch : option Change) (m : message) : Prop :=
  match m with
  | MArmingStatusReport r => arming_effect now p p' ch r /\ s_zones (p_state p') = s_zones (p_state p)
  | MZoneChange z => zone_effect p p' ch z /\ same_arming p p'
  | MZoneStatusReport zs => s_zones (p_state p') = Some zs /\ ch = None /\ same_arming p p'
  | _ => s_zones (p_state p') = s_zones (p_state p) /\ ch = None /\ same_arming p p'
  end.

Lemma interpret_msg_spec now p m : pinv p -> wf_message m ->
  exists p' ch, interpret_msg now p m = Ok (p', ch) /\ pinv p' /\ p_conn p' = p_conn p /\ cmd_state p' = cmd_state p /\
    same_names p p' /\ msg_effect now p p' ch m.
Proof.
  intros (CI & NI & ZI & AI & KI) W.
  assert (Triv : forall q : Panel, q = p -> pinv q) by (intros q ->; apply pinv_intro; auto).
  destruct m; cbn [interpret_msg msg_effect];
    try (exists p, None; split; [reflexivity|]; split; [auto|]; repeat split; reflexivity).
  - (* AS *)
    destruct (interpret_arming_status now p m) as [p' ch] eqn:E.
    destruct (ias_spec _ _ _ _ _ E AI W) as (H1 & H2 & H3 & H4 & H5 & H6 & H7 & H8).
    exists p', ch. split; [reflexivity|]. split; [apply pinv_intro; unfold cmd_ok; rewrite ?H1, ?H2, ?H3, ?H4, ?H5, ?H6; auto|].
    repeat split; auto.
  - (* ZC *)
    destruct W as [Wz Ws]. unfold zone_effect.
    destruct (s_zones (p_state p)) as [zs|] eqn:EZ.
    + pose proof (ZI _ eq_refl) as [LZ FZ]. rewrite (to_index_ok _ Wz). cbn [bind].
      assert (Li : (N.to_nat (zc_zone m - 1) < length zs)%nat) by (unfold zone_ok in Wz; lia).
      destruct (index_ok zs _ Li) as (s & -> & Es). cbn [bind].
      destruct (set_nth_spec zs _ (zc_status m) Li) as (zs' & -> & L' & N'). cbn [bind].
      eexists _, _. split; [reflexivity|]. split; [|split; [reflexivity|]; split; [reflexivity|]; split; [repeat split|]].
      * apply pinv_intro; auto. cbn. intros ? [= <-]. split; [congruence|].
        apply Forall_forall. intros y Hy. apply In_nth_error in Hy as (j & Hj). rewrite N' in Hj.
        destruct (j =? _)%nat; [injection Hj as <-; exact Ws|]. rewrite Forall_forall in FZ. apply FZ. eapply nth_error_In; eauto.
      * split; [|repeat split]. exists zs', s. cbn. auto.
    + exists p, None. split; [reflexivity|]. split; [auto|]. repeat split; auto.
  - (* ZS *)
    eexists _, _. split; [reflexivity|]. split; [|repeat split].
    apply pinv_intro; auto. cbn. intros ? [= <-]. exact W.
Qed.

(* ---- interpret ---- *)
Definition reply_effect (p p' : Panel) (m : message) (completes : option message) (woken : option nat) : Prop :=
  match cmd_state p with
  | Idle => cmd_state p' = Idle /\ completes = None /\ woken = None
  | Busy q f w =>
      (is_response_to m q = true /\ cmd_state p' = Idle /\ completes = Some q /\ woken = w) \/
      (is_response_to m q = false /\ cmd_state p' = Busy q f w /\ completes = None /\ woken = None)
  end.
Definition interpreted (now : N) (p p' : Panel) (pkt : packet) (e : Event) (woken : option nat) : Prop :=
  e_pkt e = Some pkt /\
  match parse pkt with
  | Ok (Some m) => e_msg e = Some (inl m) /\ same_names p p' /\ msg_effect now p p' (e_change e) m /\
      reply_effect p p' m (e_completes e) woken
  | Ok None => p' = p /\ e_msg e = None /\ e_change e = None /\ e_completes e = None /\ woken = None
  | Err er => p' = p /\ e_msg e = Some (inr er) /\ e_change e = None /\ e_completes e = None /\ woken = None
  | Panic _ => False
  end.
Lemma pinv_idle p : pinv p -> pinv (with_cmd p Idle).
Proof. intros (A & B & C & D & E). apply pinv_intro; auto. exact I. Qed.
Lemma interpret_spec now p pkt : pinv p -> pkt_ok pkt ->
  exists p' e w, interpret now p pkt = Ok (p', e, w) /\ pinv p' /\ p_conn p' = p_conn p /\ interpreted now p p' pkt e w.
Proof.
  intros I HP. unfold interpret, interpreted.
  destruct (parse pkt) as [[m|]|er|why] eqn:EP.
  - destruct (interpret_msg_spec now p m I (parsed_wf _ _ HP EP)) as (p1 & ch & -> & I1 & C1 & K1 & N1 & M1). cbn [bind].
    unfold interpret_reply. destruct (cmd_state p1) as [|q f w] eqn:EC.
    + eexists _, _, _. split; [reflexivity|]. split; [exact I1|]. split; [exact C1|]. cbn. repeat split; auto; try apply N1.
      unfold reply_effect. rewrite <- K1. auto.
    + destruct (is_response_to m q) eqn:ER.
      * eexists _, _, _. split; [reflexivity|]. split; [apply pinv_idle; exact I1|]. split; [exact C1|]. cbn.
        split; [reflexivity|]. split; [reflexivity|]. split; [exact N1|]. split; [destruct m; exact M1|].
        unfold reply_effect. rewrite <- K1. left. auto.
      * eexists _, _, _. split; [reflexivity|]. split; [exact I1|]. split; [exact C1|]. cbn. repeat split; auto; try apply N1.
        unfold reply_effect. rewrite <- K1. right. auto.
  - eexists _, _, _. split; [reflexivity|]. split; [exact I|]. split; [reflexivity|]. repeat split; auto.
  - eexists _, _, _. split; [reflexivity|]. split; [exact I|]. split; [reflexivity|]. repeat split; auto.
  - destruct pkt; cbn [parse] in EP; try discriminate. pose proof (parse_safe body) as S. rewrite EP in S. destruct S.
Qed.

(* ---- poll_next ---- *)
Definition deferred_event (prior : ArmingStatusReport) : Event := mkEvent None None None (Some (CArmingStatus prior)).
Definition polled (now : N) (p p' : Panel) (r : poll (option (io Event))) (woken : option nat) : Prop :=
  exists rc, nexts (p_conn p) (p_conn p') rc /\
  match rc with
  | Ready (Some (IoOk pkt)) => exists e, r = Ready (Some (IoOk e)) /\ pkt_ok pkt /\
      interpreted now (with_conn p (p_conn p')) p' pkt e woken
  | Ready (Some (IoErr er)) => r = Ready (Some (IoErr er)) /\ p' = with_conn p (p_conn p') /\ woken = None
  | Ready None => r = Ready None /\ p' = with_conn p (p_conn p') /\ woken = None
  | Pending => woken = None /\
      ((exists d m prior, pending_arm p = Some (d, m) /\ d <= now /\ s_arming (p_state p) = Some prior /\
          r = Ready (Some (IoOk (deferred_event prior))) /\
          p' = with_pending (with_arming (with_conn p (p_conn p')) m) None) \/
       (match pending_arm p with Some (d, _) => now < d | None => True end /\ r = Pending /\ p' = with_conn p (p_conn p')))
  end.
Lemma with_conn_inv p c : pinv p -> cinv c -> wbuf c = wbuf (p_conn p) -> pinv (with_conn p c).
Proof.
  intros (A & B & C & D & E) I W. apply pinv_intro; auto. unfold cmd_ok in *; cbn in *.
  destruct (cmd_state p); auto. rewrite W. exact E.
Qed.
Lemma poll_next_spec now p : pinv p ->
  exists p' r w, poll_next now p = Ok (p', r, w) /\ pinv p' /\ polled now p p' r w.
Proof.
  intros I. pose proof I as (CI & _ & _ & AI & _). destruct (conn_next_total _ CI) as (c & rc & E & X). unfold poll_next. rewrite E. cbn [bind].
  pose proof (nexts_inv _ _ _ X CI) as CI'. destruct (nexts_same_write _ _ _ X) as (Ew & _ & _ & _).
  pose proof (with_conn_inv p c I CI' Ew) as I'.
  assert (Plain : forall r, rc = r -> (match r with Ready (Some (IoOk _)) => False | _ => True end) -> True) by auto.
  destruct rc as [|[[pkt|er]|]].
  - cbn [pending_arm with_conn]. destruct (pending_arm p) as [[d m]|] eqn:EP.
    + destruct (N.leb_spec d now) as [L|L].
      * unfold arming_ok in AI. rewrite EP in AI. cbn [p_state with_conn].
        destruct (s_arming (p_state p)) as [prior|] eqn:EA; [|discriminate]. destruct AI as (A1 & A2 & A3).
        eexists _, _, _. split; [reflexivity|]. split.
        { destruct I' as (H1 & H2 & H3 & H4 & H5). apply pinv_intro; auto. cbn. split; [exact A2 | exact Logic.I]. }
        exists Pending. split; [exact X|]. split; [reflexivity|]. left. exists d, m, prior. repeat split; auto.
      * eexists _, _, _. split; [reflexivity|]. split; [exact I'|]. exists Pending. split; [exact X|]. split; [reflexivity|]. right.
        rewrite EP. auto.
    + eexists _, _, _. split; [reflexivity|]. split; [exact I'|]. exists Pending. split; [exact X|]. split; [reflexivity|]. right.
      rewrite EP. auto.
  - destruct (interpret_spec now (with_conn p c) pkt I' (nexts_pkt_ok _ _ _ X CI)) as (p' & e & w & -> & I2 & C2 & Y). cbn [bind].
    cbn [p_conn with_conn] in C2. eexists _, _, _. split; [reflexivity|]. split; [exact I2|].
    exists (Ready (Some (IoOk pkt))). rewrite C2. split; [exact X|]. exists e. split; [reflexivity|]. split; [|exact Y].
    eapply nexts_pkt_ok; eauto.
  - eexists _, _, _. split; [reflexivity|]. split; [exact I'|]. exists (Ready (Some (IoErr er))). auto.
  - eexists _, _, _. split; [reflexivity|]. split; [exact I'|]. exists (Ready None). auto.
Qed.
Lemma poll_next_inv now p p' r w : pinv p -> poll_next now p = Ok (p', r, w) -> pinv p' /\ polled now p p' r w.
Proof. intros I E. destruct (poll_next_spec now p I) as (p2 & r2 & w2 & E2 & H). rewrite E in E2. injection E2 as <- <- <-. exact H. Qed.
