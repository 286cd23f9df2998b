(* PropButton.v: C120: from a button in Home Assistant to the panel. *)
From Verif Require Import Base BaseFacts Pkt SpecPkt PktFacts DecodeFacts Msg SpecMsg DecFacts MsgFacts WireFacts IsoFacts
  PropMsg Tokio SpecConn ConnFacts State SpecState StateFacts RunFacts HistFacts ViewFacts ExState PropState PropSink PropLive
  Serde SerdeFacts PropSerde SpecInit InitFacts PropConnect SpecSend SendFacts PropSend Mqtt MqttFacts Config SpecMqtt SpecConfig PropMqtt PropConfig PropEnd SpecServe ServeFacts PropServe
  SpecProgram ProgramFacts PropProgram BridgeText SpecJson JsonFacts JsonWrite ShowFacts TextFacts PropText SpecHa PropHa.
From Verif Require SpecWakeInit PropWakeInit PropTasks PropFail PropRest.
From Verif Require Import Wake PropWake WakeBridge SpecHost HostFacts PropHost SpecAny PropAny SpecEvery PropEvery SpecBuffer PropBuffer SpecFlow FlowFacts PropFlow.
From Coq Require Import ZifyBool ZifyNat ZifyN.
Ltac Zify.zify_post_hook ::= Z.div_mod_to_equations.

(* ---- what is sent stays sent ---- *)
Lemma app_shorter (a b c d : bytes) : a ++ b = c ++ d -> (length b <= length d)%nat -> exists x, a = c ++ x.
Proof.
  revert c. induction a as [|y a IH]; intros c E L.
  - cbn [app] in E. exists []. destruct c; [reflexivity|]. exfalso. subst b. cbn [app length] in L. rewrite app_length in L. lia.
  - destruct c as [|z c]; [exists (y :: a); reflexivity|]. injection E as -> E. destruct (IH _ E L) as (x & ->). exists x. reflexivity.
Qed.
Lemma step_sent p o p' b : pinv p -> op_ok o -> step p o = Ok (p', b) -> stepped p o p' b -> exists x, sent (p_conn p') = sent (p_conn p) ++ x.
Proof.
  intros I HO E S. assert (Z : sent (p_conn p') = sent (p_conn p) -> exists x, sent (p_conn p') = sent (p_conn p) ++ x) by (intros ->; exists []; symmetry; apply app_nil_r).
  assert (G : (forall c, o <> StartSend c) -> written (p_conn p') = written (p_conn p) -> exists x, sent (p_conn p') = sent (p_conn p) ++ x).
  { intros N W. eapply app_shorter; [exact W|]. eapply step_shrinks; eauto. }
  destruct o as [a|now|w ws|c|ws|ws]; cbn [stepped] in S.
  - destruct S as [_ ->]. apply Z. destruct a; reflexivity.
  - destruct S as (r & w & _ & (rc & X & _)). destruct (nexts_same_write _ _ _ X) as (W1 & W2 & _). apply Z. congruence.
  - destruct S as (r & _ & _ & S & _). apply G; [discriminate | exact S].
  - destruct S as (_ & _ & _ & _ & f & _ & S & _). apply Z. exact S.
  - destruct S as (r & _ & _ & S & _). apply G; [discriminate | exact S].
  - destruct S as (r & _ & _ & S & _). apply G; [discriminate | exact S].
Qed.
Lemma run_sent p0 h p bs : pinv p0 -> Forall op_ok h -> run p0 h = Ok (p, bs) -> exists x, sent (p_conn p) = sent (p_conn p0) ++ x.
Proof.
  intros I0 HO E. refine (proj2 (run_ind (fun _ _ p => exists x, sent (p_conn p) = sent (p_conn p0) ++ x) p0 I0 _ _ h bs p HO E)); [exists []; symmetry; apply app_nil_r|].
  clear. intros h bs p o p' b _ _ Ip (x & IH) Oo Es _ S. destruct (step_sent _ _ _ _ Ip Oo Es S) as (y & ->). exists (x ++ y). rewrite IH, <- app_assoc. reflexivity.
Qed.

(* ---- the bridge looks at what comes only when all is written ---- *)
Lemma not_selecting cl cfg u i u' : bstep cl cfg (Up u) i = Up u' -> u_mode u <> Selecting -> u_log u' = u_log u.
Proof.
  intros E N. destruct i as [a|t pl| |now ws|now| |ws]; cbn [bstep] in E; try discriminate E; try (injection E as <-; reflexivity).
  - destruct (u_mode u); [congruence| |]; injection E as <-; reflexivity.
  - destruct (u_mode u); [congruence| |]; injection E as <-; reflexivity.
  - destruct (u_mode u) as [|c|]; [congruence| |].
    + destruct (poll_ready TASK ws (u_panel u)) as [p r] eqn:EP. destruct r as [|[[]|e]]; try (injection E as <-; reflexivity); try discriminate E.
      destruct (start_send _ p) as [p2|?|?]; try discriminate E. unfold poll_send_flush in E. cbn [u_panel u_mode u_log] in E.
      repeat match type of E with context [match ?x with _ => _ end] => destruct x eqn:?; try discriminate E end; injection E as <-; reflexivity.
    + unfold poll_send_flush in E. repeat match type of E with context [match ?x with _ => _ end] => destruct x eqn:?; try discriminate E end; injection E as <-; reflexivity.
Qed.
Lemma handles_something cl cfg p e l : handle_event cl cfg p e = (l, Ok tt) -> l <> [].
Proof.
  unfold handle_event. intros E ->. apply obind_ok in E as (l1 & v & l2 & _ & E & EL). apply obind_ok in E as (l3 & x & l4 & E & _ & ->). apply publish_ok in E as [_ ->].
  destruct l1; discriminate EL.
Qed.
Lemma frames_fun qs fs gs : Forall2 request_frame qs fs -> Forall2 request_frame qs gs -> fs = gs.
Proof.
  intros F. revert gs. induction F as [|q f qs fs (W & b & Hw & HF) F IH]; intros gs G; inversion G as [|? g ? gs' (_ & b' & Hw' & HF') G']; subst; [reflexivity|].
  f_equal; [|apply IH; exact G']. assert (b = b') by (eapply wire_fun; eassumption). subst b'. eapply ascii_frame_fun; [eapply wire_ascii | |]; eassumption.
Qed.
Lemma in_catMaybes {A} (x : A) l : In x (catMaybes l) <-> In (Some x) l.
Proof. induction l as [|[y|] l IH]; cbn [catMaybes In]; [tauto| |]; rewrite IH; intuition congruence. Qed.
(* completions are of accepted commands *)
Lemma written_frames p0 h p bs : pinv p0 -> outstanding p0 = [] -> wbuf (p_conn p0) = [] -> Forall op_ok h -> run p0 h = Ok (p, bs) ->
  exists fs gs, Forall2 request_frame (completions bs) fs /\ Forall2 request_frame (outstanding p) gs /\ sent (p_conn p) ++ wbuf (p_conn p) = sent (p_conn p0) ++ concat fs ++ concat gs.
Proof.
  intros I0 O0 W0 HO E. destruct (wire_run _ _ _ _ I0 HO E) as (fs & F & W). destruct (accepted_frames _ _ HO F) as [F' _].
  pose proof (run_outstanding _ _ _ _ I0 HO E) as RO. rewrite O0 in RO. cbn [app] in RO. rewrite RO in F'. apply Forall2_app_inv_l in F' as (f1 & f2 & F1 & F2 & ->).
  exists f1, f2. split; [exact F1|]. split; [exact F2|]. unfold written in W. rewrite W, W0, app_nil_r, concat_app. reflexivity.
Qed.
Definition published_as (cfg : Cfg) (e : Event) (a : action) : Prop :=
  exists v, Event_ser e = Ok v /\ Event_de FromText v = Ok e /\ a = APublish (topic_prefix cfg ++ B "/event") false (PJson v).
Definition all_put (cfg : Cfg) (u0 u : up) : Prop := exists ops bs fs rest, Forall op_ok ops /\ run (u_panel u0) ops = Ok (u_panel u, bs) /\
  Forall2 request_frame (completions bs) fs /\ sent (p_conn (u_panel u)) = sent (p_conn (u_panel u0)) ++ concat fs ++ rest /\
  Forall2 (published_as cfg) (events bs) (filter is_event_pub (u_log u)) /\ bridge_low u /\ (u_mode u = Flushing -> cmd_state (u_panel u) <> Idle) /\
  (u_mode u = Selecting -> outstanding (u_panel u) = [] -> rest = []).
Lemma all_put_step cl cfg u0 u i u' : came_up cl cfg u0 -> all_put cfg u0 u -> binv cl cfg u -> input_ok i -> moved cl cfg u i u' -> bstep cl cfg (Up u) i = Up u' -> all_put cfg u0 u'.
Proof.
  intros (C & _ & _) (ops & bs & fs & rest & H1 & H2 & H3 & H4 & H5 & H6 & H7 & _) B Hi M E. destruct (connected_inv _ C) as (I0 & C0 & _ & W0). pose proof B as (R & RG & _). destruct (reachable_inv _ R) as [I _].
  destruct (bstep_low _ _ _ _ _ B Hi H7 H6 E) as [H6' H7'].
  destruct M as (ops2 & bs2 & hd & os & M1 & M2 & _ & _ & _ & _ & _ & _ & M3).
  assert (RR : run (u_panel u0) (ops ++ ops2) = Ok (u_panel u', bs ++ bs2)) by (rewrite run_app, H2; cbn [bind]; rewrite M2; reflexivity).
  assert (HO : Forall op_ok (ops ++ ops2)) by (apply Forall_app; auto).
  assert (O0 : outstanding (u_panel u0) = []) by (unfold outstanding; rewrite C0; reflexivity).
  destruct (written_frames _ _ _ _ I0 O0 W0 HO RR) as (f1 & f2 & F1 & F2 & EW).
  assert (ZZ : forall rest', sent (p_conn (u_panel u')) = sent (p_conn (u_panel u0)) ++ concat f1 ++ rest' -> u_mode u' = Selecting -> outstanding (u_panel u') = [] -> rest' = []).
  { intros rest' E' EM EO. rewrite EO in F2. inversion F2; subst. assert (WB : wbuf (p_conn (u_panel u')) = []) by (apply H6'; rewrite EM; discriminate).
    rewrite WB in EW. cbn [concat] in EW. rewrite !app_nil_r, E' in EW. apply app_inv_head in EW. rewrite <- (app_nil_r (concat f1)) in EW at 2. apply app_inv_head in EW. exact EW. }
  exists (ops ++ ops2), (bs ++ bs2), f1. destruct M3 as [(EV & EL)|(now & r & w & e & l & PN & Y & -> & HE & EL)].
  - destruct (run_sent _ _ _ _ I M1 M2) as (x & EX). exists (rest ++ x).
    assert (f1 = fs) as ->.
    { eapply frames_fun; [exact F1|]. rewrite completions_app. assert (completions bs2 = []) as -> by (unfold completions; rewrite EV; reflexivity). rewrite app_nil_r. exact H3. }
    assert (EQ : sent (p_conn (u_panel u')) = sent (p_conn (u_panel u0)) ++ concat fs ++ rest ++ x) by (rewrite EX, H4, <- !app_assoc; reflexivity).
    split; [exact HO|]. split; [exact RR|]. split; [exact F1|]. split; [exact EQ|]. split; [rewrite events_app, EV, EL, app_nil_r; exact H5|]. split; [exact H6'|]. split; [exact H7' | exact (ZZ _ EQ)].
  - assert (EM : u_mode u = Selecting).
    { destruct (u_mode u) eqn:EM; [reflexivity| |]; exfalso; (assert (EQ : u_log u' = u_log u) by (eapply not_selecting; [exact E | congruence])); rewrite EL in EQ;
      apply (handles_something _ _ _ _ _ HE); rewrite <- (app_nil_r (u_log u)) in EQ at 2; apply app_inv_head in EQ; exact EQ. }
    assert (WB : wbuf (p_conn (u_panel u)) = []) by (apply H6; rewrite EM; discriminate).
    exists (concat f2).
    pose proof (poll_next_inv _ _ _ _ _ I PN) as [_ (rc & X & _)]. destruct (nexts_same_write _ _ _ X) as (W1 & W2 & _).
    rewrite W1, WB, app_nil_r in EW. split; [exact HO|]. split; [exact RR|]. split; [exact F1|]. split; [exact EW|]. split; [|split; [exact H6' | split; [exact H7' | exact (ZZ _ EW)]]].
    rewrite events_app, EL, filter_app. apply Forall2_app; [exact H5|].
    assert (R' := reachable_poll _ _ _ _ _ R PN). destruct (handle_event_ok _ _ _ _ _ R' RG HE) as (v & l' & S & -> & EP & _).
    pose proof (run_event_ok _ _ _ _ I M1 M2) as OK. assert (EE : events [ONext r w] = [e]) by (unfold yields in Y; subst r; reflexivity). rewrite EE in *. inversion OK as [|? ? O1 _]; subst.
    assert (NZ : ~ event_zs e) by (intros H; destruct (Event_zs e H); congruence). destruct (Event_rt e O1 NZ) as (v' & S' & D & _).
    cbn [filter is_event_pub negb]. constructor; [exists v; split; [exact S|]; split; [congruence | reflexivity]|].
    replace (filter is_event_pub l') with (@nil action); [constructor|]. symmetry. apply filter_none. unfold event_pubs in EP. destruct (e_change e) as [[k x|prior]|].
    + destruct EP as [(c & a & _ & (t' & _ & ->) & ->)|[_ ->]]; repeat constructor.
    + clear -EP. induction EP as [|x a xs l (t & _ & ->) _ IH]; constructor; auto.
    + subst l'. constructor.
Qed.
Lemma came_up_put cl cfg u0 : came_up cl cfg u0 -> all_put cfg u0 u0.
Proof.
  intros (C & S & M). destruct (connected_inv _ C) as (_ & _ & _ & W). exists [], [], [], []. cbn [concat]. rewrite !app_nil_r. split; [constructor|]. split; [reflexivity|]. split; [constructor|]. split; [reflexivity|].
  split; [rewrite (start_up_no_events _ _ _ _ _ (connected_reachable _ C) S); constructor|]. split; [split; rewrite W; [cbn; lia | reflexivity]|]. split; [rewrite M; discriminate | reflexivity].
Qed.
Lemma put_on cl cfg u0 u js u' : came_up cl cfg u0 -> binv cl cfg u -> all_put cfg u0 u -> Forall input_ok js -> fold_left (bstep cl cfg) js (Up u) = Up u' -> binv cl cfg u' /\ all_put cfg u0 u'.
Proof.
  intros CU B A HI E. exact (up_ind cl cfg u (fun _ v => all_put cfg u0 v) B A (fun js v i v' K B Hi M ES => all_put_step cl cfg u0 v i v' CU K B Hi M ES) js u' HI E).
Qed.
Lemma bridge_put cl cfg is u : bridge_after cl cfg is (Up u) -> exists u0, came_up cl cfg u0 /\ binv cl cfg u /\ all_put cfg u0 u.
Proof.
  intros [HI E]. pose proof (brun_cases cl cfg is HI) as BC. rewrite E in BC. destruct BC as (u0 & is1 & is2 & -> & CU & _ & E1 & EF).
  apply Forall_app in HI as [HI1 HI2]. exists u0. split; [exact CU|]. eapply put_on; eauto; [eapply came_up_binv | eapply came_up_put]; eauto.
Qed.
(* Whatever the panel, the network and MQTT clients do: when an event published by the bridge says that a command is complete, then that command, and all before it,
   have been handed to the panel's socket in full. *)
Theorem C120_completed_was_sent : forall cl cfg is u, bridge_after cl cfg is (Up u) ->
  exists p0 es fs rest, connected p0 /\
    Forall2 (fun e a => exists v, Event_ser e = Ok v /\ Event_de FromText v = Ok e /\ a = APublish (topic_prefix cfg ++ B "/event") false (PJson v)) es (filter is_event_pub (u_log u)) /\
    Forall2 request_frame (completed es) fs /\ sent (p_conn (u_panel u)) = sent (p_conn p0) ++ concat fs ++ rest.
Proof.
  intros cl cfg is u A. destruct (bridge_put _ _ _ _ A) as (u0 & (C & _) & _ & (ops & bs & fs & rest & H1 & H2 & H3 & H4 & H5 & _)).
  exists (u_panel u0), (events bs), fs, rest. auto.
Qed.
(* Home Assistant and the panel, end to end.  In a fair execution (SpecHost.v), from when the bridge is up on, Home Assistant knows each configured area's alarm panel, and which
   topic to publish to.  If it then publishes what it sends for disarming, arming home or arming away, the next bytes that the panel's socket gets after those already written are the
   request for this area, this level and the configured code; and an event completing it is published. *)
Theorem C120_button : forall file o h nm cl cfg (may : packet -> Prop) ts acts ha area name k,
  main_text file = Ok (o, h, cfg) -> well_configured cl cfg -> turns_on nm cl cfg may ts acts -> fair_host ts acts ->
  ha_discovery_prefix cfg = Some ha -> In (area, name) (areas cfg) -> (exists u, h_bridge (t_host (ts k)) = Up u) ->
  exists u id v ct code', h_bridge (t_host (ts k)) = Up u /\
    announced (u_log u) ha (B "alarm_control_panel") id v /\ text_member v (B "name") name /\ text_member v (B "command_topic") ct /\ dec_canon 6 (code cfg) code' /\
    forall action level s, In (action, level) honoured -> sends_for v action s ->
    forall j uj, (k <= j)%nat -> h_bridge (t_host (ts j)) = Up uj -> acts j = UMqtt ct s ->
    exists f n, request_frame (MArmRequest (mkArmRequest area level code')) f /\
      forall m, (n <= m)%nat -> exists um later e j' more, h_bridge (t_host (ts m)) = Up um /\ sent (p_conn (u_panel um)) = sent (p_conn (u_panel uj)) ++ f ++ later /\
        u_log um = u_log uj ++ more /\ In (APublish (topic_prefix cfg ++ B "/event") false (PJson j')) more /\ Event_de FromText j' = Ok e /\
        e_completes e = Some (MArmRequest (mkArmRequest area level code')).
Proof.
  intros file o h nm cl cfg may ts acts ha area name k M W ON FAIR HH HI (u & EU). pose proof W as ((RG1 & RG2 & RG3) & DN & _).
  pose proof (waits_any _ _ _ _ _ _ ON) as ANY. destruct (inputs_at nm cl cfg may ts acts ANY k) as (is & A & _). rewrite EU in A.
  destruct (C115_areas_understood_partial _ _ _ _ _ _ _ _ _ _ M A DN HH HI) as (id & v & st & ct & av & t & a & AN & _ & _ & _ & _ & NA & _ & _ & _ & _ & _ & _ & _ & CT & _ & _ & _ & SF).
  assert (exists code', dec_canon 6 (code cfg) code') as (code' & DC).
  { destruct (C20_code_from_number_no_panic (code cfg)) as [(c & E)|(e & E)]; [exists c; apply code_canon in E; tauto|].
    unfold ArmCode_try_from_u32 in E. destruct (1000000 <=? code cfg) eqn:EL; [lia|]. destruct (_ =? _)%nat; discriminate. }
  exists u, id, v, ct, code'. do 5 (split; [assumption|]). intros action level s HO SE j uj L EJ AJ.
  destruct (SF _ _ SE) as [SFH _]. specialize (SFH _ HO (CmdArm (mkArmRequest area level code'))). destruct SFH as [_ SFH]. pose proof (SFH (ex_intro _ code' (conj DC eq_refl))) as ASK. clear SFH SF.
  set (c := CmdArm (mkArmRequest area level code')) in *.
  assert (AJ2 : t_asked (ts (S j)) = t_asked (ts j) ++ [c] /\ length (t_asked (ts j)) = length (completed (t_events (ts j)))).
  { pose proof (proj2 ON j) as T. rewrite AJ in T. inversion T as [| | | |tp pl o' RD AS PT EA ET| | |]; subst. cbn [t_asked]. destruct o' as [c'|]; [|elim (AS _ ASK)].
    cbn [asked] in AS. rewrite (asks_fun _ _ _ _ DN AS ASK). split; [reflexivity | apply PT; discriminate]. }
  destruct AJ2 as [AJ2 PT]. clear A is EU AN.
  destruct (inputs_at nm cl cfg may ts acts ANY j) as (is & A & NI). pose proof A as A'. rewrite EJ in A'. destruct (bridge_put _ _ _ _ A') as (u0 & CU & BJ & PJ).
  pose proof (C100_is_the_program nm cl cfg may _ (on_to nm cl cfg may ts acts ON j)) as GJ.
  pose proof (C99_published nm cl cfg may _ uj W GJ EJ) as EVJ. cbn [service_of v_events] in EVJ.
  destruct (C99_in_order nm cl cfg may _ W GJ) as (rx & os & out & H & _ & EQ & _). cbn [service_of v_bridge v_events v_asked] in H, EQ. rewrite EJ in H.
  destruct H as [((i & H) & _)|(u2 & H & _ & EO)]; [discriminate H|]. injection H as <-.
  assert (LQ := f_equal (@length _) EQ). rewrite !app_length, !map_length in LQ. assert (out = []) as -> by (destruct out; [reflexivity | cbn [length] in LQ; lia]).
  assert (map into_msg (catMaybes os) = []) as EOS by (destruct (catMaybes os); [reflexivity | cbn [length] in LQ; lia]). rewrite EOS, !app_nil_r in EQ. clear EOS LQ os rx.
  symmetry in EO. apply app_eq_nil in EO as [EO1 EO2].
  pose proof PJ as PJ0. destruct PJ as (ops & bs & fs & rest & H1 & H2 & H3 & H4 & H5 & H6 & H7 & H8).
  assert (SEL : u_mode uj = Selecting).
  { destruct (u_mode uj) eqn:EM; [reflexivity| |]; exfalso; [unfold waiting in EO2; rewrite EM in EO2; discriminate EO2|]. apply H7; [reflexivity|]. unfold outstanding in EO1. destruct (cmd_state (u_panel uj)); [reflexivity | discriminate EO1]. }
  rewrite (H8 SEL EO1), app_nil_r in H4. pose proof (same_events _ _ _ _ H5 EVJ) as EB.
  destruct (C100_all_completed nm cl cfg may ts acts (S j) W ON FAIR) as (n & CM).
  assert (FR : exists f, request_frame (into_msg c) f).
  { destruct (inputs_at nm cl cfg may ts acts ANY (max n j)) as (is' & A2 & _). destruct (CM (max n j) ltac:(lia)) as (um & later & EM & _ & EC). rewrite EM in A2. destruct (bridge_put _ _ _ _ A2) as (_ & _ & _ & (_ & bs' & fs' & _ & _ & _ & K3 & _ & K5 & _)).
    pose proof (C99_published nm cl cfg may _ um W (C100_is_the_program nm cl cfg may _ (on_to nm cl cfg may ts acts ON (max n j))) EM) as EVM. cbn [service_of v_events] in EVM.
    change (completions bs') with (completed (events bs')) in K3. rewrite (same_events _ _ _ _ K5 EVM), EC, AJ2, map_app, <- app_assoc in K3. apply Forall2_app_inv_l in K3 as (f1 & f2 & _ & K3 & _). cbn [map app] in K3. inversion K3; subst. eauto. }
  destruct FR as (f & FR). exists f, (max n j). split; [exact FR|]. intros m Lm. destruct (CM m ltac:(lia)) as (um & later & EM & _ & EC).
  destruct (inputs_from nm cl cfg may ts acts ANY is j (m - j) A NI) as (is2 & A2 & _). replace (m - j + j)%nat with m in A2 by lia. rewrite EM in A2.
  pose proof A2 as [F2 E2]. unfold brun in E2. rewrite fold_left_app in E2. pose proof A' as [F1 E1]. unfold brun in E1. rewrite E1 in E2. apply Forall_app in F2 as [_ F2].
  destruct (put_on _ _ _ _ _ _ CU BJ PJ0 F2 E2) as [BM (ops' & bs' & fs' & rest' & K1 & K2 & K3 & K4 & K5 & _)].
  pose proof (C99_published nm cl cfg may _ um W (C100_is_the_program nm cl cfg may _ (on_to nm cl cfg may ts acts ON m)) EM) as EVM. cbn [service_of v_events] in EVM.
  change (completions bs') with (completed (events bs')) in K3. change (completions bs) with (completed (events bs)) in H3.
  rewrite (same_events _ _ _ _ K5 EVM), EC, AJ2, map_app, <- app_assoc in K3. rewrite EB, <- EQ in H3.
  apply Forall2_app_inv_l in K3 as (f1 & f2 & K31 & K32 & ->). cbn [map app] in K32. inversion K32 as [|? f' ? f3 K33 K34]; subst. rewrite (frames_fun _ _ _ K31 H3) in K4.
  assert (f' = f) as -> by (assert (X : [f'] = [f]) by exact (frames_fun [into_msg c] [f'] [f] (Forall2_cons _ _ K33 (Forall2_nil _)) (Forall2_cons _ _ FR (Forall2_nil _))); congruence).
  destruct (C58_events_published _ _ _ _ _ _ A' A2) as (_ & bl & log & _ & _ & _ & EL & _).
  rewrite EL, filter_app in EVM. apply Forall2_app_inv_r in EVM as (e1 & e2 & V1 & V2 & EE). pose proof (same_events _ _ _ _ V1 EVJ) as ->.
  assert (CE : completed e2 = into_msg c :: map into_msg [] ++ later).
  { rewrite EE, AJ2, map_app, EQ in EC. unfold completed in EC at 1. rewrite map_app, catMaybes_app in EC. rewrite <- app_assoc in EC. apply app_inv_head in EC. exact EC. }
  assert (exists e, In e e2 /\ e_completes e = Some (into_msg c)) as (e & IE & CE2).
  { assert (X : In (into_msg c) (completed e2)) by (rewrite CE; left; reflexivity). unfold completed in X. apply (proj1 (in_catMaybes _ _)) in X. apply in_map_iff in X as (e & X1 & X2). eauto. }
  destruct (Forall2_in _ _ _ _ V2 IE) as (a' & IA & (j' & _ & DE & ->)). apply filter_In in IA as [IA _].
  exists um, (concat f3 ++ rest'), e, j', log. split; [exact EM|]. split; [rewrite K4, H4, concat_app; cbn [concat]; rewrite <- !app_assoc; reflexivity|]. auto.
Qed.

(* The execution of C100_example, with the configuration file of C79_example.  In turn 74, the bridge is up, and disarming is asked for, with what the announcement says
   is sent to disarm; the next that is written to the panel is the request to disarm area 1, with the configured code. *)
Definition now_up (b : bridge) : option up := match b with Up u => Some u | _ => None end.
Example C120_example : exists o h, main_text ex_text = Ok (o, h, ex_cfg) /\ well_configured ex_cl ex_cfg /\
  turns_on ex_naming ex_cl ex_cfg ex_may ex_host (fun n => turn_of (ex_turn n)) /\ fair_host ex_host (fun n => turn_of (ex_turn n)) /\
  ha_discovery_prefix ex_cfg = Some (B "homeassistant") /\ In (1, B "house") (areas ex_cfg) /\
  exists uj ul, h_bridge (t_host (ex_host 74)) = Up uj /\ turn_of (ex_turn 74) = UMqtt (B "elkm1/0001/area/house/ha_command") (B "DISARM") /\
    h_bridge (t_host ex_last) = Up ul /\ sent (p_conn (u_panel ul)) = sent (p_conn (u_panel uj)) ++ bytes_of (MArmRequest (mkArmRequest 1 AL_Disarm (B "001234"))).
Proof.
  destruct C79_example as ((o & h & M) & _). exists o, h. split; [exact M|]. split; [exact (proj1 C100_example)|]. split; [exact (proj1 (proj2 C100_example))|]. split; [exact (proj1 (proj2 (proj2 C100_example)))|].
  split; [reflexivity|]. split; [left; reflexivity|].
  destruct (now_up (h_bridge (t_host (ex_host 74)))) as [uj|] eqn:E; [|vm_compute in E; discriminate E]. exists uj.
  destruct (now_up (h_bridge (t_host ex_last))) as [ul|] eqn:E2; [|vm_compute in E2; discriminate E2]. exists ul.
  split; [destruct (h_bridge (t_host (ex_host 74))); try discriminate E; injection E as ->; reflexivity|]. split; [vm_compute; reflexivity|].
  split; [destruct (h_bridge (t_host ex_last)); try discriminate E2; injection E2 as ->; reflexivity|]. vm_compute in E. vm_compute in E2. injection E as <-. injection E2 as <-. vm_compute. reflexivity.
Qed.

Print Assumptions C120_completed_was_sent.
Print Assumptions C120_button.
