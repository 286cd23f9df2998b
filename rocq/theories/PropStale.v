(* PropStale.v: C137, what the bridge shows after a byte from the panel was damaged or lost (pkt.rs, state.rs, elkm1-mqtt/src/main.rs). *)
From Verif Require Import Base BaseFacts Pkt SpecPkt PktFacts DecodeFacts Msg SpecMsg DecFacts MsgFacts WireFacts IsoFacts
  Tokio SpecConn ConnFacts State SpecState StateFacts RunFacts HistFacts ViewFacts ExState PropState PropMsg Serde SerdeFacts PropSerde
  Mqtt MqttFacts Config SpecMqtt SpecConfig PropMqtt SpecFollow PropFollow SpecAgree PropAgree SpecLoss PropLoss.
From Coq Require Import ZifyBool ZifyNat ZifyN.
Ltac Zify.zify_post_hook ::= Z.div_mod_to_equations.

Lemma bridge_reachable cl cfg is u : bridge_after cl cfg is (Up u) -> reachable (u_panel u) /\ in_range cfg.
Proof. intros A. pose proof A as A'. rewrite <- (app_nil_r is) in A'. destruct (bridge_between cl cfg is u [] u A A') as [(R & IR & _) _]. auto. Qed.
Lemma refused_none q : refused q -> message_of q = None.
Proof. intros (raw & why & ->). reflexivity. Qed.
Lemma no_messages qs : Forall refused qs -> messages_in qs = [].
Proof. unfold messages_in. induction 1 as [|q l H R IH]; [reflexivity|]. cbn [map]. rewrite (refused_none _ H). exact IH. Qed.
(* A wrong byte behind the length of a packet costs what this packet said and nothing else: once the bridge has read all, every zone's topic shows the status the packets that follow leave it in, and every area's the latest report among them. *)
Theorem C137_wrong_partial : forall cl cfg is1 u1 is2 u2 body f f' i s qs left,
  bridge_after cl cfg is1 (Up u1) -> bridge_after cl cfg (is1 ++ is2) (Up u2) -> unread (p_conn (u_panel u1)) = [] -> all_read (u_panel u2) ->
  ascii_body body -> encode (PAscii body) [] = Ok f -> wrong_at i f f' -> (2 <= i)%nat -> u8s s -> drain s = Ok (qs, left) -> net_in is2 = f' ++ s ->
  (forall zone z s0, cfg_ok cfg -> distinct_zone_names cfg -> In (zone, z) (zones cfg) -> zone_status_is (u_panel u1) zone s0 ->
     exists t, shows_zone (zone_after zone s0 (messages_in qs)) t /\ holds (u_log u2) (topic_prefix cfg ++ B "/zone/" ++ z_name z ++ B "/ha_state") (PText t)) /\
  (forall area name rs latest, distinct_area_names cfg -> In (area, name) (areas cfg) -> held (u_panel u2) = None -> reports_in qs = rs ++ [latest] ->
     exists st up al t, area_in latest area st up al /\ shows_area st up al t /\ holds (u_log u2) (topic_prefix cfg ++ B "/area/" ++ name ++ B "/ha_state") (PText t)).
Proof.
  intros cl cfg is1 u1 is2 u2 body f f' i s qs left A1 A2 U0 AR HB E W I Us D EN. destruct (bridge_reachable _ _ _ _ A1) as [R IR].
  destruct (C58_events_published cl cfg is1 u1 is2 u2 A1 A2) as (ops & bs & log & OO & ER & EA & _). pose proof (reachable_inv _ R) as [I0 _].
  pose proof (read_packets _ _ _ _ R OO ER AR) as DR. rewrite U0, EA, EN in DR. cbn [app] in DR.
  destruct (C132_one_packet_partial body f f' i [] s [] qs left HB E W I (Forall_nil _) Us eq_refl D) as (why & DW). cbn [app] in DW. rewrite DW in DR. injection DR as EP _.
  assert (EM : messages bs = messages_in qs) by (unfold messages; rewrite <- EP; reflexivity).
  assert (EK : as_reports bs = reports_in qs) by (unfold as_reports; rewrite <- EP; reflexivity). split.
  - intros zone z s0 CO DN Iz S0. assert (Hz : 1 <= zone <= 208) by (destruct IR as (_ & IR & _); rewrite Forall_forall in IR; exact (IR _ Iz)).
    pose proof (zone_run _ _ _ _ zone s0 I0 OO ER Hz S0) as Z. rewrite EM in Z. destruct (C49_zone_topics_match cl cfg _ u2 zone z A2 CO DN Iz) as (t & (s' & S1 & S2) & H).
    rewrite (zone_det _ _ _ _ S1 Z) in S2. exists t. split; [exact S2 | exact H].
  - intros area name rs latest DN Ia HD EL. destruct (newest_ex _ (proj2 (reachable_inv _ R))) as (x & NX). pose proof (newest_run _ _ _ _ x R OO ER NX) as NL. rewrite EK, EL, last_last in NL.
    destruct NL as [NL|[_ NL]]; [congruence|]. destruct (C48_area_topics_match cl cfg _ u2 area name A2 DN Ia) as (t & (r & st & up & al & S1 & S2 & S3) & H).
    assert (r = latest) as -> by (unfold status_is in *; congruence). exists st, up, al, t. split; [exact S2|]. split; [exact S3 | exact H].
Qed.
Lemma stale cl cfg is1 u1 is2 u2 src qs left : bridge_after cl cfg is1 (Up u1) -> bridge_after cl cfg (is1 ++ is2) (Up u2) -> unread (p_conn (u_panel u1)) = [] ->
  net_in is2 = src -> drain src = Ok (qs, left) -> Forall refused qs -> cfg_ok cfg -> distinct_zone_names cfg -> forall zone z, In (zone, z) (zones cfg) ->
  exists t, holds (u_log u1) (topic_prefix cfg ++ B "/zone/" ++ z_name z ++ B "/ha_state") (PText t) /\ holds (u_log u2) (topic_prefix cfg ++ B "/zone/" ++ z_name z ++ B "/ha_state") (PText t).
Proof.
  intros A1 A2 U0 EN D RF CO DN zone z Iz. destruct (bridge_reachable _ _ _ _ A1) as [R IR]. pose proof (reachable_inv _ R) as [I0 _].
  destruct (C58_events_published cl cfg is1 u1 is2 u2 A1 A2) as (ops & bs & log & OO & ER & EA & _).
  pose proof (run_takes _ _ _ _ I0 OO ER) as T. rewrite U0, EA, EN in T. cbn [app] in T. pose proof (run_pinv _ _ _ _ I0 OO ER) as I2.
  destruct (drain_total _ (unread_u8 _ (proj1 I2))) as (qs' & left' & _ & D').
  assert (UA : u8s src) by (rewrite <- EN, <- EA; apply arrived_u8; exact OO). apply drain_iff in D; [|exact UA].
  destruct (drains_det _ _ _ D _ _ (takes_drains _ _ _ T _ _ D')) as [-> _]. apply Forall_app in RF as [RF _].
  assert (Hz : 1 <= zone <= 208) by (destruct IR as (_ & IR & _); rewrite Forall_forall in IR; exact (IR _ Iz)).
  destruct (C49_zone_topics_match cl cfg _ u1 zone z A1 CO DN Iz) as (t & (s0 & S0 & X0) & H0). destruct (C49_zone_topics_match cl cfg _ u2 zone z A2 CO DN Iz) as (t' & (s1 & S1 & X1) & H1).
  pose proof (zone_run _ _ _ _ zone s0 I0 OO ER Hz S0) as Z. unfold messages in Z. rewrite (no_messages _ RF) in Z. rewrite (zone_det _ _ _ _ S1 Z) in X1. rewrite (shows_zone_fun _ _ _ X1 X0) in H1.
  exists t. split; assumption.
Qed.
(* With a lost byte, or a certain wrong one in the length, it costs everything: however many reports of changed zones follow, no zone's topic changes any more, ever. *)
Theorem C137_lost_refuted : forall cl cfg is1 u1 is2 u2 m f f' i ms fs,
  bridge_after cl cfg is1 (Up u1) -> bridge_after cl cfg (is1 ++ is2) (Up u2) -> unread (p_conn (u_panel u1)) = [] -> cfg_ok cfg -> distinct_zone_names cfg ->
  zone_report m -> carries f m -> lost_at i f f' -> Forall zone_report ms -> Forall2 carries fs ms -> net_in is2 = f' ++ concat fs ->
  forall zone z, In (zone, z) (zones cfg) -> exists t,
    holds (u_log u1) (topic_prefix cfg ++ B "/zone/" ++ z_name z ++ B "/ha_state") (PText t) /\ holds (u_log u2) (topic_prefix cfg ++ B "/zone/" ++ z_name z ++ B "/ha_state") (PText t).
Proof.
  intros cl cfg is1 u1 is2 u2 m f f' i ms fs A1 A2 U0 CO DN HM HC HL M F EN. destruct (C133_lost_refuted m f f' i ms fs HM HC HL M F) as (qs & left & D & RF & _). exact (stale cl cfg is1 u1 is2 u2 _ qs left A1 A2 U0 EN D RF CO DN).
Qed.
Theorem C137_wrong_refuted : forall m f, zone_report m -> carries f m -> exists f', wrong_at 1 f f' /\
  forall cl cfg is1 u1 is2 u2 ms fs, bridge_after cl cfg is1 (Up u1) -> bridge_after cl cfg (is1 ++ is2) (Up u2) -> unread (p_conn (u_panel u1)) = [] -> cfg_ok cfg -> distinct_zone_names cfg ->
    Forall zone_report ms -> Forall2 carries fs ms -> net_in is2 = f' ++ concat fs ->
    forall zone z, In (zone, z) (zones cfg) -> exists t,
      holds (u_log u1) (topic_prefix cfg ++ B "/zone/" ++ z_name z ++ B "/ha_state") (PText t) /\ holds (u_log u2) (topic_prefix cfg ++ B "/zone/" ++ z_name z ++ B "/ha_state") (PText t).
Proof.
  intros m f HM HC. destruct (C132_wrong_byte_refuted m f HM HC) as (f' & HW & H). exists f'. split; [exact HW|]. intros cl cfg is1 u1 is2 u2 ms fs A1 A2 U0 CO DN M F EN.
  destruct (H ms fs M F) as (qs & left & D & RF & _). exact (stale cl cfg is1 u1 is2 u2 _ qs left A1 A2 U0 EN D RF CO DN).
Qed.

(* Zone 2 is open.  The panel reports it closed, again and again. *)
Definition ex_closed : bytes := bytes_of (MZoneChange (mkZC 2 2)).
Definition polls (n : nat) : list input := map (fun i => PollPanel (N.of_nat i)) (seq 7 n).
Definition ex_lossy (first : bytes) : list input := NetArrive (Bytes (first ++ concat (repeat ex_closed 30))) :: polls 12.
Definition ex_after (first : bytes) : up := up_of (brun ex_cl ex_cfg (ex_start ++ ex_lossy first)).
Definition front_topic : bytes := B "elkm1/0001/zone/front/ha_state".
Lemma ex_lossy_ok first : forallb (fun b => b <? 256) first = true -> Forall input_ok (ex_start ++ ex_lossy first).
Proof.
  intros H. apply Forall_app. split; [exact ex_start_ok|]. apply Forall_cons.
  - apply Forall_forall. intros b Hb. apply N.ltb_lt. revert b Hb. apply forallb_forall. rewrite forallb_app, H. vm_compute. reflexivity.
  - unfold polls. apply Forall_forall. intros i Hi. apply in_map_iff in Hi as (n & <- & _). exact Logic.I.
Qed.
Example C137_example :
  retained (u_log ex_up) front_topic = Some (PText (B "on")) /\ unread (p_conn (u_panel ex_up)) = [] /\ zone_report (MZoneChange (mkZC 2 2)) /\ carries ex_closed (MZoneChange (mkZC 2 2)) /\
  (* as it should be *)
  retained (u_log (ex_after ex_closed)) front_topic = Some (PText (B "off")) /\
  (* the first byte is lost *)
  bridge_after ex_cl ex_cfg (ex_start ++ ex_lossy (tl ex_closed)) (Up (ex_after (tl ex_closed))) /\ lost_at 0 ex_closed (tl ex_closed) /\
  net_in (ex_lossy (tl ex_closed)) = tl ex_closed ++ concat (repeat ex_closed 30) /\ retained (u_log (ex_after (tl ex_closed))) front_topic = Some (PText (B "on")).
Proof.
  split; [vm_compute; reflexivity|]. split; [vm_compute; reflexivity|]. split; [exists 2, 2; split; [reflexivity|]; split; [lia|]; cbn; repeat split; vm_compute; (reflexivity || discriminate)|]. split; [eexists; split; vm_compute; reflexivity|].
  split; [vm_compute; reflexivity|]. split; [split; [apply ex_lossy_ok; vm_compute; reflexivity | vm_compute; reflexivity]|]. split; [exists [], 48, (tl ex_closed); repeat split|].
  split; [vm_compute; reflexivity | vm_compute; reflexivity].
Qed.
(* the sixth byte is wrong *)
Definition ex_wrong : bytes := B "0AZC012200CE" ++ [13; 10].
Example C137_example_wrong :
  bridge_after ex_cl ex_cfg (ex_start ++ ex_lossy ex_wrong ++ polls 30) (Up (up_of (brun ex_cl ex_cfg (ex_start ++ ex_lossy ex_wrong ++ polls 30)))) /\ wrong_at 5 ex_closed ex_wrong /\
  all_read (u_panel (up_of (brun ex_cl ex_cfg (ex_start ++ ex_lossy ex_wrong ++ polls 30)))) /\
  retained (u_log (up_of (brun ex_cl ex_cfg (ex_start ++ ex_lossy ex_wrong ++ polls 30)))) front_topic = Some (PText (B "off")).
Proof.
  split.
  - split; [|vm_compute; reflexivity]. rewrite app_assoc. apply Forall_app. split; [apply ex_lossy_ok; vm_compute; reflexivity|]. apply Forall_forall. intros i Hi. apply in_map_iff in Hi as (n & <- & _). exact Logic.I.
  - split; [exists (B "0AZC0"), 48, 49, (B "2200CE" ++ [13; 10]); split; [vm_compute; reflexivity|]; repeat split; discriminate|]. split; [eexists; vm_compute; reflexivity | vm_compute; reflexivity].
Qed.

Print Assumptions C137_wrong_partial.
Print Assumptions C137_lost_refuted.
Print Assumptions C137_wrong_refuted.
