(* PropUnasked.v: C129, nothing is armed or disarmed unasked (state.rs, main.rs of elkm1-mqtt). *)
From Verif Require Import Base BaseFacts Pkt SpecPkt PktFacts DecodeFacts Msg SpecMsg DecFacts MsgFacts WireFacts IsoFacts
  PropMsg PropPkt Tokio SpecConn ConnFacts OwedFacts Pair SpecPair PairFacts State SpecState StateFacts RunFacts HistFacts ViewFacts ExState PropState PropSink SpecInit InitFacts
  Serde SerdeFacts PropSerde Mqtt SpecMqtt MqttFacts PropMqtt SpecBuffer PropBuffer SpecFlow FlowFacts SpecUnasked.
From Coq Require Import ZifyBool ZifyNat ZifyN.
Ltac Zify.zify_post_hook ::= Z.div_mod_to_equations.

(* ---- connecting ---- *)
Definition queried (p : Panel) : Prop := exists qs fs, Forall query qs /\ Forall2 request_frame qs fs /\ written (p_conn p) = concat fs.
Definition iqueried (i : istate) : Prop := match i with IRun _ _ p | IDone p => queried p | _ => True end.
Lemma queried_same p p' : written (p_conn p') = written (p_conn p) -> queried p -> queried p'.
Proof. intros E (qs & fs & K). exists qs, fs. rewrite E. exact K. Qed.
Lemma istep_queried now ws i : iinv i -> iqueried i -> iqueried (istep now ws i).
Proof.
  destruct i as [s ph p|p|e|w]; auto. intros (I & C & S & W) V. destruct ph; cbn [istep].
  - unfold conn_poll_ready. rewrite W by discriminate. cbn [length]. change (BACKPRESSURE <=? N.of_nat 0) with false. cbv beta iota.
    destruct (to_pkt_spec _ (stage_msg_wf s p S)) as (b & -> & HW & Hb & _). cbn [bind].
    destruct (encode_valid (PAscii b) Hb) as (f & HF & HE). unfold conn_start_send. rewrite HE. cbn [bind iqueried].
    destruct V as (qs & fs & Q & F & WW). exists (qs ++ [stage_msg s]), (fs ++ [f]).
    split; [apply Forall_app; split; [exact Q|]; constructor; [destruct s; exact Logic.I | constructor]|].
    split; [apply Forall2_app; [exact F|]; constructor; [|constructor]; split; [exact (stage_msg_wf s p S)|]; exists b; auto|].
    unfold written in *; cbn [p_conn with_conn sent wbuf]; rewrite concat_app, <- WW; cbn [concat]; rewrite app_nil_r, <- app_assoc; reflexivity.
  - destruct (conn_poll_flush (p_conn p) ws) as [[c ws'] r] eqn:EF.
    destruct (conn_flush_spec _ _ _ _ _ EF) as (_ & _ & WW & _).
    destruct r as [|[[]|e]]; cbn [iqueried]; auto; (eapply queried_same; [|exact V]); exact WW.
  - pose proof I as (CI & _). destruct (conn_next_total _ CI) as (c & r & E & X). rewrite E.
    destruct (await_eof_fails s) as (eof & ->). destruct (nexts_same_write _ _ _ X) as (E1 & E2 & _).
    assert (WC : written c = written (p_conn p)) by (unfold written; congruence).
    destruct r as [|[[pkt|e]|]]; try exact Logic.I.
    + eapply queried_same; [|exact V]. exact WC.
    + pose proof (with_conn_inv p c I (nexts_inv _ _ _ X CI) E1) as I'.
      destruct (interpret_spec now (with_conn p c) pkt I' (nexts_pkt_ok _ _ _ X CI)) as (p' & e & w & EI & I2 & C2 & (EK & Y)). rewrite EI.
      assert (WP : written (p_conn p') = written (p_conn p)) by (rewrite C2; exact WC).
      assert (GO : forall q : Panel, p_conn q = p_conn p' -> queried q) by (intros q EQ; eapply queried_same; [|exact V]; rewrite EQ; exact WP).
      destruct (e_msg e) as [[m|]|]; try (apply GO; reflexivity). destruct (is_response_to m (stage_msg s)) eqn:ER; [|apply GO; reflexivity]. apply is_response_spec in ER.
      destruct s as [| |ty max i]; cbn [stage_msg] in ER; destruct m; cbn [replies] in ER; try contradiction; cbn [after_reply]; try (apply GO; reflexivity).
      assert (AS : forall q, p_conn q = p_conn p' -> iqueried (after_sds ty q)) by (intros q EQ; destruct ty; cbn [after_sds iqueried]; try exact Logic.I; apply GO; exact EQ).
      unfold sds_reply. destruct (negb _); [exact Logic.I|]. destruct (names_of (p_state p') ty); [|exact Logic.I]. destruct (sd_num m =? 0); [apply AS; reflexivity|].
      destruct (_ <? _)%nat; [exact Logic.I|]. destruct (set_nth l _ _) as [l'|?|?]; try exact Logic.I.
      destruct (_ <? _)%nat; [apply GO; reflexivity | apply AS; reflexivity].
Qed.
Lemma irun_queried h : Forall iop_ok h -> iqueried (irun conn_new h).
Proof.
  induction h as [|o h IH] using rev_ind; intros HO.
  - exists [], []. repeat split; constructor.
  - apply Forall_app in HO as [HO _]. specialize (IH HO). pose proof (irun_inv h HO) as I. rewrite irun_snoc. destruct o as [a|now ws].
    + cbn [iop_step]. destruct (irun conn_new h) as [s ph p|p|e|w]; auto; (eapply queried_same; [|exact IH]); destruct a; reflexivity.
    + apply istep_queried; auto.
Qed.
Lemma connected_queried p : connected p -> queried p.
Proof. intros (h & HO & E). pose proof (irun_queried h HO) as K. rewrite E in K. exact K. Qed.

(* ---- what the panel reads ---- *)
Lemma frames_packets ms fs : Forall2 request_frame ms fs -> exists ps, Forall valid_packet ps /\ Forall2 frame_of ps fs /\ map message_of ps = map Some ms.
Proof.
  induction 1 as [|m f ms fs Hm F (ps & V & FF & E)]; [exists []; repeat split; constructor|].
  destruct (request_decodes _ _ [] Hm (Forall_nil _)) as (body & _ & P & _ & Hb & Hf). exists (PAscii body :: ps).
  split; [constructor; [exact Hb | exact V]|]. split; [constructor; [exact Hf | exact FF]|].
  cbn [map]. rewrite E. f_equal. unfold message_of. cbn [parse]. rewrite P. reflexivity.
Qed.
Lemma reads_first ms fs d e : Forall2 request_frame ms fs -> d ++ e = concat fs -> exists k, understood d (firstn k ms).
Proof.
  intros F E. destruct (frames_packets _ _ F) as (ps & V & FF & EM). destruct (cut_exists _ _ _ E) as (j & left & C).
  exists j, (firstn j ps), left. split; [|rewrite <- !firstn_map, EM; reflexivity].
  apply drain_iff; [|apply (cut_drains _ _ _ _ _ V FF C)].
  apply (u8s_app d e). rewrite E. apply (frames_u8s _ _ V FF).
Qed.
Lemma firstn_split {A} (a b : list A) k : exists i j, firstn k (a ++ b) = firstn i a ++ firstn j b.
Proof. exists k, (k - length a)%nat. apply firstn_app. Qed.

Lemma Forall_first {A} (Q : A -> Prop) l k : Forall Q l -> Forall Q (firstn k l).
Proof. intros H. apply Forall_firstn. exact H. Qed.
Lemma queries_read p d e : queried p -> given p = d ++ e -> exists ms, understood d ms /\ Forall query ms.
Proof.
  intros (qs & fs & Q & F & W) E. change (given p = concat fs) in W. rewrite E in W. destruct (reads_first _ _ _ _ F W) as (k & K).
  exists (firstn k qs). split; [exact K | apply Forall_first; exact Q].
Qed.
(* what was said to the panel after connecting *)
Lemma run_read p0 h p bs d e : connected p0 -> Forall op_ok h -> run p0 h = Ok (p, bs) -> given p = d ++ e ->
  exists qs k, Forall query qs /\ understood d (qs ++ map into_msg (firstn k (accepted h))).
Proof.
  intros C HO E ED. destruct (connected_inv _ C) as (I0 & _). destruct (connected_queried _ C) as (qs & fs & Q & F & W0).
  destruct (wire_run _ _ _ _ I0 HO E) as (gs & G & W). destruct (accepted_frames _ _ HO G) as [G' _].
  change (given p = written (p_conn p0) ++ concat gs) in W. rewrite ED, W0, <- concat_app in W.
  destruct (reads_first (qs ++ map into_msg (accepted h)) (fs ++ gs) d _ (Forall2_app F G') W) as (k & K).
  destruct (firstn_split qs (map into_msg (accepted h)) k) as (i & j & EF). rewrite EF, firstn_map in K.
  exists (firstn i qs), j. split; [apply Forall_first; exact Q | exact K].
Qed.
Lemma understood_fun d ms ms' : understood d ms -> understood d ms' -> ms = ms'.
Proof.
  intros (ps & l & E & M) (ps' & l' & E' & M'). assert (ps = ps') by congruence. subst ps'. rewrite M in M'. clear -M'.
  revert ms' M'. induction ms as [|m ms IH]; intros [|m' ms'] E; cbn in E; try discriminate; [reflexivity|]. injection E as -> E. f_equal. auto.
Qed.

(* ---- C129 ---- *)
(* Whatever the panel sends, and whatever comes from MQTT: what the panel reads of what the bridge gave to the socket, at any moment, is requests for
   states and names, and then commands that messages asked for, once each and in the order of the messages.  Before the bridge is connected
   there are no commands. *)
Theorem C129_received : forall cl cfg is b d e, bridge_after cl cfg is b -> given_to_socket b = d ++ e ->
  exists qs cs handled rest more, understood d (qs ++ map into_msg cs) /\ Forall query qs /\
    mqtt_in is = handled ++ rest /\ asked_for cfg handled (cs ++ more) /\ (forall i rx, b = Connecting i rx -> cs = []).
Proof.
  intros cl cfg is b d e (HI & EB) ED. pose proof (brun_cases cl cfg is HI) as K. rewrite EB in K. destruct b as [i rx|u|l w].
  - destruct K as (_ & h & HO & -> & s & ph & p & EI). rewrite EI in *. pose proof (irun_queried h HO) as Q. rewrite EI in Q.
    destruct (queries_read _ _ _ Q ED) as (ms & U & QQ). exists ms, [], [], (mqtt_in is), []. cbn [map]. rewrite app_nil_r.
    split; [exact U|]. split; [exact QQ|]. split; [reflexivity|]. split; [exists []; split; [constructor | reflexivity] | reflexivity].
  - destruct K as (u0 & i1 & i2 & -> & C & RX & E1 & E2).
    assert (A1 : bridge_after cl cfg i1 (Up u0)) by (apply Forall_app in HI as [HI _]; split; auto).
    destruct (bridge_between cl cfg i1 u0 i2 u A1 (conj HI EB)) as [_ (ops & bs & hd & os & H1 & H2 & _ & _ & H5 & H6 & H7 & _)].
    destruct C as (C & _ & M). destruct (run_read _ _ _ _ _ _ C H1 H2 ED) as (qs & k & Q & U).
    exists qs, (firstn k (accepted ops)), hd, (u_rx u), (skipn k (accepted ops) ++ waiting u). split; [exact U|]. split; [exact Q|].
    split; [rewrite mqtt_in_app, <- RX; exact H5|]. split; [|discriminate]. exists os. split; [exact H6|].
    unfold waiting at 1 in H7. rewrite M in H7. cbn [app] in H7. rewrite H7, app_assoc, firstn_skipn. reflexivity.
  - cbn [given_to_socket] in ED. symmetry in ED. apply app_eq_nil in ED as [-> ->]. exists [], [], [], (mqtt_in is), [].
    split; [exists [], []; split; reflexivity|]. split; [constructor|]. split; [reflexivity|]. split; [exists []; split; [constructor | reflexivity] | discriminate].
Qed.
(* The same for what the socket may take in a step in which the bridge ends because a write fails: if a command is waiting and can be
   started, this includes its frame; if not, no more than above. *)
Theorem C129_last : forall cl cfg is u ws p r d e, bridge_after cl cfg is (Up u) ->
  match u_mode u with
  | Selecting => False
  | Flushing => poll_flush ws (u_panel u) = (p, r)
  | Feeding c => outstanding (u_panel u) <> [] /\ (exists w, poll_ready w ws (u_panel u) = (p, r)) \/
      exists p1, start_send c (u_panel u) = Ok p1 /\ poll_flush ws p1 = (p, r)
  end -> given p = d ++ e ->
  exists qs cs handled rest more, understood d (qs ++ map into_msg cs) /\ Forall query qs /\ mqtt_in is = handled ++ rest /\ asked_for cfg handled (cs ++ more).
Proof.
  intros cl cfg is u ws p r d e (HI & EB) EP ED. pose proof (brun_cases cl cfg is HI) as K. rewrite EB in K. destruct K as (u0 & i1 & i2 & -> & C & RX & E1 & E2).
  assert (A1 : bridge_after cl cfg i1 (Up u0)) by (apply Forall_app in HI as [HI _]; split; auto).
  destruct (bridge_between cl cfg i1 u0 i2 u A1 (conj HI EB)) as [_ (ops & bs & hd & os & H1 & H2 & _ & _ & H5 & H6 & H7 & _)].
  assert (AU : bridge_after cl cfg ((i1 ++ i2) ++ []) (Up u)) by (rewrite app_nil_r; exact (conj HI EB)).
  destruct (bridge_between cl cfg (i1 ++ i2) u [] u (conj HI EB) AU) as [(_ & _ & _ & _ & BW) _].
  destruct C as (C & _ & M). unfold waiting at 1 in H7. rewrite M in H7. cbn [app] in H7.
  assert (G : forall ops' bs' later, Forall op_ok ops' -> run (u_panel u) ops' = Ok (p, bs') -> waiting u = accepted ops' ++ later ->
    exists qs cs handled rest more, understood d (qs ++ map into_msg cs) /\ Forall query qs /\ mqtt_in (i1 ++ i2) = handled ++ rest /\ asked_for cfg handled (cs ++ more)).
  { intros ops' bs' later HO ER EW. assert (R : run (u_panel u0) (ops ++ ops') = Ok (p, bs ++ bs')) by (rewrite run_app, H2; cbn [bind]; rewrite ER; reflexivity).
    destruct (run_read _ _ _ _ _ _ C (proj2 (Forall_app _ _ _) (conj H1 HO)) R ED) as (qs & k & Q & U). rewrite accepted_app in U.
    exists qs, (firstn k (accepted ops ++ accepted ops')), hd, (u_rx u), (skipn k (accepted ops ++ accepted ops') ++ later). split; [exact U|]. split; [exact Q|].
    split; [rewrite mqtt_in_app, <- RX; exact H5|]. exists os. split; [exact H6|]. rewrite app_assoc, firstn_skipn, H7, EW, app_assoc. reflexivity. }
  destruct (u_mode u) as [|c|] eqn:EU; [destruct EP| |].
  - destruct EP as [(_ & w & EP)|(p1 & ES & EP)].
    + apply (G [PollReady w ws] [OSink r] (waiting u)); [repeat constructor| |reflexivity]. cbn [run step]. rewrite EP. reflexivity.
    + apply (G [StartSend c; PollFlush ws] [ONone; OSink r] []); [| |unfold waiting; rewrite EU; reflexivity].
      * constructor; [|repeat constructor]. exact (BW c eq_refl).
      * cbn [run step]. rewrite ES. cbn [bind]. rewrite EP. reflexivity.
  - apply (G [PollFlush ws] [OSink r] (waiting u)); [repeat constructor| |reflexivity]. cbn [run step]. rewrite EP. reflexivity.
Qed.
(* Each message the panel reads: a request for a state or names, or to arm or disarm an area of the configuration, with the configured
   code, as some message asked.  A task is never activated. *)
Theorem C129_each : forall cl cfg is b d e ms m, bridge_after cl cfg is b -> given_to_socket b = d ++ e -> understood d ms -> In m ms ->
  query m \/ exists area name level code' payload, m = MArmRequest (mkArmRequest area level code') /\ In (area, name) (areas cfg) /\
    dec_canon 6 (code cfg) code' /\ In (payload, level) [(B "DISARM", AL_Disarm); (B "ARM_AWAY", AL_ArmedAway); (B "ARM_HOME", AL_ArmedStay)] /\
    In (topic_prefix cfg ++ B "/area/" ++ name ++ B "/ha_command", payload) (mqtt_in is).
Proof.
  intros cl cfg is b d e ms m A ED U HM. destruct (C129_received _ _ _ _ _ _ A ED) as (qs & cs & hd & rest & more & U' & Q & EM & (os & F & EO) & _).
  rewrite (understood_fun _ _ _ U U') in HM. apply in_app_or in HM as [HM|HM]; [left; rewrite Forall_forall in Q; auto|right].
  apply in_map_iff in HM as (c & <- & HC). assert (HO : In (Some c) os).
  { assert (X : In c (catMaybes os)) by (rewrite EO; apply in_or_app; auto). clear -X. induction os as [|[o|] os IH]; cbn in X; [destruct X| |right; auto].
    destruct X as [->|X]; [left; reflexivity | right; auto]. }
  assert (Y : exists x, In x hd /\ asks cfg x c).
  { clear -F HO. induction F as [|x o hd os Hx F IH]; [destruct HO|]. destruct HO as [->|HO]; [exists x; split; [left; reflexivity | exact Hx]|].
    destruct (IH HO) as (y & Y1 & Y2). exists y. split; [right; exact Y1 | exact Y2]. }
  destruct Y as ([t pl] & HX & (area & name & level & code' & H1 & H2 & H3 & H4 & ->)). exists area, name, level, code', pl.
  split; [reflexivity|]. split; [exact H1|]. split; [exact H4|]. split; [exact H3|]. cbn [fst] in H2. rewrite <- H2, EM. apply in_or_app. auto.
Qed.
(* As long as no message asks, the panel reads nothing but requests for states and names, whatever it sends. *)
Theorem C129_unasked : forall cl cfg is b d e, bridge_after cl cfg is b -> given_to_socket b = d ++ e -> (forall m c, In m (mqtt_in is) -> ~ asks cfg m c) ->
  exists ms, understood d ms /\ Forall query ms.
Proof.
  intros cl cfg is b d e A ED NA. destruct (C129_received _ _ _ _ _ _ A ED) as (qs & cs & hd & rest & more & U & Q & EM & (os & F & EO) & _).
  assert (catMaybes os = []) as Z.
  { assert (NH : forall m c, In m hd -> ~ asks cfg m c) by (intros m c H; apply NA; rewrite EM; apply in_or_app; auto). clear -F NH.
    induction F as [|x [c|] hd os Hx F IH]; cbn [catMaybes]; [reflexivity | elim (NH x c (or_introl eq_refl) Hx) |].
    apply IH. intros m c H. apply NH. right. exact H. }
  rewrite Z in EO. symmetry in EO. apply app_eq_nil in EO as [-> _]. cbn [map] in U. rewrite app_nil_r in U. eauto.
Qed.
(* A program that makes no use of the Sink, such as one that only shows what happens: likewise. *)
Theorem C129_reader : forall p0 h p bs d e, connected p0 -> Forall op_ok h -> (forall c, ~ In (StartSend c) h) -> run p0 h = Ok (p, bs) -> given p = d ++ e ->
  exists ms, understood d ms /\ Forall query ms.
Proof.
  intros p0 h p bs d e C HO NS E ED. destruct (run_read _ _ _ _ _ _ C HO E ED) as (qs & k & Q & U).
  assert (accepted h = []) as Z.
  { clear -NS. induction h as [|o h IH]; [reflexivity|]. unfold accepted in *. cbn [map].
    destruct o; cbn [catMaybes]; try (apply IH; intros c H; apply (NS c); right; exact H). elim (NS c). left. reflexivity. }
  rewrite Z, firstn_nil in U. cbn [map] in U. rewrite app_nil_r in U. eauto.
Qed.
(* and when it sends commands, what the panel reads is those, after what connecting asks for *)
Theorem C129_sender : forall p0 h p bs d e, connected p0 -> Forall op_ok h -> run p0 h = Ok (p, bs) -> given p = d ++ e ->
  exists qs cs later, Forall query qs /\ understood d (qs ++ map into_msg cs) /\ cs ++ later = accepted h.
Proof.
  intros p0 h p bs d e C HO E ED. destruct (run_read _ _ _ _ _ _ C HO E ED) as (qs & k & Q & U).
  exists qs, (firstn k (accepted h)), (skipn k (accepted h)). split; [exact Q|]. split; [exact U | apply firstn_skipn].
Qed.
(* The bridge of PropMqtt.v, asked to arm and then to disarm: the panel reads the requests of connecting and the request to arm.
   Without the messages it reads the former only. *)
Definition read_now (b : bridge) : list (option message) := match drain (given_to_socket b) with Ok (ps, _) => map message_of ps | _ => [] end.
Example C129_example : bridge_after ex_cl ex_cfg (ex_start ++ ex_two_commands) (Up ex_blocked) /\
  length (read_now (Up ex_up)) = 7%nat /\
  read_now (Up ex_blocked) = read_now (Up ex_up) ++ [Some (MArmRequest (mkArmRequest 1 AL_ArmedAway (B "001234")))].
Proof. split; [exact ex_blocked_after|]. split; vm_compute; reflexivity. Qed.
(* C129_last: the first command is waiting, and the write fails half way: the socket has taken part of it. *)
Example C129_example_last : exists u p1 p r, bridge_after ex_cl ex_cfg (ex_start ++ firstn 3 ex_two_commands) (Up u) /\
  u_mode u = Feeding (CmdArm (mkArmRequest 1 AL_ArmedAway (B "001234"))) /\ start_send (CmdArm (mkArmRequest 1 AL_ArmedAway (B "001234"))) (u_panel u) = Ok p1 /\
  poll_flush [WAccept 5; WErr "gone"%string] p1 = (p, r) /\ r = Ready (IoErr "gone"%string) /\ length (given p) = (length (sent (p_conn p)) + 12)%nat.
Proof.
  exists (up_of (brun ex_cl ex_cfg (ex_start ++ firstn 3 ex_two_commands))). do 3 eexists. split.
  - split; [apply Forall_app; split; [exact ex_start_ok | repeat constructor]|]. vm_compute. reflexivity.
  - split; [vm_compute; reflexivity|]. split; [vm_compute; reflexivity|]. split; [vm_compute; reflexivity|]. split; vm_compute; reflexivity.
Qed.
(* A panel that sends rubbish, a request to arm, and a report that area 1 is armed: it reads nothing more. *)
Definition ex_rogue : list input :=
  [NetArrive (Bytes (B "0Da1" ++ [13; 10; 255; 0; 13; 10])); PollPanel 1; PollPanel 2; NetArrive (Bytes (bytes_of (MArmRequest (mkArmRequest 1 AL_Disarm (B "001234"))))); PollPanel 3;
   NetArrive (Bytes (bytes_of (MArmingStatusReport ex_fire))); PollPanel 4; MqttArrive (B "elkm1/0001/area/attic/ha_command") (B "DISARM"); PollRx].
Example C129_example_rogue : bridge_after ex_cl ex_cfg (ex_start ++ ex_rogue) (Up (up_of (brun ex_cl ex_cfg (ex_start ++ ex_rogue)))) /\
  read_now (brun ex_cl ex_cfg (ex_start ++ ex_rogue)) = read_now (Up ex_up).
Proof.
  split; [split|vm_compute; reflexivity].
  - apply Forall_app. split; [exact ex_start_ok|]. unfold ex_rogue. repeat (constructor; [first [exact Logic.I | cbn [input_ok]; vm_compute; repeat constructor]|]). constructor.
  - vm_compute. reflexivity.
Qed.

Print Assumptions C129_received.
Print Assumptions C129_last.
Print Assumptions C129_each.
Print Assumptions C129_unasked.
Print Assumptions C129_reader.
Print Assumptions C129_sender.
