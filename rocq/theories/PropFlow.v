(* PropFlow.v: C119: the panel's input buffer is not overrun. *)
From Verif Require Import Base BaseFacts Pkt SpecPkt PktFacts DecodeFacts Msg SpecMsg DecFacts MsgFacts WireFacts IsoFacts
  PropMsg PropPkt Tokio SpecConn ConnFacts State SpecState StateFacts RunFacts HistFacts ViewFacts ExState PropState PropSink SpecInit InitFacts PropConnect
  Serde SerdeFacts PropSerde Mqtt SpecMqtt MqttFacts PropMqtt PropEnd SpecEvery PropEvery SpecBuffer PropBuffer PropScene SpecFlow FlowFacts.
From Coq Require Import ZifyBool ZifyNat ZifyN.
Ltac Zify.zify_post_hook ::= Z.div_mod_to_equations.

Lemma spelled_taken D more ps b out : u8s D -> takes D ps b -> spells (D ++ more) out -> exists us, out = ps ++ us.
Proof.
  intros U T (fs & V & F & E). assert (Um : u8s more) by (assert (X : u8s (D ++ more)) by (rewrite E; eapply frames_u8; eauto); apply u8s_app in X; apply X).
  destruct (takes_frames _ _ _ (takes_more _ _ _ more T U Um) _ _ V F E) as (us & gs & -> & _). eauto.
Qed.
Lemma arrived_u8' h : Forall op_ok h -> u8s (arrived h).
Proof. intros HO. unfold arrived. induction HO as [|o h Ho HO IH]; [constructor|]. cbn [map concat]. apply u8s_app. split; [|exact IH]. destruct o as [[]| | | | |]; try constructor; exact Ho. Qed.

(* ---- while connecting ---- *)
(* Whatever the network does: when what has come is a first part of what the panel sends while it does ds, there is never more in the panel's input buffer than
   one request, and one for each time that it sent of its own accord something that could be an answer.  When connected, the one is not there either. *)
Theorem C119_connecting : forall h ds more rest, Forall iop_ok h -> spells (iarrived h ++ more) (put_out ds) ->
  match irun conn_new h with
  | IRun _ _ p => in_buffer (sent (p_conn p)) ds rest -> (length rest <= 17 * (1 + misleading (own ds)))%nat
  | IDone p => in_buffer (sent (p_conn p)) ds rest -> (length rest <= 17 * misleading (own ds))%nat
  | _ => True
  end.
Proof.
  intros h ds more rest HO SP. pose proof (irun_flow h HO) as FL. pose proof (iarrived_u8 _ HO) as U. pose proof (out_misleading ds) as OM.
  destruct (irun conn_new h) as [s ph p|p|e|w]; auto; destruct FL as (ps & qs & fs & T & F & L & WW & N); intros IB;
    destruct (spelled_taken _ _ _ _ _ U T SP) as (us & EO); pose proof (misleading_app ps us) as MA; rewrite <- EO in MA; (eapply left_over; [exact IB | exact WW | exact F | exact L|]);
    unfold misleading in MA at 1.
  - assert (AL : (allowed s ps <= misleading ps)%nat) by (unfold misleading; destruct s; cbn [allowed]; lia). unfold misleading in AL. destruct ph; lia.
  - lia.
Qed.

(* ---- at any time ---- *)
Theorem C119_backlog : forall h p0 ops p bs ds more rest, Forall iop_ok h -> irun conn_new h = IDone p0 -> Forall op_ok ops -> run p0 ops = Ok (p, bs) ->
  spells (iarrived h ++ arrived ops ++ more) (put_out ds) -> in_buffer (sent (p_conn p)) ds rest ->
  (length rest <= 17 * (1 + misleading (own ds)))%nat.
Proof.
  intros h p0 ops p bs ds more rest HI E0 HO E SP IB. pose proof (irun_flow h HI) as FL. rewrite E0 in FL. destruct FL as (ps & qs & fs & T & F & L & WW & N).
  pose proof (irun_inv h HI) as I0. rewrite E0 in I0. destruct I0 as (I0 & _). pose proof (iarrived_u8 _ HI) as U. pose proof (arrived_u8' _ HO) as UA.
  pose proof (run_takes _ _ _ _ I0 HO E) as T2. pose proof (takes_app _ _ _ (takes_more _ _ _ (arrived ops) T U UA) _ _ T2) as T3.
  rewrite app_assoc in SP. destruct (spelled_taken _ _ _ _ _ (proj2 (u8s_app _ _) (conj U UA)) T3 SP) as (us & EO).
  pose proof (misleading_app (ps ++ packets (events bs)) us) as MA. rewrite <- EO in MA. pose proof (out_misleading ds) as OM.
  pose proof (accepted_count _ _ _ _ I0 HO E) as AC. destruct (wire_run _ _ _ _ I0 HO E) as (gs & G & WG). destruct (accepted_frames _ _ HO G) as [G1 G2].
  eapply (left_over _ (wbuf (p_conn p)) _ _ (qs ++ map into_msg (accepted ops)) (fs ++ gs)); [exact IB | | apply Forall2_app; auto | apply Forall_app; auto |].
  - rewrite concat_app, <- WW. exact WG.
  - rewrite app_length, map_length. unfold misleading in MA at 1. rewrite !some_app, !count_app in MA. lia.
Qed.
(* so up to 13 misleading packets are harmless *)
Theorem C119_not_overrun : forall h p0 ops p bs ds more rest, Forall iop_ok h -> irun conn_new h = IDone p0 -> Forall op_ok ops -> run p0 ops = Ok (p, bs) ->
  spells (iarrived h ++ arrived ops ++ more) (put_out ds) -> in_buffer (sent (p_conn p)) ds rest -> (misleading (own ds) <= 13)%nat -> (length rest <= 250)%nat.
Proof. intros h p0 ops p bs ds more rest HI E0 HO E SP IB M. pose proof (C119_backlog _ _ _ _ _ _ _ _ HI E0 HO E SP IB). lia. Qed.

(* ---- since a calm moment ---- *)
Lemma all_taken p now p' w ps fs : reachable p -> poll_next now p = Ok (p', Pending, w) -> Forall valid_packet ps -> Forall2 frame_of ps fs -> unread (p_conn p) = concat fs -> ps = [].
Proof.
  intros R E V F EU. destruct (reachable_inv _ R) as [I _]. pose proof (poll_next_case _ _ _ _ _ I E) as PC.
  inversion PC as [? ? ? ? ? ? ? ? ? ? ? ? HR|? ? ? ? ? ? ? ? ? ? HR|? ? ? ? ? ? ? ? ? ? HR|r' NE UU FF E0 HR]; subst.
  destruct (FF eq_refl) as (_ & D & _). rewrite EU in D. destruct F as [|x f ps fs Hx F]; [reflexivity|]. inversion V as [|? ? Vx Vs]; subst. cbn [concat] in D.
  rewrite (decode_of_frame _ _ _ Vx Hx (frames_u8 _ _ Vs F)) in D. discriminate.
Qed.
Lemma since_calm D1 p1 now p1' w1 ops p bs ds1 ds more rest ps1 : u8s D1 -> reachable p1 -> takes D1 ps1 (unread (p_conn p1)) ->
  spells D1 (put_out ds1) -> poll_next now p1 = Ok (p1', Pending, w1) -> in_buffer (sent (p_conn p1)) ds1 [] -> wbuf (p_conn p1) = [] ->
  Forall op_ok ops -> run p1 ops = Ok (p, bs) -> spells (D1 ++ arrived ops ++ more) (put_out (ds1 ++ ds)) -> in_buffer (sent (p_conn p)) (ds1 ++ ds) rest ->
  (length rest <= 17 * (1 + count command_like (own ds)))%nat.
Proof.
  intros U R T (fs1 & V1 & F1 & ED) PN (gs1 & B1 & ES) W HO E SP IB. destruct (reachable_inv _ R) as [I _]. rewrite app_nil_r in ES.
  destruct (takes_frames _ _ _ T _ _ V1 F1 ED) as (us & gs & EO & Fu & EU). assert (Vu : Forall valid_packet us) by (rewrite EO in V1; apply Forall_app in V1; apply V1).
  pose proof (all_taken _ _ _ _ _ _ R PN Vu Fu EU) as ->. rewrite app_nil_r in EO.
  pose proof (arrived_u8' _ HO) as UA. pose proof (run_takes _ _ _ _ I HO E) as T2. pose proof (takes_app _ _ _ (takes_more _ _ _ (arrived ops) T U UA) _ _ T2) as T3.
  rewrite app_assoc in SP. destruct (spelled_taken _ _ _ _ _ (proj2 (u8s_app _ _) (conj U UA)) T3 SP) as (us2 & EO2).
  rewrite put_out_app, EO, <- app_assoc in EO2. apply app_inv_head in EO2. pose proof (out_commands ds) as OC. rewrite EO2, count_app in OC.
  pose proof (accepted_count _ _ _ _ I HO E) as AC. destruct (wire_run _ _ _ _ I HO E) as (hs & G & WG). destruct (accepted_frames _ _ HO G) as [G1 G2].
  destruct IB as (fs & F & EF). rewrite taken_out_app in F. apply Forall2_app_inv_l in F as (fa & fb & Fa & Fb & ->). rewrite concat_app, <- app_assoc in EF.
  assert (EW : concat fa ++ concat fb ++ rest ++ wbuf (p_conn p) = concat (gs1 ++ hs)).
  { unfold written in WG. rewrite W, app_nil_r, ES, EF, <- !app_assoc in WG. rewrite concat_app. exact WG. }
  destruct (frames_split _ _ (Forall2_app B1 G1) _ _ _ Fa (eq_sym EW)) as (hs' & EH & EC).
  assert (LE : length fa = length gs1) by (rewrite <- (Forall2_len _ _ _ Fa), <- (Forall2_len _ _ _ B1); reflexivity).
  assert (fa = gs1 /\ hs' = hs) as [-> ->].
  { apply (f_equal (firstn (length gs1))) in EH as EH1. rewrite firstn_app, Nat.sub_diag, firstn_O, app_nil_r, firstn_all in EH1.
    rewrite <- LE, firstn_app, Nat.sub_diag, firstn_O, app_nil_r, firstn_all in EH1. subst. split; [reflexivity|]. apply app_inv_head in EH. auto. }
  eapply (left_over (concat fb ++ rest) (wbuf (p_conn p)) ds _ (map into_msg (accepted ops)) hs); [exists fb; auto | rewrite EC, <- app_assoc; reflexivity | exact G1 | exact G2|].
  rewrite map_length. lia.
Qed.
(* A moment at which the panel has taken all requests out of its buffer, and the client all packets the panel has sent, and has nothing left to write.  From then on,
   only packets which could be the answer to a command count, and only those sent since. *)
Theorem C119_since_calm : forall h p0 ops1 p1 bs1 now p1' w1 ops p bs ds1 ds more rest,
  Forall iop_ok h -> irun conn_new h = IDone p0 -> Forall op_ok ops1 -> run p0 ops1 = Ok (p1, bs1) ->
  spells (iarrived h ++ arrived ops1) (put_out ds1) -> poll_next now p1 = Ok (p1', Pending, w1) -> in_buffer (sent (p_conn p1)) ds1 [] -> wbuf (p_conn p1) = [] ->
  Forall op_ok ops -> run p1 ops = Ok (p, bs) ->
  spells (iarrived h ++ arrived ops1 ++ arrived ops ++ more) (put_out (ds1 ++ ds)) -> in_buffer (sent (p_conn p)) (ds1 ++ ds) rest ->
  (length rest <= 17 * (1 + count command_like (own ds)))%nat.
Proof.
  intros h p0 ops1 p1 bs1 now p1' w1 ops p bs ds1 ds more rest HI E0 HO1 E1 S1 PN B1 W HO E SP IB.
  pose proof (irun_flow h HI) as FL. rewrite E0 in FL. destruct FL as (ps & _ & _ & T & _). pose proof (iarrived_u8 _ HI) as U. pose proof (arrived_u8' _ HO1) as UA.
  pose proof (irun_inv h HI) as I0. rewrite E0 in I0. destruct I0 as (I0 & _). pose proof (run_takes _ _ _ _ I0 HO1 E1) as T2.
  rewrite app_assoc in SP. eapply (since_calm (iarrived h ++ arrived ops1)); eauto; [apply u8s_app; auto | exists p0, ops1, bs1; repeat split; auto; exists h; auto |].
  eapply takes_app; [apply takes_more; eauto | exact T2].
Qed.

(* ---- the bridge ---- *)
Lemma bridge_path cl cfg is u : bridge_after cl cfg is (Up u) -> exists h p0 ops bs, Forall iop_ok h /\ irun conn_new h = IDone p0 /\ Forall op_ok ops /\
  run p0 ops = Ok (u_panel u, bs) /\ net_in is = iarrived h ++ arrived ops.
Proof.
  intros A. pose proof A as [HI E]. pose proof (bridge_history cl cfg is HI) as BH. rewrite E in BH. destruct BH as (h & p0 & u0 & is1 & is2 & H1 & H2 & -> & H4 & _ & H5 & H6).
  apply Forall_app in HI as [HI1 _]. destruct (C58_events_published cl cfg is1 u0 is2 u (conj HI1 H6) A) as (ops & bs & _ & O1 & O2 & O3 & _). rewrite H5 in O2.
  exists h, p0, ops, bs. rewrite net_in_app, H4, O3. auto.
Qed.
Theorem C119_bridge : forall cl cfg is u ds more rest, bridge_after cl cfg is (Up u) ->
  spells (net_in is ++ more) (put_out ds) -> in_buffer (sent (p_conn (u_panel u))) ds rest -> (length rest <= 17 * (1 + misleading (own ds)))%nat.
Proof.
  intros cl cfg is u ds more rest A SP IB. destruct (bridge_path _ _ _ _ A) as (h & p0 & ops & bs & H1 & H2 & H3 & H4 & EN). rewrite EN, <- app_assoc in SP.
  exact (C119_backlog _ _ _ _ _ _ _ _ H1 H2 H3 H4 SP IB).
Qed.
(* the same for the bridge, since a calm moment at which it is not in the middle of sending *)
Theorem C119_bridge_since_calm : forall cl cfg is1 u1 now p1' w1 is2 u ds1 ds more rest, bridge_after cl cfg is1 (Up u1) -> bridge_after cl cfg (is1 ++ is2) (Up u) ->
  spells (net_in is1) (put_out ds1) -> poll_next now (u_panel u1) = Ok (p1', Pending, w1) -> in_buffer (sent (p_conn (u_panel u1))) ds1 [] -> u_mode u1 <> Flushing ->
  spells (net_in (is1 ++ is2) ++ more) (put_out (ds1 ++ ds)) -> in_buffer (sent (p_conn (u_panel u))) (ds1 ++ ds) rest ->
  (length rest <= 17 * (1 + count command_like (own ds)))%nat.
Proof.
  intros cl cfg is1 u1 now p1' w1 is2 u ds1 ds more rest A1 A2 S1 PN B1 M SP IB. destruct (bridge_path _ _ _ _ A1) as (h & p0 & ops1 & bs1 & H1 & H2 & H3 & H4 & EN).
  destruct (C58_events_published _ _ _ _ _ _ A1 A2) as (ops & bs & _ & O1 & O2 & O3 & _). rewrite EN in S1. rewrite net_in_app, EN, <- O3, <- !app_assoc in SP.
  exact (C119_since_calm _ _ _ _ _ _ _ _ _ _ _ _ _ _ _ H1 H2 H3 H4 S1 PN B1 (proj2 (C91_bridge_unsent _ _ _ _ A1) M) O1 O2 SP IB).
Qed.

(* ---- without a bound on what misleads ---- *)
Definition ex_turns : list iop := concat (map (fun m => [IStep 0 [WAccept 100]; IStep 0 [WAccept 100]; IArrive (Bytes (bytes_of m)); IStep 0 []]) ex_replies).
Definition ex_sdq (ty : TextDescriptionType) (n : N) : message := MStringDescriptionRequest (mkSdReq ty n).
Definition ex_deeds : list pdeed := Eval vm_compute in
  match map ex_pkt ex_replies with
  | [x1; x2; x3; x4; x5; x6; x7; x8] =>
      [Takes MArmingStatusRequest (Some x1); Tells x2; Takes MZoneStatusRequest (Some x3); Takes (ex_sdq TT_Area 1) (Some x4); Takes (ex_sdq TT_Area 2) (Some x5);
       Takes (ex_sdq TT_Task 1) (Some x6); Takes (ex_sdq TT_Zone 1) (Some x7); Takes (ex_sdq TT_Zone 3) (Some x8)]
  | _ => []
  end.
(* ask whether it is ready, send, flush; the panel starts the task of its own accord and says so *)
Definition ex_misled : list op := [PollReady 7 []; StartSend ex_cmd; PollFlush [WAccept 1000]; got (MTaskChange 5); PollNext 0].
Fixpoint misleads (n : nat) : list op := match n with O => [] | S n' => ex_misled ++ misleads n' end.
Definition sent_more (p : Panel) (w : bytes) : Panel :=
  with_conn p (mkConn (rbuf (p_conn p)) (c_eof (p_conn p)) (is_readable (p_conn p)) (has_errored (p_conn p)) (rq (p_conn p)) (peer_closed (p_conn p))
    (wbuf (p_conn p)) (sent (p_conn p) ++ w) (shut (p_conn p))).
Lemma misled_adds w : exists bs, run (sent_more ex_panel w) ex_misled = Ok (sent_more ex_panel (w ++ bytes_of (into_msg ex_cmd)), bs) /\
  Forall (fun b => forall r, b = OSink r -> r = Ready (IoOk tt)) bs.
Proof.
  eexists. split; [vm_compute; reflexivity|]. repeat (apply Forall_cons; [intros r [= <-]; reflexivity || discriminate|]). constructor.
Qed.
Lemma misleads_add n : forall w, exists bs w', run (sent_more ex_panel w) (misleads n) = Ok (sent_more ex_panel w', bs) /\
  Forall (fun b => forall r, b = OSink r -> r = Ready (IoOk tt)) bs /\ exists x, w' = w ++ x /\ (length x = n * 13)%nat.
Proof.
  induction n as [|n IH]; intros w.
  - exists [], w. split; [reflexivity|]. split; [constructor|]. exists []. rewrite app_nil_r. auto.
  - destruct (misled_adds w) as (b1 & E1 & F1). destruct (IH (w ++ bytes_of (into_msg ex_cmd))) as (b2 & w' & E2 & F2 & x & -> & L).
    exists (b1 ++ b2), ((w ++ bytes_of (into_msg ex_cmd)) ++ x). cbn [misleads]. rewrite run_app, E1. cbn [bind]. rewrite E2. cbn [bind]. split; [reflexivity|]. split; [apply Forall_app; auto|].
    exists (bytes_of (into_msg ex_cmd) ++ x). split; [symmetry; apply app_assoc|]. rewrite app_length, L. change (length (bytes_of (into_msg ex_cmd))) with 13%nat. lia.
Qed.
Lemma misleads_polite n : Forall op_ok (misleads n) /\ polite (misleads n) = true.
Proof.
  induction n as [|n [IH1 IH2]]; [split; constructor|]. cbn [misleads]. split; [|exact IH2]. apply Forall_app. split; [|exact IH1]. repeat constructor; cbn; lia.
Qed.
Lemma misleads_arrived n : arrived (misleads n) = concat (map bytes_of (repeat (MTaskChange 5) n)).
Proof. induction n as [|n IH]; [reflexivity|]. cbn [misleads repeat map concat]. rewrite <- IH. unfold arrived. rewrite map_app, concat_app. reflexivity. Qed.
Definition ex_taken : list message := [MArmingStatusRequest; MZoneStatusRequest; ex_sdq TT_Area 1; ex_sdq TT_Area 2; ex_sdq TT_Task 1; ex_sdq TT_Zone 1; ex_sdq TT_Zone 3].
Lemma ex_turns_fine : Forall iop_ok ex_turns /\ irun conn_new ex_turns = IDone ex_panel /\ iarrived ex_turns = concat (map bytes_of ex_replies) /\ Forall wf_message ex_replies.
Proof.
  split; [|split; [vm_compute; reflexivity|]; split; [vm_compute; reflexivity|]].
  - apply Forall_forall. intros x H. apply in_concat in H as (l & Hl & Hx). apply in_map_iff in Hl as (m & <- & Hm). destruct Hx as [<- |[<- |[<- |[<- |[]]]]]; try exact Logic.I.
    pose proof ex_init_ok as K. rewrite Forall_forall in K. apply (K (IArrive (Bytes (bytes_of m)))). apply in_or_app. left. apply in_map_iff. eauto.
  - repeat constructor; try discriminate; vm_compute; auto; discriminate.
Qed.
Lemma ex_buffer : in_buffer (sent (p_conn ex_panel)) ex_deeds [].
Proof.
  exists (map bytes_of ex_taken). split; [|vm_compute; reflexivity]. assert (taken_out ex_deeds = ex_taken) as -> by reflexivity. apply ex_frames. repeat (apply Forall_cons; [cbn; exact Logic.I || lia|]). constructor.
Qed.
Lemma tells_put n x : put_out (repeat (Tells x) n) = repeat x n /\ taken_out (repeat (Tells x) n) = [] /\ own (repeat (Tells x) n) = repeat x n.
Proof. induction n as [|n (A & B & C)]; [auto|]. unfold put_out, taken_out, own in *. cbn [repeat map concat out1 app]. rewrite A, B, C. auto. Qed.
(* A caller that follows the contract of Sink, flushes each command, waits for its answer and takes every packet that comes, can all the same put any number
   of commands into the buffer of a panel that is slow to take them: each is taken for answered when something else starts the same task. *)
Theorem C119_backlog_bounded_refuted : forall n, exists h p0 ops p bs ds rest, Forall iop_ok h /\ irun conn_new h = IDone p0 /\ Forall op_ok ops /\ respects p0 ops /\ run p0 ops = Ok (p, bs) /\
  Forall (fun b => forall r, b = OSink r -> r = Ready (IoOk tt)) bs /\ outstanding p = [] /\
  spells (iarrived h ++ arrived ops) (put_out ds) /\ in_buffer (sent (p_conn p)) ds rest /\ (n <= length rest)%nat.
Proof.
  intros n. destruct (misleads_add n []) as (bs & w & E & F & x & -> & L). destruct (misleads_polite n) as [HO P]. destruct ex_turns_fine as (T1 & T2 & T3 & T4).
  assert (E0 : sent_more ex_panel [] = ex_panel) by reflexivity. rewrite E0 in E. set (tc := ex_pkt (MTaskChange 5)). destruct (tells_put n tc) as (P1 & P2 & _).
  exists ex_turns, ex_panel, (misleads n), (sent_more ex_panel ([] ++ x)), bs, (ex_deeds ++ repeat (Tells tc) n), x. split; [exact T1|]. split; [exact T2|]. split; [exact HO|].
  split; [eapply polite_respects; eauto using ex_connected|]. split; [exact E|]. split; [exact F|]. split; [reflexivity|].
  split; [|split].
  - rewrite T3, misleads_arrived, <- concat_app, <- map_app, put_out_app, P1. assert (put_out ex_deeds = map ex_pkt ex_replies) as -> by (vm_compute; reflexivity).
    assert (repeat tc n = map ex_pkt (repeat (MTaskChange 5) n)) as -> by (clear; induction n as [|n IH]; [reflexivity|]; cbn [repeat map]; rewrite IH; reflexivity).
    rewrite <- map_app. apply ex_spells. apply Forall_app. split; [exact T4|]. apply Forall_forall. intros m Hm. apply repeat_spec in Hm as ->. repeat constructor; cbn; lia.
  - destruct ex_buffer as (fs & Fs & ES). exists fs. rewrite taken_out_app, P2, app_nil_r. split; [exact Fs|]. rewrite app_nil_r in ES. cbn [app sent_more p_conn with_conn sent]. rewrite ES. reflexivity.
  - lia.
Qed.
(* one command is in the buffer of a panel that was calm; and two, after the panel once said by itself that the task was started *)
Definition ex_sends2 : list op := [PollReady 7 []; StartSend ex_cmd; PollFlush [WAccept 1000]].
Example C119_example : exists p' w, Forall iop_ok ex_turns /\ irun conn_new ex_turns = IDone ex_panel /\ spells (iarrived ex_turns) (put_out ex_deeds) /\
  poll_next 0 ex_panel = Ok (p', Pending, w) /\ in_buffer (sent (p_conn ex_panel)) ex_deeds [] /\ wbuf (p_conn ex_panel) = [] /\ misleading (own ex_deeds) = 0%nat /\
  match run ex_panel ex_sends2 with Ok (p, _) => in_buffer (sent (p_conn p)) ex_deeds (bytes_of (into_msg ex_cmd)) | _ => False end /\
  match run ex_panel (ex_misled ++ ex_sends2) with
  | Ok (p, _) => let ds := ex_deeds ++ [Tells (ex_pkt (MTaskChange 5))] in
      spells (iarrived ex_turns ++ arrived (ex_misled ++ ex_sends2)) (put_out ds) /\ in_buffer (sent (p_conn p)) ds (bytes_of (into_msg ex_cmd) ++ bytes_of (into_msg ex_cmd)) /\
      misleading (own ds) = 1%nat
  | _ => False
  end.
Proof.
  destruct ex_turns_fine as (T1 & T2 & T3 & T4). destruct ex_buffer as (fs & Fs & ES). rewrite app_nil_r in ES.
  assert (PE : put_out ex_deeds = map ex_pkt ex_replies) by (vm_compute; reflexivity).
  eexists _, _. split; [exact T1|]. split; [exact T2|]. split; [rewrite T3, PE; apply ex_spells; exact T4|]. split; [vm_compute; reflexivity|]. split; [exact ex_buffer|]. split; [reflexivity|].
  split; [vm_compute; reflexivity|]. split.
  - destruct (run ex_panel ex_sends2) as [[p bs]| |] eqn:E; [|vm_compute in E; discriminate E ..]. exists fs. split; [exact Fs|]. rewrite <- ES.
    assert (X : match run ex_panel ex_sends2 with Ok (p, _) => sent (p_conn p) = sent (p_conn ex_panel) ++ bytes_of (into_msg ex_cmd) | _ => False end) by (vm_compute; reflexivity).
    rewrite E in X. exact X.
  - destruct (run ex_panel (ex_misled ++ ex_sends2)) as [[p bs]| |] eqn:E; [|vm_compute in E; discriminate E ..]. cbv zeta. split; [|split].
    + rewrite T3, put_out_app, PE. change (put_out [Tells (ex_pkt (MTaskChange 5))]) with (map ex_pkt [MTaskChange 5]).
      assert (arrived (ex_misled ++ ex_sends2) = concat (map bytes_of [MTaskChange 5])) as -> by reflexivity.
      rewrite <- concat_app, <- !map_app. apply ex_spells. apply Forall_app. split; [exact T4|]. repeat constructor; cbn; lia.
    + exists fs. rewrite taken_out_app, app_nil_r. split; [exact Fs|]. rewrite <- ES.
      assert (X : match run ex_panel (ex_misled ++ ex_sends2) with Ok (p, _) => sent (p_conn p) = sent (p_conn ex_panel) ++ bytes_of (into_msg ex_cmd) ++ bytes_of (into_msg ex_cmd) | _ => False end) by (vm_compute; reflexivity).
      rewrite E in X. exact X.
    + vm_compute. reflexivity.
Qed.

Print Assumptions C119_connecting.
Print Assumptions C119_backlog.
Print Assumptions C119_not_overrun.
Print Assumptions C119_since_calm.
Print Assumptions C119_bridge.
Print Assumptions C119_bridge_since_calm.
Print Assumptions C119_backlog_bounded_refuted.
