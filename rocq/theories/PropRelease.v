(* PropRelease.v: theorem C118: built with and without overflow checks and debug assertions, library, bridge and command-line tool do the same. *)
From Verif Require Import Base BaseFacts Pkt SpecPkt PktFacts DecodeFacts Msg SpecMsg DecFacts MsgFacts WireFacts IsoFacts
  Tokio SpecConn ConnFacts State SpecState StateFacts RunFacts HistFacts ViewFacts ExState PropState Cli SpecCli PropCli Serde SerdeFacts.
From Verif Require ReasonFacts PropSerde.
From Verif Require Import Mqtt SpecMqtt MqttFacts PropMqtt Release.
From Coq Require Import ZifyBool ZifyNat ZifyN.
Ltac Zify.zify_post_hook ::= Z.div_mod_to_equations.

(* ---- packets ---- *)
Theorem C118_decode : forall src, decode_r src = decode src.
Proof.
  intros src. unfold decode_r, decode, rp_decode_r, rp_decode. destruct (length src <? 2)%nat; [reflexivity|].
  destruct (starts_with src RP_HEADER); reflexivity.
Qed.
Theorem C118_encode : forall p to, valid_packet p -> encode_r p to = encode p to.
Proof.
  intros [b|d|raw w] to V; cbn [encode_r encode]; [|reflexivity..]. destruct V as [_ L]. unfold ascii_encode_r, ascii_encode, add8, as_u8.
  rewrite (proj2 (N.ltb_lt _ _)) by lia. cbn [bind]. rewrite (N.mod_small (2 + N.of_nat (length b) mod 256)) by lia. reflexivity.
Qed.
(* The largest body that can be told apart: the build without checks sends a frame with a wrong length, the other panics. *)
Theorem C118_encode_only_when : forall b to, (2 <= length b <= 255)%nat -> (encode_r (PAscii b) to = encode (PAscii b) to <-> (length b <= 253)%nat).
Proof.
  intros b to L. cbn [encode_r encode]. unfold ascii_encode_r, ascii_encode, add8, as_u8. split.
  - intros E. destruct (N.ltb_spec (2 + N.of_nat (length b) mod 256) 256); [lia | discriminate].
  - intros H. rewrite (proj2 (N.ltb_lt _ _)) by lia. cbn [bind]. rewrite (N.mod_small (2 + N.of_nat (length b) mod 256)) by lia. reflexivity.
Qed.

(* ---- messages ---- *)
Lemma RtcData_r data : RtcData_from_ascii_r data = RtcData_from_ascii data.
Proof.
  unfold RtcData_from_ascii_r, RtcData_from_ascii. destruct (Nat.ltb_spec (length data) 16) as [|L]; [reflexivity|].
  unfold slice at 1 7. rewrite (proj2 (Nat.leb_le 13 (length data))) by lia. cbn [Nat.leb andb bind].
  set (s := firstn _ _). assert (LS : length s = 2%nat) by (unfold s; rewrite firstn_length, skipn_length; lia).
  destruct (parse_u8_dec "year" s) as [y|e|w] eqn:EY; cbn [bind]; [|reflexivity..].
  assert (Hy : y < 100).
  { apply parse_u8_dec_spec in EY. exact (ReasonFacts.two_digits _ _ EY LS). }
  rewrite (proj2 (N.ltb_lt _ _) Hy). reflexivity.
Qed.
Theorem C118_parse : forall pkt, parse_r pkt = parse pkt.
Proof.
  intros [b|d|raw w]; [|reflexivity..]. cbn [parse_r parse]. unfold parse_ascii_r, parse_ascii.
  destruct (length b <? 4)%nat; [reflexivity|]. destruct (slice b 0 2); [|reflexivity..]. cbn [bind].
  destruct (slice b 2 (length b)); [|reflexivity..]. cbn [bind]. rewrite !RtcData_r. reflexivity.
Qed.
Theorem C118_to_pkt : forall m, wf_message m -> to_pkt_r m = to_pkt m.
Proof.
  intros m W. unfold to_pkt_r, to_pkt. destruct m; cbn [to_ascii_r to_ascii]; try reflexivity.
  destruct W as [[? ?] _]. unfold ArmRequest_to_ascii_r, ArmRequest_to_ascii, add8. change (ch "0") with 48. rewrite (proj2 (N.ltb_lt _ _)) by lia.
  cbn [bind]. rewrite N.mod_small by lia. reflexivity.
Qed.

(* Values that were deserialised are not checked (C55), and there the builds do differ: one panics, the other sends a packet to an area that does not exist,
   or a frame whose length is wrong. *)
Theorem C118_deserialised_differs :
  (exists v m, Message_de FromText v = Ok m /\ to_pkt m = Panic "attempt to add with overflow" /\ to_pkt_r m = Ok (PAscii (B "a0*00000100"))) /\
  (exists v p, Packet_de v = Ok p /\ encode p [] = Panic "attempt to add with overflow" /\ exists f, encode_r p [] = Ok f /\ decode_r f <> Ok (Some p, [])).
Proof.
  split.
  - exists (tagged (B "armRequest") (VObj [(B "area", VNum 250); (B "level", VStr false (B "disarm")); (B "code", ArmCode_ser (B "000001"))])), (MArmRequest (mkArmRequest 250 AL_Disarm (B "000001"))).
    split; [vm_compute; reflexivity|]. split; vm_compute; reflexivity.
  - exists (tagged (B "ascii") (ser_str (repeat 65 254))), (PAscii (repeat 65 254)). split; [vm_compute; reflexivity|]. split; [vm_compute; reflexivity|].
    eexists. split; [vm_compute; reflexivity|]. vm_compute. discriminate.
Qed.

(* ---- the numbers of areas and zones as indices ---- *)
Lemma to_index_r_ok v : 1 <= v <= 255 -> to_index v = Ok (N.to_nat (to_index_r v)) /\ to_index_r v = v - 1.
Proof.
  intros H. unfold to_index, to_index_r. destruct (N.eqb_spec v 0); [lia|].
  assert (E : (v + (2 ^ 64 - 1)) mod 2 ^ 64 = v - 1) by (change (2 ^ 64) with 18446744073709551616; lia). rewrite E. split; [f_equal; lia | reflexivity].
Qed.
Lemma index_r_ok {A} (l : list A) i : index_r l i = index l (N.to_nat i).
Proof.
  unfold index_r. destruct (N.ltb_spec i (N.of_nat (length l))); [reflexivity|]. unfold index. rewrite (proj2 (nth_error_None _ _)); [reflexivity | lia].
Qed.
Lemma set_nth_out {A} (l : list A) x : forall i, (length l <= i)%nat -> set_nth l i x = Panic "index out of range".
Proof. induction l as [|y l IH]; intros [|i] H; cbn [set_nth length] in *; try reflexivity; [lia|]. rewrite IH by lia. reflexivity. Qed.
Lemma set_nth_r_ok {A} (l : list A) i x : set_nth_r l i x = set_nth l (N.to_nat i) x.
Proof. unfold set_nth_r. destruct (N.ltb_spec i (N.of_nat (length l))); [reflexivity|]. rewrite set_nth_out; [reflexivity | lia]. Qed.

(* ---- the connection ---- *)
Lemma framed_loop_r_ok f : forall c, framed_loop_r f c = framed_loop f c.
Proof.
  induction f as [|f IH]; intros c; [reflexivity|]. cbn [framed_loop_r framed_loop]. unfold codec_decode_eof_r, codec_decode_eof, codec_decode_r, codec_decode.
  rewrite C118_decode. destruct (has_errored c); [reflexivity|].
  assert (R : forall c, match rq c with
     | [] => if peer_closed c then (if c_eof c then Ok (set_read c (rbuf c) true false false [], Ready None) else framed_loop_r f (set_read c (rbuf c) true true false [])) else Ok (c, Pending)
     | RErr e :: q => Ok (set_read c (rbuf c) (c_eof c) false true q, Ready (Some (IoErr e)))
     | RData chunk :: q => match chunk with
          | [] => if c_eof c then Ok (set_read c (rbuf c) true false false q, Ready None) else framed_loop_r f (set_read c (rbuf c) true true false q)
          | _ :: _ => framed_loop_r f (set_read c (rbuf c ++ chunk) false true false q) end end =
     match rq c with
     | [] => if peer_closed c then (if c_eof c then Ok (set_read c (rbuf c) true false false [], Ready None) else framed_loop f (set_read c (rbuf c) true true false [])) else Ok (c, Pending)
     | RErr e :: q => Ok (set_read c (rbuf c) (c_eof c) false true q, Ready (Some (IoErr e)))
     | RData chunk :: q => match chunk with
          | [] => if c_eof c then Ok (set_read c (rbuf c) true false false q, Ready None) else framed_loop f (set_read c (rbuf c) true true false q)
          | _ :: _ => framed_loop f (set_read c (rbuf c ++ chunk) false true false q) end end).
  { intros c0. destruct (rq c0) as [|[[|x chunk]|e] q]; rewrite ?IH; reflexivity. }
  destruct (is_readable c); [|exact (R c)]. destruct (c_eof c) eqn:EE; [reflexivity|].
  destruct (decode (rbuf c)) as [[[p|] rest]|e|w]; cbn [bind]; [reflexivity | | reflexivity..]. exact (R _).
Qed.
Theorem C118_conn_next : forall c, conn_poll_next_r c = conn_poll_next c.
Proof. intros c. apply framed_loop_r_ok. Qed.
Lemma conn_send_r c p : valid_packet p -> conn_start_send_r c p = conn_start_send c p.
Proof. intros V. unfold conn_start_send_r, conn_start_send. rewrite (C118_encode _ _ V). reflexivity. Qed.
Lemma send_msg_r c m : wf_message m ->
  (pkt <- to_pkt_r m ;; conn_start_send_r c pkt) = (pkt <- to_pkt m ;; conn_start_send c pkt).
Proof.
  intros W. rewrite (C118_to_pkt _ W). destruct (to_pkt_spec m W) as (b & -> & _ & AB & _). cbn [bind]. apply conn_send_r. exact AB.
Qed.

(* ---- the panel ---- *)
Lemma interpret_r_ok now p pkt : pkt_ok pkt -> interpret_r now p pkt = interpret now p pkt.
Proof.
  intros HP. unfold interpret_r, interpret. rewrite C118_parse. destruct (parse pkt) as [[m|]|e|w] eqn:EP; try reflexivity.
  enough (interpret_msg_r now p m = interpret_msg now p m) as -> by reflexivity. pose proof (parsed_wf _ _ HP EP) as W.
  unfold interpret_msg_r, interpret_msg. destruct m; try reflexivity. destruct (s_zones (p_state p)) as [zs|]; [|reflexivity].
  cbn [wf_message] in W. destruct W as [[W1 W2] _]. destruct (to_index_r_ok _ (conj W1 (N.le_trans _ 208 255 W2 ltac:(lia)))) as [-> _]. cbn [bind].
  rewrite index_r_ok, set_nth_r_ok. reflexivity.
Qed.
Lemma poll_next_r_ok now p : pinv p -> poll_next_r now p = poll_next now p.
Proof.
  intros (CI & _). unfold poll_next_r, poll_next. rewrite C118_conn_next. destruct (conn_next_total _ CI) as (c & rc & -> & X). cbn [bind].
  destruct rc as [|[[pkt|e]|]]; try reflexivity. rewrite (interpret_r_ok now _ pkt); [reflexivity|]. eapply nexts_pkt_ok; eauto.
Qed.
Lemma start_send_r_ok c p : wf_message (into_msg c) -> start_send_r c p = start_send c p.
Proof.
  intros W. unfold start_send_r, start_send. destruct (cmd_state p); [|reflexivity].
  rewrite (C118_to_pkt _ W). destruct (to_pkt_spec _ W) as (b & -> & _ & AB & _). cbn [bind]. rewrite (conn_send_r _ (PAscii b) AB). reflexivity.
Qed.
Lemma step_r_ok p o : pinv p -> op_ok o -> step_r p o = step p o.
Proof.
  intros I HO. destruct o; cbn [step_r step]; try reflexivity; [rewrite (poll_next_r_ok _ _ I) | rewrite start_send_r_ok by exact HO]; reflexivity.
Qed.
(* Whatever is done with a panel that has been connected, in whatever order, the two builds do the same (panics included). *)
Theorem C118_panel : forall p h, reachable p -> Forall op_ok h -> run_r p h = run p h.
Proof.
  intros p h R HO. apply reachable_inv in R as [I _]. revert p I. induction HO as [|o h Ho HO IH]; intros p I; cbn [run_r run]; [reflexivity|].
  rewrite (step_r_ok _ _ I Ho). destruct (step p o) as [[p1 b]| |] eqn:E; [|reflexivity..]. cbn [bind].
  destruct (step_inv _ _ _ _ I Ho E) as [I1 _]. rewrite (IH _ I1). reflexivity.
Qed.

(* ---- connecting ---- *)
Lemma stage_msg_r_ok s p : stage_ok s p -> stage_msg_r s = stage_msg s.
Proof.
  destruct s as [| |ty max i]; try reflexivity. intros (_ & T & L). cbn [stage_msg_r stage_msg]. do 2 f_equal.
  destruct T as [[_ ->]|[[_ ->]|[_ ->]]]; lia.
Qed.
Lemma after_reply_r_ok s p m : is_response_to m (stage_msg s) = true -> after_reply_r s p m = after_reply s p m.
Proof.
  destruct s as [| |ty max i]; try reflexivity. intros H. cbn [after_reply_r after_reply]. unfold sds_reply_r, sds_reply. destruct m; try reflexivity.
  cbn [is_response_to stage_msg sdq_ty] in H. apply andb_true_iff in H as [H _].
  match goal with |- context [TextDescriptionType_eqb ty (sd_ty ?r)] => enough (TextDescriptionType_eqb ty (sd_ty r) = true) as -> by reflexivity; destruct ty, (sd_ty r); try reflexivity; discriminate end.
Qed.
Lemma istep_r_ok now ws i : iinv i -> istep_r now ws i = istep now ws i.
Proof.
  destruct i as [s ph p|p|e|w]; [|reflexivity..]. intros (PI & _ & SO & _). pose proof (stage_msg_r_ok _ _ SO) as EM. pose proof (stage_msg_wf _ _ SO) as WM.
  destruct ph; cbn [istep_r istep].
  - destruct (conn_poll_ready (p_conn p) ws) as [[c k] [|[[]|e]]]; try reflexivity. rewrite EM, (send_msg_r _ _ WM). reflexivity.
  - reflexivity.
  - rewrite C118_conn_next. destruct PI as (CI & _). destruct (conn_next_total _ CI) as (c & rc & -> & X). destruct rc as [|[[pkt|e]|]]; try reflexivity.
    + rewrite (interpret_r_ok now _ pkt) by (eapply nexts_pkt_ok; eauto). destruct (interpret now (with_conn p c) pkt) as [[[p' ev] w]| |]; try reflexivity.
      destruct (e_msg ev) as [[m|]|]; try reflexivity. rewrite EM. destruct (is_response_to m (stage_msg s)) eqn:ER; [|reflexivity]. apply after_reply_r_ok. exact ER.
    + unfold await_eof_r, await_eof. rewrite EM. reflexivity.
Qed.
Lemma iop_inv i o : iinv i -> iop_ok o -> iinv (iop_step i o).
Proof. intros I HO. destruct o; cbn [iop_step]; [apply iarrive_inv; auto | apply istep_inv; auto]. Qed.
Theorem C118_connect : forall h, Forall iop_ok h -> irun_r conn_new h = irun conn_new h.
Proof.
  induction h as [|o h IH] using rev_ind; intros HO; [reflexivity|]. apply Forall_app in HO as [HO Ho]. unfold irun_r, irun in *.
  rewrite !fold_left_app. cbn [fold_left]. rewrite (IH HO). pose proof (irun_inv h HO) as I. destruct o; cbn [iop_step_r iop_step]; [reflexivity|].
  apply istep_r_ok. exact I.
Qed.

(* ---- the command-line tool ---- *)
Lemma watch_event_r_ok p e ls : event_ok e -> watch_event p e = Ok ls -> watch_event_r p e = watch_event p e.
Proof.
  intros (_ & _ & _ & C) E. unfold watch_event_r, watch_event in *. destruct (e_change e) as [[z pr|pr]|]; try reflexivity.
  specialize (C _ eq_refl). cbn [change_ok] in C. unfold panel_zone_name_r, panel_zone_name in *.
  assert (HZ : 1 <= z <= 255). { destruct (N.eq_dec z 0) as [->|]; [discriminate E | lia]. }
  destruct (to_index_r_ok _ HZ) as [EZ _]. rewrite EZ. cbn [bind]. rewrite !index_r_ok.
  destruct (index _ _); [|reflexivity..]. cbn [bind]. destruct (TextDescription_as_str _); [|reflexivity..]. cbn [bind].
  destruct (panel_zone_statuses p); [|reflexivity..]. cbn [bind]. rewrite index_r_ok. reflexivity.
Qed.
Theorem C118_watch : forall h, Forall iop_ok h -> watch_r h = watch h.
Proof.
  induction h as [|o h IH] using rev_ind; intros HO; [reflexivity|]. apply Forall_app in HO as [HO Ho].
  assert (W : watch_r (h ++ [o]) = wstep_r (watch h) o) by (rewrite <- (IH HO); apply fold_left_app). rewrite W.
  assert (W' : watch (h ++ [o]) = wstep (watch h) o) by apply fold_left_app. rewrite W'.
  pose proof (watch_up h HO) as U. destruct (watch h) as [i|p log|log|log why] eqn:EW; [| |destruct o; reflexivity..]; destruct o as [a|now ws]; try reflexivity; cbn [wstep_r wstep].
  - destruct U as [<- _]. rewrite (istep_r_ok _ _ _ (irun_inv h HO)). reflexivity.
  - destruct (reachable_inv _ U) as [I _]. rewrite (poll_next_r_ok _ _ I).
    destruct (C54_watch_logs_the_changes h p log now ws HO EW) as (p' & r & w & EN & M). rewrite EN. destruct r as [|[[e|e]|]]; try reflexivity.
    destruct M as (ls & M & _). rewrite W' in M. cbn [wstep] in M. rewrite EN in M. destruct (watch_event p' e) as [ls'|er|why] eqn:EE; try discriminate.
    rewrite (watch_event_r_ok p' e ls'); [rewrite EE; reflexivity | | exact EE]. eapply PropSerde.emitted_ok; [exact I | exact EN |]. reflexivity.
Qed.

(* ---- the bridge ---- *)
Lemma each_ext {A} (f g : A -> out unit) l : (forall x, In x l -> f x = g x) -> each f l = each g l.
Proof.
  induction l as [|x l IH]; intros H; [reflexivity|]. cbn [each]. rewrite (H x (or_introl eq_refl)), IH; [reflexivity|]. intros y Hy. apply H. right. exact Hy.
Qed.
Lemma ha_area_state_r_ok r area : 1 <= area <= 255 -> ha_area_state_r r area = ha_area_state r area.
Proof.
  intros H. unfold ha_area_state_r, ha_area_state. destruct (to_index_r_ok _ H) as [-> _]. cbn [bind]. rewrite !index_r_ok.
  reflexivity.
Qed.
Lemma limited_same max n w a : expect (limited_try_from max n) w = Ok a -> a = n.
Proof. unfold limited_try_from. destruct (_ && _); cbn; congruence. Qed.
Lemma publish_area_states_r_ok cl p prefix ars : publish_area_states_r cl p prefix ars = publish_area_states cl p prefix ars.
Proof.
  unfold publish_area_states_r, publish_area_states. apply each_ext. intros [n name] _.
  destruct (expect (Area_try_from n) _) as [a|e|w] eqn:EA; [|reflexivity..]. cbn [lift obind]. destruct (panel_arming_status p); [|reflexivity..]. cbn [lift obind].
  rewrite ha_area_state_r_ok; [reflexivity|].
  assert (a = n) as -> by exact (limited_same _ _ _ _ EA). apply (limited_panic Area_MAX n) in EA. unfold Area_MAX in EA. lia.
Qed.
Lemma publish_zone_state_r_ok cl p prefix zone z : 1 <= zone <= 255 -> publish_zone_state_r cl p prefix zone z = publish_zone_state cl p prefix zone z.
Proof.
  intros H. unfold publish_zone_state_r, publish_zone_state. destruct (panel_zone_statuses p); [|reflexivity..]. cbn [lift obind].
  destruct (to_index_r_ok _ H) as [-> _]. cbn [lift obind]. rewrite index_r_ok.
  destruct (index _ _); [|reflexivity..]. cbn [lift obind]. destruct (ha_zone_state _); [|reflexivity..]. cbn [lift obind]. destruct (publish _ _ _ _ _). reflexivity.
Qed.
Lemma start_up_r_ok cl cfg p : start_up_r cl cfg p = start_up cl cfg p.
Proof.
  unfold start_up_r, start_up. rewrite publish_area_states_r_ok.
  assert (EZ : each (fun '(zone_id, z) => zone <~ lift (expect (Zone_try_from zone_id) "called `Result::unwrap()` on an `Err` value") ;;
         publish_zone_state_r cl p (topic_prefix cfg) zone z) (zones cfg) =
       each (fun '(zone_id, z) => zone <~ lift (expect (Zone_try_from zone_id) "called `Result::unwrap()` on an `Err` value") ;;
         publish_zone_state cl p (topic_prefix cfg) zone z) (zones cfg)).
  { apply each_ext. intros [n z] _. destruct (expect (Zone_try_from n) _) as [a|e|w] eqn:EA; [|reflexivity..]. cbn [lift obind].
    rewrite publish_zone_state_r_ok; [reflexivity|]. assert (a = n) as -> by exact (limited_same _ _ _ _ EA).
    apply (limited_panic Zone_MAX n) in EA. unfold Zone_MAX in EA. lia. }
  rewrite EZ. reflexivity.
Qed.
Lemma handle_event_r_ok cl cfg p e : in_range cfg -> handle_event_r cl cfg p e = handle_event cl cfg p e.
Proof.
  intros (_ & RZ & _). unfold handle_event_r, handle_event. destruct (Event_ser e); [|reflexivity..]. cbn [lift obind].
  destruct (e_change e) as [[zone pr|pr]|]; [|rewrite publish_area_states_r_ok; reflexivity | reflexivity].
  destruct (find _ (zones cfg)) as [[k z]|] eqn:EF; [|reflexivity]. apply find_some in EF as [EF K]. apply N.eqb_eq in K as ->.
  rewrite Forall_forall in RZ. specialize (RZ _ EF). cbn [fst] in RZ. unfold zone_ok in RZ. rewrite publish_zone_state_r_ok by lia. reflexivity.
Qed.
Lemma bstep_r_ok cl cfg b i : match b with Connecting s _ => iinv s | Up u => binv cl cfg u | Dead _ _ => True end -> bstep_r cl cfg b i = bstep cl cfg b i.
Proof.
  destruct b as [s rx|u|l w]; intros H; [| |reflexivity].
  - destruct i; try reflexivity. cbn [bstep_r bstep]. rewrite (istep_r_ok _ _ _ H). unfold after_connect_r, after_connect.
    destruct (istep now ws s); try reflexivity. rewrite start_up_r_ok. reflexivity.
  - destruct H as (R & RG & _ & _ & WF). destruct (reachable_inv _ R) as [I _]. destruct i as [a|t pl| |now ws|now| |ws]; try reflexivity; cbn [bstep_r bstep].
    + destruct (u_mode u); try reflexivity. rewrite (poll_next_r_ok _ _ I). destruct (poll_next now (u_panel u)) as [[[p [|[[e|er]|]]] w]|er|why]; try reflexivity.
      rewrite (handle_event_r_ok _ _ _ _ RG). reflexivity.
    + destruct (u_mode u) as [|c|]; try reflexivity. destruct (poll_ready TASK ws (u_panel u)) as [p [|[[]|er]]]; try reflexivity.
      rewrite (start_send_r_ok c p (WF c eq_refl)). reflexivity.
Qed.
(* Whatever arrives, from the panel and from the broker, and however polls fall: the bridge does the same, and publishes the same. *)
Theorem C118_bridge : forall cl cfg is, Forall input_ok is -> brun_r cl cfg is = brun cl cfg is.
Proof.
  intros cl cfg. induction is as [|i is IH] using rev_ind; intros HI; [reflexivity|]. apply Forall_app in HI as [HI Hi].
  assert (E : brun_r cl cfg (is ++ [i]) = bstep_r cl cfg (brun cl cfg is) i) by (rewrite <- (IH HI); apply fold_left_app). rewrite E, brun_snoc.
  apply bstep_r_ok. pose proof (brun_cases cl cfg is HI) as C. destruct (brun cl cfg is) as [s rx|u|l w]; [| |exact Logic.I].
  - destruct C as (_ & h & HO & -> & _). apply irun_inv. exact HO.
  - destruct C as (u0 & is1 & is2 & -> & C & _ & _ & E2). apply Forall_app in HI as [_ HI2].
    exact (proj1 (up_ind cl cfg u0 (fun _ _ => True) (came_up_binv _ _ _ C) Logic.I (fun _ _ _ _ _ _ _ _ _ => Logic.I) is2 u HI2 E2)).
Qed.

(* Examples: the run of ex_start comes up in both; a body of 254 bytes is where they differ (it cannot be had from AsciiPacket::try_from), and so is a request for
   index 256 of a table of descriptions (the tables have at most 208 entries). *)
Example C118_example : Forall input_ok (ex_start ++ ex_two_commands) /\ brun_r ex_cl ex_cfg (ex_start ++ ex_two_commands) = Up ex_blocked.
Proof.
  assert (H : Forall input_ok (ex_start ++ ex_two_commands)) by (apply Forall_app; split; [exact ex_start_ok | repeat constructor]).
  split; [exact H|]. rewrite (C118_bridge _ _ _ H). exact (proj2 ex_blocked_after).
Qed.
Example C118_example_wraps :
  encode_r (PAscii (repeat 65 254)) [] = Ok (B "00" ++ repeat 65 254 ++ B "22" ++ CRLF) /\ encode (PAscii (repeat 65 254)) [] = Panic "attempt to add with overflow" /\
  stage_msg_r (St_sd TT_Zone 256 255) = MStringDescriptionRequest (mkSdReq TT_Zone 0) /\ panel_zone_name_r ex_panel 0 = Panic "index out of range" /\
  to_index 0 = Panic "attempt to subtract with overflow".
Proof. vm_compute. auto. Qed.

Print Assumptions C118_decode.
Print Assumptions C118_encode.
Print Assumptions C118_encode_only_when.
Print Assumptions C118_parse.
Print Assumptions C118_to_pkt.
Print Assumptions C118_deserialised_differs.
Print Assumptions C118_conn_next.
Print Assumptions C118_panel.
Print Assumptions C118_connect.
Print Assumptions C118_watch.
Print Assumptions C118_bridge.
