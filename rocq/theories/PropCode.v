(* PropCode.v: theorem C59, continued: where the arm code can show up in what the bridge publishes.
   Two runs of the bridge with different codes and the same inputs are compared step by step. *)
From Verif Require Import Base BaseFacts Pkt SpecPkt PktFacts DecodeFacts Msg SpecMsg DecFacts MsgFacts WireFacts IsoFacts
  PropMsg Tokio SpecConn ConnFacts State SpecState StateFacts RunFacts HistFacts ViewFacts ExState PropState PropSink
  Serde SerdeFacts PropSerde Mqtt SpecMqtt MqttFacts PropMqtt.
From Coq Require Import ZifyBool ZifyNat ZifyN.
Ltac Zify.zify_post_hook ::= Z.div_mod_to_equations.

(* The same publish, or two that differ only in the code of the command that an event completes. *)
Definition same_but_code (cfg cfg' : Cfg) (a a' : action) : Prop :=
  a = a' \/
  exists pkt m change area level k k' v v', dec_canon 6 (code cfg) k /\ dec_canon 6 (code cfg') k' /\
    Event_ser (mkEvent pkt m (Some (MArmRequest (mkArmRequest area level k))) change) = Ok v /\
    Event_ser (mkEvent pkt m (Some (MArmRequest (mkArmRequest area level k'))) change) = Ok v' /\
    a = APublish (topic_prefix cfg ++ B "/event") false (PJson v) /\
    a' = APublish (topic_prefix cfg ++ B "/event") false (PJson v').

(* ---- the relation between the two runs ---- *)
Definition msim (k k' : bytes) (m m' : message) : Prop :=
  exists area level, m = MArmRequest (mkArmRequest area level k) /\ m' = MArmRequest (mkArmRequest area level k').
Definition cmdsim (k k' : bytes) (s s' : CmdState) : Prop :=
  match s, s' with
  | Idle, Idle => True
  | Busy m f w, Busy m' f' w' => msim k k' m m' /\ f = f' /\ w = w'
  | _, _ => False
  end.
Definition csim (c c' : conn) : Prop := (exists b s, c' = set_write c b s) /\ length (wbuf c) = length (wbuf c').
Definition psim (k k' : bytes) (p p' : Panel) : Prop :=
  csim (p_conn p) (p_conn p') /\ p_state p = p_state p' /\ pending_arm p = pending_arm p' /\ cmdsim k k' (cmd_state p) (cmd_state p').
Definition modesim (k k' : bytes) (m m' : mode) : Prop :=
  match m, m' with
  | Selecting, Selecting | Flushing, Flushing => True
  | Feeding c, Feeding c' => msim k k' (into_msg c) (into_msg c')
  | _, _ => False
  end.
Definition bsim (cfg cfg' : Cfg) (b b' : bridge) : Prop :=
  match b, b' with
  | Connecting s rx, Connecting s' rx' => s = s' /\ rx = rx'
  | Up u, Up u' => psim (u_code u) (u_code u') (u_panel u) (u_panel u') /\ modesim (u_code u) (u_code u') (u_mode u) (u_mode u') /\ u_rx u = u_rx u' /\
      Forall2 (same_but_code cfg cfg') (u_log u) (u_log u')
  | Dead l _, Dead l' _ => Forall2 (same_but_code cfg cfg') l l'
  | _, _ => False
  end.

Lemma same_refl cfg cfg' l : Forall2 (same_but_code cfg cfg') l l.
Proof. induction l; constructor; [left; reflexivity | assumption]. Qed.
Lemma csim_refl c : csim c c.
Proof. split; [|reflexivity]. exists (wbuf c), (sent c). destruct c. reflexivity. Qed.

Lemma framed_loop_write n : forall c b s, framed_loop n (set_write c b s) =
  match framed_loop n c with Ok (c1, r) => Ok (set_write c1 b s, r) | Err e => Err e | Panic w => Panic w end.
Proof.
  induction n as [|n IH]; intros c b s; [reflexivity|]. cbn [framed_loop].
  destruct c as [rb eof rd er q pc wb st sh]. unfold set_write, set_read. cbn [rbuf c_eof is_readable has_errored rq peer_closed wbuf sent shut].
  destruct er; [reflexivity|].
  assert (R : forall buf rd', (match q with
     | [] => if pc then if eof then Ok (mkConn buf true false false [] pc b s sh, Ready None) else framed_loop n (mkConn buf true true false [] pc b s sh)
             else Ok (mkConn buf eof rd' false q pc b s sh, Pending)
     | RData [] :: q0 => if eof then Ok (mkConn buf true false false q0 pc b s sh, Ready None) else framed_loop n (mkConn buf true true false q0 pc b s sh)
     | RData (x :: y) :: q0 => framed_loop n (mkConn (buf ++ x :: y) false true false q0 pc b s sh)
     | RErr e :: q0 => Ok (mkConn buf eof false true q0 pc b s sh, Ready (Some (IoErr e)))
     end) =
     match (match q with
     | [] => if pc then if eof then Ok (mkConn buf true false false [] pc wb st sh, Ready None) else framed_loop n (mkConn buf true true false [] pc wb st sh)
             else Ok (mkConn buf eof rd' false q pc wb st sh, Pending)
     | RData [] :: q0 => if eof then Ok (mkConn buf true false false q0 pc wb st sh, Ready None) else framed_loop n (mkConn buf true true false q0 pc wb st sh)
     | RData (x :: y) :: q0 => framed_loop n (mkConn (buf ++ x :: y) false true false q0 pc wb st sh)
     | RErr e :: q0 => Ok (mkConn buf eof false true q0 pc wb st sh, Ready (Some (IoErr e)))
     end) with Ok (c1, r) => Ok (set_write c1 b s, r) | Err e => Err e | Panic w => Panic w end).
  { intros buf rd'. destruct q as [|[[|x y]|e] q]; [destruct pc; [destruct eof|]| destruct eof | |]; try reflexivity;
      match goal with |- _ = match framed_loop n ?c with _ => _ end => rewrite <- (IH c b s); reflexivity end. }
  destruct rd.
  - destruct eof.
    + destruct (codec_decode_eof rb) as [[[[p|]|e] rest]| |]; reflexivity.
    + destruct (codec_decode rb) as [[[p|] rest]| |]; cbn [bind]; [reflexivity | | reflexivity..].
      specialize (R rest false). destruct q as [|[[|x y]|e] q]; exact R.
  - specialize (R rb false). destruct q as [|[[|x y]|e] q]; exact R.
Qed.
Lemma poll_next_csim c c' : csim c c' ->
  match conn_poll_next c, conn_poll_next c' with
  | Ok (c1, r), Ok (c1', r') => r = r' /\ csim c1 c1'
  | Err e, Err e' => e = e' | Panic w, Panic w' => w = w'
  | _, _ => False
  end.
Proof.
  intros [(b & s & ->) L]. unfold conn_poll_next. cbn [set_write rq wbuf] in *. rewrite framed_loop_write.
  destruct (framed_loop _ c) as [[c1 r]|e|w] eqn:E; try reflexivity. split; [reflexivity|]. split; [eauto|]. cbn [set_write wbuf]. rewrite <- L.
  pose proof (framed_loop_write (2 + length (rq c)) c (wbuf c) (sent c)) as W. rewrite E in W.
  replace (set_write c (wbuf c) (sent c)) with c in W by (destruct c; reflexivity). rewrite E in W. injection W as W. rewrite W. reflexivity.
Qed.
Lemma flush_sim ws : forall buf out buf' out', length buf = length buf' ->
  let '(b1, o1, w1, r1) := framed_flush ws buf out in
  let '(b2, o2, w2, r2) := framed_flush ws buf' out' in
  length b1 = length b2 /\ w1 = w2 /\ r1 = r2.
Proof.
  induction ws as [|w ws IH]; intros buf out buf' out' L; destruct buf as [|x buf], buf' as [|x' buf']; try discriminate; cbn [framed_flush]; auto.
  destruct w as [[|n]| |e]; auto. apply IH. cbn [length] in L. rewrite !skipn_length. cbn [length]. lia.
Qed.
Lemma conn_flush_sim c c' ws : csim c c' ->
  let '(c1, w1, r1) := conn_poll_flush c ws in let '(c2, w2, r2) := conn_poll_flush c' ws in csim c1 c2 /\ w1 = w2 /\ r1 = r2.
Proof.
  intros [(b & s & ->) L]. unfold conn_poll_flush. cbn [set_write wbuf sent] in *.
  pose proof (flush_sim ws (wbuf c) (sent c) b s L) as F. destruct (framed_flush ws (wbuf c) (sent c)) as [[[b1 o1] w1] r1], (framed_flush ws b s) as [[[b2 o2] w2] r2].
  destruct F as (F & -> & ->). split; [|auto]. split; [|exact F]. exists b2, o2. reflexivity.
Qed.

(* ---- the panel ---- *)
Definition esim (k k' : bytes) (e e' : Event) : Prop :=
  e_pkt e = e_pkt e' /\ e_msg e = e_msg e' /\ e_change e = e_change e' /\
  match e_completes e, e_completes e' with None, None => True | Some m, Some m' => msim k k' m m' | _, _ => False end.
Definition nextsim (k k' : bytes) (r r' : poll (option (io Event))) : Prop :=
  match r, r' with
  | Ready (Some (IoOk e)), Ready (Some (IoOk e')) => esim k k' e e'
  | Ready (Some (IoErr x)), Ready (Some (IoErr x')) => x = x'
  | Ready None, Ready None | Pending, Pending => True
  | _, _ => False
  end.
Ltac ps := repeat match goal with
  | |- csim _ _ => assumption
  | |- _ /\ _ => split
  | |- psim _ _ _ _ => unfold psim
  | |- esim _ _ _ _ => unfold esim
  end; try reflexivity; try exact Logic.I; try assumption; cbn; auto.
Lemma reply_sim k k' q q' m : msim k k' q q' -> is_response_to m q = is_response_to m q'.
Proof. intros (a & l & -> & ->). destruct m; reflexivity. Qed.
Lemma interpret_sim k k' now p p' pkt : psim k k' p p' ->
  match interpret now p pkt, interpret now p' pkt with
  | Ok (q, e, w), Ok (q', e', w') => psim k k' q q' /\ esim k k' e e'
  | Err e, Err e' => True | Panic w, Panic w' => True
  | _, _ => False
  end.
Proof.
  destruct p as [c s pe cs], p' as [c' s' pe' cs']. unfold psim. cbn [p_conn p_state pending_arm cmd_state]. intros (C & <- & <- & K).
  assert (ST : psim k k' (mkPanel c s pe cs) (mkPanel c' s pe cs')) by (ps).
  unfold interpret. destruct (parse pkt) as [[m|]|e|w]; [|split; [exact ST|]; ps..|exact Logic.I].
  assert (IM : match interpret_msg now (mkPanel c s pe cs) m, interpret_msg now (mkPanel c' s pe cs') m with
    | Ok (q, ch), Ok (q', ch') => psim k k' q q' /\ cmd_state q = cs /\ cmd_state q' = cs' /\ ch = ch'
    | Err e, Err e' => True | Panic w, Panic w' => True | _, _ => False end).
  { destruct m; cbn [interpret_msg]; try (ps; fail).
    all: try (unfold interpret_arming_status; cbn [p_state pending_arm s_arming]; destruct (s_arming s) as [prior|]; [|ps];
      destruct pe as [x|]; [|destruct (is_transition_suspicious prior _); [ps|]]; destruct (ArmingStatusReport_eqb prior _); ps; fail).
    all: try (cbn [p_state]; destruct (s_zones s) as [l|]; [|ps]; destruct (to_index _) as [i| |]; cbn [bind]; try exact Logic.I;
      destruct (index l i) as [x| |]; cbn [bind]; try exact Logic.I; destruct (set_nth l i _) as [y| |]; cbn [bind]; try exact Logic.I; ps; fail). }
  destruct (interpret_msg now (mkPanel c s pe cs) m) as [[q ch]|e|w], (interpret_msg now (mkPanel c' s pe cs') m) as [[q' ch']|e'|w']; try contradiction; cbn [bind]; try exact Logic.I.
  destruct IM as ((C1 & S1 & P1 & K1) & E1 & E2 & <-). unfold interpret_reply. rewrite E1, E2 in *. destruct cs as [|rq f w], cs' as [|rq' f' w']; try contradiction.
  - split; [|ps]. ps; rewrite E1, E2; exact Logic.I.
  - destruct K as (M & <- & <-). rewrite <- (reply_sim _ _ _ _ m M). destruct (is_response_to m rq).
    + split; [ps|]. ps.
    + split; [|ps]. ps; rewrite E1, E2; ps.
Qed.
Lemma poll_next_sim k k' now p p' : psim k k' p p' ->
  match poll_next now p, poll_next now p' with
  | Ok (q, r, w), Ok (q', r', w') => psim k k' q q' /\ nextsim k k' r r'
  | Err e, Err e' => True | Panic w, Panic w' => True
  | _, _ => False
  end.
Proof.
  intros S. pose proof S as (C & E1 & E2 & K). unfold poll_next. pose proof (poll_next_csim _ _ C) as N.
  destruct (conn_poll_next (p_conn p)) as [[c r]|e|w], (conn_poll_next (p_conn p')) as [[c' r']|e'|w']; try contradiction; cbn [bind]; try exact Logic.I.
  destruct N as [<- N]. assert (S' : psim k k' (with_conn p c) (with_conn p' c')) by (split; [exact N|]; ps).
  destruct r as [|[[pkt|e]|]]; cbn [nextsim]; [| |split; [exact S' | reflexivity]|split; [exact S' | exact Logic.I]].
  - cbn [with_conn pending_arm p_state]. rewrite <- E2, <- E1. destruct (pending_arm p) as [[d x]|]; [|split; [exact S' | exact Logic.I]].
    destruct (d <=? now); [|split; [exact S' | exact Logic.I]]. destruct (s_arming (p_state p)) as [prior|]; [|exact Logic.I].
    split; [|cbn [nextsim]; ps]. split; [exact N|]. cbn. rewrite E1. ps.
  - pose proof (interpret_sim k k' now _ _ pkt S') as I.
    destruct (interpret now (with_conn p c) pkt) as [[[q e] w]|e|w], (interpret now (with_conn p' c') pkt) as [[[q' e'] w']|e'|w']; try contradiction; cbn [bind]; try exact Logic.I. exact I.
Qed.
Lemma poll_ready_sim k k' w ws p p' : psim k k' p p' ->
  let '(q, r) := poll_ready w ws p in let '(q', r') := poll_ready w ws p' in psim k k' q q' /\ r = r'.
Proof.
  intros S. pose proof S as (C & E1 & E2 & K). unfold poll_ready. destruct (cmd_state p) as [|m f a] eqn:EC, (cmd_state p') as [|m' f' a'] eqn:EC'; try contradiction; [auto|].
  destruct K as (M & <- & <-). destruct f.
  - split; [|reflexivity]. ps.
  - pose proof (conn_flush_sim _ _ ws C) as F. destruct (conn_poll_flush (p_conn p) ws) as [[c x] r], (conn_poll_flush (p_conn p') ws) as [[c' x'] r']. destruct F as (F & <- & <-).
    destruct r as [|[u|e]].
    + split; [|reflexivity]. split; [exact F|]. cbn. rewrite EC, EC'. ps.
    + split; [|reflexivity]. split; [exact F|]. ps.
    + split; [|reflexivity]. split; [exact F|]. cbn. rewrite EC, EC'. ps.
Qed.
Lemma poll_flush_sim k k' ws p p' : psim k k' p p' ->
  let '(q, r) := poll_flush ws p in let '(q', r') := poll_flush ws p' in psim k k' q q' /\ r = r'.
Proof.
  intros S. pose proof S as (C & E1 & E2 & K). unfold poll_flush, panel_flush. destruct (cmd_state p) as [|m f a] eqn:EC, (cmd_state p') as [|m' f' a'] eqn:EC'; try contradiction; [auto|].
  destruct K as (M & <- & <-). destruct f; [auto|].
  pose proof (conn_flush_sim _ _ ws C) as F. destruct (conn_poll_flush (p_conn p) ws) as [[c x] r], (conn_poll_flush (p_conn p') ws) as [[c' x'] r']. destruct F as (F & <- & <-).
  destruct r as [|[u|e]].
  - split; [|reflexivity]. split; [exact F|]. cbn. rewrite EC, EC'. ps.
  - split; [|reflexivity]. split; [exact F|]. ps.
  - split; [|reflexivity]. split; [exact F|]. cbn. rewrite EC, EC'. ps.
Qed.
Lemma arm_frame_length r f : command_frame (CmdArm r) f -> length f = 17%nat.
Proof.
  intros (b & (l & a & -> & _ & (La & _) & _ & (Lc & _)) & nn & cc & c & (i & j & x & y & _ & _ & _ & ->) & (i' & j' & x' & y' & _ & _ & _ & ->) & _ & ->).
  rewrite !app_length. cbn [length]. rewrite La, Lc. reflexivity.
Qed.
Lemma start_send_sim k k' c c' p p' : psim k k' p p' -> pinv p -> pinv p' -> msim k k' (into_msg c) (into_msg c') ->
  wf_message (into_msg c) -> wf_message (into_msg c') -> cmd_state p = Idle ->
  exists q q', start_send c p = Ok q /\ start_send c' p' = Ok q' /\ psim k k' q q'.
Proof.
  intros (C & E1 & E2 & K) _ _ M W W' ID. rewrite ID in K. unfold start_send. rewrite ID. destruct (cmd_state p'); [|destruct K].
  destruct (command_pkt c W) as (b & f & -> & F & HE), (command_pkt c' W') as (b' & f' & -> & F' & HE').
  cbn [bind]. unfold conn_start_send. rewrite HE, HE'. cbn [bind]. eexists _, _. split; [reflexivity|]. split; [reflexivity|].
  destruct C as [(wb & st & EC) L]. split.
  - split; [exists (wbuf (p_conn p') ++ f'), st; rewrite EC; reflexivity|]. cbn. rewrite !app_length, L. f_equal.
    destruct M as (a & l & M1 & M2). destruct c as [r|]; [|discriminate]. destruct c' as [r'|]; [|discriminate].
    rewrite (arm_frame_length _ _ F), (arm_frame_length _ _ F'). reflexivity.
  - cbn. rewrite E1, E2. auto.
Qed.

(* ---- the bridge ---- *)
Definition liken (cfg cfg' : Cfg) (o o' : out unit) : Prop :=
  Forall2 (same_but_code cfg cfg') (fst o) (fst o') /\
  match snd o, snd o' with Ok _, Ok _ => True | Err _, Err _ => True | Panic _, Panic _ => True | _, _ => False end.
Lemma liken_refl cfg cfg' o : liken cfg cfg' o o.
Proof. split; [apply same_refl|]. destruct (snd o); exact Logic.I. Qed.
Lemma liken_bind cfg cfg' (m m' f f' : out unit) : liken cfg cfg' m m' -> liken cfg cfg' f f' -> liken cfg cfg' (obind m (fun _ => f)) (obind m' (fun _ => f')).
Proof.
  intros [H1 H2] [H3 H4]. destruct m as [l [u|e|w]], m' as [l' [u'|e'|w']]; cbn [fst snd obind] in *; try contradiction; try (split; [exact H1 | exact Logic.I]).
  destruct f as [lf rf], f' as [lf' rf']. cbn [fst snd] in *. split; [apply Forall2_app; assumption | exact H4].
Qed.
Lemma areas_state cl p p' prefix as_ : p_state p = p_state p' -> publish_area_states cl p prefix as_ = publish_area_states cl p' prefix as_.
Proof. intros E. unfold publish_area_states, panel_arming_status. rewrite E. reflexivity. Qed.
Lemma zone_state cl p p' prefix z c : p_state p = p_state p' -> publish_zone_state cl p prefix z c = publish_zone_state cl p' prefix z c.
Proof. intros E. unfold publish_zone_state, panel_zone_statuses. rewrite E. reflexivity. Qed.
Lemma handle_sim cl cfg c k k' p p' e e' : dec_canon 6 (code cfg) k -> dec_canon 6 c k' -> p_state p = p_state p' -> esim k k' e e' ->
  liken cfg (with_code cfg c) (handle_event cl cfg p e) (handle_event cl (with_code cfg c) p' e').
Proof.
  intros D D' ES (E1 & E2 & E3 & E4). destruct e as [pk m co ch], e' as [pk' m' co' ch']. cbn [e_pkt e_msg e_change e_completes] in *. subst pk' m' ch'.
  unfold handle_event. cbn [e_change]. change (topic_prefix (with_code cfg c)) with (topic_prefix cfg). change (areas (with_code cfg c)) with (areas cfg). change (zones (with_code cfg c)) with (zones cfg).
  assert (T : liken cfg (with_code cfg c)
     (match ch with Some (CArmingStatus _) => publish_area_states cl p (topic_prefix cfg) (areas cfg)
      | Some (CZoneChange zone _) => match find (fun '(k, _) => k =? zone) (zones cfg) with None => done tt | Some (_, z) => publish_zone_state cl p (topic_prefix cfg) zone z end
      | None => done tt end)
     (match ch with Some (CArmingStatus _) => publish_area_states cl p' (topic_prefix cfg) (areas cfg)
      | Some (CZoneChange zone _) => match find (fun '(k, _) => k =? zone) (zones cfg) with None => done tt | Some (_, z) => publish_zone_state cl p' (topic_prefix cfg) zone z end
      | None => done tt end)).
  { destruct ch as [[z x|x]|]; [|rewrite (areas_state _ _ _ _ _ ES); apply liken_refl | apply liken_refl].
    destruct (find _ _) as [[y z']|]; [|apply liken_refl]. rewrite (zone_state _ _ _ _ _ _ ES). apply liken_refl. }
  assert (PUB : forall v v', (v = v' \/ same_but_code cfg (with_code cfg c) (APublish (topic_prefix cfg ++ B "/event") false (PJson v)) (APublish (topic_prefix cfg ++ B "/event") false (PJson v'))) ->
    liken cfg (with_code cfg c) (publish cl AtLeastOnce (event_topic (topic_prefix cfg)) false (PJson v)) (publish cl AtLeastOnce (event_topic (topic_prefix cfg)) false (PJson v'))).
  { intros v v' [->|H]; [apply liken_refl|]. unfold publish, event_topic. destruct (topic_ok _ _); [|split; [constructor | exact Logic.I]]. split; [|exact Logic.I]. constructor; [exact H | constructor]. }
  assert (NXT : forall v v', (v = v' \/ same_but_code cfg (with_code cfg c) (APublish (topic_prefix cfg ++ B "/event") false (PJson v)) (APublish (topic_prefix cfg ++ B "/event") false (PJson v'))) ->
    forall f f', liken cfg (with_code cfg c) (f v) (f' v') -> liken cfg (with_code cfg c) (obind (lift (Ok v)) f) (obind (lift (Ok v')) f')).
  { intros v v' _ f f' H. unfold lift, obind. destruct (f v), (f' v'). exact H. }
  destruct co as [q|], co' as [q'|]; try contradiction.
  - destruct E4 as (area & level & -> & ->).
    destruct (Event_ser (mkEvent pk m (Some (MArmRequest (mkArmRequest area level k))) ch)) as [v|er|w] eqn:EV.
    + assert (X : exists v', Event_ser (mkEvent pk m (Some (MArmRequest (mkArmRequest area level k'))) ch) = Ok v').
      { unfold Event_ser in *. cbn [e_msg e_completes] in *. destruct (ser_opt_res Outcome_ser m) as [x| |]; try discriminate. cbn [bind] in *. eexists. reflexivity. }
      destruct X as (v' & EV'). rewrite EV'.
      assert (SB : same_but_code cfg (with_code cfg c) (APublish (topic_prefix cfg ++ B "/event") false (PJson v)) (APublish (topic_prefix cfg ++ B "/event") false (PJson v'))).
      { right. exists pk, m, ch, area, level, k, k', v, v'. repeat (split; [assumption|]). split; reflexivity. }
      apply NXT; [right; exact SB|]. apply liken_bind; [apply PUB; right; exact SB | exact T].
    + exfalso. unfold Event_ser in EV. cbn [e_msg e_completes] in EV. destruct m as [[m|]|]; cbn in EV; try discriminate. destruct m; cbn in EV; discriminate.
    + assert (X : exists w', Event_ser (mkEvent pk m (Some (MArmRequest (mkArmRequest area level k'))) ch) = Panic w').
      { unfold Event_ser in *. cbn [e_msg e_completes] in *. destruct (ser_opt_res Outcome_ser m) as [x| |]; try discriminate. cbn [bind] in *. eexists. reflexivity. }
      destruct X as (w' & ->). split; [constructor | exact Logic.I].
  - destruct (Event_ser (mkEvent pk m None ch)) as [v|er|w]; [|split; [constructor | exact Logic.I]..].
    apply NXT; [left; reflexivity|]. apply liken_bind; [apply PUB; left; reflexivity | exact T].
Qed.
Lemma requested_sim prefix k k' as_ t pl :
  match requested prefix k as_ t pl, requested prefix k' as_ t pl with
  | Ok None, Ok None | Panic _, Panic _ | Err _, Err _ => True
  | Ok (Some c), Ok (Some c') => msim k k' (into_msg c) (into_msg c')
  | _, _ => False
  end.
Proof.
  induction as_ as [|[a n] as_ IH]; cbn [requested]; [exact Logic.I|]. destruct (negb _); [exact IH|]. destruct (negb _); [exact Logic.I|].
  destruct (beq pl (B "DISARM")); [|destruct (beq pl (B "ARM_AWAY")); [|destruct (beq pl (B "ARM_HOME")); [|exact Logic.I]]];
    (destruct (expect _ _) as [x| |]; cbn [bind]; [eexists _, _; split; reflexivity | exact Logic.I..]).
Qed.
Lemma send_flush_sim cfg cfg' ws u u' : bsim cfg cfg' (Up u) (Up u') ->
  bsim cfg cfg' (poll_send_flush ws u) (poll_send_flush ws u').
Proof.
  intros (P & M & R & L). unfold poll_send_flush. pose proof (poll_flush_sim _ _ ws _ _ P) as F.
  destruct (poll_flush ws (u_panel u)) as [q r], (poll_flush ws (u_panel u')) as [q' r']. destruct F as [F <-].
  destruct r as [|[x|e]]; cbn; auto.
Qed.
Lemma ready_idle w ws p q x : poll_ready w ws p = (q, Ready (IoOk x)) -> q = p /\ cmd_state p = Idle.
Proof.
  unfold poll_ready. destruct (cmd_state p) as [|m [] a]; [intros E; injection E as <- _; auto | discriminate |].
  destruct (conn_poll_flush _ _) as [[c y] [|[u|e]]]; discriminate.
Qed.
Lemma bsim_step cl cfg c b b' i : code cfg < 1000000 -> c < 1000000 ->
  (forall u, b = Up u -> binv cl cfg u) -> (forall u, b' = Up u -> binv cl (with_code cfg c) u) ->
  (forall s rx now ws p, b = Connecting s rx -> istep now ws s = IDone p -> cmd_state p = Idle) ->
  bsim cfg (with_code cfg c) b b' -> bsim cfg (with_code cfg c) (bstep cl cfg b i) (bstep cl (with_code cfg c) b' i).
Proof.
  intros H H' BI BI' CI HS. destruct b as [s rx|u|l w], b' as [s' rx'|u'|l' w']; try contradiction; [| |exact HS].
  - destruct HS as [<- <-]. destruct i as [a|t pl| |now ws|now| |ws]; cbn [bstep bsim]; auto.
    + specialize (CI s rx now ws). unfold after_connect. destruct (istep now ws s) as [f ph q|p|e|w]; cbn [bsim]; auto; [|constructor..].
      specialize (CI p eq_refl eq_refl).
      pose proof (start_up_code cl cfg c p H H') as [A B]. destruct (start_up cl cfg p) as [l1 r1] eqn:E1, (start_up cl (with_code cfg c) p) as [l2 r2]. cbn [fst snd] in *. subst l2.
      destruct B as [(k & k' & -> & ->)|[B1 B2]]; unfold settle.
      * cbn [bsim u_panel u_code u_mode u_rx u_log]. split; [|split; [exact Logic.I|]; split; [reflexivity | apply same_refl]].
        split; [apply csim_refl|]. rewrite CI. repeat split.
      * destruct r1 as [k|e|w]; [elim (B1 k eq_refl)|..]; (destruct r2 as [k'|e'|w']; [elim (B2 k' eq_refl)|..]); apply same_refl.
  - pose proof HS as (P & M & R & L). specialize (BI u eq_refl). specialize (BI' u' eq_refl).
    pose proof BI as (RC & RG & DC & _ & WF). pose proof BI' as (RC' & RG' & DC' & _ & WF').
    destruct i as [a|t pl| |now ws|now| |ws]; cbn [bstep].
    + cbn [bsim set_panel u_panel u_code u_mode u_rx u_log]. split; [|auto]. destruct P as ([(wb & st & EC) LC] & E1 & E2 & K). split; [|cbn; auto].
      split; [|cbn; exact LC]. exists wb, st. cbn [with_conn p_conn]. rewrite EC. reflexivity.
    + cbn [bsim u_panel u_code u_mode u_rx u_log]. rewrite R. auto.
    + exact L.
    + exact HS.
    + destruct (u_mode u) eqn:EM, (u_mode u') eqn:EM'; try contradiction; [|cbn [bsim]; rewrite EM, EM'; auto..].
      pose proof (poll_next_sim _ _ now _ _ P) as N.
      destruct (poll_next now (u_panel u)) as [[[q r] x]|e|w], (poll_next now (u_panel u')) as [[[q' r'] x']|e'|w']; try contradiction; [|exact L..].
      destruct N as [N1 N2]. destruct r as [|[[e|e]|]], r' as [|[[e'|e']|]]; try contradiction; [|..|exact L]; [| |exact L].
      * cbn [bsim set_panel u_panel u_code u_mode u_rx u_log]. rewrite EM, EM'. auto.
      * pose proof (handle_sim cl cfg c _ _ q q' e e' DC DC' ltac:(apply N1) N2) as [HL HR].
        destruct (handle_event cl cfg q e) as [l1 r1], (handle_event cl (with_code cfg c) q' e') as [l2 r2]. cbn [fst snd] in *.
        unfold settle. pose proof (Forall2_app L HL) as LL. destruct r1, r2; try contradiction; cbn [bsim u_panel u_code u_mode u_rx u_log]; auto.
    + change (topic_prefix (with_code cfg c)) with (topic_prefix cfg). change (areas (with_code cfg c)) with (areas cfg).
      rewrite <- R. destruct (u_mode u) eqn:EM, (u_mode u') eqn:EM'; try contradiction; destruct (u_rx u) as [|[t pl] rx] eqn:EX;
        try (cbn [bsim]; rewrite EM, EM', EX, <- R; auto; fail).
      pose proof (requested_sim (topic_prefix cfg) (u_code u) (u_code u') (areas cfg) t pl) as RS.
      destruct (requested _ (u_code u) _ _ _) as [[k|]|e|w], (requested _ (u_code u') _ _ _) as [[k'|]|e'|w']; try contradiction;
        cbn [bsim u_panel u_code u_mode u_rx u_log modesim]; auto.
    + destruct (u_mode u) as [|k|] eqn:EM, (u_mode u') as [|k'|] eqn:EM'; try contradiction.
      * cbn [bsim]. rewrite EM, EM'. auto.
      * pose proof (poll_ready_sim _ _ TASK ws _ _ P) as PR. destruct (poll_ready TASK ws (u_panel u)) as [q r] eqn:ER, (poll_ready TASK ws (u_panel u')) as [q' r'] eqn:ER'.
        destruct PR as [PR <-]. destruct r as [|[x|e]]; [| |exact L].
        -- cbn [bsim set_panel u_panel u_code u_mode u_rx u_log]. rewrite EM, EM'. auto.
        -- destruct (ready_idle _ _ _ _ _ ER) as [-> ID]. destruct (ready_idle _ _ _ _ _ ER') as [-> ID'].
           destruct (reachable_inv _ RC) as [I _]. destruct (reachable_inv _ RC') as [I' _].
           destruct (start_send_sim _ _ k k' _ _ PR I I' M (WF _ eq_refl) (WF' _ eq_refl) ID) as (q & q' & -> & -> & S).
           apply send_flush_sim. cbn [bsim set_panel u_panel u_code u_mode u_rx u_log]. rewrite EM, EM'. auto.
      * apply send_flush_sim. cbn [bsim]. rewrite EM, EM'. auto.
Qed.

(* ---- C59 ---- *)
(* Whatever happens, commands included: two runs that differ only in the configured code publish the same things in the same
   order, except for the code in the command that an event completes. *)
Theorem C59_code_only_in_completions_partial : forall cl cfg c is, code cfg < 1000000 -> c < 1000000 -> Forall input_ok is ->
  Forall2 (same_but_code cfg (with_code cfg c)) (blog (brun cl cfg is)) (blog (brun cl (with_code cfg c) is)).
Proof.
  intros cl cfg c is H H' HI.
  assert (X : bsim cfg (with_code cfg c) (brun cl cfg is) (brun cl (with_code cfg c) is)).
  { revert HI. induction is as [|i is IH] using rev_ind; intros HI; [split; reflexivity|].
    apply Forall_app in HI as [HI Hi]. specialize (IH HI). rewrite !brun_snoc. apply bsim_step; auto.
    - intros u EU. apply (bridge_binv cl cfg is). split; assumption.
    - intros u EU. apply (bridge_binv cl (with_code cfg c) is). split; assumption.
    - intros s rx now ws p EB ES. pose proof (brun_cases cl cfg is HI) as BC. rewrite EB in BC. destruct BC as (_ & h & HO & -> & _).
      apply (connected_inv p). exists (h ++ [IStep now ws]). split; [apply Forall_app; split; [exact HO | repeat constructor]|]. rewrite irun_step. exact ES. }
  destruct (brun cl cfg is) as [s rx|u|l w], (brun cl (with_code cfg c) is) as [s' rx'|u'|l' w']; cbn in *; try contradiction; try constructor; try apply X.
Qed.

(* ---- example ---- *)
(* armed by a command with code 1234 and with code 987654: the two logs have seven entries and differ in the last one *)
Example C59_completion_example :
  let l := blog (brun ex_cl ex_cfg (ex_start ++ ex_leak_in)) in
  let l' := blog (brun ex_cl (with_code ex_cfg 987654) (ex_start ++ ex_leak_in)) in
  length l = 7%nat /\ firstn 6 l = firstn 6 l' /\ l <> l' /\ Forall2 (same_but_code ex_cfg (with_code ex_cfg 987654)) l l'.
Proof.
  cbv zeta. split; [vm_compute; reflexivity|]. split; [vm_compute; reflexivity|]. split; [apply C59_example|].
  apply C59_code_only_in_completions_partial; [reflexivity | reflexivity | exact ex_leak_ok].
Qed.

Print Assumptions C59_code_only_in_completions_partial.
