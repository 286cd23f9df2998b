(* PropIndep.v: theorems C75 and C76: what a Panel reports does not depend on what is sent, and depends on the clock only through
   intervals of five seconds. *)
From Verif Require Import Base BaseFacts Pkt SpecPkt PktFacts DecodeFacts Msg SpecMsg DecFacts MsgFacts WireFacts IsoFacts
  Tokio SpecConn ConnFacts State SpecState StateFacts RunFacts HistFacts ExState PropState PropSink PropCode.
From Coq Require Import ZifyBool ZifyNat ZifyN.
Ltac Zify.zify_post_hook ::= Z.div_mod_to_equations.

(* ---- vocabulary ---- *)
(* the part of a history that the receiving side sees *)
Definition receiving (o : op) : bool := match o with Arrive _ | PollNext _ => true | _ => false end.
Definition receives (h : list op) : list op := filter receiving h.
(* an event without the command it completes, an answer of poll_next without that, and the answers in a list of observations *)
Definition reported (e : Event) : option packet * option (message + string) * option Change := (e_pkt e, e_msg e, e_change e).
Definition answer_seen (r : poll (option (io Event))) :=
  match r with
  | Pending => Pending
  | Ready None => Ready None
  | Ready (Some (IoErr e)) => Ready (Some (IoErr e))
  | Ready (Some (IoOk e)) => Ready (Some (IoOk (reported e)))
  end.
Definition seen (bs : list obs) := catMaybes (map (fun b => match b with ONext r _ => Some (answer_seen r) | _ => None end) bs).

(* ---- what poll_next does, in terms of the receiving side ---- *)
Definition rx (now : N) (s : PanelState) (a : option (N * ArmingStatusReport)) (m : message)
  : res (PanelState * option (N * ArmingStatusReport) * option Change) :=
  match interpret_msg now (mkPanel conn_new s a Idle) m with
  | Ok (p, c) => Ok (p_state p, pending_arm p, c) | Err e => Err e | Panic w => Panic w
  end.
Lemma interpret_msg_rx now p m : interpret_msg now p m =
  match rx now (p_state p) (pending_arm p) m with
  | Ok (s, a, c) => Ok (mkPanel (p_conn p) s a (cmd_state p), c) | Err e => Err e | Panic w => Panic w
  end.
Proof.
  destruct p as [c s a k]. unfold rx, interpret_msg. destruct m; try reflexivity; cbn [p_state pending_arm p_conn cmd_state].
  - unfold interpret_arming_status. cbn [p_state pending_arm with_arming with_pending with_state p_conn cmd_state].
    destruct (s_arming s); [|reflexivity]. destruct a as [x|]; cbn [with_pending p_conn p_state cmd_state].
    + destruct (ArmingStatusReport_eqb _ _); reflexivity.
    + destruct (is_transition_suspicious _ _); [reflexivity|]. destruct (ArmingStatusReport_eqb _ _); reflexivity.
  - destruct (s_zones s) as [zs|]; [|reflexivity]. destruct (to_index (zc_zone m)) as [i|e|w]; try reflexivity. cbn [bind].
    destruct (index zs i) as [x|e|w]; try reflexivity. cbn [bind]. destruct (set_nth zs i (zc_status m)); reflexivity.
Qed.
(* interpret_reply touches only the command state *)
Lemma interpret_reply_cmd p m : exists k o w, interpret_reply p m = (with_cmd p k, o, w).
Proof.
  unfold interpret_reply. destruct p as [c s a [|r f w]]; cbn [cmd_state].
  - exists Idle, None, None. reflexivity.
  - destruct (is_response_to m r); [exists Idle, (Some r), w | exists (Busy r f w), None, None]; reflexivity.
Qed.

(* ---- C75 ---- *)
(* same state and same receiving side *)
Definition same_rx (p p' : Panel) : Prop :=
  p_state p' = p_state p /\ pending_arm p' = pending_arm p /\ exists b s, p_conn p' = set_write (p_conn p) b s.
Lemma same_rx_refl p : same_rx p p.
Proof. repeat split. exists (wbuf (p_conn p)), (sent (p_conn p)). destruct (p_conn p). reflexivity. Qed.
Lemma same_rx_trans a b c : same_rx a b -> same_rx b c -> same_rx a c.
Proof. intros (A & B & x & y & C) (A' & B' & x' & y' & C'). split; [congruence|]. split; [congruence|]. exists x', y'. rewrite C', C. reflexivity. Qed.
Lemma same_rx_sym a b : same_rx a b -> same_rx b a.
Proof.
  intros (A & B & x & y & C). split; [congruence|]. split; [congruence|]. exists (wbuf (p_conn a)), (sent (p_conn a)). rewrite C.
  destruct (p_conn a). reflexivity.
Qed.
Lemma poll_next_same now p p' : same_rx p p' ->
  match poll_next now p with
  | Ok (q, r, _) => exists q' r' w', poll_next now p' = Ok (q', r', w') /\ same_rx q q' /\ answer_seen r' = answer_seen r
  | Err e => poll_next now p' = Err e
  | Panic w => poll_next now p' = Panic w
  end.
Proof.
  intros (S & A & b & s & C).
  assert (K : forall c, same_rx (with_conn p c) (with_conn p' (set_write c b s))) by (intros c; split; [exact S|]; split; [exact A|]; exists b, s; reflexivity).
  unfold poll_next, conn_poll_next. rewrite C. cbn [set_write rq]. rewrite framed_loop_write.
  destruct (framed_loop _ (p_conn p)) as [[c r]|e|w]; cbn [bind]; [|reflexivity..].
  destruct r as [|[[pkt|e]|]]; cbn [with_conn pending_arm p_state].
  - rewrite A, S. destruct (pending_arm p) as [[d m]|].
    + destruct (d <=? now).
      * destruct (s_arming (p_state p)); [|reflexivity]. eexists _, _, _. split; [reflexivity|].
        split; [|reflexivity]. split; [cbn; rewrite S; reflexivity|]. split; [reflexivity|]. exists b, s. reflexivity.
      * eexists _, _, _. split; [reflexivity|]. split; [apply K | reflexivity].
    + eexists _, _, _. split; [reflexivity|]. split; [apply K | reflexivity].
  - unfold interpret. destruct (parse pkt) as [[m|]|e|w]; cbn [bind].
    + rewrite !interpret_msg_rx. cbn [with_conn p_state pending_arm p_conn cmd_state]. rewrite S, A.
      destruct (rx now (p_state p) (pending_arm p) m) as [[[s1 a1] ch]|e|w]; cbn [bind]; [|reflexivity..].
      edestruct (interpret_reply_cmd (mkPanel c s1 a1 (cmd_state p)) m) as (k & o & w & ->).
      edestruct (interpret_reply_cmd (mkPanel (set_write c b s) s1 a1 (cmd_state p')) m) as (k' & o' & w' & ->). cbn [bind].
      eexists _, _, _. split; [reflexivity|]. split; [|reflexivity]. split; [reflexivity|]. split; [reflexivity|]. exists b, s. reflexivity.
    + eexists _, _, _. split; [reflexivity|]. split; [apply K | reflexivity].
    + eexists _, _, _. split; [reflexivity|]. split; [apply K | reflexivity].
    + reflexivity.
  - eexists _, _, _. split; [reflexivity|]. split; [apply K | reflexivity].
  - eexists _, _, _. split; [reflexivity|]. split; [apply K | reflexivity].
Qed.
Lemma flush_rx p ws c ws' r : conn_poll_flush (p_conn p) ws = (c, ws', r) -> same_rx p (with_conn p c).
Proof.
  unfold conn_poll_flush. destruct (framed_flush _ _ _) as [[[b o] w] x]. intros [= <- _ _]. split; [reflexivity|]. split; [reflexivity|].
  exists b, o. reflexivity.
Qed.
Lemma with_cmd_rx p k : same_rx p (with_cmd p k).
Proof. destruct (same_rx_refl p) as (A & B & C). repeat split; auto. Qed.
Lemma panel_flush_rx ws p p' ws' r : panel_flush ws p = (p', ws', r) -> same_rx p p'.
Proof.
  unfold panel_flush. destruct (cmd_state p) as [|q [] w]; try (intros [= <- _ _]; apply same_rx_refl).
  destruct (conn_poll_flush (p_conn p) ws) as [[c ws1] r1] eqn:E. apply flush_rx in E.
  destruct r1 as [|[[]|e]]; intros [= <- _ _]; exact E.
Qed.
Lemma sending_step p o q b : receiving o = false -> step p o = Ok (q, b) -> same_rx p q /\ (forall r w, b <> ONext r w).
Proof.
  destruct o; try discriminate; intros _; cbn [step].
  - unfold poll_ready. destruct (cmd_state p) as [|m f k].
    + intros [= <- <-]. split; [apply same_rx_refl | discriminate].
    + destruct f.
      * intros [= <- <-]. split; [apply with_cmd_rx | discriminate].
      * destruct (conn_poll_flush (p_conn p) ws) as [[c ws1] r1] eqn:E. apply flush_rx in E.
        destruct r1 as [|[[]|e]]; intros [= <- <-]; (split; [exact E | discriminate]).
  - intros E. apply bind_inv in E as (p1 & E & [= <- <-]). split; [|discriminate]. unfold start_send in E.
    destruct (cmd_state p); [|discriminate]. apply bind_inv in E as (pkt & _ & E). apply bind_inv in E as (c' & E & [= <-]).
    apply conn_start_send_spec in E as (buf & _ & ->). split; [reflexivity|]. split; [reflexivity|]. exists buf, (sent (p_conn p)). reflexivity.
  - unfold poll_flush. destruct (panel_flush ws p) as [[p1 ws1] r] eqn:E. intros [= <- <-]. split; [eapply panel_flush_rx; eauto | discriminate].
  - unfold poll_close. destruct (panel_flush ws p) as [[p1 ws1] r] eqn:E. apply panel_flush_rx in E.
    destruct r as [|[[]|e]]; try (intros [= <- <-]; split; [exact E | discriminate]).
    unfold conn_poll_close. destruct (conn_poll_flush (p_conn p1) ws1) as [[c ws2] r2] eqn:E2. apply flush_rx in E2.
    intros [= <- <-]. split; [|discriminate]. eapply same_rx_trans; eauto.
Qed.
(* Leaving out every call on the sending side changes nothing that is reported. *)
Lemma receives_run os : forall p p0 q bs, same_rx p p0 -> run p os = Ok (q, bs) ->
  exists q0 bs0, run p0 (receives os) = Ok (q0, bs0) /\ same_rx q q0 /\ seen bs0 = seen bs.
Proof.
  induction os as [|o os IH]; intros p p0 q bs S E.
  - injection E as <- <-. exists p0, []. auto.
  - cbn [run] in E. apply bind_inv in E as ([p1 b] & E1 & E). apply bind_inv in E as ([p2 bs2] & E2 & [= <- <-]).
    cbn [receives filter]. destruct (receiving o) eqn:R.
    + destruct o; try discriminate; cbn [step] in E1.
      * injection E1 as <- <-. destruct (IH (with_conn p (arrive (p_conn p) a)) (with_conn p0 (arrive (p_conn p0) a)) _ _ ltac:(destruct S as (A & B & x & y & C); split; [exact A|]; split; [exact B|]; exists x, y; cbn [with_conn p_conn]; rewrite C; reflexivity) E2) as (q0 & bs0 & H1 & H2 & H3).
        exists q0, (ONone :: bs0). cbn [run step bind]. fold (receives os). rewrite H1. cbn [bind]. split; [reflexivity|]. split; [exact H2|].
        unfold seen in *. cbn. exact H3.
      * apply bind_inv in E1 as ([[p1' r] w] & E1 & [= <- <-]). assert (X := poll_next_same now p p0 S). rewrite E1 in X.
        destruct X as (q1 & r1 & w1 & X1 & X2 & X3). destruct (IH _ _ _ _ X2 E2) as (q0 & bs0 & H1 & H2 & H3).
        exists q0, (ONext r1 w1 :: bs0). cbn [run step]. fold (receives os). rewrite X1. cbn [bind]. rewrite H1. cbn [bind].
        split; [reflexivity|]. split; [exact H2|]. unfold seen in *. cbn. rewrite X3. f_equal. exact H3.
    + destruct (sending_step _ _ _ _ R E1) as (H1 & H2).
      destruct (IH p1 p0 _ _ ltac:(eapply same_rx_trans; [apply same_rx_sym; exact H1 | exact S]) E2) as (q0 & bs0 & H3 & H4 & H5).
      exists q0, bs0. split; [exact H3|]. split; [exact H4|]. rewrite H5. unfold seen. destruct b; try reflexivity. elim (H2 r woken). reflexivity.
Qed.
Theorem C75_sending_does_not_change_what_is_reported : forall p h h' q q' bs bs',
  run p h = Ok (q, bs) -> run p h' = Ok (q', bs') -> receives h = receives h' ->
  seen bs = seen bs' /\ p_state q = p_state q' /\ pending_arm q = pending_arm q' /\ same_read (p_conn q) (p_conn q').
Proof.
  intros p h h' q q' bs bs' E E' R. destruct (receives_run _ _ _ _ _ (same_rx_refl p) E) as (q0 & bs0 & H1 & H2 & H3).
  destruct (receives_run _ _ _ _ _ (same_rx_refl p) E') as (q1 & bs1 & H1' & H2' & H3'). rewrite R, H1' in H1. injection H1 as -> ->.
  split; [congruence|]. destruct (same_rx_trans _ _ _ H2 (same_rx_sym _ _ H2')) as (A & B & b & s & C).
  split; [congruence|]. split; [congruence|]. rewrite C. repeat split.
Qed.
(* In particular receiving works as if nothing had ever been sent. *)
Theorem C75_as_if_nothing_was_sent : forall p h q bs, run p h = Ok (q, bs) ->
  exists q0 bs0, run p (receives h) = Ok (q0, bs0) /\ seen bs0 = seen bs /\ p_state q0 = p_state q.
Proof.
  intros p h q bs E. destruct (receives_run _ _ _ _ _ (same_rx_refl p) E) as (q0 & bs0 & H1 & H2 & H3).
  exists q0, bs0. split; [exact H1|]. split; [exact H3|]. apply H2.
Qed.
(* The converse: the bytes handed to the connection are determined by the commands alone. *)
Theorem C75_receiving_does_not_change_what_is_written : forall p h h' q q' bs bs', connected p -> Forall op_ok h -> Forall op_ok h' ->
  run p h = Ok (q, bs) -> run p h' = Ok (q', bs') -> accepted h = accepted h' ->
  sent (p_conn q) ++ wbuf (p_conn q) = sent (p_conn q') ++ wbuf (p_conn q').
Proof.
  intros p h h' q q' bs bs' C O O' E E' A. destruct (C42_wire_is_the_commands _ _ _ _ C O E) as (fs & F & ->).
  destruct (C42_wire_is_the_commands _ _ _ _ C O' E') as (fs' & F' & ->). f_equal. f_equal. rewrite <- A in F'.
  assert (W : Forall (fun c => wf_message (into_msg c)) (accepted h)).
  { clear -O. unfold accepted. induction O as [|o h H _ IH]; [constructor|]. destruct o; cbn; auto. }
  clear - F F' W. revert fs' F' W. induction F as [|c f l fs Hf F IH]; intros fs' F' W; inversion F' as [|? f' ? fs1 Hf' F1]; subst; [reflexivity|].
  inversion_clear W as [|? ? WC WL]. f_equal; [|apply IH; [exact F1 | exact WL]]. destruct Hf as (b & W & FR), Hf' as (b' & W' & FR').
  assert (b = b') by (eapply wire_fun; eassumption). subst b'. eapply ascii_frame_fun; [eapply wire_ascii | |]; eassumption.
Qed.
(* two commands in one run, none in the other; the events differ only in what they complete *)
Definition ex_with : list op :=
  [got (MTaskChange 5); StartSend (CmdActivateTask 5); PollFlush [WAccept 3; WAccept 100]; got (MZoneChange (mkZC 1 9)); PollNext 0; PollNext 0; PollNext 0].
Example C75_example : Forall op_ok ex_with /\
  receives ex_with = [got (MTaskChange 5); got (MZoneChange (mkZC 1 9)); PollNext 0; PollNext 0; PollNext 0] /\
  match run ex_panel ex_with, run ex_panel (receives ex_with) with
  | Ok (q, bs), Ok (q', bs') => (catMaybes (map e_completes (events bs)), catMaybes (map e_completes (events bs')), length (seen bs), length (wbuf (p_conn q)))
  | _, _ => ([], [], 0%nat, 0%nat)
  end = ([MActivateTask 5], [], 3%nat, 0%nat).
Proof. split; [|split; [reflexivity | vm_compute; reflexivity]]. repeat constructor; cbn; unfold task_ok; try lia; vm_compute; repeat constructor. Qed.

(* ---- C76 ---- *)
(* h' is h with other times; ts are the times of the polls, in h and in h' *)
Inductive retimed : list op -> list op -> list (N * N) -> Prop :=
| rt_nil : retimed [] [] []
| rt_poll t t' h h' ts : retimed h h' ts -> retimed (PollNext t :: h) (PollNext t' :: h') ((t, t') :: ts)
| rt_other o h h' ts : (forall t, o <> PollNext t) -> retimed h h' ts -> retimed (o :: h) (o :: h') ts.
(* the second poll is at least five seconds (5000 ms) after the first in both or in neither *)
Definition as_far (a b : N * N) : Prop := fst a + 5000 <= fst b <-> snd a + 5000 <= snd b.
(* equal but for the deadline of a held report *)
Definition same_but_deadline (p p' : Panel) : Prop :=
  p_conn p' = p_conn p /\ p_state p' = p_state p /\ cmd_state p' = cmd_state p /\ held p' = held p.
(* the deadlines are passed at the same polls *)
Definition aligned (p p' : Panel) (ts : list (N * N)) : Prop :=
  p_conn p' = p_conn p /\ p_state p' = p_state p /\ cmd_state p' = cmd_state p /\
  match pending_arm p, pending_arm p' with
  | None, None => True
  | Some (d, m), Some (d', m') => m' = m /\ Forall (fun t => d <= fst t <-> d' <= snd t) ts
  | _, _ => False
  end.
Lemma aligned_same p p' ts : aligned p p' ts -> same_but_deadline p p'.
Proof.
  intros (A & B & C & D). do 3 (split; [assumption|]). unfold held. destruct (pending_arm p) as [[d m]|], (pending_arm p') as [[d' m']|]; try tauto; try reflexivity.
  destruct D as [-> _]. reflexivity.
Qed.
Lemma aligned_step p p' ts o q b : (forall t, o <> PollNext t) -> aligned p p' ts -> step p o = Ok (q, b) ->
  exists q', step p' o = Ok (q', b) /\ aligned q q' ts.
Proof.
  intros NP. destruct p as [c s a k], p' as [c' s' a' k']. intros (A & B & C & D) E. cbn [p_conn p_state cmd_state pending_arm] in *. subst c' s' k'.
  assert (X : step (mkPanel c s a' k) o = match step (mkPanel c s a k) o with
     Ok (q, b) => Ok (mkPanel (p_conn q) (p_state q) a' (cmd_state q), b) | Err e => Err e | Panic w => Panic w end /\
     (forall q b, step (mkPanel c s a k) o = Ok (q, b) -> pending_arm q = a)).
  { clear -NP. destruct o; cbn [step].
    - split; [reflexivity | intros ? ? [= <- <-]; reflexivity].
    - elim (NP now). reflexivity.
    - unfold poll_ready. cbn [cmd_state p_conn]. destruct k as [|m [] w']; try (split; [reflexivity | intros ? ? [= <- <-]; reflexivity]).
      destruct (conn_poll_flush c ws) as [[c1 w1] r]. destruct r as [|[u|e]]; (split; [reflexivity | intros ? ? [= <- <-]; reflexivity]).
    - unfold start_send. cbn [cmd_state p_conn]. destruct k; [|split; [reflexivity | discriminate]]. destruct (to_pkt (into_msg c0)); cbn [bind]; try (split; [reflexivity | discriminate]).
      destruct (conn_start_send c a0); cbn [bind]; (split; [reflexivity|]); try discriminate. intros ? ? [= <- <-]. reflexivity.
    - unfold poll_flush, panel_flush. cbn [cmd_state p_conn]. destruct k as [|m [] w']; try (split; [reflexivity | intros ? ? [= <- <-]; reflexivity]).
      destruct (conn_poll_flush c ws) as [[c1 w1] r]. destruct r as [|[u|e]]; (split; [reflexivity | intros ? ? [= <- <-]; reflexivity]).
    - unfold poll_close, panel_flush. cbn [cmd_state p_conn]. destruct k as [|m [] w'].
      1,2: cbn [p_conn]; destruct (conn_poll_close c ws) as [[c2 w2] r2]; (split; [reflexivity | intros ? ? [= <- <-]; reflexivity]).
      destruct (conn_poll_flush c ws) as [[c1 w1] r]. destruct r as [|[u|e]]; try (split; [reflexivity | intros ? ? [= <- <-]; reflexivity]).
      cbn [with_cmd with_conn p_conn]. destruct (conn_poll_close c1 w1) as [[c2 w2] r2]; (split; [reflexivity | intros ? ? [= <- <-]; reflexivity]). }
  destruct X as [X Y]. rewrite E in X. eexists. split; [exact X|]. specialize (Y _ _ E). split; [reflexivity|]. split; [reflexivity|]. split; [reflexivity|].
  cbn [pending_arm]. rewrite Y. exact D.
Qed.
Lemma aligned_msg t t' p p' m ts : aligned p p' ts -> Forall (as_far (t, t')) ts ->
  match interpret_msg t p m with
  | Ok (q, c) => exists q', interpret_msg t' p' m = Ok (q', c) /\ aligned q q' ts
  | Err e => interpret_msg t' p' m = Err e
  | Panic w => interpret_msg t' p' m = Panic w
  end.
Proof.
  intros AL F. assert (AL0 := AL). destruct p as [c s a k], p' as [c' s' a' k']. destruct AL as (A & B & C & D). cbn [p_conn p_state cmd_state pending_arm] in *. subst c' s' k'.
  unfold interpret_msg. destruct m; try (eexists; split; [reflexivity | exact AL0]); cbn [p_state].
  - unfold interpret_arming_status. cbn [p_state pending_arm]. destruct (s_arming s) as [prior|]; [|eexists; split; [reflexivity|]; repeat split; exact D].
    assert (NONE : forall q, q = mkPanel c s None k -> exists q',
      Ok (if ArmingStatusReport_eqb prior m then (mkPanel c s None k, None) else (with_arming (mkPanel c s None k) m, Some (CArmingStatus prior))) =
        Ok (q', snd (if ArmingStatusReport_eqb prior m then (q, None) else (with_arming q m, Some (CArmingStatus prior)))) /\
      aligned (fst (if ArmingStatusReport_eqb prior m then (q, None) else (with_arming q m, Some (CArmingStatus prior)))) q' ts).
    { intros q ->. destruct (ArmingStatusReport_eqb prior m); cbn [fst snd]; eexists; (split; [reflexivity | repeat split]). }
    destruct a as [[d x]|], a' as [[d' x']|]; try contradiction; cbn [with_pending p_conn p_state cmd_state].
    + specialize (NONE _ eq_refl). destruct (ArmingStatusReport_eqb prior m); exact NONE.
    + destruct (is_transition_suspicious prior m).
      * eexists. split; [reflexivity|]. do 3 (split; [reflexivity|]). cbn [with_pending pending_arm]. split; [reflexivity|].
        eapply Forall_impl; [|exact F]. intros u. unfold as_far. cbn [fst snd]. change SUSPICIOUS_TRANSITION_DELAY with 5000. tauto.
      * specialize (NONE _ eq_refl). destruct (ArmingStatusReport_eqb prior m); exact NONE.
  - destruct (s_zones s) as [zs|]; [|eexists; split; [reflexivity | exact AL0]]. destruct (to_index (zc_zone m)) as [i|e|w]; try reflexivity. cbn [bind].
    destruct (index zs i) as [x|e|w]; try reflexivity. cbn [bind]. destruct (set_nth zs i (zc_status m)) as [y|e|w]; try reflexivity.
    eexists. split; [reflexivity|]. repeat split; exact D.
  - eexists. split; [reflexivity|]. repeat split; exact D.
Qed.
Lemma aligned_reply p p' m ts : aligned p p' ts -> exists q', interpret_reply p' m = (q', snd (fst (interpret_reply p m)), snd (interpret_reply p m)) /\
  aligned (fst (fst (interpret_reply p m))) q' ts.
Proof.
  intros AL. assert (AL0 := AL). destruct p as [c s a k], p' as [c' s' a' k']. destruct AL as (A & B & C & D). cbn [p_conn p_state cmd_state pending_arm] in *. subst c' s' k'.
  unfold interpret_reply. cbn [cmd_state]. destruct k as [|r f w]; [eexists; split; [reflexivity | exact AL0]|].
  destruct (is_response_to m r); eexists; (split; [reflexivity | repeat split; exact D]).
Qed.
Lemma aligned_poll t t' p p' ts : aligned p p' ((t, t') :: ts) -> Forall (as_far (t, t')) ts ->
  match poll_next t p with
  | Ok (q, r, w) => exists q', poll_next t' p' = Ok (q', r, w) /\ aligned q q' ts
  | Err e => poll_next t' p' = Err e
  | Panic w => poll_next t' p' = Panic w
  end.
Proof.
  intros (A & B & C & D) F. assert (AL : forall c, aligned (with_conn p c) (with_conn p' c) ts).
  { intros c. do 3 (split; [cbn; auto|]). cbn [with_conn pending_arm]. destruct (pending_arm p) as [[d m]|], (pending_arm p') as [[d' m']|]; auto.
    destruct D as [-> D]. inversion_clear D. auto. }
  unfold poll_next. rewrite A. destruct (conn_poll_next (p_conn p)) as [[c r]|e|w]; cbn [bind]; [|reflexivity..].
  destruct r as [|[[pkt|e]|]].
  - specialize (AL c). cbn [with_conn pending_arm p_state] in *. rewrite B.
    destruct (pending_arm p) as [[d m]|] eqn:P, (pending_arm p') as [[d' m']|] eqn:P'; try contradiction.
    + destruct D as [-> D]. inversion_clear D as [|? ? H _]. cbn [fst snd] in H. destruct (d <=? t) eqn:L.
      * replace (d' <=? t') with true by (symmetry; apply N.leb_le; apply H; apply N.leb_le; exact L).
        destruct (s_arming (p_state p)); [|reflexivity]. eexists. split; [reflexivity|]. split; [reflexivity|]. split; [cbn; rewrite B; reflexivity|].
        split; [exact C | exact I].
      * replace (d' <=? t') with false by (symmetry; apply N.leb_gt; apply N.leb_gt in L; lia). eexists. split; [reflexivity | exact AL].
    + eexists. split; [reflexivity | exact AL].
  - unfold interpret. destruct (parse pkt) as [[m|]|e|w]; cbn [bind]; try (eexists; split; [reflexivity | apply AL]); try reflexivity.
    assert (X := aligned_msg t t' _ _ m ts (AL c) F). destruct (interpret_msg t (with_conn p c) m) as [[q ch]|e|w]; [|rewrite X; reflexivity..].
    destruct X as (q' & -> & X). cbn [bind]. destruct (aligned_reply _ _ m _ X) as (q2 & -> & Y).
    destruct (interpret_reply q m) as [[q1 o] w]. cbn [fst snd bind] in *. eexists. split; [reflexivity | exact Y].
  - eexists. split; [reflexivity | apply AL].
  - eexists. split; [reflexivity | apply AL].
Qed.
Theorem C76_only_five_second_intervals_matter : forall h h' ts p q bs, retimed h h' ts -> ForallOrdPairs as_far ts ->
  (forall d m, pending_arm p = Some (d, m) -> Forall (fun t => d <= fst t <-> d <= snd t) ts) ->
  run p h = Ok (q, bs) -> exists q', run p h' = Ok (q', bs) /\ same_but_deadline q q'.
Proof.
  intros h h' ts p q bs R O I. assert (AL : aligned p p ts).
  { do 3 (split; [reflexivity|]). destruct (pending_arm p) as [[d m]|] eqn:P; [split; [reflexivity|]; eauto | exact Logic.I]. }
  clear I. revert AL. generalize p at 2 4 as p'. revert p q bs O.
  induction R as [|t t' h h' ts R IH|o h h' ts NP R IH]; intros p q bs O p' AL E.
  - injection E as <- <-. exists p'. split; [reflexivity | eapply aligned_same; eauto].
  - inversion_clear O as [|? ? F O']. cbn [run step] in *. apply bind_inv in E as ([p1 b] & E1 & E). apply bind_inv in E1 as ([[p2 r] w] & E1 & [= <- <-]).
    apply bind_inv in E as ([p3 bs'] & E2 & [= <- <-]). assert (X := aligned_poll _ _ _ _ _ AL F). rewrite E1 in X. destruct X as (q' & -> & X).
    cbn [bind]. destruct (IH _ _ _ O' _ X E2) as (q2 & -> & Y). exists q2. split; [reflexivity | exact Y].
  - cbn [run] in *. apply bind_inv in E as ([p1 b] & E1 & E). apply bind_inv in E as ([p3 bs'] & E2 & [= <- <-]).
    destruct (aligned_step _ _ _ _ _ _ NP AL E1) as (q' & -> & X). cbn [bind]. destruct (IH _ _ _ O _ X E2) as (q2 & -> & Y).
    exists q2. split; [reflexivity | exact Y].
Qed.
(* The clock's zero does not matter. *)
Definition later (k : N) (o : op) : op := match o with PollNext t => PollNext (t + k) | o => o end.
Definition panel_later (k : N) (p : Panel) : Panel :=
  with_pending p (match pending_arm p with Some (d, m) => Some (d + k, m) | None => None end).
Theorem C76_the_zero_of_the_clock_does_not_matter : forall k p h q bs, run p h = Ok (q, bs) ->
  exists q', run (panel_later k p) (map (later k) h) = Ok (q', bs) /\ same_but_deadline q q'.
Proof.
  intros k p h q bs E. set (polls := fun h => catMaybes (map (fun o => match o with PollNext t => Some (t, t + k) | _ => None end) h)).
  assert (FAR : forall h, Forall (fun a => snd a = fst a + k) (polls h)).
  { clear. induction h as [|o h IH]; [constructor|]. unfold polls in *. destruct o; cbn; auto. }
  assert (AL : aligned p (panel_later k p) (polls h)).
  { do 3 (split; [reflexivity|]). cbn [panel_later with_pending pending_arm]. destruct (pending_arm p) as [[d m]|]; [|exact I].
    split; [reflexivity|]. eapply Forall_impl; [|apply FAR]. cbv beta. intros a ->. lia. }
  revert E AL. generalize (panel_later k p). intros p' E AL. revert p p' q bs E AL.
  induction h as [|o h IH]; intros p p' q bs E AL; [|].
  - injection E as <- <-. exists p'. split; [reflexivity | eapply aligned_same; eauto].
  - cbn [run map] in *. apply bind_inv in E as ([p1 b] & E1 & E). apply bind_inv in E as ([p3 bs'] & E2 & [= <- <-]).
    assert (X : exists q', step p' (later k o) = Ok (q', b) /\ aligned p1 q' (polls h)).
    { destruct o as [a|t| | | |]; try (eapply aligned_step; [discriminate | exact AL | exact E1]).
      cbn [step later] in *. apply bind_inv in E1 as ([[p2 r] w] & E1 & [= <- <-]).
      assert (X := aligned_poll t (t + k) p p' (polls h) AL). rewrite E1 in X. destruct X as (q' & -> & X); [|eexists; split; [reflexivity | exact X]].
      eapply Forall_impl; [|apply FAR]. intros a Ha. unfold as_far. cbv beta in Ha. rewrite Ha. cbn [fst snd]. lia. }
    destruct X as (q' & -> & X). cbn [bind]. destruct (IH _ _ _ _ E2 X) as (q2 & -> & Y). exists q2. split; [reflexivity | exact Y].
Qed.

(* a report held at 1000 and shown at 6000, in one run; held at 70000 and shown at 75000, in the other; neither shown at the poll between *)
Definition ex_at (a b c : N) : list op := [got (MArmingStatusReport ex_armed); PollNext a; PollNext b; PollNext c].
Example C76_example : retimed (ex_at 1000 5999 6000) (ex_at 70000 70001 75000) [(1000, 70000); (5999, 70001); (6000, 75000)] /\
  ForallOrdPairs as_far [(1000, 70000); (5999, 70001); (6000, 75000)] /\ pending_arm ex_panel = None /\
  match run ex_panel (ex_at 1000 5999 6000), run ex_panel (ex_at 1000 5999 5999) with
  | Ok (q, bs), Ok (q', bs') => (map e_change (events bs), map e_change (events bs'), held q')
  | _, _ => ([], [], None)
  end = ([None; Some (CArmingStatus ex_disarmed)], [None], Some ex_armed).
Proof.
  split; [repeat (first [apply rt_poll | apply rt_other; [discriminate|] | apply rt_nil])|].
  split; [repeat (first [apply FOP_nil | apply FOP_cons | apply Forall_nil | apply Forall_cons]); unfold as_far; cbn [fst snd]; lia|]. split; [reflexivity | vm_compute; reflexivity].
Qed.

Print Assumptions C75_sending_does_not_change_what_is_reported.
Print Assumptions C75_as_if_nothing_was_sent.
Print Assumptions C75_receiving_does_not_change_what_is_written.
Print Assumptions C76_only_five_second_intervals_matter.
Print Assumptions C76_the_zero_of_the_clock_does_not_matter.
