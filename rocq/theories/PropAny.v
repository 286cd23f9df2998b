(* PropAny.v: C104: MQTT clients that do not wait for one command to be completed before they publish the next. *)
From Verif Require Import Base BaseFacts Pkt SpecPkt PktFacts DecodeFacts Msg SpecMsg DecFacts MsgFacts WireFacts IsoFacts
  PropMsg Tokio SpecConn ConnFacts State SpecState StateFacts RunFacts HistFacts ViewFacts ExState PropState PropSink PropLive
  Serde SerdeFacts PropSerde SpecInit InitFacts PropConnect SpecSend SendFacts PropSend Mqtt SpecMqtt MqttFacts PropMqtt PropEnd SpecServe ServeFacts PropServe
  SpecProgram ProgramFacts PropProgram.
From Verif Require SpecWakeInit PropWakeInit PropTasks PropBuffer.
From Verif Require Import Wake PropWake WakeBridge SpecHost HostFacts PropHost SpecAny.
From Coq Require Import ZifyBool ZifyNat ZifyN.
Ltac Zify.zify_post_hook ::= Z.div_mod_to_equations.

(* ---- until commands overlap it is the bridge of C99, with the publishes arriving only when they are taken from the channel ---- *)
Definition mail_of (b : bridge) : list (bytes * bytes) := match b with Connecting _ rx => rx | Up u => u_rx u | Dead _ _ => [] end.
Definition with_mail (b : bridge) (rx : list (bytes * bytes)) : bridge :=
  match b with Connecting i _ => Connecting i rx | Up u => Up (mkUp (u_panel u) (u_code u) (u_mode u) rx (u_log u)) | Dead _ _ => b end.
Definition sim (v : service) (tk : list Command) : service := mkService (with_mail (v_bridge v) []) (v_net v) (v_replied v) tk (v_events v).
(* the message taken by a move *)
Definition takes (v : service) (a : pmove) : list (bytes * bytes) :=
  match a, v_bridge v with PDo SRx, Up u => match u_mode u, u_rx u with Selecting, m :: _ => [m] | _, _ => [] end | _, _ => [] end.
Definition took (cfg : Cfg) (v : service) (a : pmove) : list Command :=
  match v_bridge v with Up u => concat (map (want cfg (u_code u)) (takes v a)) | _ => [] end.
Definition half1 (v : service) (a : pmove) : pmove := match takes v a with m :: _ => PDo (SMqtt (fst m) (snd m)) | [] => PDo SIdle end.
Definition half2 (a : pmove) : pmove := match a with PDo (SMqtt _ _) => PDo SIdle | _ => a end.
Definition between (cfg : Cfg) (v : service) (a : pmove) (tk : list Command) : service :=
  mkService (with_mail (v_bridge v) (takes v a)) (v_net v) (v_replied v) (tk ++ took cfg v a) (v_events v).
Lemma yielded_mail b rx now : yielded_by (with_mail b rx) now = yielded_by b now.
Proof. destruct b as [i r|u|l w]; reflexivity. Qed.
Lemma put_mail b rx : put_by (with_mail b rx) = put_by b.
Proof. destruct b; reflexivity. Qed.
Lemma connecting_mail b rx : connecting (with_mail b rx) <-> connecting b.
Proof. unfold connecting. destruct b as [i r|u|l w]; cbn [with_mail]; split; intros (i' & rx' & E); try discriminate E; eauto. Qed.
(* all other inputs have nothing to do with the channel *)
Lemma flush_mail ws u rx : with_mail (poll_send_flush ws u) rx = poll_send_flush ws (mkUp (u_panel u) (u_code u) (u_mode u) rx (u_log u)).
Proof. unfold poll_send_flush. cbn [u_panel u_log]. destruct (poll_flush ws (u_panel u)) as [p [|[[]|e]]]; reflexivity. Qed.
Lemma step_mail cl cfg b i rx : match i with MqttArrive _ _ | PollRx => False | _ => True end -> bstep cl cfg (with_mail b rx) i = with_mail (bstep cl cfg b i) rx.
Proof.
  intros H. destruct b as [s r|u|l w]; [| |destruct i; reflexivity].
  - destruct i as [a|t pl| |now ws|now| |ws]; try contradiction; cbn [bstep with_mail]; try reflexivity.
    unfold after_connect, settle. destruct (istep now ws s) as [x y z|p|e|w]; try reflexivity. destruct (start_up cl cfg p) as [l [c|e|w]]; reflexivity.
  - destruct i as [a|t pl| |now ws|now| |ws]; try contradiction; cbn [bstep with_mail u_panel u_mode u_log u_rx u_code]; try reflexivity.
    + destruct (u_mode u) eqn:EM; cbn [with_mail]; rewrite ?EM; try reflexivity. destruct (poll_next now (u_panel u)) as [[[p [|[[e|e]|]]] k]|e|w]; unfold set_panel, settle; cbn [with_mail u_panel u_code u_mode u_rx u_log]; rewrite ?EM; try reflexivity.
      destruct (handle_event cl cfg p e) as [l [[]|e'|w]]; reflexivity.
    + destruct (u_mode u) as [|c|] eqn:EM; cbn [with_mail]; rewrite ?EM; try reflexivity.
      * destruct (poll_ready TASK ws (u_panel u)) as [p [|[[]|e]]]; unfold set_panel; cbn [with_mail u_panel u_code u_mode u_rx u_log]; rewrite ?EM; try reflexivity.
        destruct (start_send c p) as [p'|e|w]; try reflexivity. rewrite flush_mail. cbn [u_panel u_code u_mode u_log]. rewrite ?EM. reflexivity.
      * rewrite flush_mail, ?EM. reflexivity.
Qed.

Section Any.
Variables (nm : naming) (cl : client) (cfg : Cfg) (may : packet -> Prop).
Hypothesis WC : well_configured cl cfg.
Notation any := (goes_any nm cl cfg may).
Notation go := (goes nm cl cfg may).
(* it goes through states of Mqtt.v *)
Lemma any_after v : gets_to_any nm cl cfg may v -> (exists is, bridge_after cl cfg is (v_bridge v)) /\ u8s (v_net v).
Proof.
  induction 1 as [|v a v' _ ((is & F & E) & U) M]; [split; [exists []; split; [constructor | reflexivity] | constructor]|].
  assert (S1 : forall i, input_ok i -> exists is2, bridge_after cl cfg is2 (bstep cl cfg (v_bridge v) i)).
  { intros i Hi. exists (is ++ [i]). split; [apply Forall_app; auto | rewrite brun_snoc, E; reflexivity]. }
  assert (S0 : exists is2, bridge_after cl cfg is2 (v_bridge v)) by (exists is; split; assumption).
  destruct M as [a v' M|t pl o RD AS]; [|cbn [v_bridge v_net]; split; [apply S1; exact Logic.I | exact U]].
  destruct M as [now ws HW|a v' NA1 NA2 M|pkt f Vp Mp Hp Np Fp|q m body f NR AN G Hb HF]; cbn [v_bridge v_net].
  - split; [apply S1; exact Logic.I | exact U].
  - destruct M as [now| |ws HW|t pl o RD AS PT|pkt f Vp Mp Hp Fp|q m body f N RP G Hb HF|y z EN Ny|]; try congruence; cbn [v_bridge v_net]; try (split; [apply S1; exact Logic.I | exact U]).
    + rewrite EN in U. apply u8s_app in U as [Uy Uz]. split; [apply S1; exact Uy | exact Uz].
    + split; [exact S0 | exact U].
  - split; [exact S0|]. apply u8s_app. split; [exact U | eapply frame_bytes; eauto].
  - split; [exact S0|]. apply u8s_app. split; [exact U|]. apply (frame_bytes (PAscii body) f); assumption.
Qed.
Lemma any_binv v u : gets_to_any nm cl cfg may v -> v_bridge v = Up u -> binv cl cfg u.
Proof. intros G E. destruct (any_after v G) as ((is & A) & _). rewrite E in A. eapply bridge_binv; eauto. Qed.
Definition lined (v : service) (tk : list Command) : Prop :=
  gets_to nm cl cfg may (sim v tk) /\ Forall (readable cfg) (mail_of (v_bridge v)) /\
  exists os, Forall2 (asked cfg) (mail_of (v_bridge v)) os /\ v_asked v = tk ++ catMaybes os.
Lemma lined_new : lined program_new [].
Proof. split; [constructor|]. split; [constructor|]. exists []. split; constructor. Qed.
Lemma head_asks u m o : binv cl cfg u -> readable cfg m -> asked cfg m o ->
  requested (topic_prefix cfg) (u_code u) (areas cfg) (fst m) (snd m) = Ok o /\ want cfg (u_code u) m = catMaybes [o].
Proof.
  intros (_ & RG & DC & _) R A. destruct m as [t pl]. cbn [fst snd]. destruct WC as (_ & DN & _). pose proof (want_asked cfg (u_code u) t pl o DN RG DC R A) as E.
  split; [exact E|]. unfold want. cbn [fst snd]. rewrite E. destruct o; reflexivity.
Qed.
Lemma took_none v a : takes v a = [] -> took cfg v a = [].
Proof. intros E. unfold took. rewrite E. destruct (v_bridge v); reflexivity. Qed.
(* a move that has nothing to do with the channel *)
Lemma aside v a v' tk : lined v tk -> takes v a = [] -> half2 a = a -> v_asked v' = v_asked v -> mail_of (v_bridge v') = mail_of (v_bridge v) -> go (sim v tk) a (sim v' tk) ->
  go (sim v tk) (half1 v a) (between cfg v a tk) /\ go (between cfg v a tk) (half2 a) (sim v' (tk ++ took cfg v a)) /\ lined v' (tk ++ took cfg v a).
Proof.
  intros (G & RD & os & F & EA) E1 E2 E3 E4 M. unfold half1, between. rewrite (took_none _ _ E1), E1, E2, app_nil_r. split; [apply idles|]. split; [exact M|].
  split; [eapply G_move; eauto|]. rewrite E3, E4. eauto.
Qed.
Lemma mail_same b i : match i with MqttArrive _ _ | PollRx => False | _ => True end -> (forall l w, bstep cl cfg b i <> Dead l w) -> mail_of (bstep cl cfg b i) = mail_of b.
Proof.
  intros H ND. pose proof (step_mail cl cfg b i (mail_of b) H) as E. assert (EB : with_mail b (mail_of b) = b) by (destruct b as [| [] |]; reflexivity). rewrite EB in E.
  destruct (bstep cl cfg b i) as [i' rx|u|l w]; [| |elim (ND l w eq_refl)]; cbn [with_mail mail_of] in *; [congruence|]. destruct u as [p c m rx l]. cbn [u_panel u_code u_mode u_rx u_log] in *. congruence.
Qed.
Lemma lined_alive v tk : lined v tk -> (exists s ph p rx, v_bridge v = Connecting (IRun s ph p) rx /\ v_events v = []) \/
  (exists u, v_bridge v = Up u /\ In (APublish (topic_prefix cfg ++ B "/availability") true (PText (B "online"))) (u_log u)).
Proof.
  intros (G & _). destruct (C99_never_stops nm cl cfg may _ WC G) as [(s & ph & p & rx & E & EV)|(u & E & ON)]; cbn [sim v_bridge v_events] in *.
  - left. destruct (v_bridge v) as [i r|u|l w]; try discriminate E. cbn [with_mail] in E. injection E as -> _. eauto 6.
  - right. destruct (v_bridge v) as [i r|u'|l w]; try discriminate E. cbn [with_mail] in E. injection E as <-. eauto.
Qed.
(* what is taken is completed, but for at most one *)
Lemma lined_line v tk u : lined v tk -> v_bridge v = Up u -> map into_msg tk = completed (v_events v) ++ outstanding (u_panel u) ++ map into_msg (waiting u).
Proof.
  intros (G & _) EB. destruct (C99_in_order nm cl cfg may _ WC G) as (rx & os & out & [((i & E) & _)|(u' & E & ER & EO)] & F & EL & _); cbn [sim v_bridge v_events v_asked] in *;
    rewrite EB in E; [discriminate E|]. cbn [with_mail] in E. injection E as <-. cbn [u_rx] in ER. subst rx. inversion F; subst. cbn [catMaybes map] in EL. rewrite app_nil_r in EL. exact EL.
Qed.
Lemma any_mqtt v t pl o tk : lined v tk -> readable cfg (t, pl) -> asked cfg (t, pl) o ->
  let v' := mkService (bstep cl cfg (v_bridge v) (MqttArrive t pl)) (v_net v) (v_replied v) (v_asked v ++ catMaybes [o]) (v_events v) in sim v' tk = sim v tk /\ lined v' tk.
Proof.
  intros L RD AS v'. assert (E : sim v' tk = sim v tk) by (unfold sim, v'; cbn [v_bridge v_net v_replied v_events]; destruct (v_bridge v); reflexivity). split; [exact E|].
  pose proof (lined_alive _ _ L) as AL. destruct L as (G & R & os & F & EA). unfold lined. rewrite E. split; [exact G|].
  assert (EM : mail_of (v_bridge v') = mail_of (v_bridge v) ++ [(t, pl)]).
  { unfold v'. cbn [v_bridge]. destruct AL as [(s & ph & p & rx & -> & _)|(u & -> & _)]; reflexivity. }
  rewrite EM. split; [apply Forall_app; auto|]. exists (os ++ [o]). split; [apply Forall2_app; auto|]. unfold v'. cbn [v_asked]. rewrite EA, catMaybes_app, app_assoc. reflexivity.
Qed.
Lemma any_step v a v' tk : gets_to_any nm cl cfg may v -> lined v tk -> any v a v' -> ~ overlaps (v_bridge v') ->
  go (sim v tk) (half1 v a) (between cfg v a tk) /\ go (between cfg v a tk) (half2 a) (sim v' (tk ++ took cfg v a)) /\ lined v' (tk ++ took cfg v a).
Proof.
  intros GA L M NO.
  assert (Q : forall t pl o, readable cfg (t, pl) -> asked cfg (t, pl) o -> a = PDo (SMqtt t pl) ->
    v' = mkService (bstep cl cfg (v_bridge v) (MqttArrive t pl)) (v_net v) (v_replied v) (v_asked v ++ catMaybes [o]) (v_events v) ->
    go (sim v tk) (half1 v a) (between cfg v a tk) /\ go (between cfg v a tk) (half2 a) (sim v' (tk ++ took cfg v a)) /\ lined v' (tk ++ took cfg v a)).
  { intros t pl o RD AS -> ->. destruct (any_mqtt v t pl o tk L RD AS) as (E & L'). assert (T : takes v (PDo (SMqtt t pl)) = []) by (unfold takes; destruct (v_bridge v); reflexivity).
    unfold half1, between. rewrite (took_none _ _ T), T, app_nil_r. cbn [half2]. rewrite E. split; [apply idles|]. split; [apply idles | exact L']. }
  assert (O : forall i a2 b2 n r es, a2 <> PDo SRx -> half2 a2 = a2 -> match i with MqttArrive _ _ | PollRx => False | _ => True end ->
    b2 = bstep cl cfg (v_bridge v) i -> let w := mkService b2 n r (v_asked v) es in go (sim v tk) a2 (mkService (bstep cl cfg (v_bridge (sim v tk)) i) n r tk es) ->
    go (sim v tk) (half1 v a2) (between cfg v a2 tk) /\ go (between cfg v a2 tk) (half2 a2) (sim w (tk ++ took cfg v a2)) /\ lined w (tk ++ took cfg v a2)).
  { intros i a2 b2 n r es NS H2 Hi -> w M2. cbn [sim v_bridge] in M2. rewrite step_mail in M2 by exact Hi.
    assert (T : takes v a2 = []) by (unfold takes; destruct a2 as [|[]]; try reflexivity; congruence).
    apply aside; auto. unfold w. cbn [v_bridge]. apply mail_same; [exact Hi|]. intros l y E.
    destruct (C99_never_stops nm cl cfg may _ WC (G_move _ _ _ _ _ _ _ (proj1 L) M2)) as [(s & ph & p & rx & E' & _)|(u & E' & _)]; cbn [v_bridge] in E'; rewrite E in E'; discriminate E'. }
  assert (P : forall a2 n r, a2 <> PDo SRx -> half2 a2 = a2 -> let w := mkService (v_bridge v) n r (v_asked v) (v_events v) in
    go (sim v tk) a2 (mkService (v_bridge (sim v tk)) n r tk (v_events v)) ->
    go (sim v tk) (half1 v a2) (between cfg v a2 tk) /\ go (between cfg v a2 tk) (half2 a2) (sim w (tk ++ took cfg v a2)) /\ lined w (tk ++ took cfg v a2)).
  { intros a2 n r NS H2 w M2. assert (T : takes v a2 = []) by (unfold takes; destruct a2 as [|[]]; try reflexivity; congruence). apply aside; auto. }
  destruct M as [a v' M|t pl o RD AS]; [|eapply Q; eauto].
  destruct M as [now ws HW|a v' NA1 NA2 M|pkt f Vp Mp Hp Np Fp|q m body f NR AN G Hb HF].
  - apply (O (PollConnect now ws)); auto; [discriminate|]. exact (G_connect nm cl cfg may (sim v tk) now ws HW).
  - destruct M as [now| |ws HW|t pl o RD AS PT|pkt f Vp Mp Hp Fp|q m body f N RP G Hb HF|y z EN Ny|]; try congruence.
    + apply (O (PollPanel now)); auto; [discriminate|]. pose proof (polls nm cl cfg may (sim v tk) now) as X. cbn [sim v_bridge v_net v_replied v_asked v_events] in *. rewrite yielded_mail in X. exact X.
    + (* taken from the channel *)
      clear O P Q. pose proof L as (G & RD & os & F & EA).
      assert (Same : takes v (PDo SRx) = [] -> bstep cl cfg (v_bridge v) PollRx = v_bridge v -> bstep cl cfg (with_mail (v_bridge v) []) PollRx = with_mail (v_bridge v) [] ->
        let w := mkService (bstep cl cfg (v_bridge v) PollRx) (v_net v) (v_replied v) (v_asked v) (v_events v) in
        go (sim v tk) (half1 v (PDo SRx)) (between cfg v (PDo SRx) tk) /\ go (between cfg v (PDo SRx) tk) (half2 (PDo SRx)) (sim w (tk ++ took cfg v (PDo SRx))) /\ lined w (tk ++ took cfg v (PDo SRx))).
      { intros T E1 E2 w. unfold w. rewrite E1. apply aside; auto. pose proof (mails nm cl cfg may (sim v tk)) as X. cbn [sim v_bridge v_net v_replied v_asked v_events] in *. rewrite E2 in X. exact X. }
      destruct (v_bridge v) as [i rx|u|l w] eqn:EB; [apply Same; unfold takes; rewrite ?EB; reflexivity| |apply Same; unfold takes; rewrite ?EB; reflexivity].
      destruct (u_mode u) eqn:EM; [|apply Same; unfold takes; rewrite ?EB; cbn [with_mail bstep u_mode]; rewrite ?EM; reflexivity..].
      destruct (u_rx u) as [|m rest] eqn:ER; [apply Same; unfold takes; rewrite ?EB; cbn [with_mail bstep u_mode u_rx]; rewrite ?EM, ?ER; reflexivity|]. clear Same.
      cbn [mail_of] in RD, F. rewrite ER in RD, F. inversion RD as [|? ? RM RR]; subst. inversion F as [|? o ? os' AM FR]; subst.
      pose proof (any_binv v u GA EB) as BI. destruct (head_asks u m o BI RM AM) as (EQ & EW).
      assert (ET : takes v (PDo SRx) = [m]) by (unfold takes; rewrite EB, EM, ER; reflexivity).
      assert (EK : took cfg v (PDo SRx) = catMaybes [o]) by (unfold took; rewrite EB, ET; cbn [map concat]; rewrite EW, app_nil_r; reflexivity).
      assert (EN : bstep cl cfg (Up u) PollRx = Up (mkUp (u_panel u) (u_code u) (match o with Some c => Feeding c | None => Selecting end) rest (u_log u))).
      { cbn [bstep]. rewrite EM, ER. destruct m as [t pl]. cbn [fst snd] in EQ. rewrite EQ. destruct o; reflexivity. }
      assert (EN2 : bstep cl cfg (with_mail (Up u) [m]) PollRx = with_mail (bstep cl cfg (Up u) PollRx) []).
      { rewrite EN. cbn [bstep with_mail u_mode u_rx u_panel u_code u_log]. rewrite EM. destruct m as [t pl]. cbn [fst snd] in EQ. rewrite EQ. destruct o; reflexivity. }
      rewrite EN in NO |- *. cbn [v_bridge] in NO.
      assert (H1 : go (sim v tk) (half1 v (PDo SRx)) (between cfg v (PDo SRx) tk)).
      { unfold half1, between. rewrite ET, EK, EB. destruct m as [t pl]. cbn [fst snd]. apply G_serve; [discriminate | discriminate|].
        assert (PT : o <> None -> length (v_asked (sim v tk)) = length (completed (v_events (sim v tk)))).
        { intros No. pose proof (lined_line _ _ _ L EB) as EL. destruct o as [c|]; [|elim No; reflexivity].
          assert (O0 : outstanding (u_panel u) = []). { destruct (outstanding (u_panel u)) eqn:E; [reflexivity|]. elim NO. eexists _, c. split; [reflexivity|]. split; [reflexivity|]. cbn [u_panel]. rewrite E. discriminate. }
          unfold waiting in EL. rewrite O0, EM in EL. cbn [app map] in EL. rewrite app_nil_r in EL. apply (f_equal (@length _)) in EL. rewrite map_length in EL. exact EL. }
        pose proof (S_mqtt cl cfg may [] (sim v tk) t pl o RM AM PT) as X. cbn [sim v_bridge v_net v_replied v_asked v_events] in X. rewrite EB in X. exact X. }
      assert (H2 : go (between cfg v (PDo SRx) tk) (half2 (PDo SRx)) (sim (mkService (Up (mkUp (u_panel u) (u_code u) (match o with Some c => Feeding c | None => Selecting end) rest (u_log u))) (v_net v) (v_replied v) (v_asked v) (v_events v)) (tk ++ took cfg v (PDo SRx)))).
      { pose proof (mails nm cl cfg may (between cfg v (PDo SRx) tk)) as X. unfold between in *. cbn [v_bridge v_net v_replied v_asked v_events half2] in *. rewrite ET, EB in *. rewrite EN2, EN in X. exact X. }
      split; [exact H1|]. split; [exact H2|]. split; [eapply G_move; [eapply G_move; [exact G | exact H1] | exact H2]|]. cbn [v_bridge mail_of u_rx v_asked]. split; [exact RR|]. exists os'. split; [exact FR|].
      rewrite EA, EK, <- app_assoc. f_equal. destruct o; reflexivity.
    + apply (O (PollSend ws)); auto; [discriminate|]. exact (G_serve nm cl cfg may (sim v tk) (SSend ws) _ NA1 NA2 (S_send cl cfg may [] (sim v tk) ws HW)).
    + eapply Q; eauto.
    + apply (O (NetArrive (Bytes y))); auto; [discriminate|]. exact (G_serve nm cl cfg may (sim v tk) SDeliver _ NA1 NA2 (S_deliver cl cfg may [] (sim v tk) y z EN Ny)).
    + destruct v as [b n r ak es]. apply (P (PDo SIdle) n r); [discriminate | reflexivity|]. apply (idles nm cl cfg may (sim (mkService b n r ak es) tk)).
  - apply (P (PDo SUnasked)); [discriminate | reflexivity|]. apply (G_unasked nm cl cfg may (sim v tk) pkt f Vp Mp Hp); [|exact Fp]. intros C. apply Np. exact (proj1 (connecting_mail (v_bridge v) []) C).
  - apply (P (PDo SReply)); [discriminate | reflexivity|]. refine (G_reply nm cl cfg may (sim v tk) q m body f _ AN G Hb HF).
    destruct NR as (qs & fs & rest & F1 & F2 & F3). exists qs, fs, rest. cbn [sim v_bridge v_replied]. rewrite put_mail. auto.
Qed.

(* ---- once they overlap ---- *)
Lemma overlaps_dec b : {overlaps b} + {~ overlaps b}.
Proof.
  destruct b as [i rx|u|l w]; [right; intros (u & c & E & _); discriminate E| |right; intros (u & c & E & _); discriminate E].
  destruct (u_mode u) as [|c|] eqn:EM; try (right; intros (u' & c' & E & M & _); injection E as <-; congruence).
  destruct (outstanding (u_panel u)) eqn:EO; [right; intros (u' & c' & E & _ & N); injection E as <-; congruence|]. left. exists u, c. rewrite EO. repeat split; [exact EM | discriminate].
Qed.
Lemma flush_no_overlap ws u : ~ overlaps (poll_send_flush ws u).
Proof.
  unfold poll_send_flush. destruct (poll_flush ws (u_panel u)) as [p [|[[]|e]]]; intros (u' & c & E & M & _); try discriminate E; injection E as <-; discriminate M.
Qed.
Lemma overlap_new b i : i <> PollRx -> overlaps (bstep cl cfg b i) -> overlaps b.
Proof.
  intros NP H. destruct b as [s rx|u|l w]; [| |exact H].
  - exfalso. destruct H as (u & c & E & M & _). destruct i as [a|t pl| |now ws|now| |ws]; cbn [bstep] in E; try discriminate E. unfold after_connect, settle in E.
    destruct (istep now ws s) as [x y z|p|e|w]; try discriminate E. destruct (start_up cl cfg p) as [l [k|e|w]]; try discriminate E. injection E as <-. discriminate M.
  - destruct i as [a|t pl| |now ws|now| |ws]; try congruence; cbn [bstep] in H; try exact H.
    + destruct H as (u' & c & E & M & O). injection E as <-. exists u, c. auto.
    + destruct H as (u' & c & E & M & O). injection E as <-. exists u, c. auto.
    + destruct H as (u' & c & E & _). discriminate E.
    + destruct (u_mode u) eqn:EM; try exact H. exfalso. destruct H as (u' & c & E & M & _).
      destruct (poll_next now (u_panel u)) as [[[p [|[[e|e]|]]] k]|e|w]; try discriminate E; [injection E as <-; cbn [set_panel u_mode] in M; congruence|].
      unfold settle in E. destruct (handle_event cl cfg p e) as [l [[]|e'|w]]; try discriminate E. injection E as <-. discriminate M.
    + destruct (u_mode u) as [|c|] eqn:EM; try exact H; [|elim (flush_no_overlap _ _ H)].
      destruct (outstanding (u_panel u)) eqn:EO; [|exists u, c; rewrite EO; repeat split; [exact EM | discriminate]].
      exfalso. rewrite (idle_ready _ ws EO) in H. destruct (start_send c (u_panel u)) as [p'|e|w]; [elim (flush_no_overlap _ _ H)|destruct H as (? & ? & E & _); discriminate E..].
Qed.
Definition jammed (v : service) : Prop := exists v0 u0 tk c u os, gets_to_any nm cl cfg may v0 /\ lined v0 tk /\ v_bridge v0 = Up u0 /\ u_mode u0 = Selecting /\
  v_bridge v = Up u /\ u_mode u = Feeding c /\ outstanding (u_panel u) = outstanding (u_panel u0) /\ outstanding (u_panel u0) <> [] /\ u_log u = u_log u0 /\
  written (p_conn (u_panel u)) = written (p_conn (u_panel u0)) /\ v_events v = v_events v0 /\ Forall2 (asked cfg) (u_rx u) os /\ v_asked v = tk ++ c :: catMaybes os.
Lemma overlap_step v a v' : gets_to_any nm cl cfg may v -> overlaps (v_bridge v) -> any v a v' -> frozen cfg v v'.
Proof.
  intros GA (u & c & EB & EM & HO) M. pose proof (any_binv v u GA EB) as BI. unfold frozen. rewrite EB.
  assert (N : forall i, mqtt_in [i] = [] -> (forall l w, bstep cl cfg (Up u) i <> Dead l w) -> exists u', bstep cl cfg (Up u) i = Up u' /\ u_mode u' = u_mode u /\ outstanding (u_panel u') = outstanding (u_panel u) /\
    u_log u' = u_log u /\ written (p_conn (u_panel u')) = written (p_conn (u_panel u)) /\ u_rx u' = u_rx u).
  { intros i Hi ND. pose proof (PropMqtt.blocked_step cl cfg u i c BI EM HO) as B. destruct (bstep cl cfg (Up u) i) as [|u'|l w]; [contradiction| |elim (ND l w eq_refl)].
    destruct B as (B1 & B2 & B3 & B4 & B5). rewrite Hi, app_nil_r in B4. exists u'. rewrite EM. auto 10. }
  assert (D : forall i n r es, mqtt_in [i] = [] -> (forall l w, bstep cl cfg (Up u) i <> Dead l w) -> es = v_events v ->
    exists x x', Up u = Up x /\ v_bridge (mkService (bstep cl cfg (Up u) i) n r (v_asked v) es) = Up x' /\ u_mode x' = u_mode x /\ outstanding (u_panel x') = outstanding (u_panel x) /\
    u_log x' = u_log x /\ written (p_conn (u_panel x')) = written (p_conn (u_panel x)) /\ v_events (mkService (bstep cl cfg (Up u) i) n r (v_asked v) es) = v_events v /\
    exists more os, u_rx x' = u_rx x ++ more /\ Forall2 (asked cfg) more os /\ v_asked (mkService (bstep cl cfg (Up u) i) n r (v_asked v) es) = v_asked v ++ catMaybes os).
  { intros i n r es Hi ND ->. destruct (N i Hi ND) as (u' & E1 & E2 & E3 & E4 & E5 & E6). exists u, u'. cbn [v_bridge v_events v_asked]. do 7 (split; [auto|]).
    exists [], []. cbn [catMaybes]. rewrite !app_nil_r. auto. }
  assert (Id : forall n r, exists x x', Up u = Up x /\ v_bridge (mkService (Up u) n r (v_asked v) (v_events v)) = Up x' /\ u_mode x' = u_mode x /\ outstanding (u_panel x') = outstanding (u_panel x) /\
    u_log x' = u_log x /\ written (p_conn (u_panel x')) = written (p_conn (u_panel x)) /\ v_events v = v_events v /\
    exists more os, u_rx x' = u_rx x ++ more /\ Forall2 (asked cfg) more os /\ v_asked v = v_asked v ++ catMaybes os).
  { intros n r. exists u, u. cbn [v_bridge]. do 7 (split; [auto|]). exists [], []. cbn [catMaybes]. rewrite !app_nil_r. auto. }
  assert (Q : forall t pl o, asked cfg (t, pl) o ->
    exists x x', Up u = Up x /\ bstep cl cfg (Up u) (MqttArrive t pl) = Up x' /\ u_mode x' = u_mode x /\ outstanding (u_panel x') = outstanding (u_panel x) /\
    u_log x' = u_log x /\ written (p_conn (u_panel x')) = written (p_conn (u_panel x)) /\ v_events v = v_events v /\
    exists more os, u_rx x' = u_rx x ++ more /\ Forall2 (asked cfg) more os /\ v_asked v ++ catMaybes [o] = v_asked v ++ catMaybes os).
  { intros t pl o A. eexists u, _. cbn [bstep]. split; [reflexivity|]. split; [reflexivity|]. cbn [u_mode u_panel u_log u_rx]. do 5 (split; [reflexivity|]). exists [(t, pl)], [o]. auto. }
  destruct M as [a v' M|t pl o RD AS]; [|rewrite EB; exact (Q t pl o AS)].
  destruct M as [now ws HW|a v' NA1 NA2 M|pkt f Vp Mp Hp Np Fp|q m body f NR AN G Hb HF]; rewrite ?EB.
  - apply D; auto. intros l w E. discriminate E.
  - destruct M as [now| |ws HW|t pl o RD AS PT|pkt f Vp Mp Hp Fp|q m body f NR RP G Hb HF|y z EN Ny|]; try congruence; rewrite ?EB.
    + apply D; auto; [intros l w; cbn [bstep]; rewrite EM; discriminate|]. cbn [yielded_by]. rewrite EM. apply app_nil_r.
    + apply D; auto. intros l w; cbn [bstep]; rewrite EM; discriminate.
    + apply D; auto. intros l w. cbn [bstep]. rewrite EM. destruct (poll_ready TASK ws (u_panel u)) as [p [|[[]|e]]] eqn:EP; [discriminate| |].
      * exfalso. destruct BI as (R & _). destruct (reachable_inv _ R) as [I0 _]. destruct (busy_ready _ _ _ _ I0 HO EP) as [X _]. apply X. reflexivity.
      * exfalso. apply poll_ready_error in EP. rewrite Forall_forall in HW. destruct EP as [IN|(x & IN)]; specialize (HW _ IN); cbn in HW; congruence.
    + exact (Q t pl o AS).
    + apply D; auto. intros l w E. discriminate E.
    + exact (Id (v_net v) (v_replied v)).
  - exact (Id (v_net v ++ f) (v_replied v)).
  - exact (Id (v_net v ++ f) (S (v_replied v))).
Qed.
Lemma jams v a v' tk : gets_to_any nm cl cfg may v -> lined v tk -> ~ overlaps (v_bridge v) -> any v a v' -> overlaps (v_bridge v') -> jammed v'.
Proof.
  intros GA L NO M OV.
  assert (X : forall i, i <> PollRx -> overlaps (bstep cl cfg (v_bridge v) i) -> jammed v') by (intros i N O; elim NO; eapply overlap_new; eauto).
  destruct M as [a v' M|t pl o RD AS]; [|eapply X; [|exact OV]; discriminate].
  destruct M as [now ws HW|a v' NA1 NA2 M|pkt f Vp Mp Hp Np Fp|q m body f NR AN G Hb HF]; cbn [v_bridge] in OV; try contradiction; [eapply X; [|exact OV]; discriminate|].
  destruct M as [now| |ws HW|t pl o RD AS PT|pkt f Vp Mp Hp Fp|q m body f NR RP G Hb HF|y z EN Ny|]; try congruence; cbn [v_bridge] in OV; try contradiction; try (eapply X; [|exact OV]; discriminate).
  clear X. pose proof L as (G & RD & os & F & EA). destruct (v_bridge v) as [i rx|u|l w] eqn:EB; [destruct OV as (? & ? & E & _); discriminate E| |destruct OV as (? & ? & E & _); discriminate E].
  pose proof (any_binv v u GA EB) as BI. cbn [mail_of] in RD, F. cbn [bstep] in OV |- *. destruct (u_mode u) eqn:EM; [|elim NO; exact OV..]. destruct (u_rx u) as [|[t pl] rest] eqn:ER; [elim NO; exact OV|].
  inversion RD as [|? ? RM RR]; subst. inversion F as [|? o ? os' AM FR]; subst. destruct (head_asks u (t, pl) o BI RM AM) as (EQ & _). cbn [fst snd] in EQ. rewrite EQ in *.
  destruct o as [c|]; [|destruct OV as (u' & c & E & M & _); injection E as <-; discriminate M].
  exists v, u, tk, c. eexists _, os'. cbn [v_bridge v_events v_asked]. split; [exact GA|]. split; [exact L|]. split; [exact EB|]. split; [exact EM|]. split; [reflexivity|]. cbn [u_mode u_panel u_log u_rx].
  split; [reflexivity|]. split; [reflexivity|]. split; [|split; [reflexivity|split; [reflexivity|split; [reflexivity|split; [exact FR | exact EA]]]]].
  destruct OV as (u' & c' & E & _ & O). injection E as <-. exact O.
Qed.
Lemma jam_step v a v' : gets_to_any nm cl cfg may v -> jammed v -> any v a v' -> jammed v'.
Proof.
  intros GA (v0 & u0 & tk & c & u & os & J1 & J2 & J3 & J4 & J5 & J6 & J7 & J8 & J9 & J10 & J11 & J12 & J13) M.
  assert (OV : overlaps (v_bridge v)) by (exists u, c; rewrite J7; auto).
  destruct (overlap_step v a v' GA OV M) as (x & u' & E1 & E2 & E3 & E4 & E5 & E6 & E7 & more & os2 & E8 & E9 & E10). assert (x = u) by congruence. subst x.
  unfold jammed, written in *. exists v0, u0, tk, c, u', (os ++ os2). do 4 (split; [assumption|]). split; [exact E2|]. split; [congruence|]. split; [congruence|]. split; [exact J8|]. split; [congruence|]. split; [congruence|]. split; [congruence|].
  split; [rewrite E8; apply Forall2_app; assumption|]. rewrite E10, J13, catMaybes_app, <- app_assoc. reflexivity.
Qed.
Lemma any_cases v : gets_to_any nm cl cfg may v -> (exists tk, lined v tk /\ ~ overlaps (v_bridge v)) \/ jammed v.
Proof.
  induction 1 as [|v a v' G IH M].
  - left. exists []. split; [exact lined_new|]. intros (u & c & E & _). discriminate E.
  - destruct IH as [(tk & L & NO)|J]; [|right; eapply jam_step; eauto]. destruct (overlaps_dec (v_bridge v')) as [O|O]; [right; eapply jams; eauto|].
    left. eexists. split; [|exact O]. eapply any_step; eauto.
Qed.
Lemma lined_in_line v tk u : lined v tk -> v_bridge v = Up u -> in_line cfg v u.
Proof.
  intros L EB. pose proof (lined_line _ _ _ L EB) as EL. destruct L as (G & RD & os & F & EA). rewrite EB in F. cbn [mail_of] in F. split.
  - exists os. split; [exact F|]. rewrite EA, !map_app, EL, <- !app_assoc. reflexivity.
  - assert (EU : v_bridge (sim v tk) = Up (mkUp (u_panel u) (u_code u) (u_mode u) [] (u_log u))) by (unfold sim; rewrite EB; reflexivity).
    destruct (C99_what_is_written nm cl cfg may _ _ WC G EU) as (qs & fs & cs & gs & later & H1 & H2 & H3 & H4 & H5 & H6). cbn [sim v_asked v_events u_panel] in *.
    exists qs, fs, cs, gs, (later ++ catMaybes os). rewrite EA, H5, <- app_assoc. auto 10.
Qed.
Lemma lined_published v tk u : lined v tk -> v_bridge v = Up u ->
  Forall2 (fun e a => exists j, Event_ser e = Ok j /\ Event_de FromText j = Ok e /\ a = APublish (topic_prefix cfg ++ B "/event") false (PJson j))
    (v_events v) (filter is_event_pub (u_log u)).
Proof.
  intros (G & _) EB. assert (EU : v_bridge (sim v tk) = Up (mkUp (u_panel u) (u_code u) (u_mode u) [] (u_log u))) by (unfold sim; rewrite EB; reflexivity).
  exact (C99_published nm cl cfg may _ _ WC G EU).
Qed.
Lemma any_up v u : gets_to_any nm cl cfg may v -> v_bridge v = Up u ->
  In (APublish (topic_prefix cfg ++ B "/availability") true (PText (B "online"))) (u_log u) /\ in_line cfg v u /\
  Forall2 (fun e a => exists j, Event_ser e = Ok j /\ Event_de FromText j = Ok e /\ a = APublish (topic_prefix cfg ++ B "/event") false (PJson j))
    (v_events v) (filter is_event_pub (u_log u)).
Proof.
  intros G EB. destruct (any_cases v G) as [(tk & L & _)|(v0 & u0 & tk & c & u' & os & J1 & J2 & J3 & J4 & J5 & J6 & J7 & J8 & J9 & J10 & J11 & J12 & J13)].
  - split; [|split; [eapply lined_in_line; eauto | eapply lined_published; eauto]]. destruct (lined_alive _ _ L) as [(s & ph & p & rx & E & _)|(u' & E & ON)]; congruence.
  - assert (u' = u) by congruence. subst u'. split; [|split].
    + rewrite J9. destruct (lined_alive _ _ J2) as [(s & ph & p & rx & E & _)|(x & E & ON)]; congruence.
    + pose proof (lined_line _ _ _ J2 J3) as EL. unfold waiting in EL. rewrite J4 in EL. cbn [map] in EL. rewrite app_nil_r in EL.
      destruct (lined_in_line _ _ _ J2 J3) as (_ & qs & fs & cs & gs & later & H1 & H2 & H3 & H4 & H5 & H6). split.
      * exists os. split; [exact J12|]. unfold waiting. rewrite J6, J13, J11, J7, !map_app, EL, <- !app_assoc. reflexivity.
      * (* what is written is among what was taken *)
        destruct J2 as (G2 & _). assert (EU : v_bridge (sim v0 tk) = Up (mkUp (u_panel u0) (u_code u0) (u_mode u0) [] (u_log u0))) by (unfold sim; rewrite J3; reflexivity).
        destruct (C99_what_is_written nm cl cfg may _ _ WC G2 EU) as (qs' & fs' & cs' & gs' & later' & K1 & K2 & K3 & K4 & K5 & K6). cbn [sim v_asked v_events u_panel] in *.
        exists qs', fs', cs', gs', (later' ++ c :: catMaybes os). unfold written in *. rewrite J10, J13, K5, J11, J7, <- app_assoc. auto 10.
    + rewrite J9, J11. eapply lined_published; eauto.
Qed.
End Any.

(* It never stops, and goes on in line: while it connects it has been given no event, and what was asked for is in the channel; from then
   on commands are written and completed in the order in which they were asked for, and all events are published. *)
Theorem C104_in_line : forall nm cl cfg (may : packet -> Prop) v, well_configured cl cfg -> gets_to_any nm cl cfg may v ->
  (exists i rx os, v_bridge v = Connecting i rx /\ Forall2 (asked cfg) rx os /\ v_asked v = catMaybes os /\ v_events v = []) \/
  (exists u, v_bridge v = Up u /\ In (APublish (topic_prefix cfg ++ B "/availability") true (PText (B "online"))) (u_log u) /\ in_line cfg v u /\
    Forall2 (fun e a => exists j, Event_ser e = Ok j /\ Event_de FromText j = Ok e /\ a = APublish (topic_prefix cfg ++ B "/event") false (PJson j))
      (v_events v) (filter is_event_pub (u_log u))).
Proof.
  intros nm cl cfg may v WC G. destruct (v_bridge v) as [i rx|u|l w] eqn:EB.
  - left. destruct (any_cases nm cl cfg may WC v G) as [(tk & L & _)|(v0 & u0 & tk & c & u' & os & _ & _ & _ & _ & E & _)]; [|congruence].
    destruct (lined_alive nm cl cfg may WC _ _ L) as [(s & ph & p & rx' & E & EV)|(u & E & _)]; [|congruence]. destruct L as (G2 & RD & os & F & EA). rewrite EB in F.
    exists i, rx, os. split; [reflexivity|]. split; [exact F|]. split; [|exact EV].
    destruct (C99_in_order nm cl cfg may _ WC G2) as (r & os2 & out & [((i2 & E2) & -> & EC)|(u & E2 & _)] & F2 & EL & _); cbn [sim v_bridge v_asked v_events] in *; rewrite EB in E2; [|discriminate E2].
    cbn [with_mail] in E2. injection E2 as _ <-. inversion F2; subst. cbn [catMaybes map app] in EL. rewrite EC in EL. cbn [app] in EL. apply map_eq_nil in EL. rewrite EA, EL. reflexivity.
  - right. exists u. split; [reflexivity | eapply any_up; eauto].
  - exfalso. destruct (any_cases nm cl cfg may WC v G) as [(tk & L & _)|(v0 & u0 & tk & c & u' & os & _ & _ & _ & _ & E & _)]; [|congruence].
    destruct (lined_alive nm cl cfg may WC _ _ L) as [(s & ph & p & rx' & E & EV)|(u & E & _)]; congruence.
Qed.

(* ---- if they never overlap ---- *)
Section Run.
Variables (nm : naming) (cl : client) (cfg : Cfg) (may : packet -> Prop) (vs : nat -> service) (acts : nat -> pmove).
Hypothesis WC : well_configured cl cfg.
Hypothesis ON : any_on nm cl cfg may vs acts.
Lemma any_to n : gets_to_any nm cl cfg may (vs n).
Proof. destruct ON as [E H]. induction n as [|n IH]; [rewrite E; constructor | econstructor; [exact IH | apply H]]. Qed.
Hypothesis NO : forall n, ~ overlaps (v_bridge (vs n)).
(* what has been taken from the channel *)
Fixpoint tks (n : nat) : list Command := match n with O => [] | S k => tks k ++ took cfg (vs k) (acts k) end.
Lemma sims n : lined nm cl cfg may (vs n) (tks n) /\ goes nm cl cfg may (sim (vs n) (tks n)) (half1 (vs n) (acts n)) (between cfg (vs n) (acts n) (tks n)) /\
  goes nm cl cfg may (between cfg (vs n) (acts n) (tks n)) (half2 (acts n)) (sim (vs (S n)) (tks (S n))).
Proof.
  assert (L : forall k, lined nm cl cfg may (vs k) (tks k)).
  { induction k as [|k IH]; [destruct ON as [E _]; rewrite E; apply lined_new|]. cbn [tks]. eapply any_step; eauto; [apply any_to | apply ON]. }
  split; [apply L|]. destruct (any_step nm cl cfg may WC _ _ _ _ (any_to n) (L n) (proj2 ON n) (NO (S n))) as (H1 & H2 & _). split; assumption.
Qed.
Definition ss (k : nat) : service := if (k mod 2 =? 0)%nat then sim (vs (k / 2)) (tks (k / 2)) else between cfg (vs (k / 2)) (acts (k / 2)) (tks (k / 2)).
Definition sas (k : nat) : pmove := if (k mod 2 =? 0)%nat then half1 (vs (k / 2)) (acts (k / 2)) else half2 (acts (k / 2)).
Lemma slot2 q r : (r < 2)%nat -> ((2 * q + r) / 2)%nat = q /\ ((2 * q + r) mod 2)%nat = r.
Proof. intros L. split; symmetry; [eapply Nat.div_unique | eapply Nat.mod_unique]; eauto. Qed.
Lemma ss_even n : ss (2 * n) = sim (vs n) (tks n).
Proof. unfold ss. replace (2 * n)%nat with (2 * n + 0)%nat by lia. destruct (slot2 n 0 ltac:(lia)) as [-> ->]. reflexivity. Qed.
Lemma ss_odd n : ss (2 * n + 1) = between cfg (vs n) (acts n) (tks n).
Proof. unfold ss. destruct (slot2 n 1 ltac:(lia)) as [-> ->]. reflexivity. Qed.
Lemma sas_odd n : sas (2 * n + 1) = half2 (acts n).
Proof. unfold sas. destruct (slot2 n 1 ltac:(lia)) as [-> ->]. reflexivity. Qed.
Lemma ss_goes : goes_on nm cl cfg may ss sas.
Proof.
  split; [replace 0%nat with (2 * 0)%nat by lia; rewrite ss_even; destruct ON as [E _]; rewrite E; reflexivity|]. intros k.
  assert (K : k = (2 * (k / 2) + k mod 2)%nat) by (apply Nat.div_mod; lia). assert (L : (k mod 2 < 2)%nat) by (apply Nat.mod_upper_bound; lia). revert K L. generalize (k / 2)%nat (k mod 2)%nat. intros q r -> L.
  destruct (sims q) as (_ & H1 & H2). destruct r as [|[|r]]; [| |lia].
  - replace (S (2 * q + 0)) with (2 * q + 1)%nat by lia. rewrite ss_odd. unfold sas. destruct (slot2 q 0 L) as [-> ->]. replace (2 * q + 0)%nat with (2 * q)%nat by lia. rewrite ss_even. exact H1.
  - replace (S (2 * q + 1)) with (2 * S q)%nat by lia. rewrite ss_even, ss_odd, sas_odd. exact H2.
Qed.
Hypothesis FAIR : fair_program vs acts.
Lemma ss_fair : fair_program ss sas.
Proof.
  destruct FAIR as (F1 & F2 & F3 & F4 & F5 & F6). split; [|split; [|split; [|split; [|split]]]]; intros n.
  - destruct (F1 n) as (m & L & [(now & k & ws & E)|E]).
    + exists (2 * m + 1)%nat. split; [lia|]. left. rewrite sas_odd, E. cbn [half2]. eauto.
    + exists (2 * m)%nat. split; [lia|]. right. rewrite ss_even. cbn [sim v_bridge]. rewrite connecting_mail. exact E.
  - destruct (F2 n) as (m & now & L & E). exists (2 * m + 1)%nat, now. split; [lia|]. rewrite sas_odd, E. reflexivity.
  - destruct (F3 n) as (m & L & E). exists (2 * m + 1)%nat. split; [lia|]. rewrite sas_odd, E. reflexivity.
  - destruct (F4 n) as (m & k & ws & L & E). exists (2 * m + 1)%nat, k, ws. split; [lia|]. rewrite sas_odd, E. reflexivity.
  - destruct (F5 n) as (m & L & [E|E]).
    + exists (2 * m + 1)%nat. split; [lia|]. left. rewrite sas_odd, E. reflexivity.
    + exists (2 * m)%nat. split; [lia|]. right. intros q (qs & fs & rest & G1 & G2 & G3). apply (E q). exists qs, fs, rest. rewrite ss_even in G2, G3. cbn [sim v_bridge v_replied] in G2, G3. rewrite put_mail in G2. auto.
  - destruct (F6 n) as (m & L & [E|E]).
    + exists (2 * m + 1)%nat. split; [lia|]. left. rewrite sas_odd, E. reflexivity.
    + exists (2 * m)%nat. split; [lia|]. right. rewrite ss_even. exact E.
Qed.
(* what is taken is completed *)
Lemma taken_completed k : exists n, forall m, (n <= m)%nat -> exists u later, v_bridge (vs m) = Up u /\
  In (APublish (topic_prefix cfg ++ B "/availability") true (PText (B "online"))) (u_log u) /\ completed (v_events (vs m)) = map into_msg (tks k) ++ later.
Proof.
  destruct (C99_all_completed nm cl cfg may ss sas (2 * k)%nat WC ss_goes ss_fair) as (n & H). exists n. intros m L. destruct (H (2 * m)%nat ltac:(lia)) as (u & later & E1 & E2 & E3).
  rewrite !ss_even in *. cbn [sim v_bridge v_events v_asked] in *. destruct (v_bridge (vs m)) as [i rx|u'|l w]; try discriminate E1. cbn [with_mail] in E1. injection E1 as <-. exists u', later. auto.
Qed.
(* the messages q at the head of the channel ask for what os says *)
Definition heads (q : list (bytes * bytes)) (os : list (option Command)) (all : list Command) (n : nat) : Prop :=
  exists more, mail_of (v_bridge (vs n)) = q ++ more /\ Forall2 (asked cfg) q os /\ all = tks n ++ catMaybes os.
Lemma mail_step n : (exists m rest, takes (vs n) (acts n) = [m] /\ mail_of (v_bridge (vs n)) = m :: rest /\ mail_of (v_bridge (vs (S n))) = rest) \/
  (takes (vs n) (acts n) = [] /\ exists more, mail_of (v_bridge (vs (S n))) = mail_of (v_bridge (vs n)) ++ more).
Proof.
  pose proof (proj2 ON n) as M. pose proof (any_to n) as GA. destruct (sims n) as (L & _). destruct (sims (S n)) as (L' & _).
  assert (ND : forall l w, v_bridge (vs (S n)) <> Dead l w).
  { intros l w E. destruct (lined_alive nm cl cfg may WC _ _ L') as [(s & ph & p & rx & E' & _)|(u & E' & _)]; congruence. }
  revert M GA L ND. generalize (vs n) (acts n) (vs (S n)) (tks n). clear. intros v a v' tk M GA L ND.
  assert (Q : forall t pl, a = PDo (SMqtt t pl) -> v_bridge v' = bstep cl cfg (v_bridge v) (MqttArrive t pl) -> takes v a = [] /\ exists more, mail_of (v_bridge v') = mail_of (v_bridge v) ++ more).
  { intros t pl -> E. split; [unfold takes; destruct (v_bridge v); reflexivity|]. rewrite E in *. destruct (v_bridge v) as [i rx|u|l w]; cbn [bstep mail_of u_rx] in *; [eauto..|elim (ND l w eq_refl)]. }
  assert (O : forall i, a <> PDo SRx -> match i with MqttArrive _ _ | PollRx => False | _ => True end -> v_bridge v' = bstep cl cfg (v_bridge v) i -> takes v a = [] /\ exists more, mail_of (v_bridge v') = mail_of (v_bridge v) ++ more).
  { intros i NS Hi E. split; [unfold takes; destruct a as [|[]]; try reflexivity; congruence|]. exists []. rewrite app_nil_r, E. apply mail_same; [exact Hi|]. rewrite <- E. exact ND. }
  assert (P : a <> PDo SRx -> v_bridge v' = v_bridge v -> takes v a = [] /\ exists more, mail_of (v_bridge v') = mail_of (v_bridge v) ++ more).
  { intros NS E. split; [unfold takes; destruct a as [|[]]; try reflexivity; congruence|]. exists []. rewrite app_nil_r, E. reflexivity. }
  destruct M as [a v' M|t pl o RD AS]; [|right; eapply Q; reflexivity].
  destruct M as [now ws HW|a v' NA1 NA2 M|pkt f Vp Mp Hp Np Fp|q m body f NR AN G Hb HF].
  - right. apply (O (PollConnect now ws)); auto. discriminate.
  - destruct M as [now| |ws HW|t pl o RD AS PT|pkt f Vp Mp Hp Fp|q m body f N RP G Hb HF|y z EN Ny|]; try congruence.
    + right. apply (O (PollPanel now)); auto. discriminate.
    + clear O P Q. unfold takes. cbn [v_bridge] in *. destruct (v_bridge v) as [i rx|u|l w]; cbn [bstep mail_of] in *; [right; split; [reflexivity | exists []; symmetry; apply app_nil_r]| |elim (ND l w eq_refl)].
      destruct (u_mode u); [|right; split; [reflexivity | exists []; symmetry; apply app_nil_r]..].
      destruct (u_rx u) as [|[t pl] rest] eqn:ER; [right; split; [reflexivity | exists []; rewrite app_nil_r; cbn [mail_of]; exact ER]|]. left. exists (t, pl), rest. split; [reflexivity|]. split; [reflexivity|].
      destruct (requested _ _ _ _ _) as [[c|]|e|w]; [reflexivity | reflexivity | elim (ND _ _ eq_refl) | elim (ND _ _ eq_refl)].
    + right. apply (O (PollSend ws)); auto. discriminate.
    + right. eapply Q; reflexivity.
    + right. apply (O (NetArrive (Bytes y))); auto. discriminate.
    + right. apply P; [discriminate | reflexivity].
  - right. apply P; [discriminate | reflexivity].
  - right. apply P; [discriminate | reflexivity].
Qed.
Lemma took_head n u m o : v_bridge (vs n) = Up u -> takes (vs n) (acts n) = [m] -> readable cfg m -> asked cfg m o -> took cfg (vs n) (acts n) = catMaybes [o].
Proof.
  intros EB ET R A. destruct (head_asks cl cfg WC u m o (any_binv nm cl cfg may _ _ (any_to n) EB) R A) as (_ & EW). unfold took. rewrite EB, ET. cbn [map concat]. rewrite EW, app_nil_r. reflexivity.
Qed.
Lemma heads_step x q o os all n : heads (x :: q) (o :: os) all n -> 
  (heads (x :: q) (o :: os) all (S n) /\ takes (vs n) (acts n) = []) \/ heads q os all (S n).
Proof.
  intros (more & EM & F & EA). destruct (mail_step n) as [(m & rest & ET & E1 & E2)|(ET & more' & E2)].
  - right. rewrite EM in E1. cbn [app] in E1. injection E1 as <- <-. inversion F as [|? ? ? ? AX FQ]; subst. exists more. split; [exact E2|]. split; [exact FQ|].
    assert (X : exists u, v_bridge (vs n) = Up u) by (unfold takes in ET; destruct (v_bridge (vs n)) as [| u |]; [destruct (acts n) as [|[]]; discriminate ET | eauto | destruct (acts n) as [|[]]; discriminate ET]).
    destruct X as (u & EB). destruct (sims n) as ((_ & RD & _) & _). rewrite EM in RD. cbn [app] in RD. inversion RD as [|? ? RX _]; subst.
    cbn [tks]. rewrite (took_head n u x o EB ET RX AX), <- app_assoc. destruct o; reflexivity.
  - left. split; [|exact ET]. exists (more ++ more'). split; [rewrite E2, EM, <- app_assoc; reflexivity|]. split; [exact F|]. cbn [tks]. rewrite (took_none cfg _ _ ET), app_nil_r. exact EA.
Qed.
Lemma heads_keep x q o os all m : forall k n, (n + k = m)%nat -> heads (x :: q) (o :: os) all n -> heads (x :: q) (o :: os) all m \/ exists n', heads q os all n'.
Proof.
  induction k as [|k IH]; intros n E H; [replace m with n by lia; auto|]. destruct (heads_step _ _ _ _ _ _ H) as [(H' & _)|H']; [|eauto]. apply (IH (S n)); [lia | exact H'].
Qed.
(* the next message is taken *)
Lemma heads_taken x q o os all n : heads (x :: q) (o :: os) all n -> exists n', heads q os all n'.
Proof.
  intros H. destruct (taken_completed n) as (n1 & H1). destruct FAIR as (_ & _ & F3 & _). destruct (F3 (n + n1)%nat) as (m & L & EA).
  destruct (heads_keep x q o os all m (m - n) n ltac:(lia) H) as [Hm|G]; [|exact G]. destruct (heads_step _ _ _ _ _ _ Hm) as [(_ & ET)|G]; [|eauto]. exfalso.
  destruct (H1 m ltac:(lia)) as (u & later & EB & _ & EC). destruct (sims m) as (LM & _). pose proof (lined_line nm cl cfg may WC _ _ _ LM EB) as EL.
  assert (ETK : tks m = tks n). { destruct H as (? & _ & _ & EA1). destruct Hm as (? & _ & _ & EA2). apply app_inv_tail with (l := catMaybes (o :: os)). congruence. }
  rewrite ETK, EC, <- app_assoc in EL. assert (EN : later ++ outstanding (u_panel u) ++ map into_msg (waiting u) = []).
  { apply (app_inv_head (map into_msg (tks n))). rewrite app_nil_r. symmetry. exact EL. }
  apply app_eq_nil in EN as (_ & EN). apply app_eq_nil in EN as (EO & EW). apply map_eq_nil in EW. unfold waiting in EW.
  destruct (any_after nm cl cfg may _ (any_to m)) as ((is & A) & _). rewrite EB in A. destruct (PropBuffer.bridge_lows _ _ _ _ A) as (_ & FL).
  destruct Hm as (more & EM & _). rewrite EB in EM. cbn [mail_of app] in EM. unfold takes in ET. rewrite EA, EB, EM in ET. destruct (u_mode u) eqn:EMO; [discriminate ET | discriminate EW|].
  apply (FL eq_refl). unfold outstanding in EO. destruct (cmd_state (u_panel u)); [reflexivity | discriminate EO].
Qed.
Lemma all_taken k : exists n, tks n = v_asked (vs k).
Proof.
  destruct (sims k) as ((_ & _ & os & F & EA) & _). assert (G : heads (mail_of (v_bridge (vs k))) os (v_asked (vs k)) k) by (exists []; rewrite app_nil_r; auto).
  revert G F. generalize (v_asked (vs k)) as all. generalize (mail_of (v_bridge (vs k))) as q. clear EA. intros q all. generalize k as n. clear k. revert os. induction q as [|x q IH]; intros os n H F.
  - inversion F; subst. destruct H as (_ & _ & _ & E). cbn [catMaybes] in E. rewrite app_nil_r in E. eauto.
  - inversion F as [|? o ? os' AX FQ]; subst. destruct (heads_taken _ _ _ _ _ _ H) as (n' & H'). eapply IH; eauto.
Qed.
Lemma any_completed k : exists n, forall m, (n <= m)%nat -> exists u later, v_bridge (vs m) = Up u /\
  In (APublish (topic_prefix cfg ++ B "/availability") true (PText (B "online"))) (u_log u) /\ completed (v_events (vs m)) = map into_msg (v_asked (vs k)) ++ later.
Proof. destruct (all_taken k) as (n & <-). apply taken_completed. Qed.
End Run.

(* ---- run only when woken ---- *)
Section Host.
Variables (nm : naming) (cl : client) (cfg : Cfg) (may : packet -> Prop).
Notation any := (goes_any nm cl cfg may).
Lemma tinv_any t : turns_to_any nm cl cfg may t -> tinv cl cfg t.
Proof.
  induction 1 as [|t a t' _ IH T]; [apply tinv_new|]. destruct T as [a t' T|tp pl o RD AS]; [eapply tinv_step; eauto|]. destruct IH as (H & B & U). unfold tinv. cbn [t_host t_net].
  split; [apply hstep_hinv; [exact Logic.I | exact H]|]. split; [rewrite hstep_broken; [exact B | discriminate] | exact U].
Qed.
Lemma halves_any t a t' : tinv cl cfg t -> turns_any nm cl cfg may t a t' -> any (service_of t) (fst (halves cl cfg t a)) (mid cl cfg t a) /\ any (mid cl cfg t a) (snd (halves cl cfg t a)) (service_of t').
Proof.
  intros TI T. destruct T as [a t' T|tp pl o RD AS]; [destruct (halves_go nm cl cfg may _ _ _ TI T); split; apply Y_goes; assumption|].
  unfold mid. cbn [halves fst snd]. split; [apply Y_goes, idles|]. rewrite service_mk, mqtt_bridge. exact (Y_mqtt nm cl cfg may (service_of t) tp pl o RD AS).
Qed.
Lemma host_is_any t : turns_to_any nm cl cfg may t -> gets_to_any nm cl cfg may (service_of t).
Proof.
  intros H. pose proof H as H2. induction H as [|t a t' H IH T]; [exact (Y_new nm cl cfg may)|]. destruct (halves_any t a t' (tinv_any t H) T) as [A B]. eapply Y_move; [eapply Y_move; [exact (IH H) | exact A] | exact B].
Qed.
Lemma mid_overlap t a : overlaps (v_bridge (mid cl cfg t a)) -> overlaps (h_bridge (t_host t)).
Proof.
  unfold mid. destruct (fst (halves cl cfg t a)) as [|[now| | | | | | |]]; intros H; try exact H. cbn [v_bridge] in H. eapply overlap_new; [|exact H]. discriminate.
Qed.
Lemma wait_any t a t' : tinv cl cfg t -> turns_any nm cl cfg may t a t' -> (forall first, a <> URun first) -> h_due (t_host t) = true ->
  h_due (t_host t') = true /\ (h_room (t_host t) <= h_room (t_host t'))%nat /\ connects (h_bridge (t_host t')) = connects (h_bridge (t_host t)) /\ sending (h_bridge (t_host t')) = sending (h_bridge (t_host t)).
Proof.
  intros TI T N D. destruct T as [a t' T|tp pl o RD AS]; [eapply wait_turn; eauto|].
  assert (T0 : hturns nm cl cfg may (mkHosted (t_host t) (t_net t) (t_replied t) [] []) (UMqtt tp pl) (mkHosted (hstep cl cfg (t_host t) (HMqtt tp pl)) (t_net t) (t_replied t) ([] ++ catMaybes [o]) [])).
  { apply (U_mqtt nm cl cfg may (mkHosted (t_host t) (t_net t) (t_replied t) [] [])); auto. }
  exact (wait_turn nm cl cfg may _ _ _ (TI : tinv cl cfg (mkHosted (t_host t) (t_net t) (t_replied t) [] [])) T0 N D).
Qed.
Variables (ts : nat -> hosted) (acts : nat -> hturn).
Hypothesis ON : host_any nm cl cfg may ts acts.
Lemma host_to n : turns_to_any nm cl cfg may (ts n).
Proof. destruct ON as [E H]. induction n as [|n IH]; [rewrite E; constructor | econstructor; [exact IH | apply H]]. Qed.
Lemma ps_any : any_on nm cl cfg may (ps cl cfg ts acts) (pas cl cfg ts acts).
Proof.
  split; [unfold ps; destruct ON as [E _]; cbn; rewrite E; reflexivity|]. intros k.
  assert (K : k = (6 * (k / 6) + k mod 6)%nat) by (apply Nat.div_mod; lia). assert (L : (k mod 6 < 6)%nat) by (apply Nat.mod_upper_bound; lia). revert K L. generalize (k / 6)%nat (k mod 6)%nat. intros q r -> L.
  pose proof (tinv_any _ (host_to q)) as T. destruct (halves_any _ _ _ T (proj2 ON q)) as [A B]. rewrite pas_at, ps_at by exact L.
  replace (ps cl cfg ts acts (S (6 * q + r))) with (if (r =? 4)%nat then mid cl cfg (ts q) (acts q) else if (r =? 5)%nat then service_of (ts (S q)) else service_of (ts q)).
  - destruct r as [|[|[|[|[|[|]]]]]]; cbn [Nat.eqb]; [apply Y_goes, v_connect_go; exact T | apply Y_goes, v_panel_go; exact T | apply Y_goes, v_rx_go | apply Y_goes, v_send_go; exact T | exact A | exact B | lia].
  - destruct (Nat.eq_dec r 5) as [->|N]; [replace (S (6 * q + 5)) with (6 * S q)%nat by lia; rewrite ps_start; reflexivity|].
    replace (S (6 * q + r)) with (6 * q + S r)%nat by lia. rewrite ps_at by lia. destruct r as [|[|[|[|[|[|]]]]]]; try reflexivity; lia.
Qed.
Lemma ps_any_fair : fair_host ts acts -> fair_program (ps cl cfg ts acts) (pas cl cfg ts acts).
Proof.
  intros F. apply ps_fair_gen; [exact F | intros n; apply tinv_any, host_to|]. intros n N D. exact (wait_any _ _ _ (tinv_any _ (host_to n)) (proj2 ON n) N D).
Qed.
Lemma ps_no_overlap : (forall n, ~ overlaps (h_bridge (t_host (ts n)))) -> forall k, ~ overlaps (v_bridge (ps cl cfg ts acts k)).
Proof.
  intros NO k O. unfold ps in O. destruct (k mod 6 =? 5)%nat; [apply mid_overlap in O|]; exact (NO _ O).
Qed.
End Host.

Lemma frozen_refl cfg v u : v_bridge v = Up u -> frozen cfg v v.
Proof. intros E. exists u, u. do 7 (split; [auto|]). exists [], []. cbn [catMaybes]. rewrite !app_nil_r. auto. Qed.
Lemma frozen_trans cfg v1 v2 v3 : frozen cfg v1 v2 -> frozen cfg v2 v3 -> frozen cfg v1 v3.
Proof.
  intros (u & u' & A1 & A2 & A3 & A4 & A5 & A6 & A7 & more & os & A8 & A9 & A10) (w & w' & B1 & B2 & B3 & B4 & B5 & B6 & B7 & more' & os' & B8 & B9 & B10). assert (w = u') by congruence. subst w.
  exists u, w'. split; [exact A1|]. split; [exact B2|]. do 5 (split; [congruence|]). exists (more ++ more'), (os ++ os'). rewrite B8, A8, B10, A10, catMaybes_app, <- !app_assoc. split; [reflexivity|]. split; [apply Forall2_app; assumption | reflexivity].
Qed.
Lemma frozen_overlaps cfg v v' : overlaps (v_bridge v) -> frozen cfg v v' -> overlaps (v_bridge v').
Proof. intros (u & c & E & M & O) (x & u' & A1 & A2 & A3 & A4 & _). assert (x = u) by congruence. subst x. exists u', c. rewrite A4. split; [exact A2|]. split; [congruence | exact O]. Qed.
(* How two commands come to overlap: select! takes a message that asks for a command from the channel while the command before is not complete. *)
Theorem C104_how_they_overlap : forall nm cl cfg (may : packet -> Prop) v a v', well_configured cl cfg -> gets_to_any nm cl cfg may v -> goes_any nm cl cfg may v a v' ->
  ~ overlaps (v_bridge v) ->
  overlaps (v_bridge v') <-> a = PDo SRx /\ exists u m rest c, v_bridge v = Up u /\ u_mode u = Selecting /\ u_rx u = m :: rest /\ asks cfg m c /\ outstanding (u_panel u) <> [].
Proof.
  intros nm cl cfg may v a v' WC G M NO. destruct (any_cases nm cl cfg may WC v G) as [(tk & L & _)|J].
  2:{ elim NO. destruct J as (v0 & u0 & tk & c & u & os & J1 & J2 & J3 & J4 & J5 & J6 & J7 & J8 & _). exists u, c. rewrite J7. auto. }
  destruct L as (GS & RD & os & F & EA). split.
  - intros OV. assert (X : forall i, i <> PollRx -> overlaps (bstep cl cfg (v_bridge v) i) -> False) by (intros i N O; elim NO; eapply overlap_new; eauto).
    destruct M as [a v' M|t pl o R2 AS]; [|exfalso; eapply X; [|exact OV]; discriminate].
    destruct M as [now ws HW|a v' NA1 NA2 M|pkt f Vp Mp Hp Np Fp|q m body f NR AN GR Hb HF]; cbn [v_bridge] in OV; try contradiction; [exfalso; eapply X; [|exact OV]; discriminate|].
    destruct M as [now| |ws HW|t pl o R2 AS PT|pkt f Vp Mp Hp Fp|q m body f NR RP GR Hb HF|y z EN Ny|]; try congruence; cbn [v_bridge] in OV; try contradiction; try (exfalso; eapply X; [|exact OV]; discriminate).
    split; [reflexivity|]. destruct (v_bridge v) as [i rx|u|l w] eqn:EB; [destruct OV as (? & ? & E & _); discriminate E| |destruct OV as (? & ? & E & _); discriminate E].
    pose proof (any_binv nm cl cfg may v u G EB) as BI. cbn [mail_of] in RD, F. cbn [bstep] in OV. destruct (u_mode u) eqn:EM; [|elim NO; exact OV..]. destruct (u_rx u) as [|[t pl] rest] eqn:ER; [elim NO; exact OV|].
    inversion RD as [|? ? RM RR]; subst. inversion F as [|? o ? os' AM FR]; subst. destruct (head_asks cl cfg WC u (t, pl) o BI RM AM) as (EQ & _). cbn [fst snd] in EQ. rewrite EQ in OV.
    destruct o as [c|]; [|destruct OV as (u' & c & E & M & _); injection E as <-; discriminate M].
    exists u, (t, pl), rest, c. split; [reflexivity|]. split; [exact EM|]. split; [exact ER|]. split; [exact AM|]. destruct OV as (u' & c' & E & _ & O). injection E as <-. exact O.
  - intros (-> & u & m & rest & c & EB & EM & ER & AC & O). inversion M as [a v2 M1|]; subst. inversion M1; subst. match goal with X : serves _ _ _ _ _ SRx _ |- _ => inversion X; subst end. cbn [v_bridge]. rewrite EB in *. cbn [mail_of] in RD. rewrite ER in RD. inversion RD as [|? ? RM _]; subst.
    destruct (head_asks cl cfg WC u m (Some c) (any_binv nm cl cfg may v u G EB) RM AC) as (EQ & _). cbn [bstep]. rewrite EM, ER. destruct m as [t pl]. cbn [fst snd] in EQ. rewrite EQ. eexists _, c. split; [reflexivity|]. split; [reflexivity | exact O].
Qed.
(* Once they do, that is the end: from then on the bridge does nothing, though it never stops either. *)
Theorem C104_overlap_is_final : forall nm cl cfg (may : packet -> Prop) vs acts n m, any_on nm cl cfg may vs acts -> overlaps (v_bridge (vs n)) -> (n <= m)%nat ->
  frozen cfg (vs n) (vs m) /\ overlaps (v_bridge (vs m)).
Proof.
  intros nm cl cfg may vs acts n m ON O L. assert (F : frozen cfg (vs n) (vs m)); [|split; [exact F | eapply frozen_overlaps; eauto]].
  replace m with (n + (m - n))%nat by lia. generalize (m - n)%nat as k. clear m L. induction k as [|k IH].
  - rewrite Nat.add_0_r. destruct O as (u & c & E & _). eapply frozen_refl; eauto.
  - eapply frozen_trans; [exact IH|]. rewrite Nat.add_succ_r. eapply overlap_step; [eapply any_to; eauto | eapply frozen_overlaps; eauto | apply ON].
Qed.
(* If they never do, every command asked for is completed, in order, however many are asked for at once. *)
Theorem C104_all_completed : forall nm cl cfg (may : packet -> Prop) vs acts k, well_configured cl cfg -> any_on nm cl cfg may vs acts -> fair_program vs acts ->
  (forall n, ~ overlaps (v_bridge (vs n))) ->
  exists n, forall m, (n <= m)%nat -> exists u later, v_bridge (vs m) = Up u /\
    In (APublish (topic_prefix cfg ++ B "/availability") true (PText (B "online"))) (u_log u) /\
    completed (v_events (vs m)) = map into_msg (v_asked (vs k)) ++ later.
Proof. intros nm cl cfg may vs acts k WC ON F NO. eapply any_completed; eauto. Qed.
(* All of this holds as well of the bridge that is run only when woken. *)
Theorem C104_woken_in_line : forall nm cl cfg (may : packet -> Prop) t, turns_to_any nm cl cfg may t -> gets_to_any nm cl cfg may (service_of t).
Proof. exact host_is_any. Qed.
Theorem C104_woken_overlap_is_final : forall nm cl cfg (may : packet -> Prop) ts acts n m, host_any nm cl cfg may ts acts -> overlaps (h_bridge (t_host (ts n))) -> (n <= m)%nat ->
  frozen cfg (service_of (ts n)) (service_of (ts m)) /\ overlaps (h_bridge (t_host (ts m))).
Proof.
  intros nm cl cfg may ts acts n m ON O L. pose proof (C104_overlap_is_final nm cl cfg may _ _ (6 * n) (6 * m) (ps_any nm cl cfg may ts acts ON)) as H. rewrite !ps_start in H. apply H; [exact O | lia].
Qed.
Theorem C104_woken_all_completed : forall nm cl cfg (may : packet -> Prop) ts acts k, well_configured cl cfg -> host_any nm cl cfg may ts acts -> fair_host ts acts ->
  (forall n, ~ overlaps (h_bridge (t_host (ts n)))) ->
  exists n, forall m, (n <= m)%nat -> exists u later, h_bridge (t_host (ts m)) = Up u /\
    In (APublish (topic_prefix cfg ++ B "/availability") true (PText (B "online"))) (u_log u) /\
    completed (t_events (ts m)) = map into_msg (t_asked (ts k)) ++ later.
Proof.
  intros nm cl cfg may ts acts k WC ON F NO.
  destruct (C104_all_completed nm cl cfg may _ _ (6 * k)%nat WC (ps_any nm cl cfg may ts acts ON) (ps_any_fair nm cl cfg may ts acts ON F) (ps_no_overlap cl cfg ts acts NO)) as (n & H).
  exists n. intros m L. destruct (H (6 * m)%nat ltac:(lia)) as (u & later & E1 & E2 & E3). rewrite !ps_start in *. exists u, later. auto.
Qed.

(* The configuration and panel of C100_example.  Arming away and disarming are both asked for before the bridge is connected.  In the first
   execution the panel's answer to the first arrives before select! gets to the channel, and both are completed; in the second it does not. *)
Definition can_turn_any (t : hosted) (z : tmv) : bool := match z with ZArm | ZDisarm => true | _ => can_turn t z end.
Fixpoint can_turns_any (t : hosted) (zs : list tmv) : bool := match zs with [] => true | z :: zs' => can_turn_any t z && can_turns_any (tgo t z) zs' end.
Lemma can_turn_any_turns t z : can_turn_any t z = true -> turns_any ex_naming ex_cl ex_cfg ex_may t (turn_of z) (tgo t z).
Proof.
  intros H. destruct z as [f|n|d| | | | | | |n]; try (apply W_turns, can_turn_turns; exact H).
  - apply W_mqtt; [left; reflexivity | exact (proj1 ex_arms)].
  - apply W_mqtt; [left; reflexivity | exact (proj2 ex_arms)].
Qed.
Lemma can_turns_any_turns zs : forall t n z, can_turns_any t zs = true -> nth_error zs n = Some z ->
  turns_any ex_naming ex_cl ex_cfg ex_may (fold_left tgo (firstn n zs) t) (turn_of z) (fold_left tgo (firstn (S n) zs) t).
Proof.
  induction zs as [|x zs IH]; intros t n z H E; [destruct n; discriminate|]. cbn [can_turns_any] in H. apply andb_true_iff in H as [H1 H2]. destruct n as [|n].
  - injection E as ->. cbn [firstn fold_left]. apply can_turn_any_turns. exact H1.
  - rewrite !firstn_cons. cbn [fold_left]. apply IH; assumption.
Qed.
Definition ex_both : list tmv :=
  [ZRun true; ZArm; ZDisarm; ZRoom 999] ++ concat (repeat (repeat (ZRun true) 4 ++ [ZReply; ZDeliver 999]) 7) ++ [ZRun true; ZRun true; ZRun false].
Definition ex_lucky : list tmv := ex_both ++ [ZReply; ZDeliver 99; ZRun true; ZRun true; ZRun true; ZReply; ZDeliver 99; ZRun true; ZRun true].
Definition ex_unlucky : list tmv := ex_both ++ [ZReply; ZRun true; ZRun true; ZDeliver 99; ZRun true; ZRun false; ZUnasked; ZDeliver 99].
Definition ex_lucky_end : hosted := Eval vm_compute in fold_left tgo ex_lucky hosted_new.
Definition ex_unlucky_end : hosted := Eval vm_compute in fold_left tgo ex_unlucky hosted_new.
Definition ex_upto (zs : list tmv) (last : hosted) (n : nat) : hosted := if (n <? length zs)%nat then fold_left tgo (firstn n zs) hosted_new else last.
Definition ex_next (zs : list tmv) (n : nat) : tmv := nth n zs (ZRun (Nat.even n)).
Definition overlapping (b : bridge) : bool := match b with Up u => match u_mode u, outstanding (u_panel u) with Feeding _, _ :: _ => true | _, _ => false end | _ => false end.
Lemma overlapping_true b : overlaps b -> overlapping b = true.
Proof. intros (u & c & -> & M & O). cbn [overlapping]. rewrite M. destruct (outstanding (u_panel u)); [congruence | reflexivity]. Qed.
Lemma upto_last zs last n : (length zs <= n)%nat -> ex_upto zs last n = last.
Proof. intros L. unfold ex_upto. destruct (Nat.ltb_spec n (length zs)); [lia | reflexivity]. Qed.
Lemma upto_on zs last : can_turns_any hosted_new zs = true -> zs <> [] -> fold_left tgo zs hosted_new = last -> (forall f, tgo last (ZRun f) = last) ->
  host_any ex_naming ex_cl ex_cfg ex_may (ex_upto zs last) (fun n => turn_of (ex_next zs n)).
Proof.
  intros C NE EL ST. split; [unfold ex_upto; destruct (Nat.ltb_spec 0 (length zs)); [reflexivity | destruct zs; [congruence | cbn [length] in *; lia]]|]. intros n.
  destruct (Nat.ltb_spec n (length zs)) as [L|L].
  - assert (E : ex_upto zs last (S n) = fold_left tgo (firstn (S n) zs) hosted_new).
    { unfold ex_upto. destruct (Nat.ltb_spec (S n) (length zs)) as [L'|L']; [reflexivity|]. rewrite firstn_all2 by exact L'. symmetry. exact EL. }
    rewrite E. unfold ex_upto. destruct (Nat.ltb_spec n (length zs)) as [_|L']; [|lia]. apply can_turns_any_turns; [exact C|]. unfold ex_next. apply nth_error_nth'. exact L.
  - rewrite !upto_last by lia. unfold ex_next. rewrite nth_overflow by lia. rewrite <- (ST (Nat.even n)) at 2. apply can_turn_any_turns. reflexivity.
Qed.
Lemma upto_fair zs last reqs : h_due (t_host last) = false -> h_room (t_host last) <> 0%nat -> t_net last = [] -> Forall wf_message reqs ->
  put_by (h_bridge (t_host last)) = concat (map bytes_of reqs) -> t_replied last = length reqs -> fair_host (ex_upto zs last) (fun n => turn_of (ex_next zs n)).
Proof.
  intros D R N W P RP. split; [|split; [|split]].
  - intros first n. exists (n + length zs)%nat. split; [lia|]. right. rewrite upto_last by lia. exact D.
  - intros n. exists (n + length zs)%nat. split; [lia|]. rewrite upto_last by lia. exact R.
  - intros n. exists (n + length zs)%nat. split; [lia|]. right. intros q (qs & fs & rest & F & E & L). rewrite upto_last in E, L by lia. cbn [service_of v_bridge v_replied app] in E, L.
    rewrite P, <- (app_nil_r (concat _)) in E. destruct (requests_unique _ _ (ex_frames _ W) _ _ _ _ F E) as (c & EC); [constructor | reflexivity|].
    apply (f_equal (@length _)) in EC. rewrite !app_length, L, RP in EC. cbn [length] in EC. lia.
  - intros n. exists (n + length zs)%nat. split; [lia|]. right. rewrite upto_last by lia. exact N.
Qed.
Example C104_example : well_configured ex_cl ex_cfg /\
  let ts := ex_upto ex_lucky ex_lucky_end in host_any ex_naming ex_cl ex_cfg ex_may ts (fun n => turn_of (ex_next ex_lucky n)) /\
  fair_host ts (fun n => turn_of (ex_next ex_lucky n)) /\ (forall n, ~ overlaps (h_bridge (t_host (ts n)))) /\
  t_asked (ts 3%nat) = ex_asked /\ t_events (ts 3%nat) = [] /\ completed (t_events ex_lucky_end) = map into_msg ex_asked.
Proof.
  split; [exact (proj1 C99_example)|]. cbv zeta. split; [|split; [|split; [|split; [|split]]]]; [| | |vm_compute; reflexivity..].
  - apply upto_on; [vm_compute; reflexivity | discriminate | vm_compute; reflexivity|]. intros []; vm_compute; reflexivity.
  - apply (upto_fair _ _ all_requests); [reflexivity | vm_compute; discriminate | reflexivity | exact all_requests_ok | vm_compute; reflexivity | vm_compute; reflexivity].
  - intros n O. apply overlapping_true in O. assert (A : forallb (fun k => negb (overlapping (h_bridge (t_host (ex_upto ex_lucky ex_lucky_end k))))) (seq 0 (S (length ex_lucky))) = true) by (vm_compute; reflexivity).
    rewrite forallb_forall in A. assert (X : overlapping (h_bridge (t_host (ex_upto ex_lucky ex_lucky_end (Nat.min n (length ex_lucky))))) = true).
    { destruct (Nat.min_spec n (length ex_lucky)) as [(L & ->)|(L & ->)]; [exact O|]. rewrite upto_last in O |- * by lia. exact O. }
    specialize (A (Nat.min n (length ex_lucky))). rewrite X in A. discriminate A. apply in_seq. lia.
Qed.
(* So it is not so that every command is completed in the end. *)
Theorem C104_all_completed_refuted : exists nm cl cfg may ts acts k, well_configured cl cfg /\ host_any nm cl cfg may ts acts /\ fair_host ts acts /\ length (t_asked (ts k)) = 2%nat /\
  exists n, overlaps (h_bridge (t_host (ts n))) /\ forall m, completed (t_events (ts m)) = [].
Proof.
  exists ex_naming, ex_cl, ex_cfg, ex_may, (ex_upto ex_unlucky ex_unlucky_end), (fun n => turn_of (ex_next ex_unlucky n)), 3%nat. split; [exact (proj1 C99_example)|]. split; [|split; [|split]].
  - apply upto_on; [vm_compute; reflexivity | discriminate | vm_compute; reflexivity|]. intros []; vm_compute; reflexivity.
  - apply (upto_fair _ _ (firstn 8 all_requests)); [reflexivity | vm_compute; discriminate | reflexivity | | vm_compute; reflexivity | vm_compute; reflexivity].
    pose proof all_requests_ok as W. rewrite <- (firstn_skipn 8 all_requests) in W. apply Forall_app in W. apply W.
  - vm_compute. reflexivity.
  - exists (length ex_unlucky). split.
    + rewrite upto_last by lia. eexists _, _. split; [reflexivity|]. split; [reflexivity|]. vm_compute. discriminate.
    + intros m. assert (A : forallb (fun k => match completed (t_events (ex_upto ex_unlucky ex_unlucky_end k)) with [] => true | _ => false end) (seq 0 (S (length ex_unlucky))) = true) by (vm_compute; reflexivity).
      rewrite forallb_forall in A. assert (X : ex_upto ex_unlucky ex_unlucky_end m = ex_upto ex_unlucky ex_unlucky_end (Nat.min m (length ex_unlucky))).
      { destruct (Nat.min_spec m (length ex_unlucky)) as [(L & ->)|(L & ->)]; [reflexivity|]. rewrite !upto_last by lia. reflexivity. }
      rewrite X. specialize (A (Nat.min m (length ex_unlucky))). destruct (completed _); [reflexivity|]. discriminate A. apply in_seq. lia.
Qed.

Print Assumptions C104_in_line.
Print Assumptions C104_how_they_overlap.
Print Assumptions C104_overlap_is_final.
Print Assumptions C104_all_completed.
Print Assumptions C104_woken_in_line.
Print Assumptions C104_woken_overlap_is_final.
Print Assumptions C104_woken_all_completed.
Print Assumptions C104_all_completed_refuted.
