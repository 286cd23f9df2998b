(* TruthFacts.v: for C117: which arming report is in effect, as a function of what was received and of when waiting was over. *)
From Verif Require Import Base BaseFacts Pkt SpecPkt PktFacts DecodeFacts Msg SpecMsg DecFacts MsgFacts WireFacts IsoFacts
  Tokio SpecConn ConnFacts State SpecState StateFacts RunFacts HistFacts ViewFacts PropMsg PropState SpecTruth.
From Coq Require Import ZifyBool ZifyNat ZifyN.
Ltac Zify.zify_post_hook ::= Z.div_mod_to_equations.

(* the report in effect and the one held *)
Definition arms : Type := option ArmingStatusReport * option ArmingStatusReport.
Definition arms_of (p : Panel) : arms := (s_arming (p_state p), held p).
Definition arm_report (s : arms) (x : ArmingStatusReport) : arms :=
  match s with
  | (Some r, None) => if is_transition_suspicious r x then (Some r, Some x) else (Some x, None)
  | _ => (Some x, None)
  end.
Definition arm_step (s : arms) (i : option packet) : arms :=
  match i with
  | None => match s with (_, Some m) => (Some m, None) | _ => s end
  | Some pkt => match message_of pkt with Some (MArmingStatusReport x) => arm_report s x | _ => s end
  end.
Definition arm_run (s : arms) (is : list (option packet)) : arms := fold_left arm_step is s.
Lemma effect_arms now p p' ch m pkt : msg_effect now p p' ch m -> message_of pkt = Some m -> arms_of p' = arm_step (arms_of p) (Some pkt).
Proof.
  intros M E. unfold arm_step, arms_of. rewrite E. unfold held. destruct m; cbn [msg_effect] in M;
  try (destruct M as (_ & _ & M1 & M2); rewrite M1, M2; reflexivity).
  - destruct M as [M _]. unfold arming_effect in M. destruct (s_arming (p_state p)) eqn:EA.
    + destruct M as [(P & SU & M1 & -> & _)|(SU & -> & -> & _)]; cbn.
      * rewrite P, M1, SU. reflexivity.
      * destruct (pending_arm p) as [[d y]|]; cbn; [reflexivity|]. destruct SU as [SU|SU]; [congruence|]. rewrite SU. reflexivity.
    + destruct M as (-> & -> & _). reflexivity.
  - destruct M as (_ & M1 & M2). rewrite M1, M2. reflexivity.
Qed.

(* ---- connecting ---- *)
Definition tracked_by (stream : bytes) (p : Panel) (ps : list packet) : Prop :=
  takes stream ps (unread (p_conn p)) /\ arms_of p = arm_run (None, None) (map Some ps).
(* connecting ends with a packet that is a name *)
Definition tracked2 (stream : bytes) (i : istate) : Prop :=
  match i with
  | IRun _ _ p => exists ps, tracked_by stream p ps
  | IDone p => exists ps pkt, tracked_by stream p (ps ++ [pkt]) /\ reports_in [pkt] = []
  | _ => True
  end.
Lemma tracked_same stream p p' ps : p_state p' = p_state p -> pending_arm p' = pending_arm p ->
  unread (p_conn p') = unread (p_conn p) -> tracked_by stream p ps -> tracked_by stream p' ps.
Proof. intros A B C (T & L). unfold tracked_by, arms_of, held in *. rewrite A, B, C. auto. Qed.
Lemma tracked_interpret stream now p c pkt p' e w ps : pinv p -> nexts (p_conn p) c (Ready (Some (IoOk pkt))) ->
  interpret now (with_conn p c) pkt = Ok (p', e, w) -> tracked_by stream p ps -> tracked_by stream p' (ps ++ [pkt]) /\ e_msg e = parse_result pkt.
Proof.
  intros I X E (T & L). pose proof I as (CI & _). destruct (nexts_same_write _ _ _ X) as (Ew & _).
  pose proof (with_conn_inv p c I (nexts_inv _ _ _ X CI) Ew) as I'.
  destruct (interpret_spec now (with_conn p c) pkt I' (nexts_pkt_ok _ _ _ X CI)) as (p2 & e2 & w2 & E2 & _ & C2 & Y).
  rewrite E in E2. injection E2 as <- <- <-. pose proof (nexts_unread _ _ _ X CI) as D. cbv beta iota in D.
  unfold tracked_by. rewrite C2. cbn [p_conn with_conn]. rewrite map_app. unfold arm_run. rewrite fold_left_app. cbn [map fold_left]. fold (arm_run (None, None) (map Some ps)). rewrite <- L.
  destruct Y as [_ Y]. unfold parse_result. assert (LP : arms_of (with_conn p c) = arms_of p) by reflexivity.
  destruct (parse pkt) as [[m|]|er|why] eqn:EP; [| | |destruct Y].
  - assert (EM : message_of pkt = Some m) by (unfold message_of; rewrite EP; reflexivity). destruct Y as (Y1 & _ & M & _).
    split; [split; [econstructor; eauto|] | exact Y1]. rewrite <- LP. eapply effect_arms; eauto.
  - assert (EM : message_of pkt = None) by (unfold message_of; rewrite EP; reflexivity). destruct Y as (Y1 & Y2 & Y3). split; [split; [econstructor; eauto|] | exact Y2 || exact Y1]. unfold arm_step. rewrite EM, Y1. reflexivity.
  - assert (EM : message_of pkt = None) by (unfold message_of; rewrite EP; reflexivity). destruct Y as (Y1 & Y2 & Y3). split; [split; [econstructor; eauto|] | exact Y2 || exact Y1]. unfold arm_step. rewrite EM, Y1. reflexivity.
Qed.
Lemma istep_tracked2 now ws stream i : iinv i -> tracked2 stream i -> tracked2 stream (istep now ws i).
Proof.
  destruct i as [s ph p|p|e|w]; auto. intros (I & C & S & W) V. cbn [tracked2] in V. destruct V as (ps & V). destruct ph; cbn [istep].
  - unfold conn_poll_ready. rewrite W by discriminate. cbn [length]. change (BACKPRESSURE <=? N.of_nat 0) with false. cbv beta iota.
    destruct (to_pkt_spec _ (stage_msg_wf s p S)) as (b & -> & _ & Hb & _). cbn [bind].
    destruct (encode_valid (PAscii b) Hb) as (f & HF & HE). unfold conn_start_send. rewrite HE. cbn [bind tracked2].
    exists ps. eapply tracked_same; [| | |exact V]; reflexivity.
  - destruct (conn_poll_flush (p_conn p) ws) as [[c ws'] r] eqn:EF.
    destruct (conn_flush_spec _ _ _ _ _ EF) as ((R1 & _ & _ & _ & R2 & _) & _).
    assert (V' : tracked_by stream (with_conn p c) ps).
    { eapply tracked_same; [| | |exact V]; try reflexivity. unfold unread. cbn. congruence. }
    destruct r as [|[[]|e]]; cbn [tracked2]; eauto.
  - pose proof I as (CI & _). destruct (conn_next_total _ CI) as (c & r & E & X). rewrite E.
    pose proof (nexts_unread _ _ _ X CI) as U. destruct (await_eof_fails s) as (eof & ->).
    destruct r as [|[[pkt|e]|]]; cbn [tracked2]; eauto; cbv beta iota in U.
    + exists ps. eapply tracked_same; [| | |exact V]; try reflexivity. apply U.
    + destruct (interpret now (with_conn p c) pkt) as [[[p' e] w]|e|w] eqn:EI; try exact Logic.I.
      destruct (tracked_interpret stream _ _ _ _ _ _ _ _ I X EI V) as (V' & EM).
      destruct (e_msg e) as [[m|]|] eqn:EE; try (eexists; exact V'). destruct (is_response_to m (stage_msg s)); [|eexists; exact V'].
      destruct s as [| |ty max i]; cbn [after_reply]; try (eexists; exact V').
      unfold sds_reply. destruct m; try exact Logic.I. destruct (negb _); [exact Logic.I|].
      assert (NR : reports_in [pkt] = []).
      { unfold parse_result in EM. unfold reports_in, messages_in, message_of. cbn [map]. destruct (parse pkt) as [[m'|]|er|why]; try discriminate EM. injection EM as <-. reflexivity. }
      assert (AS : forall q, tracked_by stream q (ps ++ [pkt]) -> tracked2 stream (after_sds ty q)) by (intros q Vq; destruct ty; cbn [after_sds tracked2]; eauto).
      assert (VN : forall l, tracked_by stream (with_state p' (set_names (p_state p') ty l)) (ps ++ [pkt])) by (intros l; destruct V' as (T & L); destruct ty; split; assumption).
      destruct (names_of (p_state p') ty); [|exact Logic.I]. destruct (sd_num m =? 0); [auto|].
      destruct (_ <? _)%nat; [exact Logic.I|]. destruct (set_nth l _ _) as [l'|?|?]; try exact Logic.I.
      destruct (_ <? _)%nat; [eexists; apply VN | apply AS, VN].
Qed.
Lemma irun_tracked2 h : Forall iop_ok h -> tracked2 (iarrived h) (irun conn_new h).
Proof.
  induction h as [|o h IH] using rev_ind; intros HO.
  - exists []. split; [constructor | reflexivity].
  - apply Forall_app in HO as [HO Ho]. inversion Ho; subst. specialize (IH HO). pose proof (irun_inv h HO) as I.
    pose proof (iarrived_u8 _ HO) as U. rewrite irun_snoc, iarrived_app. destruct o as [a|now ws].
    + replace (iarrived [IArrive a]) with (arrival_data a) by (unfold iarrived; cbn [map concat]; rewrite app_nil_r; reflexivity).
      assert (Ua : u8s (arrival_data a)) by (destruct a; [exact H1 | constructor | constructor]).
      cbn [iop_step]. destruct (irun conn_new h) as [s ph p|p|e|w]; auto.
      * destruct IH as (ps & T & L). exists ps. split; [|exact L]. cbn [p_conn with_conn]. rewrite arrive_unread. apply takes_more; auto.
      * destruct IH as (ps & pkt & (T & L) & R). exists ps, pkt. split; [|exact R]. split; [|exact L]. cbn [p_conn with_conn]. rewrite arrive_unread. apply takes_more; auto.
    + change (iarrived [IStep now ws]) with (@nil N). rewrite app_nil_r. apply istep_tracked2; auto.
Qed.
(* ---- afterwards ---- *)
Lemma run_arms p0 h p bs : pinv p0 -> up p0 -> Forall op_ok h -> run p0 h = Ok (p, bs) -> arms_of p = arm_run (arms_of p0) (map e_pkt (events bs)).
Proof.
  intros I0 U0 HO E. refine (proj2 (run_ind (fun _ bs p => arms_of p = arm_run (arms_of p0) (map e_pkt (events bs))) p0 I0 _ _ h bs p HO E)); [reflexivity|].
  clear -I0 U0. intros h bs p o p' b E HO Ip IH Oo Es _ S. rewrite events_app, map_app. unfold arm_run. rewrite fold_left_app. fold (arm_run (arms_of p0) (map e_pkt (events bs))). rewrite <- IH.
  destruct (step_view _ _ _ _ S Ip) as [(V1 & V2 & V3)|(now & r & w & e & -> & -> & Y & V & PC)].
  - rewrite V1. cbn [map fold_left]. unfold arms_of, held. rewrite V2, V3. reflexivity.
  - rewrite V. cbn [map fold_left]. destruct (poll_event _ _ _ _ _ _ PC Y) as [(pkt & m & E1 & E2 & W & E3 & _ & M & _)|[(pkt & E1 & E2 & _ & EQ & E3 & _)|(d & m & prior & -> & E1 & E2 & E3 & EQ & _)]].
    + rewrite E1. eapply effect_arms; [exact M|]. unfold message_of. rewrite E2. reflexivity.
    + rewrite E1. unfold arm_step. rewrite E2, EQ. reflexivity.
    + cbn [e_pkt deferred_event arm_step]. unfold arms_of, held. rewrite E1, EQ. reflexivity.
Qed.

(* ---- against what the panel does ---- *)
Lemma sent_app a b : sent (a ++ b) = sent a ++ sent b.
Proof. unfold sent. rewrite map_app. apply concat_app. Qed.
Lemma sent_cons d ds : sent (d :: ds) = sent1 d ++ sent ds.
Proof. reflexivity. Qed.
Lemma sent_nil ds : sent ds = [] -> ds = [].
Proof. destruct ds as [|d ds]; [reflexivity|]. destruct d; discriminate. Qed.
Lemma after_app t a b : after t (a ++ b) = after (after t a) b.
Proof. apply fold_left_app. Qed.
Lemma sent_inj ds1 ds2 dsa dsb : ds1 ++ ds2 = dsa ++ dsb -> sent ds1 = sent dsa -> ds1 = dsa.
Proof.
  intros E S. apply app_eq_app in E as (l & [[-> _]|[-> _]]); rewrite sent_app in S.
  - assert (X : sent l = []) by (apply (app_inv_head (sent dsa)); rewrite app_nil_r; auto). apply sent_nil in X. subst. apply app_nil_r.
  - assert (X : sent l = []) by (apply (app_inv_head (sent ds1)); rewrite app_nil_r; auto). apply sent_nil in X. subst. symmetry. apply app_nil_r.
Qed.
Definition settled (t0 : truth) (ds1 : list deed) (s : arms) : Prop :=
  let T := arming_now (after t0 ds1) in
  (reports_in (sent ds1) = [] /\ s = (None, None)) \/ (reports_in (sent ds1) <> [] /\ s = (Some T, None)) \/
  exists r0 rs dsa dsb, s = (Some r0, Some T) /\ reports_in (sent ds1) = rs ++ [r0; T] /\ became_fully_armed r0 T /\ ds1 = dsa ++ dsb /\ r0 = arming_now (after t0 dsa).
Definition midway (t0 : truth) (ds1 ds2 : list deed) (ps : list packet) (s : arms) : Prop :=
  exists f a x y ds3, ds2 = DSpurious f a x y :: ds3 /\ ps = sent ds1 ++ [x] /\
    (s = (Some (arming_now (after t0 ds1)), Some f) \/ (reports_in (sent ds1) = [] /\ s = (Some f, None))).
Lemma reports_as x a : message_of x = Some (MArmingStatusReport a) -> reports_in [x] = [a].
Proof. intros E. unfold reports_in, messages_in. cbn. rewrite E. reflexivity. Qed.
Lemma arm_other x s : (forall a, message_of x <> Some (MArmingStatusReport a)) -> reports_in [x] = [] /\ arm_step s (Some x) = s.
Proof.
  intros N. unfold reports_in, messages_in, arm_step. cbn. destruct (message_of x) as [[]|]; cbn; auto. elim (N m eq_refl).
Qed.
Lemma last_report t0 ds1 : does t0 ds1 -> reports_in (sent ds1) = [] \/ exists rs, reports_in (sent ds1) = rs ++ [arming_now (after t0 ds1)].
Proof.
  induction ds1 as [|d ds IH] using rev_ind; intros D; [left; reflexivity|].
  assert (D1 : does t0 ds) by (intros a d' b ->; apply (D a d' (b ++ [d])); rewrite <- app_assoc; reflexivity).
  pose proof (D ds d [] eq_refl) as F. specialize (IH D1). rewrite sent_app, reports_in_app, after_app. change (sent [d]) with (sent1 d ++ []). rewrite app_nil_r.
  destruct d as [z s x|a x|f a x y|zs x|x]; cbn [fits sent1 after fold_left after1 arming_now] in *.
  - destruct (arm_other x (None, None)) as [-> _]; [congruence|]. rewrite app_nil_r. exact IH.
  - rewrite (reports_as _ _ F). right. eauto.
  - destruct F as (F1 & F2 & _). change [x; y] with ([x] ++ [y]). rewrite reports_in_app, (reports_as _ _ F1), (reports_as _ _ F2). right. exists (reports_in (sent ds) ++ [f]). rewrite <- app_assoc. reflexivity.
  - destruct F as (F & _). destruct (arm_other x (None, None)) as [-> _]; [congruence|]. rewrite app_nil_r. exact IH.
  - destruct (arm_other x (None, None)) as [-> _]; [intros a E; rewrite E in F; exact F|]. rewrite app_nil_r. exact IH.
Qed.
Lemma does_app t0 a b : does t0 (a ++ b) -> does t0 a.
Proof. intros D ds1 d ds2 ->. apply (D ds1 d (ds2 ++ b)). rewrite <- app_assoc. reflexivity. Qed.
Lemma true_so_far t0 ds : does t0 ds -> spaced ds -> forall is rest, catMaybes is ++ rest = sent ds ->
  (forall i1 i2, is = i1 ++ None :: i2 -> exists ds1 ds2, ds = ds1 ++ ds2 /\ catMaybes i1 = sent ds1) ->
  exists ds1 ds2, ds = ds1 ++ ds2 /\ ((catMaybes is = sent ds1 /\ settled t0 ds1 (arm_run (None, None) is)) \/ midway t0 ds1 ds2 (catMaybes is) (arm_run (None, None) is)).
Proof.
  intros D SP is. induction is as [|i is IH] using rev_ind; intros rest P IT.
  { exists [], ds. split; [reflexivity|]. left. split; [reflexivity|]. left. auto. }
  assert (CA : catMaybes (is ++ [i]) = catMaybes is ++ match i with Some x => [x] | None => [] end).
  { clear. induction is as [|[y|] is IH]; cbn; [destruct i; reflexivity | rewrite IH; reflexivity | exact IH]. }
  rewrite CA in P. rewrite <- app_assoc in P.
  assert (IT' : forall i1 i2, is = i1 ++ None :: i2 -> exists ds1 ds2, ds = ds1 ++ ds2 /\ catMaybes i1 = sent ds1).
  { intros i1 i2 ->. apply (IT i1 (i2 ++ [i])). rewrite <- app_assoc. reflexivity. }
  destruct (IH _ P IT') as (ds1 & ds2 & ED & H). rewrite CA. unfold arm_run. rewrite fold_left_app. fold (arm_run (None, None) is). cbn [fold_left].
  set (s := arm_run (None, None) is) in *. pose proof (does_app t0 ds1 ds2) as D1. rewrite <- ED in D1. specialize (D1 D).
  destruct i as [pkt|].
  - destruct H as [[E H]|(f & a & x & y & ds3 & E2 & E & H)].
    + rewrite ED, sent_app, E in P. apply app_inv_head in P. destruct ds2 as [|d ds3]; [discriminate|]. rewrite sent_cons in P.
      pose proof (D ds1 d ds3 ED) as F.
      assert (ST : forall d', d = d' -> sent1 d = [pkt] -> settled t0 (ds1 ++ [d]) (arm_step s (Some pkt)) -> exists e1 e2, ds = e1 ++ e2 /\
        ((catMaybes is ++ [pkt] = sent e1 /\ settled t0 e1 (arm_step s (Some pkt))) \/ midway t0 e1 e2 (catMaybes is ++ [pkt]) (arm_step s (Some pkt)))).
      { intros _ _ E1 S. exists (ds1 ++ [d]), ds3. split; [rewrite <- app_assoc; exact ED|]. left. split; [|exact S]. rewrite sent_app, sent_cons, E1, E. reflexivity. }
      assert (OT : sent1 d = [pkt] -> (forall a, message_of pkt <> Some (MArmingStatusReport a)) -> arming_now (after1 (after t0 ds1) d) = arming_now (after t0 ds1) -> settled t0 (ds1 ++ [d]) (arm_step s (Some pkt))).
      { intros E1 N EA. destruct (arm_other pkt s N) as [R ->]. unfold settled in *. rewrite after_app, sent_app, sent_cons, E1. cbn [after fold_left]. fold (after t0 ds1). rewrite EA. cbn [app]. rewrite reports_in_app. change (reports_in (pkt :: sent [])) with (reports_in [pkt]). rewrite R, app_nil_r.
        destruct H as [H|[H|(r0 & rs & dsa & dsb & H1 & H2 & H3 & -> & H4)]]; auto. right. right. exists r0, rs, dsa, (dsb ++ [d]). rewrite app_assoc. auto. }
      assert (REP : forall a, message_of pkt = Some (MArmingStatusReport a) -> sent1 d = [pkt] -> arming_now (after1 (after t0 ds1) d) = a -> settled t0 (ds1 ++ [d]) (arm_step s (Some pkt))).
      { intros a EM E1 EA. unfold settled in *. rewrite after_app, sent_app, sent_cons, E1. cbn [after fold_left]. fold (after t0 ds1). rewrite EA. cbn [app]. rewrite reports_in_app. change (reports_in (pkt :: sent [])) with (reports_in [pkt]). rewrite (reports_as _ _ EM). unfold arm_step. rewrite EM.
        assert (NE : reports_in (sent ds1) ++ [a] <> []) by (destruct (reports_in (sent ds1)); discriminate).
        destruct H as [(H1 & ->)|[(H0 & ->)|(r0 & rs & dsa & dsb & -> & H2 & H3 & E3 & H4)]]; cbn [arm_report]; auto.
        destruct (is_transition_suspicious (arming_now (after t0 ds1)) a) eqn:SU; auto. right. right.
        destruct (last_report t0 ds1 D1) as [LR|(rs & LR)].
        - elim (H0 LR).
        - exists (arming_now (after t0 ds1)), rs, ds1, [d]. split; [reflexivity|]. split; [rewrite LR, <- app_assoc; reflexivity|]. split; [apply suspicious_spec; exact SU|]. auto. }
      destruct d as [z s1 x|a x|f a x y|zs x|x]; cbn [sent1 app fits] in *; injection P as <- P.
      * apply (ST _ eq_refl eq_refl). apply OT; [reflexivity | congruence | reflexivity].
      * apply (ST _ eq_refl eq_refl). eapply REP; eauto.
      * exists ds1, (DSpurious f a pkt y :: ds3). split; [exact ED|]. right. exists f, a, pkt, y, ds3. split; [reflexivity|]. split; [rewrite E; reflexivity|].
        destruct F as (F1 & F2 & F3 & F4). unfold arm_step. rewrite F1. destruct H as [(H1 & ->)|[(_ & ->)|(r0 & rs & dsa & dsb & -> & H2 & H3 & E3 & H4)]]; cbn [arm_report].
        -- right. auto.
        -- left. apply suspicious_spec in F3. rewrite F3. reflexivity.
        -- elim (SP ds1 f a pkt y ds3 rs r0 _ ED H2 H3).
      * apply (ST _ eq_refl eq_refl). apply OT; [reflexivity | destruct F; congruence | reflexivity].
      * apply (ST _ eq_refl eq_refl). apply OT; [reflexivity | | reflexivity]. intros a EM. rewrite EM in F. exact F.
    + subst ds2. rewrite ED, sent_app, sent_cons, E, <- app_assoc in P. apply app_inv_head in P. cbn [sent1 app] in P. injection P as <- P.
      exists (ds1 ++ [DSpurious f a x pkt]), ds3. split; [rewrite <- app_assoc; exact ED|]. left. split; [rewrite sent_app, E, <- app_assoc; reflexivity|].
      destruct (D ds1 _ ds3 ED) as (F1 & F2 & F3 & F4). right. left. split; [rewrite sent_app, reports_in_app; change (sent [DSpurious f a x pkt]) with ([x] ++ [pkt]); rewrite reports_in_app, (reports_as _ _ F1); destruct (reports_in (sent ds1)); discriminate|].
      rewrite after_app. cbn [after fold_left after1 arming_now]. unfold arm_step. rewrite F2. destruct H as [-> |[_ ->]]; cbn [arm_report]; [reflexivity|].
      destruct (is_transition_suspicious f a) eqn:SU; [|reflexivity]. exfalso. apply suspicious_spec in SU as (area & mode & S1 & S2 & S3 & _). rewrite F4, S2 in S1. injection S1 as ->. cbn in S3. intuition discriminate.
  - rewrite app_nil_r. destruct (IT is [] eq_refl) as (dsa & dsb & ED' & EC). destruct H as [[E H]|(f & a & x & y & ds3 & E2 & E & H)].
    + exists ds1, ds2. split; [exact ED|]. left. split; [exact E|]. unfold settled in *. cbn [arm_step]. destruct H as [(H1 & ->)|[(H0 & ->)|(r0 & rs & dsa' & dsb' & -> & H2 & _)]]; auto.
      right. left. split; [|reflexivity]. rewrite H2. destruct rs; discriminate.
    + exfalso. rewrite EC in E. rewrite ED in ED'. subst ds2. apply app_eq_app in ED' as (l & [[-> El]|[-> El]]); rewrite sent_app in E.
      * rewrite <- app_assoc in E. apply (f_equal (@length _)) in E. rewrite !app_length in E. cbn in E. lia.
      * apply app_inv_head in E. destruct l as [|d l]; [discriminate|]. injection El as <- _. rewrite sent_cons in E. discriminate.
Qed.
(* how far things were told is determined by what was received *)
Lemma up_to_some t0 ds : forall ps rest, does t0 ds -> ps ++ rest = sent ds -> exists ds1 ds2, ds = ds1 ++ ds2 /\ up_to ds1 ds2 ps.
Proof.
  intros ps. induction ps as [|pkt ps IH] using rev_ind; intros rest D P; [exists [], ds; split; [reflexivity | left; reflexivity]|].
  rewrite <- app_assoc in P. destruct (IH _ D P) as (ds1 & ds2 & ED & [E|(f & a & x & y & ds3 & E2 & E)]).
  - rewrite ED, sent_app, E in P. apply app_inv_head in P. destruct ds2 as [|d ds3]; [discriminate|]. rewrite sent_cons in P.
    destruct d as [z s1 x|a x|f a x y|zs x|x]; cbn [sent1 app] in P; injection P as <- P;
      try (exists (ds1 ++ [ltac:(match type of ED with _ = _ ++ ?d :: _ => exact d end)]), ds3; split; [rewrite <- app_assoc; exact ED | left; rewrite sent_app, E; reflexivity]).
    exists ds1, (DSpurious f a pkt y :: ds3). split; [exact ED|]. right. exists f, a, pkt, y, ds3. rewrite E. auto.
  - subst ds2. rewrite ED, sent_app, sent_cons, E, <- app_assoc in P. apply app_inv_head in P. cbn [sent1 app] in P. injection P as <- P.
    exists (ds1 ++ [DSpurious f a x pkt]), ds3. split; [rewrite <- app_assoc; exact ED|]. left. rewrite sent_app, E, <- app_assoc. reflexivity.
Qed.
Lemma up_to_cross ds1 ds2 dsa dsb f a x y ds3 : ds1 ++ ds2 = dsa ++ dsb -> ds2 = DSpurious f a x y :: ds3 -> sent dsa = sent ds1 ++ [x] -> False.
Proof.
  intros ED -> E. apply app_eq_app in ED as (l & [[-> El]|[-> El]]); rewrite sent_app in E.
  - rewrite <- app_assoc in E. apply (f_equal (@length _)) in E. rewrite !app_length in E. cbn in E. lia.
  - apply app_inv_head in E. destruct l as [|d l]; [discriminate|]. injection El as <- _. rewrite sent_cons in E. discriminate.
Qed.
Lemma up_to_unique ds1 ds2 dsa dsb ps : ds1 ++ ds2 = dsa ++ dsb -> up_to ds1 ds2 ps -> up_to dsa dsb ps -> ds1 = dsa /\ ds2 = dsb.
Proof.
  intros ED U V. enough (ds1 = dsa) as -> by (apply app_inv_head in ED; auto).
  destruct U as [->|(f & a & x & y & ds3 & E2 & ->)], V as [E|(f' & a' & x' & y' & ds3' & E2' & E)].
  - eapply sent_inj; eauto.
  - elim (up_to_cross dsa dsb ds1 ds2 _ _ _ _ _ (eq_sym ED) E2' E).
  - elim (up_to_cross _ _ _ _ _ _ _ _ _ ED E2 (eq_sym E)).
  - apply app_inj_tail in E as [E _]. eapply sent_inj; eauto.
Qed.
Lemma midway_up_to t0 ds1 ds2 ps s : midway t0 ds1 ds2 ps s -> up_to ds1 ds2 ps.
Proof. intros (f & a & x & y & ds3 & E1 & E2 & _). right. exists f, a, x, y, ds3. auto. Qed.

Lemma messages_one x : messages_in [x] = match message_of x with Some m => [m] | None => [] end.
Proof. unfold messages_in. cbn. destruct (message_of x); reflexivity. Qed.
Lemma zones_true t0 ds z : zone_ok z -> does t0 ds -> zone_after z (zone_now t0 z) (messages_in (sent ds)) = zone_now (after t0 ds) z.
Proof.
  intros Hz. induction ds as [|d ds IH] using rev_ind; intros D; [reflexivity|].
  pose proof (D ds d [] eq_refl) as F. specialize (IH (does_app _ _ _ D)). rewrite sent_app, messages_in_app, zone_after_app, IH, after_app.
  change (sent [d]) with (sent1 d ++ []). rewrite app_nil_r. change (after (after t0 ds) [d]) with (after1 (after t0 ds) d).
  destruct d as [z' s x|a x|f a x y|zs x|x]; cbn [fits sent1 after1 zone_now] in *.
  - rewrite messages_one, F. unfold zone_after. cbn. rewrite (N.eqb_sym z z'). reflexivity.
  - rewrite messages_one, F. reflexivity.
  - destruct F as (F1 & F2 & _). change [x; y] with ([x] ++ [y]). rewrite messages_in_app, !messages_one, F1, F2. reflexivity.
  - destruct F as (F1 & F2). rewrite messages_one, F1. unfold zone_after. cbn [fold_left]. apply nth_error_nth. auto.
  - rewrite messages_one. destruct (message_of x) as [[]|]; try reflexivity; destruct F.
Qed.
Lemma zones_true_up_to t0 ds1 ds2 ps z : zone_ok z -> does t0 (ds1 ++ ds2) -> up_to ds1 ds2 ps -> zone_after z (zone_now t0 z) (messages_in ps) = zone_now (after t0 ds1) z.
Proof.
  intros Hz D [->|(f & a & x & y & ds3 & -> & ->)]; [apply zones_true; [exact Hz | eapply does_app; exact D]|].
  destruct (D ds1 _ ds3 eq_refl) as (F & _). rewrite messages_in_app, zone_after_app, zones_true, messages_one, F; [reflexivity | exact Hz | eapply does_app; exact D].
Qed.
Lemma last_two t0 ds rs r r' : does t0 ds -> reports_in (sent ds) = rs ++ [r; r'] -> became_fully_armed r r' ->
  exists dsa dsb, ds = dsa ++ dsb /\ r = arming_now (after t0 dsa).
Proof.
  revert rs. induction ds as [|d ds IH] using rev_ind; intros rs D; [destruct rs as [|? []]; discriminate|].
  pose proof (D ds d [] eq_refl) as F. pose proof (does_app _ _ _ D) as D1. specialize (IH rs D1). rewrite sent_app, reports_in_app. change (sent [d]) with (sent1 d ++ []). rewrite app_nil_r.
  assert (K : reports_in (sent1 d) = [] -> reports_in (sent ds) ++ reports_in (sent1 d) = rs ++ [r; r'] -> became_fully_armed r r' -> exists dsa dsb, ds ++ [d] = dsa ++ dsb /\ r = arming_now (after t0 dsa)).
  { intros ->. rewrite app_nil_r. intros E B. destruct (IH E B) as (dsa & dsb & -> & EA). exists dsa, (dsb ++ [d]). rewrite app_assoc. auto. }
  destruct d as [z s x|a x|f a x y|zs x|x]; cbn [fits sent1] in *.
  - apply K. eapply (arm_other x (None, None)). congruence.
  - rewrite (reports_as _ _ F). intros E B. change [r; r'] with ([r] ++ [r']) in E. rewrite app_assoc in E. apply app_inj_tail in E as [E ->].
    destruct (last_report t0 ds D1) as [LR|(rs' & LR)]; rewrite LR in E; [destruct rs; discriminate|]. apply app_inj_tail in E as [_ <-]. exists ds, [DArm r' x]. auto.
  - destruct F as (F1 & F2 & F3 & F4). change [x; y] with ([x] ++ [y]). rewrite reports_in_app, (reports_as _ _ F1), (reports_as _ _ F2). intros E B. cbn [app] in E.
    change [r; r'] with ([r] ++ [r']) in E. change [f; a] with ([f] ++ [a]) in E. rewrite !app_assoc in E. apply app_inj_tail in E as [E ->]. apply app_inj_tail in E as [_ ->].
    exfalso. destruct B as (area & mode & S1 & S2 & S3 & _). rewrite F4, S2 in S1. injection S1 as ->. cbn in S3. intuition discriminate.
  - apply K. eapply (arm_other x (None, None)). destruct F. congruence.
  - apply K. eapply (arm_other x (None, None)). intros a E. rewrite E in F. exact F.
Qed.
Lemma arm_run_none is : reports_in is = [] -> arm_run (None, None) (map Some is) = (None, None).
Proof.
  induction is as [|x is IH]; [reflexivity|]. change (x :: is) with ([x] ++ is). rewrite reports_in_app. intros E. apply app_eq_nil in E as [E1 E2].
  cbn [app map]. change (arm_run (None, None) (Some x :: map Some is)) with (arm_run (arm_step (None, None) (Some x)) (map Some is)).
  destruct (arm_other x (None, None)) as [_ ->]; [|auto]. intros a E. rewrite (reports_as _ _ E) in E1. discriminate.
Qed.
