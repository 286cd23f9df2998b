(* PropWatch.v: C94: everything `elkm1-cli watch` logs. *)
From Verif Require Import Base BaseFacts Pkt SpecPkt PktFacts DecodeFacts Msg SpecMsg DecFacts MsgFacts WireFacts IsoFacts
  PropMsg Tokio SpecConn ConnFacts State SpecState StateFacts RunFacts HistFacts ViewFacts ExState PropState PropSink
  Serde SerdeFacts PropSerde Mqtt SpecMqtt MqttFacts PropMqtt Cli SpecCli PropCli Fmt PropFmt Log SpecTrace PropTrace PropBridgeLog WatchLog SpecWatch.
From Coq Require Import ZifyBool ZifyNat ZifyN.
Ltac Zify.zify_post_hook ::= Z.div_mod_to_equations.

(* ---- the lines about changes ---- *)
Lemma zone_small p z s : pinv p -> zone_status_is p z s -> s < 16.
Proof.
  intros (_ & _ & ZI & _) (zs & E & N). apply zones_some in E. destruct (ZI _ E) as [_ F]. rewrite Forall_forall in F. apply F. eapply nth_error_In; eauto.
Qed.
Lemma line_says c l : log_line c = Ok l -> says_change c l.
Proof.
  destruct c as [n s s'|n s u a s' u' a']; cbn [log_line says_change].
  - intros E. apply bind_inv in E as (d & E1 & E). apply bind_inv in E as (d' & E2 & [= <-]). eauto.
  - intros [= <-]. reflexivity.
Qed.
Lemma changes_logged p p' e cs : pinv p -> pinv p' -> tells p p' e cs -> exists ls, mapM log_line cs = Ok ls /\ Forall2 says_change cs ls.
Proof.
  intros I I' (r & r' & zl & al & _ & _ & -> & (as_ & _ & _ & FA) & Z).
  assert (G : exists ls, Forall2 (fun c l => log_line c = Ok l) (zl ++ al) ls).
  { assert (GA : exists ls, Forall2 (fun c l => log_line c = Ok l) al ls).
    { clear Z. induction FA as [|x c xs cs H FA IH]; [exists []; constructor|]. destruct IH as (ls & F). destruct H as (name & shown & s & u & a & s' & u' & a' & _ & _ & _ & _ & ->).
      eexists (_ :: ls). constructor; [reflexivity | exact F]. }
    destruct GA as (ls & F). destruct Z as [(zone & prior & new & name & shown & _ & Z1 & Z2 & _ & _ & _ & ->)|[_ ->]]; [|exists ls; exact F].
    eexists (_ :: ls). constructor; [|exact F]. cbn [log_line]. rewrite (status_dbg _ (zone_small _ _ _ I Z1)), (status_dbg _ (zone_small _ _ _ I' Z2)). reflexivity. }
  destruct G as (ls & F). exists ls. split; [apply mapM_ok; exact F|]. clear -F. induction F; constructor; auto using line_says.
Qed.
Lemma change_is c l : says_change c l -> en_level l = Info /\ is_change l = true /\ is_seen l = false /\ library_line l = false /\ String.eqb (en_text l) "tracking changes" = false.
Proof. destruct c; cbn [says_change]; [intros (d & d' & _ & _ & ->) | intros ->]; repeat split. Qed.
Lemma seen_is e l : says_seen e l -> en_level l = Debug /\ is_change l = false /\ is_seen l = true /\ library_line l = false /\ String.eqb (en_text l) "tracking changes" = false.
Proof. intros (d & _ & ->). repeat split. Qed.
Lemma changes_filtered cs ls : Forall2 says_change cs ls -> filter is_change ls = ls /\ filter is_seen ls = [] /\ filter library_line ls = [] /\ about "tracking changes" ls = [].
Proof.
  intros F. induction F as [|c l cs ls H F (I1 & I2 & I3 & I4)]; [repeat split|]. destruct (change_is _ _ H) as (_ & C1 & C2 & C3 & C4).
  unfold about in *. cbn [filter]. rewrite C1, C2, C3, C4, I1, I2, I3, I4. repeat split.
Qed.
(* the library's lines *)
Definition foreign_line (l : entry) : Prop := In (en_text l) run_texts \/ In (en_text l) irun_texts.
Lemma library_filtered ls : Forall foreign_line ls -> Forall (fun l => en_text l = "received packet"%string -> en_level l = Trace) ls ->
  filter is_change ls = [] /\ filter is_seen ls = [] /\ filter library_line ls = ls /\ about "tracking changes" ls = [].
Proof.
  intros F T. induction F as [|l ls H F IH]; [repeat split|]. inversion T as [|? ? T1 T2]; subst. destruct (IH T2) as (I1 & I2 & I3 & I4).
  assert (C : is_change l = false /\ String.eqb (en_text l) "tracking changes" = false).
  { unfold is_change. destruct H as [H|H]; unfold run_texts, irun_texts, arming_texts in H; cbn [In app] in H; repeat (destruct H as [E|H]; [rewrite <- E; split; reflexivity|]); elim H. }
  assert (S : is_seen l = false).
  { unfold is_seen. destruct (en_level l) eqn:EL; auto. destruct (String.eqb_spec (en_text l) "received packet") as [E|]; auto. specialize (T1 E). congruence. }
  destruct C as [C1 C2]. unfold about, library_line in *. cbn [filter]. rewrite C1, S, C2, I1, I2, I3, I4. cbn [orb negb]. repeat split.
Qed.
Lemma received_trace ps ls : Forall2 says_received ps (about "received packet" ls) -> Forall (fun l => en_text l = "received packet"%string -> en_level l = Trace) ls.
Proof.
  intros F. apply Forall_forall. intros l Hl E. assert (IA : In l (about "received packet" ls)) by (apply filter_In; split; [exact Hl | rewrite E; reflexivity]).
  clear -F IA. induction F as [|p x ps xs H F IH]; [elim IA|]. destruct IA as [<-|IA]; [rewrite H; reflexivity | auto].
Qed.
Lemma connecting_lines h p ls : Forall iop_ok h -> irun conn_new h = IDone p -> log_irun h = Ok ls ->
  Forall foreign_line ls /\ Forall (fun l => en_text l = "received packet"%string -> en_level l = Trace) ls /\ Forall tame ls.
Proof.
  intros HO E L. destruct (C86_connecting_recorded h HO) as (ls' & L' & T & F). assert (ls' = ls) as -> by congruence. split; [|split; [|exact T]].
  - eapply Forall_impl; [|eapply texts_irun; eauto]. intros l H. right. exact H.
  - destruct (F p (or_introl E)) as (ps & (R & _)). eapply received_trace; eauto.
Qed.
Lemma poll_lines now p p' r ls : poll_says p p' r ls -> log_poll_next now p = Ok ls ->
  Forall foreign_line ls /\ Forall (fun l => en_text l = "received packet"%string -> en_level l = Trace) ls /\ Forall tame ls.
Proof.
  intros S L. split; [|].
  - assert (LR : log_step p (PollNext now) = Ok ls) by exact L. eapply Forall_impl; [|eapply texts_step; eauto]. intros l H. left. exact H.
  - assert (R : forall pkt l, says_received pkt l -> (en_text l = "received packet"%string -> en_level l = Trace) /\ tame l) by (intros pkt l ->; split; [reflexivity | discriminate]).
    inversion S as [N E|e a x l Y EP A H A' H' D E|e pkt a x l l' Y EP BR A BF H A' H' RC D E|e pkt a m x l l' Y EP BR A BF H A' H' RC D E|e pkt l Y EP BF RC E]; subst ls.
    + split; constructor.
    + split; constructor; try constructor; [destruct D as (f & g & _ & _ & ->); discriminate | intros _; exists a, x; auto].
    + destruct (R _ _ RC) as [R1 R2]. split; constructor; auto; constructor; try constructor; [destruct D as (f & g & _ & _ & ->); discriminate | destruct D as (f & g & _ & _ & ->); discriminate].
    + destruct (R _ _ RC) as [R1 R2]. split; constructor; auto; constructor; try constructor; [destruct D as (f & g & k & _ & _ & _ & ->); discriminate | intros _; exists a, x; right; exists m; exact D].
    + destruct (R _ _ RC) as [R1 R2]. split; constructor; auto.
Qed.

(* ---- steps ---- *)
Lemma log_wsteps_snoc h o : forall w ls l, log_wsteps w h = Ok ls -> log_wstep (fold_left wstep h w) o = Ok l -> log_wsteps w (h ++ [o]) = Ok (ls ++ l).
Proof.
  induction h as [|j h IH]; intros w ls l E1 E2; cbn [log_wsteps app fold_left] in *.
  - injection E1 as <-. rewrite E2. cbn [bind app]. rewrite app_nil_r. reflexivity.
  - apply bind_inv in E1 as (l1 & -> & E1). apply bind_inv in E1 as (l2 & E1 & [= <-]). rewrite (IH _ _ _ E1 E2). cbn [bind]. rewrite app_assoc. reflexivity.
Qed.
Lemma log_wrun_snoc h o ls l : log_wrun h = Ok ls -> log_wstep (watch h) o = Ok l -> log_wrun (h ++ [o]) = Ok (ls ++ l).
Proof.
  unfold log_wrun. intros E1 E2. apply bind_inv in E1 as (l1 & -> & E1). apply bind_inv in E1 as (l2 & E1 & [= <-]). cbn [bind].
  rewrite (log_wsteps_snoc _ _ _ _ _ E1 E2). cbn [bind]. rewrite app_assoc. reflexivity.
Qed.
Lemma watch_snoc h o : watch (h ++ [o]) = wstep (watch h) o.
Proof. unfold watch. rewrite fold_left_app. reflexivity. Qed.
(* what watch has logged in the loop, and that it is the library's lines for the calls made plus its own *)
Definition looping (h : list iop) (p : Panel) (cs : list line) (es : list entry) : Prop :=
  exists h0 h1 p0 bs l0 l1 rest, h = h0 ++ h1 /\ irun conn_new h0 = IDone p0 /\ log_irun h0 = Ok l0 /\ es = l0 ++ tracking :: rest /\
    diary p0 h1 p cs rest /\ run p0 (map as_op h1) = Ok (p, bs) /\ log_run p0 (map as_op h1) = Ok l1 /\
    filter library_line rest = l1 /\ Forall2 says_seen (events bs) (filter is_seen rest) /\ Forall2 says_change cs (filter is_change rest) /\
    about "tracking changes" rest = [] /\ Forall (fun l => loud l = true -> is_change l = true \/ tame l) rest.
Definition ended (h : list iop) (cs : list line) (es : list entry) : Prop :=
  exists h1 h2, h = h1 ++ h2 /\
    ((cs = [] /\ log_irun h1 = Ok es /\ ((exists e, irun conn_new h1 = IFail e) \/ (exists why, irun conn_new h1 = ICrash why))) \/
     (exists p, watch h1 = WLoop p cs /\ log_wrun h1 = Ok es)).
Lemma ended_more h o cs es : ended h cs es -> ended (h ++ [o]) cs es.
Proof. intros (h1 & h2 & -> & H). exists h1, (h2 ++ [o]). split; [symmetry; apply app_assoc | exact H]. Qed.
Lemma watch_logged h : Forall iop_ok h -> exists es, log_wrun h = Ok es /\
  match watch h with
  | WConnecting i => irun conn_new h = i /\ log_irun h = Ok es
  | WLoop p cs => looping h p cs es
  | WDone cs | WCrash cs _ => ended h cs es
  end.
Proof.
  induction h as [|o h IH] using rev_ind; intros HO.
  - destruct (stage_line St_as) as (l & E & _). exists [l]. unfold log_wrun, log_irun. rewrite E. repeat split.
  - apply Forall_app in HO as [HO Ho]. inversion Ho as [|? ? Ho' _]; subst. destruct (IH HO) as (es & EL & ST). rewrite watch_snoc.
    pose proof (watch_up h HO) as WU. pose proof (irun_inv h HO) as II.
    destruct (watch h) as [i|p cs|cs|cs why] eqn:EW.
    + destruct ST as [EI LI]. destruct WU as [_ (s & ph & q & ->)]. destruct o as [a|now ws].
      * exists es. split; [rewrite <- (app_nil_r es); apply log_wrun_snoc; [exact EL | rewrite EW; reflexivity]|]. cbn [wstep].
        split; [rewrite irun_step, EI; reflexivity|]. rewrite <- (app_nil_r es). apply log_irun_snoc; [exact LI | reflexivity].
      * rewrite EI in II. destruct (istep_took now ws _ II) as (l & L & _).
        assert (LI' : log_irun (h ++ [IStep now ws]) = Ok (es ++ l)) by (apply log_irun_snoc; [exact LI | rewrite EI; exact L]).
        assert (EI' : irun conn_new (h ++ [IStep now ws]) = istep now ws (IRun s ph q)) by (rewrite irun_step, EI; reflexivity).
        eexists. split; [apply log_wrun_snoc; [exact EL | rewrite EW; cbn [log_wstep]; rewrite L; cbn [bind]; reflexivity]|]. cbn [wstep].
        destruct (istep now ws (IRun s ph q)) as [s1 ph1 p1|p1|e1|w1] eqn:E1; rewrite ?app_nil_r.
        -- auto.
        -- exists (h ++ [IStep now ws]), [], p1, [], (es ++ l), [], []. rewrite app_nil_r, <- app_assoc. repeat split; auto; constructor.
        -- exists (h ++ [IStep now ws]), []. rewrite app_nil_r. split; [reflexivity|]. left. eauto.
        -- exists (h ++ [IStep now ws]), []. rewrite app_nil_r. split; [reflexivity|]. left. eauto.
    + destruct (reachable_inv _ WU) as [I U]. assert (ST' := ST). destruct ST as (h0 & h1 & p0 & bs & l0 & l1 & rest & EH & E0 & L0 & ES & DI & RN & LR & FL & FS & FC & FT & LD).
      destruct o as [a|now ws].
      * exists es. split; [rewrite <- (app_nil_r es); apply log_wrun_snoc; [exact EL | rewrite EW; reflexivity]|]. cbn [wstep].
        exists h0, (h1 ++ [IArrive a]), p0, (bs ++ [ONone]), l0, (l1 ++ []), rest. split; [rewrite EH; symmetry; apply app_assoc|]. do 3 (split; [assumption|]).
        split; [apply Di_arrive; exact DI|]. rewrite map_app. split; [rewrite run_app, RN; reflexivity|]. split; [eapply log_run_app; eauto; reflexivity|].
        rewrite events_app, !app_nil_r. auto.
      * destruct (C54_watch_logs_the_changes _ _ _ now ws HO EW) as (p' & r & w & EN & M). rewrite watch_snoc, EW in M.
        destruct (C87_poll_logs_exactly _ _ _ _ _ WU EN) as (l & LP & SP).
        assert (RN' : run p0 (map as_op (h1 ++ [IStep now ws])) = Ok (p', bs ++ [ONext r w])) by (rewrite map_app, run_app, RN; cbn; rewrite EN; reflexivity).
        assert (LR' : log_run p0 (map as_op (h1 ++ [IStep now ws])) = Ok (l1 ++ l)).
        { rewrite map_app. eapply log_run_app; eauto. cbn. rewrite LP. cbn [bind]. rewrite EN. cbn [bind]. rewrite app_nil_r. reflexivity. }
        destruct (poll_lines _ _ _ _ _ SP LP) as (P1 & P2 & P3). destruct (library_filtered _ P1 P2) as (Q1 & Q2 & Q3 & Q4).
        assert (STOP : forall e, ~ yields r e -> True) by auto.
        assert (NOL : (forall e, ~ yields r e) -> l = []) by (intros N; inversion SP; subst; auto; exfalso; eapply N; eauto).
        destruct r as [|[[e|e]|]].
        -- rewrite (NOL ltac:(intros e; discriminate)) in *. exists es. split; [rewrite <- (app_nil_r es); apply log_wrun_snoc; [exact EL | rewrite EW; cbn [log_wstep]; rewrite LP, EN; reflexivity]|].
           rewrite M. exists h0, (h1 ++ [IStep now ws]), p0, (bs ++ [ONext Pending w]), l0, (l1 ++ []), rest. split; [rewrite EH; symmetry; apply app_assoc|]. do 3 (split; [assumption|]).
           split; [eapply Di_wait; eauto|]. do 2 (split; [assumption|]). rewrite events_app, !app_nil_r. auto.
        -- destruct M as (cs' & M & TL). assert (I' : pinv p') by (apply reachable_inv; eapply reachable_poll; eauto).
           destruct (changes_logged _ _ _ _ I I' TL) as (l3 & LC & F3). destruct (C62_events_written _ _ _ _ _ e WU EN eq_refl) as (d & ED).
           assert (WE : watch_event p' e = Ok cs').
           { cbn [wstep] in M. rewrite EN in M. destruct (watch_event p' e) as [x|x|x]; try discriminate M. injection M as M. f_equal. eapply app_inv_head; eauto. }
           set (l2 := mkEntry Debug "received packet" [("pkt"%string, ByDebug d)]).
           assert (SS : says_seen e l2) by (exists d; auto).
           exists (es ++ l ++ l2 :: l3). split; [apply log_wrun_snoc; [exact EL | rewrite EW; cbn [log_wstep]; rewrite LP; cbn [bind]; rewrite EN; unfold log_watch_event; rewrite ED; cbn [bind]; rewrite WE; cbn [bind]; rewrite LC; reflexivity]|].
           rewrite M. destruct (changes_filtered _ _ F3) as (C1 & C2 & C3 & C4). destruct (seen_is _ _ SS) as (_ & S1 & S2 & S3 & S4).
           exists h0, (h1 ++ [IStep now ws]), p0, (bs ++ [ONext (Ready (Some (IoOk e))) w]), l0, (l1 ++ l), (rest ++ l ++ l2 :: l3).
           split; [rewrite EH; symmetry; apply app_assoc|]. do 2 (split; [assumption|]). split; [rewrite ES, <- app_assoc; reflexivity|].
           split; [eapply Di_event; eauto|]. do 2 (split; [assumption|]). unfold about in *. rewrite !filter_app. cbn [filter]. rewrite S1, S2, S3, S4, C1, C2, C3, C4, Q1, Q2, Q3, Q4, FL, FT, events_app. rewrite app_nil_r. cbn [app].
           split; [reflexivity|]. split; [apply Forall2_app; [exact FS | constructor; [exact SS | constructor]]|]. split; [apply Forall2_app; assumption|]. split; [reflexivity|].
           apply Forall_app. split; [exact LD|]. apply Forall_app. split; [eapply Forall_impl; [|exact P3]; auto|]. constructor; [discriminate|].
           clear -F3. induction F3 as [|c x cs xs H F IH]; constructor; auto. intros _. left. apply (change_is _ _ H).
        -- rewrite (NOL ltac:(intros e'; discriminate)) in *. exists es. split; [rewrite <- (app_nil_r es); apply log_wrun_snoc; [exact EL | rewrite EW; cbn [log_wstep]; rewrite LP, EN; reflexivity]|].
           rewrite M. exists h, [IStep now ws]. split; [reflexivity|]. right. eauto.
        -- rewrite (NOL ltac:(intros e'; discriminate)) in *. exists es. split; [rewrite <- (app_nil_r es); apply log_wrun_snoc; [exact EL | rewrite EW; cbn [log_wstep]; rewrite LP, EN; reflexivity]|].
           rewrite M. exists h, [IStep now ws]. split; [reflexivity|]. right. eauto.
    + exists es. split; [rewrite <- (app_nil_r es); apply log_wrun_snoc; [exact EL | rewrite EW; destruct o; reflexivity]|]. destruct o; apply ended_more; exact ST.
    + exists es. split; [rewrite <- (app_nil_r es); apply log_wrun_snoc; [exact EL | rewrite EW; destruct o; reflexivity]|]. destruct o; apply ended_more; exact ST.
Qed.

(* ---- C94 ---- *)
(* Whatever happens, no line panics.  While connecting, the log is that of connecting; then comes "tracking changes"; then, event by event,
   the library's lines, the line of the event, and the changes.  Nothing is logged when watch ends, for whatever reason. *)
Theorem C94_whole_log : forall h, Forall iop_ok h -> exists es, log_wrun h = Ok es /\
  match watch h with
  | WConnecting i => log_irun h = Ok es
  | WLoop p cs => exists h0 h1 p0 l0 rest, h = h0 ++ h1 /\ irun conn_new h0 = IDone p0 /\ log_irun h0 = Ok l0 /\
      es = l0 ++ tracking :: rest /\ diary p0 h1 p cs rest
  | WDone cs | WCrash cs _ => exists h1 h2, h = h1 ++ h2 /\
      ((cs = [] /\ log_irun h1 = Ok es /\ ((exists e, irun conn_new h1 = IFail e) \/ (exists why, irun conn_new h1 = ICrash why))) \/
       (exists p, watch h1 = WLoop p cs /\ log_wrun h1 = Ok es))
  end.
Proof.
  intros h HO. destruct (watch_logged h HO) as (es & EL & ST). exists es. split; [exact EL|]. destruct (watch h) as [i|p cs|cs|cs why].
  - apply ST.
  - destruct ST as (h0 & h1 & p0 & bs & l0 & l1 & rest & EH & E0 & L0 & ES & DI & _). exists h0, h1, p0, l0, rest. auto.
  - exact ST.
  - exact ST.
Qed.
(* While watch tracks changes, "tracking changes" was logged once; the library's lines are those of C86 and C87 for the calls made; the
   events are shown one by one; and so are the changes of C54.  Shown by default (INFO): the changes, "tracking changes" and the
   library's two warnings. *)
Theorem C94_lines_by_kind : forall h p cs, Forall iop_ok h -> watch h = WLoop p cs ->
  exists es h0 h1 p0 bs l0 l1, log_wrun h = Ok es /\ h = h0 ++ h1 /\ irun conn_new h0 = IDone p0 /\ run p0 (map as_op h1) = Ok (p, bs) /\
    log_irun h0 = Ok l0 /\ log_run p0 (map as_op h1) = Ok l1 /\
    filter library_line es = l0 ++ l1 /\ Forall2 says_seen (events bs) (filter is_seen es) /\ Forall2 says_change cs (filter is_change es) /\
    about "tracking changes" es = [tracking] /\ Forall (fun l => loud l = true -> l = tracking \/ is_change l = true \/ tame l) es.
Proof.
  intros h p cs HO EW. destruct (watch_logged h HO) as (es & EL & ST). rewrite EW in ST.
  destruct ST as (h0 & h1 & p0 & bs & l0 & l1 & rest & EH & E0 & L0 & ES & DI & RN & LR & FL & FS & FC & FT & LD).
  exists es, h0, h1, p0, bs, l0, l1. do 6 (split; [assumption|]). assert (HO0 : Forall iop_ok h0) by (rewrite EH in HO; apply Forall_app in HO; apply HO).
  destruct (connecting_lines _ _ _ HO0 E0 L0) as (P1 & P2 & P3). destruct (library_filtered _ P1 P2) as (Q1 & Q2 & Q3 & Q4).
  subst es. unfold about in *. rewrite !filter_app. cbn [filter tracking library_line is_change is_seen en_text en_level String.eqb negb orb]. rewrite Q1, Q2, Q3, Q4. cbn.
  rewrite FL, FT. split; [reflexivity|]. split; [exact FS|]. split; [exact FC|]. split; [reflexivity|]. apply Forall_app. split; [eapply Forall_impl; [|exact P3]; auto|].
  constructor; [auto|]. eapply Forall_impl; [|exact LD]. intros l H E. right. apply H. exact E.
Qed.
(* A line about a change is that of no other change. *)
Lemma status_written s d : ZoneStatus_dbg s = Ok d -> s < 16 /\ d = status_words s.
Proof.
  intros E. destruct (N.lt_ge_cases s 16) as [H|H]; [split; [exact H|]; rewrite (status_dbg _ H) in E; congruence|]. destruct (status_dbg_panics _ H) as (w & X). congruence.
Qed.
Theorem C94_change_identified : forall c c' l, says_change c l -> says_change c' l -> c = c'.
Proof.
  intros [n s s'|n s u a s' u' a'] [m t t'|m t v b t' v' b'] l; cbn [says_change].
  - intros (d & d' & E1 & E2 & ->) (k & k' & E3 & E4 & E). apply status_written in E1 as [H1 ->], E2 as [H2 ->], E3 as [H3 ->], E4 as [H4 ->].
    assert (W : status_words s = status_words t) by congruence. assert (W' : status_words s' = status_words t') by congruence.
    apply status_words_inj in W; auto. apply status_words_inj in W'; auto. congruence.
  - intros (d & d' & _ & _ & ->). discriminate.
  - intros -> (d & d' & _ & _ & E). discriminate.
  - intros -> E. assert (X1 : ArmingStatus_dbg s = ArmingStatus_dbg t) by congruence. assert (X2 : ArmingStatus_dbg s' = ArmingStatus_dbg t') by congruence.
    assert (X3 : ArmUpState_dbg u = ArmUpState_dbg v) by congruence. assert (X4 : ArmUpState_dbg u' = ArmUpState_dbg v') by congruence.
    assert (X5 : AlarmState_dbg a = AlarmState_dbg b) by congruence. assert (X6 : AlarmState_dbg a' = AlarmState_dbg b') by congruence.
    apply ArmingStatus_dbg_inj in X1, X2. apply ArmUpState_dbg_inj in X3, X4. apply AlarmState_dbg_inj in X5, X6. congruence.
Qed.

(* ---- examples ---- *)
(* the run of C54_example: connecting, two events with a change and one without; the last event changes the exit time only *)
Lemma ex_watching : Forall iop_ok ex_watch.
Proof. apply Forall_app. split; [exact ex_init_ok|]. constructor; [vm_compute; repeat constructor|]. repeat (constructor; [exact Logic.I|]). constructor. Qed.
Example C94_example : Forall iop_ok ex_watch /\ match watch ex_watch with WLoop _ cs => length cs = 2%nat | _ => False end /\
  skipn 30 (brief (log_wrun ex_watch)) =
    [(Info, "tracking changes"); (Trace, "received packet"); (Debug, "received packet"); (Info, "arming status change");
     (Trace, "received packet"); (Debug, "received packet"); (Info, "zone change"); (Trace, "received packet"); (Debug, "received packet")]%string.
Proof. split; [exact ex_watching|]. split; vm_compute; reflexivity. Qed.
(* a line as it is *)
Example C94_example_line :
  nth_error (match log_wrun ex_watch with Ok es => filter is_change es | _ => [] end) 1 =
  Some (mkEntry Info "zone change" [("zone.name"%string, ByDisplay (B "Front DoorKeypad"));
    ("prior.state"%string, ByDebug (DTuple "ZoneStatus" [DWord "Violated"; DWord "Open"])); ("new.state"%string, ByDebug (DTuple "ZoneStatus" [DWord "Normal"; DWord "EOL"]))]).
Proof. vm_compute. reflexivity. Qed.
(* connecting fails: nothing but its own lines *)
Example C94_example_fails :
  match watch [IStep 0 []; IArrive PeerClose; IStep 1 [WAccept 100]; IStep 2 [WAccept 100]; IStep 3 []] with WCrash cs _ => cs = [] | _ => False end /\
  brief (log_wrun [IStep 0 []; IArrive PeerClose; IStep 1 [WAccept 100]; IStep 2 [WAccept 100]; IStep 3 []]) = [(Debug, "sending initialization message"); (Trace, "sending packet")]%string.
Proof. vm_compute. split; reflexivity. Qed.

Print Assumptions C94_whole_log.
Print Assumptions C94_lines_by_kind.
Print Assumptions C94_change_identified.
