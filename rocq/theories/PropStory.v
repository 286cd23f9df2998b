(* PropStory.v: C106, what `elkm1-cli watch` tells; C107, how it ends (elkm1-cli/src/main.rs:18-58). *)
From Coq Require Import Sorting.Sorted.
From Verif Require Import Base BaseFacts Pkt SpecPkt PktFacts DecodeFacts Msg SpecMsg DecFacts MsgFacts WireFacts IsoFacts
  Tokio SpecConn ConnFacts OwedFacts PairFacts State SpecState StateFacts RunFacts HistFacts ViewFacts SpecInit SpecFail ExState PropState PropFail Cli SpecCli PropCli SpecStory.
From Coq Require Import ZifyBool ZifyNat ZifyN.
Ltac Zify.zify_post_hook ::= Z.div_mod_to_equations.

(* ---- one event ---- *)
Lemma same_names_trans p q r : same_names p q -> same_names q r -> same_names p r.
Proof. unfold same_names. intuition congruence. Qed.
Lemma poll_names now p p' r w : poll_case now p p' r w -> same_names p p'.
Proof. intros [pkt m e w' _ _ _ _ _ S _ _|pkt e _ _ _ _ _ -> _ _|d m prior _ _ _ _ _ _ ->|r' _ _ _ ->]; [exact S | repeat split..]. Qed.
Lemma packets_one e : packets [e] = match e_pkt e with Some pkt => [pkt] | None => [] end.
Proof. unfold packets. cbn. destruct (e_pkt e); reflexivity. Qed.
Lemma messages_in_one pkt : messages_in [pkt] = match message_of pkt with Some m => [m] | None => [] end.
Proof. unfold messages_in. cbn. destruct (message_of pkt); reflexivity. Qed.
Lemma poll_zones now p p' w e ms : poll_case now p p' (ev e) w -> pinv p -> zones_from p ms -> zones_from p' (ms ++ messages_in (packets [e])).
Proof.
  intros PC I Z. rewrite packets_one. inversion PC as [pkt m e0 w0 D K EP EM E1 S M R|pkt e0 D K EP EM E1 S C1 C2|d m prior D U X EP ED EA S|r' NE]; subst; try (elim (NE e); reflexivity).
  - rewrite EP, messages_in_one. unfold message_of. rewrite EM. eapply effect_zones_from; [exact M | | exact Z]. eapply parsed_wf; eauto.
  - rewrite EP, messages_in_one, EM, app_nil_r, S. exact Z.
  - change (e_pkt (deferred_event prior)) with (@None packet). cbn [app]. unfold messages_in. cbn. rewrite app_nil_r, S. exact Z.
Qed.
Lemma no_lines p r ls : (exists as_, StronglySorted N.lt as_ /\ (forall area, In area as_ <-> 1 <= area <= 8 /\ area_differs r r area) /\ Forall2 (area_line p r r) as_ ls) -> ls = [].
Proof.
  intros (as_ & _ & H & F). destruct as_ as [|a as_]; [inversion F; reflexivity|]. destruct (proj1 (H a) (or_introl eq_refl)) as [_ D]. elim (differs_irrefl _ _ D).
Qed.
Lemma event_told now p0 p p' w e ls before : poll_case now p p' (ev e) w -> pinv p -> up p -> same_names p0 p -> zones_from p (messages_in before) -> tells p p' e ls ->
  exists r r' zl al, status_is p r /\ status_is p' r' /\ ls = zl ++ al /\ zone_part p0 before e zl /\ arming_part p0 r (held p) e al r' (held p').
Proof.
  intros PC I U SN Z (r & r' & zl & al & S & S' & EL & AL & ZL). exists r, r', zl, al. split; [exact S|]. split; [exact S'|]. split; [exact EL|].
  assert (PN : panel_area_names p = panel_area_names p0) by apply SN. assert (ZN : forall z, panel_zone_name p z = panel_zone_name p0 z) by (intros z; unfold panel_zone_name; rewrite (proj1 SN); reflexivity).
  assert (AL0 : area_lines p0 r r' al) by (unfold area_lines, area_line in *; rewrite PN in AL; exact AL).
  pose proof (poll_event _ _ _ _ _ _ PC eq_refl) as EV. split.
  - unfold zone_part. destruct EV as [(pkt & m & EP & EM & W & E1 & _ & M & _)|[(pkt & EP & EM & E1 & _)|(d & m & prior & -> & _)]].
    + rewrite EP. unfold message_of. rewrite EM. destruct m; try (destruct ZL as [(z & pr & nw & n & sh & X & _)|[_ ZL]]; [congruence | exact ZL]).
      destruct m as [z new]. cbn in W. destruct W as [Wz _]. destruct U as [_ (zs & U)].
      assert (HP : forall prior, zone_status_is p z prior -> forall s, zone_after z s (messages_in before) = prior).
      { intros prior (zs2 & Z1 & Z2) s. apply zones_some in Z1. specialize (Z zs2 Z1 z Wz s). congruence. }
      destruct ZL as [(z1 & pr & nw & n & sh & X & Z1 & _ & NE & NM & TR & ZL)|[H ZL]].
      * rewrite E1 in X. injection X as <- <-. exists pr. split; [exact (HP _ Z1)|]. right. split; [exact NE|]. exists n, sh. rewrite <- ZN. auto.
      * exists new. assert (ZS : zone_status_is p z (zone_after z 0 (messages_in before))) by (exists zs; split; [apply zones_some; exact U | apply (Z zs U z Wz)]).
        split; [|auto]. rewrite <- (H _ _ _ E1 ZS). exact (HP _ ZS).
    + rewrite EP, EM. destruct ZL as [(z & pr & nw & n & sh & X & _)|[_ ZL]]; [|exact ZL]. exfalso. rewrite E1 in X. unfold parse_result in X. unfold message_of in EM. destruct (parse pkt) as [[m|]|er|why]; congruence.
    + destruct ZL as [(z & pr & nw & n & sh & X & _)|[_ ZL]]; [discriminate X | exact ZL].
  - destruct (event_arming _ _ _ _ _ _ PC eq_refl I U) as (a & a' & A & A' & H). unfold status_is in *. rewrite S in A. injection A as <-. rewrite S' in A'. injection A' as <-.
    unfold arming_part. destruct H as [(x & EX & RX & _ & H)|[(EN & d & x & HP & _ & -> & NE & HP' & _)|(NN & RX & -> & HP & _)]].
    + destruct EV as [(pkt & m & EP & EM & W & E1 & _)|[(pkt & EP & EM & E1 & _)|(d & m & prior & -> & _)]]; [|exfalso; rewrite E1 in EX; unfold parse_result in EX; unfold message_of in EM; destruct (parse pkt) as [[m|]|er|why]; congruence | discriminate EX].
      rewrite EP. unfold message_of. rewrite EM. rewrite E1 in EX. injection EX as ->.
      destruct H as [(H1 & H2 & -> & H4 & _)|(H1 & -> & H3 & _)].
      * left. unfold held at 2. rewrite H4. repeat split; auto. eapply no_lines, AL.
      * right. unfold held at 2. rewrite H3. auto.
    + rewrite EN. unfold held. rewrite HP, HP'. auto.
    + assert (EH : held p' = held p) by (unfold held; rewrite HP; reflexivity). pose proof (no_lines _ _ _ AL) as ->.
      destruct EV as [(pkt & m & EP & EM & W & E1 & _)|[(pkt & EP & EM & E1 & _)|(d & m & prior & -> & _)]]; [| |elim NN; reflexivity]; rewrite EP in *.
      * unfold message_of. rewrite EM. change (catMaybes [Some pkt]) with [pkt] in RX. rewrite (reports_msg _ _ EM) in RX. destruct m; try discriminate RX; auto.
      * rewrite EM. auto.
Qed.

(* ---- since it has connected ---- *)
(* the packets ps were received while connecting, ending with p0; D has arrived altogether, es are the events since and log the lines *)
Definition telling (p0 : Panel) (ps : list packet) (D : bytes) (p : Panel) (es : list Event) (log : list line) : Prop :=
  u8s D /\ pinv p /\ up p /\ takes D (ps ++ packets es) (unread (p_conn p)) /\ same_names p0 p /\
  seen p (reports_in (ps ++ packets es)) /\ zones_from p (messages_in (ps ++ packets es)) /\
  exists r0 r, status_is p0 r0 /\ status_is p r /\ narrates p0 ps r0 (held p0) es log r (held p).
Lemma telling_start h p0 : Forall iop_ok h -> irun conn_new h = IDone p0 -> exists ps, telling p0 ps (iarrived h) p0 [] [].
Proof.
  intros HO E. destruct (connected_viewed _ _ HO E) as (ps & T & L & Z). exists ps. destruct (reachable_inv p0) as [I U]; [apply connected_reachable; exists h; auto|].
  unfold telling. change (packets []) with (@nil packet). rewrite !app_nil_r. split; [apply iarrived_u8; exact HO|]. do 4 (split; [assumption || apply same_names_refl|]). split; [exact L|]. split; [exact Z|].
  destruct U as [(r & U) _]. apply status_some in U. exists r, r. split; [exact U|]. split; [exact U | constructor].
Qed.
Lemma telling_arrive p0 ps D p es log a : arrival_u8 a -> telling p0 ps D p es log -> telling p0 ps (D ++ arrival_data a) (with_conn p (arrive (p_conn p) a)) es log.
Proof.
  intros Ua (UD & I & U & T & S & L & Z & N). assert (Ud : u8s (arrival_data a)) by (destruct a; [exact Ua | constructor | constructor]).
  split; [apply u8s_app; auto|]. split; [apply with_conn_inv; auto; apply arrive_inv; [apply I | exact Ua]|]. split; [exact U|]. split; [|auto].
  cbn [with_conn p_conn]. rewrite arrive_unread. apply takes_more; auto.
Qed.
Lemma seen_poll now p p' w e rs : poll_case now p p' (ev e) w -> seen p rs -> seen p' (rs ++ reports_in (packets [e])).
Proof.
  intros PC Q. rewrite packets_one. destruct (poll_event _ _ _ _ _ _ PC eq_refl) as [(pkt & m & EP & EM & W & E1 & _ & M & _)|[(pkt & EP & EM & E1 & -> & _)|(d & m & prior & -> & HP & _ & HA & -> & _)]].
  - rewrite EP, (reports_msg _ _ EM). eapply effect_seen; eauto.
  - rewrite EP, (reports_not _ EM), app_nil_r. exact Q.
  - cbn. rewrite app_nil_r. unfold seen, held in *. rewrite HP in Q. cbn in *. destruct Q as (rs' & -> & _). rewrite map_app. cbn [map]. rewrite last_snoc. reflexivity.
Qed.
(* a poll, and what watch does then *)
Lemma telling_poll p0 ps D p es log now : telling p0 ps D p es log -> exists p' r w, poll_next now p = Ok (p', r, w) /\ poll_case now p p' r w /\
  match r with
  | Ready (Some (IoOk e)) => exists ls, watch_event p' e = Ok ls /\ telling p0 ps D p' (es ++ [e]) (log ++ ls)
  | _ => telling p0 ps D p' es log
  end.
Proof.
  intros (UD & I & U & T & S & L & Z & r0 & r & R0 & R & N). destruct (poll_next_spec now p I) as (p' & q & w & E & I' & P). pose proof (polled_case _ _ _ _ _ P I) as PC.
  exists p', q, w. split; [exact E|]. split; [exact PC|]. destruct (step_inv p (PollNext now) p' (ONext q w) I Logic.I) as [_ ST]; [cbn [step]; rewrite E; reflexivity|].
  pose proof (up_step _ _ _ _ ST I U) as U'. pose proof (same_names_trans _ _ _ S (poll_names _ _ _ _ _ PC)) as S'.
  assert (G : (forall e, ~ yields q e) -> telling p0 ps D p' es log).
  { intros NE. destruct (poll_no_event _ _ _ _ _ PC NE) as [EQ _]. inversion PC as [| | |r' _ EU _ EW]; subst; try (exfalso; eapply NE; reflexivity).
    split; [exact UD|]. split; [exact I'|]. split; [exact U'|]. split; [rewrite EU; exact T|]. split; [exact S'|]. rewrite EQ. split; [exact L|]. split; [exact Z|]. exists r0, r. auto. }
  destruct q as [|[[e|er]|]]; try (apply G; intros ? ?; discriminate). clear G.
  destruct (watch_event_spec _ _ _ _ _ e PC eq_refl I I' U) as (ls & EW & TL). exists ls. split; [exact EW|].
  destruct (event_told _ p0 _ _ _ _ _ _ PC I U S Z TL) as (r1 & r2 & zl & al & R1 & R2 & -> & ZP & AP). unfold status_is in R, R1. rewrite R in R1. injection R1 as <-.
  split; [exact UD|]. split; [exact I'|]. split; [exact U'|]. rewrite packets_app, app_assoc. split; [|split; [exact S'|]].
  - rewrite packets_one. inversion PC as [pkt m e0 w0 HD K EP EM E1 SS M RR|pkt e0 HD K EP EM E1 SS C1 C2|d m prior HD HU X EP ED EA SS|r' NE]; subst; try (elim (NE e); reflexivity).
    + rewrite EP. econstructor; eauto.
    + rewrite EP. econstructor; eauto.
    + cbn [app e_pkt deferred_event]. rewrite app_nil_r, HU. exact T.
  - rewrite reports_in_app, messages_in_app. split; [eapply seen_poll; eauto|]. split; [eapply poll_zones; eauto|]. exists r0, r2. split; [exact R0|]. split; [exact R2|]. econstructor; eauto.
Qed.

Lemma watch_snoc h o : watch (h ++ [o]) = wstep (watch h) o.
Proof. unfold watch. rewrite fold_left_app. reflexivity. Qed.
Lemma iarrived_app h h' : iarrived (h ++ h') = iarrived h ++ iarrived h'.
Proof. unfold iarrived. rewrite map_app, concat_app. reflexivity. Qed.
Lemma iarrived_step h now ws : iarrived (h ++ [IStep now ws]) = iarrived h.
Proof. rewrite iarrived_app. cbn. apply app_nil_r. Qed.
Lemma iarrived_arrive h a : iarrived (h ++ [IArrive a]) = iarrived h ++ arrival_data a.
Proof. rewrite iarrived_app. cbn. rewrite app_nil_r. reflexivity. Qed.
Lemma run_one p h o p1 bs p2 b : run p h = Ok (p1, bs) -> step p1 o = Ok (p2, b) -> run p (h ++ [o]) = Ok (p2, bs ++ [b]).
Proof. intros E1 E2. rewrite run_app, E1. cbn [bind run]. rewrite E2. reflexivity. Qed.
Lemma watch_telling h : forall p log, Forall iop_ok h -> watch h = WLoop p log ->
  exists h0 h1 p0 ps bs, h = h0 ++ h1 /\ irun conn_new h0 = IDone p0 /\ run p0 (map as_call h1) = Ok (p, bs) /\
    telling p0 ps (iarrived h0) p0 [] [] /\ telling p0 ps (iarrived h) p (events bs) log.
Proof.
  induction h as [|o h IH] using rev_ind; intros p log HO E; [discriminate E|]. pose proof HO as HO'. apply Forall_app in HO' as [HOh Ho]. inversion Ho as [|? ? Ho' _]; subst.
  rewrite watch_snoc in E. pose proof (watch_up h HOh) as WU. destruct (watch h) as [i|p1 log1|log1|log1 why] eqn:EW; [| |destruct o; discriminate E..].
  - destruct WU as [EI (s & ph & q & ->)]. destruct o as [a|now ws]; cbn [wstep] in E; [discriminate E|].
    destruct (istep now ws (IRun s ph q)) as [s' ph' p'|p'|e|w] eqn:ES; try discriminate E. injection E as <- <-.
    assert (E0 : irun conn_new (h ++ [IStep now ws]) = IDone p') by (unfold irun in *; rewrite fold_left_app; cbn [fold_left]; rewrite EI; exact ES).
    destruct (telling_start _ _ HO E0) as (ps & T). exists (h ++ [IStep now ws]), [], p', ps, []. rewrite app_nil_r. auto.
  - destruct (IH p1 log1 HOh eq_refl) as (h0 & h1 & p0 & ps & bs & -> & E0 & ER & T0 & T). destruct o as [a|now ws]; cbn [wstep] in E.
    + injection E as <- <-. exists h0, (h1 ++ [IArrive a]), p0, ps, (bs ++ [ONone]). rewrite app_assoc. split; [reflexivity|]. split; [exact E0|].
      split; [rewrite map_app; eapply run_one; [exact ER | reflexivity]|]. split; [exact T0|]. rewrite iarrived_arrive, events_app. cbn [events catMaybes map app]. rewrite app_nil_r. apply telling_arrive; assumption.
    + destruct (telling_poll _ _ _ _ _ _ now T) as (p' & r & w & EN & PC & M). rewrite EN in E.
      assert (ER' : run p0 (map as_call (h1 ++ [IStep now ws])) = Ok (p', bs ++ [ONext r w])).
      { rewrite map_app. eapply run_one; [exact ER|]. cbn [map as_call step]. rewrite EN. reflexivity. }
      destruct r as [|[[e|er]|]]; try discriminate E.
      * injection E as <- <-. exists h0, (h1 ++ [IStep now ws]), p0, ps, (bs ++ [ONext Pending w]). rewrite app_assoc. split; [reflexivity|]. split; [exact E0|]. split; [exact ER'|]. split; [exact T0|].
        rewrite iarrived_step, events_app. cbn [events catMaybes map app]. rewrite app_nil_r. exact M.
      * destruct M as (ls & EV & M). rewrite EV in E. injection E as <- <-. exists h0, (h1 ++ [IStep now ws]), p0, ps, (bs ++ [ONext (Ready (Some (IoOk e))) w]). rewrite app_assoc. split; [reflexivity|].
        split; [exact E0|]. split; [exact ER'|]. split; [exact T0|]. rewrite iarrived_step, events_app. exact M.
Qed.
Lemma takes_drain D ps u : u8s D -> takes D ps u -> exists us left, drain u = Ok (us, left) /\ drain D = Ok (ps ++ us, left).
Proof.
  intros U T. destruct (drain_total u (takes_u8 _ _ _ T U)) as (us & left & E & DR). exists us, left. split; [exact E|]. apply drain_iff; [exact U|]. eapply takes_drains; eauto.
Qed.

(* ================= C106 ================= *)
(* While watch is in its loop, its lines are exactly those that what the panel has sent calls for. *)
Theorem C106_what_is_told : forall h p log, Forall iop_ok h -> watch h = WLoop p log -> exists p0 ps es, followed h p0 ps p es log.
Proof.
  intros h p log HO E. destruct (watch_telling _ _ _ HO E) as (h0 & h1 & p0 & ps & bs & -> & E0 & ER & T0 & T). exists p0, ps, (events bs).
  destruct T0 as (U0 & _ & _ & T0 & _). change (packets []) with (@nil packet) in T0. rewrite app_nil_r in T0. destruct T as (U & _ & _ & T & _ & _ & _ & r0 & r & R0 & R & N).
  exists h0, h1, bs, r0, r. do 4 (split; [auto|]). split; [apply takes_drain; assumption|]. split; [|auto]. destruct (takes_drain _ _ _ U T) as (us & left & X1 & X2). exists us, left. rewrite app_assoc. auto.
Qed.

(* And the lines are determined by the events. *)
Lemma sorted_unique l : forall l', StronglySorted N.lt l -> StronglySorted N.lt l' -> (forall x : N, In x l <-> In x l') -> l = l'.
Proof.
  induction l as [|x l IH]; intros [|y l'] S S' H; [reflexivity | elim (proj2 (H y) (or_introl eq_refl)) | elim (proj1 (H x) (or_introl eq_refl))|].
  inversion S as [|? ? S1 F1]; subst. inversion S' as [|? ? S2 F2]; subst. rewrite Forall_forall in F1, F2.
  assert (x = y) as <-.
  { destruct (proj1 (H x) (or_introl eq_refl)) as [<-|X]; [reflexivity|]. destruct (proj2 (H y) (or_introl eq_refl)) as [<-|Y]; [reflexivity|]. specialize (F1 _ Y). specialize (F2 _ X). lia. }
  f_equal. apply IH; auto. intros z. split; intros Z.
  - destruct (proj1 (H z) (or_intror Z)) as [<-|X]; [specialize (F1 _ Z); lia | exact X].
  - destruct (proj2 (H z) (or_intror Z)) as [<-|X]; [specialize (F2 _ Z); lia | exact X].
Qed.
Lemma area_line_det p r r' a l l' : area_line p r r' a l -> area_line p r r' a l' -> l = l'.
Proof.
  intros (n & sh & s & u & al & s' & u' & al' & N & T & A & A' & ->) (n2 & sh2 & s2 & u2 & al2 & s3 & u3 & al3 & N2 & T2 & A2 & A3 & ->).
  unfold area_is in *. cbn in *. destruct A as (X1 & X2 & X3), A' as (X4 & X5 & X6), A2 as (Y1 & Y2 & Y3), A3 as (Y4 & Y5 & Y6).
  assert (n = n2) by congruence. subst n2. pose proof (trimmed_fun _ _ _ T T2). congruence.
Qed.
Lemma area_lines_det p r r' ls ls' : area_lines p r r' ls -> area_lines p r r' ls' -> ls = ls'.
Proof.
  intros (as_ & S & H & F) (as2 & S2 & H2 & F2). assert (as_ = as2) as <- by (apply sorted_unique; auto; intros x; rewrite H, H2; reflexivity).
  clear S S2 H H2. revert ls' F2. induction F as [|a l as_ ls A _ IH]; intros ls' F2; inversion F2; subst; [reflexivity|]. f_equal; [eapply area_line_det; eauto | auto].
Qed.
Lemma zone_part_det p0 b e ls ls' : zone_part p0 b e ls -> zone_part p0 b e ls' -> ls = ls'.
Proof.
  unfold zone_part. destruct (match e_pkt e with Some pkt => message_of pkt | None => None end) as [[]|]; try congruence. destruct m as [z new].
  intros (pr & H & X) (pr2 & H2 & X2). assert (pr2 = pr) as -> by (rewrite <- (H2 0), <- (H 0); reflexivity).
  destruct X as [[-> ->]|(N & n & sh & E & T & ->)], X2 as [[Y1 ->]|(N2 & n2 & sh2 & E2 & T2 & ->)]; try congruence. rewrite E in E2. injection E2 as <-. rewrite (trimmed_fun _ _ _ T T2). reflexivity.
Qed.
Lemma arming_part_det p0 r h e ls r1 h1 ls' r2 h2 : arming_part p0 r h e ls r1 h1 -> arming_part p0 r h e ls' r2 h2 -> ls = ls' /\ r1 = r2 /\ h1 = h2.
Proof.
  unfold arming_part. destruct (e_pkt e) as [pkt|].
  - destruct (message_of pkt) as [[]|]; try (intros (-> & -> & ->) (-> & -> & ->); auto).
    intros [(A1 & A2 & -> & -> & ->)|(A1 & -> & -> & A2)] [(B1 & B2 & -> & -> & ->)|(B1 & -> & -> & B2)]; auto; try tauto. split; [eapply area_lines_det; eauto | auto].
  - intros (A1 & -> & A2) (B1 & -> & B2). assert (r2 = r1) as -> by congruence. split; [eapply area_lines_det; eauto | auto].
Qed.
Theorem C106_lines_determined : forall p0 ps r h es ls r1 h1 ls' r2 h2, narrates p0 ps r h es ls r1 h1 -> narrates p0 ps r h es ls' r2 h2 -> ls = ls' /\ r1 = r2 /\ h1 = h2.
Proof.
  intros p0 ps r h es ls r1 h1 ls' r2 h2 N. revert ls' r2 h2. induction N as [|es ls r1 h1 e zl al r2 h2 N IH Z A]; intros ls' r3 h3 N'.
  - inversion N' as [|es' ls1 ra ha e' zl' al' rb hb Na Za Aa E]; subst; [auto|]. destruct es'; discriminate.
  - inversion N' as [E|es' ls1 ra ha e' zl' al' rb hb Na Za Aa E]; subst; [destruct es; discriminate|].
    apply app_inj_tail in E as [-> ->]. destruct (IH _ _ _ Na) as (-> & -> & ->). rewrite (zone_part_det _ _ _ _ _ Z Za). destruct (arming_part_det _ _ _ _ _ _ _ _ _ _ A Aa) as (-> & -> & ->). auto.
Qed.

(* ================= C107 ================= *)
(* ---- the packets among what is owed ---- *)
Definition packets_among (os : list outcome) : list packet := flat_map (fun o => match o with Packet p => [p] | _ => [] end) os.
Lemma among_packets ps : packets_among (map Packet ps) = ps.
Proof. induction ps as [|p ps IH]; [reflexivity|]. cbn. f_equal. exact IH. Qed.
Lemma among_app a b : packets_among (a ++ b) = packets_among a ++ packets_among b.
Proof. apply flat_map_app. Qed.
Lemma outs_among b q os left : outs b q os left -> u8s b -> Forall rd_u8 q -> drains (b ++ qdata q) (packets_among os) left.
Proof.
  induction 1 as [b p rest q os left E O IH|b E|b x q os left E O IH|b e q os left E O IH]; intros U F.
  - assert (Uq : u8s (qdata q)) by (apply qdata_u8; exact F). change (packets_among (Packet p :: os)) with (p :: packets_among os). econstructor; [apply decode_mono; eauto|].
    apply IH; [|exact F]. destruct (decode_some_inv _ _ _ U E) as (raw & Eb & _). rewrite Eb in U. apply u8s_app in U. tauto.
  - unfold qdata. cbn. rewrite app_nil_r. constructor. exact E.
  - inversion F as [|? ? F1 F2]; subst. unfold qdata in *. cbn [map concat rd_data]. rewrite app_assoc. apply IH; [apply u8s_app; split; assumption | exact F2].
  - inversion F; subst. apply IH; assumption.
Qed.
Lemma owed_among b a os left : owed b a os left -> u8s b -> decode b = Ok (None, b) -> Forall arrival_ok a -> drains (b ++ concat (map arrival_data a)) (packets_among os) left.
Proof.
  induction 1 as [b|b c ps l a os left D O IH|b e a os left O IH]; intros U N A.
  - cbn. rewrite app_nil_r. constructor. exact N.
  - inversion A as [|? ? Ac A']; subst. destruct Ac as [_ Uc]. assert (Ubc : u8s (b ++ c)) by (apply u8s_app; auto). apply drain_iff in D; [|exact Ubc].
    rewrite among_app, among_packets. cbn [map concat arrival_data]. rewrite app_assoc. eapply drains_app; eauto.
    + clear -A'. induction A' as [|x a Ax _ IH]; [constructor|]. cbn. apply u8s_app. split; [destruct x; [apply Ax | constructor | constructor] | exact IH].
    + apply IH; [eapply drains_u8s; eauto | eapply drains_left; eauto | exact A'].
  - inversion A; subst. apply IH; auto.
Qed.
Lemma iarrived_arrivals h : iarrived h = concat (map arrival_data (iarrivals h)).
Proof. induction h as [|[a|now ws] h IH]; [reflexivity|..]; unfold iarrived in *; cbn; [f_equal|]; exact IH. Qed.
Lemma network_data h a closed : network h a closed -> iarrived h = concat (map arrival_data a).
Proof. intros (_ & E). rewrite iarrived_arrivals, E, map_app, concat_app. destruct closed; cbn; apply app_nil_r. Qed.
Lemma decode_nil : decode [] = Ok (None, []).
Proof. reflexivity. Qed.
Lemma all_packets os : Forall is_packet os -> os = map Packet (packets_among os).
Proof. intros F. destruct (packets_of _ F) as (ps & ->). rewrite among_packets. reflexivity. Qed.
Lemma among_rest k os closed left : (k <= length os)%nat -> packets_among (skipn k (os ++ rest_error closed left)) = packets_among (skipn k os).
Proof.
  intros K. rewrite skipn_app. replace (k - length os)%nat with 0%nat by lia. rewrite among_app. cbn [skipn].
  replace (packets_among (rest_error closed left)) with (@nil packet); [apply app_nil_r|]. unfold rest_error. destruct closed; [destruct left|]; reflexivity.
Qed.
(* what has been read is what connecting and the loop took *)
Lemma read_packets c a closed k ps os left : read_so_far c a closed k -> Forall arrival_ok a -> takes (concat (map arrival_data a)) ps (unread c) -> owed [] a os left ->
  firstn k os = map Packet ps /\ k = length ps.
Proof.
  intros ((CI & _ & os1 & left1 & O1 & _ & _ & os2 & OO & _ & _ & EF) & H) A T O. destruct (owed_fun _ _ _ _ O _ _ O1) as [<- <-]. destruct (H _ _ O) as [K F].
  pose proof (owed_among _ _ _ _ O (Forall_nil _) decode_nil A) as D. cbn [app] in D. destruct CI as (Ur & Uq & _).
  pose proof (takes_drains _ _ _ T _ _ (outs_among _ _ _ _ OO Ur Uq)) as D2. destruct (drains_det _ _ _ D _ _ D2) as [EP _].
  apply (f_equal packets_among) in EF. rewrite among_rest in EF by exact K. rewrite !among_app in EF.
  assert (ES : packets_among (skipn k os) = packets_among os2).
  { rewrite EF. destruct (has_errored c && negb (c_eof c)); cbn [packets_among flat_map app];
      (replace (packets_among (if c_eof c && (negb (is_readable c) || has_errored c) then [] else rest_error (peer_closed c) left)) with (@nil packet); [apply app_nil_r|]);
      (destruct (c_eof c && _); [reflexivity|]; unfold rest_error; destruct (peer_closed c); [destruct left|]; reflexivity). }
  rewrite <- (firstn_skipn k os) in EP at 1. rewrite among_app, ES in EP. apply app_inv_tail in EP.
  pose proof (all_packets _ F) as E1. rewrite EP in E1. split; [exact E1|]. apply (f_equal (@length _)) in E1. rewrite firstn_length, map_length in E1. lia.
Qed.

(* ---- one poll, in terms of the network ---- *)
Lemma poll_reads now p p' r w a closed k : read_so_far (p_conn p) a closed k -> poll_next now p = Ok (p', r, w) -> exists os left, owed [] a os left /\
  match r with
  | Pending => closed = false /\ (exists ps, os = map Packet ps) /\ read_so_far (p_conn p') a closed k
  | Ready (Some (IoOk e)) => (k < length os)%nat /\ read_so_far (p_conn p') a closed (S k) \/ closed = false /\ (exists ps, os = map Packet ps) /\ read_so_far (p_conn p') a closed k
  | Ready None => closed = true /\ left = [] /\ exists ps, os = map Packet ps /\ k = length ps
  | Ready (Some (IoErr e)) => (exists ps os', os = map Packet ps ++ Error e :: os' /\ k = length ps) \/
      closed = true /\ left <> [] /\ e = "bytes remaining on stream"%string /\ exists ps, os = map Packet ps /\ k = length ps
  end.
Proof.
  intros R E. destruct (read_case_at _ _ _ _ R) as (os & left & c' & q & O & EC & _ & H). exists os, left. split; [exact O|]. unfold poll_next in E. rewrite EC in E. cbn [bind] in E.
  destruct H as [(pkt & -> & EN & R')|[(e & ps & os' & -> & EO & EK)|[(ps & -> & -> & EO & NE & EK)|[(ps & -> & -> & EO & EL & EK)|(ps & -> & -> & EO & EK & R')]]]].
  - apply bind_inv in E as ([[p1 e] w1] & E1 & E). injection E as <- <- <-. left. split; [apply nth_error_Some; congruence|]. rewrite (interpret_conn _ _ _ _ _ _ E1). exact R'.
  - injection E as <- <- <-. left. eauto.
  - injection E as <- <- <-. right. eauto 7.
  - injection E as <- <- <-. eauto.
  - cbn [with_conn pending_arm p_state] in E. destruct (pending_arm p) as [[d x]|].
    + destruct (d <=? now); [|injection E as <- <- <-; eauto]. destruct (s_arming (p_state p)); [|discriminate E]. injection E as <- <- <-. right. eauto.
    + injection E as <- <- <-. eauto.
Qed.
Lemma network_read_arrive h x a closed c k : network (h ++ [IArrive x]) a closed ->
  (forall a0 c0, network h a0 c0 -> read_so_far c a0 c0 k) -> read_so_far (arrive c x) a closed k.
Proof.
  intros N R. destruct (network_arrive _ _ _ _ N) as [(-> & -> & N')|(-> & a0 & -> & N' & OX)]; destruct (R _ _ N') as (A & H).
  - split; [apply after_close; exact A | exact H].
  - split; [eapply after_arrive; eauto|]. intros os left O. destruct (owed_prefix _ _ _ _ _ O) as (os1 & l1 & more & O1 & ->).
    destruct (H _ _ O1) as [K F]. split; [rewrite app_length; lia|]. rewrite firstn_app. replace (k - length os1)%nat with 0%nat by lia. cbn [firstn]. rewrite app_nil_r. exact F.
Qed.
Lemma app_one_inj {A} (a b : list A) x y : a ++ [x] = b ++ [y] -> a = b /\ x = y.
Proof. apply app_inj_tail. Qed.
Lemma network_fun h a closed a' closed' : network h a closed -> network h a' closed' -> a = a' /\ closed = closed'.
Proof.
  intros (A & E) (A' & E'). rewrite E in E'. destruct closed, closed'.
  - apply app_inj_tail in E' as [-> _]. auto.
  - rewrite app_nil_r in E'. subst a'. apply Forall_app in A' as [_ A']. inversion A' as [|? ? X]; subst. destruct X.
  - rewrite app_nil_r in E'. subst a. apply Forall_app in A as [_ A]. inversion A as [|? ? X]; subst. destruct X.
  - rewrite !app_nil_r in E'. auto.
Qed.
Lemma watch_reads h : forall a closed p log, network h a closed -> watch h = WLoop p log -> exists k, read_so_far (p_conn p) a closed k.
Proof.
  induction h as [|o h IH] using rev_ind; intros a closed p log N E; [discriminate E|]. rewrite watch_snoc in E. pose proof (network_iop_ok _ _ _ N) as HO. pose proof HO as HO'. apply Forall_app in HO' as [HOh _].
  pose proof (watch_up h HOh) as WU. destruct (watch h) as [i|p1 log1|log1|log1 why] eqn:EW; [| |destruct o; discriminate E..].
  - destruct WU as [EI (s & ph & q & ->)]. destruct o as [x|now ws]; cbn [wstep] in E; [discriminate E|]. destruct (istep now ws (IRun s ph q)) as [s' ph' p'|p'|e|w] eqn:ES; try discriminate E. injection E as <- <-.
    destruct (so_far_run _ _ _ N) as (k & S). rewrite irun_snoc, EI in S. cbn [iop_step] in S. rewrite ES in S. exists k. exact S.
  - destruct o as [x|now ws].
    + cbn [wstep] in E. injection E as <- <-. destruct (network_prefix _ _ _ _ N) as (a1 & c1 & a2 & N1 & _). destruct (IH _ _ _ _ N1 eq_refl) as (k & R). exists k. cbn [p_conn with_conn].
      eapply network_read_arrive; [exact N|]. intros a0 c0 N0. destruct (network_fun _ _ _ _ _ N1 N0) as [<- <-]. exact R.
    + apply (proj1 (network_step _ _ _ _ _)) in N. destruct (IH _ _ _ _ N eq_refl) as (k & R). destruct (C54_watch_logs_the_changes _ _ _ now ws HOh EW) as (p' & r & w & EN & M). rewrite watch_snoc, EW in M.
      destruct (poll_reads _ _ _ _ _ _ _ _ R EN) as (os & left & _ & H). destruct r as [|[[e|er]|]].
      * rewrite M in E. injection E as <- <-. exists k. apply H.
      * destruct M as (ls & M & _). rewrite M in E. injection E as <- <-. destruct H as [[_ H]|(_ & _ & H)]; eauto.
      * rewrite M in E. discriminate E.
      * rewrite M in E. discriminate E.
Qed.
Lemma ended_stays h hs : ended (watch h) -> watch (h ++ hs) = watch h.
Proof.
  intros E. induction hs as [|o hs IH] using rev_ind; [rewrite app_nil_r; reflexivity|]. rewrite app_assoc, watch_snoc, IH. destruct (watch h); try contradiction; destruct o; reflexivity.
Qed.
Lemma ended_dec w : ended w \/ ~ ended w.
Proof. destruct w; cbn; tauto. Qed.
Lemma ends_at h : ended (watch h) -> exists h1 now ws h2, h = h1 ++ IStep now ws :: h2 /\ ~ ended (watch h1) /\ watch (h1 ++ [IStep now ws]) = watch h.
Proof.
  induction h as [|o h IH] using rev_ind; intros E; [destruct E|]. destruct (ended_dec (watch h)) as [D|D].
  - destruct (IH D) as (h1 & now & ws & h2 & -> & N & X). exists h1, now, ws, (h2 ++ [o]). split; [rewrite <- app_assoc; reflexivity|]. split; [exact N|]. rewrite X. symmetry. apply ended_stays. exact D.
  - destruct o as [a|now ws]; [|exists h, now, ws, []; auto]. exfalso. rewrite watch_snoc in E. destruct (watch h); cbn in *; tauto.
Qed.
(* watch ends in one step, and for one of these reasons; everything received up to then has been told *)
Theorem C107_ends_only_because : forall h a closed, network h a closed -> ended (watch h) ->
  exists h1 now ws h2, h = h1 ++ IStep now ws :: h2 /\ ~ ended (watch h1) /\ watch (h1 ++ [IStep now ws]) = watch h /\ ends_because h1 now ws (watch h).
Proof.
  intros h a closed N E. destruct (ends_at h E) as (h1 & now & ws & h2 & EH & NE & EW). exists h1, now, ws, h2. do 3 (split; [assumption|]). rewrite EH in N. rewrite <- EW in *. clear EW EH h.
  destruct (network_prefix _ _ _ _ N) as (a1 & c1 & a2 & N1 & _ & _). pose proof (network_iop_ok _ _ _ N1) as HO. pose proof (watch_up h1 HO) as WU. rewrite watch_snoc in *.
  destruct (watch h1) as [i|p log|log|log why] eqn:EW; [| |elim NE; exact Logic.I..].
  - destruct WU as [EI (s & ph & q & ->)]. cbn [wstep] in *.
    assert (ES : irun conn_new (h1 ++ [IStep now ws]) = istep now ws (IRun s ph q)) by (rewrite irun_snoc, EI; reflexivity).
    destruct (istep now ws (IRun s ph q)) as [s' ph' p'|p'|e|why] eqn:E2; try destruct E.
    + apply E_fail; [exact ES|]. destruct (C85_fails_only_because _ _ _ _ (proj2 (network_step h1 now ws a1 c1) N1) ES) as (h3 & now3 & ws3 & h4 & EH & R & X & F).
      assert (h4 = []) as ->. { destruct h4 as [|o h4] using rev_ind; [reflexivity|]. exfalso. change (h3 ++ IStep now3 ws3 :: h4 ++ [o]) with (h3 ++ (IStep now3 ws3 :: h4) ++ [o]) in EH. rewrite app_assoc in EH. apply app_one_inj in EH as [-> _].
        rewrite (failed_stays _ _ h4 _ X) in EI. discriminate EI. }
      apply app_one_inj in EH as [-> [= -> ->]]. exact F.
    + apply E_crash. exact ES.
  - destruct (watch_telling _ _ _ HO EW) as (h0 & h3 & p0 & ps & bs & EH & E0 & ER & T0 & T).
    assert (FO : followed h1 p0 ps p (events bs) log).
    { destruct T0 as (U0 & _ & _ & T0 & _). change (packets []) with (@nil packet) in T0. rewrite app_nil_r in T0. destruct T as (U & _ & _ & T & _ & _ & _ & r0 & r & R0 & R & NN).
      exists h0, h3, bs, r0, r. do 4 (split; [auto|]). split; [apply takes_drain; assumption|]. split; [|auto]. destruct (takes_drain _ _ _ U T) as (us & left & X1 & X2). exists us, left. rewrite app_assoc. auto. }
    destruct (watch_reads _ _ _ _ _ N1 EW) as (k & R). destruct T as (_ & _ & _ & T & _). rewrite (network_data _ _ _ N1) in T.
    destruct (C54_watch_logs_the_changes _ _ _ now ws HO EW) as (p' & r & w & EN & M). rewrite watch_snoc, EW in M. destruct (poll_reads _ _ _ _ _ _ _ _ R EN) as (os & left & O & H).
    destruct (read_packets _ _ _ _ _ _ _ R (proj1 N1) T O) as [EF EK].
    assert (SAME : forall qs os', os = map Packet qs ++ os' -> k = length qs -> qs = ps ++ packets (events bs)).
    { intros qs os' -> X. rewrite X, firstn_app, map_length, Nat.sub_diag in EF. cbn [firstn] in EF. rewrite app_nil_r, firstn_all2 in EF by (rewrite map_length; apply le_n).
      rewrite <- (among_packets qs), EF. apply among_packets. }
    destruct r as [|[[e|er]|]].
    + rewrite M in E. destruct E.
    + destruct M as (ls & M & _). rewrite M in E. destruct E.
    + rewrite M. destruct H as [(qs & os' & EO & X)|(-> & NL & -> & qs & EO & X)].
      * rewrite (SAME _ _ EO X) in EO. subst os. eapply E_read; eauto.
      * rewrite <- (app_nil_r (map Packet qs)) in EO. rewrite (SAME _ _ EO X), app_nil_r in EO. subst os. eapply E_partial; eauto.
    + rewrite M. destruct H as (-> & -> & qs & EO & X). rewrite <- (app_nil_r (map Packet qs)) in EO. rewrite (SAME _ _ EO X), app_nil_r in EO. subst os. eapply E_done; eauto.
Qed.
(* and it does end, within so many steps, once the panel has closed the connection or a read has failed *)
Lemma good_no_arrivals hs : Forall good_step hs -> iarrivals hs = [].
Proof. induction 1 as [|[x|now ws] hs G _ IH]; [reflexivity | destruct G | exact IH]. Qed.
Lemma loop_ends hs : forall h a closed os left, network h a closed -> owed [] a os left -> closed = true \/ (exists e, In (Error e) os) -> Forall good_step hs ->
  ~ running (irun conn_new h) -> ~ ended (watch (h ++ hs)) -> exists p log k, watch (h ++ hs) = WLoop p log /\ read_so_far (p_conn p) a closed k /\ (length hs <= k)%nat.
Proof.
  induction hs as [|o hs IH] using rev_ind; intros h a closed os left N O C G NR NE.
  - rewrite app_nil_r in *. pose proof (watch_up h (network_iop_ok _ _ _ N)) as WU. destruct (watch h) as [i|p log|log|log why] eqn:EW; [|destruct (watch_reads _ _ _ _ _ N EW) as (k & R); exists p, log, k; cbn; auto with arith|elim NE; exact Logic.I..].
    destruct WU as [EI WU]. rewrite EI in NR. elim NR. exact WU.
  - apply Forall_app in G as [G Go]. inversion Go as [|? ? Go' _]; subst. destruct o as [x|now ws]; [destruct Go'|]. rewrite app_assoc in *.
    pose proof (network_good _ _ _ _ G N) as N2. pose proof (network_iop_ok _ _ _ N2) as HO.
    destruct (IH h a closed os left N O C G NR) as (p & log & k & EW & R & L).
    { intros D. apply NE. rewrite (ended_stays _ _ D). exact D. }
    destruct (C54_watch_logs_the_changes _ _ _ now ws HO EW) as (p' & r & w & EN & M). destruct (poll_reads _ _ _ _ _ _ _ _ R EN) as (os1 & left1 & O1 & H).
    destruct (owed_fun _ _ _ _ O _ _ O1) as [<- <-].
    assert (NP : closed = false -> (exists ps, os = map Packet ps) -> False).
    { intros -> (ps & ->). destruct C as [X|(e & X)]; [discriminate X|]. apply in_map_iff in X as (? & X & _). discriminate X. }
    rewrite app_length. cbn [length]. destruct r as [|[[e|er]|]].
    + elim (NP (proj1 H) (proj1 (proj2 H))).
    + destruct M as (ls & M & _). destruct H as [[_ H]|(X & Y & _)]; [|elim (NP X Y)]. exists p', (log ++ ls), (S k). split; [exact M|]. split; [exact H | lia].
    + rewrite M in NE. elim NE. exact Logic.I.
    + rewrite M in NE. elim NE. exact Logic.I.
Qed.
Theorem C107_ends : forall h a closed os left hs, network h a closed -> owed [] a os left -> closed = true \/ (exists e, In (Error e) os) ->
  Forall good_step hs -> (4 * length os + 7 <= length hs)%nat -> ended (watch (h ++ hs)).
Proof.
  intros h a closed os left hs N O C G L. set (n := (3 * length os + 6)%nat). rewrite <- (firstn_skipn n hs) in G |- *. apply Forall_app in G as [G1 G2].
  destruct (ended_dec (watch (h ++ firstn n hs ++ skipn n hs))) as [D|D]; [exact D | exfalso]. rewrite app_assoc in D.
  assert (NR : ~ running (irun conn_new (h ++ firstn n hs))) by (eapply C85_ends; eauto; rewrite firstn_length; unfold n in *; lia).
  destruct (loop_ends (skipn n hs) (h ++ firstn n hs) a closed os left) as (p & log & k & _ & R & K); auto; [apply network_good; assumption|].
  destruct (proj2 R os left O) as [X _]. rewrite skipn_length in K. unfold n in *. lia.
Qed.

(* ---- examples ---- *)
(* A zone status report and then a zone change: the prior state is the one of the report, which had no line of its own.
   Area 1 arms fully at once: held, and told when the time is up. *)
Definition ex_zones_b : list N := 2 :: 5 :: repeat 0 206.
Definition ex_story : list iop :=
  ex_init ++ [IArrive (Bytes (bytes_of (MZoneStatusReport ex_zones_b) ++ bytes_of (MZoneChange (mkZC 2 2)) ++ bytes_of (MArmingStatusReport ex_armed)));
              IStep 7 []; IStep 8 []; IStep 9 []; IStep 5008 []; IStep 5009 []].
Lemma bytes_ok l : forallb (fun b => b <? 256) l = true -> u8s l.
Proof. intros H. apply Forall_forall. intros x Hx. rewrite forallb_forall in H. apply N.ltb_lt. auto. Qed.
Lemma ex_story_ok : Forall iop_ok ex_story.
Proof.
  apply Forall_app. split; [exact ex_init_ok|]. constructor; [|repeat constructor]. apply bytes_ok. vm_compute. reflexivity.
Qed.
Example C106_example : Forall iop_ok ex_story /\
  (match watch ex_story with WLoop _ log => log | _ => [] end) =
    [LZone (B "Front DoorKeypad") 5 2; LArea (B "House") AST_Disarmed AU_ReadyToArm AA_NoAlarmActive AST_ArmedAway AU_ArmedFully AA_NoAlarmActive] /\
  (match watch (firstn (length ex_story - 1) ex_story) with WLoop _ log => log | _ => [] end) = [LZone (B "Front DoorKeypad") 5 2].
Proof. split; [exact ex_story_ok|]. split; vm_compute; reflexivity. Qed.
(* The same with the panel closing the connection; in the middle of a packet; and with a read error. *)
Definition ex_ending (last : list iop) : list iop := firstn (length ex_story - 2) ex_story ++ last ++ ex_steps.
Example C107_example :
  watch (ex_ending [IArrive PeerClose]) = WDone [LZone (B "Front DoorKeypad") 5 2] /\
  watch (ex_ending [IArrive (Bytes (B "16XK")); IArrive PeerClose]) = WCrash [LZone (B "Front DoorKeypad") 5 2] "bytes remaining on stream"%string /\
  watch (ex_ending [IArrive (ReadError "reset"%string)]) = WCrash [LZone (B "Front DoorKeypad") 5 2] "reset"%string /\
  watch (ex_as :: IArrive PeerClose :: ex_steps) = WCrash [] "EOF while expecting reply to ZoneStatusRequest(ZoneStatusRequest)"%string.
Proof. vm_compute. repeat split. Qed.
Lemma arrivals_ok l : forallb (fun a => match a with Bytes c => negb (beq c []) && forallb (fun b => b <? 256) c | ReadError _ => true | PeerClose => false end) l = true -> Forall arrival_ok l.
Proof.
  intros H. apply Forall_forall. intros x Hx. rewrite forallb_forall in H. specialize (H x Hx). destruct x as [c|e|]; [|exact Logic.I|discriminate H].
  apply andb_prop in H as [H1 H2]. split; [intros ->; discriminate H1 | apply bytes_ok; exact H2].
Qed.
(* By the time watch returns it need not have told of the last report of the panel: one that is held is lost. *)
Definition ex_chunks : list bytes :=
  map bytes_of ex_replies ++ [bytes_of (MZoneStatusReport ex_zones_b) ++ bytes_of (MZoneChange (mkZC 2 2)) ++ bytes_of (MArmingStatusReport ex_armed)].
Definition ex_told : list packet := Eval vm_compute in match drain (concat ex_chunks) with Ok (ps, _) => ps | _ => [] end.
Lemma ex_closing_net : network (ex_ending [IArrive PeerClose]) (map Bytes ex_chunks) true /\ owed [] (map Bytes ex_chunks) (map Packet ex_told) [].
Proof.
  assert (A : Forall arrival_ok (map Bytes ex_chunks)) by (apply arrivals_ok; vm_compute; reflexivity).
  assert (U : Forall (fun c => u8s c) ex_chunks).
  { clear -A. induction ex_chunks as [|c l IH]; [constructor|]. inversion A as [|? ? Ac A']; subst. destruct Ac as [_ Uc]. constructor; auto. }
  split; [split; [exact A | vm_compute; reflexivity]|]. apply owed_chunks; [exact U|].
  apply drain_iff; [|vm_compute; reflexivity]. clear -U. induction U; [constructor|]. cbn. apply u8s_app. auto.
Qed.
Theorem C107_held_report_lost : exists h a ps log, network h a true /\ owed [] a (map Packet ps) [] /\ reports_in ps = [ex_disarmed; ex_armed] /\ area_differs ex_disarmed ex_armed 1 /\
  watch h = WDone log /\ forall l, In l log -> exists n p s, l = LZone n p s.
Proof.
  exists (ex_ending [IArrive PeerClose]), (map Bytes ex_chunks), ex_told, [LZone (B "Front DoorKeypad") 5 2]. split; [apply ex_closing_net|]. split; [apply ex_closing_net|].
  split; [vm_compute; reflexivity|]. split; [exists (AST_Disarmed, AU_ReadyToArm, AA_NoAlarmActive), (AST_ArmedAway, AU_ArmedFully, AA_NoAlarmActive); repeat split; discriminate|].
  split; [vm_compute; reflexivity|]. intros l [<-|[]]. eauto.
Qed.
Example C107_ends_example : exists os left, network (firstn (length ex_story - 2) ex_story ++ [IArrive PeerClose]) (map Bytes ex_chunks) true /\
  owed [] (map Bytes ex_chunks) os left /\ (length os = 11)%nat /\ Forall good_step (repeat (IStep 0 (repeat (WAccept 1) 15)) 51).
Proof.
  exists (map Packet ex_told), []. split; [split; [apply ex_closing_net | vm_compute; reflexivity]|]. split; [apply ex_closing_net|]. split; [vm_compute; reflexivity|].
  apply Forall_forall. intros x H. apply repeat_spec in H. subst x. split; [|cbn; lia]. apply Forall_forall. intros w Hw. apply repeat_spec in Hw. eauto.
Qed.

Print Assumptions C106_what_is_told.
Print Assumptions C106_lines_determined.
Print Assumptions C107_ends_only_because.
Print Assumptions C107_ends.
Print Assumptions C107_held_report_lost.
