(* PropCli.v: theorems C53 and C54 about the command-line tool (elkm1-cli/src/main.rs). *)
From Coq Require Import Sorting.Sorted.
From Verif Require Import Base BaseFacts Pkt SpecPkt PktFacts DecodeFacts Msg SpecMsg DecFacts MsgFacts WireFacts IsoFacts
  Tokio SpecConn ConnFacts State SpecState StateFacts RunFacts HistFacts ViewFacts ExState PropState Cli SpecCli PropPkt.
From Coq Require Import ZifyBool ZifyNat ZifyN.
Ltac Zify.zify_post_hook ::= Z.div_mod_to_equations.

(* ---- C53 ---- *)
Lemma read_loop_drain fuel : forall data, cli_read_loop fuel data =
  (' (ps, l) <- drain_fuel fuel data ;; Ok (map OPacket ps, l)).
Proof.
  induction fuel as [|fuel IH]; intros data; [reflexivity|]. cbn [cli_read_loop drain_fuel].
  destruct (decode data) as [[[p|] rest]|e|w]; cbn [bind]; auto. rewrite IH.
  destruct (drain_fuel fuel rest) as [[ps left]|e|w]; reflexivity.
Qed.
Lemma reads_drains data ps left : u8s data -> drains data ps left ->
  reads data (map OPacket ps ++ match left with [] => [] | _ :: _ => [OIncomplete left] end).
Proof.
  intros U D. induction D as [src E|src p rest ps left E _ IH]; cbn [map app].
  - apply C05_decode_characterised in E; [|exact U]. destruct src as [|x src]; [constructor | constructor; [discriminate | exact E]].
  - pose proof E as E'. apply C05_decode_characterised in E; [|exact U]. econstructor; [exact E|]. apply IH.
    destruct (C06_progress_and_bound _ _ _ U E') as (raw & -> & _). apply u8s_app in U. apply U.
Qed.
Lemma reads_det data ls : reads data ls -> u8s data -> forall ls', reads data ls' -> ls' = ls.
Proof.
  assert (E0 : forall o rest, decodes [] o rest -> o = None).
  { intros o rest D. apply C05_decode_characterised in D; [|constructor]. cbn in D. injection D as <- <-. reflexivity. }
  intros R. induction R as [|left NE D|data p rest ls D R IH]; intros U ls' R'.
  - inversion R' as [|left NE D|data p rest ls D _]; subst; auto; [congruence|]. apply E0 in D. discriminate.
  - inversion R' as [|left' NE' D'|data p rest ls D' _]; subst; [congruence|reflexivity|]. destruct (decodes_det _ _ _ _ _ D D'). discriminate.
  - inversion R' as [|left' NE' D'|data' p' rest' ls'' D' R'']; subst.
    + apply E0 in D. discriminate.
    + destruct (decodes_det _ _ _ _ _ D D'). discriminate.
    + destruct (decodes_det _ _ _ _ _ D D') as [ER EP]. injection EP as ->. subst rest'. f_equal. apply IH; auto.
      apply C05_decode_characterised in D; [|exact U]. destruct (C06_progress_and_bound _ _ _ U D) as (raw & -> & _). apply u8s_app in U. apply U.
Qed.
(* What is printed is exactly what the file's contents decode to *)
Theorem C53_read_characterised : forall data ls, u8s data -> (cli_read data = Ok ls <-> reads data ls).
Proof.
  intros data ls U. destruct (drain_total _ U) as (ps & left & E & D). pose proof (reads_drains _ _ _ U D) as R.
  assert (C : cli_read data = Ok (map OPacket ps ++ match left with [] => [] | _ :: _ => [OIncomplete left] end)).
  { unfold cli_read. rewrite read_loop_drain. unfold drain in E. rewrite E. reflexivity. }
  rewrite C. split; [intros [= <-]; exact R|]. intros R'. f_equal. symmetry. eapply reads_det; eauto.
Qed.
(* and it accounts for every byte. *)
Theorem C53_read_accounts_for_every_byte : forall data, u8s data ->
  exists ls fs, cli_read data = Ok ls /\ Forall2 stands_for ls fs /\ concat fs = data.
Proof.
  intros data U. destruct (drain_total _ U) as (ps & left & E & D). pose proof (reads_drains _ _ _ U D) as R.
  apply (proj2 (C53_read_characterised _ _ U)) in R. eexists. 
  assert (X : exists fs, Forall2 stands_for (map OPacket ps ++ match left with [] => [] | _ :: _ => [OIncomplete left] end) fs /\ concat fs = data).
  { clear E R. induction D as [src E|src p rest ps left E _ IH]; cbn [map app].
    - destruct src as [|x src]; [exists []; split; [constructor | reflexivity]|]. exists [x :: src]. split; [constructor; [reflexivity | constructor] | cbn; rewrite app_nil_r; reflexivity].
    - destruct (decode_some_inv _ _ _ U E) as (raw & Es & _ & _ & HF & _). assert (U' : u8s rest) by (rewrite Es in U; apply u8s_app in U; apply U).
      destruct (IH U') as (fs & F & C). exists (raw :: fs). split; [constructor; [exact HF | exact F]|]. cbn. rewrite C. auto. }
  destruct X as (fs & F & C). exists fs. split; [exact R|]. auto.
Qed.

(* ---- C54 ---- *)
Lemma watch_up h : Forall iop_ok h ->
  match watch h with
  | WConnecting i => irun conn_new h = i /\ (exists s ph p, i = IRun s ph p)
  | WLoop p _ => reachable p
  | _ => True
  end.
Proof.
  induction h as [|o h IH] using rev_ind; intros HO; [split; [reflexivity | repeat eexists]|].
  apply Forall_app in HO as [HO Ho]. inversion Ho as [|? ? Ho' _]; subst. specialize (IH HO). unfold watch in *. rewrite fold_left_app. cbn [fold_left].
  assert (SN : irun conn_new (h ++ [o]) = iop_step (irun conn_new h) o) by (unfold irun; rewrite fold_left_app; reflexivity).
  destruct (fold_left wstep h _) as [i|p log|log|log why]; [| |destruct o; exact Logic.I..].
  - destruct IH as [IH (s & ph & p & E)]. rewrite IH, E in SN. subst i. destruct o as [a|now ws]; cbn [wstep iop_step] in *.
    + rewrite E. split; [exact SN|]. cbn. repeat eexists.
    + rewrite E. destruct (istep now ws (IRun s ph p)) as [s' ph' p'|p'|e|w]; cbn; auto; [split; [exact SN | repeat eexists]|].
      apply connected_reachable. exists (h ++ [IStep now ws]). split; [apply Forall_app; auto | exact SN].
  - destruct o as [a|now ws]; cbn [wstep].
    + eapply (reachable_step p (Arrive a)); [exact IH | exact Ho' | reflexivity].
    + destruct (poll_next now p) as [[[p' r] w]|e|w] eqn:EP; auto.
      assert (R : reachable p') by (eapply (reachable_step p (PollNext now)); [exact IH | exact Logic.I | cbn; rewrite EP; reflexivity]).
      destruct r as [|[[e|e]|]]; auto. destruct (watch_event p' e); auto.
Qed.
Lemma area_is_fun r area x y : area_is r area x -> area_is r area y -> x = y.
Proof. destruct x as [[s u] a], y as [[s' u'] a']. unfold area_is. cbn. intros (A & B & C) (A' & B' & C'). congruence. Qed.
Lemma watch_areas_spec p r r' : as_ok r -> as_ok r' -> names_ok 8 (panel_area_names p) -> forall n k, (k + n = 8)%nat ->
  exists ls as_, watch_areas r r' (panel_area_names p) (seq k n) = Ok ls /\ StronglySorted N.lt as_ /\
    (forall area, In area as_ <-> N.of_nat k < area <= 8 /\ area_differs r r' area) /\ Forall2 (area_line p r r') as_ ls.
Proof.
  intros (L1 & L2 & L3 & _) (L1' & L2' & L3' & _) (LN & FN). induction n as [|n IH]; intros k Hk; cbn [seq watch_areas].
  - exists [], []. split; [reflexivity|]. split; [constructor|]. split; [|constructor]. intros area. cbn. split; [tauto | intros [H _]; lia].
  - destruct (index_ok (arming_status r) k ltac:(lia)) as (s & -> & E1), (index_ok (arming_status r') k ltac:(lia)) as (s' & -> & E1'). cbn [bind].
    destruct (index_ok (up_state r) k ltac:(lia)) as (u & -> & E2), (index_ok (up_state r') k ltac:(lia)) as (u' & -> & E2'). cbn [bind].
    destruct (index_ok (alarm_state r) k ltac:(lia)) as (a & -> & E3), (index_ok (alarm_state r') k ltac:(lia)) as (a' & -> & E3'). cbn [bind].
    destruct (IH (S k) ltac:(lia)) as (ls & as_ & -> & ST & IN & F). cbn [bind].
    assert (EK : N.to_nat (N.of_nat (S k) - 1) = k) by lia.
    assert (A : area_is r (N.of_nat (S k)) (s, u, a)) by (unfold area_is; rewrite EK; auto).
    assert (A' : area_is r' (N.of_nat (S k)) (s', u', a')) by (unfold area_is; rewrite EK; auto).
    destruct (negb _ || negb _ || negb _) eqn:D.
    + destruct (index_ok (panel_area_names p) k ltac:(lia)) as (name & -> & EN). cbn [bind].
      rewrite Forall_forall in FN. destruct (FN _ (nth_error_In _ _ EN)) as [_ PN]. destruct (text_as_str _ PN) as (shown & -> & TR). cbn [bind].
      exists (LArea shown s u a s' u' a' :: ls), (N.of_nat (S k) :: as_). split; [reflexivity|]. split; [|split].
      * constructor; [exact ST|]. apply Forall_forall. intros x Hx. apply IN in Hx. lia.
      * intros area. cbn [In]. rewrite IN. split.
        -- intros [<-|[H1 H2]]; [|split; [lia | exact H2]]. split; [lia|]. exists (s, u, a), (s', u', a'). repeat split; try apply A; try apply A'.
           intros [= -> -> ->]. rewrite !(proj2 (ArmingStatus_eqb_eq _ _) eq_refl), !(proj2 (ArmUpState_eqb_eq _ _) eq_refl), !(proj2 (AlarmState_eqb_eq _ _) eq_refl) in D. discriminate.
        -- intros [H1 H2]. destruct (N.eq_dec (N.of_nat (S k)) area); [auto | right; split; [lia | exact H2]].
      * constructor; [|exact F]. exists name, shown, s, u, a, s', u', a'. rewrite EK. auto.
    + exists ls, as_. split; [reflexivity|]. split; [exact ST|]. split; [|exact F]. intros area. rewrite IN. split; intros [H1 H2]; (split; [|exact H2]); [lia|].
      destruct (N.eq_dec (N.of_nat (S k)) area) as [<-|]; [exfalso|lia]. destruct H2 as (x & x' & X & X' & NE). apply NE.
      rewrite (area_is_fun _ _ _ _ X A), (area_is_fun _ _ _ _ X' A'). apply orb_false_iff in D as [D D3]. apply orb_false_iff in D as [D1 D2].
      apply negb_false_iff in D1, D2, D3. apply ArmingStatus_eqb_eq in D1. apply ArmUpState_eqb_eq in D2. apply AlarmState_eqb_eq in D3. congruence.
Qed.
Lemma differs_irrefl r area : ~ area_differs r r area.
Proof. intros (x & x' & A & A' & NE). apply NE. eapply area_is_fun; eauto. Qed.
Lemma watch_event_spec now p p' r w e : poll_case now p p' r w -> yields r e -> pinv p -> pinv p' -> up p -> 
  exists ls, watch_event p' e = Ok ls /\ tells p p' e ls.
Proof.
  intros PC Y I I' U. destruct (event_arming _ _ _ _ _ _ PC Y I U) as (a & a' & A & A' & EA).
  assert (N1 : names_ok 8 (panel_area_names p') /\ names_ok 208 (zone_names (p_state p'))) by (split; apply I').
  assert (OKa : as_ok a /\ as_ok a').
  { apply status_some in A, A'. pose proof I as (_ & _ & _ & AI & _). pose proof I' as (_ & _ & _ & AI' & _). unfold arming_ok in *. rewrite A in AI. rewrite A' in AI'. split; [apply AI | apply AI']. }
  assert (SN : same_names p p').
  { destruct (poll_event _ _ _ _ _ _ PC Y) as [(pkt & m & _ & _ & _ & _ & S & _)|[(pkt & _ & _ & _ & -> & _)|(d & m & prior & _ & _ & _ & _ & -> & _)]]; [exact S | repeat split..]. }
  assert (SA : panel_area_names p' = panel_area_names p) by apply SN.
  assert (NoArea : a = a' -> exists as_, StronglySorted N.lt as_ /\ (forall area, In area as_ <-> 1 <= area <= 8 /\ area_differs a a' area) /\ Forall2 (area_line p a a') as_ []).
  { intros <-. exists []. split; [constructor|]. split; [|constructor]. intros area. cbn. split; [tauto|]. intros [_ H]. exact (differs_irrefl _ _ H). }
  assert (Arm : e_change e = Some (CArmingStatus a) -> (forall zone new, e_msg e <> Some (inl (MZoneChange (mkZC zone new)))) -> exists ls, watch_event p' e = Ok ls /\ tells p p' e ls).
  { intros EC NZ. unfold watch_event. rewrite EC, A'. cbn [bind]. change NUM_AREAS with 8%nat. destruct (watch_areas_spec p' a a' (proj1 OKa) (proj2 OKa) (proj1 N1) 8 0 eq_refl) as (ls & as_ & -> & ST & IN & F).
    exists ls. split; [reflexivity|]. exists a, a', [], ls. split; [exact A|]. split; [exact A'|]. split; [reflexivity|]. split.
    - exists as_. split; [exact ST|]. split; [intros area; rewrite IN; split; intros [H1 H2]; (split; [lia | exact H2])|].
      unfold area_line in *. rewrite SA in F. exact F.
    - right. split; [|reflexivity]. intros zone prior new E. elim (NZ _ _ E). }
  assert (Quiet : a = a' -> e_change e = None -> (forall zone prior new, e_msg e = Some (inl (MZoneChange (mkZC zone new))) -> zone_status_is p zone prior -> prior = new) -> exists ls, watch_event p' e = Ok ls /\ tells p p' e ls).
  { intros E1 E2 E3. exists []. unfold watch_event. rewrite E2. split; [reflexivity|]. exists a, a', [], []. split; [exact A|]. split; [exact A'|]. split; [reflexivity|]. split; [auto|]. right. auto. }
  destruct EA as [(x & EM & _ & _ & [(_ & _ & -> & _ & EC)|(_ & -> & _ & [[-> EC]|[NE EC]])])|[(EN & d & x & _ & _ & -> & _ & _ & EC)|(NP & RI & -> & _ & NC)]].
  - apply Quiet; auto. intros ? ? ? H. congruence.
  - apply Quiet; auto. intros ? ? ? H. congruence.
  - apply Arm; auto. intros ? ? H. congruence.
  - apply Arm; auto. intros zone new H. destruct (poll_event _ _ _ _ _ _ PC Y) as [(pkt & m & EP & _)|[(pkt & EP & _)|(d' & m & prior & -> & _)]]; [congruence..|discriminate].
  - destruct (poll_event _ _ _ _ _ _ PC Y) as [(pkt & m & EP & PA & W & EM & _ & M & _)|[(pkt & EP & MO & EM & _ & EC & _)|(d' & m & prior & -> & _)]].
    + destruct m; cbn [msg_effect] in M; try (destruct M as (_ & EC & _); apply Quiet; auto; intros ? ? ? H; congruence).
      * exfalso. rewrite EP in RI. cbn [catMaybes] in RI. rewrite (reports_msg _ _ PA) in RI. discriminate.
      * destruct M as [M _]. unfold zone_effect in M. destruct U as [_ (zs & U)]. rewrite U in M. destruct M as (zs' & s & M1 & M2 & M3 & M4 & M5).
        destruct m as [zone new]. cbn [zc_zone zc_status] in *. cbn in W. destruct W as [Wz Ws].
        assert (ZP : zone_status_is p zone s) by (exists zs; split; [apply zones_some; exact U | exact M3]).
        assert (ZP' : zone_status_is p' zone new) by (exists zs'; split; [apply zones_some; exact M1 | rewrite M4, Nat.eqb_refl; reflexivity]).
        destruct (N.eqb_spec s new) as [<-|NE]; [apply Quiet; auto; intros z pr nw H (zs2 & Z1 & Z2); apply zones_some in Z1; rewrite EM in H; injection H as <- <-; congruence|].
        unfold watch_event. rewrite M5. unfold panel_zone_name. rewrite (to_index_ok _ Wz). cbn [bind].
        destruct N1 as [_ [LN FN]]. destruct (index_ok (zone_names (p_state p')) (N.to_nat (zone - 1)) ltac:(unfold zone_ok in Wz; lia)) as (name & EI & EN). rewrite EI. cbn [bind].
        rewrite Forall_forall in FN. destruct (FN _ (nth_error_In _ _ EN)) as [_ PN]. destruct (text_as_str _ PN) as (shown & -> & TR). cbn [bind].
        rewrite (proj2 (zones_some p' zs') M1). cbn [bind]. unfold index at 1. rewrite M4, Nat.eqb_refl. cbn [bind].
        eexists. split; [reflexivity|]. exists a, a, [LZone shown s new], []. split; [exact A|]. split; [exact A'|]. split; [reflexivity|]. split; [auto|]. left.
        exists zone, s, new, name, shown. split; [exact EM|]. split; [exact ZP|]. split; [exact ZP'|]. split; [exact NE|].
        split; [|auto]. unfold panel_zone_name. rewrite (to_index_ok _ Wz). cbn [bind]. rewrite <- (proj1 SN). exact EI.
    + apply Quiet; auto. intros z pr nw H. unfold parse_result in EM. unfold message_of in MO. destruct (parse pkt) as [[m|]|er|why]; congruence.
    + elim (NC prior). reflexivity.
Qed.
(* What watch logs for each poll of the panel: nothing if it waits or ends; it only stops at the end of the stream or on a read
   error; and an event makes it log, in order, the areas whose state differs, or the zone whose status changed. *)
Theorem C54_watch_logs_the_changes : forall h p log now ws, Forall iop_ok h -> watch h = WLoop p log ->
  exists p' r w, poll_next now p = Ok (p', r, w) /\
  match r with
  | Pending => watch (h ++ [IStep now ws]) = WLoop p' log
  | Ready None => watch (h ++ [IStep now ws]) = WDone log
  | Ready (Some (IoErr e)) => watch (h ++ [IStep now ws]) = WCrash log e
  | Ready (Some (IoOk e)) => exists ls, watch (h ++ [IStep now ws]) = WLoop p' (log ++ ls) /\ tells p p' e ls
  end.
Proof.
  intros h p log now ws HO E. pose proof (watch_up h HO) as R. rewrite E in R. destruct (reachable_inv _ R) as [I U].
  destruct (poll_next_spec now p I) as (p' & r & w & EN & I' & P). exists p', r, w. split; [exact EN|].
  unfold watch in *. rewrite !fold_left_app. cbn [fold_left]. rewrite E. cbn [wstep]. rewrite EN.
  destruct r as [|[[e|e]|]]; auto. pose proof (polled_case _ _ _ _ _ P I) as PC.
  destruct (watch_event_spec _ _ _ _ _ _ PC eq_refl I I' U) as (ls & -> & T). eauto.
Qed.
Theorem C54_whole_log : forall h p log, Forall iop_ok h -> watch h = WLoop p log ->
  exists h0 h1 p0, h = h0 ++ h1 /\ irun conn_new h0 = IDone p0 /\ told p0 h1 p log.
Proof.
  induction h as [|o h IH] using rev_ind; intros p log HO E; [discriminate|].
  pose proof HO as HO'. apply Forall_app in HO' as [HOh _]. assert (E' := E). unfold watch in E. rewrite fold_left_app in E. cbn [fold_left] in E. fold (watch h) in E.
  pose proof (watch_up h HOh) as WU. destruct (watch h) as [i|p1 log1|log1|log1 why] eqn:EW; [| |destruct o; discriminate..].
  - destruct WU as [EI (s & ph & q & ->)]. destruct o as [a|now ws]; cbn [wstep] in E; [discriminate|].
    destruct (istep now ws (IRun s ph q)) as [s' ph' p'|p'|e|w] eqn:ES; try discriminate. injection E as <- <-.
    exists (h ++ [IStep now ws]), [], p'. rewrite app_nil_r. split; [reflexivity|]. split; [|constructor].
    unfold irun in *. rewrite fold_left_app. cbn [fold_left]. rewrite EI. exact ES.
  - destruct (IH p1 log1 HOh eq_refl) as (h0 & h1 & p0 & -> & E0 & T). exists h0, (h1 ++ [o]), p0. split; [symmetry; apply app_assoc|]. split; [exact E0|].
    destruct o as [a|now ws]; cbn [wstep] in E; [injection E as <- <-; constructor; exact T|].
    destruct (C54_watch_logs_the_changes _ _ _ now ws HOh EW) as (p' & r & w & EN & M). destruct r as [|[[e|e]|]].
    + rewrite M in E'. injection E' as <- <-. eapply T_wait; eauto.
    + destruct M as (ls & M & TL). rewrite M in E'. injection E' as <- <-. eapply T_event; eauto.
    + rewrite M in E'. discriminate.
    + rewrite M in E'. discriminate.
Qed.

(* ---- examples ---- *)
Example C53_example : cli_read ex_stream =
  Ok [OPacket (PInvalid [222; 173; 190; 239] "bytes without ASCII length or RP prefix");
      OPacket (PAscii ex_ascii_body); OPacket (PRp ex_rp_body); OIncomplete (B "1ECC")] /\ cli_read [] = Ok [].
Proof. vm_compute. split; reflexivity. Qed.
(* area 1 starts its exit timer, zone 2 goes from violated to normal, an exit time changes: two lines *)
Definition ex_watch : list iop :=
  ex_init ++ [IArrive (Bytes (bytes_of (MArmingStatusReport ex_arming) ++ bytes_of (MZoneChange (mkZC 2 2)) ++
    bytes_of (MArmingStatusReport (mkAS (arming_status ex_arming) (up_state ex_arming) (alarm_state ex_arming) 9)))); IStep 7 []; IStep 8 []; IStep 9 []].
Example C54_example :
  match watch ex_watch with WLoop _ log => log | _ => [] end =
  [LArea (B "House") AST_Disarmed AU_ReadyToArm AA_NoAlarmActive AST_ArmedAway AU_ArmedWithExitTimer AA_NoAlarmActive;
   LZone (B "Front DoorKeypad") 9 2].
Proof. vm_compute. reflexivity. Qed.

Print Assumptions C53_read_characterised.
Print Assumptions C53_read_accounts_for_every_byte.
Print Assumptions C54_watch_logs_the_changes.
Print Assumptions C54_whole_log.
