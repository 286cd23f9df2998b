(* ViewFacts.v: the statuses as functions of the packets received, during connect and after. *)
From Verif Require Import Base BaseFacts Pkt SpecPkt PktFacts DecodeFacts Msg SpecMsg DecFacts MsgFacts WireFacts IsoFacts
  Tokio SpecConn ConnFacts State SpecState StateFacts RunFacts HistFacts.
From Coq Require Import ZifyBool ZifyNat ZifyN.
Ltac Zify.zify_post_hook ::= Z.div_mod_to_equations.

Definition latest (p : Panel) : option ArmingStatusReport :=
  match held p with Some m => Some m | None => s_arming (p_state p) end.
(* the reports received are rs: the last is in effect, or held with the one before it in effect *)
Definition seen (p : Panel) (rs : list ArmingStatusReport) : Prop :=
  match held p with
  | Some m => exists rs', rs = rs' ++ [m] /\ s_arming (p_state p) = last (map Some rs') None
  | None => s_arming (p_state p) = last (map Some rs) None
  end.
Lemma last_snoc {A} (l : list A) x d : last (l ++ [x]) d = x.
Proof. induction l as [|y l IH]; [reflexivity|]. cbn. destruct l; [reflexivity | exact IH]. Qed.
Lemma seen_latest p rs : seen p rs -> latest p = last (map Some rs) None.
Proof. unfold seen, latest. destruct (held p) as [m|]; [|auto]. intros (rs' & -> & _). rewrite map_app. cbn [map]. rewrite last_snoc. reflexivity. Qed.
Lemma effect_seen now p p' ch m rs : msg_effect now p p' ch m -> seen p rs ->
  seen p' (rs ++ match as_report m with Some r => [r] | None => [] end).
Proof.
  unfold seen, held. intros M S. destruct m; cbn [msg_effect as_report] in *; try rewrite app_nil_r;
  try (destruct M as (_ & _ & M1 & M2); rewrite M1, M2; exact S).
  - destruct M as [M _]. unfold arming_effect in M. destruct (s_arming (p_state p)) eqn:EA.
    + destruct M as [(P & _ & M1 & -> & _)|(_ & -> & -> & _)]; cbn.
      * rewrite P in S. cbn in S. exists rs. split; [reflexivity | congruence].
      * rewrite map_app. cbn [map]. rewrite last_snoc. reflexivity.
    + destruct M as (-> & -> & _). cbn. rewrite map_app. cbn [map]. rewrite last_snoc. reflexivity.
  - destruct M as (_ & M1 & M2). rewrite M1, M2. exact S.
Qed.
Lemma zone_after_app z s a b : zone_after z s (a ++ b) = zone_after z (zone_after z s a) b.
Proof. apply fold_left_app. Qed.
Lemma effect_zone now p p' ch m zs z : msg_effect now p p' ch m -> wf_message m -> s_zones (p_state p) = Some zs -> zone_ok z ->
  exists zs', s_zones (p_state p') = Some zs' /\
    forall s, nth_error zs (N.to_nat (z - 1)) = Some s -> nth_error zs' (N.to_nat (z - 1)) = Some (zone_after z s [m]).
Proof.
  intros M W EZ Hz. destruct m; cbn [msg_effect] in M;
  try (exists zs; split; [destruct M as (M & _); congruence | intros s Hs; exact Hs]).
  - exists zs. split; [destruct M as (_ & M); congruence | intros s Hs; exact Hs].
  - destruct M as [M _]. unfold zone_effect in M. rewrite EZ in M. destruct M as (zs' & s0 & E1 & L & E2 & E3 & _).
    exists zs'. split; [exact E1|]. intros s Hs. rewrite E3. cbn [zone_after fold_left].
    destruct W as [W _]. unfold zone_ok in W, Hz.
    destruct (Nat.eqb_spec (N.to_nat (z - 1)) (N.to_nat (zc_zone m - 1))) as [EQ|NQ]; destruct (N.eqb_spec (zc_zone m) z) as [EQ'|NQ']; auto; lia.
  - destruct M as (M & _). eexists. split; [exact M|]. intros s Hs. cbn [zone_after fold_left]. apply nth_error_nth'.
    destruct W as [W _]. unfold zone_ok in Hz. lia.
Qed.
(* status lists seen before any history of messages: independent of the start value s *)
Definition zones_from (p : Panel) (ms : list message) : Prop :=
  forall zs, s_zones (p_state p) = Some zs -> forall z, zone_ok z -> forall s, nth_error zs (N.to_nat (z - 1)) = Some (zone_after z s ms).
Lemma effect_zones_from now p p' ch m ms : msg_effect now p p' ch m -> wf_message m -> zones_from p ms -> zones_from p' (ms ++ [m]).
Proof.
  intros M W Z zs' E' z Hz s. destruct (s_zones (p_state p)) as [zs|] eqn:EZ.
  - destruct (effect_zone _ _ _ _ _ _ z M W EZ Hz) as (zs2 & E2 & H). rewrite E' in E2. injection E2 as <-.
    rewrite zone_after_app. apply H. apply Z; auto.
  - rewrite zone_after_app. destruct m; cbn [msg_effect] in M; try (destruct M as (M & _); congruence).
    + destruct M as (_ & M). congruence.
    + destruct M as (M & _). unfold zone_effect in M. rewrite EZ in M. destruct M as (M & _). congruence.
    + destruct M as (M & _). rewrite E' in M. injection M as ->. cbn [zone_after fold_left]. apply nth_error_nth'.
      destruct W as [W _]. unfold zone_ok in Hz. lia.
Qed.

(* ---- connecting ---- *)
Definition viewed (stream : bytes) (p : Panel) : Prop :=
  exists ps, takes stream ps (unread (p_conn p)) /\ seen p (reports_in ps) /\ zones_from p (messages_in ps).
Definition iviewed (stream : bytes) (i : istate) : Prop :=
  match i with IRun _ _ p => viewed stream p | IDone p => viewed stream p | _ => True end.
Lemma viewed_same stream p p' : p_state p' = p_state p -> pending_arm p' = pending_arm p ->
  unread (p_conn p') = unread (p_conn p) -> viewed stream p -> viewed stream p'.
Proof. intros A B C (ps & T & L & Z). exists ps. unfold seen, held, zones_from in *. rewrite A, B, C. auto. Qed.
Lemma viewed_interpret stream now p c pkt p' e w : pinv p -> nexts (p_conn p) c (Ready (Some (IoOk pkt))) ->
  interpret now (with_conn p c) pkt = Ok (p', e, w) -> viewed stream p -> viewed stream p'.
Proof.
  intros I X E (ps & T & L & Z). pose proof I as (CI & _). destruct (nexts_same_write _ _ _ X) as (Ew & _).
  pose proof (with_conn_inv p c I (nexts_inv _ _ _ X CI) Ew) as I'.
  destruct (interpret_spec now (with_conn p c) pkt I' (nexts_pkt_ok _ _ _ X CI)) as (p2 & e2 & w2 & E2 & _ & C2 & Y).
  rewrite E in E2. injection E2 as <- <- <-. pose proof (nexts_unread _ _ _ X CI) as D. cbv beta iota in D.
  exists (ps ++ [pkt]). rewrite C2. cbn [p_conn with_conn]. split; [econstructor; eauto|].
  rewrite reports_in_app, messages_in_app. destruct Y as [_ Y].
  assert (Skip : message_of pkt = None -> p' = with_conn p c ->
    seen p' (reports_in ps ++ reports_in [pkt]) /\ zones_from p' (messages_in ps ++ messages_in [pkt])).
  { intros N ->. assert (EM : messages_in [pkt] = []) by (unfold messages_in; cbn; rewrite N; reflexivity).
    assert (ER : reports_in [pkt] = []) by (unfold reports_in; rewrite EM; reflexivity). rewrite EM, ER, !app_nil_r. auto. }
  destruct (parse pkt) as [[m|]|er|why] eqn:EP; [| | |destruct Y].
  - destruct Y as (_ & _ & M & _). pose proof (parsed_wf _ _ (nexts_pkt_ok _ _ _ X CI) EP) as W.
    assert (EM : messages_in [pkt] = [m]) by (unfold messages_in, message_of; cbn; rewrite EP; reflexivity).
    unfold reports_in at 2. rewrite EM. split.
    + replace (catMaybes (map as_report [m])) with (match as_report m with Some r => [r] | None => [] end) by (cbn; destruct (as_report m); reflexivity).
      eapply effect_seen; [exact M | exact L].
    + eapply effect_zones_from; eauto.
  - apply Skip; [unfold message_of; rewrite EP; reflexivity | tauto].
  - apply Skip; [unfold message_of; rewrite EP; reflexivity | tauto].
Qed.
Lemma viewed_names stream p ty l : viewed stream p -> viewed stream (with_state p (set_names (p_state p) ty l)).
Proof. intros (ps & T & L & Z). exists ps. destruct ty; auto. Qed.
Lemma istep_viewed now ws stream i : iinv i -> iviewed stream i -> iviewed stream (istep now ws i).
Proof.
  destruct i as [s ph p|p|e|w]; auto. intros (I & C & S & W) V. cbn [iviewed] in V. destruct ph; cbn [istep].
  - unfold conn_poll_ready. rewrite W by discriminate. cbn [length]. change (BACKPRESSURE <=? N.of_nat 0) with false. cbv beta iota.
    destruct (to_pkt_spec _ (stage_msg_wf s p S)) as (b & -> & _ & Hb & _). cbn [bind].
    destruct (encode_valid (PAscii b) Hb) as (f & HF & HE). unfold conn_start_send. rewrite HE. cbn [bind iviewed].
    eapply viewed_same; [| | |exact V]; reflexivity.
  - destruct (conn_poll_flush (p_conn p) ws) as [[c ws'] r] eqn:EF.
    destruct (conn_flush_spec _ _ _ _ _ EF) as ((R1 & _ & _ & _ & R2 & _) & _).
    assert (V' : viewed stream (with_conn p c)).
    { eapply viewed_same; [| | |exact V]; try reflexivity. unfold unread. cbn. congruence. }
    destruct r as [|[[]|e]]; cbn [iviewed]; auto.
  - pose proof I as (CI & _). destruct (conn_next_total _ CI) as (c & r & E & X). rewrite E.
    pose proof (nexts_unread _ _ _ X CI) as U. destruct (await_eof_fails s) as (eof & ->).
    destruct r as [|[[pkt|e]|]]; cbn [iviewed]; auto; cbv beta iota in U.
    + eapply viewed_same; [| | |exact V]; try reflexivity. apply U.
    + destruct (interpret now (with_conn p c) pkt) as [[[p' e] w]|e|w] eqn:EI; try exact Logic.I.
      pose proof (viewed_interpret stream _ _ _ _ _ _ _ I X EI V) as V'.
      destruct (e_msg e) as [[m|]|]; try exact V'. destruct (is_response_to m (stage_msg s)); [|exact V'].
      destruct s as [| |ty max i]; cbn [after_reply]; try exact V'.
      unfold sds_reply. destruct m; try exact Logic.I. destruct (negb _); [exact Logic.I|].
      assert (AS : forall q, viewed stream q -> iviewed stream (after_sds ty q)) by (intros q Vq; destruct ty; exact Vq).
      destruct (names_of (p_state p') ty); [|exact Logic.I]. destruct (sd_num m =? 0); [auto|].
      destruct (_ <? _)%nat; [exact Logic.I|]. destruct (set_nth l _ _) as [l'|?|?]; try exact Logic.I.
      destruct (_ <? _)%nat; [|apply AS]; apply viewed_names; exact V'.
Qed.
Lemma iarrived_app a b : iarrived (a ++ b) = iarrived a ++ iarrived b.
Proof. unfold iarrived. rewrite map_app. apply concat_app. Qed.
Lemma iarrived_u8 h : Forall iop_ok h -> u8s (iarrived h).
Proof.
  induction 1 as [|o h H HH IH]; [constructor|]. change (o :: h) with ([o] ++ h). rewrite iarrived_app. apply u8s_app. split; [|exact IH].
  destruct o as [a|now ws]; try constructor. unfold iarrived. cbn [map concat]. rewrite app_nil_r. destruct a; [exact H | constructor | constructor].
Qed.
Lemma irun_snoc c h o : irun c (h ++ [o]) = iop_step (irun c h) o.
Proof. unfold irun. rewrite fold_left_app. reflexivity. Qed.
Lemma irun_viewed h : Forall iop_ok h -> iviewed (iarrived h) (irun conn_new h).
Proof.
  induction h as [|o h IH] using rev_ind; intros HO.
  - exists []. split; [constructor|]. split; [reflexivity | discriminate].
  - apply Forall_app in HO as [HO Ho]. inversion Ho; subst. specialize (IH HO). pose proof (irun_inv h HO) as I.
    pose proof (iarrived_u8 _ HO) as U. rewrite irun_snoc, iarrived_app. destruct o as [a|now ws].
    + replace (iarrived [IArrive a]) with (arrival_data a) by (unfold iarrived; cbn [map concat]; rewrite app_nil_r; reflexivity).
      assert (Ua : u8s (arrival_data a)) by (destruct a; [exact H1 | constructor | constructor]).
      cbn [iop_step]. destruct (irun conn_new h) as [s ph p|p|e|w]; auto; destruct IH as (ps & T & L & Z);
      (exists ps; cbn [p_conn with_conn]; rewrite arrive_unread; split; [apply takes_more; auto | auto]).
    + change (iarrived [IStep now ws]) with (@nil N). rewrite app_nil_r. apply istep_viewed; auto.
Qed.
Lemma connected_viewed h p : Forall iop_ok h -> irun conn_new h = IDone p -> viewed (iarrived h) p.
Proof. intros HO E. pose proof (irun_viewed h HO) as V. rewrite E in V. exact V. Qed.
