(* PropConnect.v: theorems about connecting (state.rs:135-209) to a panel that answers: C36. *)
From Verif Require Import Base BaseFacts Pkt SpecPkt PktFacts DecodeFacts Msg SpecMsg DecFacts MsgFacts WireFacts IsoFacts
  Tokio SpecConn ConnFacts State SpecState StateFacts RunFacts HistFacts ViewFacts SpecInit InitFacts ExState.
From Coq Require Import ZifyBool ZifyNat ZifyN.
Ltac Zify.zify_post_hook ::= Z.div_mod_to_equations.

(* ---- C36 ---- *)
(* Whatever order things happen in, and whatever else the panel sends, connecting does not fail. *)
Theorem C36_connect_does_not_fail : forall nm w, possible nm w ->
  (exists s ph p, w_client w = IRun s ph p) \/ (exists p, w_client w = IDone p).
Proof.
  intros nm w P. destruct (possible_tracked _ _ P) as [(p & qs & fs & E & _)|(V & T)]; [eauto|]. left.
  destruct T as [s p qs fs pk pf C ? ? ?|s p qs fs pk pf part C ? ? ? ? ?|s p qs fs pk pf g C ? ? ? ?|s p qs fs pre y post m' pf1 xf pf2 g C ? ? ? ? ? ? ? ?];
  destruct C as (E & _); eauto.
Qed.
(* And it succeeds, if the client is run, requests are answered and bytes are delivered. *)
Theorem C36_connect_succeeds : forall nm ws acts, execution nm ws acts -> fair ws acts -> exists n p, w_client (ws n) = IDone p.
Proof.
  intros nm ws acts (E0 & X) F. destruct (fair_finishes nm ws acts X F (250, (3, (0, 0)))%nat 0%nat) as (n & p & qs & fs & E & _).
  - rewrite E0. apply tracked_new.
  - eauto.
Qed.
(* What it sends is requests, each at most once and in the order of [ordinal], so at most 250. *)
Lemma in_order_length qs b : in_order qs -> Forall (fun q => exists k, ordinal q = Some k /\ (k < b)%nat) qs -> (length qs <= b)%nat.
Proof.
  intros (ks & E & S) B. assert (L : length qs = length ks) by (apply (f_equal (@length _)) in E; rewrite !map_length in E; exact E).
  rewrite L, <- (seq_length b 0). apply NoDup_incl_length.
  - apply NoDup_nth_error. intros i j Hi Eij. destruct (nth_error ks i) as [a|] eqn:Ea; [|apply nth_error_None in Ea; lia].
    destruct (Nat.lt_total i j) as [Lt|[Q|Lt]]; [|exact Q|]; exfalso.
    + pose proof (S i j a a Lt Ea (eq_sym Eij)). lia.
    + pose proof (S j i a a Lt (eq_sym Eij) Ea). lia.
  - intros k Hk. apply (in_map Some) in Hk. rewrite <- E in Hk. apply in_map_iff in Hk as (q & Eq & Hq).
    rewrite Forall_forall in B. destruct (B q Hq) as (k' & Ek & Lk). rewrite Eq in Ek. injection Ek as <-. apply in_seq. lia.
Qed.
Theorem C36_connect_requests : forall nm w, possible nm w -> exists qs fs rest, Forall2 request_frame qs fs /\
  client_sent (w_client w) ++ rest = concat fs /\ in_order qs /\ (length qs <= 250)%nat /\ 
  (forall p, w_client w = IDone p -> rest = []).
Proof.
  intros nm w P. destruct (possible_tracked _ _ P) as [(p & qs & fs & E & _ & _ & (R1 & R2 & R3) & S & _)|(V & T)].
  - exists qs, fs, []. rewrite E, app_nil_r. split; [exact R1|]. split; [exact S|]. split; [exact R2|]. split; [apply in_order_length; auto | auto].
  - assert (G : forall s ph p qs fs pk pf f, common nm w s ph p qs fs pk pf -> request_frame (stage_msg s) f ->
      requests_ok (qs ++ [stage_msg s]) (fs ++ [f]) 250).
    { intros s ph p qs fs pk pf f (_ & (_ & _ & SO & _) & _ & _ & _ & _ & _ & A8 & _) F. eapply requests_snoc; eauto. eapply pos_lt; eauto. }
    destruct T as [s p qs fs pk pf C S ? ?|s p qs fs pk pf part C S Q ? ? ?|s p qs fs pk pf g C S Q ? ?|s p qs fs pre y post m' pf1 xf pf2 g C S Q ? ? ? ? ? ?];
    pose proof C as (E & (_ & _ & SO & _) & _ & _ & _ & _ & _ & A8 & _); rewrite E; cbn [client_sent].
    + exists qs, fs, []. destruct A8 as (R1 & R2 & R3). rewrite app_nil_r. split; [exact R1|]. split; [exact S|]. split; [exact R2|]. split; [|auto].
      pose proof (in_order_length _ _ R2 R3). pose proof (pos_lt _ _ SO). lia.
    + destruct (G _ _ _ _ _ _ _ _ C Q) as (R1 & R2 & R3). exists (qs ++ [stage_msg s]), (fs ++ [part ++ wbuf (p_conn p)]), (wbuf (p_conn p)).
      split; [exact R1|]. split; [rewrite S, concat_app; cbn; rewrite app_nil_r, <- app_assoc; reflexivity|]. split; [exact R2|]. split; [apply in_order_length; auto | discriminate].
    + destruct (G _ _ _ _ _ _ _ _ C Q) as (R1 & R2 & R3). exists (qs ++ [stage_msg s]), (fs ++ [g]), []. rewrite app_nil_r.
      split; [exact R1|]. split; [rewrite S, concat_app; cbn; rewrite app_nil_r; reflexivity|]. split; [exact R2|]. split; [apply in_order_length; auto | auto].
    + destruct (G _ _ _ _ _ _ _ _ C Q) as (R1 & R2 & R3). exists (qs ++ [stage_msg s]), (fs ++ [g]), []. rewrite app_nil_r.
      split; [exact R1|]. split; [rewrite S, concat_app; cbn; rewrite app_nil_r; reflexivity|]. split; [exact R2|]. split; [apply in_order_length; auto | auto].
Qed.
(* When it is done, it knows the panel's names ... *)
Theorem C36_connect_names : forall nm w p, possible nm w -> w_client w = IDone p -> names_known nm p.
Proof.
  intros nm w p P E. destruct (possible_tracked _ _ P) as [(p' & qs & fs & E' & _ & (F1 & F2 & F3) & _)|(V & T)].
  2: { destruct T as [s q qs fs pk pf C ? ? ?|s q qs fs pk pf part C ? ? ? ? ?|s q qs fs pk pf g C ? ? ? ?|s q qs fs pre y post m' pf1 xf pf2 g C ? ? ? ? ? ? ? ?];
       destruct C as (E' & _); congruence. }
  rewrite E in E'. injection E' as <-. intros ty n T N.
  assert (G : forall l k, names_of (p_state p) ty = Some l -> k = N.to_nat (count_of ty) -> filled nm l ty k -> name_known nm p ty n).
  { intros l k El -> Fl. eexists l, _. split; [exact El|]. split; [apply Fl; lia|].
    rewrite (proj2 (Nat.ltb_lt (N.to_nat (n - 1)) (N.to_nat (count_of ty)))) by lia. replace (N.of_nat (N.to_nat (n - 1)) + 1) with n by lia. cbn [andb].
    destruct (showb (nm ty n)) eqn:ES; [left; apply showb_spec in ES; auto | right; apply showb_false in ES; auto]. }
  cbn [In] in T. destruct T as [<-|[<-|[<-|[]]]]; eapply G; try reflexivity; assumption.
Qed.
(* ... and the state last reported by what it received (see C29 and C30 for what follows; a first report of being armed may be held back). *)
Theorem C36_connect_states : forall nm w p, possible nm w -> w_client w = IDone p -> exists ps rest, w_out w = ps ++ rest /\
  (forall z s, zone_ok z -> zone_status_is p z (zone_after z s (messages_in ps))) /\
  exists r, last (map Some (reports_in ps)) None = Some r /\ (held p = Some r \/ held p = None /\ status_is p r).
Proof.
  intros nm w p P E. destruct (possible_viewed _ _ _ P E) as (ps & rest & EO & L & Z). exists ps, rest. split; [exact EO|].
  destruct (possible_tracked _ _ P) as [(p' & qs & fs & E' & (I & _ & (U1 & U2) & _) & _)|(V & T)].
  2: { destruct T as [s q qs fs pk pf C ? ? ?|s q qs fs pk pf part C ? ? ? ? ?|s q qs fs pk pf g C ? ? ? ?|s q qs fs pre y post m' pf1 xf pf2 g C ? ? ? ? ? ? ? ?];
       destruct C as (E' & _); congruence. }
  rewrite E in E'. injection E' as <-. split.
  - intros z s Hz. destruct U2 as (zs & U2). exists zs. unfold panel_zone_statuses. rewrite U2. split; [reflexivity|]. apply Z; auto.
  - rewrite <- L. unfold latest. destruct U1 as (r & U1). destruct (held p) as [r'|]; [eauto|]. exists r. split; [exact U1|]. right. split; [reflexivity|].
    unfold status_is, panel_arming_status. rewrite U1. reflexivity.
Qed.

(* ---- an example: a fair execution ---- *)
Definition ex_naming : naming := fun ty n =>
  match ty with
  | TT_Area => if n =? 1 then B "House           " else TextDescription_EMPTY
  | TT_Zone => if n =? 2 then B "Front DoorKeypad" else TextDescription_EMPTY
  | _ => TextDescription_EMPTY
  end.
Definition ex_sd (ty : TextDescriptionType) (n : N) : message := MStringDescriptionRequest (mkSdReq ty n).
Definition ex_requests : list message :=
  [MArmingStatusRequest; MZoneStatusRequest; ex_sd TT_Area 1; ex_sd TT_Area 2; ex_sd TT_Task 1; ex_sd TT_Zone 1; ex_sd TT_Zone 3].
Definition ex_answers : list message :=
  [MArmingStatusReport ex_disarmed; MZoneStatusReport ex_zones;
   MStringDescriptionResponse (mkSdResp TT_Area 1 (B "House           ")); MStringDescriptionResponse (mkSdResp TT_Area 0 TextDescription_EMPTY);
   MStringDescriptionResponse (mkSdResp TT_Task 0 TextDescription_EMPTY);
   MStringDescriptionResponse (mkSdResp TT_Zone 2 (B "Front DoorKeypad")); MStringDescriptionResponse (mkSdResp TT_Zone 0 TextDescription_EMPTY)].
Definition ex_pkt (m : message) : packet := match to_pkt m with Ok p => p | _ => PRp [] end.
Lemma ex_bytes m : wf_message m -> exists body, ex_pkt m = PAscii body /\ wire m body /\ ascii_body body /\ ascii_frame body (bytes_of m).
Proof.
  intros W. destruct (to_pkt_spec m W) as (body & E & Hw & Hb & _). exists body. unfold ex_pkt, bytes_of. rewrite E.
  destruct (encode_valid (PAscii body) Hb) as (f & HF & HE). rewrite HE. cbn [app]. auto.
Qed.
Inductive mv : Type := MvClient | MvUnrelated | MvReply | MvDeliver.
Definition ex_extra : message := MZoneChange (mkZC 2 1).
Definition ex_answer (w : world) : message := nth (w_replied w) ex_answers MRtcRequest.
Definition move (w : world) (v : mv) : world :=
  match v with
  | MvClient => mkWorld (istep 0 [WAccept 100] (w_client w)) (w_out w) (w_net w) (w_replied w)
  | MvUnrelated => mkWorld (w_client w) (w_out w ++ [ex_pkt ex_extra]) (w_net w ++ bytes_of ex_extra) (w_replied w)
  | MvReply => mkWorld (w_client w) (w_out w ++ [ex_pkt (ex_answer w)]) (w_net w ++ bytes_of (ex_answer w)) (S (w_replied w))
  | MvDeliver => mkWorld (iarrive (Bytes (w_net w)) (w_client w)) (w_out w) [] (w_replied w)
  end.
Definition act_of (v : mv) : act :=
  match v with MvClient => AClient 0 [WAccept 100] | MvUnrelated => AUnrelated | MvReply => AReply | MvDeliver => ADeliver end.
Definition bytes_eqb (a b : bytes) : bool := if list_eq_dec N.eq_dec a b then true else false.
Definition can_move (w : world) (v : mv) : bool :=
  match v with
  | MvReply => (w_replied w <? length ex_requests)%nat &&
      bytes_eqb (client_sent (w_client w)) (concat (map bytes_of (firstn (S (w_replied w)) ex_requests)))
  | MvDeliver => negb (bytes_eqb (w_net w) [])
  | _ => true
  end.
Fixpoint can_moves (w : world) (vs : list mv) : bool :=
  match vs with [] => true | v :: vs' => can_move w v && can_moves (move w v) vs' end.
Definition ex_moves : list mv :=
  [MvUnrelated] ++ concat (repeat [MvClient; MvClient; MvClient; MvReply; MvDeliver; MvClient] 7) ++ [MvClient].
Fixpoint after (w : world) (vs : list mv) (n : nat) : world :=
  match n, vs with S n', v :: vs' => after (move w v) vs' n' | O, _ => w | S n', [] => after (move w MvClient) [] n' end.
Definition ex_worlds : nat -> world := after world_new ex_moves.
Definition ex_acts (n : nat) : act := act_of (nth n ex_moves MvClient).
Lemma ex_frames qs : Forall wf_message qs -> Forall2 request_frame qs (map bytes_of qs).
Proof.
  induction 1 as [|q qs W H IH]; [constructor|]. constructor; [|exact IH]. destruct (ex_bytes q W) as (body & _ & Hw & _ & HF). split; [exact W | eauto].
Qed.
Lemma ex_requests_ok : Forall wf_message ex_requests.
Proof. repeat constructor; discriminate. Qed.
Lemma ex_answers_ok : Forall wf_message ex_answers.
Proof. repeat constructor; discriminate. Qed.
Lemma blank_not_shown : ~ is_shown TextDescription_EMPTY.
Proof. intros H. apply H. reflexivity. Qed.
Lemma ex_answers_right : Forall2 (answers ex_naming) ex_requests ex_answers.
Proof.
  assert (NB : forall (b : bool) (s : bytes), b = false -> ~ is_shown (if b then s else TextDescription_EMPTY)) by (intros b s -> ; exact blank_not_shown).
  repeat apply Forall2_cons; try exact Logic.I; try apply Forall2_nil; (split; [reflexivity|]); cbn [sdq_num sd_num sd_ty sd_text ex_naming count_of].
  - left. split; [lia|]. split; [reflexivity|]. split; [discriminate|]. intros j Hj. lia.
  - right. split; [reflexivity|]. intros j Hj. apply NB. lia.
  - right. split; [reflexivity|]. intros j Hj. apply blank_not_shown.
  - left. split; [lia|]. split; [reflexivity|]. split; [discriminate|]. intros j Hj. apply NB. lia.
  - right. split; [reflexivity|]. intros j Hj. apply NB. lia.
Qed.
Lemma Forall2_nth {A B} (R : A -> B -> Prop) l l' i a d : Forall2 R l l' -> nth_error l i = Some a -> R a (nth i l' d).
Proof. intros H. revert i. induction H as [|x y l l' H HF IH]; intros [|i] E; try discriminate; cbn in *; [injection E as <-; exact H | auto]. Qed.
Lemma bytes_eqb_eq a b : bytes_eqb a b = true <-> a = b.
Proof. unfold bytes_eqb. destruct (list_eq_dec N.eq_dec a b); split; congruence. Qed.
Lemma can_move_happens w v : can_move w v = true -> happens ex_naming w (act_of v) (move w v).
Proof.
  destruct v; cbn [can_move act_of move]; intros H.
  - constructor. repeat constructor. discriminate.
  - assert (W : wf_message ex_extra) by (repeat constructor; discriminate). destruct (ex_bytes _ W) as (body & E & Hw & Hb & HF). rewrite E.
    apply (H_unrelated ex_naming w (PAscii body) _ Hb); [|exact HF]. intros (r & Hr). unfold message_of in Hr. cbn [parse] in Hr.
    rewrite (proj2 (parse_some_iff body ex_extra)) in Hr; [discriminate | apply wire_grammar; auto].
  - apply andb_true_iff in H as [H1 H2]. apply bytes_eqb_eq in H2. apply Nat.ltb_lt in H1.
    destruct (nth_error ex_requests (w_replied w)) as [q|] eqn:EQ; [|apply nth_error_None in EQ; lia].
    assert (W : wf_message (ex_answer w)).
    { pose proof ex_answers_ok as OK. rewrite Forall_forall in OK. apply OK. unfold ex_answer. apply nth_In. exact H1. }
    destruct (ex_bytes _ W) as (body & E & Hw & Hb & HF). rewrite E.
    refine (H_reply ex_naming w q (ex_answer w) body _ _ _ _ Hb HF); [|apply (Forall2_nth _ _ _ _ _ MRtcRequest ex_answers_right EQ) | apply wire_grammar; auto].
    pose proof EQ as ES. apply nth_error_split in ES as (l1 & l2 & ES & EL). exists l1, (map bytes_of (l1 ++ [q])), []. split; [|split; [|exact EL]].
    + apply ex_frames. pose proof ex_requests_ok as OK. rewrite ES in OK. apply Forall_app in OK as [OK1 OK2]. inversion OK2; subst. apply Forall_app. auto.
    + rewrite H2, app_nil_r. do 2 f_equal. rewrite ES, <- EL. replace (S (length l1)) with (length l1 + 1)%nat by lia. rewrite firstn_app_2. reflexivity.
  - apply (H_deliver ex_naming w (w_net w) []); [rewrite app_nil_r; reflexivity|]. intros E. rewrite E in H. discriminate H.
Qed.
Lemma can_moves_happen vs : forall w, can_moves w vs = true ->
  forall n, happens ex_naming (after w vs n) (act_of (nth n vs MvClient)) (after w vs (S n)).
Proof.
  induction vs as [|v vs IH]; intros w H n.
  - replace (nth n [] MvClient) with MvClient by (destruct n; reflexivity). clear H. revert w. induction n as [|n IHn]; intros w.
    + apply (can_move_happens w MvClient). reflexivity.
    + apply (IHn (move w MvClient)).
  - cbn [can_moves] in H. apply andb_true_iff in H as [H1 H2]. destruct n as [|n].
    + cbn [after nth]. destruct vs; apply can_move_happens; exact H1.
    + apply (IH (move w v) H2 n).
Qed.
Lemma ex_can_move : can_moves world_new ex_moves = true.
Proof. vm_compute. reflexivity. Qed.
Definition ex_last : world := Eval vm_compute in after world_new ex_moves (length ex_moves).
Lemma after_end vs : forall w n, (length vs <= n)%nat -> after w vs n = after (after w vs (length vs)) [] (n - length vs).
Proof. induction vs as [|v vs IH]; intros w n L; [rewrite Nat.sub_0_r; reflexivity|]. destruct n as [|n]; [cbn in L; lia|]. apply IH. cbn in L. lia. Qed.
Lemma ex_rests n : after ex_last [] n = ex_last.
Proof. induction n as [|n IH]; [reflexivity|]. change (after (move ex_last MvClient) [] n = ex_last). replace (move ex_last MvClient) with ex_last by reflexivity. exact IH. Qed.
Lemma ex_ends n : (length ex_moves <= n)%nat -> ex_worlds n = ex_last.
Proof. intros L. unfold ex_worlds. rewrite after_end by exact L. replace (after world_new ex_moves (length ex_moves)) with ex_last by (vm_compute; reflexivity). apply ex_rests. Qed.
Example C36_example : execution ex_naming ex_worlds ex_acts /\ fair ex_worlds ex_acts /\
  (forall n, possible ex_naming (ex_worlds n)) /\
  exists p, w_client (ex_worlds 44) = IDone p /\ s_arming (p_state p) = Some ex_disarmed /\ s_zones (p_state p) = Some ex_zones /\
    nth_error (area_names (p_state p)) 0 = Some (B "House           ") /\ nth_error (zone_names (p_state p)) 1 = Some (B "Front DoorKeypad").
Proof.
  assert (X : execution ex_naming ex_worlds ex_acts) by (split; [reflexivity|]; intros n; apply can_moves_happen, ex_can_move).
  split; [exact X|]. split; [|split].
  - split; [|split]; intros n; exists (n + length ex_moves)%nat; (split; [lia|]).
    + unfold ex_acts. rewrite nth_overflow by lia. exact Logic.I.
    + right. intros q (qs & fs & rest & F & E & L). rewrite ex_ends in E, L by lia.
      assert (E2 : client_sent (w_client ex_last) = concat (map bytes_of ex_requests) ++ []) by (vm_compute; reflexivity).
      rewrite E2 in E. destruct (requests_unique _ _ (ex_frames _ ex_requests_ok) _ _ _ _ F E) as (c & EC); [constructor | reflexivity|].
      apply (f_equal (@length _)) in EC. rewrite !app_length, L in EC. vm_compute in EC. lia.
    + right. rewrite ex_ends by lia. reflexivity.
  - induction n as [|n IH]; [exact (P_new _)|]. eapply P_step; [exact IH | apply X].
  - eexists. split; [vm_compute; reflexivity|]. repeat split; vm_compute; reflexivity.
Qed.

Print Assumptions C36_connect_does_not_fail.
Print Assumptions C36_connect_succeeds.
Print Assumptions C36_connect_requests.
Print Assumptions C36_connect_names.
Print Assumptions C36_connect_states.
