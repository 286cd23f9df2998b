(* PropSend.v: theorem C93, commands sent to a panel that answers (state.rs). *)
From Verif Require Import Base BaseFacts Pkt SpecPkt PktFacts DecodeFacts Msg SpecMsg DecFacts MsgFacts WireFacts IsoFacts
  Tokio SpecConn ConnFacts State SpecState StateFacts RunFacts HistFacts ViewFacts ExState PropState PropSink PropLive
  SpecInit InitFacts PropConnect SpecSend SendFacts.
From Coq Require Import ZifyBool ZifyNat ZifyN.
Ltac Zify.zify_post_hook ::= Z.div_mod_to_equations.

(* ------------------------------------------------------------------ C93 *)
(* The commands cs, and those l given meanwhile, are sent one after the other while events are read; the panel may send any
   packets in between, and bytes arrive and are taken in pieces of any size.  Whatever the order of all this, nothing fails, and
   the commands are completed in the order they were given: those completed, the one outstanding if any, those still to be
   sent, make up cs and l. *)
Lemma started (h : option (list Command)) (may : packet -> Prop) p net cs pk l x : healthy p -> outstanding p = [] ->
  Forall (fun c => wf_message (into_msg c)) cs -> under_way p net pk ->
  (forall all, h = Some all -> (forall pkt, may pkt -> ~ answers_one all pkt) /\ Forall (fun pkt => ~ answers_one all pkt) pk /\ incl (cs ++ l) all) ->
  after may (base_of p) (exchange_new p net cs) l x ->
  exists p' todo fl done acc fs pk' pf, inv h (cs ++ l) (base_of p) x p' todo fl done acc fs pk' pf.
Proof.
  intros HL O W U HM A. induction A as [|l x a x' A IH M].
  - destruct (inv_new h p net cs pk HL O W U) as (pf & K).
    { intros all Hh. destruct (HM all Hh) as (_ & X & Y). split; [|exact X]. rewrite app_nil_r in Y. exact Y. }
    rewrite app_nil_r. eauto 10.
  - destruct IH as (p' & todo & fl & done & acc & fs & pk' & pf & K).
    { intros all Hh. destruct (HM all Hh) as (X & Y & Z). split; [exact X|]. split; [exact Y|]. rewrite app_assoc in Z. intros y Hy. apply Z, in_or_app. auto. }
    assert (F : fits h may a). { intros all Hh. destruct (HM all Hh) as (X & Y & Z). split; [exact X|]. intros y Hy. apply Z. rewrite app_assoc. apply in_or_app. auto. }
    destruct (inv_move _ _ _ _ _ _ _ _ _ _ _ _ _ _ _ F K M) as (p2 & t2 & fl2 & d2 & a2 & f2 & k2 & kf2 & K2 & _). rewrite app_assoc. eauto 10.
Qed.
Theorem C93_completed_in_order : forall (may : packet -> Prop) p net cs pk l x,
  healthy p -> outstanding p = [] -> Forall (fun c => wf_message (into_msg c)) cs -> under_way p net pk ->
  after may (base_of p) (exchange_new p net cs) l x ->
  s_failed (x_caller x) = false /\
  map into_msg (cs ++ l) = s_done (x_caller x) ++ outstanding (s_panel (x_caller x)) ++ map into_msg (s_todo (x_caller x)).
Proof.
  intros may p net cs pk l x HL O W U A.
  destruct (started None may p net cs pk l x HL O W U ltac:(discriminate) A) as (p' & todo & fl & done & acc & fs & pk' & pf & K).
  destruct K as (E & _ & _ & (B1 & _ & _ & _ & B5) & _). rewrite E. cbn [s_failed s_done s_panel s_todo]. split; [reflexivity|].
  rewrite B1, map_app, B5, app_assoc. reflexivity.
Qed.
(* If both tasks keep running, the panel answers what it receives and the network delivers what is sent, then whatever has been
   given at some time is completed sooner or later, in order, once each. *)
Theorem C93_all_completed : forall (may : packet -> Prop) p net cs pk xs acts k,
  healthy p -> outstanding p = [] -> Forall (fun c => wf_message (into_msg c)) cs -> under_way p net pk ->
  unfolds may (base_of p) (exchange_new p net cs) xs acts -> just (base_of p) xs acts ->
  exists n, forall m, (n <= m)%nat -> s_failed (x_caller (xs m)) = false /\
    exists later, s_done (x_caller (xs m)) = map into_msg (cs ++ given acts k) ++ later.
Proof.
  intros may p net cs pk xs acts k HL O W U (E0 & X) J.
  assert (HM : forall n, fits None may (acts n)) by (intros n all; discriminate).
  set (g := length (cs ++ given acts k)).
  assert (S : exists n, (k <= n)%nat /\ served None (cs ++ given acts n) (base_of p) g (xs n)).
  { destruct (inv_new None p net cs pk HL O W U ltac:(discriminate)) as (pf & K). rewrite <- E0 in K.
    destruct (run_inv None may cs _ xs acts HM X _ _ _ _ _ _ _ _ K k) as (p' & todo & fl & done & acc & fs & pk' & pf' & K').
    assert (S : exists n, served None (cs ++ given acts n) (base_of p) g (xs n)).
    { destruct (inv_rated _ _ _ g _ _ _ _ _ _ _ _ _ K' (le_n _)) as [S|(V & T & _)]; [eauto|]. exact (just_serves None may cs _ g xs acts HM X J V k T). }
    destruct S as (n & S). exists (n + k)%nat. split; [lia|]. apply (stays_served None may cs _ g xs acts HM X n S). lia. }
  destruct S as (n & L & S). exists n. intros m Lm.
  destruct (stays_served None may cs _ g xs acts HM X n S m Lm) as (p' & todo & fl & done & acc & fs & pk' & pf & (E & _ & _ & (B1 & _ & _ & _ & B5) & _) & LD).
  rewrite E. cbn [s_done s_failed]. split; [reflexivity|].
  assert (GM : exists more, given acts m = given acts k ++ more).
  { replace m with ((m - k) + k)%nat by lia. generalize (m - k)%nat as j. induction j as [|j (more & IH)]; [exists []; rewrite app_nil_r; reflexivity|].
    change (Datatypes.S j + k)%nat with (Datatypes.S (j + k)). cbn [given]. rewrite IH. rewrite <- app_assoc. eauto. }
  destruct GM as (more & GM). rewrite GM, app_assoc in B1. exists (skipn g done).
  assert (EA : firstn g done = map into_msg (cs ++ given acts k)).
  { apply (f_equal (map into_msg)) in B1. rewrite !map_app, B5, <- map_app, <- app_assoc in B1. apply (f_equal (firstn g)) in B1.
    rewrite !firstn_app in B1. unfold g in B1 at 1 2. rewrite map_length, Nat.sub_diag, <- (map_length into_msg (cs ++ _)), firstn_all in B1.
    replace (g - length done)%nat with 0%nat in B1 by lia. cbn [firstn] in B1. rewrite !app_nil_r in B1. symmetry. exact B1. }
  rewrite <- EA. symmetry. apply firstn_skipn.
Qed.
(* If no more are given from some time on, then in the end nothing is left to do. *)
Lemma given_same acts k : (forall n, (k <= n)%nat -> given_in (acts n) = []) -> forall m, (k <= m)%nat -> given acts m = given acts k.
Proof.
  intros Z m L. replace m with ((m - k) + k)%nat by lia. generalize (m - k)%nat as j. induction j as [|j IH]; [reflexivity|].
  change (S j + k)%nat with (S (j + k)). cbn [given]. rewrite IH, Z by lia. apply app_nil_r.
Qed.
Lemma unfolds_after may base x0 xs acts : unfolds may base x0 xs acts -> forall n, after may base x0 (given acts n) (xs n).
Proof. intros (E & X) n. induction n as [|n IH]; [rewrite E; constructor|]. cbn [given]. eapply A_move; eauto. Qed.
Theorem C93_finishes : forall (may : packet -> Prop) p net cs pk xs acts k,
  healthy p -> outstanding p = [] -> Forall (fun c => wf_message (into_msg c)) cs -> under_way p net pk ->
  unfolds may (base_of p) (exchange_new p net cs) xs acts -> just (base_of p) xs acts -> (forall n, (k <= n)%nat -> given_in (acts n) = []) ->
  exists n, forall m, (n <= m)%nat -> s_done (x_caller (xs m)) = map into_msg (cs ++ given acts k) /\ s_todo (x_caller (xs m)) = [] /\
    outstanding (s_panel (x_caller (xs m))) = [] /\ s_failed (x_caller (xs m)) = false.
Proof.
  intros may p net cs pk xs acts k HL O W U X J Z. destruct (C93_all_completed may p net cs pk xs acts k HL O W U X J) as (n & H).
  exists (n + k)%nat. intros m L. destruct (H m ltac:(lia)) as (F & later & D).
  destruct (C93_completed_in_order may p net cs pk _ _ HL O W U (unfolds_after _ _ _ _ _ X m)) as (_ & E). rewrite (given_same acts k Z m) in E by lia.
  rewrite D, <- app_assoc in E. rewrite <- (app_nil_r (map into_msg _)) in E at 1. apply app_inv_head in E. symmetry in E.
  apply app_eq_nil in E as [-> E]. apply app_eq_nil in E as [EO ET]. apply map_eq_nil in ET. rewrite D, app_nil_r. auto.
Qed.

(* A command completed has been received by the panel in full, with all before it, unless the panel sends of its own accord
   what looks like an answer. *)
Lemma task_put t ws s : exists b, sent (p_conn (s_panel (send_task t ws s))) = sent (p_conn (s_panel s)) ++ b.
Proof.
  destruct s as [p todo fl done failed]. assert (Z : exists b, sent (p_conn p) = sent (p_conn p) ++ b) by (exists []; symmetry; apply app_nil_r).
  destruct fl; cbn [send_task].
  - unfold poll_flush, panel_flush. destruct (cmd_state p) as [|q f k]; [exact Z|]. destruct f; [exact Z|].
    destruct (conn_poll_flush (p_conn p) ws) as [[c ws'] r] eqn:EF. destruct (conn_flush_spec _ _ _ _ _ EF) as (_ & _ & _ & (n & K) & _).
    destruct r as [|[[]|e]]; cbn [s_panel p_conn with_conn with_cmd]; eauto.
  - destruct todo as [|c todo]; [exact Z|]. destruct (poll_ready t ws p) as [p' r] eqn:ER.
    assert (ZR : exists b, sent (p_conn p') = sent (p_conn p) ++ b).
    { unfold poll_ready in ER. destruct (cmd_state p) as [|q f k]; [injection ER as <- <-; exact Z|]. destruct f; [injection ER as <- <-; exact Z|].
      destruct (conn_poll_flush (p_conn p) ws) as [[c' ws'] r'] eqn:EF. destruct (conn_flush_spec _ _ _ _ _ EF) as (_ & _ & _ & (n & K) & _).
      destruct r' as [|[[]|e]]; injection ER as <- <-; cbn [p_conn with_conn with_cmd]; eauto. }
    destruct r as [|[[]|e]]; cbn [s_panel]; auto. destruct (start_send c p') as [p2|?|?] eqn:ES; cbn [s_panel]; auto.
    destruct ZR as (b & ZR). exists b. rewrite <- ZR. unfold start_send in ES. destruct (cmd_state p'); [|discriminate].
    apply bind_inv in ES as (pkt & _ & ES). apply bind_inv in ES as (c2 & E2 & [= <-]). apply conn_start_send_spec in E2 as (buf & _ & ->). reflexivity.
Qed.
Definition heard (base : bytes) (x : exchange) : Prop := x_replied x = 0%nat \/
  exists qs fs rest, Forall2 request_frame qs fs /\ put x = base ++ concat fs ++ rest /\ length qs = x_replied x.
Lemma heard_more base x x' b : heard base x -> put x' = put x ++ b -> x_replied x' = x_replied x -> heard base x'.
Proof.
  intros [H|(qs & fs & rest & F & E & L)] P R; [left; congruence|]. right. exists qs, fs, (rest ++ b). split; [exact F|]. split; [|congruence].
  rewrite P, E, <- !app_assoc. reflexivity.
Qed.
Theorem C93_completed_was_received : forall (may : packet -> Prop) p net cs pk l x,
  healthy p -> outstanding p = [] -> Forall (fun c => wf_message (into_msg c)) cs -> under_way p net pk ->
  (forall pkt, may pkt -> ~ answers_one (cs ++ l) pkt) -> Forall (fun pkt => ~ answers_one (cs ++ l) pkt) pk ->
  after may (base_of p) (exchange_new p net cs) l x -> s_done (x_caller x) <> [] ->
  exists fs rest, Forall2 request_frame (s_done (x_caller x)) fs /\ put x = base_of p ++ concat fs ++ rest.
Proof.
  intros may p net cs pk l x HL O W U HM HP A ND.
  assert (H : heard (base_of p) x).
  { clear HM HP ND. induction A as [|l x a x' A IH M]; [left; reflexivity|].
    destruct (started None may p net cs pk l x HL O W U ltac:(discriminate) A) as (p' & todo & fl & done & acc & fs & pk' & pf & K).
    destruct M as [t ws HW|now|pkt f Vp Mp Fp|q m body f N R G Hb HF|y z E Na|c Wc|].
    - destruct (task_put t ws (x_caller x)) as (b & P). exact (heard_more _ _ (mkExchange _ _ _) b IH P eq_refl).
    - destruct (read_states _ _ _ _ _ _ _ _ _ _ _ _ now K) as (p2 & done' & pk2 & pf2 & (E2 & _) & (_ & SW & _) & _). destruct K as (E & _).
      apply (heard_more _ _ _ [] IH); [|reflexivity]. unfold put. cbn [x_caller] in *. rewrite E2, E. cbn [s_panel]. rewrite app_nil_r. exact SW.
    - apply (heard_more _ _ (mkExchange _ _ _) [] IH); [symmetry; apply app_nil_r | reflexivity].
    - right. destruct N as (qs & fs0 & rest & F & E & L). exists (qs ++ [q]), fs0, rest. split; [exact F|]. split; [exact E|].
      rewrite app_length. cbn [length x_replied]. lia.
    - apply (heard_more _ _ (mkExchange _ _ _) [] IH); [symmetry; apply app_nil_r | reflexivity].
    - apply (heard_more _ _ (mkExchange _ _ _) [] IH); [symmetry; apply app_nil_r | reflexivity].
    - exact IH. }
  assert (HA : forall all, Some (cs ++ l) = Some all -> (forall pkt, may pkt -> ~ answers_one all pkt) /\ Forall (fun pkt => ~ answers_one all pkt) pk /\ incl (cs ++ l) all)
    by (intros all [= <-]; split; [exact HM | split; [exact HP | apply incl_refl]]).
  destruct (started (Some (cs ++ l)) may p net cs pk l x HL O W U HA A) as (p' & todo & fl & done & acc & fs & pk' & pf & K).
  pose proof K as (E & _ & _ & (B1 & B2 & B3 & B4 & B5) & _ & _ & _ & _ & B9). destruct (B9 _ eq_refl) as [_ B9']. clear B9. rename B9' into B9. rewrite E in *. cbn [s_done] in *.
  destruct H as [H|(qs & gs & rest & F & P & L)]; [destruct done; [congruence | cbn in B9; lia]|].
  (* the panel heard the first so many of those accepted *)
  assert (PR : exists c, map into_msg acc = qs ++ c).
  { unfold put in P. rewrite E in P. cbn [s_panel] in P. unfold written in B4. rewrite P, <- app_assoc in B4. apply app_inv_head in B4.
    pose proof (accepted_requests _ _ _ _ B1 B2 B3) as R. destruct (cut_frames _ _ _ (eq_sym B4)) as (f1 & part & f2 & EF & EP & H).
    rewrite EF in R. apply Forall2_app_inv_r in R as (a1 & a2 & R1 & R2 & EA).
    assert (D : u8s part /\ decode part = Ok (None, part)).
    { destruct H as [->|(g & r2 & f3 & -> & EG & NR)]; [split; [constructor | reflexivity]|].
      inversion R2 as [|q2 ? ? ? (Wq & b & Hw & HF) _]; subst. pose proof (wire_ascii _ _ Wq Hw) as Hb.
      split; [|eapply (prefix_waits (PAscii b)); eauto]. destruct (frame_of_valid (PAscii b) _ Hb HF) as (UU & _). apply u8s_app in UU. tauto. }
    destruct (requests_unique _ _ R1 _ _ part rest F (eq_sym EP)) as (c & ->); try tauto. exists (c ++ a2). rewrite EA, <- app_assoc. reflexivity. }
  destruct PR as (c & PR). assert (LD : (length done <= length qs)%nat) by lia.
  assert (ED : exists d, qs = done ++ d).
  { exists (skipn (length done) qs). rewrite B5 in PR. apply (f_equal (firstn (length done))) in PR. rewrite !firstn_app, Nat.sub_diag, firstn_all in PR.
    replace (length done - length qs)%nat with 0%nat in PR by lia. cbn [firstn] in PR. rewrite !app_nil_r in PR. rewrite PR at 1. symmetry. apply firstn_skipn. }
  destruct ED as (d & ->). apply Forall2_app_inv_l in F as (g1 & g2 & F1 & F2 & ->). exists g1, (concat g2 ++ rest). split; [exact F1|].
  rewrite P, concat_app, <- app_assoc. reflexivity.
Qed.

(* Two commands: arm area 1, and then, given while that is being sent, run task 3.  The first is written in two pieces, a zone changes meanwhile, and the answers
   arrive in pieces; then nothing more happens. *)
Definition ex_first : list Command := [CmdArm (mkArmRequest 1 AL_ArmedAway (B "123456"))].
Definition ex_commands : list Command := [CmdArm (mkArmRequest 1 AL_ArmedAway (B "123456")); CmdActivateTask 3].
Definition ex_results : list message := [MSendCode (mkIC (repeat 0 6) 3 16); MTaskChange 3].
Inductive xmv : Type := XSend (n : nat) | XRead | XUnasked | XReply | XDeliver (n : nat) | XGive.
Definition ex_result (x : exchange) : message := nth (x_replied x) ex_results MRtcRequest.
Definition go (x : exchange) (v : xmv) : exchange :=
  match v with
  | XSend n => mkExchange (send_task 7 [WAccept (S n)] (x_caller x)) (x_net x) (x_replied x)
  | XRead => mkExchange (read_task 0 (x_caller x)) (x_net x) (x_replied x)
  | XUnasked => mkExchange (x_caller x) (x_net x ++ bytes_of ex_extra) (x_replied x)
  | XReply => mkExchange (x_caller x) (x_net x ++ bytes_of (ex_result x)) (S (x_replied x))
  | XDeliver n => mkExchange (with_panel (x_caller x) (with_conn (s_panel (x_caller x)) (arrive (p_conn (s_panel (x_caller x))) (Bytes (firstn n (x_net x))))))
      (skipn n (x_net x)) (x_replied x)
  | XGive => mkExchange (give (CmdActivateTask 3) (x_caller x)) (x_net x) (x_replied x)
  end.
Definition move_of (v : xmv) : SpecSend.move :=
  match v with XSend n => MSend 7 [WAccept (S n)] | XRead => MRead 0 | XUnasked => MUnasked | XReply => MReply | XDeliver _ => MDeliver | XGive => MGive (CmdActivateTask 3) end.
Definition can_go (x : exchange) (v : xmv) : bool :=
  match v with
  | XReply => (x_replied x <? length ex_commands)%nat &&
      bytes_eqb (put x) (base_of ex_panel ++ concat (map bytes_of (firstn (S (x_replied x)) (map into_msg ex_commands))))
  | XDeliver n => negb (bytes_eqb (firstn n (x_net x)) [])
  | _ => true
  end.
Definition ex_plan : list xmv :=
  [XSend 99; XSend 4; XUnasked; XGive; XDeliver 3; XRead; XSend 99; XSend 99; XReply; XDeliver 20; XRead; XRead; XDeliver 99; XRead;
   XSend 99; XSend 99; XReply; XDeliver 99; XRead; XSend 99; XRead].
Definition ex_turn (n : nat) : xmv := nth n ex_plan (if Nat.even n then XSend 99 else XRead).
Fixpoint ex_at (n : nat) : exchange := match n with O => exchange_new ex_panel [] ex_first | S n' => go (ex_at n') (ex_turn n') end.
Definition ex_may (pkt : packet) : Prop := pkt = ex_pkt ex_extra.
Lemma ex_commands_ok : Forall (fun c => wf_message (into_msg c)) ex_commands.
Proof. repeat constructor; discriminate. Qed.
Lemma ex_results_ok : Forall wf_message ex_results.
Proof. repeat constructor; discriminate. Qed.
Lemma ex_results_right : Forall2 (fun q m => replies m q) (map into_msg ex_commands) ex_results.
Proof. repeat constructor. Qed.
Lemma can_go_moves x v : can_go x v = true -> moves ex_may (base_of ex_panel) x (move_of v) (go x v).
Proof.
  destruct v as [n| | | |n|]; cbn [can_go move_of go]; intros H.
  - constructor. repeat constructor. discriminate.
  - constructor.
  - assert (W : wf_message ex_extra) by (repeat constructor; discriminate). destruct (ex_bytes _ W) as (body & E & Hw & Hb & HF).
    apply (M_unasked ex_may _ x (ex_pkt ex_extra)); [rewrite E; exact Hb | reflexivity | rewrite E; exact HF].
  - apply andb_true_iff in H as [H1 H2]. apply bytes_eqb_eq in H2. apply Nat.ltb_lt in H1.
    destruct (nth_error (map into_msg ex_commands) (x_replied x)) as [q|] eqn:EQ; [|apply nth_error_None in EQ; cbn in *; lia].
    assert (W : wf_message (ex_result x)).
    { pose proof ex_results_ok as OK. rewrite Forall_forall in OK. apply OK. unfold ex_result. apply nth_In. exact H1. }
    destruct (ex_bytes _ W) as (body & E & Hw & Hb & HF).
    refine (M_reply ex_may _ x q (ex_result x) body _ _ _ _ Hb HF); [|apply (Forall2_nth _ _ _ _ _ MRtcRequest ex_results_right EQ) | apply wire_grammar; auto].
    pose proof EQ as ES. apply nth_error_split in ES as (l1 & l2 & ES & EL). exists l1, (map bytes_of (l1 ++ [q])), []. split; [|split; [|exact EL]].
    + apply ex_frames. assert (OK : Forall wf_message (map into_msg ex_commands)) by (apply Forall_map; exact ex_commands_ok).
      rewrite ES in OK. apply Forall_app in OK as [OK1 OK2]. inversion OK2; subst. apply Forall_app. auto.
    + rewrite H2, app_nil_r. do 3 f_equal. rewrite ES, <- EL. replace (S (length l1)) with (length l1 + 1)%nat by lia. rewrite firstn_app_2. reflexivity.
  - apply (M_deliver ex_may _ x (firstn n (x_net x)) (skipn n (x_net x))); [symmetry; apply firstn_skipn|]. intros E. rewrite E in H. discriminate H.
  - constructor. repeat constructor; discriminate.
Qed.
Definition ex_final : exchange := Eval vm_compute in ex_at (length ex_plan).
Lemma ex_at_final n : (length ex_plan <= n)%nat -> ex_at n = ex_final.
Proof.
  intros L. replace n with ((n - length ex_plan) + length ex_plan)%nat by lia. generalize (n - length ex_plan)%nat as k. induction k as [|k IH]; [vm_compute; reflexivity|].
  change (go (ex_at (k + length ex_plan)) (ex_turn (k + length ex_plan)) = ex_final). rewrite IH. unfold ex_turn. rewrite nth_overflow by lia.
  destruct (Nat.even _); reflexivity.
Qed.
Lemma ex_can_go n : can_go (ex_at n) (ex_turn n) = true.
Proof.
  destruct (Nat.ltb_spec n (length ex_plan)) as [L|L].
  - assert (X : forallb (fun n => can_go (ex_at n) (ex_turn n)) (seq 0 (length ex_plan)) = true) by (vm_compute; reflexivity).
    rewrite forallb_forall in X. apply X, in_seq. lia.
  - unfold ex_turn. rewrite nth_overflow by lia. destruct (Nat.even n); reflexivity.
Qed.
Lemma ex_panel_healthy : healthy ex_panel.
Proof.
  exists ex_init, ex_panel, [], []. split; [exact ex_init_data|]. split; [vm_compute; reflexivity|]. repeat split; constructor.
Qed.
Example C93_example : healthy ex_panel /\ outstanding ex_panel = [] /\ Forall (fun c => wf_message (into_msg c)) ex_first /\
  under_way ex_panel [] [] /\ (forall pkt, ex_may pkt -> ~ answers_one ex_commands pkt) /\
  unfolds ex_may (base_of ex_panel) (exchange_new ex_panel [] ex_first) ex_at (fun n => move_of (ex_turn n)) /\
  just (base_of ex_panel) ex_at (fun n => move_of (ex_turn n)) /\
  (forall n, after ex_may (base_of ex_panel) (exchange_new ex_panel [] ex_first) (given (fun n => move_of (ex_turn n)) n) (ex_at n)) /\
  given (fun n => move_of (ex_turn n)) 4 = [CmdActivateTask 3] /\ (forall n, (4 <= n)%nat -> given_in (move_of (ex_turn n)) = []) /\
  s_done (x_caller (ex_at 13)) = [] /\ s_done (x_caller (ex_at 14)) = [into_msg (CmdArm (mkArmRequest 1 AL_ArmedAway (B "123456")))] /\
  s_done (x_caller (ex_at 19)) = map into_msg ex_commands.
Proof.
  assert (X : unfolds ex_may (base_of ex_panel) (exchange_new ex_panel [] ex_first) ex_at (fun n => move_of (ex_turn n))).
  { split; [reflexivity|]. intros n. apply (can_go_moves (ex_at n) (ex_turn n)), ex_can_go. }
  split; [exact ex_panel_healthy|]. split; [reflexivity|]. split; [repeat constructor; discriminate|]. split; [exists []; repeat split; constructor|].
  split. { intros pkt -> (m & c & M & HI & R). assert (EM : message_of (ex_pkt ex_extra) = Some ex_extra) by (vm_compute; reflexivity).
           rewrite EM in M. injection M as <-. destruct HI as [<-|[<-|[]]]; exact R. }
  split; [exact X|]. split; [|split; [intros n; apply unfolds_after; exact X|split; [vm_compute; reflexivity|split; [|vm_compute; auto]]]].
  - split; [|split; [|split]]; intros n.
    + exists (2 * (n + length ex_plan))%nat. split; [lia|]. unfold ex_turn. rewrite nth_overflow by lia.
      rewrite Nat.even_mul. exact Logic.I.
    + exists (S (2 * (n + length ex_plan))). split; [lia|]. unfold ex_turn. rewrite nth_overflow by lia.
      rewrite Nat.even_succ, <- Nat.negb_even, Nat.even_mul. exact Logic.I.
    + exists (n + length ex_plan)%nat. split; [lia|]. right. intros q (qs & fs & rest & F & E & L). rewrite ex_at_final in E, L by lia.
      assert (E2 : put ex_final = base_of ex_panel ++ concat (map bytes_of (map into_msg ex_commands)) ++ []) by (vm_compute; reflexivity).
      rewrite E2 in E. apply app_inv_head in E.
      assert (OK : Forall wf_message (map into_msg ex_commands)) by (apply Forall_map; exact ex_commands_ok).
      destruct (requests_unique _ _ (ex_frames _ OK) _ _ _ _ F E) as (c & EC); [constructor | reflexivity|].
      apply (f_equal (@length _)) in EC. rewrite !app_length, L in EC. vm_compute in EC. lia.
    + exists (n + length ex_plan)%nat. split; [lia|]. right. rewrite ex_at_final by lia. reflexivity.
  - intros n L. destruct (Nat.ltb_spec n (length ex_plan)) as [LN|LN].
    + assert (Y : forallb (fun n => match given_in (move_of (ex_turn n)) with [] => true | _ => false end) (seq 4 (length ex_plan - 4)) = true) by (vm_compute; reflexivity).
      rewrite forallb_forall in Y. specialize (Y n). rewrite in_seq in Y. destruct (given_in _); [reflexivity|]. discriminate Y; lia.
    + unfold ex_turn. rewrite nth_overflow by lia. destruct (Nat.even n); reflexivity.
Qed.

Print Assumptions C93_completed_in_order.
Print Assumptions C93_all_completed.
Print Assumptions C93_finishes.
Print Assumptions C93_completed_was_received.
