(* SendFacts.v: sending commands to a panel that answers: the invariant of caller, panel and network together, and the measure
   that every fair execution brings down. *)
From Verif Require Import Base BaseFacts Pkt SpecPkt PktFacts DecodeFacts Msg SpecMsg DecFacts MsgFacts WireFacts IsoFacts
  Tokio SpecConn ConnFacts State SpecState StateFacts RunFacts HistFacts ViewFacts PropState PropSink PropLive SpecInit InitFacts SpecSend.
From Coq Require Import ZifyBool ZifyNat ZifyN.
Ltac Zify.zify_post_hook ::= Z.div_mod_to_equations.

(* ---- the calls ---- *)
Lemma command_request c f : wf_message (into_msg c) -> command_frame c f -> request_frame (into_msg c) f.
Proof. intros W F. split; [exact W | exact F]. Qed.
Lemma command_nonempty c f : wf_message (into_msg c) -> command_frame c f -> f <> [].
Proof.
  intros W (body & Hw & HF) ->. pose proof (wire_ascii _ _ W Hw) as Hb.
  destruct (frame_of_valid (PAscii body) [] Hb HF) as (_ & L & _). cbn in L. lia.
Qed.
Lemma flush_ok ws p q f k p' r : Forall write_ok ws -> pinv p -> cmd_state p = Busy q f k -> poll_flush ws p = (p', r) ->
  pinv p' /\ sink_only p p' /\ written (p_conn p') = written (p_conn p) /\ outstanding p' = [q] /\
  (r = Pending /\ wbuf (p_conn p') <> [] \/ r = Ready (IoOk tt) /\ wbuf (p_conn p') = []) /\
  (length (wbuf (p_conn p')) <= length (wbuf (p_conn p)))%nat /\
  (forall n ws0, ws = WAccept (S n) :: ws0 -> wbuf (p_conn p) <> [] -> length (wbuf (p_conn p')) < length (wbuf (p_conn p)))%nat.
Proof.
  intros HW I EC E. destruct (poll_flush_spec _ _ _ _ E I) as (I' & S & W & H). rewrite EC in H. destruct H as (f' & EC' & _).
  split; [exact I'|]. split; [exact S|]. split; [exact W|]. split; [unfold outstanding; rewrite EC'; reflexivity|].
  unfold poll_flush, panel_flush in E. rewrite EC in E. destruct f.
  - injection E as <- <-. pose proof I as (_ & _ & _ & _ & K). unfold cmd_ok in K. rewrite EC in K. destruct K as (_ & K). rewrite (K eq_refl).
    split; [auto|]. split; [lia|]. congruence.
  - unfold conn_poll_flush in E. destruct (framed_flush ws (wbuf (p_conn p)) (sent (p_conn p))) as [[[buf out] ws1] r1] eqn:EF.
    destruct (framed_flush_ok ws HW _ _ _ _ _ _ EF) as (H1 & H2 & H3).
    destruct H1 as [[-> Hb]|[-> Hb]]; injection E as <- <-; cbn [p_conn with_conn with_cmd set_write wbuf]; auto.
Qed.
Lemma ready_busy t ws p q f k p' r : pinv p -> cmd_state p = Busy q f k -> wbuf (p_conn p) = [] -> poll_ready t ws p = (p', r) ->
  r = Pending /\ p_conn p' = p_conn p /\ outstanding p' = [q] /\ pinv p' /\ sink_only p p'.
Proof.
  intros I EC W E. destruct (poll_ready_spec _ _ _ _ _ E I) as (I' & S & _ & H). rewrite EC in H. destruct H as (_ & f' & k' & EC' & _).
  assert (X : r = Pending /\ p_conn p' = p_conn p).
  { unfold poll_ready in E. rewrite EC in E. destruct f; [injection E as <- <-; auto|].
    destruct (conn_poll_flush (p_conn p) ws) as [[c ws'] rf] eqn:EF. destruct (conn_flush_spec _ _ _ _ _ EF) as (_ & _ & _ & _ & _ & Em).
    destruct (Em W) as [-> ->]. injection E as <- <-. auto. }
  destruct X as [-> EQ]. split; [reflexivity|]. split; [exact EQ|]. split; [unfold outstanding; rewrite EC'; reflexivity|]. auto.
Qed.
Lemma read_ok now p : pinv p -> alive (p_conn p) ->
  exists p' r w, poll_next now p = Ok (p', r, w) /\ pinv p' /\ alive (p_conn p') /\ same_write (p_conn p) (p_conn p') /\
   ((exists e pkt, r = Ready (Some (IoOk e)) /\ decode (unread (p_conn p)) = Ok (Some pkt, unread (p_conn p')) /\
      (e_completes e = None /\ outstanding p' = outstanding p /\ (forall q m, outstanding p = [q] -> message_of pkt = Some m -> ~ replies m q) \/
       exists q m, e_completes e = Some q /\ outstanding p = [q] /\ outstanding p' = [] /\ message_of pkt = Some m /\ replies m q)) \/
    (decode (unread (p_conn p)) = Ok (None, unread (p_conn p)) /\ unread (p_conn p') = unread (p_conn p) /\ outstanding p' = outstanding p /\
     (r = Pending \/ exists e, r = Ready (Some (IoOk e)) /\ e_completes e = None))).
Proof.
  intros I A. destruct (alive_poll now p I A) as (p' & r & w & E & I' & A' & PC & H). exists p', r, w. split; [exact E|]. split; [exact I'|]. split; [exact A'|].
  destruct (poll_next_inv _ _ _ _ _ I E) as (_ & (rc & X & HX)). split; [exact (nexts_same_write _ _ _ X)|].
  destruct H as [(e & pkt & Y & EP & D)|(D & U & _)].
  - left. exists e, pkt. split; [exact Y|]. split; [exact D|]. pose proof (event_cmd _ _ _ _ _ _ PC Y) as C.
    assert (EM : e_msg e = parse_result pkt).
    { destruct (poll_event _ _ _ _ _ _ PC Y) as [(pkt' & m & E1 & E2 & _ & E3 & _)|[(pkt' & E1 & _ & E3 & _)|(d & m & prior & -> & _)]]; [| |discriminate EP].
      - rewrite EP in E1. injection E1 as <-. unfold parse_result. rewrite E2. exact E3.
      - rewrite EP in E1. injection E1 as <-. exact E3. }
    unfold outstanding. destruct (cmd_state p) as [|q f k].
    + destruct C as (-> & -> & _). left. split; [reflexivity|]. split; [reflexivity|]. discriminate.
    + destruct C as [(m & Em & R & -> & -> & _)|(NR & -> & -> & _)].
      * right. exists q, m. rewrite EM in Em. unfold message_of, parse_result in *. destruct (parse pkt) as [[?|]|?|?]; try discriminate. injection Em as ->. auto.
      * left. split; [reflexivity|]. split; [reflexivity|]. intros q' m [= <-] M. apply NR. rewrite EM. unfold message_of, parse_result in *.
        destruct (parse pkt) as [[?|]|?|?]; congruence.
  - right. split; [exact D|]. split; [exact U|].
    destruct (alive_nexts _ _ _ X A) as [_ [->|(pkt & ->)]].
    + destruct HX as [-> [(d & m & prior & H1 & H2 & H3 & -> & H5)|(H1 & -> & H3)]].
      * split; [rewrite H5; reflexivity|]. right. exists (deferred_event prior). split; reflexivity.
      * split; [rewrite H3; reflexivity | auto].
    + exfalso. pose proof (nexts_unread _ _ _ X (proj1 I)) as U'. cbv beta iota in U'. congruence.
Qed.

(* ---- the invariant ---- *)
Definition ansb (cs : list Command) (pkt : packet) : bool :=
  match message_of pkt with Some m => existsb (fun c => is_response_to m (into_msg c)) cs | None => false end.
Lemma ansb_spec cs pkt : ansb cs pkt = true <-> answers_one cs pkt.
Proof.
  unfold ansb, answers_one. destruct (message_of pkt) as [m|].
  - rewrite existsb_exists. split.
    + intros (c & H1 & H2). exists m, c. apply is_response_spec in H2. auto.
    + intros (m' & c & [= <-] & H1 & H2). exists c. split; [exact H1 | apply is_response_spec; exact H2].
  - split; [discriminate|]. intros (m & c & X & _). discriminate.
Qed.
Definition count (cs : list Command) (pk : list packet) : nat := length (filter (ansb cs) pk).
Lemma count_app cs a b : count cs (a ++ b) = (count cs a + count cs b)%nat.
Proof. unfold count. rewrite filter_app, app_length. reflexivity. Qed.
Definition reply_in (q : message) (y : packet) : Prop := exists m, message_of y = Some m /\ replies m q.
(* h: the commands the panel sends no answers to of its own accord, if any are to be considered *)
Definition inv (h : option (list Command)) (cs : list Command) (base : bytes) (x : exchange) (p : Panel) (todo : list Command) (fl : bool) (done : list message)
    (acc : list Command) (fs : list bytes) (pk : list packet) (pf : list bytes) : Prop :=
  x_caller x = mkSending p todo fl done false /\ pinv p /\ alive (p_conn p) /\
  (cs = acc ++ todo /\ Forall (fun c => wf_message (into_msg c)) cs /\ Forall2 command_frame acc fs /\ base ++ concat fs = written (p_conn p) /\
   map into_msg acc = done ++ outstanding p) /\
  (fl = false -> outstanding p <> [] -> wbuf (p_conn p) = []) /\
  (Forall valid_packet pk /\ Forall2 frame_of pk pf /\ unread (p_conn p) ++ x_net x = concat pf) /\
  (x_replied x <= length acc)%nat /\
  (x_replied x = length acc -> forall q, outstanding p = [q] -> Exists (reply_in q) pk) /\
  (forall all, h = Some all -> incl cs all /\ length done + count all pk <= x_replied x)%nat.

Lemma outstanding_cases p : outstanding p = [] /\ cmd_state p = Idle \/ exists q f k, outstanding p = [q] /\ cmd_state p = Busy q f k.
Proof. unfold outstanding. destruct (cmd_state p) as [|q f k]; [auto | right; eauto]. Qed.

(* the panel's next answer is to a command accepted *)
Lemma cut_frames {A} (fs : list (list A)) : forall x y, x ++ y = concat fs -> exists f1 part f2, fs = f1 ++ f2 /\ x = concat f1 ++ part /\
  (part = [] \/ exists g rest f3, f2 = g :: f3 /\ g = part ++ rest /\ rest <> []).
Proof.
  induction fs as [|g fs IH]; intros x y E; cbn [concat] in E.
  - apply app_eq_nil in E as [-> ->]. exists [], [], []. auto.
  - destruct (Nat.ltb_spec (length x) (length g)) as [L|L].
    + exists [], x, (g :: fs). split; [reflexivity|]. split; [reflexivity|]. right. exists g, (skipn (length x) g), fs. split; [reflexivity|].
      assert (EX : x = firstn (length x) g).
      { apply (f_equal (firstn (length x))) in E. rewrite !firstn_app, Nat.sub_diag, firstn_all in E. cbn [firstn] in E.
        replace (length x - length g)%nat with 0%nat in E by lia. cbn [firstn] in E. rewrite !app_nil_r in E. exact E. }
      split. { rewrite EX at 1. symmetry. apply firstn_skipn. }
      intros Z. apply (f_equal (@length A)) in Z. rewrite skipn_length in Z. cbn in Z. lia.
    + assert (EX : x = g ++ skipn (length g) x).
      { assert (EG : firstn (length g) x = g).
        { apply (f_equal (firstn (length g))) in E. rewrite !firstn_app, Nat.sub_diag, firstn_all in E. cbn [firstn] in E.
          replace (length g - length x)%nat with 0%nat in E by lia. cbn [firstn] in E. rewrite !app_nil_r in E. exact E. }
        rewrite <- EG at 1. symmetry. apply firstn_skipn. }
      rewrite EX, <- app_assoc in E. apply app_inv_head in E. destruct (IH _ _ E) as (f1 & part & f2 & -> & E2 & H).
      exists (g :: f1), part, f2. split; [reflexivity|]. split; [|exact H]. cbn [concat]. rewrite <- app_assoc, <- E2. exact EX.
Qed.
Lemma accepted_requests cs acc todo fs : cs = acc ++ todo -> Forall (fun c => wf_message (into_msg c)) cs -> Forall2 command_frame acc fs ->
  Forall2 request_frame (map into_msg acc) fs.
Proof.
  intros -> W F. apply Forall_app in W as [W _]. revert W. induction F as [|c f acc fs Hc F IH]; intros W; [constructor|].
  inversion W; subst. constructor; [apply command_request; auto | auto].
Qed.
Lemma next_accepted h cs base x p todo fl done acc fs pk pf q : inv h cs base x p todo fl done acc fs pk pf -> next_command base x q ->
  nth_error (map into_msg acc) (x_replied x) = Some q.
Proof.
  intros (E0 & _ & _ & (E1 & W & F & E2 & _) & _) (qs & gs & rest & G & P & L). unfold put in P. rewrite E0 in P. cbn [s_panel] in P.
  unfold written in E2. rewrite P, <- app_assoc in E2. apply app_inv_head in E2. symmetry in E2. 
  pose proof (accepted_requests _ _ _ _ E1 W F) as R. destruct (cut_frames _ _ _ E2) as (f1 & part & f2 & EF & EP & H).
  rewrite EF in R. apply Forall2_app_inv_r in R as (a1 & a2 & R1 & R2 & EA).
  assert (D : u8s part /\ decode part = Ok (None, part)).
  { destruct H as [->|(g & r2 & f3 & -> & EG & NR)]; [split; [constructor | reflexivity]|].
    inversion R2 as [|q2 ? ? ? (Wq & b & Hw & HF) _]; subst. pose proof (wire_ascii _ _ Wq Hw) as Hb.
    split; [|eapply (prefix_waits (PAscii b)); eauto]. destruct (frame_of_valid (PAscii b) _ Hb HF) as (U & _). apply u8s_app in U. tauto. }
  destruct (requests_unique _ _ R1 _ _ part rest G (eq_sym EP)) as (c & ->); try tauto.
  rewrite EA, <- !app_assoc, <- L. rewrite nth_error_app2 by lia. rewrite Nat.sub_diag. reflexivity.
Qed.

(* ---- the measure ---- *)
(* how far it is to the completion of the first n commands *)
Inductive rated (h : option (list Command)) (cs : list Command) (base : bytes) (n : nat) (x : exchange) : rank -> Prop :=
| R_idle p todo fl done acc fs pk pf : inv h cs base x p todo fl done acc fs pk pf -> outstanding p = [] -> (length done < n <= length cs)%nat ->
    rated h cs base n x (n - length done, (3, (if fl then 1 else 0, 0)))%nat
| R_write p todo fl done acc fs pk pf q : inv h cs base x p todo fl done acc fs pk pf -> outstanding p = [q] -> wbuf (p_conn p) <> [] ->
    (length done < n <= length cs)%nat -> rated h cs base n x (n - length done, (2, (length (wbuf (p_conn p)), 0)))%nat
| R_owed p todo fl done acc fs pk pf q : inv h cs base x p todo fl done acc fs pk pf -> outstanding p = [q] -> wbuf (p_conn p) = [] ->
    (length done < n <= length cs)%nat -> (x_replied x < length acc)%nat -> rated h cs base n x (n - length done, (1, (length acc - x_replied x, 0)))%nat
| R_flight p todo fl done acc fs pre y post pf1 yf pf2 q : inv h cs base x p todo fl done acc fs (pre ++ y :: post) (pf1 ++ yf :: pf2) ->
    outstanding p = [q] -> wbuf (p_conn p) = [] -> (length done < n <= length cs)%nat -> x_replied x = length acc -> length pf1 = length pre -> reply_in q y ->
    rated h cs base n x (n - length done, (0, (length (concat (pf1 ++ [yf])) - length (unread (p_conn p)), length pre)))%nat.
Definition served (h : option (list Command)) (cs : list Command) (base : bytes) (n : nat) (x : exchange) : Prop :=
  exists p todo fl done acc fs pk pf, inv h cs base x p todo fl done acc fs pk pf /\ (n <= length done)%nat.
Definition useful (v : rank) (a : move) : Prop :=
  match v with
  | (_, (0, (0, _))) => reads a
  | (_, (0, (S _, _))) => a = MDeliver
  | (_, (1, _)) => a = MReply
  | _ => sends a
  end%nat.
Lemma inv_rated h cs base n x p todo fl done acc fs pk pf : inv h cs base x p todo fl done acc fs pk pf ->
  (n <= length cs)%nat -> served h cs base n x \/ exists V, rated h cs base n x V /\ fst V = (n - length done)%nat /\
    (wbuf (p_conn p) = [] -> outstanding p <> [] -> fst (snd V) <= 1)%nat.
Proof.
  intros K LN. destruct (le_lt_dec n (length done)) as [LD|LD]; [left; exists p, todo, fl, done, acc, fs, pk, pf; auto|]. right. destruct (outstanding_cases p) as [[O _]|(q & f & k & O & _)].
  - eexists. split; [eapply R_idle; eauto|]. split; [reflexivity | rewrite O; congruence].
  - destruct (wbuf (p_conn p)) as [|b wb] eqn:EW.
    + pose proof K as (_ & _ & _ & _ & _ & (V & F & U) & L & Y & _). destruct (Nat.eq_dec (x_replied x) (length acc)) as [ER|NR].
      * specialize (Y ER q O). apply Exists_exists in Y as (y & Hy & Ry). apply in_split in Hy as (pre & post & ->).
        apply Forall2_app_inv_l in F as (pf1 & pf2 & F1 & F2 & ->). inversion F2 as [|? yf ? pf3 _ _]; subst.
        eexists. split; [eapply R_flight; eauto; symmetry; eapply Forall2_len; eauto|]. cbn [fst snd]. split; [reflexivity | lia].
      * eexists. split; [eapply R_owed; eauto; lia|]. cbn [fst snd]. split; [reflexivity | lia].
    + assert (NW : wbuf (p_conn p) <> []) by (rewrite EW; discriminate). eexists. split; [eapply R_write; eauto|].
      cbn [fst snd]. split; [reflexivity | congruence].
Qed.
Lemma inv_lengths h cs base x p todo fl done acc fs pk pf : inv h cs base x p todo fl done acc fs pk pf ->
  length cs = (length done + length (outstanding p) + length todo)%nat.
Proof.
  intros (_ & _ & _ & (B1 & _ & _ & _ & B5) & _). apply (f_equal (@length _)) in B5. rewrite map_length, app_length in B5. rewrite B1, app_length. lia.
Qed.
Lemma rated_inv h cs base n x V : rated h cs base n x V -> exists p todo fl done acc fs pk pf, inv h cs base x p todo fl done acc fs pk pf.
Proof. intros []; eauto 10. Qed.

(* ---- moves of panel and network ---- *)
Lemma inv_append h cs base x p todo fl done acc fs pk pf y f r : inv h cs base x p todo fl done acc fs pk pf -> valid_packet y -> frame_of y f ->
  (x_replied x <= r)%nat -> (r <= length acc)%nat -> (r = length acc -> forall q, outstanding p = [q] -> Exists (reply_in q) (pk ++ [y])) ->
  (forall all, h = Some all -> count all [y] <= r - x_replied x)%nat ->
  inv h cs base (mkExchange (x_caller x) (x_net x ++ f) r) p todo fl done acc fs (pk ++ [y]) (pf ++ [f]).
Proof.
  intros (A1 & A2 & A3 & A4 & A5 & (B1 & B2 & B3) & A7 & A8 & A9) V F L1 L2 Y C. unfold inv. cbn [x_caller x_net x_replied].
  do 5 (split; [assumption|]). split.
  { split; [apply Forall_app; auto|]. split; [apply Forall2_app; auto|]. rewrite app_assoc, B3, concat_app. cbn. rewrite app_nil_r. reflexivity. }
  split; [exact L2|]. split; [exact Y|]. intros all Hh. specialize (A9 all Hh). specialize (C all Hh). rewrite count_app. split; [apply A9 | lia].
Qed.
Lemma count_zero cs y : ~ answers_one cs y -> count cs [y] = 0%nat.
Proof.
  intros N. unfold count. cbn [filter]. destruct (ansb cs y) eqn:E; [|reflexivity]. elim N. apply ansb_spec. exact E.
Qed.
Lemma count_le cs y : (count cs [y] <= 1)%nat.
Proof. unfold count. cbn [filter]. destruct (ansb cs y); cbn; lia. Qed.
Lemma inv_unasked h cs base x p todo fl done acc fs pk pf y f : inv h cs base x p todo fl done acc fs pk pf -> valid_packet y -> frame_of y f ->
  (forall all, h = Some all -> ~ answers_one all y) -> inv h cs base (mkExchange (x_caller x) (x_net x ++ f) (x_replied x)) p todo fl done acc fs (pk ++ [y]) (pf ++ [f]).
Proof.
  intros K V F N. pose proof K as (_ & _ & _ & _ & _ & _ & L & Y & _). apply inv_append; auto.
  - intros E q O. apply Exists_app. left. exact (Y E q O).
  - intros all Hh. rewrite count_zero by eauto. lia.
Qed.
Lemma reply_of q m body : grammar m body -> replies m q -> reply_in q (PAscii body).
Proof. intros G R. exists m. split; [|exact R]. unfold message_of. cbn [parse]. rewrite (proj2 (parse_some_iff body m) G). reflexivity. Qed.
Lemma inv_reply h cs base x p todo fl done acc fs pk pf q m body f : inv h cs base x p todo fl done acc fs pk pf -> next_command base x q ->
  replies m q -> grammar m body -> ascii_body body -> ascii_frame body f ->
  inv h cs base (mkExchange (x_caller x) (x_net x ++ f) (S (x_replied x))) p todo fl done acc fs (pk ++ [PAscii body]) (pf ++ [f]) /\
  (forall q', S (x_replied x) = length acc -> outstanding p = [q'] -> q' = q).
Proof.
  intros K N R G Hb HF. pose proof (next_accepted _ _ _ _ _ _ _ _ _ _ _ _ _ K N) as E.
  pose proof K as (_ & _ & _ & (_ & _ & _ & _ & EA) & _).
  assert (L : (x_replied x < length acc)%nat) by (rewrite <- (map_length into_msg acc); apply nth_error_Some; congruence).
  assert (Q : forall q', S (x_replied x) = length acc -> outstanding p = [q'] -> q' = q).
  { intros q' EL O. rewrite O in EA. rewrite EA in E. apply (f_equal (@length message)) in EA. rewrite map_length, app_length in EA. cbn in EA.
    rewrite nth_error_app2 in E by lia. replace (x_replied x - length done)%nat with 0%nat in E by lia. injection E as ->. reflexivity. }
  split; [|exact Q]. apply inv_append; auto.
  - intros EL q' O. rewrite (Q q' EL O). apply Exists_app. right. constructor. eapply reply_of; eauto.
  - intros all _. pose proof (count_le all (PAscii body)). lia.
Qed.
Lemma inv_deliver h cs base x p todo fl done acc fs pk pf a b : inv h cs base x p todo fl done acc fs pk pf -> x_net x = a ++ b -> a <> [] ->
  inv h cs base (mkExchange (with_panel (x_caller x) (with_conn (s_panel (x_caller x)) (arrive (p_conn (s_panel (x_caller x))) (Bytes a)))) b (x_replied x))
    (with_conn p (arrive (p_conn p) (Bytes a))) todo fl done acc fs pk pf.
Proof.
  intros (A1 & A2 & A3 & A4 & A5 & (B1 & B2 & B3) & A7 & A8 & A9) E Na.
  assert (U : u8s a). { pose proof (frames_u8 _ _ B1 B2) as U. rewrite <- B3, E in U. apply u8s_app in U as [_ U]. apply u8s_app in U. tauto. }
  unfold inv. cbn [x_caller x_net x_replied]. rewrite A1. split; [reflexivity|].
  split; [apply with_conn_inv; auto; apply arrive_inv; [apply A2 | exact U]|]. split; [apply alive_arrive; [exact A3 | split; auto]|].
  split; [exact A4|]. split; [exact A5|]. split; [|auto]. split; [exact B1|]. split; [exact B2|].
  cbn [p_conn with_conn]. rewrite arrive_unread. cbn [arrival_data]. rewrite <- app_assoc, <- E. exact B3.
Qed.
Lemma rated_le h cs base n x V : rated h cs base n x V -> (n <= length cs)%nat.
Proof. intros T. destruct T; lia. Qed.
Lemma same_or_less V : V = V \/ rlt V V. Proof. auto. Qed.

Definition goes (h : option (list Command)) (cs : list Command) (base : bytes) (n : nat) (x' : exchange) (V : rank) (a : move) : Prop :=
  served h cs base n x' \/ exists V', rated h cs base n x' V' /\ (V' = V \/ rlt V' V) /\ (useful V a -> rlt V' V).

Lemma goes_unasked h cs base n x V y f : rated h cs base n x V -> valid_packet y -> frame_of y f -> (forall all, h = Some all -> ~ answers_one all y) ->
  goes h cs base n (mkExchange (x_caller x) (x_net x ++ f) (x_replied x)) V MUnasked.
Proof.
  intros T Vy Fy N. right. exists V. split; [|split; [auto|]].
  - destruct T as [p todo fl done acc fs pk pf K O LD|p todo fl done acc fs pk pf q K O W LD|p todo fl done acc fs pk pf q K O W LD L|p todo fl done acc fs pre z post pf1 zf pf2 q K O W LD L1 L2 R];
    pose proof (inv_unasked _ _ _ _ _ _ _ _ _ _ _ _ _ _ K Vy Fy N) as K'.
    + eapply R_idle; eauto.
    + eapply R_write; eauto.
    + refine (R_owed h cs base n (mkExchange _ _ _) _ _ _ _ _ _ _ _ _ K' O W LD L).
    + rewrite <- !app_assoc in K'. eapply R_flight; eauto.
  - intros H. exfalso. destruct V as (a & [|[|[|b]]] & [|c] & d); cbn [useful sends reads] in H; first [exact H | discriminate H].
Qed.
Lemma goes_reply h cs base n x V q m body f : rated h cs base n x V -> next_command base x q ->
  replies m q -> grammar m body -> ascii_body body -> ascii_frame body f ->
  goes h cs base n (mkExchange (x_caller x) (x_net x ++ f) (S (x_replied x))) V MReply.
Proof.
  intros T N R G Hb HF. right.
  destruct T as [p todo fl done acc fs pk pf K O LD|p todo fl done acc fs pk pf q' K O W LD|p todo fl done acc fs pk pf q' K O W LD L|p todo fl done acc fs pre z post pf1 zf pf2 q' K O W LD L1 L2 R'];
  destruct (inv_reply _ _ _ _ _ _ _ _ _ _ _ _ _ _ _ _ K N R G Hb HF) as [K' Q].
  - eexists. split; [eapply R_idle; eauto|]. split; [auto | intros []].
  - eexists. split; [eapply R_write; eauto|]. split; [auto | intros []].
  - destruct (Nat.eq_dec (S (x_replied x)) (length acc)) as [E|NE].
    + rewrite (Q q' E O) in O. pose proof K as (_ & _ & _ & _ & _ & (_ & F2 & _) & _). eexists. split.
      * eapply (R_flight h cs base n _ p todo fl done acc fs pk (PAscii body) [] pf f [] q); eauto;
          [symmetry; eapply Forall2_len; eauto | eapply reply_of; eauto].
      * split; [right | intros _]; cbn [rlt]; lia.
    + eexists. split; [eapply R_owed; eauto; cbn [x_replied]; lia|]. cbn [x_replied]. split; [right | intros _]; cbn [rlt]; lia.
  - exfalso. pose proof (next_accepted _ _ _ _ _ _ _ _ _ _ _ _ _ K N) as E.
    assert (L : (x_replied x < length acc)%nat) by (rewrite <- (map_length into_msg acc); apply nth_error_Some; congruence). lia.
Qed.
Lemma goes_deliver h cs base n x V a b : rated h cs base n x V -> x_net x = a ++ b -> a <> [] ->
  goes h cs base n (mkExchange (with_panel (x_caller x) (with_conn (s_panel (x_caller x)) (arrive (p_conn (s_panel (x_caller x))) (Bytes a)))) b (x_replied x)) V MDeliver.
Proof.
  intros T E Na. right.
  destruct T as [p todo fl done acc fs pk pf K O LD|p todo fl done acc fs pk pf q' K O W LD|p todo fl done acc fs pk pf q' K O W LD L|p todo fl done acc fs pre z post pf1 zf pf2 q' K O W LD L1 L2 R'];
  pose proof (inv_deliver _ _ _ _ _ _ _ _ _ _ _ _ _ _ K E Na) as K'.
  - eexists. split; [eapply R_idle; eauto|]. split; [auto | intros []].
  - eexists. split; [eapply R_write; eauto|]. split; [auto | intros []].
  - eexists. split; [eapply R_owed; eauto|]. split; [auto | discriminate].
  - eexists. split; [eapply R_flight; eauto|]. cbn [p_conn with_conn]. rewrite arrive_unread, app_length. cbn [arrival_data].
    assert (LA : (1 <= length a)%nat) by (destruct a; [congruence | cbn; lia]).
    destruct (length (concat (pf1 ++ [zf])) - length (unread (p_conn p)))%nat eqn:ED.
    + split; [left; do 3 f_equal; lia | intros []].
    + split; [right|intros _]; cbn [rlt]; lia.
Qed.

(* ---- moves of the caller ---- *)
Lemma inv_sink h cs base x p todo fl done acc fs pk pf p' fl' s' : inv h cs base x p todo fl done acc fs pk pf -> 
  s' = mkSending p' todo fl' done false -> pinv p' -> sink_only p p' -> written (p_conn p') = written (p_conn p) -> outstanding p' = outstanding p ->
  (fl' = false -> outstanding p' <> [] -> wbuf (p_conn p') = []) ->
  inv h cs base (mkExchange s' (x_net x) (x_replied x)) p' todo fl' done acc fs pk pf.
Proof.
  intros (A1 & A2 & A3 & A4 & A5 & A6 & A7 & A8 & A9) -> I S W O H. unfold inv. cbn [x_caller x_net x_replied].
  split; [reflexivity|]. split; [exact I|]. split; [eapply alive_read; [apply S | exact A3]|]. rewrite W, O.
  split; [exact A4|]. split; [rewrite O in H; exact H|]. split; [rewrite (sink_unread _ _ S); exact A6 | auto].
Qed.
Lemma goes_send h cs base n x V t ws : rated h cs base n x V -> Forall write_ok ws ->
  goes h cs base n (mkExchange (send_task t ws (x_caller x)) (x_net x) (x_replied x)) V (MSend t ws).
Proof.
  intros T HW. right.
  (* a command is outstanding and all is written: nothing changes *)
  assert (Q : forall p todo fl done acc fs pk pf q, inv h cs base x p todo fl done acc fs pk pf -> outstanding p = [q] -> wbuf (p_conn p) = [] ->
    exists p' fl', inv h cs base (mkExchange (send_task t ws (x_caller x)) (x_net x) (x_replied x)) p' todo fl' done acc fs pk pf /\ outstanding p' = [q] /\
      p_conn p' = p_conn p).
  { intros p todo fl done acc fs pk pf q K O W. pose proof K as (E & I & _). rewrite E.
    destruct (outstanding_cases p) as [[O' _]|(q' & f & k & O' & EC)]; [congruence|]. rewrite O in O'. injection O' as <-. destruct fl; cbn [send_task].
    - destruct (poll_flush ws p) as [p' r] eqn:EF. destruct (flush_ok _ _ _ _ _ _ _ HW I EC EF) as (I' & S & W' & O' & H & LE & _).
      rewrite W in LE. cbn [length] in LE. assert (WN : wbuf (p_conn p') = []) by (destruct (wbuf (p_conn p')); [reflexivity | cbn in LE; lia]).
      destruct H as [(_ & Z)|(-> & _)]; [congruence|]. exists p', false. split; [eapply inv_sink; eauto; congruence|]. split; [exact O'|].
      unfold written in W'. rewrite W, WN, !app_nil_r in W'. destruct S as (_ & _ & (S1 & S2 & S3 & S4 & S5 & S6) & S7).
      destruct (p_conn p), (p_conn p'). cbn in *. congruence.
    - destruct todo as [|c todo].
      + exists p, false. split; [|auto]. eapply inv_sink; eauto. apply sink_only_refl.
      + destruct (poll_ready t ws p) as [p' r] eqn:ER. destruct (ready_busy _ _ _ _ _ _ _ _ I EC W ER) as (-> & EQ & O' & I' & S).
        exists p', false. split; [|auto]. eapply inv_sink; eauto; rewrite ?EQ; auto; congruence. }
  destruct T as [p todo fl done acc fs pk pf K O LD|p todo fl done acc fs pk pf q' K O W LD|p todo fl done acc fs pk pf q' K O W LD L|p todo fl done acc fs pre z post pf1 zf pf2 q' K O W LD L1 L2 R'].
  - pose proof K as (E & I & _). destruct (outstanding_cases p) as [[_ EC]|(q' & f & k & O' & EC)]; [|congruence]. rewrite E. destruct fl; cbn [send_task].
    + unfold poll_flush, panel_flush. rewrite EC. eexists. split; [eapply R_idle; eauto; eapply inv_sink; eauto; try apply sink_only_refl; congruence|].
      split; [right | intros _]; cbn [rlt]; lia.
    + destruct todo as [|c todo]; [exfalso; pose proof (inv_lengths _ _ _ _ _ _ _ _ _ _ _ _ K) as X; rewrite O in X; cbn [length] in X; lia|].
      unfold poll_ready. rewrite EC. cbv beta iota.
      pose proof K as (_ & _ & A3 & (B1 & B2 & B3 & B4 & B5) & _ & A6 & A7 & A8 & A9).
      assert (Wc : wf_message (into_msg c)) by (rewrite B1 in B2; apply Forall_app in B2 as [_ B2]; inversion B2; assumption).
      pose proof (start_send_spec c p I Wc) as SS. rewrite EC in SS. destruct SS as (p' & f & -> & I' & S & EC' & Ff & S1 & S2).
      assert (O' : outstanding p' = [into_msg c]) by (unfold outstanding; rewrite EC'; reflexivity).
      assert (NW : wbuf (p_conn p') <> []) by (rewrite S2; intros X; apply app_eq_nil in X as [_ X]; eapply command_nonempty; eauto).
      eexists. split; [eapply (R_write h cs base n _ p' todo true done (acc ++ [c]) (fs ++ [f]) pk pf); eauto|].
      * unfold inv. cbn [x_caller x_net x_replied]. split; [reflexivity|]. split; [exact I'|]. split; [eapply alive_read; [apply S | exact A3]|].
        split. { split; [rewrite B1, <- app_assoc; reflexivity|]. split; [exact B2|]. split; [apply Forall2_app; auto|].
                 split; [|rewrite map_app, B5, O, O', app_nil_r; reflexivity].
                 unfold written in *. rewrite S1, S2, concat_app. cbn [concat]. rewrite app_nil_r, app_assoc, B4, app_assoc. reflexivity. }
        split; [discriminate|]. split; [rewrite (sink_unread _ _ S); exact A6|]. rewrite app_length. cbn [length]. split; [lia|]. split; [lia | exact A9].
      * split; [right | intros _]; cbn [rlt length]; lia.
  - pose proof K as (E & I & _ & _ & FW & _). rewrite E. destruct (outstanding_cases p) as [[O' _]|(q & f & k & O' & EC)]; [congruence|].
    rewrite O in O'. injection O' as <-. destruct fl; [|elim W; apply FW; congruence]. cbn [send_task].
    destruct (poll_flush ws p) as [p' r] eqn:EF. destruct (flush_ok _ _ _ _ _ _ _ HW I EC EF) as (I' & S & W' & O' & H & LE & LT).
    destruct H as [(-> & Z)|(-> & Z)].
    + eexists. split; [eapply R_write; [eapply inv_sink; eauto; congruence | exact O' | exact Z | exact LD]|].
      split; [destruct (Nat.eq_dec (length (wbuf (p_conn p'))) (length (wbuf (p_conn p)))) as [->|X]; [left; reflexivity | right; cbn [rlt]; lia]|].
      cbn [useful sends]. destruct ws as [|[[|w]| |] ws]; intros []. specialize (LT w ws eq_refl W). cbn [rlt]. lia.
    + assert (K' : inv h cs base (mkExchange (mkSending p' todo false done false) (x_net x) (x_replied x)) p' todo false done acc fs pk pf)
        by (eapply inv_sink; eauto; congruence).
      destruct (inv_rated _ _ _ n _ _ _ _ _ _ _ _ _ K') as [(p2 & t2 & fl2 & d2 & a2 & f2 & k2 & kf2 & K2 & O2)|(V' & T' & L' & L2)]; [lia| |].
      { destruct K2 as (E2 & _). cbn [x_caller] in E2. injection E2 as -> -> -> ->. lia. }
      exists V'. split; [exact T'|]. rewrite O' in *. specialize (L2 Z ltac:(discriminate)). destruct V' as (a & b & c & d). cbn [fst snd length] in *.
      split; [right | intros _]; cbn [rlt]; lia.
  - destruct (Q _ _ _ _ _ _ _ _ _ K O W) as (p' & fl' & K' & O' & EQ). eexists. split; [eapply R_owed; eauto; congruence|]. split; [auto | discriminate].
  - destruct (Q _ _ _ _ _ _ _ _ _ K O W) as (p' & fl' & K' & O' & EQ). eexists. split; [eapply R_flight; eauto; congruence|]. rewrite EQ. split; [auto|].
    destruct (length (concat _) - _)%nat; [cbn [useful reads]; tauto | discriminate].
Qed.

Lemma read_states h cs base x p todo fl done acc fs pk pf now : inv h cs base x p todo fl done acc fs pk pf ->
  exists p' done' pk' pf', inv h cs base (mkExchange (read_task now (x_caller x)) (x_net x) (x_replied x)) p' todo fl done' acc fs pk' pf' /\
    same_write (p_conn p) (p_conn p') /\
    ((exists pkt f, decode (unread (p_conn p)) = Ok (Some pkt, unread (p_conn p')) /\ pk = pkt :: pk' /\ pf = f :: pf' /\ unread (p_conn p) = f ++ unread (p_conn p') /\
       ((done' = done /\ outstanding p' = outstanding p /\ forall q, outstanding p = [q] -> ~ reply_in q pkt) \/
        (exists q, done' = done ++ [q] /\ outstanding p = [q] /\ outstanding p' = []))) \/
     (decode (unread (p_conn p)) = Ok (None, unread (p_conn p)) /\ pk' = pk /\ pf' = pf /\ unread (p_conn p') = unread (p_conn p) /\ done' = done /\ outstanding p' = outstanding p)).
Proof.
  intros (A1 & A2 & A3 & (B1 & B2 & B3 & B4 & B5) & A5 & (C1 & C2 & C3) & A7 & A8 & A9).
  pose proof (frames_u8 _ _ C1 C2) as U. rewrite <- C3 in U. apply u8s_app in U as [Uu Un].
  destruct (read_ok now p A2 A3) as (p' & r & w & E & I' & A' & SW & H).
  assert (SW' : written (p_conn p') = written (p_conn p)) by (destruct SW as (W1 & W2 & _); unfold written; congruence).
  assert (FW : wbuf (p_conn p') = wbuf (p_conn p)) by (destruct SW as (W1 & _); congruence).
  destruct H as [(e & pkt & -> & D & H)|(D & EU & EO & H)].
  - destruct (first_packet _ _ _ _ _ _ C1 C2 C3 Uu Un D) as (pk' & f & pf' & EK & EF & Eu & Eu' & V' & F' & _). subst pk pf.
    assert (CN : forall all, (count all pk' <= count all (pkt :: pk'))%nat) by (intros all; unfold count; cbn [filter]; destruct (ansb all pkt); cbn [length]; lia).
    destruct H as [(EC & EO & NR)|(q & m & EC & O & O' & M & R)].
    + exists p', done, pk', pf'. split; [|split; [exact SW|]].
      * unfold inv. cbn [x_caller x_net x_replied]. rewrite A1. cbn [read_task]. rewrite E, EC, SW', EO, FW. split; [reflexivity|]. split; [exact I'|]. split; [exact A'|].
        split; [auto|]. split; [exact A5|]. split; [auto|]. split; [exact A7|]. split; [|intros all Hh; specialize (A9 all Hh); specialize (CN all); split; [tauto | lia]].
        intros EL q O. specialize (A8 EL q O). apply Exists_cons in A8 as [(m & M & R)|A8]; [elim (NR q m O M R) | exact A8].
      * left. exists pkt, f. split; [exact D|]. do 3 (split; [auto|]). left. split; [reflexivity|]. split; [exact EO|]. intros q O (m & M & R). exact (NR q m O M R).
    + exists p', (done ++ [q]), pk', pf'. split; [|split; [exact SW|]].
      * unfold inv. cbn [x_caller x_net x_replied]. rewrite A1. cbn [read_task]. rewrite E, EC, SW', FW, O'. split; [reflexivity|]. split; [exact I'|]. split; [exact A'|].
        split; [rewrite O in B5; rewrite app_nil_r; auto|]. split; [congruence|]. split; [auto|]. split; [exact A7|]. split; [discriminate|].
        intros all Hh. destruct (A9 all Hh) as [IA A9']. split; [exact IA|]. rewrite app_length. cbn [length].
        assert (AN : ansb all pkt = true).
        { apply ansb_spec. assert (X : In q (map into_msg cs)).
          { rewrite B1, map_app, B5, O. apply in_or_app. left. apply in_or_app. right. left. reflexivity. }
          apply in_map_iff in X as (c & <- & X). exists m, c. auto. }
        assert (count all (pkt :: pk') = S (count all pk')) by (unfold count; cbn [filter]; rewrite AN; reflexivity). lia.
      * left. exists pkt, f. split; [exact D|]. do 3 (split; [auto|]). right. eauto.
  - exists p', done, pk, pf. split; [|split; [exact SW|right; auto 10]].
    unfold inv. cbn [x_caller x_net x_replied]. rewrite A1. cbn [read_task]. rewrite E, SW', EO, FW, EU.
    split; [destruct H as [->|(e & -> & ->)]; reflexivity|]. auto 15.
Qed.
Lemma goes_read h cs base n x V now : rated h cs base n x V ->
  goes h cs base n (mkExchange (read_task now (x_caller x)) (x_net x) (x_replied x)) V (MRead now).
Proof.
  intros T.
  (* a completion brings the measure down *)
  assert (G : forall p' todo fl done acc fs pk pf,
    inv h cs base (mkExchange (read_task now (x_caller x)) (x_net x) (x_replied x)) p' todo fl done acc fs pk pf -> outstanding p' = [] ->
    (n - length done < fst V)%nat -> goes h cs base n (mkExchange (read_task now (x_caller x)) (x_net x) (x_replied x)) V (MRead now)).
  { intros p' todo fl done acc fs pk pf K O L. destruct (inv_rated _ _ _ n _ _ _ _ _ _ _ _ _ K) as [S|(V' & T' & L' & _)]; [eapply rated_le; eauto | left; exact S |].
    right. exists V'. split; [exact T'|]. destruct V as (a & b), V' as (a' & b' & c' & d'). destruct b as (b & c & d). cbn [fst length] in *.
    split; [right | intros _]; cbn [rlt]; lia. }
  destruct T as [p todo fl done acc fs pk pf K O LD|p todo fl done acc fs pk pf q' K O W LD|p todo fl done acc fs pk pf q' K O W LD L|p todo fl done acc fs pre z post pf1 zf pf2 q' K O W LD L1 L2 R'];
  destruct (read_states _ _ _ _ _ _ _ _ _ _ _ _ now K) as (p' & done' & pk' & pf' & K' & (SW1 & SW2 & _) & H).
  - assert (OD : outstanding p' = [] /\ done' = done).
    { destruct H as [(pkt & f & _ & _ & _ & _ & [(-> & -> & _)|(q & _ & X & _)])|(_ & _ & _ & _ & -> & ->)]; [auto | congruence | auto]. }
    destruct OD as [O' ->]. right. eexists. split; [eapply R_idle; eauto|]. split; [auto | intros []].
  - destruct H as [(pkt & f & _ & _ & _ & _ & [(-> & O' & _)|(q & -> & X & O')])|(_ & _ & _ & _ & -> & O')].
    2: { eapply G; eauto. rewrite app_length. cbn [fst length]. lia. }
    all: rewrite O in O'; right; eexists; (split; [eapply R_write; eauto; rewrite SW1; exact W|]); rewrite SW1; split; [auto | intros []].
  - destruct H as [(pkt & f & _ & _ & _ & _ & [(-> & O' & _)|(q & -> & X & O')])|(_ & _ & _ & _ & -> & O')].
    2: { eapply G; eauto. rewrite app_length. cbn [fst length]. lia. }
    all: rewrite O in O'; right; eexists; (split; [eapply R_owed; eauto; rewrite SW1; exact W|]); split; [auto | discriminate].
  - pose proof K as (_ & _ & _ & _ & _ & (C1 & C2 & C3) & _).
    destruct H as [(pkt & f & D & EK & EF & EU & [(-> & O' & NR)|(q & -> & X & O')])|(D & -> & -> & EU & -> & O')].
    + right. destruct pre as [|z0 pre]; destruct pf1 as [|f0 pf1]; try discriminate L2.
      { cbn [app] in EK. injection EK as <- <-. elim (NR _ O R'). }
      cbn [app] in EK, EF. injection EK as <- <-. injection EF as <- <-. injection L2 as L2.
      rewrite O in O'. eexists. split; [eapply R_flight; eauto; rewrite SW1; exact W|].
      rewrite EU. cbn [app concat length]. rewrite !app_length.
      replace (length f0 + length (concat (pf1 ++ [zf])) - (length f0 + length (unread (p_conn p'))))%nat
        with (length (concat (pf1 ++ [zf])) - length (unread (p_conn p')))%nat by lia.
      split; [right | intros _]; cbn [rlt]; lia.
    + eapply G; eauto. rewrite app_length. cbn [fst length]. lia.
    + right. rewrite O in O'. eexists. split; [eapply R_flight; eauto; rewrite SW1; exact W|]. rewrite EU. split; [auto|].
      destruct (length (concat (pf1 ++ [zf])) - length (unread (p_conn p)))%nat eqn:ED; [|discriminate].
      intros _. exfalso. pose proof (frames_u8 _ _ C1 C2) as U. rewrite <- C3 in U. apply u8s_app in U as [Uu Un].
      assert (FA : exists x0 f0 t, valid_packet x0 /\ frame_of x0 f0 /\ unread (p_conn p) = f0 ++ t).
      { assert (Pr : exists t, unread (p_conn p) = concat (pf1 ++ [zf]) ++ t).
        { replace (pf1 ++ zf :: pf2) with ((pf1 ++ [zf]) ++ pf2) in C3 by (rewrite <- app_assoc; reflexivity). rewrite concat_app in C3.
          exists (skipn (length (concat (pf1 ++ [zf]))) (unread (p_conn p))).
          assert (EF : firstn (length (concat (pf1 ++ [zf]))) (unread (p_conn p)) = concat (pf1 ++ [zf])).
          { apply (f_equal (firstn (length (concat (pf1 ++ [zf]))))) in C3. rewrite !firstn_app in C3.
            replace (length (concat (pf1 ++ [zf])) - length (unread (p_conn p)))%nat with 0%nat in C3 by lia.
            rewrite Nat.sub_diag in C3. cbn [firstn] in C3. rewrite !app_nil_r, firstn_all in C3. exact C3. }
          rewrite <- EF at 1. symmetry. apply firstn_skipn. }
        destruct Pr as (t & Pr). destruct pre as [|x0 pre]; destruct pf1 as [|f0 pf1]; try discriminate L2.
        - cbn [app] in *. inversion C1; inversion C2; subst. exists z, zf, t. cbn [concat] in Pr. rewrite app_nil_r in Pr. auto.
        - cbn [app] in *. inversion C1; inversion C2; subst. exists x0, f0. cbn [concat] in Pr. rewrite <- app_assoc in Pr. eauto. }
      destruct FA as (x0 & f0 & t & Vx & Fx & Ex). eapply first_arrived; [exact Vx | exact Fx | exact Uu | eauto | exact D].
Qed.

(* ---- all moves ---- *)
Lemma inv_give h cs base x p todo fl done acc fs pk pf c : inv h cs base x p todo fl done acc fs pk pf -> wf_message (into_msg c) ->
  (forall all, h = Some all -> In c all) ->
  inv h (cs ++ [c]) base (mkExchange (give c (x_caller x)) (x_net x) (x_replied x)) p (todo ++ [c]) fl done acc fs pk pf.
Proof.
  intros (A1 & A2 & A3 & (B1 & B2 & B3 & B4 & B5) & A5 & A6 & A7 & A8 & A9) W HI. unfold inv. cbn [x_caller x_net x_replied]. rewrite A1.
  split; [reflexivity|]. split; [exact A2|]. split; [exact A3|]. split; [|split; [exact A5|]; split; [exact A6|]; split; [exact A7|]; split; [exact A8|]].
  - split; [rewrite B1, app_assoc; reflexivity|]. split; [apply Forall_app; auto|]. auto.
  - intros all Hh. destruct (A9 all Hh) as [X Y]. split; [|exact Y]. apply incl_app; [exact X|]. intros y [<-|[]]. auto.
Qed.
(* what the panel sends of its own accord, and the commands given, agree with h *)
Definition fits (h : option (list Command)) (may : packet -> Prop) (a : move) : Prop :=
  forall all, h = Some all -> (forall pkt, may pkt -> ~ answers_one all pkt) /\ incl (given_in a) all.
Lemma goes_move (h : option (list Command)) (may : packet -> Prop) cs base n x V a x' : fits h may a -> rated h cs base n x V -> moves may base x a x' ->
  goes h (cs ++ given_in a) base n x' V a.
Proof.
  intros HM T M. destruct M as [t ws HW|now|pkt f Vp Mp Fp|q m body f N R G Hb HF|y z E Na|c W|]; cbn [given_in]; rewrite ?app_nil_r.
  - apply goes_send; auto.
  - apply goes_read; auto.
  - eapply goes_unasked; eauto. intros all Hh. apply (HM all Hh). exact Mp.
  - eapply goes_reply; eauto.
  - eapply goes_deliver; eauto.
  - assert (HI : forall all, h = Some all -> In c all) by (intros all Hh; apply (HM all Hh); left; reflexivity).
    right. exists V. split; [|split; [auto|]].
    + destruct T as [p todo fl done acc fs pk pf K O LD|p todo fl done acc fs pk pf q K O W' LD|p todo fl done acc fs pk pf q K O W' LD L|p todo fl done acc fs pre z post pf1 zf pf2 q K O W' LD L1 L2 R];
      pose proof (inv_give _ _ _ _ _ _ _ _ _ _ _ _ _ K W HI) as K';
      assert (LC : (length done < n <= length (cs ++ [c]))%nat) by (rewrite app_length; lia).
      * eapply R_idle; eauto.
      * eapply R_write; eauto.
      * refine (R_owed h _ base n (mkExchange _ _ _) _ _ _ _ _ _ _ _ _ K' O W' LC L).
      * eapply R_flight; eauto.
    + destruct V as (a0 & [|[|k]] & [|d] & e); try contradiction; discriminate.
  - right. exists V. split; [exact T|]. split; [auto|]. destruct V as (a0 & [|[|k]] & [|d] & e); try contradiction; discriminate.
Qed.
Lemma inv_move (h : option (list Command)) (may : packet -> Prop) cs base x a x' p todo fl done acc fs pk pf : fits h may a ->
  inv h cs base x p todo fl done acc fs pk pf -> moves may base x a x' ->
  exists p' todo' fl' done' acc' fs' pk' pf', inv h (cs ++ given_in a) base x' p' todo' fl' done' acc' fs' pk' pf' /\ exists more, done' = done ++ more.
Proof.
  intros HM K M. assert (Z : exists more, done = done ++ more) by (exists []; rewrite app_nil_r; reflexivity).
  destruct M as [t ws HW|now|pkt f Vp Mp Fp|q m body f N R G Hb HF|y z E Na|c W|]; cbn [given_in]; rewrite ?app_nil_r.
  - assert (SD : s_done (send_task t ws (x_caller x)) = done).
    { pose proof K as (E & _). rewrite E. destruct fl; cbn [send_task]; [destruct (poll_flush ws p) as [p' [|[]]]; reflexivity|].
      destruct todo as [|c todo]; [reflexivity|]. destruct (poll_ready t ws p) as [p' [|[]]]; [reflexivity| |reflexivity]. destruct (start_send c p'); reflexivity. }
    pose proof (inv_lengths _ _ _ _ _ _ _ _ _ _ _ _ K) as LE.
    assert (X : exists p' todo' fl' done' acc' fs' pk' pf', inv h cs base (mkExchange (send_task t ws (x_caller x)) (x_net x) (x_replied x)) p' todo' fl' done' acc' fs' pk' pf').
    { destruct (inv_rated _ _ _ (length cs) _ _ _ _ _ _ _ _ _ K (le_n _)) as [(p2 & t2 & fl2 & d2 & a2 & f2 & k2 & kf2 & K2 & O2)|(V & T & _)].
      - pose proof (inv_lengths _ _ _ _ _ _ _ _ _ _ _ _ K2) as LE2. assert (O : outstanding p2 = []) by (destruct (outstanding p2); [reflexivity | cbn in LE2; lia]).
        assert (t2 = []) as -> by (destruct t2; [reflexivity | cbn in LE2; lia]). pose proof K2 as (E & I & _).
        destruct (outstanding_cases p2) as [[_ EC]|(q' & f & k & O' & EC)]; [|congruence].
        exists p2, [], false, d2, a2, f2, k2, kf2. eapply inv_sink; eauto; [|apply sink_only_refl|congruence].
        rewrite E. destruct fl2; cbn [send_task]; [|reflexivity]. unfold poll_flush, panel_flush. rewrite EC. reflexivity.
      - destruct (goes_send _ _ _ _ _ _ t ws T HW) as [(p2 & t2 & fl2 & d2 & a2 & f2 & k2 & kf2 & K2 & O2)|(V' & T' & _)]; [eauto 10|].
        exact (rated_inv _ _ _ _ _ _ T'). }
    destruct X as (p' & todo' & fl' & done' & acc' & fs' & pk' & pf' & K'). exists p', todo', fl', done', acc', fs', pk', pf'. split; [exact K'|].
    destruct K' as (E' & _). cbn [x_caller] in E'. rewrite E' in SD. cbn [s_done] in SD. rewrite SD. exact Z.
  - destruct (read_states _ _ _ _ _ _ _ _ _ _ _ _ now K) as (p' & done' & pk' & pf' & K' & _ & H).
    exists p', todo, fl, done', acc, fs, pk', pf'. split; [exact K'|].
    destruct H as [(pkt & f & _ & _ & _ & _ & [(-> & _)|(q & -> & _)])|(_ & _ & _ & _ & -> & _)]; eauto.
  - assert (N : forall all, h = Some all -> ~ answers_one all pkt) by (intros all Hh; apply (HM all Hh); exact Mp).
    pose proof (inv_unasked _ _ _ _ _ _ _ _ _ _ _ _ _ _ K Vp Fp N) as K'. eauto 12.
  - destruct (inv_reply _ _ _ _ _ _ _ _ _ _ _ _ _ _ _ _ K N R G Hb HF) as [K' _]. eauto 12.
  - pose proof (inv_deliver _ _ _ _ _ _ _ _ _ _ _ _ _ _ K E Na) as K'. eauto 12.
  - assert (HI : forall all, h = Some all -> In c all) by (intros all Hh; apply (HM all Hh); left; reflexivity).
    pose proof (inv_give _ _ _ _ _ _ _ _ _ _ _ _ _ K W HI) as K'. eauto 12.
  - eauto 12.
Qed.
Lemma served_move (h : option (list Command)) (may : packet -> Prop) cs base n x a x' : fits h may a -> served h cs base n x -> moves may base x a x' ->
  served h (cs ++ given_in a) base n x'.
Proof.
  intros HM (p & todo & fl & done & acc & fs & pk & pf & K & L) M.
  destruct (inv_move _ _ _ _ _ _ _ _ _ _ _ _ _ _ _ HM K M) as (p' & todo' & fl' & done' & acc' & fs' & pk' & pf' & K' & more & ->).
  exists p', todo', fl', (done ++ more), acc', fs', pk', pf'. split; [exact K' | rewrite app_length; lia].
Qed.

(* ---- fair executions finish ---- *)
Lemma owed_command h cs base n x a d t : rated h cs base n x (a, (1, (d, t)))%nat -> exists q, next_command base x q.
Proof.
  intros T. inversion T as [| |p todo fl done acc fs pk pf q K O W LD L E|]; subst. destruct K as (E0 & _ & _ & (B1 & B2 & B3 & B4 & _) & _).
  pose proof (accepted_requests _ _ _ _ B1 B2 B3) as F2. unfold written in B4. rewrite W, app_nil_r in B4.
  destruct (nth_error (map into_msg acc) (x_replied x)) as [q2|] eqn:EQ.
  2: { apply nth_error_None in EQ. rewrite map_length in EQ. lia. }
  apply nth_error_split in EQ as (l1 & l2 & EQ & LE). exists q2. rewrite EQ in F2.
  replace (l1 ++ q2 :: l2) with ((l1 ++ [q2]) ++ l2) in F2 by (rewrite <- app_assoc; reflexivity).
  apply Forall2_app_inv_l in F2 as (f1 & f2 & F1 & F2 & EF). exists l1, f1, (concat f2). split; [exact F1|]. split; [|exact LE].
  unfold put. rewrite E0. cbn [s_panel]. rewrite <- B4, EF, concat_app. reflexivity.
Qed.
Lemma flight_bytes h cs base n x a d t : rated h cs base n x (a, (0, (S d, t)))%nat -> x_net x <> [].
Proof.
  intros T. inversion T as [| | |p todo fl done acc fs pre z post pf1 zf pf2 q' K O W LD L1 L2 R' E]; subst. intros Z.
  destruct K as (_ & _ & _ & _ & _ & (_ & _ & C3) & _). rewrite Z, app_nil_r in C3.
  replace (pf1 ++ zf :: pf2) with ((pf1 ++ [zf]) ++ pf2) in C3 by (rewrite <- app_assoc; reflexivity). rewrite concat_app in C3.
  apply (f_equal (@length N)) in C3. rewrite app_length in C3. lia.
Qed.
Section Run.
  Variables (h : option (list Command)) (may : packet -> Prop) (cs : list Command) (base : bytes) (k : nat) (xs : nat -> exchange) (acts : nat -> move).
  Hypothesis HM : forall n, fits h may (acts n).
  Hypothesis X : forall n, moves may base (xs n) (acts n) (xs (S n)).
  Definition lower (V : rank) : Prop :=
    exists n, served h (cs ++ given acts n) base k (xs n) \/ exists V', rated h (cs ++ given acts n) base k (xs n) V' /\ rlt V' V.
  Lemma goes_on n V : rated h (cs ++ given acts n) base k (xs n) V -> goes h (cs ++ given acts (S n)) base k (xs (S n)) V (acts n).
  Proof. intros T. cbn [given]. rewrite app_assoc. eapply goes_move; eauto. Qed.
  Lemma comes_down V m : useful V (acts m) -> forall j n, (n + j = m)%nat -> rated h (cs ++ given acts n) base k (xs n) V -> lower V.
  Proof.
    intros U. induction j as [|j IH]; intros n E T; destruct (goes_on n V T) as [F|(V' & T' & [->|L] & D)];
      try (exists (S n); eauto; fail).
    - rewrite Nat.add_0_r in E. subst n. exists (S m). right. eauto.
    - apply (IH (S n)); [lia | exact T'].
  Qed.
  Lemma remains V m : forall j n, (n + j = m)%nat -> rated h (cs ++ given acts n) base k (xs n) V ->
    rated h (cs ++ given acts m) base k (xs m) V \/ lower V.
  Proof.
    induction j as [|j IH]; intros n E T; [rewrite Nat.add_0_r in E; subst n; auto|].
    destruct (goes_on n V T) as [F|(V' & T' & [->|L] & D)]; try (right; exists (S n); eauto; fail).
    apply (IH (S n)); [lia | exact T'].
  Qed.
  Lemma just_serves : just base xs acts -> forall V n, rated h (cs ++ given acts n) base k (xs n) V -> exists m, served h (cs ++ given acts m) base k (xs m).
  Proof.
    intros (F1 & F1' & F2 & F3) V. induction V as [V IH] using (well_founded_induction rlt_wf). intros n T.
    assert (D : lower V).
    { assert (Run : forall P : move -> Prop, (forall n, exists m, (n <= m)%nat /\ P (acts m)) -> (forall a, P a -> useful V a) -> lower V).
      { intros P FP HR. destruct (FP n) as (m & L & R). eapply (comes_down V m); [apply HR; exact R | | exact T].
        instantiate (1 := (m - n)%nat). lia. }
      destruct V as (a & [|[|b]] & c & d).
      - destruct c as [|c]; [apply (Run reads F1'); auto|]. destruct (F3 n) as (m & L & R).
        destruct (remains _ m (m - n) n ltac:(lia) T) as [Tm|G]; [|exact G].
        destruct R as [R|R]; [|elim (flight_bytes _ _ _ _ _ _ _ _ Tm R)].
        eapply (comes_down _ m); [cbn [useful]; exact R | | exact Tm]. apply Nat.add_0_r.
      - destruct (F2 n) as (m & L & R).
        destruct (remains _ m (m - n) n ltac:(lia) T) as [Tm|G]; [|exact G].
        destruct R as [R|R]; [|destruct (owed_command _ _ _ _ _ _ _ _ Tm) as (q & Hq); elim (R q Hq)].
        eapply (comes_down _ m); [cbn [useful]; exact R | | exact Tm]. apply Nat.add_0_r.
      - apply (Run sends F1). auto. }
    destruct D as (n' & [F|(V' & T' & L)]); [eauto|]. exact (IH V' L n' T').
  Qed.
  Lemma stays_served n : served h (cs ++ given acts n) base k (xs n) -> forall m, (n <= m)%nat -> served h (cs ++ given acts m) base k (xs m).
  Proof.
    intros S m L. replace m with ((m - n) + n)%nat by lia. generalize (m - n)%nat as j. induction j as [|j IH]; [exact S|].
    change (Datatypes.S j + n)%nat with (Datatypes.S (j + n)). cbn [given]. rewrite app_assoc. eapply served_move; [apply HM | exact IH | apply X].
  Qed.
  Lemma run_inv p todo fl done acc fs pk pf : inv h cs base (xs 0%nat) p todo fl done acc fs pk pf -> forall n,
    exists p' todo' fl' done' acc' fs' pk' pf', inv h (cs ++ given acts n) base (xs n) p' todo' fl' done' acc' fs' pk' pf'.
  Proof.
    intros K. induction n as [|n (p' & todo' & fl' & done' & acc' & fs' & pk' & pf' & K')]; [cbn [given]; rewrite app_nil_r; eauto 10|].
    destruct (inv_move _ _ _ _ _ _ _ _ _ _ _ _ _ _ _ (HM n) K' (X n)) as (p2 & t2 & fl2 & d2 & a2 & f2 & k2 & kf2 & K2 & _).
    cbn [given]. rewrite app_assoc. eauto 10.
  Qed.
End Run.

(* ---- where it starts ---- *)
Lemma inv_new (h : option (list Command)) p net cs pk : healthy p -> outstanding p = [] -> Forall (fun c => wf_message (into_msg c)) cs -> under_way p net pk ->
  (forall all, h = Some all -> incl cs all /\ Forall (fun pkt => ~ answers_one all pkt) pk) ->
  exists pf, inv h cs (base_of p) (exchange_new p net cs) p cs false [] [] [] pk pf.
Proof.
  intros HL O W (pf & V & F & E) N. destruct (healthy_alive _ HL) as (_ & I & _ & A). exists pf. unfold inv, exchange_new, sending_new. cbn [x_caller x_net x_replied].
  split; [reflexivity|]. split; [exact I|]. split; [exact A|]. rewrite O.
  split. { split; [reflexivity|]. split; [exact W|]. split; [constructor|]. split; [unfold written, base_of; cbn; apply app_nil_r | reflexivity]. }
  split; [congruence|]. split; [auto|]. split; [cbn; lia|]. split; [discriminate|].
  intros all Hh. destruct (N all Hh) as [HI NA]. cbn [length]. assert (Z : count all pk = 0%nat); [|split; [exact HI | lia]].
  unfold count. clear -NA. induction NA as [|y pk Hy N IH]; [reflexivity|]. cbn [filter].
  destruct (ansb all y) eqn:EA; [elim Hy; apply ansb_spec; exact EA | exact IH].
Qed.
