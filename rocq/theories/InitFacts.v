(* InitFacts.v: connecting to a panel that answers: the invariant of client, panel and network together,
   and the measure that every fair execution brings down. *)
From Verif Require Import Base BaseFacts Pkt SpecPkt PktFacts DecodeFacts Msg SpecMsg DecFacts MsgFacts WireFacts IsoFacts
  Tokio SpecConn ConnFacts State SpecState StateFacts RunFacts HistFacts ViewFacts SpecInit.
From Coq Require Import ZifyBool ZifyNat ZifyN.
Ltac Zify.zify_post_hook ::= Z.div_mod_to_equations.

(* ---- a connection nothing goes wrong on ---- *)
Definition quiet (c : conn) : Prop :=
  has_errored c = false /\ c_eof c = false /\ peer_closed c = false /\ Forall (fun r => exists b, r = RData b /\ b <> []) (rq c).
Lemma nexts_quiet c c' r : nexts c c' r -> quiet c -> quiet c' /\ (r = Pending \/ exists p, r = Ready (Some (IoOk p))).
Proof.
  induction 1 as [c HE|c p rest HE HR HD|c HE HR EE EB|c HE HR EE EB HD|c HE HR HD EQ EP|c e q HE HR HD EQ|
    c q HE HR EE HD HZ|c q c' r HE EE HD HZ X IH|c x b q c' r HE HR HD EQ X IH]; intros (Q1 & Q2 & Q3 & Q4); try congruence.
  - split; [repeat split; auto | eauto].
  - split; [repeat split; auto; cbn; constructor | auto].
  - rewrite EQ in Q4. inversion Q4 as [|? ? (b & F & _) _]. discriminate.
  - exfalso. destruct HZ as [EQ|(_ & EP & _)]; [|congruence].
    rewrite EQ in Q4. inversion Q4 as [|? ? (b & F & Nb) _]. injection F as <-. congruence.
  - apply IH. rewrite EQ in Q4. inversion Q4; subst. repeat split; auto.
Qed.
Lemma arrive_quiet c b : quiet c -> b <> [] -> quiet (arrive c (Bytes b)).
Proof. intros (Q1 & Q2 & Q3 & Q4) H. repeat split; auto. cbn. apply Forall_app. split; [exact Q4|]. repeat constructor. eauto. Qed.
Lemma same_read_quiet c c' : same_read c c' -> quiet c -> quiet c'.
Proof. intros (A & B & C & D & E & F) (Q1 & Q2 & Q3 & Q4). unfold quiet. rewrite B, D, E, F. auto. Qed.
Lemma same_read_unread c c' : same_read c c' -> unread c' = unread c.
Proof. intros (A & B & C & D & E & F). unfold unread. congruence. Qed.

(* ---- the steps of the client ---- *)
Definition same_tables (p p' : Panel) : Prop :=
  area_names (p_state p') = area_names (p_state p) /\ task_names (p_state p') = task_names (p_state p) /\
  zone_names (p_state p') = zone_names (p_state p).
Lemma step_ready now ws s p : iinv (IRun s PhReady p) -> quiet (p_conn p) ->
  exists p' f, istep now ws (IRun s PhReady p) = IRun s PhFlush p' /\ request_frame (stage_msg s) f /\ wbuf (p_conn p') = f /\ f <> [] /\
    sent (p_conn p') = sent (p_conn p) /\ same_tables p p' /\ quiet (p_conn p') /\ unread (p_conn p') = unread (p_conn p).
Proof.
  intros (I & C & S & W) Q. cbn [istep]. unfold conn_poll_ready. rewrite W by discriminate. cbn [length].
  change (BACKPRESSURE <=? N.of_nat 0) with false. cbv beta iota.
  destruct (to_pkt_spec _ (stage_msg_wf s p S)) as (b & -> & Hw & Hb & _). cbn [bind].
  destruct (encode_valid (PAscii b) Hb) as (f & HF & HE). unfold conn_start_send. rewrite HE. cbn [bind].
  eexists _, f. split; [reflexivity|]. split; [split; [eapply stage_msg_wf; eauto | exists b; auto]|].
  cbn [p_conn with_conn set_write wbuf sent]. rewrite W by discriminate. split; [reflexivity|].
  split. { apply frame_of_valid in HF; [|exact Hb]. destruct HF as (_ & L & _). destruct f; [cbn in L; lia | discriminate]. }
  split; [reflexivity|]. split; [repeat split|]. split; [exact Q | reflexivity].
Qed.
Lemma framed_flush_ok ws : Forall write_ok ws -> forall buf out buf' out' ws' r, framed_flush ws buf out = (buf', out', ws', r) ->
  (r = Pending /\ buf' <> [] \/ r = Ready (IoOk tt) /\ buf' = []) /\
  (forall n ws0, ws = WAccept (S n) :: ws0 -> buf <> [] -> (length buf' < length buf)%nat) /\ (length buf' <= length buf)%nat.
Proof.
  induction 1 as [|w ws Hw HW IH]; intros buf out buf' out' ws' r E; destruct buf as [|x buf]; cbn [framed_flush] in E.
  - injection E as <- <- <- <-. split; [auto|]. split; [intros; congruence | auto].
  - injection E as <- <- <- <-. split; [left; split; [auto | discriminate]|]. split; [intros; discriminate | auto].
  - injection E as <- <- <- <-. split; [auto|]. split; [intros; congruence | auto].
  - destruct w as [[|n]| |e]; cbn in Hw; [congruence| | |contradiction].
    + apply IH in E as (H1 & H2 & H3). split; [exact H1|]. rewrite skipn_cons, skipn_length in H3. cbn [length]. split; [intros; lia | lia].
    + injection E as <- <- <- <-. split; [left; split; [auto | discriminate]|]. split; [intros; discriminate | auto].
Qed.
Lemma step_flush now ws s p : Forall write_ok ws -> quiet (p_conn p) ->
  exists p', (istep now ws (IRun s PhFlush p) = IRun s PhFlush p' /\ wbuf (p_conn p') <> [] \/
              istep now ws (IRun s PhFlush p) = IRun s PhWait p' /\ wbuf (p_conn p') = []) /\
    sent (p_conn p') ++ wbuf (p_conn p') = sent (p_conn p) ++ wbuf (p_conn p) /\ (exists k, sent (p_conn p') = sent (p_conn p) ++ firstn k (wbuf (p_conn p))) /\
    (length (wbuf (p_conn p')) <= length (wbuf (p_conn p)))%nat /\
    (runs (AClient now ws) -> wbuf (p_conn p) <> [] -> length (wbuf (p_conn p')) < length (wbuf (p_conn p)))%nat /\
    same_tables p p' /\ quiet (p_conn p') /\ unread (p_conn p') = unread (p_conn p).
Proof.
  intros HW Q. cbn [istep]. destruct (conn_poll_flush (p_conn p) ws) as [[c ws'] r] eqn:EF.
  destruct (conn_flush_spec _ _ _ _ _ EF) as (R & Sh & W' & K & _ & _).
  unfold conn_poll_flush in EF. destruct (framed_flush ws (wbuf (p_conn p)) (sent (p_conn p))) as [[[buf out] ws1] r1] eqn:E.
  destruct (framed_flush_ok ws HW _ _ _ _ _ _ E) as (H1 & H2 & H3). injection EF as <- <- <-.
  exists (with_conn p (set_write (p_conn p) buf out)). cbn [p_conn with_conn set_write wbuf sent] in *.
  split. { destruct H1 as [[-> Hb]|[-> Hb]]; [left | right]; auto. }
  split; [exact W'|]. split; [exact K|]. split; [exact H3|]. split.
  { cbn [runs]. destruct ws as [|[[|n]| |] ws]; intros []. intros Hn. eapply H2; eauto. }
  split; [repeat split|]. split; [eapply same_read_quiet; eauto | eapply same_read_unread; eauto].
Qed.
Lemma step_wait now ws s p : iinv (IRun s PhWait p) -> quiet (p_conn p) ->
  exists p', same_tables p p' /\ same_write (p_conn p) (p_conn p') /\ quiet (p_conn p') /\
    (istep now ws (IRun s PhWait p) = IRun s PhWait p' /\ unread (p_conn p') = unread (p_conn p) /\
       decode (unread (p_conn p)) = Ok (None, unread (p_conn p)) \/
     exists pkt, decode (unread (p_conn p)) = Ok (Some pkt, unread (p_conn p')) /\
       ((exists m, message_of pkt = Some m /\ replies m (stage_msg s) /\ istep now ws (IRun s PhWait p) = after_reply s p' m /\ pinv p') \/
        (forall m, message_of pkt = Some m -> ~ replies m (stage_msg s)) /\ istep now ws (IRun s PhWait p) = IRun s PhWait p')).
Proof.
  intros (I & C & S & W) Q. cbn [istep]. pose proof I as (CI & _). destruct (conn_next_total _ CI) as (c & r & E & X). rewrite E.
  pose proof (nexts_unread _ _ _ X CI) as U. destruct (nexts_quiet _ _ _ X Q) as [Q' R].
  pose proof (nexts_same_write _ _ _ X) as SW.
  destruct r as [|[[pkt|e]|]]; try (destruct R as [R|(? & R)]; discriminate); cbv beta iota in U.
  - exists (with_conn p c). split; [repeat split|]. split; [exact SW|]. split; [exact Q'|]. left. cbn [p_conn with_conn]. tauto.
  - pose proof (with_conn_inv p c I (nexts_inv _ _ _ X CI) (proj1 SW)) as I'.
    destruct (interpret_spec now (with_conn p c) pkt I' (nexts_pkt_ok _ _ _ X CI)) as (p' & e & w & -> & I2 & C2 & Y).
    exists p'. rewrite C2. cbn [p_conn with_conn].
    assert (ST : same_tables p p').
    { destruct Y as [_ Y]. destruct (parse pkt) as [[m'|]|er|why]; [| | |destruct Y].
      - destruct Y as (_ & (N1 & N2 & N3) & _). repeat split; auto.
      - destruct Y as (-> & _). repeat split.
      - destruct Y as (-> & _). repeat split. }
    split; [exact ST|]. split; [exact SW|]. split; [exact Q'|]. right. exists pkt. split; [exact U|].
    assert (EM : e_msg e = parse_result pkt).
    { destruct Y as [_ Y]. unfold parse_result. destruct (parse pkt) as [[m'|]|er|why]; [| | |destruct Y]; tauto. }
    rewrite EM. unfold parse_result, message_of. destruct (parse pkt) as [[m|]|er|why] eqn:EP.
    + destruct (is_response_to m (stage_msg s)) eqn:ER.
      * left. exists m. split; [reflexivity|]. apply is_response_spec in ER. auto.
      * right. split; [|reflexivity]. intros m' [= <-] R'. apply is_response_spec in R'. congruence.
    + right. split; [discriminate | reflexivity].
    + right. split; [discriminate | reflexivity].
    + destruct Y as [_ Y]. rewrite EP in Y. destruct Y.
Qed.

(* ---- frames of requests can be told apart ---- *)
Lemma request_decodes q f rest : request_frame q f -> u8s rest -> exists body, decode (f ++ rest) = Ok (Some (PAscii body), rest) /\
  parse_ascii body = Ok (Some q) /\ u8s f /\ ascii_body body /\ ascii_frame body f.
Proof.
  intros (W & body & Hw & HF) U. pose proof (wire_ascii _ _ W Hw) as Hb.
  exists body. split; [apply (decode_of_frame (PAscii body)); auto|]. split; [apply parse_some_iff, wire_grammar; auto|].
  split; [|auto]. apply (frame_of_valid (PAscii body) f); auto.
Qed.
Lemma requests_u8 qs fs : Forall2 request_frame qs fs -> u8s (concat fs).
Proof.
  induction 1 as [|q f qs fs Hq HF IH]; [constructor|]. cbn [concat]. apply u8s_app. split; [|exact IH].
  destruct (request_decodes _ _ [] Hq (Forall_nil _)) as (b & _ & _ & U & _). exact U.
Qed.
Lemma requests_unique a fs : Forall2 request_frame a fs -> forall b gs r1 r2, Forall2 request_frame b gs ->
  concat fs ++ r1 = concat gs ++ r2 -> u8s r1 -> decode r1 = Ok (None, r1) -> exists c, a = b ++ c.
Proof.
  induction 1 as [|q f a fs Hq HA IH]; intros b gs r1 r2 HB E U D; destruct HB as [|q' g b gs Hq' HB].
  - exists []. reflexivity.
  - exfalso. cbn [concat app] in E. rewrite <- app_assoc in E. subst r1. apply u8s_app in U as [_ U].
    destruct (request_decodes _ _ _ Hq' U) as (body & Db & _). congruence.
  - exists (q :: a). reflexivity.
  - cbn [concat] in E. rewrite <- !app_assoc in E.
    assert (U1 : u8s (concat fs ++ r1)) by (apply u8s_app; split; [eapply requests_u8; eauto | auto]).
    destruct (request_decodes _ _ _ Hq U1) as (body & Db & P & Uf & _).
    assert (U2 : u8s (concat gs ++ r2)).
    { assert (X : u8s (g ++ concat gs ++ r2)) by (rewrite <- E; apply u8s_app; auto). apply u8s_app in X. tauto. }
    destruct (request_decodes _ _ _ Hq' U2) as (body' & Db' & P' & _).
    rewrite E, Db' in Db. injection Db as E1 E2. subst body'. rewrite P' in P. injection P as <-.
    destruct (IH b gs r1 r2 HB) as (c & ->); auto. exists c. reflexivity.
Qed.

(* ---- the names known so far ---- *)
Definition showb (s : bytes) : bool := match s with c :: _ => negb (c =? ch " ") | [] => true end.
Lemma showb_spec s : showb s = true <-> is_shown s.
Proof.
  unfold is_shown. destruct s as [|c s]; cbn [showb nth_error]; [split; [discriminate | reflexivity]|].
  rewrite negb_true_iff, N.eqb_neq. split; congruence.
Qed.
Lemma showb_false s : showb s = false <-> ~ is_shown s.
Proof. rewrite <- showb_spec. destruct (showb s); split; congruence. Qed.
Definition filled (nm : naming) (l : list bytes) (ty : TextDescriptionType) (i : nat) : Prop :=
  forall j, (j < N.to_nat (count_of ty))%nat ->
    nth_error l j = Some (if (j <? i)%nat && showb (nm ty (N.of_nat j + 1)) then nm ty (N.of_nat j + 1) else TextDescription_EMPTY).
Definition filled3 (nm : naming) (p : Panel) (a t z : nat) : Prop :=
  filled nm (area_names (p_state p)) TT_Area a /\ filled nm (task_names (p_state p)) TT_Task t /\ filled nm (zone_names (p_state p)) TT_Zone z.
Definition stage_filled (nm : naming) (s : stage) (p : Panel) : Prop :=
  match s with
  | St_as | St_zs => filled3 nm p 0 0 0
  | St_sd TT_Area _ i => filled3 nm p i 0 0
  | St_sd TT_Task _ i => filled3 nm p 8 i 0
  | St_sd TT_Zone _ i => filled3 nm p 8 32 i
  | _ => False
  end.
Definition pos (s : stage) : nat :=
  match s with
  | St_as => 0
  | St_zs => 1
  | St_sd TT_Area _ i => 2 + i
  | St_sd TT_Task _ i => 10 + i
  | St_sd _ _ i => 42 + i
  end%nat.
Lemma pos_lt s p : stage_ok s p -> (pos s < 250)%nat.
Proof. destruct s as [| |ty max i]; cbn [pos]; try lia. intros (_ & T & L). destruct T as [[-> ->]|[[-> ->]|[-> ->]]]; lia. Qed.
Lemma stage_ordinal s p : stage_ok s p -> ordinal (stage_msg s) = Some (pos s).
Proof.
  destruct s as [| |ty max i]; cbn [stage_msg ordinal pos sdq_num sdq_ty]; try reflexivity. intros (_ & T & L).
  rewrite N.mod_small by (destruct T as [[_ ->]|[[_ ->]|[_ ->]]]; lia).
  assert (X : (1 <=? N.of_nat i + 1) && (N.of_nat i + 1 <=? count_of ty) = true).
  { destruct T as [[-> ->]|[[-> ->]|[-> ->]]]; cbn [count_of]; lia. }
  rewrite X. destruct T as [[-> ->]|[[-> ->]|[-> ->]]]; f_equal; lia.
Qed.
Lemma filled_blank nm l ty i k : filled nm l ty i -> (forall j, (i <= j < k)%nat -> (j < N.to_nat (count_of ty))%nat -> ~ is_shown (nm ty (N.of_nat j + 1))) ->
  (i <= k)%nat -> filled nm l ty k.
Proof.
  intros F B K j Hj. rewrite (F j Hj). do 2 f_equal. destruct (Nat.ltb_spec j i); [rewrite (proj2 (Nat.ltb_lt j k)) by lia; reflexivity|].
  destruct (Nat.ltb_spec j k); [|reflexivity]. cbn [andb]. rewrite (proj2 (showb_false _)); [reflexivity|]. apply B; lia.
Qed.
Lemma filled_set nm l l' ty i s : filled nm l ty i -> set_nth l i s = Ok l' -> s = nm ty (N.of_nat i + 1) -> is_shown s -> filled nm l' ty (S i).
Proof.
  intros F E Es Hs j Hj. pose proof (set_nth_inv _ _ _ _ E) as L. destruct (set_nth_spec l i s L) as (l2 & E2 & _ & N).
  rewrite E in E2. injection E2 as <-. rewrite N. destruct (Nat.eqb_spec j i) as [->|Q].
  - rewrite (proj2 (Nat.ltb_lt i (S i))) by lia. apply showb_spec in Hs. rewrite Es in *. rewrite Hs. reflexivity.
  - rewrite (F j Hj). destruct (Nat.ltb_spec j i), (Nat.ltb_spec j (S i)); try lia; reflexivity.
Qed.
Definition sd_stage (s : stage) : Prop := match s with St_sd _ _ _ => True | _ => False end.
(* the reply of the panel to a request for names *)
Lemma sds_reply_ok nm ty max i p m : table ty max -> (i < max)%nat -> pinv p -> stage_filled nm (St_sd ty max i) p ->
  answers nm (stage_msg (St_sd ty max i)) m -> 
  exists p', p_conn p' = p_conn p /\
   ((exists s', sds_reply ty max i p m = IRun s' PhReady p' /\ stage_filled nm s' p' /\ (pos (St_sd ty max i) < pos s')%nat) \/
    (sds_reply ty max i p m = IDone p' /\ filled3 nm p' 8 32 208)).
Proof.
  intros T L I F A. cbn [stage_msg] in A. destruct m as [| | | | | | | |r| | | | | |]; cbn [answers] in A; try contradiction. cbn [sdq_ty sdq_num] in A.
  rewrite N.mod_small in A by (destruct T as [[_ ->]|[[_ ->]|[_ ->]]]; lia). destruct A as [A1 A2]. rewrite A1 in A2.
  unfold sds_reply. rewrite A1, (proj2 (text_type_eqb_eq ty ty) eq_refl). cbn [negb].
  assert (CM : count_of ty = N.of_nat max) by (destruct T as [[-> ->]|[[-> ->]|[-> ->]]]; reflexivity).
  (* what remains of the table is blank, or filled up to k *)
  assert (AF : forall q, (forall l, names_of (p_state q) ty = Some l -> filled nm l ty max) ->
     (ty <> TT_Area -> filled nm (area_names (p_state q)) TT_Area 8) ->
     (match ty with TT_Area => filled nm (task_names (p_state q)) TT_Task 0 | TT_Zone => filled nm (task_names (p_state q)) TT_Task 32 | _ => True end) ->
     (ty <> TT_Zone -> filled nm (zone_names (p_state q)) TT_Zone 0) ->
     (exists s', after_sds ty q = IRun s' PhReady q /\ stage_filled nm s' q /\ (pos (St_sd ty max i) < pos s')%nat) \/
     (after_sds ty q = IDone q /\ filled3 nm q 8 32 208)).
  { intros q F1 F2 F3 F4. destruct T as [[-> ->]|[[-> ->]|[-> ->]]]; cbn [after_sds names_of] in *.
    - left. eexists. split; [reflexivity|]. split; [split; [apply F1; reflexivity|]; split; [exact F3 | apply F4; discriminate]|]. cbn [pos]. lia.
    - left. eexists. split; [reflexivity|]. split; [split; [apply F2; discriminate|]; split; [apply F1; reflexivity | apply F4; discriminate]|]. cbn [pos]. lia.
    - right. split; [reflexivity|]. split; [apply F2; discriminate|]. split; [exact F3 | apply F1; reflexivity]. }
  pose proof I as (_ & N & _). destruct (names_of_table _ ty max T N) as (l & EN & LN & _). rewrite EN.
  assert (Fl : filled nm l ty i).
  { destruct T as [[-> ->]|[[-> ->]|[-> ->]]]; cbn [names_of stage_filled] in *; injection EN as <-; apply F. }
  assert (F2 : ty <> TT_Area -> filled nm (area_names (p_state p)) TT_Area 8).
  { destruct T as [[-> ->]|[[-> ->]|[-> ->]]]; cbn [stage_filled] in F; [congruence | intros _; apply F | intros _; apply F]. }
  assert (F3 : match ty with TT_Area => filled nm (task_names (p_state p)) TT_Task 0 | TT_Zone => filled nm (task_names (p_state p)) TT_Task 32 | _ => True end).
  { destruct T as [[-> ->]|[[-> ->]|[-> ->]]]; cbn [stage_filled] in F; [apply F | exact Logic.I | apply F]. }
  assert (F4 : ty <> TT_Zone -> filled nm (zone_names (p_state p)) TT_Zone 0).
  { destruct T as [[-> ->]|[[-> ->]|[-> ->]]]; cbn [stage_filled] in F; [intros _; apply F | intros _; apply F | congruence]. }
  destruct A2 as [(A2 & A3 & A4 & A5)|(A2 & A3)].
  2: { rewrite A2. change (0 =? 0) with true. cbv iota. exists p. split; [reflexivity|]. apply AF; auto.
       intros l' El. rewrite EN in El. injection El as <-. apply (filled_blank nm l ty i max); auto; [|lia].
       intros j Hj Hc. apply A3. lia. }
  rewrite (proj2 (N.eqb_neq (sd_num r) 0)) by lia. rewrite (proj2 (Nat.ltb_ge (N.to_nat (sd_num r - 1)) i)) by lia.
  set (k := N.to_nat (sd_num r - 1)) in *.
  destruct (set_nth_spec l k (sd_text r)) as (l' & E' & LL & NN); [lia|]. rewrite E'.
  assert (Fk : filled nm l' ty (S k)).
  { eapply filled_set; [| exact E' | | exact A4].
    - apply (filled_blank nm l ty i k); auto; [|lia]. intros j Hj Hc. apply A5. lia.
    - rewrite A3. f_equal. lia. }
  set (q := with_state p (set_names (p_state p) ty l')). exists q. split; [reflexivity|].
  assert (Eq : names_of (p_state q) ty = Some l') by (destruct T as [[-> ->]|[[-> ->]|[-> ->]]]; reflexivity).
  assert (G2 : ty <> TT_Area -> filled nm (area_names (p_state q)) TT_Area 8) by (destruct T as [[-> ->]|[[-> ->]|[-> ->]]]; first [congruence | exact F2]).
  assert (G3 : match ty with TT_Area => filled nm (task_names (p_state q)) TT_Task 0 | TT_Zone => filled nm (task_names (p_state q)) TT_Task 32 | _ => True end)
    by (destruct T as [[-> ->]|[[-> ->]|[-> ->]]]; exact F3).
  assert (G4 : ty <> TT_Zone -> filled nm (zone_names (p_state q)) TT_Zone 0) by (destruct T as [[-> ->]|[[-> ->]|[-> ->]]]; first [congruence | exact F4]).
  destruct (Nat.ltb_spec (k + 1) max) as [K|K].
  - left. exists (St_sd ty max (k + 1)). split; [reflexivity|]. replace (k + 1)%nat with (S k) by lia. split.
    + destruct T as [[-> ->]|[[-> ->]|[-> ->]]]; cbn [names_of stage_filled] in *.
      * split; [exact Fk|]. split; [exact G3 | apply G4; discriminate].
      * split; [apply G2; discriminate|]. split; [exact Fk | apply G4; discriminate].
      * split; [apply G2; discriminate|]. split; [exact G3 | exact Fk].
    + destruct T as [[-> ->]|[[-> ->]|[-> ->]]]; cbn [pos]; lia.
  - apply AF; auto. intros l2 El. rewrite Eq in El. injection El as <-. replace max with (S k) by lia. exact Fk.
Qed.
Lemma filled3_same nm p p' a t z : same_tables p p' -> filled3 nm p a t z -> filled3 nm p' a t z.
Proof. intros (E1 & E2 & E3). unfold filled3. rewrite E1, E2, E3. auto. Qed.
Lemma stage_filled_same nm s p p' : same_tables p p' -> stage_filled nm s p -> stage_filled nm s p'.
Proof. intros S. destruct s as [| |[] max i]; cbn [stage_filled]; try (apply filled3_same; exact S); auto. Qed.

(* ---- the invariant, with the measure ---- *)
(* rank: requests that may still come; what the current one is waiting for; how long that may take *)
Definition rank : Type := (nat * (nat * (nat * nat)))%type.
Definition rlt (v w : rank) : Prop :=
  let '(a, (b, (c, d))) := v in let '(a', (b', (c', d'))) := w in
  (a < a' \/ a = a' /\ (b < b' \/ b = b' /\ (c < c' \/ c = c' /\ d < d')))%nat.
Lemma rlt_wf : well_founded rlt.
Proof.
  intros (a & b & c & d). revert b c d. induction a as [a IHa] using (well_founded_induction Nat.lt_wf_0).
  intros b. induction b as [b IHb] using (well_founded_induction Nat.lt_wf_0).
  intros c. induction c as [c IHc] using (well_founded_induction Nat.lt_wf_0).
  intros d. induction d as [d IHd] using (well_founded_induction Nat.lt_wf_0).
  constructor. intros (a' & b' & c' & d') [H|[-> [H|[-> [H|[-> H]]]]]]; auto.
Qed.
Definition helpful (v : rank) (a : act) : Prop :=
  match v with
  | (_, (0, (0, _))) => runs a
  | (_, (0, (S _, _))) => a = ADeliver
  | (_, (1, _)) => a = AReply
  | _ => runs a
  end%nat.

Definition asks_name (q : message) : Prop := exists r, q = MStringDescriptionRequest r.
Definition no_names (pk : list packet) : Prop := Forall (fun x => ~ is_name_reply x) pk.
Definition requests_ok (qs : list message) (fs : list bytes) (bound : nat) : Prop :=
  Forall2 request_frame qs fs /\ in_order qs /\ Forall (fun q => exists k, ordinal q = Some k /\ (k < bound)%nat) qs.
Definition common (nm : naming) (w : world) (s : stage) (ph : phase) (p : Panel) (qs : list message) (fs : list bytes)
    (pk : list packet) (pf : list bytes) : Prop :=
  w_client w = IRun s ph p /\ iinv (IRun s ph p) /\ quiet (p_conn p) /\ stage_filled nm s p /\
  Forall valid_packet pk /\ Forall2 frame_of pk pf /\ unread (p_conn p) ++ w_net w = concat pf /\ requests_ok qs fs (pos s) /\
  Forall (fun q => ~ asks_name q) (skipn (w_replied w) qs).
(* kind: what is known of the packets the panel sends of its own accord *)
Section Kind.
Variable kind : packet -> Prop.
Inductive tracked (nm : naming) (w : world) : rank -> Prop :=
| T_ready s p qs fs pk pf : common nm w s PhReady p qs fs pk pf -> sent (p_conn p) = concat fs -> no_names pk ->
    (w_replied w <= length qs)%nat -> tracked nm w (250 - pos s, (3, (0, 0)))%nat
| T_flush s p qs fs pk pf part : common nm w s PhFlush p qs fs pk pf -> sent (p_conn p) = concat fs ++ part ->
    request_frame (stage_msg s) (part ++ wbuf (p_conn p)) -> wbuf (p_conn p) <> [] -> no_names pk ->
    (w_replied w <= length qs)%nat -> tracked nm w (250 - pos s, (2, (length (wbuf (p_conn p)), 0)))%nat
| T_owed s p qs fs pk pf f : common nm w s PhWait p qs fs pk pf -> sent (p_conn p) = concat fs ++ f -> request_frame (stage_msg s) f ->
    no_names pk -> (w_replied w <= length qs)%nat -> tracked nm w (250 - pos s, (1, (S (length qs) - w_replied w, 0)))%nat
| T_flight s p qs fs pre x post m pf1 xf pf2 f : common nm w s PhWait p qs fs (pre ++ x :: post) (pf1 ++ xf :: pf2) ->
    sent (p_conn p) = concat fs ++ f -> request_frame (stage_msg s) f ->
    length pf1 = length pre -> message_of x = Some m -> answers nm (stage_msg s) m -> no_names pre -> no_names post -> Forall kind post ->
    w_replied w = S (length qs) ->
    tracked nm w (250 - pos s, (0, (length (concat (pf1 ++ [xf])) - length (unread (p_conn p)), length pre)))%nat.
Definition finished (nm : naming) (w : world) : Prop :=
  exists p qs fs, w_client w = IDone p /\ iinv (IDone p) /\ filled3 nm p 8 32 208 /\ requests_ok qs fs 250 /\ sent (p_conn p) = concat fs /\ u8s (w_net w).

(* it has just finished: all requests are answered, and what is under way was sent after the last answer *)
Definition landed (nm : naming) (w : world) : Prop :=
  exists p qs fs pk pf, w_client w = IDone p /\ iinv (IDone p) /\ filled3 nm p 8 32 208 /\ requests_ok qs fs 250 /\ sent (p_conn p) = concat fs /\
    w_replied w = length qs /\ quiet (p_conn p) /\ Forall valid_packet pk /\ Forall2 frame_of pk pf /\ unread (p_conn p) ++ w_net w = concat pf /\ Forall kind pk.
Lemma in_order_snoc qs q k : in_order qs -> Forall (fun q => exists j, ordinal q = Some j /\ (j < k)%nat) qs -> ordinal q = Some k -> in_order (qs ++ [q]).
Proof.
  intros (ks & E & ST) B O. exists (ks ++ [k]). split; [rewrite !map_app, E; cbn; rewrite O; reflexivity|].
  intros i j a b L Ha Hb. destruct (Nat.ltb_spec j (length ks)) as [J|J].
  - rewrite nth_error_app1 in Ha, Hb by lia. exact (ST i j a b L Ha Hb).
  - assert (j < length (ks ++ [k]))%nat by (apply nth_error_Some; congruence). rewrite app_length in H. cbn in H.
    assert (j = length ks) by lia. subst j. rewrite nth_error_app2, Nat.sub_diag in Hb by lia. injection Hb as <-.
    rewrite nth_error_app1 in Ha by lia. apply nth_error_In in Ha. apply (in_map Some) in Ha. rewrite <- E in Ha.
    apply in_map_iff in Ha as (x & Ex & Hx). rewrite Forall_forall in B. destruct (B x Hx) as (j & Ej & Lj). congruence.
Qed.
Lemma requests_snoc qs fs s p f k : requests_ok qs fs (pos s) -> stage_ok s p -> request_frame (stage_msg s) f -> (pos s < k)%nat ->
  requests_ok (qs ++ [stage_msg s]) (fs ++ [f]) k.
Proof.
  intros (A & B & C) S F L. split; [apply Forall2_app; auto|]. pose proof (stage_ordinal _ _ S) as O. split; [eapply in_order_snoc; eauto|].
  apply Forall_app. split; [|repeat constructor; eauto]. eapply Forall_impl; [|exact C]. intros q (j & Hj & L'). exists j. split; [exact Hj | lia].
Qed.

(* the network's bytes *)
Lemma frames_u8 pk pf : Forall valid_packet pk -> Forall2 frame_of pk pf -> u8s (concat pf).
Proof.
  intros V F. induction F as [|x f pk pf Hx F IH]; [constructor|]. inversion V; subst. cbn [concat]. apply u8s_app. split; [|auto].
  apply (frame_of_valid x f); auto.
Qed.
Lemma Forall2_len {A B} (R : A -> B -> Prop) l l' : Forall2 R l l' -> length l = length l'.
Proof. induction 1; cbn; congruence. Qed.
(* reading a packet takes the first one in flight *)
Lemma first_packet pk pf u net x u' : Forall valid_packet pk -> Forall2 frame_of pk pf -> u ++ net = concat pf -> u8s u -> u8s net ->
  decode u = Ok (Some x, u') -> exists pk' f pf', pk = x :: pk' /\ pf = f :: pf' /\ u = f ++ u' /\ u' ++ net = concat pf' /\ Forall valid_packet pk' /\ Forall2 frame_of pk' pf' /\ frame_of x f.
Proof.
  intros V F E Uu Un D. pose proof (decode_mono _ _ _ _ Uu Un D) as D2. rewrite E in D2.
  destruct F as [|y f pk pf Hy F]; [discriminate D2|]. inversion V; subst. cbn [concat] in *.
  pose proof (frames_u8 _ _ H2 F) as U. rewrite (decode_of_frame y f (concat pf)) in D2 by auto. injection D2 as <- E2.
  exists pk, f, pf. split; [reflexivity|]. split; [reflexivity|]. split; [|auto 10].
  rewrite E2 in E. rewrite app_assoc in E. apply app_inv_tail in E. exact E.
Qed.
(* and if the first one has arrived completely it is read *)
Lemma first_arrived x f u : valid_packet x -> frame_of x f -> u8s u -> (exists t, u = f ++ t) -> decode u <> Ok (None, u).
Proof.
  intros V F U (t & ->). apply u8s_app in U as [_ U]. rewrite (decode_of_frame x f t) by auto. discriminate.
Qed.

Lemma common_u8 nm w s ph p qs fs pk pf : common nm w s ph p qs fs pk pf -> u8s (unread (p_conn p)) /\ u8s (w_net w).
Proof. intros (_ & _ & _ & _ & V & F & E & _). pose proof (frames_u8 _ _ V F) as U. rewrite <- E in U. apply u8s_app in U. exact U. Qed.
Lemma skipn_incl {A} (l : list A) : forall r r' q, (r <= r')%nat -> In q (skipn r' l) -> In q (skipn r l).
Proof.
  induction l as [|x l IH]; intros [|r] [|r'] q L H; auto; try lia.
  - rewrite skipn_cons in H. cbn. right. apply (IH 0%nat r'); [lia | exact H].
  - rewrite skipn_cons in *. apply (IH r r'); [lia | exact H].
Qed.
Lemma common_append nm w s ph p qs fs pk pf x f out r : common nm w s ph p qs fs pk pf -> valid_packet x -> frame_of x f -> (w_replied w <= r)%nat ->
  common nm (mkWorld (w_client w) out (w_net w ++ f) r) s ph p qs fs (pk ++ [x]) (pf ++ [f]).
Proof.
  intros (A1 & A2 & A3 & A4 & A5 & A6 & A7 & A8 & A9) V F L. unfold common. cbn [w_client w_net w_replied].
  split; [exact A1|]. split; [exact A2|]. split; [exact A3|]. split; [exact A4|]. split; [apply Forall_app; auto|]. split; [apply Forall2_app; auto|].
  split; [rewrite app_assoc, A7, concat_app; cbn; rewrite app_nil_r; reflexivity|]. split; [exact A8|].
  apply Forall_forall. intros q Hq. rewrite Forall_forall in A9. apply A9. eapply skipn_incl; eauto.
Qed.
Lemma tracked_unrelated nm w V x f out : tracked nm w V -> valid_packet x -> ~ is_name_reply x -> kind x -> frame_of x f ->
  tracked nm (mkWorld (w_client w) out (w_net w ++ f) (w_replied w)) V.
Proof.
  intros T Vx Nx Kx F. assert (NN : forall pk, no_names pk -> no_names (pk ++ [x])) by (intros; apply Forall_app; auto).
  destruct T as [s p qs fs pk pf C S N R|s p qs fs pk pf part C S Q W N R|s p qs fs pk pf g C S Q N R|s p qs fs pre y post m pf1 xf pf2 g C S Q L M A N1 N2 N3 R];
  pose proof (common_append _ _ _ _ _ _ _ _ _ x f out (w_replied w) C Vx F (le_n _)) as C'.
  - eapply T_ready; eauto.
  - eapply T_flush; eauto.
  - refine (T_owed nm (mkWorld _ _ _ _) s p qs fs _ _ g C' S Q _ R); auto.
  - rewrite <- !app_assoc in C'. eapply T_flight; eauto. apply Forall_app; auto.
Qed.
Lemma next_is nm w s ph p qs fs pk pf q r1 qs' fs' : common nm w s ph p qs fs pk pf -> Forall2 request_frame qs' fs' -> sent (p_conn p) = concat fs' ++ r1 ->
  u8s r1 -> decode r1 = Ok (None, r1) -> next_request w q -> nth_error qs' (w_replied w) = Some q.
Proof.
  intros (A1 & _) F S U D (qs0 & fs0 & rest & F0 & E & L). rewrite A1 in E. cbn [client_sent] in E. rewrite S in E.
  destruct (requests_unique _ _ F _ _ _ _ F0 E U D) as (c & ->). rewrite <- app_assoc, <- L. rewrite nth_error_app2 by lia. rewrite Nat.sub_diag. reflexivity.
Qed.
Lemma skipn_nth {A} (l : list A) r q : nth_error l r = Some q -> In q (skipn r l).
Proof. revert r; induction l as [|x l IH]; intros [|r] E; try discriminate; cbn in *; [injection E as <-; auto | auto]. Qed.
Lemma answer_named nm q m body : answers nm q m -> grammar m body -> ~ asks_name q -> ~ is_name_reply (PAscii body).
Proof.
  intros A G NA (r & M). unfold message_of in M. cbn [parse] in M. rewrite (proj2 (parse_some_iff body m) G) in M. injection M as ->.
  destruct q; cbn [answers] in A; try contradiction. apply NA. unfold asks_name. eauto.
Qed.
Lemma tracked_reply nm w V q m body f out : tracked nm w V -> next_request w q -> answers nm q m -> grammar m body -> ascii_body body -> ascii_frame body f ->
  exists V', tracked nm (mkWorld (w_client w) out (w_net w ++ f) (S (w_replied w))) V' /\ (V' = V \/ rlt V' V) /\ (helpful V AReply -> rlt V' V).
Proof.
  intros T NR A G Hb HF. assert (D0 : decode [] = Ok (None, [])) by reflexivity.
  destruct T as [s p qs fs pk pf C S N R|s p qs fs pk pf part C S Q W N R|s p qs fs pk pf g C S Q N R|s p qs fs pre y post m' pf1 xf pf2 g C S Q L M A' N1 N2 N3 R];
  pose proof (common_append _ _ _ _ _ _ _ _ _ (PAscii body) f out (Datatypes.S (w_replied w)) C Hb HF (le_S _ _ (le_n _))) as C';
  pose proof C as (_ & (_ & _ & SO & _) & _ & _ & _ & _ & _ & (RF & _) & NA).
  - assert (E : nth_error qs (w_replied w) = Some q) by (refine (next_is nm w _ _ _ _ _ _ _ q [] qs fs C RF _ (Forall_nil _) D0 NR); rewrite app_nil_r; exact S).
    assert (X : ~ asks_name q) by (rewrite Forall_forall in NA; apply NA, skipn_nth; exact E).
    assert (L : (w_replied w < length qs)%nat) by (apply nth_error_Some; congruence).
    eexists. split; [eapply T_ready; eauto; [apply Forall_app; split; [exact N|]; repeat constructor; eapply answer_named; eauto]|].
    split; [left; reflexivity | intros []].
  - assert (E : nth_error qs (w_replied w) = Some q).
    { destruct Q as (Wf & b & Hw & HFr). pose proof (wire_ascii _ _ Wf Hw) as Hb'. destruct (frame_of_valid (PAscii b) _ Hb' HFr) as (U & _).
      apply u8s_app in U as [U _]. refine (next_is nm w _ _ _ _ _ _ _ q part qs fs C RF S U _ NR). eapply (prefix_waits (PAscii b)); eauto. }
    assert (X : ~ asks_name q) by (rewrite Forall_forall in NA; apply NA, skipn_nth; exact E).
    assert (L : (w_replied w < length qs)%nat) by (apply nth_error_Some; congruence).
    eexists. split; [eapply T_flush; eauto; [apply Forall_app; split; [exact N|]; repeat constructor; eapply answer_named; eauto]|].
    split; [left; reflexivity | intros []].
  - assert (E : nth_error (qs ++ [stage_msg s]) (w_replied w) = Some q).
    { refine (next_is nm w _ _ _ _ _ _ _ q [] (qs ++ [stage_msg s]) (fs ++ [g]) C _ _ (Forall_nil _) D0 NR); [apply Forall2_app; auto|].
      rewrite concat_app. cbn. rewrite !app_nil_r. exact S. }
    destruct (Nat.ltb_spec (w_replied w) (length qs)) as [L|L].
    + rewrite nth_error_app1 in E by lia.
      assert (X : ~ asks_name q) by (rewrite Forall_forall in NA; apply NA, skipn_nth; exact E).
      eexists. split; [eapply T_owed; eauto; [apply Forall_app; split; [exact N|]; repeat constructor; eapply answer_named; eauto]|].
      cbn [w_replied]. split; [right|intros _]; cbn [rlt]; lia.
    + assert (ER : w_replied w = length qs) by lia. rewrite nth_error_app2, ER, Nat.sub_diag in E by lia. injection E as <-.
      assert (C2 := C'). eexists. split.
      * eapply (T_flight nm _ s p qs fs pk (PAscii body) [] m pf f [] g); eauto.
        -- symmetry. pose proof C as (_ & _ & _ & _ & _ & F2 & _). apply Forall2_len in F2. exact F2.
        -- unfold message_of. cbn [parse]. rewrite (proj2 (parse_some_iff body m) G). reflexivity.
        -- constructor.
        -- cbn [w_replied]. congruence.
      * split; [right|intros _]; cbn [rlt]; lia.
  - exfalso. assert (E : nth_error (qs ++ [stage_msg s]) (w_replied w) = Some q).
    { refine (next_is nm w _ _ _ _ _ _ _ q [] (qs ++ [stage_msg s]) (fs ++ [g]) C _ _ (Forall_nil _) D0 NR); [apply Forall2_app; auto|].
      rewrite concat_app. cbn. rewrite !app_nil_r. exact S. }
    rewrite R in E. assert (Z : nth_error (qs ++ [stage_msg s]) (Datatypes.S (length qs)) = None) by (apply nth_error_None; rewrite app_length; cbn; lia). congruence.
Qed.

Lemma common_deliver nm w s ph p qs fs pk pf a b out : common nm w s ph p qs fs pk pf -> w_net w = a ++ b -> a <> [] ->
  common nm (mkWorld (iarrive (Bytes a) (w_client w)) out b (w_replied w)) s ph (with_conn p (arrive (p_conn p) (Bytes a))) qs fs pk pf.
Proof.
  intros C E Na. destruct (common_u8 _ _ _ _ _ _ _ _ _ C) as [_ U]. rewrite E in U. apply u8s_app in U as [U _].
  destruct C as (A1 & A2 & A3 & A4 & A5 & A6 & A7 & A8 & A9). unfold common. cbn [w_client w_net w_replied]. rewrite A1.
  split; [reflexivity|]. split; [exact (iarrive_inv (Bytes a) _ U A2)|]. split; [apply arrive_quiet; auto|].
  split; [eapply stage_filled_same; [|exact A4]; repeat split|]. split; [exact A5|]. split; [exact A6|].
  split; [|auto]. cbn [p_conn with_conn]. rewrite arrive_unread. cbn [arrival_data]. rewrite <- app_assoc, <- E. exact A7.
Qed.
Lemma tracked_deliver nm w V a b out : tracked nm w V -> w_net w = a ++ b -> a <> [] ->
  exists V', tracked nm (mkWorld (iarrive (Bytes a) (w_client w)) out b (w_replied w)) V' /\ (V' = V \/ rlt V' V) /\ (helpful V ADeliver -> rlt V' V).
Proof.
  intros T E Na.
  destruct T as [s p qs fs pk pf C S N R|s p qs fs pk pf part C S Q W N R|s p qs fs pk pf g C S Q N R|s p qs fs pre y post m' pf1 xf pf2 g C S Q L M A' N1 N2 N3 R];
  pose proof (common_deliver _ _ _ _ _ _ _ _ _ a b out C E Na) as C'.
  - eexists. split; [eapply T_ready; eauto|]. split; [left; reflexivity | intros []].
  - eexists. split; [eapply T_flush; eauto|]. split; [left; reflexivity | intros []].
  - eexists. split; [eapply T_owed; eauto|]. split; [left; reflexivity | discriminate].
  - eexists. split; [eapply T_flight; eauto|]. cbn [p_conn with_conn w_net]. rewrite arrive_unread, app_length. cbn [arrival_data].
    assert (LA : (1 <= length a)%nat) by (destruct a; [congruence | cbn; lia]).
    destruct (length (concat (pf1 ++ [xf])) - length (unread (p_conn p)))%nat eqn:ED.
    + split; [left; do 3 f_equal; lia | intros []].
    + split; [right|intros _]; cbn [rlt]; lia.
Qed.

Lemma answers_replies nm q m : answers nm q m -> replies m q.
Proof.
  destruct q, m; cbn [answers replies]; tauto.
Qed.
Lemma common_next nm w s ph p qs fs pk pf now ws out s2 ph2 p2 pk' pf' qs2 fs2 :
  common nm w s ph p qs fs pk pf -> istep now ws (IRun s ph p) = IRun s2 ph2 p2 -> quiet (p_conn p2) -> stage_filled nm s2 p2 ->
  Forall valid_packet pk' -> Forall2 frame_of pk' pf' -> unread (p_conn p2) ++ w_net w = concat pf' -> requests_ok qs2 fs2 (pos s2) ->
  Forall (fun q => ~ asks_name q) (skipn (w_replied w) qs2) ->
  common nm (mkWorld (istep now ws (w_client w)) out (w_net w) (w_replied w)) s2 ph2 p2 qs2 fs2 pk' pf'.
Proof.
  intros (A1 & A2 & _) E Q F V F2 U R NA. unfold common. cbn [w_client w_net w_replied]. rewrite A1, E.
  split; [reflexivity|]. split; [rewrite <- E; apply istep_inv; exact A2|]. auto 10.
Qed.
Lemma requests_more qs fs k k' : requests_ok qs fs k -> (k <= k')%nat -> requests_ok qs fs k'.
Proof.
  intros (A & B & C) L. split; [exact A|]. split; [exact B|]. eapply Forall_impl; [|exact C]. intros q (j & Hj & L'). exists j. split; [exact Hj | lia].
Qed.
Lemma skipn_snoc_forall {A} (P : A -> Prop) (l : list A) r x : Forall P (skipn r l) -> P x -> Forall P (skipn r (l ++ [x])).
Proof.
  intros H Hx. rewrite skipn_app. apply Forall_app. split; [exact H|]. destruct (r - length l)%nat; [repeat constructor; auto|].
  rewrite skipn_cons. destruct n; constructor.
Qed.
(* the status requests: any report will do *)
Lemma advance nm w s p qs fs pk pf f now ws out p' pk' pf' m :
  common nm w s PhWait p qs fs pk pf -> sent (p_conn p) = concat fs ++ f -> request_frame (stage_msg s) f ->
  same_tables p p' -> same_write (p_conn p) (p_conn p') -> quiet (p_conn p') -> 
  Forall valid_packet pk' -> Forall2 frame_of pk' pf' -> unread (p_conn p') ++ w_net w = concat pf' -> no_names pk' ->
  (w_replied w <= S (length qs))%nat -> ~ asks_name (stage_msg s) ->
  istep now ws (IRun s PhWait p) = after_reply s p' m ->
  exists V', tracked nm (mkWorld (istep now ws (w_client w)) out (w_net w) (w_replied w)) V' /\ (fst V' < 250 - pos s)%nat.
Proof.
  intros C S F ST SW Q V F2 U N R NA E. pose proof C as (A1 & (_ & _ & SO & _) & A3 & A4 & _ & _ & _ & A8 & A9).
  assert (G : forall s2, after_reply s p' m = IRun s2 PhReady p' -> stage_filled nm s2 p' -> (pos s < pos s2 < 250)%nat ->
    exists V', tracked nm (mkWorld (istep now ws (w_client w)) out (w_net w) (w_replied w)) V' /\ (fst V' < 250 - pos s)%nat).
  { intros s2 E2 SF P. rewrite E2 in E. eexists. split.
    - eapply (T_ready nm _ s2 p' (qs ++ [stage_msg s]) (fs ++ [f])).
      + eapply common_next; eauto; [eapply requests_snoc; eauto; lia | apply skipn_snoc_forall; auto].
      + destruct SW as (_ & SW & _). rewrite SW, S, concat_app. cbn. rewrite app_nil_r. reflexivity.
      + exact N.
      + cbn [w_replied]. rewrite app_length. cbn. lia.
    - cbn [fst]. lia. }
  destruct s as [| |ty max i].
  - apply (G St_zs); [reflexivity | eapply filled3_same; eauto | cbn; lia].
  - apply (G (St_sd TT_Area NUM_AREAS 0)); [reflexivity | eapply filled3_same; eauto | cbn; lia].
  - elim NA. unfold asks_name. cbn. eauto.
Qed.
Lemma tracked_client_lands nm w V now ws out : tracked nm w V -> Forall write_ok ws ->
  landed nm (mkWorld (istep now ws (w_client w)) out (w_net w) (w_replied w)) \/
  exists V', tracked nm (mkWorld (istep now ws (w_client w)) out (w_net w) (w_replied w)) V' /\ (V' = V \/ rlt V' V) /\ (helpful V (AClient now ws) -> rlt V' V).
Proof.
  intros T HW.
  destruct T as [s p qs fs pk pf C S N R|s p qs fs pk pf part C S Q W N R|s p qs fs pk pf g C S Q N R|s p qs fs pre y post m' pf1 xf pf2 g C S Q L M A' N1 N2 N3 R];
  pose proof C as (A1 & A2 & A3 & A4 & A5 & A6 & A7 & A8 & A9).
  - (* start_send *)
    right. destruct (step_ready now ws s p A2 A3) as (p' & f & E & F & W & Nf & S' & ST & Q' & U).
    rewrite <- W in Nf. eexists. split; [eapply (T_flush nm _ s p' qs fs pk pf []); eauto|].
    + eapply common_next; eauto; [eapply stage_filled_same; eauto | rewrite U; exact A7].
    + rewrite app_nil_r, S'. exact S.
    + cbn [app]. rewrite W. exact F.
    + split; [right|intros _]; cbn [rlt]; lia.
  - (* flush *)
    right. destruct (step_flush now ws s p HW A3) as (p' & E & EW & (k & ES) & LE & LT & ST & Q' & U).
    assert (C' : forall ph2, istep now ws (IRun s PhFlush p) = IRun s ph2 p' ->
       common nm (mkWorld (istep now ws (w_client w)) out (w_net w) (w_replied w)) s ph2 p' qs fs pk pf).
    { intros ph2 E2. eapply common_next; eauto; [eapply stage_filled_same; eauto | rewrite U; exact A7]. }
    assert (P : part ++ wbuf (p_conn p) = (part ++ firstn k (wbuf (p_conn p))) ++ wbuf (p_conn p')).
    { rewrite ES, S, <- !app_assoc in EW. apply app_inv_head in EW. rewrite <- app_assoc. symmetry. exact EW. }
    destruct E as [(E & W')|(E & W')]; eexists.
    + split; [eapply (T_flush nm _ s p' qs fs pk pf (part ++ firstn k (wbuf (p_conn p)))); eauto|].
      * rewrite ES, S, <- app_assoc. reflexivity.
      * rewrite <- P. exact Q.
      * cbn [w_replied]. split; [|intros H; cbn [helpful] in H; specialize (LT H W); cbn [rlt]; lia].
        destruct (Nat.eq_dec (length (wbuf (p_conn p'))) (length (wbuf (p_conn p)))) as [->|X]; [left; reflexivity | right; cbn [rlt]; lia].
    + split; [eapply (T_owed nm _ s p' qs fs pk pf (part ++ wbuf (p_conn p))); eauto|].
      * rewrite P, W', app_nil_r, ES, S, <- app_assoc. reflexivity.
      * split; [right|intros _]; cbn [rlt]; lia.
  - (* waiting, no reply sent yet *)
    right. destruct (common_u8 _ _ _ _ _ _ _ _ _ C) as [Uu Un].
    destruct (step_wait now ws s p A2 A3) as (p' & ST & SW & Q' & [(E & U & D)|(pkt & D & X)]).
    + eexists. split; [eapply (T_owed nm _ s p' qs fs pk pf g); eauto|split; [left; reflexivity | cbn [helpful]; discriminate]].
      * eapply common_next; eauto; [eapply stage_filled_same; eauto | rewrite U; exact A7].
      * destruct SW as (_ & SW & _). rewrite SW. exact S.
    + destruct (first_packet _ _ _ _ _ _ A5 A6 A7 Uu Un D) as (pk' & f' & pf' & -> & -> & Eu & Eu' & V' & F' & _).
      inversion N as [|? ? Nx N']; subst. destruct X as [(m & Em & Rm & E & I')|(NR & E)].
      * assert (NA : ~ asks_name (stage_msg s)).
        { intros (r & Er). rewrite Er in Rm. destruct m; cbn [replies] in Rm; try contradiction. apply Nx. eexists. exact Em. }
        destruct (advance nm w s p qs fs _ _ g now ws out p' pk' pf' m C S Q ST SW Q' V' F' Eu' N' ltac:(lia) NA E) as (V2 & T2 & L2).
        exists V2. split; [exact T2|]. destruct V2 as (a & b & c & d). cbn [fst] in L2. split; [right | cbn [helpful]; discriminate]. cbn [rlt]. lia.
      * eexists. split; [eapply (T_owed nm _ s p' qs fs pk' pf' g); eauto|split; [left; reflexivity | cbn [helpful]; discriminate]].
        -- eapply common_next; eauto; eapply stage_filled_same; eauto.
        -- destruct SW as (_ & SW & _). rewrite SW. exact S.
  - (* waiting, the reply is under way *)
    destruct (common_u8 _ _ _ _ _ _ _ _ _ C) as [Uu Un].
    destruct (step_wait now ws s p A2 A3) as (p' & ST & SW & Q' & [(E & U & D)|(pkt & D & X)]).
    + right. eexists. split; [eapply (T_flight nm _ s p' qs fs pre y post m' pf1 xf pf2 g); eauto|].
      * eapply common_next; eauto; [eapply stage_filled_same; eauto | rewrite U; exact A7].
      * destruct SW as (_ & SW & _). rewrite SW. exact S.
      * rewrite U. split; [left; reflexivity|]. destruct (length (concat (pf1 ++ [xf])) - length (unread (p_conn p)))%nat eqn:ED; [|discriminate].
        intros _. exfalso.
        (* the first packet in flight has arrived completely *)
        assert (FA : exists x0 f0 t, valid_packet x0 /\ frame_of x0 f0 /\ unread (p_conn p) = f0 ++ t).
        { assert (Pr : exists t, unread (p_conn p) = concat (pf1 ++ [xf]) ++ t).
          { replace (pf1 ++ xf :: pf2) with ((pf1 ++ [xf]) ++ pf2) in A7 by (rewrite <- app_assoc; reflexivity). rewrite concat_app in A7.
            exists (skipn (length (concat (pf1 ++ [xf]))) (unread (p_conn p))).
            assert (EF : firstn (length (concat (pf1 ++ [xf]))) (unread (p_conn p)) = concat (pf1 ++ [xf])).
            { apply (f_equal (firstn (length (concat (pf1 ++ [xf]))))) in A7. rewrite !firstn_app in A7.
              replace (length (concat (pf1 ++ [xf])) - length (unread (p_conn p)))%nat with 0%nat in A7 by lia.
              rewrite Nat.sub_diag in A7. cbn [firstn] in A7. rewrite !app_nil_r, firstn_all in A7. exact A7. }
            rewrite <- EF at 1. symmetry. apply firstn_skipn. }
          destruct Pr as (t & Pr). destruct pre as [|x0 pre]; destruct pf1 as [|f0 pf1]; try discriminate L.
          - cbn [app] in *. inversion A5; inversion A6; subst. exists y, xf, t. cbn [concat] in Pr. rewrite app_nil_r in Pr. auto.
          - cbn [app] in *. inversion A5; inversion A6; subst. exists x0, f0. cbn [concat] in Pr. rewrite <- app_assoc in Pr. eauto. }
        destruct FA as (x0 & f0 & t & Vx & Fx & Ex). eapply first_arrived; [exact Vx | exact Fx | exact Uu | eauto | exact D].
    + destruct (first_packet _ _ _ _ _ _ A5 A6 A7 Uu Un D) as (pk' & f' & pf' & EK & EF & Eu & Eu' & V' & F' & Fp).
      assert (SS : sent (p_conn p') = concat fs ++ g) by (destruct SW as (_ & SW & _); rewrite SW; exact S).
      (* names other than the one awaited are not under way *)
      assert (NA : forall m, message_of pkt = Some m -> replies m (stage_msg s) -> asks_name (stage_msg s) -> pre = []).
      { intros m Em Rm (r & Er). destruct pre as [|z pre]; [reflexivity|]. exfalso. cbn [app] in EK. injection EK as <- _. inversion N1 as [|? ? Nz _]; subst.
        rewrite Er in Rm. destruct m; cbn [replies] in Rm; try contradiction. apply Nz. eexists. exact Em. }
      destruct X as [(m & Em & Rm & E & I')|(NR & E)].
      * destruct s as [| |ty max i].
        1,2: right; assert (NK : no_names pk') by (
            assert (AN : no_names (pre ++ y :: post)) by (apply Forall_app; split; [exact N1|]; constructor; [|exact N2];
              intros (r & Hr); rewrite M in Hr; injection Hr as ->; cbn [stage_msg answers] in A'; exact A');
            rewrite EK in AN; inversion AN; assumption);
          match type of C with common _ _ ?s _ _ _ _ _ _ =>
            destruct (advance nm w s p qs fs _ _ g now ws out p' pk' pf' m C S Q ST SW Q' V' F' Eu' NK ltac:(lia)) as (V2 & T2 & L2);
              [intros (r & Hr); discriminate Hr | exact E|] end;
          exists V2; split; [exact T2|]; destruct V2 as (a & b & c & d); cbn [fst] in L2; split; [right | intros _]; cbn [rlt]; lia.
        assert (EP : pre = []) by (eapply NA; eauto; unfold asks_name; cbn; eauto). subst pre. destruct pf1; [|discriminate L].
        cbn [app] in EK, EF. injection EK as <- <-. injection EF as <- <-. rewrite M in Em. injection Em as <-.
        cbn [after_reply] in E. pose proof A2 as (_ & _ & SO & _). pose proof SO as (_ & TB & LI).
        destruct (sds_reply_ok nm ty max i p' m' TB LI I' (stage_filled_same _ _ _ _ ST A4) A') as (p2 & EC & [(s' & ES & SF & LP)|(ES & SF)]).
        -- right. rewrite ES in E.
           assert (SO' : stage_ok s' p2) by (pose proof (istep_inv now ws _ A2) as I2; rewrite E in I2; apply I2).
           eexists. split; [eapply (T_ready nm _ s' p2 (qs ++ [stage_msg (St_sd ty max i)]) (fs ++ [g]) post pf2)|].
           ++ eapply common_next; eauto; [rewrite EC; exact Q' | rewrite EC; exact Eu' | eapply requests_snoc; eauto |].
              rewrite R, skipn_all2; [constructor | rewrite app_length; cbn; lia].
           ++ rewrite EC, SS, concat_app. cbn. rewrite app_nil_r. reflexivity.
           ++ exact N2.
           ++ cbn [w_replied]. rewrite R, app_length. cbn. lia.
           ++ pose proof (pos_lt _ _ SO'). split; [right | intros _]; cbn [rlt]; lia.
        -- left. rewrite ES in E. pose proof (istep_inv now ws _ A2) as I2. rewrite E in I2.
           exists p2, (qs ++ [stage_msg (St_sd ty max i)]), (fs ++ [g]), post, pf2. cbn [w_client w_net w_replied]. rewrite A1, E.
           split; [reflexivity|]. split; [exact I2|]. split; [exact SF|]. split; [eapply requests_snoc; eauto; apply (pos_lt _ _ SO)|].
           split; [rewrite EC, SS, concat_app; cbn; rewrite app_nil_r; reflexivity|]. split; [rewrite app_length; cbn; lia|].
           rewrite EC. auto 10.
      * right. destruct pre as [|z pre]; destruct pf1 as [|f0 pf1]; try discriminate L.
        { cbn [app] in EK. injection EK as <- <-. elim (NR _ M). eapply answers_replies; eauto. }
        cbn [app] in EK, EF. injection EK as <- <-. injection EF as <- <-. inversion N1; subst. injection L as L.
        eexists. split; [eapply (T_flight nm _ s p' qs fs pre y post m' pf1 xf pf2 g); eauto|].
        -- eapply common_next; eauto; eapply stage_filled_same; eauto.
        -- rewrite Eu. cbn [app concat length]. rewrite !app_length.
           replace (length f0 + length (concat (pf1 ++ [xf])) - (length f0 + length (unread (p_conn p'))))%nat
             with (length (concat (pf1 ++ [xf])) - length (unread (p_conn p')))%nat by lia.
           split; [right | intros _]; cbn [rlt]; lia.
Qed.

Lemma landed_finished nm w : landed nm w -> finished nm w.
Proof.
  intros (p & qs & fs & pk & pf & A & B & C & D & E & _ & _ & V & F & U & _). exists p, qs, fs. pose proof (frames_u8 _ _ V F) as X. rewrite <- U in X. apply u8s_app in X as [_ X]. auto 10.
Qed.
Lemma tracked_client nm w V now ws out : tracked nm w V -> Forall write_ok ws ->
  finished nm (mkWorld (istep now ws (w_client w)) out (w_net w) (w_replied w)) \/
  exists V', tracked nm (mkWorld (istep now ws (w_client w)) out (w_net w) (w_replied w)) V' /\ (V' = V \/ rlt V' V) /\ (helpful V (AClient now ws) -> rlt V' V).
Proof. intros T HW. destruct (tracked_client_lands nm w V now ws out T HW) as [L|H]; [left; apply landed_finished; exact L | right; exact H]. Qed.
Lemma tracked_new nm : tracked nm world_new (250, (3, (0, 0)))%nat.
Proof.
  assert (FN : forall ty n, filled nm (repeat TextDescription_EMPTY n) ty 0 \/ (n < N.to_nat (count_of ty))%nat).
  { intros ty n. destruct (Nat.ltb_spec n (N.to_nat (count_of ty))); [auto|]. left. intros j Hj. cbn [Nat.ltb Nat.leb andb].
    rewrite nth_error_repeat by lia. reflexivity. }
  apply (T_ready nm world_new St_as (mkPanel conn_new PanelState_default None Idle) [] [] [] []); try reflexivity; [|constructor].
  split; [reflexivity|]. split; [apply (init_inv conn_new conn_new_inv); reflexivity|]. split; [repeat split; constructor|].
  split. { split; [|split]; cbn [p_state area_names task_names zone_names PanelState_default].
    - destruct (FN TT_Area NUM_AREAS); [assumption | vm_compute in H; lia].
    - destruct (FN TT_Task NUM_TASKS); [assumption | vm_compute in H; lia].
    - destruct (FN TT_Zone NUM_ZONES); [assumption | vm_compute in H; lia]. }
  split; [constructor|]. split; [constructor|]. split; [reflexivity|]. split; [|constructor].
  split; [constructor|]. split; [|constructor]. exists []. split; [reflexivity|]. intros i j a b _ H. destruct i; discriminate.
Qed.
Lemma owed_next nm w a d t : tracked nm w (a, (1, (d, t)))%nat -> exists q, next_request w q.
Proof.
  intros T. inversion T as [| |s p qs fs pk pf f C S Q N R E|]; subst. destruct C as (A1 & _ & _ & _ & _ & _ & _ & (RF & _) & _).
  assert (F2 : Forall2 request_frame (qs ++ [stage_msg s]) (fs ++ [f])) by (apply Forall2_app; auto).
  destruct (nth_error (qs ++ [stage_msg s]) (w_replied w)) as [q|] eqn:EQ.
  2: { apply nth_error_None in EQ. rewrite app_length in EQ. cbn in EQ. lia. }
  apply nth_error_split in EQ as (l1 & l2 & EQ & L). exists q. rewrite EQ in F2.
  replace (l1 ++ q :: l2) with ((l1 ++ [q]) ++ l2) in F2 by (rewrite <- app_assoc; reflexivity).
  apply Forall2_app_inv_l in F2 as (f1 & f2 & F1 & F2 & EF). exists l1, f1, (concat f2). split; [exact F1|]. split; [|exact L].
  rewrite A1. cbn [client_sent]. rewrite S.
  transitivity (concat (fs ++ [f])); [rewrite concat_app; cbn; rewrite app_nil_r; reflexivity | rewrite EF; apply concat_app].
Qed.
Lemma flight_net nm w a d t : tracked nm w (a, (0, (S d, t)))%nat -> w_net w <> [].
Proof.
  intros T. inversion T as [| | |s p qs fs pre y post m' pf1 xf pf2 g C SS Q L M A' N1 N2 N3 R E]; subst. intros Z.
  destruct C as (_ & _ & _ & _ & _ & _ & A7 & _). rewrite Z, app_nil_r in A7.
  replace (pf1 ++ xf :: pf2) with ((pf1 ++ [xf]) ++ pf2) in A7 by (rewrite <- app_assoc; reflexivity). rewrite concat_app in A7.
  apply (f_equal (@length N)) in A7. rewrite app_length in A7. lia.
Qed.
End Kind.
(* any *)
Definition any (_ : packet) : Prop := True.

Lemma finished_step nm w a w' : finished nm w -> happens nm w a w' -> finished nm w'.
Proof.
  intros (p & qs & fs & E & I & F & R & S & U) H.
  destruct H as [now ws HW|x f V Nx Fx|q m body f NR A G Hb HF|x y En Nx].
  - exists p, qs, fs. cbn [w_client w_net]. rewrite E. auto 10.
  - exists p, qs, fs. cbn [w_client w_net]. split; [exact E|]. split; [exact I|]. split; [exact F|]. split; [exact R|]. split; [exact S|].
    apply u8s_app. split; [exact U | apply (frame_of_valid x f); auto].
  - exists p, qs, fs. cbn [w_client w_net]. split; [exact E|]. split; [exact I|]. split; [exact F|]. split; [exact R|]. split; [exact S|].
    apply u8s_app. split; [exact U | apply (frame_of_valid (PAscii body) f); auto].
  - rewrite En in U. apply u8s_app in U as [Ux Uy].
    exists (with_conn p (arrive (p_conn p) (Bytes x))), qs, fs. cbn [w_client w_net]. rewrite E.
    split; [reflexivity|]. split; [exact (iarrive_inv (Bytes x) _ Ux I)|]. auto.
Qed.
Lemma tracked_step nm w V a w' : tracked any nm w V -> happens nm w a w' ->
  finished nm w' \/ exists V', tracked any nm w' V' /\ (V' = V \/ rlt V' V) /\ (helpful V a -> rlt V' V).
Proof.
  intros T H. destruct H as [now ws HW|x f Vx Nx Fx|q m body f NR A G Hb HF|x y En Nx].
  - apply tracked_client; auto.
  - right. exists V. split; [apply (tracked_unrelated any nm w V x f); auto; exact Logic.I|]. split; [auto|]. intros H. exfalso.
    destruct V as (a & [|[|[|b]]] & [|c] & d); cbn [helpful runs] in H; first [exact H | discriminate H].
  - right. eapply tracked_reply; eauto.
  - right. eapply tracked_deliver; eauto.
Qed.
Lemma possible_tracked nm w : possible nm w -> finished nm w \/ exists V, tracked any nm w V.
Proof.
  induction 1 as [|w a w' P IH H].
  - right. eexists. apply tracked_new.
  - destruct IH as [F|(V & T)]; [left; eapply finished_step; eauto|].
    destruct (tracked_step _ _ _ _ _ T H) as [F|(V' & T' & _)]; eauto.
Qed.

(* ---- fair executions finish ---- *)
(* until the measure goes down, whatever would bring it down stays possible *)
Lemma goes_down nm ws acts V m : (forall n, happens nm (ws n) (acts n) (ws (S n))) -> helpful V (acts m) ->
  forall k n, (n + k = m)%nat -> tracked any nm (ws n) V -> exists n', finished nm (ws n') \/ exists V', tracked any nm (ws n') V' /\ rlt V' V.
Proof.
  intros X H. induction k as [|k IH]; intros n E T; destruct (tracked_step _ _ _ _ _ T (X n)) as [F|(V' & T' & [->|L] & D)]; eauto 6.
  - rewrite Nat.add_0_r in E. subst n. eauto 6.
  - apply (IH (S n)); [lia | exact T'].
Qed.
Lemma stays nm ws acts V m : (forall n, happens nm (ws n) (acts n) (ws (S n))) ->
  forall k n, (n + k = m)%nat -> tracked any nm (ws n) V -> tracked any nm (ws m) V \/ exists n', finished nm (ws n') \/ exists V', tracked any nm (ws n') V' /\ rlt V' V.
Proof.
  intros X. induction k as [|k IH]; intros n E T; [rewrite Nat.add_0_r in E; subst n; auto|].
  destruct (tracked_step _ _ _ _ _ T (X n)) as [F|(V' & T' & [->|L] & D)]; eauto 6. apply (IH (S n)); [lia | exact T'].
Qed.
Lemma fair_finishes nm ws acts : (forall n, happens nm (ws n) (acts n) (ws (S n))) -> fair ws acts ->
  forall V n, tracked any nm (ws n) V -> exists m, finished nm (ws m).
Proof.
  intros X (F1 & F2 & F3) V. induction V as [V IH] using (well_founded_induction rlt_wf). intros n T.
  assert (D : exists n', finished nm (ws n') \/ exists V', tracked any nm (ws n') V' /\ rlt V' V).
  { assert (Run : (forall a, helpful V a <-> runs a) -> exists n', finished nm (ws n') \/ exists V', tracked any nm (ws n') V' /\ rlt V' V).
    { intros HR. destruct (F1 n) as (m & L & R). eapply (goes_down nm ws acts V m X); [apply HR; exact R | | exact T]. instantiate (1 := (m - n)%nat). lia. }
    destruct V as (a & [|[|b]] & c & d).
    - destruct c as [|c]; [apply Run; reflexivity|]. destruct (F3 n) as (m & L & R).
      destruct (stays nm ws acts _ m X (m - n) n ltac:(lia) T) as [Tm|G]; [|exact G].
      destruct R as [R|R]; [|elim (flight_net _ _ _ _ _ _ Tm R)].
      eapply (goes_down nm ws acts _ m X); [cbn [helpful]; exact R | | exact Tm]. apply Nat.add_0_r.
    - destruct (F2 n) as (m & L & R).
      destruct (stays nm ws acts _ m X (m - n) n ltac:(lia) T) as [Tm|G]; [|exact G].
      destruct R as [R|R]; [|destruct (owed_next _ _ _ _ _ _ Tm) as (q & Hq); elim (R q Hq)].
      eapply (goes_down nm ws acts _ m X); [cbn [helpful]; exact R | | exact Tm]. apply Nat.add_0_r.
    - apply Run. reflexivity. }
  destruct D as (n' & [F|(V' & T' & L)]); [eauto|]. exact (IH V' L n' T').
Qed.

(* ---- the view of the panel ---- *)
Lemma possible_history nm w : possible nm w -> exists h pf, Forall iop_ok h /\ irun conn_new h = w_client w /\
  Forall valid_packet (w_out w) /\ Forall2 frame_of (w_out w) pf /\ iarrived h ++ w_net w = concat pf.
Proof.
  induction 1 as [|w a w' P (h & pf & HO & E & V & F & A) H].
  - exists [], []. repeat split; constructor.
  - destruct H as [now ws HW|x f Vx Nx Fx|q m body f NR An G Hb HF|x y En Nx].
    + exists (h ++ [IStep now ws]), pf. cbn [w_client w_out w_net]. split; [apply Forall_app; repeat constructor; auto|].
      rewrite irun_snoc, E, iarrived_app. split; [reflexivity|]. split; [exact V|]. split; [exact F|].
      change (iarrived [IStep now ws]) with (@nil N). rewrite app_nil_r. exact A.
    + exists h, (pf ++ [f]). cbn [w_client w_out w_net]. split; [exact HO|]. split; [exact E|]. split; [apply Forall_app; auto|].
      split; [apply Forall2_app; auto|]. rewrite app_assoc, A, concat_app. cbn. rewrite app_nil_r. reflexivity.
    + exists h, (pf ++ [f]). cbn [w_client w_out w_net]. split; [exact HO|]. split; [exact E|].
      assert (Vb : valid_packet (PAscii body)) by exact Hb. split; [apply Forall_app; auto|].
      split; [apply Forall2_app; [exact F|]; constructor; [exact HF | constructor]|]. rewrite app_assoc, A, concat_app. cbn. rewrite app_nil_r. reflexivity.
    + exists (h ++ [IArrive (Bytes x)]), pf. cbn [w_client w_out w_net].
      assert (U : u8s x). { pose proof (frames_u8 _ _ V F) as U. rewrite <- A, En in U. apply u8s_app in U as [_ U]. apply u8s_app in U. tauto. }
      split; [apply Forall_app; repeat constructor; auto|]. rewrite irun_snoc, E, iarrived_app. split; [reflexivity|]. split; [exact V|]. split; [exact F|].
      replace (iarrived [IArrive (Bytes x)]) with x by (unfold iarrived; cbn; rewrite app_nil_r; reflexivity). rewrite <- app_assoc, <- En. exact A.
Qed.
Lemma possible_viewed nm w p : possible nm w -> w_client w = IDone p -> exists ps rest, w_out w = ps ++ rest /\
  latest p = last (map Some (reports_in ps)) None /\ zones_from p (messages_in ps).
Proof.
  intros P E. destruct (possible_history _ _ P) as (h & pf & HO & EH & V & F & A). rewrite E in EH.
  destruct (connected_viewed h p HO EH) as (ps & T & L & Z). exists ps.
  pose proof (frames_u8 _ _ V F) as U. rewrite <- A in U. apply u8s_app in U as [Uh Un].
  pose proof (takes_more _ _ _ (w_net w) T Uh Un) as T2. rewrite A in T2.
  assert (U2 : u8s (concat pf)) by (apply (frames_u8 _ _ V F)).
  destruct (drain_total _ (takes_u8 _ _ _ T2 U2)) as (qs & left & _ & D).
  pose proof (takes_drains _ _ _ T2 _ _ D) as D2.
  assert (D3 : drains (concat pf ++ []) (w_out w ++ []) []).
  { apply drains_frames; auto; [constructor | constructor; reflexivity]. }
  rewrite !app_nil_r in D3. destruct (drains_det _ _ _ D3 _ _ D2) as [-> _]. apply seen_latest in L. eauto.
Qed.
