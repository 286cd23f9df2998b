(* ConnFacts.v: facts about the Connection model (Tokio.v). *)
From Verif Require Import Base BaseFacts Pkt SpecPkt PktFacts DecodeFacts Tokio SpecConn.
From Coq Require Import ZifyBool ZifyNat ZifyN.
Ltac Zify.zify_post_hook ::= Z.div_mod_to_equations.

Definition rd_u8 (r : rd) : Prop := match r with RData c => u8s c | RErr _ => True end.

Lemma qdata_app a b : qdata (a ++ b) = qdata a ++ qdata b.
Proof. unfold qdata. rewrite map_app, concat_app. reflexivity. Qed.
Lemma qdata_u8 q : Forall rd_u8 q -> u8s (qdata q).
Proof. induction 1 as [|[c|e] q H HQ IH]; [constructor| |]; unfold qdata in *; cbn; [apply u8s_app; auto | exact IH]. Qed.

(* the representation invariant of a connection *)
Definition cinv (c : conn) : Prop :=
  u8s (rbuf c) /\ Forall rd_u8 (rq c) /\
  (is_readable c = false \/ has_errored c = true -> decode (rbuf c) = Ok (None, rbuf c)).

Definition same_write (c c' : conn) : Prop :=
  wbuf c' = wbuf c /\ sent c' = sent c /\ shut c' = shut c /\ peer_closed c' = peer_closed c.

(* a read that would return 0 bytes now, leaving q queued *)
Definition zero_read (c : conn) (q : list rd) : Prop :=
  rq c = RData [] :: q \/ (rq c = [] /\ peer_closed c = true /\ q = []).

(* framed_loop without fuel, as a relation *)
Inductive nexts : conn -> conn -> poll (option (io packet)) -> Prop :=
| NX_errored c : has_errored c = true ->
    nexts c (set_read c (rbuf c) (c_eof c) false false (rq c)) (Ready None)
| NX_pkt c p rest : has_errored c = false -> is_readable c = true -> decode (rbuf c) = Ok (Some p, rest) ->
    nexts c (set_read c rest (c_eof c) true false (rq c)) (Ready (Some (IoOk p)))
| NX_end c : has_errored c = false -> is_readable c = true -> c_eof c = true -> rbuf c = [] ->
    nexts c (set_read c [] true false false (rq c)) (Ready None)
| NX_partial c : has_errored c = false -> is_readable c = true -> c_eof c = true -> rbuf c <> [] ->
    decode (rbuf c) = Ok (None, rbuf c) ->
    nexts c (set_read c (rbuf c) true true true (rq c)) (Ready (Some (IoErr "bytes remaining on stream")))
| NX_pending c : has_errored c = false -> (is_readable c = true -> c_eof c = false) ->
    decode (rbuf c) = Ok (None, rbuf c) -> rq c = [] -> peer_closed c = false ->
    nexts c (set_read c (rbuf c) (c_eof c) false false []) Pending
| NX_error c e q : has_errored c = false -> (is_readable c = true -> c_eof c = false) ->
    decode (rbuf c) = Ok (None, rbuf c) -> rq c = RErr e :: q ->
    nexts c (set_read c (rbuf c) (c_eof c) false true q) (Ready (Some (IoErr e)))
| NX_eof_again c q : has_errored c = false -> is_readable c = false -> c_eof c = true ->
    decode (rbuf c) = Ok (None, rbuf c) -> zero_read c q ->
    nexts c (set_read c (rbuf c) true false false q) (Ready None)
| NX_eof c q c' r : has_errored c = false -> c_eof c = false ->
    decode (rbuf c) = Ok (None, rbuf c) -> zero_read c q ->
    nexts (set_read c (rbuf c) true true false q) c' r -> nexts c c' r
| NX_data c x b q c' r : has_errored c = false -> (is_readable c = true -> c_eof c = false) ->
    decode (rbuf c) = Ok (None, rbuf c) -> rq c = RData (x :: b) :: q ->
    nexts (set_read c (rbuf c ++ x :: b) false true false q) c' r -> nexts c c' r.

Lemma set_read_id c : set_read c (rbuf c) (c_eof c) (is_readable c) (has_errored c) (rq c) = c.
Proof. destruct c; reflexivity. Qed.

Lemma framed_loop_nexts fuel : forall c, cinv c ->
  (2 + length (rq c) <= fuel)%nat \/ (1 <= fuel)%nat /\ is_readable c = true /\ c_eof c = true ->
  exists c' r, framed_loop fuel c = Ok (c', r) /\ nexts c c' r.
Proof.
  induction fuel as [|fuel IH]; intros c I F; [lia|].
  destruct I as (Ub & Uq & ID). cbn [framed_loop].
  destruct (has_errored c) eqn:HE; [eexists _, _; split; [reflexivity | apply NX_errored; exact HE]|].
  (* the common reading part: the buffer has no packet *)
  assert (R : forall c1, rbuf c1 = rbuf c -> rq c1 = rq c -> peer_closed c1 = peer_closed c ->
     c_eof c1 = c_eof c -> wbuf c1 = wbuf c -> sent c1 = sent c -> shut c1 = shut c ->
     (is_readable c = true -> c_eof c = false) -> decode (rbuf c) = Ok (None, rbuf c) ->
     (2 + length (rq c) <= S fuel)%nat ->
     is_readable c1 = false -> has_errored c1 = false ->
     exists c' r,
      (let got (chunk : bytes) (q : list rd) :=
          match chunk with
          | [] => if c_eof c1
                  then Ok (set_read c1 (rbuf c1) true false false q, Ready None)
                  else framed_loop fuel (set_read c1 (rbuf c1) true true false q)
          | _ :: _ => framed_loop fuel (set_read c1 (rbuf c1 ++ chunk) false true false q)
          end in
        match rq c1 with
        | [] => if peer_closed c1 then got [] [] else Ok (c1, Pending)
        | RErr e :: q => Ok (set_read c1 (rbuf c1) (c_eof c1) false true q, Ready (Some (IoErr e)))
        | RData chunk :: q => got chunk q
        end) = Ok (c', r) /\ nexts c c' r).
  { intros c1 E1 E2 E3 E4 E5 E6 E7 Hre HD HF Hr1 Hh1.
    assert (S1 : forall b eof rd er q, set_read c1 b eof rd er q = set_read c b eof rd er q)
      by (intros; unfold set_read; rewrite E3, E5, E6, E7; reflexivity).
    rewrite E1, E2, E3, E4.
    assert (Z : forall q, zero_read c q -> exists c' r,
      (if c_eof c then Ok (set_read c1 (rbuf c) true false false q, Ready None)
       else framed_loop fuel (set_read c1 (rbuf c) true true false q)) = Ok (c', r) /\ nexts c c' r).
    { intros q Hz. destruct (c_eof c) eqn:EE.
      - eexists _, _. split; [reflexivity|]. rewrite S1. apply NX_eof_again; auto.
        destruct (is_readable c); [specialize (Hre eq_refl); discriminate | reflexivity].
      - rewrite S1. destruct (IH (set_read c (rbuf c) true true false q)) as (c' & r & E & X).
        + split; [exact Ub|]. split; [|intros [H|H]; discriminate]. cbn.
          destruct Hz as [Hz|(_ & _ & ->)]; [|constructor]. rewrite Hz in Uq. inversion Uq; auto.
        + right. split; [lia|]. auto.
        + rewrite E. eexists _, _. split; [reflexivity|]. eapply NX_eof; eauto. }
    destruct (rq c) as [|[[|x b]|e] q] eqn:EQ; cbv beta iota zeta.
    - destruct (peer_closed c) eqn:EP; [apply Z; right; auto|].
      eexists _, _. split; [reflexivity|].
      replace c1 with (set_read c (rbuf c) (c_eof c) false false []).
      + apply NX_pending; auto.
      + rewrite <- (set_read_id c1), E1, E2, E4, Hr1, Hh1, S1. reflexivity.
    - apply Z. left. exact EQ.
    - rewrite S1. destruct (IH (set_read c (rbuf c ++ x :: b) false true false q)) as (c' & r & E & X).
      + inversion Uq as [|? ? U1 U2]; subst. split; [apply u8s_app; auto|]. split; [exact U2|]. intros [H|H]; discriminate.
      + left. cbn in *. lia.
      + rewrite E. eexists _, _. split; [reflexivity|]. eapply NX_data; eauto.
    - eexists _, _. split; [reflexivity|]. rewrite S1. apply NX_error; auto. }
  destruct (is_readable c) eqn:HR.
  - destruct (decode_total _ Ub) as (o & rest & HD).
    destruct (c_eof c) eqn:EE.
    + unfold codec_decode_eof, codec_decode. rewrite HD. cbn [bind].
      destruct o as [p|].
      * eexists _, _. split; [reflexivity|]. pose proof (NX_pkt c p rest HE HR HD) as X; rewrite EE in X; exact X.
      * pose proof (decode_none_inv _ _ Ub HD) as ->.
        destruct (rbuf c) as [|x b] eqn:EB; cbn [bind].
        -- eexists _, _. split; [reflexivity|]. apply NX_end; auto.
        -- eexists _, _. split; [reflexivity|]. rewrite <- EB. apply NX_partial; auto; rewrite EB; [discriminate | auto].
    + unfold codec_decode. rewrite HD. cbn [bind].
      destruct o as [p|].
      * eexists _, _. split; [reflexivity|]. pose proof (NX_pkt c p rest HE HR HD) as X; rewrite EE in X; exact X.
      * pose proof (decode_none_inv _ _ Ub HD) as ->. apply R; auto. destruct F as [F|(_ & _ & F)]; [exact F | discriminate].
  - apply R; auto; try discriminate. destruct F as [F|(_ & F & _)]; [exact F | discriminate].
Qed.

Lemma conn_next_total c : cinv c -> exists c' r, conn_poll_next c = Ok (c', r) /\ nexts c c' r.
Proof. intros I. apply framed_loop_nexts; auto. Qed.
Lemma conn_next_nexts c c' r : cinv c -> conn_poll_next c = Ok (c', r) -> nexts c c' r.
Proof. intros I E. destruct (conn_next_total c I) as (c2 & r2 & E2 & X). congruence. Qed.

Lemma nexts_same_write c c' r : nexts c c' r -> same_write c c'.
Proof. induction 1; try (repeat split; reflexivity); destruct IHnexts as (A & B & C & D); repeat split; assumption. Qed.

Lemma zero_read_u8 c q : zero_read c q -> Forall rd_u8 (rq c) -> Forall rd_u8 q.
Proof. intros [->|(_ & _ & ->)] H; [inversion H; auto | constructor]. Qed.

Lemma cinv_readable c b eof q : u8s b -> Forall rd_u8 q -> cinv (set_read c b eof true false q).
Proof. intros U Q. split; [exact U|]. split; [exact Q|]. intros [H|H]; discriminate. Qed.
Lemma nexts_inv c c' r : nexts c c' r -> cinv c -> cinv c'.
Proof.
  induction 1 as [c HE|c p rest HE HR HD|c HE HR EE EB|c HE HR EE EB HD|c HE HR HD EQ EP|c e q HE HR HD EQ|
    c q HE HR EE HD HZ|c q c' r HE EE HD HZ X IH|c x b q c' r HE HR HD EQ X IH]; intros (Ub & Uq & ID).
  - split; [exact Ub|]. split; [exact Uq|]. cbn. auto.
  - destruct (decode_some_inv _ _ _ Ub HD) as (raw & Es & _). rewrite Es in Ub. apply u8s_app in Ub as [_ Ub].
    apply cinv_readable; auto.
  - split; [constructor|]. split; [exact Uq|]. reflexivity.
  - split; [exact Ub|]. split; [exact Uq|]. cbn. auto.
  - split; [exact Ub|]. split; [constructor|]. cbn. auto.
  - split; [exact Ub|]. split; [rewrite EQ in Uq; inversion Uq; auto|]. cbn. auto.
  - split; [exact Ub|]. split; [eapply zero_read_u8; eauto|]. cbn. auto.
  - apply IH, cinv_readable; [exact Ub|]. eapply zero_read_u8; eauto.
  - rewrite EQ in Uq. inversion Uq as [|? ? U1 U2]; subst. apply IH, cinv_readable; [|exact U2]. apply u8s_app; auto.
Qed.

Lemma unread_u8 c : cinv c -> u8s (unread c).
Proof. intros (A & B & _). apply u8s_app. split; [exact A | apply qdata_u8; exact B]. Qed.
Lemma zero_read_data c q : zero_read c q -> qdata q = qdata (rq c).
Proof. intros [->|(-> & _ & ->)]; reflexivity. Qed.
Lemma nexts_unread c c' r : nexts c c' r -> cinv c ->
  match r with
  | Ready (Some (IoOk p)) => decode (unread c) = Ok (Some p, unread c')
  | Pending => unread c' = unread c /\ rq c' = [] /\ decode (unread c) = Ok (None, unread c)
  | _ => unread c' = unread c
  end.
Proof.
  unfold unread.
  induction 1 as [c HE|c p rest HE HR HD|c HE HR EE EB|c HE HR EE EB HD|c HE HR HD EQ EP|c e q HE HR HD EQ|
    c q HE HR EE HD HZ|c q c' r HE EE HD HZ X IH|c x b q c' r HE HR HD EQ X IH]; intros (Ub & Uq & ID); cbn [set_read rbuf rq].
  - reflexivity.
  - apply decode_mono; auto. apply qdata_u8; exact Uq.
  - rewrite EB. reflexivity.
  - reflexivity.
  - rewrite EQ. cbn. rewrite app_nil_r. auto.
  - rewrite EQ. reflexivity.
  - rewrite (zero_read_data _ _ HZ). reflexivity.
  - cbn [set_read rbuf rq] in IH. rewrite (zero_read_data _ _ HZ) in IH. apply IH, cinv_readable; [exact Ub|]. eapply zero_read_u8; eauto.
  - cbn [set_read rbuf rq] in IH. rewrite EQ in Uq. inversion Uq as [|? ? U1 U2]; subst. rewrite EQ.
    rewrite <- app_assoc in IH. apply IH, cinv_readable; [|exact U2]. apply u8s_app; auto.
Qed.

(* ---- arrivals ---- *)
Lemma arrive_inv c a : cinv c -> arrival_u8 a -> cinv (arrive c a).
Proof.
  intros (Ub & Uq & ID) Ha. split; [exact Ub|]. split; [|exact ID].
  destruct a; cbn; auto; apply Forall_app; auto.
Qed.
Lemma arrive_unread c a : unread (arrive c a) = unread c ++ arrival_data a.
Proof.
  unfold unread. destruct a as [b|e|]; cbn [arrive rbuf rq arrival_data]; rewrite ?qdata_app, <- ?app_assoc; unfold qdata;
  cbn [map rd_data concat]; rewrite ?app_nil_r; reflexivity.
Qed.
Lemma conn_new_inv : cinv conn_new.
Proof. repeat split; constructor. Qed.

(* ---- writing ---- *)
Lemma framed_flush_spec ws : forall buf out buf' out' ws' r, framed_flush ws buf out = (buf', out', ws', r) ->
  out' ++ buf' = out ++ buf /\ (r = Ready (IoOk tt) -> buf' = []) /\ (exists k, out' = out ++ firstn k buf).
Proof.
  induction ws as [|w ws IH]; intros buf out buf' out' ws' r E; destruct buf as [|x buf]; cbn [framed_flush] in E.
  - injection E as <- <- <- <-. repeat split; auto. exists 0%nat. cbn. rewrite app_nil_r; auto.
  - injection E as <- <- <- <-. repeat split; auto; try discriminate. exists 0%nat. cbn. rewrite app_nil_r; auto.
  - injection E as <- <- <- <-. repeat split; auto. exists 0%nat. cbn. rewrite app_nil_r; auto.
  - destruct w as [[|n]| |e]; try (injection E as <- <- <- <-; repeat split; auto; try discriminate;
      exists 0%nat; cbn; rewrite app_nil_r; auto).
    destruct (IH _ _ _ _ _ _ E) as (H1 & H2 & k & H4). repeat split; auto.
    + rewrite H1, <- app_assoc. f_equal. apply firstn_skipn.
    + exists (S n + k)%nat. rewrite H4, <- app_assoc. f_equal.
      change (skipn (S n) (x :: buf)) with (skipn n buf). cbn [firstn Nat.add app]. f_equal.
      clear. revert buf; induction n as [|n IHn]; intros buf; [reflexivity|].
      destruct buf as [|y buf]; cbn [firstn skipn Nat.add app]; [rewrite firstn_nil; reflexivity|]. f_equal. apply IHn.
Qed.
Definition same_read (c c' : conn) : Prop :=
  rbuf c' = rbuf c /\ c_eof c' = c_eof c /\ is_readable c' = is_readable c /\ has_errored c' = has_errored c /\ rq c' = rq c /\ peer_closed c' = peer_closed c.
Lemma same_read_inv c c' : same_read c c' -> cinv c -> cinv c'.
Proof. intros (A & B & C & D & E & F) (U & Q & I). unfold cinv. rewrite A, C, D, E. auto. Qed.
Lemma same_read_refl c : same_read c c.
Proof. repeat split. Qed.
Lemma same_read_trans a b c : same_read a b -> same_read b c -> same_read a c.
Proof. intros (A & B & C & D & E & F) (A' & B' & C' & D' & E' & F'). repeat split; congruence. Qed.
Lemma conn_flush_spec c ws c' ws' r : conn_poll_flush c ws = (c', ws', r) ->
  same_read c c' /\ shut c' = shut c /\ sent c' ++ wbuf c' = sent c ++ wbuf c /\ (exists k, sent c' = sent c ++ firstn k (wbuf c)) /\ (r = Ready (IoOk tt) -> wbuf c' = []) /\ (wbuf c = [] -> c' = c /\ r = Ready (IoOk tt)).
Proof.
  unfold conn_poll_flush. destruct (framed_flush ws (wbuf c) (sent c)) as [[[buf out] ws1] r1] eqn:E.
  intros [= <- <- <-]. destruct (framed_flush_spec _ _ _ _ _ _ _ E) as (H1 & H2 & H4).
  repeat split; auto; rewrite H in E; destruct ws; cbn in E; injection E as <- <- <- <-; auto; destruct c; cbn in *; subst; reflexivity.
Qed.
Lemma conn_start_send_spec c p c' : conn_start_send c p = Ok c' ->
  exists buf, encode p (wbuf c) = Ok buf /\ c' = set_write c buf (sent c).
Proof. unfold conn_start_send. intros E. apply bind_inv in E as (buf & E1 & [= <-]). eauto. Qed.
