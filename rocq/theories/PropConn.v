(* PropConn.v: C45 and the Connection part of C04 (tokio.rs). *)
From Verif Require Import Base BaseFacts Pkt SpecPkt PktFacts DecodeFacts Tokio ConnFacts SpecConn OwedFacts PropPkt.
From Coq Require Import ZifyBool ZifyNat ZifyN.
Ltac Zify.zify_post_hook ::= Z.div_mod_to_equations.

(* A fresh connection, with any arrivals and polls in any order; then the peer possibly closes, and is polled n
   times more.  Whatever happened, the next poll gives exactly the answer owed. *)
Definition history (h : list cop) (closed : bool) (n : nat) : list cop :=
  h ++ (if closed then [CArrive PeerClose] else []) ++ repeat CPoll n.

(* ---- C45 ---- *)
Theorem C45_every_poll_answers_what_is_owed : forall h closed n, Forall arrival_ok (arrivals h) ->
  exists c rs os left c' r,
    crun conn_new (history h closed n) = Ok (c, rs) /\ owed [] (arrivals h) os left /\
    conn_poll_next c = Ok (c', r) /\ r = answer os left closed (ready_count rs).
Proof.
  intros h closed n HA. destruct (crun_after h _ _ _ _ after_new eq_refl HA) as (c1 & r1 & E1 & A1). cbn [app Nat.add] in A1.
  unfold history. rewrite crun_app, E1. cbn [bind].
  assert (A2 : exists c2, crun c1 ((if closed then [CArrive PeerClose] else []) ++ repeat CPoll n) = crun c2 (repeat CPoll n) /\
    after c2 (arrivals h) closed (ready_count r1)).
  { destruct closed; [exists (arrive c1 PeerClose); split; [reflexivity | apply after_close; exact A1] | exists c1; auto]. }
  destruct A2 as (c2 & -> & A2). destruct (polls_after n _ _ _ _ A2) as (c3 & r3 & -> & A3). cbn [bind].
  destruct (after_poll _ _ _ _ A3) as (os & left & c' & r & O & E & R & _).
  exists c3, (r1 ++ r3), os, left, c', r. split; [reflexivity|]. split; [exact O|]. split; [exact E|].
  rewrite R. unfold ready_count. rewrite filter_app, app_length. reflexivity.
Qed.
(* What is owed is determined by the arrivals, and without read errors it is the packets of the byte stream. *)
Theorem C45_owed_is_determined : forall b a os left os' left',
  owed b a os left -> owed b a os' left' -> os = os' /\ left = left'.
Proof. intros b a os left os' left' H H'. eapply owed_fun; eauto. Qed.
Theorem C45_owed_packets : forall chunks, Forall (fun c => u8s c) chunks ->
  exists ps left, drain (concat chunks) = Ok (ps, left) /\ owed [] (map Bytes chunks) (map Packet ps) left.
Proof.
  intros chunks U. assert (X : forall b, u8s b -> decode b = Ok (None, b) ->
    exists ps left, drains (b ++ concat chunks) ps left /\ owed b (map Bytes chunks) (map Packet ps) left).
  { induction U as [|c cs Uc U IH]; intros b Ub Db; cbn [concat map].
    - exists [], b. rewrite app_nil_r. split; [constructor; exact Db | constructor].
    - assert (Ubc : u8s (b ++ c)) by (apply u8s_app; auto). destruct (drain_total _ Ubc) as (ps & l & E & D).
      destruct (IH l (drains_u8s _ _ _ D Ubc) (drains_left _ _ _ D)) as (qs & left & D2 & O2).
      exists (ps ++ qs), left. split.
      + rewrite app_assoc. eapply drains_app; eauto. clear -U. induction U; [constructor|]. cbn. apply u8s_app; auto.
      + rewrite map_app. eapply Owed_bytes; eauto. }
  destruct (X [] ltac:(constructor) eq_refl) as (ps & left & D & O). exists ps, left. split; [|exact O].
  apply drain_iff; [|exact D]. clear -U. induction U; [constructor|]. cbn. apply u8s_app; auto.
Qed.
Example C45_example :
  let h := [CArrive (Bytes (firstn 8 ex_ascii)); CPoll; CArrive (Bytes (skipn 8 ex_ascii ++ B "1E")); CArrive (ReadError "reset")] in
  Forall arrival_ok (arrivals h) /\
  match crun conn_new (history h true 5) with Ok (_, rs) => Some rs | _ => None end =
    Some [Pending; Ready (Some (IoOk (PAscii ex_ascii_body))); Ready (Some (IoErr "reset")); Ready None;
          Ready (Some (IoErr "bytes remaining on stream")); Ready None] /\
  owed [] (arrivals h) [Packet (PAscii ex_ascii_body); Error "reset"; End] (B "1E").
Proof.
  split; [repeat constructor; discriminate|]. split; [vm_compute; reflexivity|]. cbn [arrivals flat_map app].
  eapply (Owed_bytes _ _ []); [vm_compute; reflexivity|].
  eapply (Owed_bytes _ _ [PAscii ex_ascii_body]); [vm_compute; reflexivity|]. constructor. constructor.
Qed.

(* ---- C04, Connection part ---- *)
(* Polling a connection that received the stream in any chunks yields the packets of the whole stream, and then waits. *)
Theorem C04_connection_chunking_irrelevant : forall chunks ps left,
  Forall (fun c => u8s c) chunks -> Forall (fun c => c <> []) chunks -> drain (concat chunks) = Ok (ps, left) ->
  exists c, crun conn_new (map (fun b => CArrive (Bytes b)) chunks ++ repeat CPoll (S (length ps))) =
    Ok (c, map (fun p => Ready (Some (IoOk p))) ps ++ [Pending]) /\ rbuf c = left.
Proof.
  intros chunks ps left U NE E.
  destruct (C45_owed_packets chunks U) as (ps' & left' & E' & O). rewrite E' in E. injection E as -> ->.
  set (h := map (fun b => CArrive (Bytes b)) chunks).
  assert (EA : arrivals h = map Bytes chunks) by (unfold h, arrivals; clear; induction chunks; cbn; congruence).
  assert (HA : Forall arrival_ok (arrivals h)).
  { rewrite EA. clear -U NE. induction U; cbn; constructor; inversion NE; subst; auto. split; auto. }
  destruct (crun_after h _ _ _ _ after_new eq_refl HA) as (c1 & r1 & E1 & A1). cbn [app Nat.add] in A1.
  assert (r1 = []) as -> by (revert E1; unfold h; clear; generalize conn_new; induction chunks as [|b cs IH]; cbn; intros c E; [congruence | eauto]).
  rewrite crun_app, E1. cbn [bind ready_count filter length] in *.
  assert (X : forall n k c, after c (arrivals h) false k -> (k + n = length ps)%nat ->
    exists c', crun c (repeat CPoll (S n)) = Ok (c', map (fun p => Ready (Some (IoOk p))) (skipn k ps) ++ [Pending]) /\ rbuf c' = left).
  { induction n as [|n IH]; intros k c A L.
    - destruct (after_poll _ _ _ _ A) as (os & l & c' & r & O' & EN & R & A').
      rewrite EA in O'. destruct (owed_fun _ _ _ _ O _ _ O') as [<- <-].
      assert (r = Pending).
      { rewrite R. unfold answer. rewrite (proj2 (nth_error_None _ _)); [reflexivity|]. rewrite map_length. lia. }
      clear R. subst r. cbn [is_ready] in A'. exists c'. cbn [repeat crun]. rewrite EN. cbn [bind].
      rewrite skipn_all2 by lia. cbn [map app]. split; [congruence|].
      destruct A' as (CI' & EP' & os' & l' & O2 & _ & _ & F). rewrite EA in O2. destruct (owed_fun _ _ _ _ O _ _ O2) as [<- <-].
      destruct F as (os1 & O1 & _).
      destruct A as (CI & _). pose proof (conn_next_nexts _ _ _ CI EN) as NX.
      pose proof (nexts_unread _ _ _ NX CI) as NU. cbv beta iota in NU. destruct NU as (Eu & Eq & Dn).
      destruct CI' as (_ & _ & ID). rewrite Eq in O1.
      assert (DN : decode (rbuf c') = Ok (None, rbuf c')).
      { rewrite <- Eu in Dn. unfold unread in Dn. rewrite Eq in Dn. cbn in Dn.
        rewrite app_nil_r in Dn. exact Dn. }
      apply (outs_none _ _ _ _ DN) in O1 as [_ ->]. reflexivity.
    - destruct (after_poll _ _ _ _ A) as (os & l & c' & r & O' & EN & R & A').
      rewrite EA in O'. destruct (owed_fun _ _ _ _ O _ _ O') as [<- <-].
      destruct (nth_error ps k) as [p|] eqn:EP; [|apply nth_error_None in EP; lia].
      assert (r = Ready (Some (IoOk p))).
      { rewrite R. unfold answer. rewrite nth_error_map, EP. reflexivity. }
      clear R. subst r. cbn [is_ready] in A'. change (repeat CPoll (S (S n))) with (CPoll :: repeat CPoll (S n)). cbn [crun]. rewrite EN. cbn [bind].
      destruct (IH (S k) c' A' ltac:(lia)) as (c2 & E2 & R2). rewrite E2. cbn [bind]. exists c2. split; [|exact R2].
      rewrite (skipn_nth ps k), EP. reflexivity. }
  destruct (X (length ps) 0%nat c1 A1 eq_refl) as (c & E & R). exists c. rewrite E. cbn [bind]. split; [|exact R].
  cbn [app skipn]. reflexivity.
Qed.
Example C04_connection_example :
  match crun conn_new (map (fun b => CArrive (Bytes b)) [firstn 3 ex_stream; skipn 3 ex_stream] ++ repeat CPoll 4) with
  | Ok (c, rs) => Some (rbuf c, ready_count rs) | _ => None end = Some (B "1ECC", 3%nat).
Proof. vm_compute. reflexivity. Qed.

Print Assumptions C45_every_poll_answers_what_is_owed.
Print Assumptions C45_owed_is_determined.
Print Assumptions C45_owed_packets.
Print Assumptions C04_connection_chunking_irrelevant.
