(* PropInit.v: theorems about connecting (state.rs:135-209): C37. *)
From Verif Require Import Base BaseFacts Pkt SpecPkt PktFacts DecodeFacts Msg SpecMsg DecFacts MsgFacts WireFacts IsoFacts
  Tokio SpecConn ConnFacts State SpecState StateFacts RunFacts HistFacts ViewFacts ExState PropState.
From Coq Require Import ZifyBool ZifyNat ZifyN.
Ltac Zify.zify_post_hook ::= Z.div_mod_to_equations.

(* ---- C37 ---- *)
(* False as stated: a name reply with a number beyond the table it is for indexes out of bounds. *)
Definition ex_bad_name : message := MStringDescriptionResponse (mkSdResp TT_Area 9 (B "Ninth           ")).
Definition ex_crash : list iop :=
  map (fun m => IArrive (Bytes (bytes_of m))) [MArmingStatusReport ex_disarmed; MZoneStatusReport ex_zones; ex_bad_name] ++ repeat (IStep 0 [WAccept 100]) 9.
Theorem C37_connect_never_panics_refuted : exists h why, Forall iop_ok h /\ irun conn_new h = ICrash why.
Proof.
  exists ex_crash. eexists. split; [|vm_compute; reflexivity].
  apply Forall_app. split; [|apply Forall_forall; intros x H; apply repeat_spec in H; subst x; exact I].
  apply Forall_forall. intros x H. apply in_map_iff in H as (m & <- & Hm).
  assert (X : forallb (fun m => forallb (fun b => b <? 256) (bytes_of m)) [MArmingStatusReport ex_disarmed; MZoneStatusReport ex_zones; ex_bad_name] = true) by (vm_compute; reflexivity).
  rewrite forallb_forall in X. specialize (X m Hm). cbn. apply Forall_forall. intros b Hb. rewrite forallb_forall in X. apply N.ltb_lt. auto.
Qed.

(* the number of names the client has room for *)
Definition table_size (ty : TextDescriptionType) : N := match ty with TT_Area => 8 | TT_Task => 32 | _ => 208 end.
Definition fits (m : message) : Prop :=
  match m with MStringDescriptionResponse r => sd_num r <= table_size (sd_ty r) | _ => True end.
Lemma table_size_eq ty max : table ty max -> table_size ty = N.of_nat max.
Proof. intros [[-> ->]|[[-> ->]|[-> ->]]]; reflexivity. Qed.

(* A step of a connect that has not crashed crashes exactly when it is waiting for the name of some type, and the next packet is
   a name reply of that type whose number is beyond the table. *)
Definition next_packet (c : conn) (pkt : packet) : Prop := exists c', conn_poll_next c = Ok (c', Ready (Some (IoOk pkt))).
Lemma sds_reply_crash ty max i p m : table ty max -> (i < max)%nat -> pinv p -> replies m (stage_msg (St_sd ty max i)) ->
  ((exists why, sds_reply ty max i p m = ICrash why) <-> ~ fits m) /\ (exists r, m = MStringDescriptionResponse r /\ sd_ty r = ty) /\
  ((exists e, sds_reply ty max i p m = IFail e) -> False).
Proof.
  intros T L I R. cbn [stage_msg] in R. destruct m; cbn [replies] in R; try contradiction. cbn [sdq_ty sdq_num] in R. destruct R as [R1 R2].
  unfold sds_reply, fits. rewrite <- R1. rewrite (proj2 (text_type_eqb_eq _ _) eq_refl). cbn [negb].
  pose proof I as (_ & N & _). rewrite R1. destruct (names_of_table _ ty max T N) as (l & -> & LN & _). rewrite (table_size_eq _ _ T).
  split; [|split; [eauto|]].
  - destruct (N.eqb_spec (sd_num m) 0) as [Z|Z].
    { rewrite Z. split; [|lia]. intros (why & X). destruct ty; discriminate X. }
    destruct (Nat.ltb_spec (N.to_nat (sd_num m - 1)) i) as [Q|Q]; [destruct T as [[_ ->]|[[_ ->]|[_ ->]]]; lia|].
    destruct (set_nth l (N.to_nat (sd_num m - 1)) (sd_text m)) as [l'|e|w] eqn:ES.
    + apply set_nth_inv in ES. split; [|lia]. intros (why & X). exfalso. destruct (_ <? _)%nat; [discriminate|]. destruct ty; discriminate X.
    + split; [|eauto]. intros _ Q2. destruct (set_nth_spec l (N.to_nat (sd_num m - 1)) (sd_text m)) as (l' & E' & _); [lia|congruence].
    + split; [|eauto]. intros _ Q2. destruct (set_nth_spec l (N.to_nat (sd_num m - 1)) (sd_text m)) as (l' & E' & _); [lia|congruence].
  - destruct (sd_num m =? 0). { intros (e & X). destruct ty; discriminate X. }
    destruct (_ <? _)%nat; [intros (? & ?); discriminate|]. destruct (set_nth l _ _) as [l'|e|w]; try (intros (? & ?); discriminate).
    intros (e & X). destruct (_ <? _)%nat; [discriminate|]. destruct ty; discriminate X.
Qed.
Lemma istep_crash now ws i : iinv i -> (forall w, i <> ICrash w) ->
  ((exists why, istep now ws i = ICrash why) <->
   exists ty max k p pkt r, i = IRun (St_sd ty max k) PhWait p /\ next_packet (p_conn p) pkt /\
     message_of pkt = Some (MStringDescriptionResponse r) /\ sd_ty r = ty /\ table_size ty < sd_num r).
Proof.
  destruct i as [s ph p|p|e|w]; intros I NC.
  2,3: split; [intros (why & X); discriminate | intros (? & ? & ? & ? & ? & ? & X & _); discriminate].
  2: elim (NC w eq_refl).
  destruct I as (I & C & S & W). destruct ph; cbn [istep].
  - split; [|intros (? & ? & ? & ? & ? & ? & X & _); discriminate]. intros (why & X). exfalso. revert X.
    unfold conn_poll_ready. rewrite W by discriminate. cbn [length]. change (BACKPRESSURE <=? N.of_nat 0) with false. cbv beta iota.
    destruct (to_pkt_spec _ (stage_msg_wf s p S)) as (b & -> & _ & Hb & _). cbn [bind].
    destruct (encode_valid (PAscii b) Hb) as (f & HF & HE). unfold conn_start_send. rewrite HE. cbn [bind]. discriminate.
  - split; [|intros (? & ? & ? & ? & ? & ? & X & _); discriminate]. intros (why & X). exfalso. revert X.
    destruct (conn_poll_flush (p_conn p) ws) as [[c ws'] r]. destruct r as [|[[]|e]]; discriminate.
  - pose proof I as (CI & _). destruct (conn_next_total _ CI) as (c & r & E & X). rewrite E.
    destruct (await_eof_fails s) as (eof & ->).
    assert (NP : forall q, next_packet (p_conn p) q -> r = Ready (Some (IoOk q))).
    { intros q (c' & E'). rewrite E in E'. congruence. }
    destruct (nexts_same_write _ _ _ X) as (Ew & _).
    assert (Out : (forall q, r <> Ready (Some (IoOk q))) -> (exists ty max k p0 pkt r0, IRun s PhWait p = IRun (St_sd ty max k) PhWait p0 /\
       next_packet (p_conn p0) pkt /\ message_of pkt = Some (MStringDescriptionResponse r0) /\ sd_ty r0 = ty /\ table_size ty < sd_num r0) -> False).
    { intros NQ (ty & max & k & p0 & q & r0 & EQ & NX & _). injection EQ as -> <-. apply NP in NX. elim (NQ _ NX). }
    destruct r as [|[[pkt|e]|]].
    1,3,4: split; [intros (why & D); discriminate | intros H; exfalso; eapply Out; eauto; discriminate].
    pose proof (with_conn_inv p c I (nexts_inv _ _ _ X CI) Ew) as I'.
    destruct (interpret_spec now (with_conn p c) pkt I' (nexts_pkt_ok _ _ _ X CI)) as (p' & e & w & -> & I2 & C2 & Y).
    assert (EM : e_msg e = parse_result pkt).
    { destruct Y as [_ Y]. unfold parse_result. destruct (parse pkt) as [[m'|]|er|why]; [| | |destruct Y]; tauto. }
    assert (NotMsg : message_of pkt = None -> (exists ty max k p0 pkt r0, IRun s PhWait p = IRun (St_sd ty max k) PhWait p0 /\
       next_packet (p_conn p0) pkt /\ message_of pkt = Some (MStringDescriptionResponse r0) /\ sd_ty r0 = ty /\ table_size ty < sd_num r0) -> False).
    { intros MN (ty & max & k & p0 & q & r0 & EQ & NX & M & _). injection EQ as -> <-. apply NP in NX. injection NX as <-. congruence. }
    destruct (e_msg e) as [[m|er]|] eqn:EM2.
    2,3: split; [intros (why & D); discriminate | intros H; exfalso; apply NotMsg; auto; unfold message_of; unfold parse_result in EM; destruct (parse pkt) as [[?|]|?|?]; congruence].
    assert (MO : message_of pkt = Some m) by (unfold message_of; unfold parse_result in EM; destruct (parse pkt) as [[?|]|?|?]; congruence).
    destruct (is_response_to m (stage_msg s)) eqn:ER.
    + apply is_response_spec in ER. destruct s as [| |ty max k]; cbn [after_reply].
      1,2: split; [intros (why & D); discriminate | intros (? & ? & ? & ? & ? & ? & D & _); discriminate].
      destruct S as (_ & T & L). destruct (sds_reply_crash ty max k p' m T L I2 ER) as (SC & (r & -> & Rt) & _). rewrite SC. unfold fits. rewrite Rt. split.
      * intros NF. exists ty, max, k, p, pkt, r. split; [reflexivity|]. split; [exists c; exact E|]. split; [exact MO|]. split; [exact Rt | lia].
      * intros (ty' & max' & k' & p0 & q & r0 & EQ & NX & M & T0 & F). injection EQ as -> -> -> <-. apply NP in NX. injection NX as <-. rewrite MO in M. injection M as <-. lia.
    + split; [intros (why & D); discriminate|]. intros (ty & max & k & p0 & q & r0 & EQ & NX & M & T0 & F). injection EQ as -> <-.
      apply NP in NX. injection NX as <-. rewrite MO in M. injection M as ->. exfalso.
      assert (Rp : replies (MStringDescriptionResponse r0) (stage_msg (St_sd ty max k))).
      { destruct S as (_ & T & L). rewrite (table_size_eq _ _ T) in F. cbn [stage_msg replies sdq_ty sdq_num]. split; [exact T0|]. right.
        destruct T as [[_ ->]|[[_ ->]|[_ ->]]]; lia. }
      apply is_response_spec in Rp. congruence.
Qed.
Theorem C37_crash_exactly_partial : forall h now ws, Forall iop_ok h -> (forall w, irun conn_new h <> ICrash w) ->
  ((exists why, irun conn_new (h ++ [IStep now ws]) = ICrash why) <->
   exists ty max k p pkt r, irun conn_new h = IRun (St_sd ty max k) PhWait p /\ next_packet (p_conn p) pkt /\
     message_of pkt = Some (MStringDescriptionResponse r) /\ sd_ty r = ty /\ table_size ty < sd_num r).
Proof. intros h now ws HO NC. rewrite irun_snoc. apply istep_crash; [apply irun_inv; exact HO | exact NC]. Qed.
(* So no sequence of packets crashes it unless it contains a name reply that does not fit. *)
Theorem C37_connect_never_panics_partial : forall h ps left, Forall iop_ok h -> drain (iarrived h) = Ok (ps, left) ->
  Forall fits (messages_in ps) -> forall why, irun conn_new h <> ICrash why.
Proof.
  intros h ps left HO D F why E.
  assert (X : (exists w, irun conn_new h = ICrash w) -> exists qs pkt rest r, takes (iarrived h) (qs ++ [pkt]) rest /\
    message_of pkt = Some (MStringDescriptionResponse r) /\ table_size (sd_ty r) < sd_num r).
  { clear -HO. induction h as [|o h IH] using rev_ind; intros (w & E); [discriminate|].
    apply Forall_app in HO as [HO Ho]. inversion Ho as [|? ? Oo _]; subst. specialize (IH HO).
    assert (More : (exists w, irun conn_new h = ICrash w) -> exists qs pkt rest r, takes (iarrived (h ++ [o])) (qs ++ [pkt]) rest /\
      message_of pkt = Some (MStringDescriptionResponse r) /\ table_size (sd_ty r) < sd_num r).
    { intros H. destruct (IH H) as (qs & pkt & rest & r & T & M & L). exists qs, pkt, (rest ++ iarrived [o]), r. split; [|auto].
      rewrite iarrived_app. apply takes_more; auto; [apply iarrived_u8; auto | apply iarrived_u8; auto]. }
    destruct (irun conn_new h) as [s ph p|p|e|w'] eqn:EH; [| | |apply More; eauto].
    2,3: rewrite irun_snoc, EH in E; destruct o; discriminate E.
    rewrite irun_snoc, EH in E. destruct o as [a|now ws]; [discriminate E|]. cbn [iop_step] in E.
    pose proof (irun_inv h HO) as I. rewrite EH in I.
    destruct (proj1 (istep_crash now ws (IRun s ph p) I ltac:(discriminate)) (ex_intro _ w E)) as (ty & max & k & p0 & pkt & r & EQ & (c & EN) & M & T0 & L).
    injection EQ as -> -> <-. pose proof (irun_viewed h HO) as V. rewrite EH in V. destruct V as (qs & T & _).
    destruct I as (I & _). pose proof (conn_next_nexts _ _ _ (proj1 I) EN) as NX. pose proof (nexts_unread _ _ _ NX (proj1 I)) as U. cbv beta iota in U.
    exists qs, pkt, (unread c), r. split; [|subst ty; auto]. rewrite iarrived_app. change (iarrived [IStep now ws]) with (@nil N). rewrite app_nil_r. econstructor; eauto. }
  destruct (X (ex_intro _ why E)) as (qs & pkt & rest & r & T & M & L).
  pose proof (iarrived_u8 _ HO) as U. apply drain_iff in D; [|exact U]. destruct (drain_total rest (takes_u8 _ _ _ T U)) as (rs & l & _ & D2).
  pose proof (takes_drains _ _ _ T _ _ D2) as D3. destruct (drains_det _ _ _ D _ _ D3) as [-> _].
  rewrite Forall_forall in F. assert (H : In (MStringDescriptionResponse r) (messages_in ((qs ++ [pkt]) ++ rs))).
  { rewrite !messages_in_app. apply in_or_app. left. apply in_or_app. right. unfold messages_in. cbn. rewrite M. left. reflexivity. }
  specialize (F _ H). cbn in F. lia.
Qed.
Example C37_example : Forall fits ex_replies /\ exists ps, drain (iarrived ex_init) = Ok (ps, []) /\ messages_in ps = ex_replies.
Proof. split; [repeat constructor; cbn; lia|]. eexists. split; vm_compute; reflexivity. Qed.

Print Assumptions C37_connect_never_panics_refuted.
Print Assumptions C37_crash_exactly_partial.
Print Assumptions C37_connect_never_panics_partial.
