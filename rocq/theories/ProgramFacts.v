(* ProgramFacts.v: the MQTT bridge from the start of the program on: while it connects it is the client of SpecInit.v, and from then on
   the bridge of SpecServe.v. *)
From Verif Require Import Base BaseFacts Pkt SpecPkt PktFacts DecodeFacts Msg SpecMsg DecFacts MsgFacts WireFacts IsoFacts
  PropMsg Tokio SpecConn ConnFacts State SpecState StateFacts RunFacts HistFacts ViewFacts ExState PropState PropSink PropLive
  Serde SerdeFacts PropSerde SpecInit InitFacts PropConnect SpecSend SendFacts PropSend Mqtt SpecMqtt MqttFacts PropMqtt PropEnd SpecServe ServeFacts PropServe
  SpecProgram.
From Coq Require Import ZifyBool ZifyNat ZifyN.
Ltac Zify.zify_post_hook ::= Z.div_mod_to_equations.

(* the frames are determined too *)
Lemma requests_same a fs : Forall2 request_frame a fs -> forall b gs r1 r2, Forall2 request_frame b gs ->
  concat fs ++ r1 = concat gs ++ r2 -> u8s r1 -> decode r1 = Ok (None, r1) -> exists c d, a = b ++ c /\ fs = gs ++ d.
Proof.
  induction 1 as [|q f a fs Hq HA IH]; intros b gs r1 r2 HB E U D; destruct HB as [|q' g b gs Hq' HB].
  - exists [], []. auto.
  - exfalso. cbn [concat app] in E. rewrite <- app_assoc in E. subst r1. apply u8s_app in U as [_ U].
    destruct (request_decodes _ _ _ Hq' U) as (body & Db & _). congruence.
  - exists (q :: a), (f :: fs). auto.
  - cbn [concat] in E. rewrite <- !app_assoc in E.
    assert (U1 : u8s (concat fs ++ r1)) by (apply u8s_app; split; [eapply requests_u8; eauto | auto]).
    destruct (request_decodes _ _ _ Hq U1) as (body & Db & P & Uf & _).
    assert (U2 : u8s (concat gs ++ r2)).
    { assert (X : u8s (g ++ concat gs ++ r2)) by (rewrite <- E; apply u8s_app; auto). apply u8s_app in X. tauto. }
    destruct (request_decodes _ _ _ Hq' U2) as (body' & Db' & P' & _).
    rewrite E, Db' in Db. injection Db as E1 E2. subst body'. rewrite P' in P. injection P as <-.
    destruct (IH b gs r1 r2 HB) as (c & d & -> & ->); auto. exists c, d. split; [reflexivity|].
    rewrite E2 in E. apply app_inv_tail in E. subst g. reflexivity.
Qed.

(* ---- while it connects ---- *)
Definition act_of (a : pmove) : SpecInit.act :=
  match a with PConnect now ws => AClient now ws | PDo SReply => AReply | PDo SDeliver => ADeliver | PDo _ => AUnrelated end.
Definition world_of (i : istate) (v : service) : SpecInit.world := mkWorld i [] (v_net v) (v_replied v).
Definition pre (nm : naming) (cl : client) (cfg : Cfg) (v : service) (V : rank) : Prop :=
  exists i rx is h os, v_bridge v = Connecting i rx /\ bridge_after cl cfg is (Connecting i rx) /\ Forall data_iop h /\ irun conn_new h = i /\
    tracked harmless nm (world_of i v) V /\ Forall2 (asked cfg) rx os /\ v_asked v = catMaybes os /\ Forall (readable cfg) rx /\
    (length (v_asked v) <= 1)%nat /\ v_events v = [].
(* it has just come up *)
Definition came (nm : naming) (cl : client) (cfg : Cfg) (v : service) (u : up) : Prop :=
  v_bridge v = Up u /\ (exists is, bridge_after cl cfg is (Up u)) /\ healthy (u_panel u) /\ u_mode u = Selecting /\ outstanding (u_panel u) = [] /\
  wbuf (p_conn (u_panel u)) = [] /\ filled3 nm (u_panel u) 8 32 208 /\
  (exists qs fs, Forall2 request_frame qs fs /\ in_order qs /\ sent (p_conn (u_panel u)) = concat fs /\ v_replied v = length qs) /\
  (exists pk, under_way (u_panel u) (v_net v) pk /\ Forall harmless pk) /\
  v_asked v = wants cfg u /\ Forall (readable cfg) (u_rx u) /\ (length (v_asked v) <= 1)%nat /\ v_events v = [] /\
  filter is_event_pub (u_log u) = [] /\ In (APublish (topic_prefix cfg ++ B "/availability") true (PText (B "online"))) (u_log u).
Lemma pre_new nm cl cfg : pre nm cl cfg program_new (250, (3, (0, 0)))%nat.
Proof.
  exists (init_start conn_new), [], [], [], []. split; [reflexivity|]. split; [split; [constructor | reflexivity]|]. split; [constructor|]. split; [reflexivity|].
  split; [apply tracked_new|]. split; [constructor|]. split; [reflexivity|]. split; [constructor|]. split; [cbn; lia | reflexivity].
Qed.
Lemma tracked_running nm i v V : tracked harmless nm (world_of i v) V -> exists s ph p, i = IRun s ph p.
Proof.
  intros T. destruct T as [s p qs fs pk pf C|s p qs fs pk pf part C|s p qs fs pk pf g C|s p qs fs pre y post m' pf1 xf pf2 g C];
  destruct C as (E & _); cbn [world_of w_client] in E; eauto.
Qed.
Lemma tracked_asks nm i v V q : tracked harmless nm (world_of i v) V -> SpecInit.next_request (world_of i v) q -> exists k, ordinal q = Some k.
Proof.
  intros T NR. assert (D0 : decode [] = Ok (None, [])) by reflexivity.
  assert (G : forall qs s p, Forall (fun q => exists k, ordinal q = Some k /\ (k < pos s)%nat) qs -> stage_ok s p -> nth_error (qs ++ [stage_msg s]) (v_replied v) = Some q -> exists k, ordinal q = Some k).
  { intros qs s p F SO E. apply nth_error_In in E. apply in_app_iff in E as [E|[<-|[]]]; [|eexists; eapply stage_ordinal; eauto].
    rewrite Forall_forall in F. destruct (F _ E) as (k & H & _). eauto. }
  assert (G1 : forall qs s p, Forall (fun q => exists k, ordinal q = Some k /\ (k < pos s)%nat) qs -> stage_ok s p -> nth_error qs (v_replied v) = Some q -> exists k, ordinal q = Some k).
  { intros qs s p F SO E. apply (G qs s p F SO). rewrite nth_error_app1; [exact E|]. apply nth_error_Some. congruence. }
  destruct T as [s p qs fs pk pf C S N R|s p qs fs pk pf part C S Q W N R|s p qs fs pk pf g C S Q N R|s p qs fs pre y post m' pf1 xf pf2 g C S Q L M A' N1 N2 N3 R];
  pose proof C as (_ & (_ & _ & SO & _) & _ & _ & _ & _ & _ & (RF & _ & OR) & NA).
  - apply (G1 qs s p OR SO). refine (next_is nm (world_of i v) _ _ _ _ _ _ _ q [] qs fs C RF _ (Forall_nil _) D0 NR). rewrite app_nil_r. exact S.
  - apply (G1 qs s p OR SO). destruct Q as (Wf & b & Hw & HFr). pose proof (wire_ascii _ _ Wf Hw) as Hb'. destruct (frame_of_valid (PAscii b) _ Hb' HFr) as (U & _).
    apply u8s_app in U as [U _]. refine (next_is nm (world_of i v) _ _ _ _ _ _ _ q part qs fs C RF S U _ NR). eapply (prefix_waits (PAscii b)); eauto.
  - apply (G qs s p OR SO). refine (next_is nm (world_of i v) _ _ _ _ _ _ _ q [] (qs ++ [stage_msg s]) (fs ++ [g]) C _ _ (Forall_nil _) D0 NR); [apply Forall2_app; auto|].
    rewrite concat_app. cbn. rewrite !app_nil_r. exact S.
  - apply (G qs s p OR SO). refine (next_is nm (world_of i v) _ _ _ _ _ _ _ q [] (qs ++ [stage_msg s]) (fs ++ [g]) C _ _ (Forall_nil _) D0 NR); [apply Forall2_app; auto|].
    rewrite concat_app. cbn. rewrite !app_nil_r. exact S.
Qed.
Lemma accepted cl cfg : well_configured cl cfg -> accepts_start cl cfg.
Proof. intros (_ & _ & _ & A & B & C & D & E). split; [split; assumption|]. auto. Qed.
Section Program.
  Variables (nm : naming) (cl : client) (cfg : Cfg) (may : packet -> Prop).
  Hypothesis WC : well_configured cl cfg.

  Lemma pre_step v V a v' : pre nm cl cfg v V -> goes nm cl cfg may v a v' ->
    (exists u, came nm cl cfg v' u) \/ exists V', pre nm cl cfg v' V' /\ (V' = V \/ rlt V' V) /\ (helpful V (act_of a) -> rlt V' V).
  Proof.
    intros (i & rx & is & h & os & E1 & (E2 & E2') & E3 & E4 & E5 & E6 & E7 & E8 & E9 & E10) M.
    assert (NU : helpful V AUnrelated -> rlt V V).
    { intros H. exfalso. destruct V as (x & [|[|[|b]]] & [|c] & d); cbn [helpful runs] in H; first [exact H | discriminate H]. }
    (* nothing that matters happens *)
    assert (Same : forall es, es = [] -> pre nm cl cfg (mkService (Connecting i rx) (v_net v) (v_replied v) (v_asked v) es) V).
    { intros es ->. exists i, rx, is, h, os. split; [reflexivity|]. split; [split; assumption|]. auto 10. }
    destruct M as [now ws HW|a v' NA1 NA2 M|pkt f Vp Mp Hp Np Fp|q m body f NR AN G Hb HF].
    - (* connect *)
      rewrite E1. cbn [bstep]. assert (T := tracked_client_lands harmless nm _ V now ws [] E5 HW). cbn [world_of w_client w_net w_replied] in T.
      assert (HI : irun conn_new (h ++ [IStep now ws]) = istep now ws i) by (rewrite irun_snoc, E4; reflexivity).
      assert (HD : Forall data_iop (h ++ [IStep now ws])) by (apply Forall_app; split; [exact E3 | repeat constructor]).
      assert (HB : Forall input_ok (is ++ [PollConnect now ws])) by (apply Forall_app; split; [exact E2 | repeat constructor]).
      assert (HR : brun cl cfg (is ++ [PollConnect now ws]) = after_connect cl cfg (istep now ws i) rx) by (rewrite brun_snoc, E2'; reflexivity).
      destruct T as [(p & qs & fs & pk & pf & A1 & A2 & A3 & (A4 & A4' & _) & A5 & A6 & A7 & A8 & A9 & A10 & A11)|(V' & T & D & HD2)].
      + left. cbn [w_client w_net w_replied] in *. rewrite A1 in *. destruct A2 as (I & CI & UP & WB).
        assert (C : connected p). { exists (h ++ [IStep now ws]). split; [|exact HI]. revert HD. apply Forall_impl. intros [[]|]; cbn; tauto. }
        destruct WC as (RG & DN & TE & _). pose proof (connected_reachable _ C) as R.
        destruct (start_up_succeeds cl cfg p R RG (accepted _ _ WC)) as (l & c & ES).
        destruct (start_up_ok _ _ _ _ _ R ES) as (_ & DC & _ & ld & la & lz & gs & EL & _).
        unfold after_connect, settle in *. rewrite ES in *. cbn [app] in *. exists (mkUp p c Selecting rx l).
        split; [reflexivity|]. split; [exists (is ++ [PollConnect now ws]); split; assumption|]. cbn [u_panel u_mode u_log u_rx v_net v_asked v_events v_replied].
        split; [exists (h ++ [IStep now ws]), p, [], []; split; [exact HD|]; split; [exact HI|]; repeat split; constructor|].
        split; [reflexivity|]. split; [unfold outstanding; rewrite CI; reflexivity|]. split; [exact WB|]. split; [exact A3|].
        split; [exists qs, fs; auto|]. split; [exists pk; split; [exists pf; auto | exact A11]|].
        split; [|split; [exact E8|split; [exact E9|split; [exact E10|split; [eapply start_up_no_events; eauto|]]]]].
        * rewrite E7. unfold wants. cbn [u_rx u_code]. clear -E6 E8 RG DN DC. induction E6 as [|[t pl] o rx os A F IH]; [reflexivity|].
          inversion E8; subst. cbn [map concat]. unfold want at 1. cbn [fst snd]. rewrite (want_asked cfg c t pl o); auto. destruct o; cbn [catMaybes app]; rewrite IH; auto.
        * rewrite EL. apply in_or_app. right. apply in_or_app. right. apply in_or_app. right. right. left. reflexivity.
      + right. exists V'. split; [|split; assumption]. destruct (tracked_running nm _ (mkService (v_bridge v) (v_net v) (v_replied v) (v_asked v) (v_events v)) _ T) as (s & ph & p & E).
        cbn [w_client] in E. unfold after_connect in *. rewrite E in *. exists (IRun s ph p), rx, (is ++ [PollConnect now ws]), (h ++ [IStep now ws]), os.
        split; [reflexivity|]. split; [split; assumption|]. split; [exact HD|]. split; [exact HI|]. split; [exact T|]. cbn [v_asked v_events]. auto 10.
    - right. destruct M as [now| |ws HW|t pl o RD AS PT|pkt f Vp Mp Hp Fp|q m body f N RP G Hb HF|y z EN Ny|]; try congruence; rewrite ?E1; cbn [act_of].
      + exists V. cbn [bstep yielded_by]. split; [apply Same; rewrite app_nil_r; exact E10|]. split; [auto | exact NU].
      + exists V. cbn [bstep]. split; [apply Same; exact E10|]. split; [auto | exact NU].
      + exists V. cbn [bstep]. split; [apply Same; exact E10|]. split; [auto | exact NU].
      + exists V. cbn [bstep]. split; [|split; [auto | exact NU]]. exists i, (rx ++ [(t, pl)]), (is ++ [MqttArrive t pl]), h, (os ++ [o]).
        split; [reflexivity|]. split; [split; [apply Forall_app; split; [exact E2 | repeat constructor] | rewrite brun_snoc, E2'; reflexivity]|].
        split; [exact E3|]. split; [exact E4|]. split; [exact E5|]. cbn [v_asked v_events]. split; [apply Forall2_app; auto|].
        split; [rewrite catMaybes_app, <- E7; reflexivity|]. split; [apply Forall_app; auto|]. split; [|exact E10].
        rewrite app_length. destruct o as [c|]; cbn [catMaybes length]; [|lia]. specialize (PT ltac:(discriminate)). rewrite E10 in PT. cbn in PT. lia.
      + destruct (tracked_deliver harmless nm _ V y z [] E5 EN Ny) as (V' & T & D & HD). exists V'. split; [|split; assumption]. cbn [bstep].
        assert (U8 : u8s y). { assert (X : u8s (v_net v)) by (destruct E5 as [s p qs fs pk pf C|s p qs fs pk pf part C|s p qs fs pk pf g C|s p qs fs pre0 y0 post m' pf1 xf pf2 g C]; apply (common_u8 _ _ _ _ _ _ _ _ _ C)).
          rewrite EN in X. apply u8s_app in X. tauto. }
        exists (iarrive (Bytes y) i), rx, (is ++ [NetArrive (Bytes y)]), (h ++ [IArrive (Bytes y)]), os.
        split; [reflexivity|]. split; [split; [apply Forall_app; split; [exact E2 | repeat constructor; exact U8] | rewrite brun_snoc, E2'; reflexivity]|].
        split; [apply Forall_app; split; [exact E3 | repeat constructor; assumption]|]. split; [rewrite irun_snoc, E4; reflexivity|]. split; [exact T|]. cbn [v_asked v_events]. auto 10.
      + exists V. split; [|split; [auto | exact NU]]. destruct v as [b net r as_ es]. cbn [v_bridge v_net v_replied v_asked v_events] in *. rewrite E1. apply Same. exact E10.
    - right. exists V. cbn [act_of]. split; [|split; [auto | exact NU]]. exists i, rx, is, h, os. cbn [v_bridge v_asked v_events].
      split; [exact E1|]. split; [split; assumption|]. split; [exact E3|]. split; [exact E4|]. split; [|auto 10].
      apply (tracked_unrelated harmless nm _ V pkt f []) in E5; auto. apply Np. rewrite E1. unfold connecting. eauto.
    - right. assert (NR' : SpecInit.next_request (world_of i v) q).
      { destruct NR as (qs & fs & rest & F & P & L). exists qs, fs, rest. split; [exact F|]. rewrite E1 in P. split; [exact P | exact L]. }
      assert (A : answers nm q m). { destruct (tracked_asks _ _ _ _ _ E5 NR') as (k & O). destruct q; try discriminate O; exact AN. }
      destruct (tracked_reply harmless nm _ V q m body f [] E5 NR' A G Hb HF) as (V' & T & D & HD). exists V'. split; [|split; assumption].
      exists i, rx, is, h, os. cbn [v_bridge v_asked v_events]. split; [exact E1|]. split; [split; assumption|]. split; [exact E3|]. split; [exact E4|]. split; [exact T|]. auto 10.
  Qed.

  (* ---- from then on ---- *)
  Definition sh (L : nat) (v : service) : service := mkService (v_bridge v) (v_net v) (v_replied v - L) (v_asked v) (v_events v).
  Definition down (a : pmove) : smove := match a with PConnect _ _ => SIdle | PDo a => a end.
  Section From.
    Variables (v0 : service) (u0 : up).
    Hypothesis C0 : came nm cl cfg v0 u0.
    Notation base := (base_of (u_panel u0)).
    Notation SV v u l := (sv cl cfg may (u_panel u0) (v_net v0) (u_log u0) (sh (v_replied v0) v) u l).
    Lemma came_sv : SV v0 u0 [].
    Proof.
      destruct C0 as (E1 & E2 & _ & EM & _ & _ & _ & _ & (pk & U & H) & EA & RD & L1 & EV & _). unfold sv, sh. cbn [v_bridge v_net v_asked v_events v_replied].
      split; [exact E1|]. split; [exact E2|]. split; [|split; [exact EA|split; [exact RD|split; [lia|split; [exists pk; auto|]]]]].
      - replace (exch u0 _) with (exchange_new (u_panel u0) (v_net v0) []); [constructor|]. unfold exch, waiting. rewrite EM. cbn [v_events v_net v_replied]. rewrite EV, Nat.sub_diag. reflexivity.
      - exists []. rewrite EV. split; [symmetry; apply app_nil_r | constructor].
    Qed.
    Lemma base_is : exists qs fs, Forall2 request_frame qs fs /\ in_order qs /\ base = concat fs /\ v_replied v0 = length qs.
    Proof.
      destruct C0 as (_ & _ & _ & _ & _ & WB & _ & (qs & fs & F & O & E & L) & _). exists qs, fs. split; [exact F|]. split; [exact O|]. split; [|exact L].
      unfold base_of. rewrite WB, app_nil_r. exact E.
    Qed.
    (* what has been written since *)
    Lemma from_written v u l : SV v u l -> exists acc todo fs, l = acc ++ todo /\ Forall2 command_frame acc fs /\ Forall2 request_frame (map into_msg acc) fs /\
      written (p_conn (u_panel u)) = base ++ concat fs /\ map into_msg acc = completed (v_events v) ++ outstanding (u_panel u).
    Proof.
      intros S. destruct C0 as (_ & _ & HL & _ & O0 & _ & _ & _ & (pk & U & _) & _). destruct S as (_ & _ & E3 & _).
      destruct (started None may _ _ [] pk l _ HL O0 (Forall_nil _) U ltac:(discriminate) E3) as (p & todo & fl & done & acc & fs & pk' & pf & K).
      destruct K as (EC & _ & _ & (B1 & B2 & B3 & B4 & B5) & _). unfold exch in EC. cbn [x_caller] in EC. injection EC as <- <- <- <-. cbn [app] in B1, B2.
      exists acc, (waiting u), fs. split; [exact B1|]. split; [exact B3|]. split; [|split; [symmetry; exact B4 | exact B5]].
      rewrite B1 in B2. apply Forall_app in B2 as [B2 _]. clear -B2 B3. induction B3 as [|c f acc fs H F IH]; [constructor|]. inversion B2; subst. cbn [map].
      constructor; [split; assumption | auto].
    Qed.
    Lemma next_iff v u l q : SV v u l -> (v_replied v0 <= v_replied v)%nat -> next_request [] v q <-> next_request base (sh (v_replied v0) v) q.
    Proof.
      intros S LE. destruct base_is as (qs0 & fs0 & F0 & _ & EB & L0). destruct (from_written _ _ _ S) as (acc & todo & fs & _ & _ & FA & W & _).
      destruct S as (E1 & _). cbn [sh v_bridge] in E1. unfold next_request. cbn [sh v_bridge v_replied]. rewrite E1. cbn [put_by]. unfold written in W. rewrite EB in *. split.
      - intros (qs & gs & rest & F & P & L). cbn [app] in P. rewrite P in W.
        assert (X : concat (fs0 ++ fs) ++ [] = concat gs ++ (rest ++ wbuf (p_conn (u_panel u)))) by (rewrite app_nil_r, concat_app, <- W, app_assoc; reflexivity).
        destruct (requests_same _ _ (Forall2_app F0 FA) _ _ _ _ F X (Forall_nil _) eq_refl) as (c & d & _ & ED).
        pose proof (Forall2_len _ _ _ F) as LF. rewrite app_length in LF. cbn [length] in LF. pose proof (Forall2_len _ _ _ F0) as LF0.
        assert (EG : gs = fs0 ++ skipn (length fs0) gs).
        { rewrite <- (firstn_skipn (length fs0) gs) at 1. f_equal. apply (f_equal (firstn (length fs0))) in ED. rewrite !firstn_app in ED.
          replace (length fs0 - length fs0)%nat with 0%nat in ED by lia. replace (length fs0 - length gs)%nat with 0%nat in ED by lia.
          cbn [firstn] in ED. rewrite !app_nil_r, firstn_all in ED. symmetry. exact ED. }
        revert EG. generalize (skipn (length fs0) gs) as g3. intros g3 ->. apply Forall2_app_inv_r in F as (qa & qb & F1 & F2 & EQ).
        pose proof (Forall2_len _ _ _ F1) as LA. pose proof (Forall2_len _ _ _ F2) as LB. rewrite app_length in LF.
        destruct (exists_last (l := qb)) as (qc & q' & ->); [intros ->; cbn [length] in LB; lia|].
        rewrite app_assoc in EQ. apply app_inj_tail in EQ as [-> <-]. exists qc, g3, rest. split; [exact F2|]. rewrite P, concat_app, <- app_assoc. split; [reflexivity|].
        rewrite app_length in L. lia.
      - intros (qs & gs & rest & F & P & L). exists (qs0 ++ qs), (fs0 ++ gs), rest. rewrite <- app_assoc. split; [apply Forall2_app; assumption|].
        rewrite P, concat_app, <- app_assoc. split; [reflexivity|]. rewrite app_length. lia.
    Qed.
    Lemma from_step v u l a v' : SV v u l -> (v_replied v0 <= v_replied v)%nat -> goes nm cl cfg may v a v' ->
      serves cl cfg may base (sh (v_replied v0) v) (down a) (sh (v_replied v0) v') /\ (v_replied v0 <= v_replied v')%nat.
    Proof.
      intros S LE M. pose proof S as (E1 & _). cbn [sh v_bridge] in E1. destruct M as [now ws HW|a v' NA1 NA2 M|pkt f Vp Mp Hp Np Fp|q m body f NR AN G Hb HF].
      - split; [|exact LE]. rewrite E1. cbn [bstep down]. unfold sh. cbn [v_bridge v_net v_replied v_asked v_events]. rewrite E1. constructor.
      - cbn [down]. destruct M as [now| |ws HW|t pl o RD AS PT|pkt f Vp Mp Hp Fp|q m body f N RP G Hb HF|y z EN Ny|]; try congruence; (split; [|exact LE]).
        + apply (S_panel _ _ _ _ (sh (v_replied v0) v)).
        + apply (S_rx _ _ _ _ (sh (v_replied v0) v)).
        + apply (S_send _ _ _ _ (sh (v_replied v0) v)). exact HW.
        + apply (S_mqtt _ _ _ _ (sh (v_replied v0) v)); assumption.
        + apply (S_deliver _ _ _ _ (sh (v_replied v0) v)); assumption.
        + constructor.
      - split; [|exact LE]. apply (S_unasked _ _ _ _ (sh (v_replied v0) v) pkt); assumption.
      - cbn [v_replied]. split; [|lia]. apply (next_iff _ _ _ _ S LE) in NR.
        assert (RP : replies m q) by (destruct q; try exact AN; apply (answers_replies nm); exact AN).
        pose proof (S_reply cl cfg may base (sh (v_replied v0) v) q m body f NR RP G Hb HF) as X. cbn [sh v_bridge v_net v_replied v_asked v_events] in X. unfold sh. cbn [down v_bridge v_net v_replied v_asked v_events].
        replace (Datatypes.S (v_replied v) - v_replied v0)%nat with (Datatypes.S (v_replied v - v_replied v0)) by lia. exact X.
    Qed.
  End From.
  Definition post (v : service) : Prop :=
    exists v0 u0 u l, came nm cl cfg v0 u0 /\ sv cl cfg may (u_panel u0) (v_net v0) (u_log u0) (sh (v_replied v0) v) u l /\ (v_replied v0 <= v_replied v)%nat.
  Lemma program_cases v : gets_to nm cl cfg may v -> (exists V, pre nm cl cfg v V) \/ post v.
  Proof.
    induction 1 as [|v a v' G [(V & P)|(v0 & u0 & u & l & C & S & L)] M].
    - left. eexists. apply pre_new.
    - destruct (pre_step _ _ _ _ P M) as [(u & C)|(V' & P' & _)]; [right|eauto]. exists v', u, u, []. split; [exact C|]. split; [apply came_sv; exact C | lia].
    - right. destruct (from_step _ _ C _ _ _ _ _ S L M) as (M' & L'). pose proof C as (_ & _ & HL & _ & O0 & _ & _ & _ & (pk & U & _) & _). destruct WC as (_ & DN & TE & _).
      destruct (sv_step _ _ _ _ _ _ _ HL O0 U TE DN _ _ _ _ _ S M') as (u' & S' & _). exists v0, u0. eauto.
  Qed.
  Lemma asked_more v a v' : goes nm cl cfg may v a v' -> exists more, v_asked v' = v_asked v ++ more.
  Proof.
    intros M. assert (Z : forall l : list Command, exists more, l = l ++ more) by (intros; exists []; rewrite app_nil_r; reflexivity).
    destruct M as [now ws HW|a v' NA1 NA2 M|pkt f Vp Mp Hp Np Fp|q m body f NR AN G Hb HF]; [apply Z| |apply Z|apply Z].
    destruct M; cbn [v_asked]; try apply Z. eauto.
  Qed.

  (* ---- executions ---- *)
  Variables (vs : nat -> service) (acts : nat -> pmove).
  Hypothesis E0 : vs 0%nat = program_new.
  Hypothesis X : forall n, goes nm cl cfg may (vs n) (acts n) (vs (S n)).
  Hypothesis FC : forall n, exists m, (n <= m)%nat /\ ((exists now k ws, acts m = PConnect now (WAccept (S k) :: ws)) \/ ~ connecting (v_bridge (vs m))).
  Hypothesis FA : forall n, exists m, (n <= m)%nat /\ (acts m = PDo SReply \/ forall q, ~ next_request [] (vs m) q).
  Hypothesis FD : forall n, exists m, (n <= m)%nat /\ (acts m = PDo SDeliver \/ v_net (vs m) = []).
  Lemma stays_or_less V m : forall k n, (n + k = m)%nat -> pre nm cl cfg (vs n) V ->
    pre nm cl cfg (vs m) V \/ exists n', (exists u, came nm cl cfg (vs n') u) \/ exists V', pre nm cl cfg (vs n') V' /\ rlt V' V.
  Proof.
    induction k as [|k IH]; intros n E P; [rewrite Nat.add_0_r in E; subst n; auto|].
    destruct (pre_step _ _ _ _ P (X n)) as [C|(V' & P' & [->|L] & _)]; eauto 6. apply (IH (S n)); [lia | exact P'].
  Qed.
  Lemma comes_up V : forall n, pre nm cl cfg (vs n) V -> exists m u, came nm cl cfg (vs m) u.
  Proof.
    induction V as [V IH] using (well_founded_induction rlt_wf). intros n P.
    assert (D : exists n', (exists u, came nm cl cfg (vs n') u) \/ exists V', pre nm cl cfg (vs n') V' /\ rlt V' V).
    { assert (At : forall m, (n <= m)%nat -> (pre nm cl cfg (vs m) V -> helpful V (act_of (acts m))) ->
        exists n', (exists u, came nm cl cfg (vs n') u) \/ exists V', pre nm cl cfg (vs n') V' /\ rlt V' V).
      { intros m L H. destruct (stays_or_less V m (m - n) n ltac:(lia) P) as [Pm|G]; [|exact G]. specialize (H Pm).
        destruct (pre_step _ _ _ _ Pm (X m)) as [C|(V' & P' & _ & HD)]; eauto 6. }
      assert (Run : (forall a, helpful V a <-> runs a) -> exists n', (exists u, came nm cl cfg (vs n') u) \/ exists V', pre nm cl cfg (vs n') V' /\ rlt V' V).
      { intros HR. destruct (FC n) as (m & L & H). apply (At m L). intros Pm. apply HR. destruct H as [(now & k & ws & ->)|H]; [exact Logic.I|].
        destruct Pm as (i & rx & is & h & os & E & _). elim H. exists i, rx. exact E. }
      destruct V as (a & [|[|b]] & c & d).
      - destruct c as [|c]; [apply Run; reflexivity|]. destruct (FD n) as (m & L & H). apply (At m L). intros Pm. destruct H as [-> |H]; [reflexivity|]. exfalso.
        destruct Pm as (i & rx & is & h & os & _ & _ & _ & _ & T & _). elim (flight_net _ _ _ _ _ _ T). exact H.
      - destruct (FA n) as (m & L & H). apply (At m L). intros Pm. destruct H as [-> |H]; [reflexivity|]. exfalso.
        destruct Pm as (i & rx & is & h & os & E & _ & _ & _ & T & _). destruct (owed_next _ _ _ _ _ _ T) as (q & qs & fs & rest & F & P' & L'). apply (H q).
        exists qs, fs, rest. rewrite E. auto.
      - apply Run. reflexivity. }
    destruct D as (n' & [(u & C)|(V' & P' & L)]); [eauto|]. exact (IH V' L n' P').
  Qed.
  Hypothesis FP : forall n, exists m now, (n <= m)%nat /\ acts m = PDo (SPanel now).
  Hypothesis FR : forall n, exists m, (n <= m)%nat /\ acts m = PDo SRx.
  Hypothesis FS : forall n, exists m k ws, (n <= m)%nat /\ acts m = PDo (SSend (WAccept (S k) :: ws)).
  Lemma asked_grows k : forall j, exists more, v_asked (vs (k + j)) = v_asked (vs k) ++ more.
  Proof.
    induction j as [|j (more & IH)]; [exists []; rewrite Nat.add_0_r, app_nil_r; reflexivity|]. rewrite Nat.add_succ_r.
    destruct (asked_more _ _ _ (X (k + j))) as (more' & ->). rewrite IH, <- app_assoc. eauto.
  Qed.
  Lemma program_completes k : exists n, forall m, (n <= m)%nat -> exists u later, v_bridge (vs m) = Up u /\
    In (APublish (topic_prefix cfg ++ B "/availability") true (PText (B "online"))) (u_log u) /\
    completed (v_events (vs m)) = map into_msg (v_asked (vs k)) ++ later.
  Proof.
    destruct (comes_up _ 0 ltac:(rewrite E0; apply pre_new)) as (n0 & u0 & C). pose proof C as (_ & _ & HL & EM & O0 & _ & _ & _ & (pk & U & _) & _ & _ & _ & EV & _ & ON).
    destruct WC as (_ & DN & TE & _). set (L := v_replied (vs n0)).
    assert (G : forall j, (exists u l, sv cl cfg may (u_panel u0) (v_net (vs n0)) (u_log u0) (sh L (vs (n0 + j))) u l) /\ (L <= v_replied (vs (n0 + j)))%nat /\
      serves cl cfg may (base_of (u_panel u0)) (sh L (vs (n0 + j))) (down (acts (n0 + j))) (sh L (vs (n0 + S j)))).
    { assert (G1 : forall j, (exists u l, sv cl cfg may (u_panel u0) (v_net (vs n0)) (u_log u0) (sh L (vs (n0 + j))) u l) /\ (L <= v_replied (vs (n0 + j)))%nat).
      { induction j as [|j ((u & l & S) & LE)]; [rewrite Nat.add_0_r; split; [exists u0, []; apply came_sv; exact C | apply le_n]|].
        rewrite Nat.add_succ_r. destruct (from_step _ _ C _ _ _ _ _ S LE (X (n0 + j))) as (M & LE'). split; [|exact LE'].
        destruct (sv_step _ _ _ _ _ _ _ HL O0 U TE DN _ _ _ _ _ S M) as (u' & S' & _). eauto. }
      intros j. destruct (G1 j) as ((u & l & S) & LE). split; [eauto|]. split; [exact LE|]. rewrite Nat.add_succ_r. apply (from_step _ _ C _ _ _ _ _ S LE (X (n0 + j))). }
    assert (Far : forall (P : nat -> Prop), (forall n, exists m, (n <= m)%nat /\ P m) -> forall n, exists m, (n <= m)%nat /\ P (n0 + m)%nat).
    { intros P H n. destruct (H (n0 + n)%nat) as (m & LE & Hm). exists (m - n0)%nat. split; [lia|]. replace (n0 + (m - n0))%nat with m by lia. exact Hm. }
    assert (S0 : sv cl cfg may (u_panel u0) (v_net (vs n0)) (u_log u0) (sh L (vs (n0 + 0))) u0 []) by (rewrite Nat.add_0_r; apply came_sv; exact C).
    assert (A1 : forall n, exists m now, (n <= m)%nat /\ down (acts (n0 + m)) = SPanel now).
    { intros n. destruct (Far (fun m => exists now, acts m = PDo (SPanel now))) with (n := n) as (m & LE & now & E); [|exists m, now; rewrite E; auto].
      intros n'. destruct (FP n') as (m & now & H1 & H2). eauto. }
    assert (A2 : forall n, exists m, (n <= m)%nat /\ down (acts (n0 + m)) = SRx).
    { intros n. destruct (Far (fun m => acts m = PDo SRx) FR n) as (m & LE & E). exists m. rewrite E. auto. }
    assert (A3 : forall n, exists m k ws, (n <= m)%nat /\ down (acts (n0 + m)) = SSend (WAccept (S k) :: ws)).
    { intros n. destruct (Far (fun m => exists k ws, acts m = PDo (SSend (WAccept (S k) :: ws)))) with (n := n) as (m & LE & j & ws & E); [|exists m, j, ws; rewrite E; auto].
      intros n'. destruct (FS n') as (m & j & ws & H1 & H2). eauto. }
    assert (A4 : forall n, exists m, (n <= m)%nat /\ (down (acts (n0 + m)) = SReply \/ forall q, ~ next_request (base_of (u_panel u0)) (sh L (vs (n0 + m))) q)).
    { intros n. destruct (Far _ FA n) as (m & LE & [E|E]); exists m; (split; [exact LE|]); [left; rewrite E; reflexivity|]. right. intros q H.
      destruct (G m) as ((u & l & S) & LL & _). apply (E q). apply (next_iff _ _ C _ _ _ _ S LL). exact H. }
    assert (A5 : forall n, exists m, (n <= m)%nat /\ (down (acts (n0 + m)) = SDeliver \/ v_net (sh L (vs (n0 + m))) = [])).
    { intros n. destruct (Far _ FD n) as (m & LE & [E|E]); exists m; (split; [exact LE|]); [left; rewrite E; reflexivity | right; exact E]. }
    destruct (all_served cl cfg may u0 (v_net (vs n0)) pk HL O0 U TE DN (fun j => sh L (vs (n0 + j))) (fun j => down (acts (n0 + j))) S0 (fun j => proj2 (proj2 (G j))) A1 A2 A3 A4 A5) with (k := k) as (n & H); auto.
    - cbn [sh v_net]. rewrite Nat.add_0_r. reflexivity.
    - cbn [sh v_replied]. rewrite Nat.add_0_r. apply Nat.sub_diag.
    - cbn [sh v_events]. rewrite Nat.add_0_r. exact EV.
    - exists (n0 + n)%nat. intros m LE. destruct (H (m - n0)%nat ltac:(lia)) as (later & E). cbn [sh v_events v_asked] in E. replace (n0 + (m - n0))%nat with m in E by lia.
      rewrite (Nat.add_comm n0 k) in E. destruct (asked_grows k n0) as (more & EG). rewrite EG, map_app, <- app_assoc in E.
      destruct (G (m - n0)%nat) as ((u & l & S) & _). replace (n0 + (m - n0))%nat with m in S by lia. destruct S as (EB & _ & _ & _ & _ & _ & _ & (lg & EL & _)).
      exists u. eexists. split; [exact EB|]. split; [rewrite EL; apply in_or_app; left; exact ON | exact E].
  Qed.
End Program.
