(* PropSize.v: C144, how much is published for an event (elkm1-mqtt/src/main.rs:446-456). *)
From Verif Require Import Base BaseFacts Pkt SpecPkt PktFacts DecodeFacts PropPkt Msg SpecMsg DecFacts MsgFacts WireFacts IsoFacts
  PropMsg Tokio SpecConn ConnFacts State SpecState StateFacts RunFacts HistFacts ViewFacts ExState PropState PropSink
  Serde SerdeFacts PropSerde Mqtt SpecMqtt MqttFacts PropMqtt BridgeText JsonWrite SpecSize.
From Coq Require Import ZifyBool ZifyNat ZifyN.
Ltac Zify.zify_post_hook ::= Z.div_mod_to_equations.

Lemma digits_len b : b < 256 -> length (fmt_dec b) = digits_of b.
Proof.
  intros H. assert (X : forallb (fun k => Nat.eqb (length (fmt_dec (N.of_nat k))) (digits_of (N.of_nat k))) (seq 0 256) = true) by (vm_compute; reflexivity).
  rewrite forallb_forall in X. specialize (X (N.to_nat b)). rewrite N2Nat.id in X. apply Nat.eqb_eq, X, in_seq. lia.
Qed.
Lemma indent_len n : length (indent n) = (2 * n)%nat.
Proof. induction n as [|n IH]; [reflexivity|]. cbn [indent]. rewrite app_length, IH. cbn [length bytes_of_string]. cbn. lia. Qed.
Lemma sum_cons a l : list_sum (a :: l) = (a + list_sum l)%nat.
Proof. reflexivity. Qed.
Lemma elems_len n l : u8s l -> length (write_elems n false (map VNum l)) = list_sum (map (fun b => 2 * S n + digits_of b + 2)%nat l).
Proof.
  induction l as [|b l IH]; intros U; [reflexivity|]. inversion U as [|? ? Hb U']; subst. cbn [map write_elems]. unfold separator. rewrite !app_length, indent_len, (IH U').
  cbn [pretty]. rewrite (digits_len b Hb), sum_cons. cbn [length]. lia.
Qed.
Lemma list_len n b l : u8s (b :: l) -> length (pretty n (ser_list VNum (b :: l))) = (4 + 2 * n + lines_of (2 * S n) (b :: l) - 1)%nat.
Proof.
  intros U. unfold ser_list. cbn [map]. rewrite pretty_arr. cbn [write_elems]. inversion U as [|? ? Hb U']; subst. unfold separator.
  rewrite !app_length, !indent_len, (elems_len n l U'). cbn [pretty]. rewrite (digits_len b Hb). unfold lines_of. cbn [map]. rewrite sum_cons. cbn [length]. lia.
Qed.
Lemma rp_len data v : u8s data -> Event_ser (mkEvent (Some (PRp data)) None None None) = Ok v -> length (to_string_pretty v) = rp_size data.
Proof.
  intros U E. injection E as <-. destruct data as [|b data]; [reflexivity|]. unfold to_string_pretty, ser_opt, Packet_ser, tagged, RpPacket_ser.
  pose proof (list_len 2 b data U) as L. remember (ser_list VNum (b :: data)) as lv. unfold Event_fields. cbn [combine].
  rewrite pretty_obj. cbn [write_members]. rewrite pretty_obj. cbn [write_members]. rewrite !app_length, !indent_len, L.
  cbn -[lines_of]. unfold rp_size. change (6%nat) with (2 * 3)%nat. lia.
Qed.
Lemma invalid_len raw why v : u8s raw -> raw <> [] -> Event_ser (mkEvent (Some (PInvalid raw why)) None None None) = Ok v ->
  length (to_string_pretty v) = invalid_size raw (length (write_str (bytes_of_string why))).
Proof.
  intros U NE E. injection E as <-. destruct raw as [|b raw]; [elim (NE eq_refl)|]. unfold to_string_pretty, ser_opt, Packet_ser, tagged.
  pose proof (list_len 3 b raw U) as L. remember (ser_list VNum (b :: raw)) as lv. unfold Event_fields, InvalidPacket_fields, ser_str. cbn [combine].
  rewrite pretty_obj. cbn [write_members]. rewrite pretty_obj. cbn [write_members]. rewrite pretty_obj. cbn [write_members pretty]. remember (write_str (bytes_of_string why)) as wy.
  rewrite !app_length, !indent_len, L. cbn -[lines_of]. unfold invalid_size. change (8%nat) with (2 * 4)%nat. lia.
Qed.

(* what a packet that holds no message makes of an event *)
Definition bare (e : Event) : Prop :=
  match e_pkt e with
  | Some (PRp data) => e = mkEvent (Some (PRp data)) None None None
  | Some (PInvalid raw why) => e = mkEvent (Some (PInvalid raw why)) None None None /\ raw <> []
  | _ => True
  end.
Lemma poll_bare now p p' r w e : pinv p -> poll_next now p = Ok (p', r, w) -> yields r e -> bare e.
Proof.
  intros I E Y. pose proof (poll_next_case _ _ _ _ _ I E) as PC. unfold yields in Y. subst r.
  inversion PC as [pkt m e' w' D K EP E1 E2 N M R|pkt e' D K EP E1 E2 E3 E4 E5|d m prior D U X E1 E2 E3 E4|r' NE U F E0]; subst; [| |exact Logic.I|elim (NE e); reflexivity].
  - unfold bare. rewrite EP. destruct pkt; [exact Logic.I | discriminate E1 | discriminate E1].
  - unfold bare. rewrite EP. destruct e as [a b c d]. cbn in EP, E2, E4, E5. subst. destruct pkt as [body|data|raw why]; [exact Logic.I | reflexivity|]. split; [reflexivity|].
    assert (U : u8s (unread (p_conn p))) by (apply unread_u8, I). destruct (C06_progress_and_bound _ _ _ U D) as (x & _ & (L & _) & H). rewrite (H _ _ eq_refl).
    destruct x; [cbn in L; lia | discriminate].
Qed.
Lemma run_bare h : forall p p' bs, pinv p -> Forall op_ok h -> run p h = Ok (p', bs) -> Forall bare (events bs).
Proof.
  induction h as [|o h IH]; intros p p' bs I HO E; cbn [run] in E; [injection E as <- <-; constructor|].
  inversion HO as [|? ? Ho HO']; subst. destruct (step p o) as [[p1 b]| |] eqn:ES; try discriminate. cbn [bind] in E.
  destruct (run p1 h) as [[p2 bs']| |] eqn:ER; try discriminate. injection E as <- <-. destruct (step_inv _ _ _ _ I Ho ES) as [I1 _].
  change (b :: bs') with ([b] ++ bs'). rewrite events_app. apply Forall_app. split; [|eapply IH; eauto].
  destruct (event_of b) as [e|] eqn:EB; [|unfold events; cbn; rewrite EB; constructor]. unfold events. cbn. rewrite EB. constructor; [|constructor].
  destruct b as [|r w|r]; try discriminate. destruct o as [a|now|w' ws|c|ws|ws]; cbn [step] in ES.
  - discriminate.
  - destruct (poll_next now p) as [[[q r'] w']| |] eqn:EP; try discriminate. injection ES as -> -> ->. eapply poll_bare; [exact I | exact EP |].
    unfold yields. destruct r as [|[[e'|]|]]; cbn in EB; congruence.
  - destruct (poll_ready w' ws p). discriminate.
  - destruct (start_send c p); discriminate.
  - destruct (poll_flush ws p). discriminate.
  - destruct (poll_close ws p). discriminate.
Qed.
(* Whenever the bridge is up, the size of what it has published for each event of an RP or an invalid packet. *)
Theorem C144_sizes_partial : forall cl cfg is1 u1 is2 u2,
  bridge_after cl cfg is1 (Up u1) -> bridge_after cl cfg (is1 ++ is2) (Up u2) ->
  exists ops bs log, Forall op_ok ops /\ run (u_panel u1) ops = Ok (u_panel u2, bs) /\ arrived ops = net_in is2 /\ u_log u2 = u_log u1 ++ log /\
    Forall2 (fun e a => exists pl, a = APublish (topic_prefix cfg ++ B "/event") false pl /\
        (forall data, e_pkt e = Some (PRp data) -> length (payload_text pl) = rp_size data) /\
        (forall raw why, e_pkt e = Some (PInvalid raw why) -> length (payload_text pl) = invalid_size raw (length (write_str (bytes_of_string why)))))
      (events bs) (filter is_event_pub log).
Proof.
  intros cl cfg is1 u1 is2 u2 A1 A2. destruct (bridge_between _ _ _ _ _ _ A1 A2) as [(R & _) _]. destruct (reachable_inv _ R) as [I _].
  destruct (C58_events_published _ _ _ _ _ _ A1 A2) as (ops & bs & log & H1 & H2 & H3 & H4 & F). exists ops, bs, log. repeat (split; [assumption|]).
  pose proof (run_bare _ _ _ _ I H1 H2) as BR. pose proof (run_event_ok _ _ _ _ I H1 H2) as OK. clear -F BR OK.
  induction F as [|e a es l (v & E1 & _ & ->) F IH]; [constructor|]. inversion BR as [|? ? B1 B2]; subst. inversion OK as [|? ? (U & _) O2]; subst.
  constructor; [|exact (IH B2 O2)]. exists (PJson v). split; [reflexivity|]. unfold bare in B1. cbn [payload_text]. split.
  - intros data EP. pose proof (U _ EP) as U1. rewrite EP in B1. rewrite B1 in E1. exact (rp_len _ _ U1 E1).
  - intros raw why EP. pose proof (U _ EP) as U1. rewrite EP in B1. destruct B1 as [B1 NE]. rewrite B1 in E1. exact (invalid_len _ _ _ U1 NE E1).
Qed.
(* when that is too much *)
Lemma sum_lower (f : N -> nat) k l : Forall (fun b => (k <= f b)%nat) l -> (k * length l <= list_sum (map f l))%nat.
Proof. induction 1 as [|b l H F IH]; [cbn; lia|]. cbn [map length]. rewrite sum_cons. lia. Qed.
Lemma sum_upper (f : N -> nat) k l : Forall (fun b => (f b <= k)%nat) l -> (list_sum (map f l) <= k * length l)%nat.
Proof. induction 1 as [|b l H F IH]; [cbn; lia|]. cbn [map length]. rewrite sum_cons. lia. Qed.
Lemma digits_bounds b : (1 <= digits_of b <= 3)%nat.
Proof. unfold digits_of. destruct (b <? 10); [lia|]. destruct (b <? 100); lia. Qed.
Theorem C144_fits_partial : forall data raw reason,
  ((length data <= N.to_nat 922)%nat -> N.of_nat (rp_size data) <= client_limit) /\
  ((length raw <= N.to_nat 750)%nat -> (reason <= N.to_nat 350)%nat -> N.of_nat (invalid_size raw reason) <= client_limit).
Proof.
  intros data raw reason. unfold client_limit. split.
  - intros L. unfold rp_size. destruct data as [|b data]; [lia|]. unfold lines_of.
    pose proof (sum_upper (fun b => 6 + digits_of b + 2)%nat 11 (b :: data)) as S. specialize (S ltac:(apply Forall_forall; intros x _; pose proof (digits_bounds x); lia)). lia.
  - intros L LR. unfold invalid_size, lines_of.
    pose proof (sum_upper (fun b => 8 + digits_of b + 2)%nat 13 raw) as S. specialize (S ltac:(apply Forall_forall; intros x _; pose proof (digits_bounds x); lia)). lia.
Qed.
Theorem C144_exceeds_refuted : forall data raw reason,
  (Forall (fun b => 100 <= b) data -> (N.to_nat 923 <= length data)%nat -> client_limit < N.of_nat (rp_size data)) /\
  ((N.to_nat 919 <= length raw)%nat -> client_limit < N.of_nat (invalid_size raw reason)).
Proof.
  intros data raw reason. unfold client_limit. split.
  - intros F L. unfold rp_size. destruct data as [|b data]; [cbn in L; lia|]. unfold lines_of.
    pose proof (sum_lower (fun b => 6 + digits_of b + 2)%nat 11 (b :: data)) as S.
    assert (S' : (11 * length (b :: data) <= list_sum (map (fun b => 6 + digits_of b + 2) (b :: data)))%nat).
    { apply S. apply Forall_forall. intros x Hx. rewrite Forall_forall in F. specialize (F x Hx). cbn beta in F. unfold digits_of. destruct (x <? 10) eqn:E1; [lia|]. destruct (x <? 100) eqn:E2; lia. }
    lia.
  - intros L. unfold invalid_size, lines_of.
    pose proof (sum_lower (fun b => 8 + digits_of b + 2)%nat 11 raw) as S. specialize (S ltac:(apply Forall_forall; intros x _; pose proof (digits_bounds x); lia)). lia.
Qed.
(* So noise, 1026 bytes in a row, makes the bridge publish more than its client sends. *)
Definition ex_noise : list input := [NetArrive (Bytes (repeat 255 (N.to_nat 1026))); PollPanel 7].
Definition ex_noise_up : up := Eval vm_compute in up_of (brun ex_cl ex_cfg (ex_start ++ ex_noise)).
Lemma ex_noise_after : bridge_after ex_cl ex_cfg (ex_start ++ ex_noise) (Up ex_noise_up).
Proof.
  split; [apply Forall_app; split; [exact ex_start_ok|] | vm_compute; reflexivity]. apply Forall_cons; [|apply Forall_cons; [exact Logic.I | apply Forall_nil]].
  apply Forall_forall. intros b Hb. apply repeat_spec in Hb. subst b. lia.
Qed.
Definition ex_noise_why : string := "bytes without ASCII length or RP prefix"%string.
Definition ex_noise_value : value := match Event_ser (mkEvent (Some (PInvalid (repeat 255 (N.to_nat 1024)) ex_noise_why)) None None None) with Ok v => v | _ => VNull end.
Theorem C144_too_large_refuted : exists cl cfg is u q pl,
  bridge_after cl cfg is (Up u) /\ In (APublishQ q (topic_prefix cfg ++ B "/event") false pl) (u_log u) /\ client_limit < N.of_nat (length (payload_text pl)).
Proof.
  exists ex_cl, ex_cfg, (ex_start ++ ex_noise), ex_noise_up, AtLeastOnce, (PJson ex_noise_value). split; [exact ex_noise_after|]. split.
  - assert (X : u_log ex_noise_up = u_log ex_up ++ [APublish (topic_prefix ex_cfg ++ B "/event") false (PJson ex_noise_value)]) by (vm_compute; reflexivity).
    rewrite X. apply in_app_iff. right. left. reflexivity.
  - cbn [payload_text]. rewrite (invalid_len (repeat 255 (N.to_nat 1024)) ex_noise_why ex_noise_value).
    + apply (proj2 (C144_exceeds_refuted [] _ _)). rewrite repeat_length. lia.
    + apply Forall_forall. intros b Hb. apply repeat_spec in Hb. subst b. lia.
    + vm_compute. discriminate.
    + reflexivity.
Qed.
(* an RP packet of 1000 bytes too, and one of 900 fits *)
Example C144_example :
  bridge_after ex_cl ex_cfg ex_start (Up ex_up) /\ bridge_after ex_cl ex_cfg (ex_start ++ ex_noise) (Up ex_noise_up) /\
  (exists v, Event_ser (mkEvent (Some (PRp [1; 20; 255])) None None None) = Ok v /\ length (to_string_pretty v) = 119%nat /\ rp_size [1; 20; 255] = 119%nat) /\
  client_limit < N.of_nat (rp_size (repeat 200 (N.to_nat 1000))) /\ N.of_nat (rp_size (repeat 200 (N.to_nat 900))) <= client_limit /\
  (exists f, encode (PRp (repeat 200 (N.to_nat 1000))) [] = Ok f /\ length f = N.to_nat 1006).
Proof.
  split; [exact ex_up_after|]. split; [exact ex_noise_after|]. split; [eexists; split; [reflexivity|]; split; vm_compute; reflexivity|].
  split; [|split].
  - apply (proj1 (C144_exceeds_refuted _ [] O)); [|rewrite repeat_length; lia]. apply Forall_forall. intros b Hb. apply repeat_spec in Hb. subst b. lia.
  - apply (proj1 (C144_fits_partial _ [] O)). rewrite repeat_length. lia.
  - eexists. split; [vm_compute; reflexivity | vm_compute; reflexivity].
Qed.

Print Assumptions C144_sizes_partial.
Print Assumptions C144_fits_partial.
Print Assumptions C144_exceeds_refuted.
Print Assumptions C144_too_large_refuted.
