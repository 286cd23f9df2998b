(* PropEq.v: C96: comparing packets (pkt.rs:19, 158-163, 201, 352) and text descriptions (msg.rs:1312, 1411-1415). *)
From Verif Require Import Base BaseFacts Pkt SpecPkt PktFacts DecodeFacts Msg SpecMsg DecFacts MsgFacts SpecReason ReasonFacts PropReason IsoFacts PropPkt PropMsg SpecEq Eq.
From Coq Require Import ZifyBool ZifyNat ZifyN.
Ltac Zify.zify_post_hook ::= Z.div_mod_to_equations.

(* Packets are equal if they are of the same kind and have the same bytes; the reason of an invalid packet does not count. *)
Theorem C96_equality : (forall p q, packet_eqb p q = true <-> alike p q) /\
  (forall p, alike p p) /\ (forall p q, alike p q -> alike q p) /\ (forall p q r, alike p q -> alike q r -> alike p r).
Proof.
  split; [intros [a|a|a w] [b|b|b w']; cbn; try apply beq_eq; split; intros H; solve [discriminate H | contradiction]|].
  split; [intros [a|a|a w]; reflexivity|].
  split; [intros [a|a|a w] [b|b|b w']; cbn; auto | intros [a|a|a w] [b|b|b w'] [c|c|c w2]; cbn; try tauto; congruence].
Qed.
(* Equal packets are framed alike and mean the same. *)
Theorem C96_equal_means_same : forall p q, packet_eqb p q = true -> parse p = parse q /\ forall to, encode p to = encode q to.
Proof.
  intros p q H. apply C96_equality in H. destruct p as [a|a|a w], q as [b|b|b w']; cbn in H; try contradiction; subst; split; reflexivity.
Qed.
(* Of packets that were decoded, those are equal whose bytes are the same. *)
Theorem C96_same_bytes : forall s1 p r1 s2 q r2, u8s s1 -> u8s s2 -> decode s1 = Ok (Some p, r1) -> decode s2 = Ok (Some q, r2) ->
  (packet_eqb p q = true <-> encode p [] = encode q []).
Proof.
  intros s1 p r1 s2 q r2 U1 U2 E1 E2. split; [intros H; apply C96_equal_means_same; exact H|]. intros H. apply C96_equality.
  destruct (decode_some_inv _ _ _ U1 E1) as (e1 & S1 & _ & X1 & F1 & V1). destruct (decode_some_inv _ _ _ U2 E2) as (e2 & S2 & _ & X2 & F2 & V2).
  rewrite X1, X2 in H. injection H as <-. cbn [app] in *. rewrite S1 in U1. rewrite S2 in U2. apply u8s_app in U1 as [_ U1]. apply u8s_app in U2 as [_ U2].
  assert (G : forall x y rx ry sx sy, match x with PInvalid _ _ => True | _ => valid_packet x end -> frame_of x e1 -> u8s ry -> sx = e1 ++ rx -> sy = e1 ++ ry ->
    decode sy = Ok (Some y, ry) -> (exists raw w, x = PInvalid raw w) \/ x = y).
  { intros x y rx ry sx sy V F U _ -> E. destruct x as [b|d|raw w]; [right|right|left; eauto]; rewrite (decode_of_frame _ e1 ry V F U) in E; congruence. }
  destruct (G p q r1 r2 s1 s2 V1 F1 U2 S1 S2 E2) as [(a & w & ->)| <-]; [|exact (proj1 (proj2 C96_equality) p)].
  destruct (G q (PInvalid a w) r2 r1 s2 s1 V2 F2 U1 S2 S1 E1) as [(b & w' & ->)| ->]; [cbn in *; congruence | reflexivity].
Qed.
(* Equal packets that were decoded are the same in all respects, but for the reason why an RP packet was cut short: that names the byte after it. *)
Theorem C96_reasons_can_differ : exists s1 p r1 s2 q r2, u8s s1 /\ u8s s2 /\ decode s1 = Ok (Some p, r1) /\ decode s2 = Ok (Some q, r2) /\ packet_eqb p q = true /\ p <> q.
Proof.
  exists [16; 2; 5; 16; 7], (PInvalid [16; 2; 5; 16] "RP packet has bad sequence DTS 07"), [7], [16; 2; 5; 16; 8], (PInvalid [16; 2; 5; 16] "RP packet has bad sequence DTS 08"), [8].
  split; [repeat constructor|]. split; [repeat constructor|]. split; [vm_compute; reflexivity|]. split; [vm_compute; reflexivity|]. split; [vm_compute; reflexivity | discriminate].
Qed.
Lemma other_rest raw r1 r2 w : explains raw r1 w ->
  explains raw r2 w \/ cut_at_dle raw /\ hd_error r1 <> hd_error r2 \/ ~ begins_packet (raw ++ r1) /\ w = "bytes without ASCII length or RP prefix"%string.
Proof.
  intros X. destruct X as [An H | t An E0 L | d a b An E0 L H | d wr c rcc rc An E0 L H1 H2 S Ne | nn x b y wr c i An E0 L H S L2 F NP Nu | d hi lo rc s' E0 L C Ne HN | d c rest' s' E0 L E2 N1 N2 HN | d tail E0 T L | NB].
  - left. apply X_no_crlf; assumption.
  - left. eapply X_too_short; eassumption.
  - left. eapply X_checksum_unreadable; eassumption.
  - left. eapply X_checksum_wrong; eassumption.
  - left. eapply X_character; eassumption.
  - left. eapply X_crc; eassumption.
  - destruct r2 as [|c2 r2]; [|destruct (N.eq_dec c c2) as [<- |NC]].
    + right; left. split; [exists d; exact E0 | rewrite E2; discriminate].
    + left. eapply X_sequence; eauto.
    + right; left. split; [exists d; exact E0 | rewrite E2; cbn; congruence].
  - left. eapply X_too_long; eassumption.
  - right; right. auto.
Qed.
Theorem C96_but_for_the_reason : forall s1 p r1 s2 q r2, u8s s1 -> u8s s2 -> decode s1 = Ok (Some p, r1) -> decode s2 = Ok (Some q, r2) -> packet_eqb p q = true ->
  p = q \/ exists raw why1 why2, p = PInvalid raw why1 /\ q = PInvalid raw why2 /\ cut_at_dle raw /\ hd_error r1 <> hd_error r2.
Proof.
  intros s1 p r1 s2 q r2 U1 U2 E1 E2 H. apply C96_equality in H. destruct p as [a|a|a w1], q as [b|b|b w2]; cbn in H; try contradiction; subst b; auto.
  destruct (C81_reason_exact _ _ _ _ U1 E1) as [S1 X1]. destruct (C81_reason_exact _ _ _ _ U2 E2) as [S2 X2].
  destruct (string_dec w1 w2) as [-> |NE]; [auto|]. right. exists a, w1, w2. split; [reflexivity|]. split; [reflexivity|].
  assert (P1 : explains a r1 w1) by (apply X1; reflexivity). assert (P2 : explains a r2 w2) by (apply X2; reflexivity).
  destruct (other_rest a r1 r2 w1 P1) as [Y|[Y|[N1 Y1]]]; [apply X2 in Y; congruence | exact Y|].
  destruct (other_rest a r2 r1 w2 P2) as [Y|[Y|[N2 Y2]]]; [apply X1 in Y; congruence | destruct Y as [Y1' Y2]; auto | congruence].
Qed.
(* Two names are equal if they are shown alike; a name equals a string if it is shown as that string. *)
Theorem C96_names : forall t u, text_ok t -> text_ok u -> (t = u <-> TextDescription_as_str t = TextDescription_as_str u).
Proof.
  intros t u (Lt & Pt) (Lu & Pu). split; [intros ->; reflexivity|]. intros E.
  destruct (text_as_str t Pt) as (x & Ex & (k & Tx & _)). destruct (text_as_str u Pu) as (y & Ey & (j & Ty & _)).
  rewrite Ex, Ey in E. injection E as <-. rewrite Tx, Ty in *. rewrite !app_length, !repeat_length in *. do 2 f_equal. lia.
Qed.
(* Messages are equal if they are the same; those that can be sent, if the same packet is sent for them. *)
Lemma ands (a b : bool) (P Q : Prop) : (a = true <-> P) -> (b = true <-> Q) -> (a && b = true <-> P /\ Q).
Proof. intros H K. rewrite andb_true_iff, H, K. reflexivity. Qed.
Ltac enum := intros [] []; split; first [reflexivity | discriminate].
Lemma ArmLevel_eqb_eq a b : ArmLevel_eqb a b = true <-> a = b. Proof. revert a b. enum. Qed.
Lemma TimeDataType_eqb_eq a b : TimeDataType_eqb a b = true <-> a = b. Proof. revert a b. enum. Qed.
Lemma ArmedState_eqb_eq a b : ArmedState_eqb a b = true <-> a = b. Proof. revert a b. enum. Qed.
Lemma Weekday_eqb_eq a b : Weekday_eqb a b = true <-> a = b. Proof. revert a b. enum. Qed.
Lemma ClockDisplayMode_eqb_eq a b : ClockDisplayMode_eqb a b = true <-> a = b. Proof. revert a b. enum. Qed.
Lemma DateDisplayMode_eqb_eq a b : DateDisplayMode_eqb a b = true <-> a = b. Proof. revert a b. enum. Qed.
Lemma option_eqb_eq {A} (eqb : A -> A -> bool) a b : (forall x y, eqb x y = true <-> x = y) -> option_eqb eqb a b = true <-> a = b.
Proof. intros H. destruct a, b; cbn; rewrite ?H; split; congruence. Qed.
Lemma RtcData_eqb_eq a b : RtcData_eqb a b = true <-> a = b.
Proof.
  destruct a as [[y mo d h mi s] w t c dd], b as [[y' mo' d' h' mi' s'] w' t' c' dd']. unfold RtcData_eqb, DateTime_eqb. cbn.
  rewrite !andb_true_iff, !N.eqb_eq, Weekday_eqb_eq, ClockDisplayMode_eqb_eq, DateDisplayMode_eqb_eq, Bool.eqb_true_iff. split; [intros H; decompose [and] H; congruence | intros [=]; repeat split; assumption].
Qed.
Theorem C96_messages : forall m n, message_eqb m n = true <-> m = n.
Proof.
  assert (W : forall (P : Prop) {A B} (f : A -> B) x y, (forall a b, f a = f b -> a = b) -> (P <-> x = y) -> (P <-> f x = f y)).
  { intros P A B f x y I H. rewrite H. split; [congruence | apply I]. }
  intros [a| |a|a|a| |a|a|a|a|a|a|a| |a] [b| |b|b|b| |b|b|b|b|b|b|b| |b]; cbn [message_eqb]; try (split; [discriminate | intros [=]]); try (split; reflexivity);
    apply W; try (intros x y [=]; assumption); try apply N.eqb_eq; try apply beq_eq; try apply RtcData_eqb_eq; try apply report_eqb_eq.
  - destruct a, b. unfold ArmRequest_eqb. cbn. rewrite !andb_true_iff, N.eqb_eq, ArmLevel_eqb_eq, beq_eq. split; [intros H; decompose [and] H; congruence | intros [=]; repeat split; assumption].
  - destruct a, b. unfold SendTimeData_eqb. cbn. rewrite !andb_true_iff, !N.eqb_eq, TimeDataType_eqb_eq, (option_eqb_eq _ _ _ ArmedState_eqb_eq).
    split; [intros H; decompose [and] H; congruence | intros [=]; repeat split; assumption].
  - destruct a, b. unfold SendCode_eqb. cbn. rewrite !andb_true_iff, !N.eqb_eq, beq_eq. split; [intros H; decompose [and] H; congruence | intros [=]; repeat split; assumption].
  - destruct a, b. unfold StringDescriptionRequest_eqb. cbn. rewrite !andb_true_iff, !N.eqb_eq, TextDescriptionType_eqb_eq. split; [intros H; decompose [and] H; congruence | intros [=]; repeat split; assumption].
  - destruct a, b. unfold StringDescriptionResponse_eqb. cbn. rewrite !andb_true_iff, !N.eqb_eq, TextDescriptionType_eqb_eq, beq_eq. split; [intros H; decompose [and] H; congruence | intros [=]; repeat split; assumption].
  - destruct a, b. unfold ZoneChange_eqb. cbn. rewrite !andb_true_iff, !N.eqb_eq. split; [intros H; decompose [and] H; congruence | intros [=]; repeat split; assumption].
Qed.
Theorem C96_messages_by_packet : forall m n, wf_message m -> wf_message n ->
  exists p q, to_pkt m = Ok p /\ to_pkt n = Ok q /\ (message_eqb m n = true <-> packet_eqb p q = true).
Proof.
  intros m n Wm Wn. destruct (C12_packet_roundtrip m Wm) as (p & Ep & _ & Pp), (C12_packet_roundtrip n Wn) as (q & Eq & _ & Pq). exists p, q. split; [exact Ep|]. split; [exact Eq|].
  rewrite C96_messages. split; [intros ->; rewrite Ep in Eq; injection Eq as <-; apply C96_equality; destruct p; reflexivity|].
  intros H. destruct (C96_equal_means_same _ _ H) as [X _]. congruence.
Qed.

Definition ex_cut1 : bytes := [16; 2; 5; 16; 7].
Definition ex_cut2 : bytes := [16; 2; 5; 16; 8].
Example C96_example : packet_eqb (PInvalid [222] "a") (PInvalid [222] "b") = true /\ packet_eqb (PAscii (B "XK")) (PRp (B "XK")) = false /\
  decode ex_cut1 = Ok (Some (PInvalid [16; 2; 5; 16] "RP packet has bad sequence DTS 07"), [7]) /\
  decode ex_cut2 = Ok (Some (PInvalid [16; 2; 5; 16] "RP packet has bad sequence DTS 08"), [8]).
Proof. vm_compute. repeat split. Qed.
Example C96_names_example : text_ok (B "Front DoorKeypad") /\ text_ok (B "Front Door      ") /\ TextDescription_as_str (B "Front Door      ") = Ok (B "Front Door").
Proof. vm_compute. repeat split; repeat constructor; intros; discriminate. Qed.
Example C96_messages_example : wf_message ex_zc /\ wf_message ex_ee /\ message_eqb ex_ee ex_ee = true /\ message_eqb ex_ee ex_zc = false /\
  message_eqb (MActivateTask 1) (MTaskChange 1) = false /\ message_eqb (MZoneChange (mkZC 16 9)) (MZoneChange (mkZC 16 8)) = false.
Proof. destruct C12_example as (_ & _ & W & _). split; [vm_compute; repeat split; discriminate|]. split; [exact W|]. vm_compute. auto. Qed.

Print Assumptions C96_messages.
Print Assumptions C96_messages_by_packet.
Print Assumptions C96_equality.
Print Assumptions C96_equal_means_same.
Print Assumptions C96_same_bytes.
Print Assumptions C96_reasons_can_differ.
Print Assumptions C96_but_for_the_reason.
Print Assumptions C96_names.
