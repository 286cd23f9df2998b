(* DecodeFacts.v: consequences of the case analysis of decode (PktFacts.decode_cases). *)
From Verif Require Import Pkt SpecPkt BaseFacts CrcFacts PktFacts.
From Coq Require Import ZifyBool ZifyNat ZifyN.
Ltac Zify.zify_post_hook ::= Z.div_mod_to_equations.
Notation decodes := (SpecPkt.decodes PAscii PRp invalid_of).

Lemma rp_frame_length d f : rp_frame d f -> length f = (length (dle_double d) + 6)%nat.
Proof. intros (hi & lo & c & _ & _ & _ & _ & ->). rewrite !app_length. cbn [length]. lia. Qed.

Lemma frame_of_valid p f : valid_packet p -> frame_of p f ->
  u8s f /\ (6 <= length f <= N.to_nat 1024)%nat /\ forall rest, decodes (f ++ rest) (Some p) rest.
Proof.
  destruct p as [b|d|raw w]; cbn; intros HV HF; [| |tauto].
  - split; [|split].
    + destruct HF as (nn & cc & c & H1 & H2 & _ & ->). destruct HV as [HP _].
      rewrite !u8s_app. repeat split; [eapply hexrange_u8, hex2_range; eauto | apply printable_u8; exact HP
        | eapply hexrange_u8, hex2_range; eauto | repeat constructor; lia].
    + destruct HV as [_ HV]. pose proof (ascii_frame_length _ _ HF). lia.
    + intros rest. apply D_ascii; assumption.
  - destruct HV as [U L]. pose proof (rp_frame_length _ _ HF) as LF. split; [|split].
    + destruct HF as (hi & lo & c & _ & _ & Hh & Hl & ->). rewrite !u8s_app.
      repeat split; [repeat constructor; lia | apply dle_double_u8s; exact U | repeat constructor; lia
        | repeat constructor; lia].
    + lia.
    + intros rest. apply D_rp; [exact HF | lia].
Qed.

Lemma encode_valid p : valid_packet p -> exists f, frame_of p f /\ forall to, encode p to = Ok (to ++ f).
Proof.
  destruct p as [b|d|raw w]; cbn; intros HV; [| |tauto].
  - destruct (ascii_encode_spec b HV) as (f & H1 & H2). eauto.
  - eexists. split; [apply rp_frame_iff; [apply HV | reflexivity]|]. intros to. apply rp_encode_eq.
Qed.

Lemma decode_of_frame p f rest : valid_packet p -> frame_of p f -> u8s rest ->
  decode (f ++ rest) = Ok (Some p, rest).
Proof.
  intros HV HF UR. destruct (frame_of_valid p f HV HF) as (UF & _ & HD).
  assert (U : u8s (f ++ rest)) by (apply u8s_app; auto).
  apply decode_exact; auto.
Qed.

(* ---------------------------------------------------------------- what decode returns *)
Lemma decode_some_inv src p rest : u8s src -> decode src = Ok (Some p, rest) ->
  exists raw, src = raw ++ rest /\ (1 <= length raw <= N.to_nat 1024)%nat /\
    (forall to, encode p to = Ok (to ++ raw)) /\ frame_of p raw /\
    match p with PInvalid _ _ => True | _ => valid_packet p end.
Proof.
  intros U E. pose proof (decode_inv _ _ _ U E) as H. clear E.
  inversion H as
    [ ? ? | body frame rest' HB HF | n a b t rest' Hx HL Hno | 
    | d frame rest' HF HL | d hi lo rt rest' frame HF HL HCr | d c rest' junk Hc1 Hc2 HL
    | d tail rest' junk Htl HL | |
    | | junk rest' Hne Hno Hcase | ]; subst; clear H.
  - exists frame. split; [reflexivity|]. pose proof (ascii_frame_length _ _ HF). pose proof HB as [_ ?].
    split; [lia|]. destruct (ascii_encode_spec body HB) as (f & H1 & H2).
    rewrite (ascii_frame_fun _ _ _ HB HF H2) in *. auto.
  - exists ([a; b] ++ t). split; [reflexivity|]. apply hex2_lt in Hx as [Hx _].
    cbn [app length frame_of encode]. repeat split; auto; lia.
  - exists frame. split; [reflexivity|]. pose proof (rp_frame_length _ _ HF).
    split; [lia|]. 
    assert (Ud : u8s d).
    { apply u8s_app in U as [U _]. destruct HF as (hi & lo & c & _ & _ & _ & _ & ->).
      apply u8s_app in U as [_ U]. apply u8s_app in U as [U _]. apply dle_double_u8s. exact U. }
    split; [|split; [exact HF|]].
    + intros to. cbn [encode]. rewrite rp_encode_eq. apply (rp_frame_iff d frame Ud) in HF. rewrite HF. reflexivity.
    + split; [exact Ud | lia].
  - exists frame. split; [reflexivity|]. cbn [encode frame_of]. repeat split; auto.
    unfold frame. rewrite !app_length. cbn [length]. lia.
  - exists junk. unfold junk. split; [reflexivity|]. cbn [encode frame_of]. repeat split; auto; fold junk; try lia.
    unfold junk. rewrite !app_length. cbn [length]. lia.
  - exists junk. split; [reflexivity|]. cbn [encode frame_of]. repeat split; auto; lia.
  - exists junk. split; [reflexivity|]. cbn [encode frame_of]. repeat split; auto.
    + destruct junk; [congruence | cbn; lia].
    + destruct Hcase as [(? & _)|[? _]]; lia.
Qed.

Lemma decode_none_inv src rest : u8s src -> decode src = Ok (None, rest) -> rest = src.
Proof.
  intros U E. pose proof (decode_inv _ _ _ U E) as H. clear E.
  inversion H; subst; reflexivity.
Qed.

Lemma decode_total src : u8s src -> exists o rest, decode src = Ok (o, rest).
Proof. intros U. destruct (decode_cases src U) as (o & rest & E & _). eauto. Qed.

(* ---------------------------------------------------------------- more bytes behind *)
Lemma decodes_app src p rest s : decodes src (Some p) rest -> decodes (src ++ s) (Some p) (rest ++ s).
Proof.
  intros H. inversion H as
    [ ? ? | body frame rest' HB HF | n a b t rest' Hx HL Hno | 
    | d frame rest' HF HL | d hi lo rt rest' frame HF HL HCr | d c rest' junk Hc1 Hc2 HL
    | d tail rest' junk Htl HL | |
    | | junk rest' Hne Hno Hcase | ]; subst; clear H.
  - rewrite <- app_assoc. apply D_ascii; assumption.
  - rewrite <- app_assoc. eapply D_ascii_bad; eauto.
  - rewrite <- app_assoc. apply D_rp; assumption.
  - rewrite <- app_assoc. apply D_rp_crc; assumption.
  - rewrite <- app_assoc. apply D_rp_seq; assumption.
  - rewrite <- app_assoc. apply D_rp_long; assumption.
  - rewrite <- app_assoc. apply D_garbage; auto.
    + intros i Hi. rewrite app_assoc, skipn_app_l by (rewrite app_length; lia).
      intros Hb. apply (Hno i Hi). eapply begins_packet_app_inv; [|exact Hb].
      rewrite skipn_length, app_length. destruct Hcase as [(? & ? & ?)|[? ?]]; lia.
    + rewrite app_length. destruct Hcase as [(? & ? & ?)|[? ?]]; [left | right]; repeat split; auto; try lia.
      apply begins_packet_app. assumption.
Qed.

Lemma decode_mono src p rest s : u8s src -> u8s s -> decode src = Ok (Some p, rest) ->
  decode (src ++ s) = Ok (Some p, rest ++ s).
Proof.
  intros U US E. pose proof (decode_inv _ _ _ U E) as H. pose proof (decodes_app _ _ _ s H) as H2.
  apply decode_exact; [apply u8s_app; auto | exact H2].
Qed.

(* ---------------------------------------------------------------- draining *)
Inductive drains : bytes -> list packet -> bytes -> Prop :=
| drains_nil src : decode src = Ok (None, src) -> drains src [] src
| drains_cons src p rest ps left : decode src = Ok (Some p, rest) -> drains rest ps left -> drains src (p :: ps) left.

Lemma drain_fuel_drains fuel : forall src, u8s src -> (length src < fuel)%nat ->
  exists ps left, drain_fuel fuel src = Ok (ps, left) /\ drains src ps left.
Proof.
  induction fuel as [|fuel IH]; intros src U L; [lia|]. cbn [drain_fuel].
  destruct (decode_total src U) as ([p|] & rest & E); rewrite E; cbn [bind].
  - destruct (decode_some_inv _ _ _ U E) as (raw & Es & Lr & _).
    assert (Ur : u8s rest) by (rewrite Es in U; apply u8s_app in U; tauto).
    destruct (IH rest Ur) as (ps & left & -> & D); [rewrite Es, app_length in L; lia|].
    cbn [bind fst snd]. eexists _, _. split; [reflexivity|]. econstructor; eauto.
  - pose proof (decode_none_inv _ _ U E) as ->. eexists _, _. split; [reflexivity|]. constructor. exact E.
Qed.
Lemma drains_det src ps left : drains src ps left -> forall ps' left', drains src ps' left' -> ps = ps' /\ left = left'.
Proof.
  induction 1 as [src E|src p rest ps left E D IH]; intros ps' left' D'; inversion D'; subst.
  - auto.
  - congruence.
  - congruence.
  - rewrite E in H. injection H as <- <-. destruct (IH _ _ H0) as [-> ->]. auto.
Qed.
Lemma drain_iff src ps left : u8s src -> drain src = Ok (ps, left) <-> drains src ps left.
Proof.
  intros U. destruct (drain_fuel_drains (S (length src)) src U) as (ps' & left' & E & D); [lia|].
  unfold drain. rewrite E. split.
  - intros [= <- <-]. exact D.
  - intros D'. destruct (drains_det _ _ _ D _ _ D') as [-> ->]. reflexivity.
Qed.
Lemma drain_total src : u8s src -> exists ps left, drain src = Ok (ps, left) /\ drains src ps left.
Proof. intros U. apply (drain_fuel_drains (S (length src)) src U). lia. Qed.

(* what was drained, re-encoded, is what was there *)
Lemma drains_encode src ps left : drains src ps left -> u8s src ->
  exists used, src = used ++ left /\ (forall to, encode_all ps to = Ok (to ++ used)) /\
    (length ps <= length used)%nat.
Proof.
  induction 1 as [src E|src p rest ps left E D IH]; intros U.
  - exists []. repeat split; [|cbn; lia]. intros to. cbn. rewrite app_nil_r. reflexivity.
  - destruct (decode_some_inv _ _ _ U E) as (raw & Es & Lr & He & _).
    destruct IH as (used & Er & Hu & Hl); [rewrite Es in U; apply u8s_app in U; tauto|].
    exists (raw ++ used). split; [rewrite Es, Er, app_assoc; reflexivity|]. split.
    + intros to. cbn [encode_all]. rewrite He. cbn [bind]. rewrite Hu, app_assoc. reflexivity.
    + rewrite app_length. cbn [length]. lia.
Qed.
Lemma drains_left src ps left : drains src ps left -> decode left = Ok (None, left).
Proof. induction 1; auto. Qed.
Lemma drains_u8s src ps left : drains src ps left -> u8s src -> u8s left.
Proof.
  intros D U. destruct (drains_encode _ _ _ D U) as (used & E & _). rewrite E in U. apply u8s_app in U. tauto.
Qed.

(* draining in instalments *)
Lemma drains_app src ps left : drains src ps left -> u8s src -> forall s qs left', u8s s ->
  drains (left ++ s) qs left' -> drains (src ++ s) (ps ++ qs) left'.
Proof.
  induction 1 as [src E|src p rest ps left E D IH]; intros U s qs left' Us D'; [exact D'|].
  cbn [app]. destruct (decode_some_inv _ _ _ U E) as (raw & Es & _).
  econstructor; [apply decode_mono; eauto|]. apply IH; auto.
  rewrite Es in U. apply u8s_app in U. tauto.
Qed.

(* frames decode one after the other *)
Lemma drains_frames ps fs rest qs left : Forall valid_packet ps -> Forall2 frame_of ps fs -> u8s rest ->
  drains rest qs left -> drains (concat fs ++ rest) (ps ++ qs) left.
Proof.
  intros HV HF. revert HV. induction HF as [|p f ps fs Hp HF IH]; intros HV Ur D; [exact D|].
  inversion HV as [|? ? Vp HV']; subst. cbn [concat app]. rewrite <- app_assoc.
  econstructor; [|apply IH; auto]. apply decode_of_frame; auto.
  apply u8s_app. split; [|exact Ur]. clear -HV' HF.
  induction HF as [|p f ps fs Hp HF IH]; [constructor|]. inversion HV'; subst. cbn.
  apply u8s_app. split; [apply (frame_of_valid p f); auto | auto].
Qed.

(* ---------------------------------------------------------------- strict prefixes wait *)
Lemma dle_double_prefix d : forall p q, dle_double d = p ++ q ->
  exists d1 tail, (tail = [] \/ tail = [16]) /\ p = dle_double d1 ++ tail.
Proof.
  induction d as [|b d IH]; intros p q E; cbn in E.
  - symmetry in E. apply app_eq_nil in E as [-> ->]. exists [], []. auto.
  - destruct (N.eqb_spec b 16) as [->|Hb].
    + destruct p as [|x [|y p]]; [exists [], []; auto | injection E as <- _; exists [], [16]; auto |].
      injection E as <- <- E. destruct (IH _ _ E) as (d1 & tail & Ht & ->). exists (16 :: d1), tail. auto.
    + destruct p as [|x p]; [exists [], []; auto|].
      injection E as <- E. destruct (IH _ _ E) as (d1 & tail & Ht & ->). exists (b :: d1), tail.
      split; [exact Ht|]. cbn. destruct (N.eqb_spec b 16); [congruence | reflexivity].
Qed.
Lemma app_eq_cases {A} (a b p q : list A) : a ++ b = p ++ q ->
  (exists r, a = p ++ r /\ q = r ++ b) \/ (exists r, p = a ++ r /\ b = r ++ q /\ r <> []).
Proof.
  revert p; induction a as [|x a IH]; intros p E.
  - cbn in E. destruct p as [|y p]; [left; exists []; auto|]. right. exists (y :: p). repeat split; auto; discriminate.
  - destruct p as [|y p]; [left; exists (x :: a); auto|].
    cbn in E. injection E as -> E. destruct (IH _ E) as [(r & -> & ->)|(r & -> & -> & Hr)]; [left | right]; exists r; auto.
Qed.

Lemma prefix_waits p f pre s : valid_packet p -> frame_of p f -> f = pre ++ s -> s <> [] ->
  decode pre = Ok (None, pre).
Proof.
  intros HV HF E Hs. destruct (frame_of_valid p f HV HF) as (UF & LF & _).
  assert (U : u8s pre) by (rewrite E in UF; apply u8s_app in UF; tauto).
  assert (Ls : (1 <= length s)%nat) by (destruct s; [congruence | cbn; lia]).
  apply decode_exact; [exact U|].
  destruct (Nat.ltb_spec (length pre) 2) as [L2|L2]; [apply D_short; exact L2|].
  destruct pre as [|a [|b t]]; cbn in L2; try lia.
  destruct p as [body|d|raw w]; cbn in HV, HF; [| |tauto].
  - destruct (ascii_frame_hex2 _ _ HF) as (n & a' & b' & t' & Ef & Hx & HL).
    rewrite Ef in E. injection E as -> -> E. eapply D_ascii_wait; [exact Hx|].
    rewrite E, app_length in HL. lia.
  - pose proof (rp_frame_length _ _ HF) as LD. destruct HV as [Ud HV].
    destruct HF as (hi & lo & c & _ & _ & _ & _ & Ef). rewrite Ef in E. injection E as <- <- E.
    symmetry in E. change (16 :: 2 :: t) with ([16; 2] ++ t).
    assert (LE : (length t < N.to_nat 1022)%nat)
      by (pose proof (f_equal (@length N) E) as Q; rewrite !app_length in Q; cbn [length] in Q; lia).
    symmetry in E. destruct (app_eq_cases _ _ _ _ E) as [(r & Ed & _)|(r & -> & Er & Hr)].
    + destruct (dle_double_prefix _ _ _ Ed) as (d1 & tail & Ht & ->). apply D_rp_wait; [exact Ht|].
      rewrite app_length. cbn [length]. lia.
    + destruct r as [|r1 [|r2 r]]; [congruence | |].
      * injection Er as <- _. apply D_rp_wait; [auto|]. rewrite app_length. cbn [length]. lia.
      * injection Er as <- <- Er. apply (D_rp_wait_crc PAscii PRp invalid_of d r).
        -- apply (f_equal (@length N)) in Er. rewrite app_length in Er. cbn in Er. lia.
        -- rewrite app_length. cbn [length]. rewrite app_length in LE. cbn [length app] in LE |- *. rewrite app_length. cbn [length]. lia.
Qed.

(* ---------------------------------------------------------------- when decode waits *)
Lemma decode_waits_exactly src : u8s src -> (N.to_nat 1025 < length src)%nat ->
  (decode src = Ok (None, src) <->
   exists d tail, src = [16; 2] ++ dle_double d ++ [16; 3] ++ tail /\
     (length (dle_double d) = N.to_nat 1019 \/ length (dle_double d) = N.to_nat 1020)).
Proof.
  intros U L. split.
  - intros E. apply (decode_inv _ _ _ U) in E.
    inversion E as
    [ ? HS | | | n a b t Hx HL | | | | | d tail src' Htl HL | d tail src' Htl HL
    | d tail head src' HL HL2 | | ? HL Hno ]; subst.
    + lia.
    + apply hex2_lt in Hx as [Hx _]. rewrite app_length in L. cbn in L. lia.
    + unfold src' in *. lia.
    + unfold src' in *. lia.
    + exists d, tail. unfold src', head in *. split; [rewrite <- !app_assoc; reflexivity|].
      rewrite !app_length in HL2. cbn [length] in HL2. lia.
    + lia.
  - intros (d & tail & Es & Ld). apply decode_exact; [exact U|].
    assert (X : decodes (([16; 2] ++ dle_double d ++ [16; 3]) ++ tail) None (([16; 2] ++ dle_double d ++ [16; 3]) ++ tail)).
    + apply D_rp_stall.
      * replace (([16; 2] ++ dle_double d ++ [16; 3]) ++ tail) with src by (rewrite Es, <- !app_assoc; reflexivity). lia.
      * rewrite !app_length. cbn [length]. lia.
    + rewrite <- !app_assoc in X. rewrite Es. exact X.
Qed.
Lemma decode_gets_unless_stalled src : u8s src -> (N.to_nat 1025 < length src)%nat ->
  (forall d tail, src = [16; 2] ++ dle_double d ++ [16; 3] ++ tail ->
     length (dle_double d) <> N.to_nat 1019 /\ length (dle_double d) <> N.to_nat 1020) ->
  exists p rest, decode src = Ok (Some p, rest).
Proof.
  intros U L H. destruct (decode_total src U) as ([p|] & rest & E); [eauto|]. exfalso.
  pose proof (decode_none_inv _ _ U E) as ->.
  apply (decode_waits_exactly src U L) in E as (d & tail & Es & Hd). destruct (H d tail Es). tauto.
Qed.
(* once stalled, whatever arrives later *)
Lemma decode_stalled_forever src s : u8s src -> u8s s -> (N.to_nat 1025 < length src)%nat ->
  decode src = Ok (None, src) -> decode (src ++ s) = Ok (None, src ++ s).
Proof.
  intros U Us L E. apply (decode_waits_exactly src U L) in E as (d & tail & Es & Hd).
  apply decode_waits_exactly; [apply u8s_app; auto | rewrite app_length; lia |].
  exists d, (tail ++ s). rewrite Es, <- !app_assoc. auto.
Qed.

(* ---------------------------------------------------------------- one corrupted byte *)
Lemma frame_cr body g : ascii_frame body g -> exists h, g = h ++ [13; 10] /\ length h = (length g - 2)%nat /\ (2 <= length h)%nat.
Proof.
  intros (nn & cc & c & H1 & H2 & _ & ->). exists (nn ++ body ++ cc).
  apply hex2_lt in H1 as [_ H1], H2 as [_ H2].
  split; [rewrite <- !app_assoc; reflexivity|]. rewrite !app_length, H1. cbn [length]. lia.
Qed.
Lemma frame_inner body g k c : ascii_body body -> ascii_frame body g -> (k + 2 < length g)%nat ->
  nth_error g k = Some c -> 32 <= c.
Proof.
  intros [HP _] (nn & cc & x & H1 & H2 & _ & ->) L Hk.
  assert (E : nn ++ body ++ cc ++ [13; 10] = (nn ++ body ++ cc) ++ [13; 10]) by (rewrite <- !app_assoc; reflexivity).
  rewrite E in L, Hk. rewrite app_length in L. cbn [length] in L.
  rewrite nth_error_app1 in Hk by lia. apply nth_error_In in Hk.
  assert (F : Forall (fun c => 32 <= c) (nn ++ body ++ cc)).
  { rewrite !Forall_app. apply hex2_range in H1, H2. repeat split.
    - eapply Forall_impl; [|exact H1]. cbn. intros. lia.
    - eapply Forall_impl; [|exact HP]. unfold printable. intros. lia.
    - eapply Forall_impl; [|exact H2]. cbn. intros. lia. }
  rewrite Forall_forall in F. apply F. exact Hk.
Qed.
Lemma frame_cr_at body g : ascii_frame body g -> nth_error g (length g - 2) = Some 13.
Proof.
  intros H. destruct (frame_cr _ _ H) as (h & -> & L & _). rewrite app_length in L. cbn [length] in L.
  apply nth_error_at. rewrite app_length. cbn [length]. lia.
Qed.

Lemma one_diff_split (x : bytes) a v y P Q P' Q' :
  x ++ a :: y = P ++ Q -> x ++ v :: y = P' ++ Q' -> length P = length P' ->
  (P = P' /\ exists x', Q = x' ++ a :: y /\ Q' = x' ++ v :: y) \/
  (Q = Q' /\ exists y', P = x ++ a :: y' /\ P' = x ++ v :: y').
Proof.
  intros E E' L. destruct (app_eq_cases _ _ _ _ E) as [(r & -> & ->)|(r & -> & Er & Hr)].
  - left. rewrite <- app_assoc in E'. apply app_inj_len in E' as [<- <-]; [|exact L]. split; [reflexivity|]. eauto.
  - right. destruct r as [|r0 r]; [congruence|]. injection Er as <- Er.
    rewrite Er in E'. replace (x ++ v :: r ++ Q) with ((x ++ v :: r) ++ Q) in E' by (rewrite <- app_assoc; reflexivity).
    apply app_inj_len in E' as [<- <-]; [|rewrite !app_length in *; cbn [length] in *; lia].
    split; [reflexivity|]. eauto.
Qed.

Lemma ascii_corrupt body f x a v y s : ascii_body body -> ascii_frame body f ->
  f = x ++ a :: y -> v <> a -> v < 256 -> u8s s ->
  forall p rest, decode ((x ++ v :: y) ++ s) = Ok (Some p, rest) -> exists raw w, p = PInvalid raw w.
Proof.
  intros HB HF Ef Hv Hv8 Us p rest E.
  destruct (frame_of_valid (PAscii body) f HB HF) as (UF & _ & _).
  assert (Uf' : u8s (x ++ v :: y)).
  { rewrite Ef in UF. apply u8s_app in UF as [U1 U2]. apply u8s_app. split; [exact U1|].
    inversion U2; subst. constructor; assumption. }
  assert (U : u8s ((x ++ v :: y) ++ s)) by (apply u8s_app; auto).
  destruct (decode_some_inv _ _ _ U E) as (g & Eg & Lg & _ & HG & HV).
  destruct p as [b'|d'|raw w]; [exfalso|exfalso|eauto].
  - (* ASCII *)
    cbn in HG, HV.
    destruct (ascii_frame_hex2 _ _ HF) as (n & a1 & b1 & t & Ef2 & Hx & HL).
    destruct (ascii_frame_hex2 _ _ HG) as (n' & a2 & b2 & t' & Eg2 & Hx' & HL').
    assert (LFf : length f = (N.to_nat n + 4)%nat) by (rewrite Ef2; cbn [app length]; lia).
    assert (LGg : length g = (N.to_nat n' + 4)%nat) by (rewrite Eg2; cbn [app length]; lia).
    assert (LF' : length (x ++ v :: y) = length f) by (rewrite Ef, !app_length; reflexivity).
    assert (Same : forall k, k <> length x -> nth_error (x ++ v :: y) k = nth_error f k).
    { intros k Hk. rewrite Ef. destruct (Nat.lt_ge_cases k (length x)).
      - rewrite !nth_error_app1 by assumption. reflexivity.
      - rewrite !nth_error_app2 by assumption. destruct (k - length x)%nat eqn:D; [lia | reflexivity]. }
    destruct (Nat.lt_trichotomy (N.to_nat n') (N.to_nat n)) as [Lt|[Eq|Gt]].
    + (* announced shorter: CR would be inside *)
      assert (Hx2 : (length x < 2)%nat).
      { destruct (Nat.lt_ge_cases (length x) 2) as [|Ge]; [assumption|]. exfalso.
        destruct x as [|x0 [|x1 x]]; cbn in Ge; try lia.
        rewrite Eg2 in Eg. cbn in Eg. injection Eg as Eg0 Eg1 _. rewrite Ef2 in Ef. injection Ef as Ef0 Ef1 _.
        subst. rewrite (hex2_inj _ _ _ Hx Hx') in *. lia. }
      pose proof (frame_cr_at _ _ HG) as C.
      assert (C2 : nth_error ((x ++ v :: y) ++ s) (length g - 2) = Some 13)
        by (rewrite Eg, nth_error_app1 by lia; exact C).
      rewrite nth_error_app1 in C2 by lia. rewrite Same in C2 by lia.
      assert (Q : 32 <= 13) by (eapply (frame_inner body f); eauto; lia). lia.
    + (* same length *)
      assert (Eg3 : g = x ++ v :: y) by (symmetry in Eg; apply app_inj_len in Eg as [Eg _]; [exact Eg | lia]).
      clear Eg Eg2 Same E. subst g.
      destruct HF as (nn & cc & c & H1 & H2 & H3 & EF). destruct HG as (nn' & cc' & c' & H1' & H2' & H3' & EG).
      pose proof (hex2_lt _ _ H1) as [_ L1]. pose proof (hex2_lt _ _ H1') as [_ L1'].
      pose proof (hex2_lt _ _ H2) as [L2 L2b]. pose proof (hex2_lt _ _ H2') as [L2' L2b'].
      assert (Lbody : length body = length b').
      { rewrite EG in LF'. rewrite EF in LF'. rewrite !app_length in LF'. cbn [length] in LF'. lia. }
      rewrite <- Lbody in H1'. pose proof (hex2_fun _ _ _ H1 H1') as <-.
      rewrite Ef in EF.
      destruct (one_diff_split _ _ _ _ _ _ _ _ EF EG eq_refl) as [(_ & x1 & E1 & E1')|(E1 & y' & E2 & E2')].
      2:{ rewrite E2 in E2'. apply app_inv_head in E2'. injection E2' as ->. congruence. }
      symmetry in E1, E1'.
      destruct (one_diff_split _ _ _ _ _ _ _ _ E1 E1' Lbody) as [(Eb & x2 & E3 & E3')|(Ecc & y' & E2 & E2')].
      * subst b'.
        assert (Ub : u8s (nn ++ body)) by (apply u8s_app; split; [eapply hexrange_u8, hex2_range; eauto | apply printable_u8, HB]).
        assert (c = c') as <- by (rewrite (checksum_unique _ c Ub L2 H3), (checksum_unique _ c' Ub L2' H3'); reflexivity).
        rewrite (hex2_fun _ _ _ H2' H2) in E3'. rewrite E3 in E3'. apply app_inv_head in E3'. injection E3' as ->. congruence.
      * apply app_inj_len in Ecc as [<- _]; [|lia].
        rewrite (hex2_inj _ _ _ H2' H2) in *. rewrite E2 in H3. rewrite E2' in H3'.
        rewrite !byte_sum_app in H3, H3'. cbn [byte_sum] in H3, H3'.
        assert (Ha : a < 256) by (rewrite Ef in UF; apply u8s_app in UF as [_ UF]; inversion UF; assumption).
        lia.
    + (* announced longer: the old CR is inside the new body *)
      assert (Hx2 : (length x < 2)%nat).
      { destruct (Nat.lt_ge_cases (length x) 2) as [|Ge]; [assumption|]. exfalso.
        destruct x as [|x0 [|x1 x]]; cbn in Ge; try lia.
        rewrite Eg2 in Eg. cbn in Eg. injection Eg as Eg0 Eg1 _. rewrite Ef2 in Ef. injection Ef as Ef0 Ef1 _.
        subst. rewrite (hex2_inj _ _ _ Hx Hx') in *. lia. }
      pose proof (frame_cr_at _ _ HF) as C.
      rewrite <- Same in C by lia.
      assert (C2 : nth_error g (length f - 2) = Some 13).
      { rewrite <- (nth_error_app1 g rest) by lia. rewrite <- Eg. rewrite nth_error_app1 by lia. exact C. }
      assert (Q : 32 <= 13) by (eapply (frame_inner b' g); eauto; lia). lia.
  - (* RP: would need two changed bytes *)
    cbn in HG. destruct HG as (hi & lo & c & _ & _ & _ & _ & EG). rewrite EG in Eg.
    destruct (ascii_frame_hex2 _ _ HF) as (n & a1 & b1 & t & Ef2 & Hx & HL).
    apply hex2_range in Hx. inversion Hx as [|? ? Ha1 Hx']; subst. inversion Hx' as [|? ? Hb1 _]; subst.
    destruct x as [|x0 x]; cbn in Ef2, Eg.
    + injection Ef2 as -> ->. injection Eg as _ Eg _. lia.
    + injection Ef2 as -> _. injection Eg as Eg _. lia.
Qed.

(* RP: one changed body byte (neither value a DLE), or any change of the CRC bytes *)
Lemma dle_double_at d : forall P a Q, dle_double d = P ++ a :: Q -> a <> 16 ->
  exists x y, d = x ++ a :: y /\ P = dle_double x /\ Q = dle_double y.
Proof.
  induction d as [|b d IH]; intros P a Q E Ha; cbn in E; [destruct P; discriminate|].
  destruct (N.eqb_spec b 16) as [->|Hb].
  - destruct P as [|p0 [|p1 P]]; cbn in E.
    + injection E as <- _. congruence.
    + injection E as _ <- _. congruence.
    + injection E as <- <- E. destruct (IH _ _ _ E Ha) as (x & y & -> & -> & ->). exists (16 :: x), y. auto.
  - destruct P as [|p0 P]; cbn in E.
    + injection E as <- <-. exists [], d. auto.
    + injection E as <- E. destruct (IH _ _ _ E Ha) as (x & y & -> & -> & ->). exists (b :: x), y.
      repeat split; auto. cbn. destruct (N.eqb_spec b 16); [congruence | reflexivity].
Qed.
Lemma dle_double_mid x v y : v <> 16 -> dle_double (x ++ v :: y) = dle_double x ++ v :: dle_double y.
Proof. intros H. rewrite dle_double_app. cbn. destruct (N.eqb_spec v 16); [congruence | reflexivity]. Qed.

Lemma rp_bad_crc d hi lo s : u8s d -> (length (dle_double d) + 6 <= N.to_nat 1024)%nat ->
  hi < 256 -> lo < 256 -> hi * 256 + lo <> crc d -> u8s s ->
  let frame := [16; 2] ++ dle_double d ++ [16; 3] ++ [hi; lo] in
  exists w, decode (frame ++ s) = Ok (Some (PInvalid frame w), s).
Proof.
  intros Ud L Hh Hl Hc Us frame. eexists. apply decode_exact.
  - unfold frame. pose proof (proj2 (dle_double_u8s d) Ud).
    assert (u8s [16; 2] /\ u8s [16; 3] /\ u8s [hi; lo]) as (? & ? & ?) by (repeat split; repeat constructor; lia).
    repeat (apply u8s_app; split); assumption.
  - apply (D_rp_crc PAscii PRp invalid_of d hi lo (crc d) s).
    + intros F. apply (rp_frame_iff d _ Ud) in F.
      apply app_inj_len in F as [_ F]; [|reflexivity]. apply app_inj_len in F as [_ F]; [|reflexivity].
      injection F as -> ->. pose proof (crc_lt d Ud). lia.
    + rewrite !app_length. cbn [length]. lia.
    + apply (crc_correct d _ Ud). reflexivity.
Qed.

Lemma rp_corrupt_body d f P a v Q hi lo s : rp_body d -> rp_frame d f ->
  f = [16; 2] ++ P ++ a :: Q ++ [16; 3] ++ [hi; lo] -> a <> 16 -> v <> 16 -> v <> a -> v < 256 -> u8s s ->
  let f' := [16; 2] ++ P ++ v :: Q ++ [16; 3] ++ [hi; lo] in
  exists w, decode (f' ++ s) = Ok (Some (PInvalid f' w), s).
Proof.
  intros [Ud L] HF Ef Ha Hv Hva Hv8 Us f'.
  pose proof HF as (hi0 & lo0 & c & Hc & Ec & Hh & Hl & Ef2).
  rewrite Ef in Ef2. apply app_inv_head in Ef2.
  replace (P ++ a :: Q ++ [16; 3] ++ [hi; lo]) with ((P ++ a :: Q) ++ [16; 3] ++ [hi; lo]) in Ef2 by (rewrite <- app_assoc; reflexivity).
  apply app_inj_len in Ef2 as [E2 E3].
  2:{ apply (f_equal (@length N)) in Ef2. rewrite !app_length in Ef2. cbn [length] in Ef2. rewrite app_length. cbn [length]. lia. }
  apply app_inv_head in E3. injection E3 as -> ->. symmetry in E2.
  destruct (dle_double_at _ _ _ _ E2 Ha) as (x & y & -> & -> & ->).
  apply (crc_correct _ c Ud) in Hc. subst c.
  apply u8s_app in Ud as [Ux Uy]. inversion Uy as [|? ? Ha8 Uy']; subst.
  assert (Ef' : f' = [16; 2] ++ dle_double (x ++ v :: y) ++ [16; 3] ++ [hi0; lo0])
    by (unfold f'; rewrite dle_double_mid by exact Hv; rewrite <- !app_assoc; reflexivity).
  rewrite Ef'. apply rp_bad_crc; auto.
  - apply u8s_app. split; [exact Ux | constructor; assumption].
  - rewrite dle_double_mid by exact Hv. rewrite dle_double_mid in L by exact Ha. rewrite app_length in *. cbn [length] in *. lia.
  - rewrite <- Ec. apply crc_one_byte; auto.
Qed.

Lemma rp_corrupt_crc d f P hi lo hi' lo' s : rp_body d -> rp_frame d f ->
  f = P ++ [hi; lo] -> (hi', lo') <> (hi, lo) -> hi' < 256 -> lo' < 256 -> u8s s ->
  exists w, decode ((P ++ [hi'; lo']) ++ s) = Ok (Some (PInvalid (P ++ [hi'; lo']) w), s).
Proof.
  intros [Ud L] HF Ef Hne Hh' Hl' Us.
  pose proof HF as (hi0 & lo0 & c & Hc & Ec & Hh & Hl & Ef2).
  apply (crc_correct _ c Ud) in Hc. subst c.
  rewrite Ef in Ef2. replace ([16; 2] ++ dle_double d ++ [16; 3] ++ [hi0; lo0]) with (([16; 2] ++ dle_double d ++ [16; 3]) ++ [hi0; lo0]) in Ef2 by (rewrite <- !app_assoc; reflexivity).
  apply app_inj_len in Ef2 as [-> E2].
  2:{ apply (f_equal (@length N)) in Ef2. rewrite !app_length in Ef2. cbn [length] in Ef2. rewrite !app_length. cbn [length]. lia. }
  injection E2 as -> ->.
  rewrite <- !app_assoc. cbn [app].
  change (16 :: 2 :: dle_double d ++ 16 :: 3 :: [hi'; lo']) with ([16; 2] ++ dle_double d ++ [16; 3] ++ [hi'; lo']).
  change (16 :: 2 :: dle_double d ++ 16 :: 3 :: hi' :: lo' :: s) with ([16; 2] ++ dle_double d ++ [16; 3] ++ [hi'; lo'] ++ s).
  destruct (rp_bad_crc d hi' lo' s) as [w H]; auto.
  - rewrite Ec. intros X. apply Hne. assert (hi' = hi0 /\ lo' = lo0) as [-> ->] by lia. reflexivity.
  - exists w. rewrite <- !app_assoc in H. exact H.
Qed.

(* ---------------------------------------------------------------- resynchronisation *)
Definition inv_pieces (pieces : list bytes) (ps : list packet) : Prop :=
  Forall2 (fun raw p => exists w, p = PInvalid raw w) pieces ps.

Lemma resync_general p f s : valid_packet p -> frame_of p f -> u8s s -> forall n g, (length g <= n)%nat -> u8s g ->
  (forall i, (i < length g)%nat -> ~ begins_packet (skipn i (g ++ f ++ s))) ->
  forall qs left, drains s qs left ->
  exists pieces ips, concat pieces = g /\ Forall (fun x => (1 <= length x <= N.to_nat 1024)%nat) pieces /\
    inv_pieces pieces ips /\ drains (g ++ f ++ s) (ips ++ p :: qs) left.
Proof.
  intros HV HF Us. destruct (frame_of_valid p f HV HF) as (UF & LF & _).
  assert (BF : begins_packet (f ++ s)).
  { apply begins_packet_app. destruct p as [body|d|raw w]; [| |destruct HV].
    - destruct (ascii_frame_hex2 _ _ HF) as (n & a & b & t & -> & Hx & _). eapply hex2_begins; eauto.
    - destruct HF as (hi & lo & c & _ & _ & _ & _ & ->). left. eauto. }
  induction n as [|n IH]; intros g Ln Ug Hno qs left D.
  - destruct g; [|cbn in Ln; lia]. exists [], []. repeat split; try constructor. cbn [app].
    econstructor; [apply decode_of_frame; auto | exact D].
  - destruct g as [|g0 g'] eqn:Eg.
    { exists [], []. repeat split; try constructor. cbn [app]. econstructor; [apply decode_of_frame; auto | exact D]. }
    rewrite <- Eg in *. assert (Hg : g <> []) by (rewrite Eg; discriminate).
    assert (U : u8s (g ++ f ++ s)) by (rewrite !u8s_app; auto).
    destruct (Nat.ltb_spec (length g) (N.to_nat 1024)) as [Lt|Ge].
    + exists [g], [invalid_of NoPrefix g]. repeat split.
      * cbn. apply app_nil_r.
      * constructor; [|constructor]. rewrite Eg. cbn [length]. rewrite Eg in Lt. cbn [length] in Lt. lia.
      * constructor; [eexists; reflexivity | constructor].
      * cbn [app]. econstructor; [apply decode_exact; [exact U|]|].
        -- apply D_garbage; [exact Hg | exact Hno |]. left. repeat split; [exact Lt | exact BF | rewrite app_length; lia].
        -- econstructor; [apply decode_of_frame; auto | exact D].
    + set (g1 := firstn (N.to_nat 1024) g). set (g2 := skipn (N.to_nat 1024) g).
      assert (E12 : g = g1 ++ g2) by (symmetry; apply firstn_skipn).
      assert (L1 : length g1 = N.to_nat 1024) by (unfold g1; rewrite firstn_length; lia).
      assert (U12 : u8s g1 /\ u8s g2) by (rewrite E12 in Ug; apply u8s_app in Ug; tauto).
      destruct (IH g2) with (qs := qs) (left := left) as (pieces & ips & H1 & H2 & H3 & H4).
      * rewrite E12, app_length in Ln. lia.
      * apply U12.
      * intros i Hi. specialize (Hno (length g1 + i)%nat). rewrite E12 in Hno at 2. rewrite <- app_assoc in Hno.
        rewrite skipn_app in Hno. rewrite (skipn_all2 g1) in Hno by lia.
        replace (length g1 + i - length g1)%nat with i in Hno by lia. apply Hno. rewrite E12, app_length. lia.
      * exact D.
      * exists (g1 :: pieces), (invalid_of NoPrefix g1 :: ips). repeat split.
        -- cbn. rewrite H1. symmetry. exact E12.
        -- constructor; [lia | exact H2].
        -- constructor; [eexists; reflexivity | exact H3].
        -- cbn [app]. econstructor; [|exact H4]. apply decode_exact; [exact U|].
           rewrite E12, <- app_assoc. apply D_garbage.
           ++ intros Z. rewrite Z in L1. cbn in L1. lia.
           ++ intros i Hi. rewrite app_assoc, <- E12. apply Hno. rewrite E12, app_length. lia.
           ++ right. split; [exact L1|]. rewrite !app_length. lia.
Qed.

Definition junk_byte (b : N) : Prop := b < 256 /\ ~ is_hex_digit b /\ b <> 16.
Lemma junk_no_begin g r i : Forall junk_byte g -> (i < length g)%nat -> ~ begins_packet (skipn i (g ++ r)).
Proof.
  intros HJ Hi. rewrite skipn_app_l by lia.
  destruct (skipn i g) as [|x t] eqn:Sk.
  - apply (f_equal (@length N)) in Sk. rewrite skipn_length in Sk. cbn in Sk. lia.
  - assert (Hx : junk_byte x).
    { rewrite Forall_forall in HJ. apply HJ. rewrite <- (firstn_skipn i g), Sk. apply in_or_app. right. left. reflexivity. }
    destruct Hx as (_ & Hx & H16). cbn. intros [[u E]|(a & b & u & E & Ha & Hb)].
    + injection E as -> _. congruence.
    + injection E as -> _. tauto.
Qed.
