(* PropResync.v: C136, what brings the decoder back in step, whatever came before (pkt.rs). *)
From Verif Require Import Base BaseFacts Pkt SpecPkt PktFacts DecodeFacts Tokio SpecConn ConnFacts PropPkt PropConn SpecResync.
From Coq Require Import ZifyBool ZifyNat ZifyN.
Ltac Zify.zify_post_hook ::= Z.div_mod_to_equations.

(* what follows the filler: the frame of a packet *)
Definition begins (F : bytes) : Prop := u8s F /\ (2 < length F)%nat /\ begins_packet F.
Lemma frame_begins p f s : valid_packet p -> frame_of p f -> u8s s -> begins (f ++ s).
Proof.
  intros HV HF Us. destruct (frame_of_valid p f HV HF) as (UF & LF & _). split; [apply u8s_app; auto|]. split; [rewrite app_length; lia|].
  apply begins_packet_app. destruct p as [body|d|raw w]; [| |destruct HV].
  - destruct (ascii_frame_hex2 _ _ HF) as (n & a & b & t & -> & Hx & _). eapply hex2_begins; eauto.
  - destruct HF as (hi & lo & c & _ & _ & _ & _ & ->). left. eauto.
Qed.
Lemma skipn_len_app {A} (l r : list A) : skipn (length l) (l ++ r) = r.
Proof. rewrite skipn_app, skipn_all, Nat.sub_diag. reflexivity. Qed.
Lemma app_split {A} (x y u v : list A) : x ++ y = u ++ v -> (length u <= length x)%nat -> exists w, x = u ++ w /\ v = w ++ y.
Proof.
  revert x. induction u as [|h u IH]; intros x E L; [exists x; split; [reflexivity | symmetry; exact E]|]. destruct x as [|h' x]; [cbn in L; lia|]. cbn [app] in E. injection E as -> E. destruct (IH x E ltac:(cbn in L; lia)) as (w & -> & ->). exists w. split; reflexivity.
Qed.
(* the filler is long enough for whatever b may begin *)
Definition enough (b g : bytes) : Prop := (~ In 16 b /\ (257 <= length g)%nat) \/ (~ has_stuck (b ++ g) /\ (N.to_nat 1023 <= length g)%nat).
Lemma fits b g F : b <> [] -> u8s b -> filler g -> begins F -> enough b g ->
  exists q raw rest, decode (b ++ g ++ F) = Ok (Some q, rest ++ F) /\ b ++ g = raw ++ rest /\ raw <> [].
Proof.
  intros NB Ub HG (UF & LF & BF) EN.
  assert (Ug : u8s g) by (eapply Forall_impl; [|exact HG]; cbn; tauto).
  assert (U : u8s (b ++ g ++ F)) by (rewrite !u8s_app; auto).
  assert (LG : (257 <= length g)%nat) by (destruct EN as [[_ X]|[_ X]]; lia).
  assert (X : exists q rest, decode (b ++ g ++ F) = Ok (Some q, rest) /\ (length F <= length rest)%nat).
  { destruct (decode_total _ U) as (o & rest & E). pose proof (decode_inv _ _ _ U E) as D.
    assert (RP : forall t, b ++ g ++ F = [16; 2] ++ t -> ~ has_stuck (b ++ g) /\ (N.to_nat 1023 <= length g)%nat).
    { intros t Et. destruct EN as [[N _]|EN]; [|exact EN]. destruct b as [|b1 b]; [congruence|]. cbn [app] in Et. injection Et as -> _. elim N. left. reflexivity. }
    assert (HX : forall n x y t, b ++ g ++ F = [x; y] ++ t -> hex2 n [x; y] -> (2 <= length b)%nat).
    { intros n x y t Et Hx. destruct b as [|b1 [|b2 b]]; [congruence| |cbn; lia]. destruct g as [|g1 g]; [cbn in LG; lia|]. cbn [app] in Et. injection Et as _ -> _. inversion HG as [|? ? (_ & Y & _) _]; subst. elim Y.
      destruct Hx as (k & j & n1 & n2 & _ & H2 & _ & [= -> ->]). exists j. exact H2. }
    assert (L1 : (1 <= length b)%nat) by (destruct b; [congruence | cbn; lia]).
    assert (LS : length (b ++ g ++ F) = (length b + (length g + length F))%nat) by (rewrite !app_length; reflexivity).
    assert (BG : begins_packet (skipn (length (b ++ g)) (b ++ g ++ F))) by (rewrite app_assoc, skipn_len_app; exact BF).
    remember (b ++ g ++ F) as src eqn:ES.
    assert (Y : exists q, o = Some q /\ (length F <= length rest)%nat); [|destruct Y as (q & -> & Y); exists q, rest; split; [exact E | exact Y]]. clear E.
    inversion D as [s0 HS E1 E2 E3 | body frame r HB HF E1 E2 E3 | n x y t r Hx HL _ E1 E2 E3 | n x y t Hx HL E1 E2 E3
      | d frame r HF HL E1 E2 E3 | d hi lo right r frame _ HL _ E1 E2 E3 | d c r junk _ _ HL E1 E2 E3 | d tail r junk HT HL E1 E2 E3 | d tail s0 HT HL E1 E2 E3 | d tail s0 HT HL E1 E2 E3 | d tail head s0 HL HL2 E1 E2 E3 | junk r NJ HN HL E1 E2 E3 | s0 HL HN E1 E2 E3];
      try (eexists; split; [reflexivity|]).
    - subst; lia.
    - destruct (ascii_frame_hex2 _ _ HF) as (n & x & y & t & EF & Hx & LT).
      assert (2 <= length b)%nat by (apply (HX n x y (t ++ r)); [rewrite <- E1, EF; reflexivity | exact Hx]).
      apply hex2_lt in Hx as [Hx _]. rewrite <- E1, EF in LS. rewrite !app_length in LS. cbn [length] in LS. rewrite <- E3. lia.
    - assert (2 <= length b)%nat by (apply (HX n x y (t ++ r)); [rewrite <- E1; reflexivity | exact Hx]).
      apply hex2_lt in Hx as [Hx _]. rewrite <- E1 in LS. rewrite !app_length in LS. cbn [length] in LS. rewrite <- E3. lia.
    - assert (2 <= length b)%nat by (apply (HX n x y t); [rewrite <- E1; reflexivity | exact Hx]).
      apply hex2_lt in Hx as [Hx _]. rewrite <- E1 in LS. rewrite !app_length in LS. cbn [length] in LS. lia.
    - destruct HF as (hi & lo & c & _ & _ & _ & _ & EF). destruct (RP (dle_double d ++ [16; 3] ++ [hi; lo] ++ r)) as [_ R]; [rewrite <- E1, EF, <- !app_assoc; reflexivity|].
      try rewrite <- E1 in LS. rewrite app_length in LS. pose proof (f_equal (@length N) E3) as LE. cbn [length] in *. lia.
    - destruct (RP (dle_double d ++ [16; 3] ++ [hi; lo] ++ r)) as [_ R]; [rewrite <- E1; unfold frame; rewrite <- !app_assoc; reflexivity|].
      try rewrite <- E1 in LS. rewrite app_length in LS. pose proof (f_equal (@length N) E3) as LE. cbn [length] in *. lia.
    - destruct (RP (dle_double d ++ [16] ++ c :: r)) as [_ R]; [rewrite <- E1; unfold junk; rewrite <- !app_assoc; reflexivity|].
      try rewrite <- E1 in LS. rewrite app_length in LS. pose proof (f_equal (@length N) E3) as LE. cbn [length] in *. lia.
    - destruct (RP (dle_double d ++ tail ++ r)) as [_ R]; [rewrite <- E1; unfold junk; rewrite <- !app_assoc; reflexivity|].
      try rewrite <- E1 in LS. rewrite app_length in LS. pose proof (f_equal (@length N) E3) as LE. cbn [length] in *. lia.
    - destruct (RP (dle_double d ++ tail)) as [_ R]; [rewrite <- E1; reflexivity|]. rewrite E1 in HL. lia.
    - destruct (RP (dle_double d ++ [16; 3] ++ tail)) as [_ R]; [rewrite <- E1; reflexivity|]. rewrite E1 in HL. lia.
    - exfalso. destruct (RP (dle_double d ++ [16; 3] ++ tail)) as [S R]; [rewrite <- E1; unfold s0, head; rewrite <- !app_assoc; reflexivity|]. apply S.
      assert (Es : (b ++ g) ++ F = head ++ tail) by (rewrite <- app_assoc, <- ES, <- E1; reflexivity).
      destruct (app_split _ _ _ _ Es) as (w & EW & _); [rewrite app_length; lia|]. exists [], (b ++ g). split; [reflexivity|]. exists d, w. split; [rewrite EW; unfold head; rewrite <- !app_assoc; reflexivity|].
      unfold head in HL2. rewrite !app_length in HL2. cbn [length] in HL2. lia.
    - try rewrite <- E1 in LS. pose proof (f_equal (@length N) E3) as LE. rewrite app_length in LS. destruct (Nat.leb_spec (length junk) (length (b ++ g))) as [LJ|LJ]; [rewrite app_length in LJ; lia|].
      exfalso. apply (HN _ LJ). rewrite <- E3, E1. exact BG.
    - exfalso. apply (HN (length (b ++ g))); [|rewrite <- E3; exact BG]. right. rewrite <- E3, LS, app_length. lia. }
  destruct X as (q & rest & E & LR). destruct (decode_some_inv _ _ _ U E) as (raw & Es & Lr & _). rewrite app_assoc in Es. assert (LL := f_equal (@length N) Es). rewrite !app_length in LL.
  destruct (app_split _ _ _ _ Es) as (w & EW & ->); [rewrite app_length; lia|]. exists q, raw, w. split; [exact E|]. split; [exact EW|]. intros ->. cbn in Lr. lia.
Qed.
Lemma in_step p f s : valid_packet p -> frame_of p f -> u8s s -> forall n b g, (length b <= n)%nat -> u8s b -> filler g -> enough b g -> forall qs left, drains s qs left ->
  exists ps, drains (b ++ g ++ f ++ s) (ps ++ p :: qs) left.
Proof.
  intros HV HF Us. pose proof (frame_begins _ _ _ HV HF Us) as BF.
  assert (NIL : forall g, filler g -> forall qs left, drains s qs left -> exists ps, drains (g ++ f ++ s) (ps ++ p :: qs) left).
  { intros g HG qs left D. assert (Ug : u8s g) by (eapply Forall_impl; [|exact HG]; cbn; tauto).
    destruct (resync_general p f s HV HF Us (length g) g (le_n _) Ug (fun i Hi => junk_no_begin g _ i HG Hi) qs left D) as (_ & ips & _ & _ & _ & R). exists ips. exact R. }
  induction n as [|n IH]; intros b g L Ub HG EN qs left D.
  - destruct b; [|cbn in L; lia]. exact (NIL g HG qs left D).
  - destruct b as [|b0 b1]; [exact (NIL g HG qs left D)|]. set (b := b0 :: b1) in *.
    destruct (fits b g (f ++ s) ltac:(discriminate) Ub HG BF EN) as (q & raw & rest & E & ER & NR).
    destruct (Nat.leb_spec (length raw) (length b)) as [LB|LB].
    + destruct (app_split _ _ _ _ ER LB) as (b' & EB & ->).
      assert (U' : u8s b') by (rewrite EB in Ub; apply u8s_app in Ub; tauto).
      destruct (IH b' g) with (qs := qs) (left := left) as (ps & R); [|exact U' | exact HG | |exact D|].
      * apply (f_equal (@length N)) in EB. rewrite app_length in EB. destruct raw; [congruence|]. cbn [length] in EB. lia.
      * destruct EN as [[X1 X2]|[X1 X2]]; [left | right]; (split; [|exact X2]).
        -- intros X. apply X1. rewrite EB. apply in_or_app. right. exact X.
        -- intros (x & y & E1 & E2). apply X1. exists (raw ++ x), y. split; [rewrite EB, <- !app_assoc, E1; reflexivity | exact E2].
      * exists (q :: ps). rewrite <- app_assoc in E. exact (drains_cons _ _ _ _ _ E R).
    + symmetry in ER. destruct (app_split _ _ _ _ ER) as (w & _ & EG); [lia|].
      assert (HR : filler rest) by (rewrite EG in HG; apply Forall_app in HG; tauto).
      destruct (NIL rest HR qs left D) as (ps & R). exists (q :: ps). exact (drains_cons _ _ _ _ _ E R).
Qed.
(* Whatever came before, 1023 bytes of filler bring the decoder in step: the packet behind them and all that follow are decoded as if they were the first.  Not so if an RP packet without room for its CRC is among what came before. *)
Theorem C136_in_step_partial : forall b g p f s qs left, u8s b -> filler g -> (N.to_nat 1023 <= length g)%nat -> ~ has_stuck (b ++ g) ->
  valid_packet p -> encode p [] = Ok f -> u8s s -> drain s = Ok (qs, left) ->
  exists ps, drain (b ++ g ++ f ++ s) = Ok (ps ++ p :: qs, left).
Proof.
  intros b g p f s qs left Ub HG L NS HV E Us D. destruct (encode_valid p HV) as (f' & HF & HE). rewrite HE in E. injection E as <-.
  apply (drain_iff _ _ _ Us) in D. destruct (in_step p f' s HV HF Us _ b g (le_n _) Ub HG (or_intror (conj NS L)) qs left D) as (ps & R). exists ps. apply drain_iff; [|exact R].
  rewrite !u8s_app. repeat split; [exact Ub | eapply Forall_impl; [|exact HG]; cbn; tauto | apply (frame_of_valid p f' HV HF) | exact Us].
Qed.
(* If there was no DLE, 257 bytes do. *)
Theorem C136_ascii_in_step_partial : forall b g p f s qs left, u8s b -> ~ In 16 b -> filler g -> (257 <= length g)%nat ->
  valid_packet p -> encode p [] = Ok f -> u8s s -> drain s = Ok (qs, left) ->
  exists ps, drain (b ++ g ++ f ++ s) = Ok (ps ++ p :: qs, left).
Proof.
  intros b g p f s qs left Ub NB HG L HV E Us D. destruct (encode_valid p HV) as (f' & HF & HE). rewrite HE in E. injection E as <-.
  apply (drain_iff _ _ _ Us) in D. destruct (in_step p f' s HV HF Us _ b g (le_n _) Ub HG (or_introl (conj NB L)) qs left D) as (ps & R). exists ps. apply drain_iff; [|exact R].
  rewrite !u8s_app. repeat split; [exact Ub | eapply Forall_impl; [|exact HG]; cbn; tauto | apply (frame_of_valid p f' HV HF) | exact Us].
Qed.
(* The connection hands out that packet and all that follow, however the network splits the bytes. *)
Theorem C136_connection_partial : forall b g p f s chunks, u8s b -> filler g -> (N.to_nat 1023 <= length g)%nat -> ~ has_stuck (b ++ g) ->
  valid_packet p -> encode p [] = Ok f -> u8s s -> Forall (fun c => c <> []) chunks -> concat chunks = b ++ g ++ f ++ s ->
  exists ps qs c n, crun conn_new (map (fun x => CArrive (Bytes x)) chunks ++ repeat CPoll n) = Ok (c, map (fun q => Ready (Some (IoOk q))) (ps ++ p :: qs) ++ [Pending]) /\
    drain s = Ok (qs, rbuf c).
Proof.
  intros b g p f s chunks Ub HG L NS HV E Us NC EC. destruct (drain_total s Us) as (qs & left & D & _). destruct (C136_in_step_partial b g p f s qs left Ub HG L NS HV E Us D) as (ps & R). rewrite <- EC in R.
  assert (UC : Forall (fun c => u8s c) chunks).
  { apply Forall_forall. intros c Hc. assert (U : u8s (concat chunks)).
    { rewrite EC. destruct (encode_valid p HV) as (f' & HF & HE). rewrite HE in E. injection E as <-. rewrite !u8s_app. repeat split; [exact Ub | eapply Forall_impl; [|exact HG]; cbn; tauto | apply (frame_of_valid p f' HV HF) | exact Us]. }
    unfold u8s in *. rewrite Forall_forall in *. intros x Hx. apply U. apply in_concat. exists c. split; assumption. }
  destruct (C04_connection_chunking_irrelevant chunks _ _ UC NC R) as (c & C1 & <-). exists ps, qs, c, (S (length (ps ++ p :: qs))). split; [exact C1 | exact D].
Qed.
(* With the exception, nothing that comes is ever decoded again. *)
Theorem C136_in_step_refuted : exists b, u8s b /\ forall g p f, filler g -> valid_packet p -> encode p [] = Ok f ->
  forall s, u8s s -> drain (b ++ g ++ f ++ s) = Ok ([], b ++ g ++ f ++ s).
Proof.
  exists ([16; 2] ++ dle_double (repeat 65 (N.to_nat 1020)) ++ [16; 3]). assert (DD : forall n, dle_double (repeat 65 n) = repeat 65 n) by (induction n as [|n IH]; [reflexivity | cbn; rewrite IH; reflexivity]).
  assert (Ub : u8s ([16; 2] ++ dle_double (repeat 65 (N.to_nat 1020)) ++ [16; 3])).
  { rewrite DD, !u8s_app. split; [repeat constructor|]. split; [|repeat constructor]. unfold u8s. apply Forall_forall. intros x Hx. apply repeat_spec in Hx. lia. }
  split; [exact Ub|]. intros g p f HG HV E s Us. destruct (encode_valid p HV) as (f' & HF & HE). rewrite HE in E. injection E as <-. destruct (frame_of_valid p f' HV HF) as (UF & LF & _).
  assert (U : u8s (([16; 2] ++ dle_double (repeat 65 (N.to_nat 1020)) ++ [16; 3]) ++ g ++ f' ++ s)).
  { rewrite (u8s_app _ (g ++ _)), !(u8s_app g), !(u8s_app f'). repeat split; [exact Ub | eapply Forall_impl; [|exact HG]; cbn; tauto | exact UF | exact Us]. }
  apply drain_iff; [exact U|]. constructor. apply decode_waits_exactly; [exact U | rewrite !app_length, DD, repeat_length; cbn [length]; lia|].
  exists (repeat 65 (N.to_nat 1020)), (g ++ f' ++ s). split; [rewrite <- !app_assoc; reflexivity|]. right. rewrite DD. apply repeat_length.
Qed.
(* One byte less is not enough, in either case: a byte of the packet is taken for the end of what came before. *)
Lemma crs n : filler (repeat 13 n).
Proof.
  apply Forall_forall. intros x Hx. apply repeat_spec in Hx. subst x. split; [reflexivity|]. split; [|discriminate]. intros H. apply dehex_nibble_ok_iff in H. vm_compute in H. discriminate.
Qed.
Theorem C136_less_refuted : exists b, u8s b /\ ~ In 16 b /\ filler (repeat 13 256) /\
  forall p f s ps left, valid_packet p -> encode p [] = Ok f -> u8s s -> drain (b ++ repeat 13 256 ++ f ++ s) = Ok (ps, left) ->
    exists x f1 why ps', f = x :: f1 /\ ps = PInvalid (b ++ repeat 13 256 ++ [x]) why :: ps' /\ drain (f1 ++ s) = Ok (ps', left).
Proof.
  exists (B "FF"). split; [repeat constructor|]. split; [vm_compute; intros [?|[?|[]]]; discriminate|]. split; [apply crs|].
  intros p f s ps left HV E Us D. destruct (encode_valid p HV) as (f' & HF & HE). rewrite HE in E. injection E as <-. destruct (frame_of_valid p f' HV HF) as (UF & LF & _).
  destruct f' as [|x f1]; [cbn in LF; lia|]. exists x, f1. inversion UF as [|? ? Ux Uf]; subst.
  assert (U1 : u8s (f1 ++ s)) by (apply u8s_app; auto).
  assert (Ur : u8s (repeat 13 256)) by (eapply Forall_impl; [|apply crs]; cbn; tauto).
  assert (X : decodes ((B "FF" ++ (repeat 13 256 ++ [x])) ++ (f1 ++ s)) (Some (invalid_of BadAsciiFrame (B "FF" ++ (repeat 13 256 ++ [x])))) (f1 ++ s)).
  { apply (D_ascii_bad _ _ _ 255 70 70 (repeat 13 256 ++ [x])).
    - exists 15%nat, 15%nat, 70, 70. repeat split.
    - rewrite app_length, repeat_length. reflexivity.
    - intros body [HB LB] (nn & cc & c & H1 & _ & _ & EF). apply hex2_lt in H1 as [_ H1]. destruct nn as [|n1 [|n2 [|]]]; try discriminate H1. change (repeat 13 256) with (13 :: repeat 13 255) in EF. cbn [app] in EF. injection EF as _ _ EF.
      destruct body as [|b1 body]; [cbn in LB; lia|]. cbn [app] in EF. injection EF as <- _. inversion HB as [|? ? P _]; subst. unfold printable in P. lia. }
  assert (U2 : u8s ((B "FF" ++ repeat 13 256 ++ [x]) ++ f1 ++ s)) by (rewrite (u8s_app _ (f1 ++ s)), (u8s_app (B "FF")), (u8s_app (repeat 13 256)); repeat split; [repeat constructor | exact Ur | repeat constructor; exact Ux | exact U1]).
  apply decode_exact in X; [|exact U2]. destruct (drain_total _ U1) as (ps' & left' & D1 & D2).
  pose proof (drains_cons _ _ _ _ _ X D2) as Y. apply (drain_iff _ _ _ U2) in Y. replace ((B "FF" ++ repeat 13 256 ++ [x]) ++ f1 ++ s) with (B "FF" ++ repeat 13 256 ++ x :: f1 ++ s) in Y by (rewrite <- !app_assoc; reflexivity).
  change (B "FF" ++ repeat 13 256 ++ x :: f1 ++ s) with (B "FF" ++ repeat 13 256 ++ (x :: f1) ++ s) in Y. rewrite Y in D. injection D as <- <-. unfold invalid_of. eexists _, ps'. split; [reflexivity|]. split; [reflexivity | exact D1].
Qed.

(* "FF" at the end of what came before, and a heartbeat behind the filler; and the beginning of an RP packet. *)
Definition ex_hb : bytes := match encode (PAscii (B "XK2636115020605110006F00")) [] with Ok f => f | _ => [] end.
Example C136_example :
  (u8s (B "0AZC01790FF") /\ ~ In 16 (B "0AZC01790FF") /\ filler (repeat 13 257) /\ valid_packet (PAscii (B "XK2636115020605110006F00")) /\ encode (PAscii (B "XK2636115020605110006F00")) [] = Ok ex_hb /\
   exists w, drain (B "FF" ++ repeat 13 257 ++ ex_hb) = Ok ([PInvalid (B "FF" ++ repeat 13 257) w; PAscii (B "XK2636115020605110006F00")], [])) /\
  (u8s [16; 2; 65; 16; 16] /\ filler (repeat 13 (N.to_nat 1023)) /\ ~ has_stuck ([16; 2; 65; 16; 16] ++ repeat 13 (N.to_nat 1023))).
Proof.
  split; [split; [repeat constructor|]; split; [vm_compute; intuition discriminate|]; split; [apply crs|]; split; [|split; [vm_compute; reflexivity | eexists; vm_compute; reflexivity]]|].
  - apply C02_try_from_exact with (s := B "XK2636115020605110006F00") (b := B "XK2636115020605110006F00"). vm_compute. reflexivity.
  - split; [repeat constructor|]. split; [apply crs|]. intros (x & y & E & d & tail & -> & L).
    assert (H : In 16 (skipn 5 ([16; 2; 65; 16; 16] ++ repeat 13 (N.to_nat 1023)))).
    { rewrite E. replace (x ++ [16; 2] ++ dle_double d ++ [16; 3] ++ tail) with ((x ++ [16; 2] ++ dle_double d) ++ [16; 3] ++ tail) by (rewrite <- !app_assoc; reflexivity).
      rewrite skipn_app. apply in_or_app. right. replace (5 - length (x ++ [16%N; 2%N] ++ dle_double d))%nat with 0%nat by (rewrite !app_length; cbn [length]; lia). left. reflexivity. }
    change (skipn 5 ([16; 2; 65; 16; 16] ++ repeat 13 (N.to_nat 1023))) with (repeat 13 (N.to_nat 1023)) in H. apply repeat_spec in H. discriminate.
Qed.

Print Assumptions C136_in_step_partial.
Print Assumptions C136_ascii_in_step_partial.
Print Assumptions C136_connection_partial.
Print Assumptions C136_in_step_refuted.
Print Assumptions C136_less_refuted.
