(* PropLoss.v: C132, what a wrong byte costs (pkt.rs, msg.rs, state.rs). *)
From Verif Require Import Base BaseFacts Pkt SpecPkt PktFacts DecodeFacts Msg SpecMsg DecFacts MsgFacts WireFacts IsoFacts
  Tokio SpecConn ConnFacts State SpecState StateFacts RunFacts HistFacts ExState PropState PropMsg PropPkt SpecLoss.
From Coq Require Import ZifyBool ZifyNat ZifyN.
Ltac Zify.zify_post_hook ::= Z.div_mod_to_equations.

Lemma bad_ascii n a b t s : hex2 n [a; b] -> N.of_nat (length t) = n + 2 -> u8s ([a; b] ++ t) -> u8s s -> (forall body, ascii_body body -> ~ ascii_frame body ([a; b] ++ t)) ->
  exists why, decode (([a; b] ++ t) ++ s) = Ok (Some (PInvalid ([a; b] ++ t) why), s).
Proof.
  intros H L U Us N. assert (D : decodes (([a; b] ++ t) ++ s) (Some (invalid_of BadAsciiFrame ([a; b] ++ t))) s) by (apply D_ascii_bad with (n := n); assumption).
  apply decode_exact in D; [|apply u8s_app; auto]. rewrite D. unfold invalid_of. eexists. reflexivity.
Qed.
(* ---- a wrong byte behind the length ---- *)
Lemma damaged body f f' i s : ascii_body body -> ascii_frame body f -> wrong_at i f f' -> (2 <= i)%nat -> u8s s ->
  exists why, decode (f' ++ s) = Ok (Some (PInvalid f' why), s).
Proof.
  intros HB HF (x & a & v & y & E & -> & L & NE & V) I Us.
  assert (U : u8s f) by (apply (frame_of_valid (PAscii body)); assumption).
  assert (U' : u8s (x ++ v :: y)). { rewrite E in U. apply u8s_app in U as [U1 U2]. inversion U2; subst. apply u8s_app. split; [exact U1 | constructor; assumption]. }
  pose proof (ascii_corrupt body f x a v y s HB HF E NE V Us) as BAD.
  destruct HF as (nn & cc & c & HN & HC & _ & EF). destruct HN as (k & j & n1 & n2 & H1 & H2 & EN & ->).
  destruct x as [|x1 [|x2 x]]; cbn [length] in L; try lia. rewrite EF in E. cbn [app] in E. injection E as <- <- E.
  assert (LL : N.of_nat (length (x ++ v :: y)) = N.of_nat (length body) + 2 + 2).
  { apply (f_equal (@length N)) in E. rewrite !app_length in E. rewrite app_length. cbn [length] in E |- *. assert (LC : length cc = 2%nat) by (destruct HC as (? & ? & ? & ? & _ & _ & _ & ->); reflexivity). idtac. lia. }
  apply (bad_ascii (N.of_nat (length body) + 2) n1 n2 (x ++ v :: y) s); [exists k, j, n1, n2; auto | exact LL | exact U' | exact Us |].
  intros b B F. assert (DD : decode (((n1 :: n2 :: x) ++ v :: y) ++ s) = Ok (Some (PAscii b), s)).
  { apply decode_exact; [apply u8s_app; auto | apply D_ascii; [exact B | exact F]]. }
  destruct (BAD _ _ DD) as (raw & w & [=]).
Qed.

(* ---- out of step ---- *)
(* a report of a change of a zone below 100; t is what comes after "0AZC0" *)
Definition zc (t : bytes) : bytes := [48; 65; 90] ++ [67; 48] ++ t.
Definition nine (t : bytes) : Prop := length t = 9%nat /\ u8s t.
Lemma carries_zc f m : zone_report m -> carries f m -> exists t, f = zc t /\ nine t.
Proof.
  intros (z & s & -> & HZ & W) (p & E1 & E2). apply (C16_documented_format _ _ W) in E1 as (body & -> & HW). cbn [wire] in HW.
  assert (HB : ascii_body body) by exact (wire_ascii _ _ W HW). destruct (encode_valid (PAscii body) HB) as (g & HF & HE). rewrite HE in E2. cbn [app] in E2. injection E2 as ->.
  destruct (frame_of_valid (PAscii body) f HB HF) as (U & _).
  destruct HW as (n & c & -> & (LN & DN & VN) & _ & HC). cbn [zc_zone] in VN.
  destruct n as [|d1 [|d2 [|d3 [|? ?]]]]; try discriminate LN. inversion DN as [|? ? D1 DN1]; subst. inversion DN1 as [|? ? D2 DN2]; subst. inversion DN2 as [|? ? D3 _]; subst.
  change (ch "0") with 48 in *. change (ch "9") with 57 in *. cbn [dec_value fold_left] in HZ. change (ch "0") with 48 in HZ. assert (d1 = 48) as -> by lia.
  destruct HF as (nn & cc & c' & HN & HCC & _ & EF). assert (EN : nn = [48; 65]) by (apply (hex2_fun 10); [exact HN | exists 0%nat, 10%nat, 48, 65; repeat split]). subst nn.
  destruct (hex2_lt _ _ HCC) as (_ & LC). exists ([d2; d3; c] ++ B "00" ++ cc ++ [13; 10]).
  assert (EQ : f = zc ([d2; d3; c] ++ B "00" ++ cc ++ [13; 10])) by (rewrite EF; unfold zc; change (B "ZC") with [90; 67]; rewrite <- !app_assoc; reflexivity).
  split; [exact EQ|]. split; [rewrite !app_length, LC; reflexivity|]. rewrite EQ in U. unfold zc in U. apply u8s_app in U as [_ U]. apply u8s_app in U as [_ U]. exact U.
Qed.
Lemma not_frame body a b x y z : ascii_frame body ([a; b] ++ x ++ [y; z]) -> z = 10.
Proof.
  intros (nn & cc & c & _ & _ & _ & E). rewrite !app_assoc in E. change [y; z] with ([y] ++ [z]) in E. change [13; 10] with ([13] ++ [10]) in E. rewrite !app_assoc in E.
  apply app_inj_tail in E as [_ E]. exact E.
Qed.
Lemma hexC0 : hex2 192 [67; 48].
Proof. exists 12%nat, 0%nat, 67, 48. repeat split. Qed.
Lemma zc_u8 t : nine t -> u8s (zc t).
Proof. intros (_ & U). unfold zc. repeat (apply u8s_app; split); [repeat constructor.. | exact U]. Qed.
Lemma zcs_u8 ts : Forall nine ts -> u8s (concat (map zc ts)).
Proof. intros F. induction F as [|t ts H F IH]; [constructor|]. cbn [map concat]. apply u8s_app. split; [apply zc_u8; exact H | exact IH]. Qed.
Lemma zcs_len ts : Forall nine ts -> length (concat (map zc ts)) = (14 * length ts)%nat.
Proof. intros F. induction F as [|t ts (H & _) F IH]; [reflexivity|]. cbn [map concat]. unfold zc at 1. rewrite !app_length, IH, H. cbn [length]. lia. Qed.
(* At "C0" the decoder reads a length of 196 bytes in all, which is that of fourteen reports. *)
Lemma stuck n : forall t ts, (length ts <= n)%nat -> nine t -> Forall nine ts ->
  exists qs left, drains ([67; 48] ++ t ++ concat (map zc ts)) qs left /\ Forall refused qs /\ (length left < 196)%nat.
Proof.
  induction n as [n IH] using lt_wf_ind. intros t ts LN HT F. pose proof (zcs_u8 _ F) as UF. destruct HT as (LT & UT).
  destruct (le_lt_dec 14 (length ts)) as [G|G].
  - rewrite <- (firstn_skipn 13 ts) in F, UF, LN |- *. remember (firstn 13 ts) as a eqn:EA. assert (LA : length a = 13%nat) by (subst a; rewrite firstn_length; lia).
    remember (skipn 13 ts) as r eqn:ER. assert (LR : (1 <= length r)%nat) by (subst r; rewrite skipn_length; lia). destruct r as [|t' r]; [cbn in LR; lia|]. clear EA ER G LR ts.
    apply Forall_app in F as [FA FR]. inversion FR as [|? ? H' FR']; subst. rewrite app_length in LN. cbn [length] in LN.
    destruct (IH (length r) ltac:(lia) t' r (le_n _) H' FR') as (qs & left & D & R & LL).
    rewrite map_app, concat_app. cbn [map concat].
    assert (ES : [67; 48] ++ t ++ concat (map zc a) ++ zc t' ++ concat (map zc r) = ([67; 48] ++ (t ++ concat (map zc a) ++ [48] ++ [65; 90])) ++ ([67; 48] ++ t' ++ concat (map zc r))).
    { unfold zc at 2. rewrite <- !app_assoc. reflexivity. }
    rewrite ES. pose proof (zcs_u8 _ FA) as UA. pose proof (zcs_u8 _ FR') as UR. pose proof (proj2 H') as UT'.
    destruct (bad_ascii 192 67 48 (t ++ concat (map zc a) ++ [48] ++ [65; 90]) ([67; 48] ++ t' ++ concat (map zc r))) as (why & E).
    + exact hexC0.
    + rewrite !app_length, (zcs_len _ FA), LT, LA. reflexivity.
    + repeat (apply u8s_app; split); try assumption; repeat constructor.
    + repeat (apply u8s_app; split); try assumption; repeat constructor.
    + intros body _ FR0. assert (X : 90 = 10); [|discriminate X]. apply (not_frame body 67 48 (t ++ concat (map zc a) ++ [48]) 65). rewrite <- !app_assoc. exact FR0.
    + eexists (_ :: qs), left. split; [econstructor; [exact E | exact D]|]. split; [constructor; [eexists _, _; reflexivity | exact R] | exact LL].
  - exists [], ([67; 48] ++ t ++ concat (map zc ts)). assert (LL : length (t ++ concat (map zc ts)) = (9 + 14 * length ts)%nat) by (rewrite app_length, (zcs_len _ F), LT; reflexivity).
    split; [|split; [constructor | rewrite app_length; cbn [length]; lia]]. apply drains_nil. apply decode_exact; [apply u8s_app; split; [repeat constructor | apply u8s_app; auto]|].
    apply D_ascii_wait with (n := 192); [exact hexC0 | lia].
Qed.
Lemma all_zc ms fs : Forall zone_report ms -> Forall2 carries fs ms -> exists ts, fs = map zc ts /\ Forall nine ts.
Proof.
  intros HM F. revert HM. induction F as [|f m fs ms H F IH]; intros HM; [exists []; auto|]. inversion HM as [|? ? H1 H2]; subst.
  destruct (carries_zc _ _ H1 H) as (t & -> & T), (IH H2) as (ts & -> & TS). exists (t :: ts). split; [reflexivity | constructor; assumption].
Qed.
Lemma not_Z : ~ is_hex_digit 90.
Proof. rewrite <- dehex_nibble_ok_iff. vm_compute. discriminate. Qed.
(* with one of "A" and "0" before "Z", the decoder finds "C0" *)
Lemma skips d t ts : nine t -> Forall nine ts -> d = 48 \/ d = 65 ->
  exists qs left, drains ([d; 90] ++ [67; 48] ++ t ++ concat (map zc ts)) qs left /\ Forall refused qs /\ (length left < 196)%nat.
Proof.
  intros HT F HD. destruct (stuck (length ts) t ts (le_n _) HT F) as (qs & left & D & R & LL). pose proof (zcs_u8 _ F) as UF. destruct HT as (LT & UT).
  assert (E : decodes ([d; 90] ++ [67; 48] ++ t ++ concat (map zc ts)) (Some (invalid_of NoPrefix [d; 90])) ([67; 48] ++ t ++ concat (map zc ts))).
  { apply D_garbage; [discriminate| |left; split; [vm_compute; lia|]].
    - intros i Hi [(u & B)|(a & b & u & B & HA & HB)]; (destruct i as [|[|i]]; cbn [length] in Hi; [| |lia]); cbn [skipn app] in B; try (destruct HD as [-> | ->]; discriminate B).
      + injection B as <- <- _. elim not_Z. exact HB.
      + injection B as <- <- _. elim not_Z. exact HA.
    - split; [right; exists 67, 48, (t ++ concat (map zc ts)); split; [reflexivity|]; split; [exists 12%nat; reflexivity | exists 0%nat; reflexivity]|].
      rewrite !app_length, LT. cbn [length]. lia. }
  apply decode_exact in E; [|repeat (apply u8s_app; split); try assumption; destruct HD as [-> | ->]; repeat constructor].
  eexists (_ :: qs), left. split; [econstructor; [exact E | exact D]|]. split; [constructor; [eexists _, _; reflexivity | exact R] | exact LL].
Qed.
(* nothing follows, or the next report is entered at its second byte *)
Lemma one_short a b n u ts : hex2 n [a; b] -> N.of_nat (length u) = n + 1 -> u8s ([a; b] ++ u) -> (length u < 190)%nat -> Forall nine ts ->
  exists qs left, drains (([a; b] ++ u) ++ concat (map zc ts)) qs left /\ Forall refused qs /\ (length left < 196)%nat.
Proof.
  intros H L U LU F. destruct F as [|t ts HT F].
  - cbn [map concat]. rewrite app_nil_r. exists [], ([a; b] ++ u). split; [|split; [constructor | cbn [app length]; lia]].
    apply drains_nil, decode_exact; [exact U|]. apply D_ascii_wait with (n := n); [exact H | lia].
  - destruct (skips 65 t ts HT F (or_intror eq_refl)) as (qs & left & D & R & LL). pose proof (zcs_u8 _ F) as UF. pose proof (proj2 HT) as UT. apply u8s_app in U as [U1 U2].
    cbn [map concat]. assert (ES : ([a; b] ++ u) ++ zc t ++ concat (map zc ts) = ([a; b] ++ (u ++ [48])) ++ ([65; 90] ++ [67; 48] ++ t ++ concat (map zc ts))).
    { unfold zc. rewrite <- !app_assoc. reflexivity. }
    rewrite ES. destruct (bad_ascii n a b (u ++ [48]) ([65; 90] ++ [67; 48] ++ t ++ concat (map zc ts))) as (why & E).
    + exact H.
    + rewrite app_length. cbn [length]. lia.
    + repeat (apply u8s_app; split); try assumption; repeat constructor.
    + repeat (apply u8s_app; split); try assumption; repeat constructor.
    + intros body _ (nn & cc & c & _ & _ & _ & EF). change [13; 10] with ([13] ++ [10]) in EF. rewrite !app_assoc in EF. apply app_inj_tail in EF as [_ EF]. discriminate EF.
    + eexists (_ :: qs), left. split; [econstructor; [exact E | exact D]|]. split; [constructor; [eexists _, _; reflexivity | exact R] | exact LL].
Qed.
Lemma run_refused p0 h p bs src qs left : connected p0 -> unread (p_conn p0) = [] -> Forall op_ok h -> run p0 h = Ok (p, bs) -> arrived h = src -> drain src = Ok (qs, left) -> Forall refused qs ->
  Forall refused (packets (events bs)) /\ forall z s, 1 <= z <= 208 -> zone_status_is p0 z s -> zone_status_is p z s.
Proof.
  intros C U0 HO E A D R. destruct (connected_inv _ C) as (I0 & _). pose proof (run_takes _ _ _ _ I0 HO E) as T. rewrite U0, A in T. cbn [app] in T.
  pose proof (run_pinv _ _ _ _ I0 HO E) as I. destruct (drain_total _ (unread_u8 _ (proj1 I))) as (qs' & left' & _ & D').
  assert (UA : u8s src) by (rewrite <- A; apply arrived_u8; exact HO). apply drain_iff in D; [|exact UA].
  destruct (drains_det _ _ _ D _ _ (takes_drains _ _ _ T _ _ D')) as [-> _]. apply Forall_app in R as [R _]. split; [exact R|].
  intros z s Hz S. pose proof (zone_run p0 h p bs z s I0 HO E Hz S) as Z. assert (EM : messages bs = []); [|rewrite EM in Z; exact Z].
  unfold messages, messages_in. clear -R. induction R as [|q l (raw & why & ->) R IH]; [reflexivity|]. cbn [map catMaybes]. unfold message_of at 1. cbn [parse]. exact IH.
Qed.

(* ---- C132 ---- *)
(* A byte that arrives wrong behind the two digits of the length costs this packet only: one invalid packet takes its place, made of its
   bytes; everything before and after is received as if it had not happened. *)
Theorem C132_one_packet_partial : forall body f f' i before s ps qs left, ascii_body body -> encode (PAscii body) [] = Ok f -> wrong_at i f f' -> (2 <= i)%nat ->
  u8s before -> u8s s -> drain before = Ok (ps, []) -> drain s = Ok (qs, left) ->
  exists why, drain (before ++ f' ++ s) = Ok (ps ++ PInvalid f' why :: qs, left).
Proof.
  intros body f f' i before s ps qs left HB E W I Ub Us EB EQ. destruct (encode_valid (PAscii body) HB) as (g & HF & HE). rewrite HE in E. injection E as <-.
  destruct (damaged body g f' i s HB HF W I Us) as (why & D). exists why.
  assert (U : u8s f'). { destruct (frame_of_valid (PAscii body) g HB HF) as (U & _). destruct W as (x & a & v & y & -> & -> & _ & _ & V). apply u8s_app in U as [U1 U2]. inversion U2; subst. apply u8s_app. split; [exact U1 | constructor; assumption]. }
  apply drain_iff in EB; [|exact Ub]. apply drain_iff in EQ; [|exact Us]. apply drain_iff; [repeat (apply u8s_app; split); assumption|].
  apply (drains_app before ps [] EB Ub (f' ++ s) (PInvalid f' why :: qs) left); [apply u8s_app; auto|]. cbn [app]. econstructor; [exact D | exact EQ].
Qed.
(* The same for a wrong byte in the data of an RP packet, other than to or from DLE, and in its CRC. *)
Theorem C132_rp_packet_partial : forall d f f' P a v Q hi lo before s ps qs left, rp_body d -> encode (PRp d) [] = Ok f ->
  f = [16; 2] ++ P ++ a :: Q ++ [16; 3] ++ [hi; lo] -> f' = [16; 2] ++ P ++ v :: Q ++ [16; 3] ++ [hi; lo] -> a <> 16 -> v <> 16 -> v <> a -> v < 256 ->
  u8s before -> u8s s -> drain before = Ok (ps, []) -> drain s = Ok (qs, left) ->
  exists why, drain (before ++ f' ++ s) = Ok (ps ++ PInvalid f' why :: qs, left).
Proof.
  intros d f f' P a v Q hi lo before s ps qs left HB E EF -> NA NV NE V Ub Us EB EQ.
  destruct (C10_rp_body_corruption_detected d f P a v Q hi lo s HB E EF NA NV NE V Us) as (why & D). exists why.
  assert (U : u8s ([16; 2] ++ P ++ v :: Q ++ [16; 3] ++ [hi; lo])).
  { destruct (encode_valid (PRp d) HB) as (g & HF & HE). rewrite HE in E. injection E as <-. destruct (frame_of_valid (PRp d) g HB HF) as (U & _). rewrite EF in U.
    apply u8s_app in U as [_ U]. apply u8s_app in U as [U1 U2]. inversion U2; subst. apply u8s_app. split; [repeat constructor|]. apply u8s_app. split; [exact U1 | constructor; assumption]. }
  apply drain_iff in EB; [|exact Ub]. apply drain_iff in EQ; [|exact Us]. apply drain_iff; [apply u8s_app; split; [exact Ub | apply u8s_app; split; [exact U | exact Us]]|].
  apply (drains_app before ps [] EB Ub); [apply u8s_app; auto|]. cbn [app] in D |- *. econstructor; [exact D | exact EQ].
Qed.
(* Wherever the wrong byte is: what came before is received, and the first that is made of the frame itself is invalid. *)
Theorem C132_before_partial : forall body f f' i before s ps, ascii_body body -> encode (PAscii body) [] = Ok f -> wrong_at i f f' ->
  u8s before -> u8s s -> drain before = Ok (ps, []) ->
  exists qs left, drain (before ++ f' ++ s) = Ok (ps ++ qs, left) /\ forall p qs', qs = p :: qs' -> refused p.
Proof.
  intros body f f' i before s ps HB E W Ub Us EB. destruct (encode_valid (PAscii body) HB) as (g & HF & HE). rewrite HE in E. injection E as <-.
  destruct W as (x & a & v & y & EG & -> & _ & NE & V).
  assert (U : u8s (x ++ v :: y)). { destruct (frame_of_valid (PAscii body) g HB HF) as (U & _). rewrite EG in U. apply u8s_app in U as [U1 U2]. inversion U2; subst. apply u8s_app. split; [exact U1 | constructor; assumption]. }
  destruct (drain_total ((x ++ v :: y) ++ s)) as (qs & left & _ & D); [apply u8s_app; auto|]. apply drain_iff in EB; [|exact Ub].
  exists qs, left. split; [apply drain_iff; [apply u8s_app; split; [exact Ub | apply u8s_app; split; [exact U | exact Us]]|]; apply (drains_app before ps [] EB Ub); [apply u8s_app; auto | exact D]|].
  intros p qs' ->. inversion D as [|? ? ? ? ? DD _]; subst. exact (ascii_corrupt body _ x a v y s HB HF eq_refl NE V Us p _ DD).
Qed.
(* False for the digits of the length: with one wrong digit in the length of any report that a zone below 100 has changed, the decoder is
   out of step, and as long as reports of this kind follow, about whatever zones and however many, it never gets back: all it makes of
   them is invalid packets. *)
Theorem C132_wrong_byte_refuted : forall m f, zone_report m -> carries f m -> exists f', wrong_at 1 f f' /\
  forall ms fs, Forall zone_report ms -> Forall2 carries fs ms ->
    exists qs left, drain (f' ++ concat fs) = Ok (qs, left) /\ Forall refused qs /\ (length left < 196)%nat.
Proof.
  intros m f HM HC. destruct (carries_zc _ _ HM HC) as (t & -> & (L & U)). exists ([48; 66] ++ [90; 67; 48] ++ t).
  split; [exists [48], 65, 66, ([90; 67; 48] ++ t); repeat split; discriminate|].
  intros ms fs M F. destruct (all_zc _ _ M F) as (ts & -> & T).
  assert (UF : u8s ([48; 66] ++ [90; 67; 48] ++ t)) by (repeat (apply u8s_app; split); [repeat constructor.. | exact U]).
  destruct (one_short 48 66 11 ([90; 67; 48] ++ t) ts) as (qs & left & D & R & LL); [exists 0%nat, 11%nat, 48, 66; repeat split | rewrite app_length, L; reflexivity | exact UF | rewrite app_length, L; cbn; lia | exact T|].
  exists qs, left. split; [|auto]. apply drain_iff; [apply u8s_app; split; [exact UF | apply zcs_u8; exact T] | exact D].
Qed.
(* So a panel that is connected takes no notice of any of them: no zone's status changes. *)
Theorem C132_deaf_refuted : forall m f, zone_report m -> carries f m -> exists f', wrong_at 1 f f' /\
  forall p0 h p bs ms fs, connected p0 -> unread (p_conn p0) = [] -> Forall op_ok h -> run p0 h = Ok (p, bs) ->
    Forall zone_report ms -> Forall2 carries fs ms -> arrived h = f' ++ concat fs ->
    Forall refused (packets (events bs)) /\ forall z s, 1 <= z <= 208 -> zone_status_is p0 z s -> zone_status_is p z s.
Proof.
  intros m f HM HC. destruct (C132_wrong_byte_refuted m f HM HC) as (f' & HW & H). exists f'. split; [exact HW|].
  intros p0 h p bs ms fs C U0 HO E M F A. destruct (H ms fs M F) as (qs & left & D & R & _). exact (run_refused p0 h p bs _ qs left C U0 HO E A D R).
Qed.
(* The length digit of the first of some reports wrong and, for comparison, a digit of the zone number.  Fourteen reports make one invalid packet. *)
Definition ex_zc (z s : N) : bytes := bytes_of (MZoneChange (mkZC z s)).
Example C132_example : zone_report (MZoneChange (mkZC 17 9)) /\ ex_zc 17 9 = B "0AZC017900C1" ++ [13; 10] /\
  (exists w1 w2 w3, drain ((B "0BZC017900C1" ++ [13; 10]) ++ concat (repeat (ex_zc 5 2 ++ ex_zc 20 9) 8)) =
     Ok ([PInvalid (B "0BZC017900C1" ++ [13; 10] ++ B "0") w1; PInvalid (B "AZ") w2; PInvalid (B "C005200CB" ++ [13; 10] ++ ex_zc 20 9 ++ concat (repeat (ex_zc 5 2 ++ ex_zc 20 9) 6) ++ B "0AZ") w3], B "C005200CB" ++ [13; 10] ++ ex_zc 20 9)) /\
  (exists w, drain ((B "0AZC027900C1" ++ [13; 10]) ++ ex_zc 5 2 ++ ex_zc 20 9) = Ok ([PInvalid (B "0AZC027900C1" ++ [13; 10]) w; PAscii (B "ZC005200"); PAscii (B "ZC020900")], [])).
Proof.
  split; [exists 17, 9; split; [reflexivity|]; split; [reflexivity | vm_compute; repeat split; discriminate]|]. split; [vm_compute; reflexivity|].
  split; [eexists _, _, _; vm_compute; reflexivity | eexists; vm_compute; reflexivity].
Qed.
Example C132_example_rp : rp_body ex_rp_body /\ encode (PRp ex_rp_body) [] = Ok ([16; 2] ++ (B "foo" ++ [16; 16] ++ B "b") ++ ch "a" :: B "r" ++ [16; 3] ++ [124; 99]) /\
  exists w, drain (ex_ascii ++ ([16; 2] ++ (B "foo" ++ [16; 16] ++ B "b") ++ ch "e" :: B "r" ++ [16; 3] ++ [124; 99]) ++ ex_ascii) =
    Ok ([PAscii ex_ascii_body; PInvalid ([16; 2] ++ (B "foo" ++ [16; 16] ++ B "b") ++ ch "e" :: B "r" ++ [16; 3] ++ [124; 99]) w; PAscii ex_ascii_body], []).
Proof. split; [exact ex_rp_valid|]. split; [vm_compute; reflexivity|]. eexists. vm_compute. reflexivity. Qed.
(* On the example panel: the bytes of the wrong report and of three right ones arrive, zone 17 stays as it was. *)
Definition ex_deaf : list op := [Arrive (Bytes ((B "0BZC017900C1" ++ [13; 10]) ++ ex_zc 17 2 ++ ex_zc 17 9 ++ ex_zc 17 9)); PollNext 1; PollNext 2; PollNext 3].
Example C132_example_panel : exists p bs, run ex_panel ex_deaf = Ok (p, bs) /\ connected ex_panel /\ unread (p_conn ex_panel) = [] /\
  zone_status_is ex_panel 17 0 /\ zone_status_is p 17 0 /\ length (packets (events bs)) = 2%nat.
Proof.
  destruct (run ex_panel ex_deaf) as [[p bs]|e|w] eqn:E; [|vm_compute in E; discriminate..]. exists p, bs. split; [reflexivity|]. split; [exact ex_connected|]. split; [reflexivity|].
  vm_compute in E. injection E as <- <-. split; [eexists; split; [reflexivity | reflexivity]|]. split; [eexists; split; reflexivity | reflexivity].
Qed.

(* ---- C133 ---- *)
(* False for a lost byte: if any one byte of any such report is lost, nothing is understood of the reports that follow. *)
Theorem C133_lost_refuted : forall m f f' i ms fs, zone_report m -> carries f m -> lost_at i f f' -> Forall zone_report ms -> Forall2 carries fs ms ->
  exists qs left, drain (f' ++ concat fs) = Ok (qs, left) /\ Forall refused qs /\ (length left < 196)%nat.
Proof.
  intros m f f' i ms fs HM HC HL M F. destruct (carries_zc _ _ HM HC) as (t & -> & HT). destruct (all_zc _ _ M F) as (ts & -> & T). pose proof (zcs_u8 _ T) as UT.
  assert (X : exists qs left, drains (f' ++ concat (map zc ts)) qs left /\ Forall refused qs /\ (length left < 196)%nat).
  { destruct HL as (x & a & y & EF & -> & LI). unfold zc in EF. destruct x as [|x1 [|x2 x]]; cbn [app] in EF.
    - injection EF as <- <-. cbn [app]. exact (skips 65 t ts HT T (or_intror eq_refl)).
    - injection EF as <- <- <-. cbn [app]. exact (skips 48 t ts HT T (or_introl eq_refl)).
    - injection EF as <- <- EF. destruct HT as (LT & UN). assert (LL : (length (x ++ y) = 11)%nat) by (apply (f_equal (@length N)) in EF; rewrite app_length in EF |- *; cbn [length] in EF; lia).
      apply (one_short 48 65 10 (x ++ y) ts); [exists 0%nat, 10%nat, 48, 65; repeat split | lia | | lia | exact T].
      assert (U : u8s (90 :: 67 :: 48 :: t)) by (repeat (constructor; [reflexivity|]); exact UN). rewrite EF in U. apply u8s_app in U as [U1 U2]. inversion U2; subst.
      apply u8s_app. split; [repeat constructor | apply u8s_app; auto]. }
  destruct X as (qs & left & D & R & LL). exists qs, left. split; [|auto]. apply drain_iff; [|exact D].
  apply u8s_app. split; [|exact UT]. destruct HL as (x & a & y & EF & -> & _). pose proof (zc_u8 _ HT) as U. rewrite EF in U. apply u8s_app in U as [U1 U2]. inversion U2; subst. apply u8s_app. auto.
Qed.
Theorem C133_deaf_refuted : forall m f f' i p0 h p bs ms fs, zone_report m -> carries f m -> lost_at i f f' ->
  connected p0 -> unread (p_conn p0) = [] -> Forall op_ok h -> run p0 h = Ok (p, bs) ->
  Forall zone_report ms -> Forall2 carries fs ms -> arrived h = f' ++ concat fs ->
  Forall refused (packets (events bs)) /\ forall z s, 1 <= z <= 208 -> zone_status_is p0 z s -> zone_status_is p z s.
Proof.
  intros m f f' i p0 h p bs ms fs HM HC HL C U0 HO E M F A. destruct (C133_lost_refuted m f f' i ms fs HM HC HL M F) as (qs & left & D & R & _).
  exact (run_refused p0 h p bs _ qs left C U0 HO E A D R).
Qed.

(* An additional byte inside an ASCII packet, behind the length, costs no more than this packet: there is one packet in its place (invalid,
   or the packet itself if the byte is a line feed before its line feed), its line feed makes an invalid packet, and the next packet and
   everything after it is received. *)
Theorem C133_added_partial : forall body f f' i before q g s ps qs left, ascii_body body -> encode (PAscii body) [] = Ok f -> added_at i f f' -> (2 <= i < length f)%nat ->
  valid_packet q -> encode q [] = Ok g -> u8s before -> u8s s -> drain before = Ok (ps, []) -> drain s = Ok (qs, left) ->
  exists r lf, (r = PAscii body \/ refused r) /\ refused lf /\ drain (before ++ f' ++ g ++ s) = Ok (ps ++ r :: lf :: q :: qs, left).
Proof.
  intros body f f' i before q g s ps qs left HB E (x & v & y & EF & -> & LX & V) HI VQ EG Ub Us EB EQ.
  destruct (encode_valid (PAscii body) HB) as (f0 & HF & HE). rewrite HE in E. cbn [app] in E. injection E as ->.
  destruct (frame_of_valid (PAscii body) f HB HF) as (U & _). pose proof HF as HF0. destruct HF as (nn & cc & c & HN & HC & _ & EW).
  destruct HN as (k & j & n1 & n2 & H1 & H2 & EN & ->). destruct (hex2_lt _ _ HC) as (_ & LC).
  destruct x as [|x1 [|x2 x]]; cbn [length] in LX; try lia. rewrite EW in EF. cbn [app] in EF. injection EF as <- <- EF.
  assert (NY : y <> []). { intros ->. apply (f_equal (@length N)) in EF. rewrite !app_length in EF. rewrite EW, !app_length in HI. cbn [length] in *. lia. }
  destruct (exists_last NY) as (y' & z & ->). change [13; 10] with ([13] ++ [10]) in EF. rewrite !app_assoc in EF. apply app_inj_tail in EF as [EF <-].
  destruct (encode_valid q VQ) as (g0 & GF & GE). rewrite GE in EG. cbn [app] in EG. injection EG as ->. destruct (frame_of_valid q g VQ GF) as (Ug & _).
  assert (UX : u8s (n1 :: n2 :: x ++ y')). { rewrite EW in U. cbn [app] in U. change [13; 10] with ([13] ++ [10]) in U. rewrite !app_assoc, EF, <- !app_assoc in U.
    change (n1 :: n2 :: x ++ y' ++ [10]) with ((n1 :: n2 :: x) ++ y' ++ [10]) in U. rewrite app_assoc in U. apply u8s_app in U as [U _]. exact U. }
  assert (U' : u8s ([n1; n2] ++ x ++ v :: y')). { change (n1 :: n2 :: x ++ y') with ((n1 :: n2 :: x) ++ y') in UX. apply u8s_app in UX as [U1 U2]. change (u8s ((n1 :: n2 :: x) ++ v :: y')). apply u8s_app. split; [exact U1 | constructor; assumption]. }
  assert (LL : N.of_nat (length (x ++ v :: y')) = N.of_nat (length body) + 2 + 2).
  { apply (f_equal (@length N)) in EF. rewrite !app_length in EF. rewrite app_length. cbn [length] in EF |- *. lia. }
  destruct (decodes_ascii_or (N.of_nat (length body) + 2) n1 n2 (x ++ v :: y') ([10] ++ g ++ s) U' ltac:(exists k, j, n1, n2; auto) LL) as (r & D & HR).
  assert (U10 : u8s ([10] ++ g ++ s)) by (repeat (apply u8s_app; split); try assumption; repeat constructor).
  assert (UA : u8s (([n1; n2] ++ x ++ v :: y') ++ [10] ++ g ++ s)) by (apply u8s_app; split; assumption).
  assert (HR2 : r = PAscii body \/ refused r).
  { destruct r as [b|d|raw w]; [|exfalso|right; eexists _, _; reflexivity].
    - left. assert (FB : ascii_body b /\ ascii_frame b ([n1; n2] ++ x ++ v :: y')).
      { assert (DD : decode ((([n1; n2] ++ x ++ v :: y')) ++ [10] ++ g ++ s) = Ok (Some (PAscii b), [10] ++ g ++ s)) by (apply decode_exact; [exact UA | exact D]).
        apply C05_ascii_frames_exact in DD as (B1 & fr & B2 & B3); [|exact UA].
        apply app_inv_tail in B3. subst fr. auto. }
      destruct FB as (B1 & (mm & dd & c2 & M1 & M2 & M3 & M4)).
      destruct (list_eq_dec N.eq_dec y' []) as [->|NY'].
      + rewrite app_nil_r in EF. subst x. assert (v = 10) as ->. { change [13; 10] with ([13] ++ [10]) in M4. rewrite !app_assoc in M4. apply app_inj_tail in M4 as [_ M4]. exact M4. }
        assert (EFF : f = [n1; n2] ++ ((body ++ cc) ++ [13]) ++ [10]) by (rewrite EW, <- !app_assoc; reflexivity).
        assert (DD : decode f = Ok (Some (PAscii b), [])) by (rewrite <- (app_nil_r f); apply C05_ascii_frames_exact; [rewrite app_nil_r; exact U | split; [exact B1 | exists f; split; [|reflexivity]; rewrite EFF; exists mm, dd, c2; auto]]).
        assert (DD2 : decode f = Ok (Some (PAscii body), [])) by (rewrite <- (app_nil_r f); apply C05_ascii_frames_exact; [rewrite app_nil_r; exact U | split; [exact HB | exists f; auto]]).
        congruence.
      + exfalso. destruct (exists_last NY') as (y'' & z & ->). rewrite !app_assoc in EF. apply app_inj_tail in EF as [_ <-]. change [13; 10] with ([13] ++ [10]) in M4.
        change (v :: y'' ++ [13]) with ((v :: y'') ++ [13]) in M4. rewrite !app_assoc in M4. apply app_inj_tail in M4 as [_ M4]. discriminate M4.
    - destruct (ascii_decode _); [discriminate HR.. | exact HR]. }
  destruct (C11_resync_after_garbage q g s [10] VQ) as (pieces & invs & qs2 & left2 & P1 & P2 & P3 & P4 & P5); [rewrite GE; reflexivity | exact Us | repeat constructor; try discriminate; rewrite <- dehex_nibble_ok_iff; discriminate|].
  rewrite EQ in P4. injection P4 as <- <-.
  destruct pieces as [|p1 pieces]; [discriminate P1|]. inversion P2 as [|? ? L1 P2']; subst. destruct p1 as [|b1 p1]; [cbn in L1; lia|]. cbn [concat app] in P1. injection P1 as -> P1. apply app_eq_nil in P1 as [-> P1].
  destruct pieces as [|p2 pieces]; [|inversion P2' as [|? ? L2 _]; subst; cbn [concat] in P1; apply app_eq_nil in P1 as [-> _]; cbn in L2; lia].
  inversion P3 as [|? lf ? l3 (w & ->) P3']; subst. inversion P3'; subst.
  exists r, (PInvalid [10] w). split; [exact HR2|]. split; [eexists _, _; reflexivity|].
  apply drain_iff in EB; [|exact Ub]. apply drain_iff in P5; [|exact U10].
  assert (ES : ((n1 :: n2 :: x) ++ v :: y' ++ [10]) ++ g ++ s = ([n1; n2] ++ x ++ v :: y') ++ [10] ++ g ++ s) by (cbn [app]; rewrite <- !app_assoc; cbn [app]; rewrite <- !app_assoc; reflexivity).
  rewrite ES.
  apply drain_iff; [apply u8s_app; split; assumption|]. apply (drains_app before ps [] EB Ub); [exact UA|]. cbn [app] in D |- *. econstructor; [apply decode_exact; [exact UA | exact D] | exact P5].
Qed.
(* False for a byte between two packets: a zero before a report is taken for the first digit of its length. *)
Theorem C133_added_refuted : forall m f, zone_report m -> carries f m -> exists f', added_at (length f) f f' /\
  forall ms fs, Forall zone_report ms -> Forall2 carries fs ms ->
    exists p qs left, to_pkt m = Ok p /\ drain (f' ++ concat fs) = Ok (p :: qs, left) /\ Forall refused qs /\ (length left < 196)%nat.
Proof.
  intros m f HM HC. exists (f ++ [48]). split; [exists f, 48, []; rewrite app_nil_r; repeat split|].
  intros ms fs M F. destruct (all_zc _ _ M F) as (ts & -> & T). pose proof (zcs_u8 _ T) as UT. destruct (carries_zc _ _ HM HC) as (t0 & EF & HT0).
  assert (X : exists qs left, drains ([48] ++ concat (map zc ts)) qs left /\ Forall refused qs /\ (length left < 196)%nat).
  { destruct T as [|t ts HT T]; [exists [], [48]; split; [apply drains_nil; vm_compute; reflexivity | split; [constructor | cbn; lia]]|].
    destruct (stuck (length ts) t ts (le_n _) HT T) as (qs & left & D & R & LL). pose proof (zcs_u8 _ T) as UT2. destruct HT as (LT & UTT).
    assert (ES : [48] ++ concat (map zc (t :: ts)) = ([48; 48] ++ [65; 90]) ++ ([67; 48] ++ t ++ concat (map zc ts))) by (cbn [map concat]; unfold zc; rewrite <- !app_assoc; reflexivity).
    rewrite ES. destruct (bad_ascii 0 48 48 [65; 90] ([67; 48] ++ t ++ concat (map zc ts))) as (why & E).
    + exists 0%nat, 0%nat, 48, 48. repeat split.
    + reflexivity.
    + repeat constructor.
    + repeat (apply u8s_app; split); try assumption; repeat constructor.
    + intros body _ FR. assert (Y : 90 = 10); [|discriminate Y]. apply (not_frame body 48 48 [] 65). exact FR.
    + eexists (_ :: qs), left. split; [econstructor; [exact E | exact D]|]. split; [constructor; [eexists _, _; reflexivity | exact R] | exact LL]. }
  destruct X as (qs & left & D & R & LL). destruct HC as (p & E1 & E2). destruct HM as (z & s & -> & _ & W).
  pose proof (C16_documented_format _ p W) as HP. apply HP in E1 as HE. destruct HE as (body & -> & HW). assert (HB : ascii_body body) by exact (wire_ascii _ _ W HW).
  destruct (encode_valid (PAscii body) HB) as (g & GF & GE). rewrite GE in E2. cbn [app] in E2. injection E2 as ->.
  exists (PAscii body), qs, left. split; [exact E1|]. split; [|auto]. rewrite <- app_assoc.
  assert (U : u8s (f ++ [48] ++ concat (map zc ts))) by (apply u8s_app; split; [rewrite EF; apply zc_u8; exact HT0 | apply u8s_app; split; [repeat constructor | exact UT]]).
  apply drain_iff; [exact U|]. econstructor; [apply C05_ascii_frames_exact; [exact U | split; [exact HB | exists f; auto]] | exact D].
Qed.
(* The carriage return lost from the first report; a letter added to it; a zero added behind it. *)
Example C133_example : lost_at 12 (ex_zc 17 9) (B "0AZC017900C1" ++ [10]) /\ added_at 4 (ex_zc 17 9) (B "0AZCx017900C1" ++ [13; 10]) /\
  (exists w1 w2, drain ((B "0AZC017900C1" ++ [10]) ++ ex_zc 5 2 ++ ex_zc 20 9) = Ok ([PInvalid (B "0AZC017900C1" ++ [10] ++ B "0") w1; PInvalid (B "AZ") w2], B "C005200CB" ++ [13; 10] ++ ex_zc 20 9)) /\
  (exists w1 w2, drain ((B "0AZCx017900C1" ++ [13; 10]) ++ ex_zc 5 2 ++ ex_zc 20 9) = Ok ([PInvalid (B "0AZCx017900C1" ++ [13]) w1; PInvalid [10] w2; PAscii (B "ZC005200"); PAscii (B "ZC020900")], [])) /\
  (exists w, drain ((ex_zc 17 9 ++ B "0") ++ ex_zc 5 2 ++ ex_zc 20 9) = Ok ([PAscii (B "ZC017900"); PInvalid (B "00AZ") w], B "C005200CB" ++ [13; 10] ++ ex_zc 20 9)).
Proof.
  split; [exists (B "0AZC017900C1"), 13, [10]; repeat split; vm_compute; reflexivity|]. split; [exists (B "0AZC"), 120, (B "017900C1" ++ [13; 10]); repeat split; vm_compute; reflexivity|].
  split; [eexists _, _; vm_compute; reflexivity|]. split; [eexists _, _; vm_compute; reflexivity | eexists; vm_compute; reflexivity].
Qed.

Print Assumptions C132_one_packet_partial.
Print Assumptions C132_rp_packet_partial.
Print Assumptions C132_before_partial.
Print Assumptions C132_wrong_byte_refuted.
Print Assumptions C132_deaf_refuted.
Print Assumptions C133_lost_refuted.
Print Assumptions C133_deaf_refuted.
Print Assumptions C133_added_partial.
Print Assumptions C133_added_refuted.
