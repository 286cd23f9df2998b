(* PropPkt.v: the packet-layer properties C01-C11.
   Statements are about decode/encode/TryFrom (Pkt.v) and use only the specifications of
   SpecPkt.v.  u8s says that list elements are bytes (representation invariant of list N). *)
From Verif Require Import Pkt SpecPkt BaseFacts CrcFacts PktFacts DecodeFacts.
From Coq Require Import ZifyBool ZifyNat ZifyN.

(* Sample data for the non-vacuity examples (from the unit tests pkt.rs:507-563). *)
Definition ex_ascii_body : bytes := B "EE11030000100".
Definition ex_ascii : bytes := B "0FEE11030000100EA" ++ [13; 10].
Definition ex_rp_body : bytes := B "foo" ++ [16] ++ B "bar".
Definition ex_rp : bytes := [16; 2] ++ B "foo" ++ [16; 16] ++ B "bar" ++ [16; 3; 124; 99].
Definition ex_stream : bytes := [222; 173; 190; 239] ++ ex_ascii ++ ex_rp ++ B "1ECC".

Lemma ex_ascii_valid : valid_packet (PAscii ex_ascii_body).
Proof. split; [repeat constructor; discriminate | cbn; lia]. Qed.
Lemma ex_rp_valid : valid_packet (PRp ex_rp_body).
Proof. split; [repeat constructor | cbn; lia]. Qed.
Lemma ex_ascii_frame : frame_of (PAscii ex_ascii_body) ex_ascii.
Proof.
  exists (B "0F"), (B "EA"), 234. repeat split.
  - exists 0%nat, 15%nat, (ch "0"), (ch "F"). repeat split.
  - exists 14%nat, 10%nat, (ch "E"), (ch "A"). repeat split.
Qed.
Lemma ex_rp_frame : frame_of (PRp ex_rp_body) ex_rp.
Proof. apply rp_frame_iff; [apply ex_rp_valid | vm_compute; reflexivity]. Qed.

(* ------------------------------------------------------------------ C01 *)
Theorem C01_decode_lossless : forall src, u8s src ->
  exists ps left used,
    drain src = Ok (ps, left) /\ encode_all ps [] = Ok used /\ used ++ left = src.
Proof.
  intros src U. destruct (drain_total src U) as (ps & left & E & D).
  destruct (drains_encode _ _ _ D U) as (used & Es & He & _).
  exists ps, left, used. rewrite E, Es, He. auto.
Qed.
Theorem C01_decode_never_panics : forall src, u8s src -> exists o rest, decode src = Ok (o, rest).
Proof. exact decode_total. Qed.
Example C01_example : u8s ex_stream /\ drain ex_stream =
  Ok ([PInvalid [222; 173; 190; 239] "bytes without ASCII length or RP prefix";
       PAscii ex_ascii_body; PRp ex_rp_body], B "1ECC").
Proof. split; [repeat constructor | vm_compute; reflexivity]. Qed.

(* ------------------------------------------------------------------ C02 *)
(* TryFrom accepts exactly the documented bodies, and keeps them. *)
Theorem C02_try_from_exact :
  (forall s b, ascii_try_from s = Ok b <-> ascii_body s /\ b = s) /\
  (forall s d, u8s s -> (rp_try_from s = Ok d <-> rp_body s /\ d = s)).
Proof. split; [exact ascii_try_from_spec | exact rp_try_from_spec]. Qed.
Theorem C02_encode_decode : forall p, valid_packet p ->
  exists f, (forall to, encode p to = Ok (to ++ f)) /\
    forall rest, u8s rest -> decode (f ++ rest) = Ok (Some p, rest).
Proof.
  intros p V. destruct (encode_valid p V) as (f & HF & HE). exists f. split; [exact HE|].
  intros rest U. apply decode_of_frame; assumption.
Qed.
Theorem C02_encode_decode_sequence : forall ps rest, Forall valid_packet ps -> u8s rest ->
  exists fs qs left,
    encode_all ps [] = Ok fs /\ drain rest = Ok (qs, left) /\ drain (fs ++ rest) = Ok (ps ++ qs, left).
Proof.
  intros ps rest HV U.
  assert (X : exists fs, Forall2 frame_of ps fs /\ u8s (concat fs) /\ forall to, encode_all ps to = Ok (to ++ concat fs)).
  { clear U. induction HV as [|p ps Vp HV IH].
    - exists []. repeat split; try constructor. intros to. cbn. rewrite app_nil_r. reflexivity.
    - destruct IH as (fs & H1 & H2 & H3). destruct (encode_valid p Vp) as (f & HF & HE).
      exists (f :: fs). repeat split; [constructor; auto | cbn; apply u8s_app; split; [apply (frame_of_valid p f); auto | auto] |].
      intros to. cbn [encode_all concat]. rewrite HE. cbn [bind]. rewrite H3, app_assoc. reflexivity. }
  destruct X as (fs & H1 & H2 & H3). destruct (drain_total rest U) as (qs & left & E & D).
  exists (concat fs), qs, left. split; [apply H3|]. split; [exact E|].
  apply drain_iff; [apply u8s_app; auto|]. apply drains_frames; auto.
Qed.
Example C02_example : valid_packet (PAscii ex_ascii_body) /\ valid_packet (PRp ex_rp_body) /\
  encode (PAscii ex_ascii_body) [] = Ok ex_ascii /\ encode (PRp ex_rp_body) [] = Ok ex_rp /\
  rp_try_from ex_rp_body = Ok ex_rp_body.
Proof. split; [exact ex_ascii_valid|]. split; [exact ex_rp_valid|]. vm_compute. auto. Qed.

(* ------------------------------------------------------------------ C03 *)
Theorem C03_prefix_waits : forall p f pre s, valid_packet p -> encode p [] = Ok f ->
  f = pre ++ s -> s <> [] -> decode pre = Ok (None, pre).
Proof.
  intros p f pre s V E. destruct (encode_valid p V) as (f' & HF & HE). rewrite HE in E. injection E as <-.
  apply prefix_waits with (p := p); assumption.
Qed.
Example C03_example : decode (firstn 9 ex_rp) = Ok (None, firstn 9 ex_rp) /\ firstn 9 ex_rp ++ skipn 9 ex_rp = ex_rp.
Proof. vm_compute. auto. Qed.

(* ------------------------------------------------------------------ C04 (decoder part; the Connection is in PropConn.v) *)
Theorem C04_more_bytes_same_packet : forall src p rest more, u8s src -> u8s more ->
  decode src = Ok (Some p, rest) -> decode (src ++ more) = Ok (Some p, rest ++ more).
Proof. exact decode_mono. Qed.
(* Append one chunk after the other to the buffer, draining it after each. *)
Fixpoint drain_chunks (buf : bytes) (chunks : list bytes) : res (list packet * bytes) :=
  match chunks with
  | [] => Ok ([], buf)
  | c :: cs => r <- drain (buf ++ c) ;; t <- drain_chunks (snd r) cs ;; Ok (fst r ++ fst t, snd t)
  end.
Lemma drain_chunks_drains chunks : forall buf, u8s buf -> Forall u8s chunks -> chunks <> [] ->
  exists ps left, drain_chunks buf chunks = Ok (ps, left) /\ drains (buf ++ concat chunks) ps left.
Proof.
  induction chunks as [|c cs IH]; intros buf Ub Uc Hne; [congruence|].
  inversion Uc as [|? ? U1 Ucs]; subst. assert (Ubc : u8s (buf ++ c)) by (apply u8s_app; auto).
  destruct (drain_total _ Ubc) as (ps & left & E & D). cbn [drain_chunks]. rewrite E. cbn [bind snd fst].
  destruct cs as [|c' cs].
  - cbn [drain_chunks bind fst snd concat]. rewrite !app_nil_r. eauto.
  - destruct (IH left (drains_u8s _ _ _ D Ubc) Ucs) as (qs & left' & -> & D'); [discriminate|].
    cbn [bind fst snd]. eexists _, _. split; [reflexivity|].
    cbn [concat] in *. rewrite app_assoc. eapply drains_app; eauto.
    rewrite <- (app_nil_r (c' ++ _)). clear -Ucs. apply u8s_app. split; [|constructor].
    inversion Ucs; subst. apply u8s_app. split; [assumption|]. clear -H2. induction H2; [constructor|].
    cbn. apply u8s_app. auto.
Qed.
Theorem C04_chunking_irrelevant : forall chunks, Forall u8s chunks -> chunks <> [] ->
  drain_chunks [] chunks = drain (concat chunks).
Proof.
  intros chunks U Hne. destruct (drain_chunks_drains chunks [] ltac:(constructor) U Hne) as (ps & left & -> & D).
  symmetry. apply drain_iff; [|exact D].
  clear -U. induction U; [constructor|]. cbn. apply u8s_app. auto.
Qed.
Example C04_example : drain_chunks [] [firstn 3 ex_stream; firstn 9 (skipn 3 ex_stream); skipn 12 ex_stream] = drain ex_stream.
Proof. vm_compute. reflexivity. Qed.

(* ------------------------------------------------------------------ C05 *)
(* The complete case analysis of Packet::decode: it answers exactly as SpecPkt.decodes says. *)
Theorem C05_decode_characterised : forall src o rest, u8s src ->
  (decode src = Ok (o, rest) <-> decodes src o rest).
Proof. intros src o rest U. split; [apply decode_inv | apply decode_exact]; exact U. Qed.
Theorem C05_ascii_frames_exact : forall src body rest, u8s src ->
  (decode src = Ok (Some (PAscii body), rest) <->
   ascii_body body /\ exists frame, ascii_frame body frame /\ src = frame ++ rest).
Proof.
  intros src body rest U. split.
  - intros E. destruct (decode_some_inv _ _ _ U E) as (raw & Es & _ & _ & HF & HV). split; [exact HV | eauto].
  - intros (HB & frame & HF & ->). apply decode_of_frame; auto. apply u8s_app in U. tauto.
Qed.
Theorem C05_rp_frames_exact : forall src d rest, u8s src ->
  (decode src = Ok (Some (PRp d), rest) <->
   exists frame, rp_frame d frame /\ (length frame <= N.to_nat 1024)%nat /\ src = frame ++ rest).
Proof.
  intros src d rest U. split.
  - intros E. destruct (decode_some_inv _ _ _ U E) as (raw & Es & L & _ & HF & HV). exists raw. repeat split; auto. lia.
  - intros (frame & HF & L & ->). apply decode_exact; [exact U|]. apply D_rp; assumption.
Qed.
Example C05_example : ascii_frame ex_ascii_body ex_ascii /\ rp_frame ex_rp_body ex_rp.
Proof. split; [exact ex_ascii_frame | exact ex_rp_frame]. Qed.

(* ------------------------------------------------------------------ C06 *)
Theorem C06_progress_and_bound : forall src p rest, u8s src -> decode src = Ok (Some p, rest) ->
  exists raw, src = raw ++ rest /\ (1 <= length raw <= N.to_nat 1024)%nat /\
    (forall raw' why, p = PInvalid raw' why -> raw' = raw).
Proof.
  intros src p rest U E. destruct (decode_some_inv _ _ _ U E) as (raw & Es & L & _ & HF & _).
  exists raw. repeat split; auto; try lia. intros raw' why ->. symmetry. exact HF.
Qed.
Theorem C06_none_leaves_buffer : forall src rest, u8s src -> decode src = Ok (None, rest) -> rest = src.
Proof. exact decode_none_inv. Qed.
Theorem C06_drain_at_most_n_packets : forall src ps left, u8s src -> drain src = Ok (ps, left) ->
  (length ps + length left <= length src)%nat.
Proof.
  intros src ps left U E. apply (drain_iff _ _ _ U) in E.
  destruct (drains_encode _ _ _ E U) as (used & -> & _ & L). rewrite app_length. lia.
Qed.
Example C06_example : decode (repeat 255 (N.to_nat 2000)) =
  Ok (Some (PInvalid (repeat 255 (N.to_nat 1024)) "bytes without ASCII length or RP prefix"), repeat 255 (N.to_nat 976)).
Proof. vm_compute. reflexivity. Qed.

(* ------------------------------------------------------------------ C07 *)
(* False as stated: *)
Theorem C07_bounded_buffering_refuted : exists src, u8s src /\ (N.to_nat 1025 < length src)%nat /\
  decode src = Ok (None, src).
Proof.
  exists ([16; 2] ++ repeat 0 (N.to_nat 1020) ++ [16; 3] ++ repeat 0 100).
  split; [apply Forall_forall; intros x Hx; repeat (apply in_app_or in Hx as [Hx|Hx]);
          try apply repeat_spec in Hx; cbn in Hx; lia|].
  split; [rewrite !app_length, !repeat_length; cbn [length]; lia | vm_compute; reflexivity].
Qed.
(* and once stalled, the buffer grows with everything that arrives and nothing is ever returned: *)
Theorem C07_stall_is_forever : forall src more, u8s src -> u8s more -> (N.to_nat 1025 < length src)%nat ->
  decode src = Ok (None, src) -> decode (src ++ more) = Ok (None, src ++ more).
Proof. exact decode_stalled_forever. Qed.
(* What holds: beyond 1025 bytes, decode waits exactly on the buffers that start with an RP header
   and an escaped body of 1019 or 1020 bytes followed by DLE ETX.
   Missing from C07: those buffers. *)
Theorem C07_bounded_buffering_partial : forall src, u8s src -> (N.to_nat 1025 < length src)%nat ->
  (decode src = Ok (None, src) <->
   exists d tail, src = [16; 2] ++ dle_double d ++ [16; 3] ++ tail /\
     (length (dle_double d) = N.to_nat 1019 \/ length (dle_double d) = N.to_nat 1020)).
Proof. exact decode_waits_exactly. Qed.
Theorem C07_otherwise_a_packet_partial : forall src, u8s src -> (N.to_nat 1025 < length src)%nat ->
  (forall d tail, src = [16; 2] ++ dle_double d ++ [16; 3] ++ tail ->
     length (dle_double d) <> N.to_nat 1019 /\ length (dle_double d) <> N.to_nat 1020) ->
  exists p rest, decode src = Ok (Some p, rest).
Proof. exact decode_gets_unless_stalled. Qed.
Example C07_example : exists p rest, decode (repeat 48 (N.to_nat 1026)) = Ok (Some p, rest).
Proof. eexists _, _. vm_compute. reflexivity. Qed.

(* ------------------------------------------------------------------ C08 *)
(* f is the encoding of an ASCII packet, one byte a of it is replaced by v. *)
Theorem C08_ascii_single_corruption_detected : forall body f x a v y s,
  ascii_body body -> encode (PAscii body) [] = Ok f ->
  f = x ++ a :: y -> v <> a -> v < 256 -> u8s s ->
  forall p rest, decode ((x ++ v :: y) ++ s) = Ok (Some p, rest) -> exists raw why, p = PInvalid raw why.
Proof.
  intros body f x a v y s HB E. destruct (encode_valid (PAscii body) HB) as (f' & HF & HE).
  rewrite HE in E. injection E as <-. apply ascii_corrupt with (body := body); assumption.
Qed.
Example C08_example : exists rest,
  decode (B "0FEE11030000110EA" ++ [13; 10]) = Ok (Some (PInvalid (B "0FEE11030000110EA" ++ [13; 10]) "ASCII packet doesn't have expected checksum E9"), rest).
Proof. eexists. vm_compute. reflexivity. Qed.

(* ------------------------------------------------------------------ C09 *)
Theorem C09_crc_is_xmodem : forall d f, u8s d -> encode (PRp d) [] = Ok f ->
  exists front hi lo, f = front ++ [hi; lo] /\ hi < 256 /\ lo < 256 /\
    forall c, crc16_xmodem d c <-> c = hi * 256 + lo.
Proof.
  intros d f U E. cbn [encode] in E. rewrite rp_encode_eq in E. injection E as <-.
  exists ([16; 2] ++ dle_double d ++ [16; 3]), (crc d / 256), (crc d mod 256).
  pose proof (crc_lt d U) as L.
  split; [cbn; rewrite <- app_assoc; reflexivity|].
  split; [apply N.div_lt_upper_bound; [discriminate | exact L]|].
  split; [apply N.mod_lt; discriminate|].
  intros c. rewrite (crc_correct d c U). rewrite (N.mul_comm _ 256), <- N.div_mod by discriminate. reflexivity.
Qed.
(* the usual check value of CRC-16/XMODEM *)
Example C09_example : u8s (B "123456789") /\ crc (B "123456789") = 12739 (* 0x31C3 *).
Proof. split; [repeat constructor | vm_compute; reflexivity]. Qed.

(* ------------------------------------------------------------------ C10 *)
(* one body byte changed, neither value being DLE *)
Theorem C10_rp_body_corruption_detected : forall d f P a v Q hi lo s,
  rp_body d -> encode (PRp d) [] = Ok f ->
  f = [16; 2] ++ P ++ a :: Q ++ [16; 3] ++ [hi; lo] -> a <> 16 -> v <> 16 -> v <> a -> v < 256 -> u8s s ->
  let f' := [16; 2] ++ P ++ v :: Q ++ [16; 3] ++ [hi; lo] in
  exists why, decode (f' ++ s) = Ok (Some (PInvalid f' why), s).
Proof.
  intros d f P a v Q hi lo s HB E. destruct (encode_valid (PRp d) HB) as (f' & HF & HE).
  rewrite HE in E. injection E as <-. apply (rp_corrupt_body d f'); assumption.
Qed.
(* the two CRC bytes changed in any way *)
Theorem C10_rp_crc_corruption_detected : forall d f P hi lo hi' lo' s,
  rp_body d -> encode (PRp d) [] = Ok f ->
  f = P ++ [hi; lo] -> (hi', lo') <> (hi, lo) -> hi' < 256 -> lo' < 256 -> u8s s ->
  let f' := P ++ [hi'; lo'] in
  exists why, decode (f' ++ s) = Ok (Some (PInvalid f' why), s).
Proof.
  intros d f P hi lo hi' lo' s HB E. destruct (encode_valid (PRp d) HB) as (f' & HF & HE).
  rewrite HE in E. injection E as <-. apply (rp_corrupt_crc d f'); assumption.
Qed.
Example C10_example : rp_body ex_rp_body /\ encode (PRp ex_rp_body) [] =
  Ok ([16; 2] ++ B "foo" ++ [16; 16] ++ B "b" ++ ch "a" :: B "r" ++ [16; 3] ++ [124; 99]).
Proof. split; [exact ex_rp_valid | vm_compute; reflexivity]. Qed.

(* ------------------------------------------------------------------ C11 *)
(* Stronger than stated: the garbage g may hold any bytes, as long as no position in it looks like the
   start of a packet. *)
Theorem C11_resync_general : forall p f s g, valid_packet p -> encode p [] = Ok f -> u8s s -> u8s g ->
  (forall i, (i < length g)%nat -> ~ begins_packet (skipn i (g ++ f ++ s))) ->
  exists pieces invalids qs left,
    concat pieces = g /\ Forall (fun x => (1 <= length x <= N.to_nat 1024)%nat) pieces /\
    Forall2 (fun raw q => exists why, q = PInvalid raw why) pieces invalids /\
    drain s = Ok (qs, left) /\
    drain (g ++ f ++ s) = Ok (invalids ++ p :: qs, left).
Proof.
  intros p f s g V E Us Ug Hno. destruct (encode_valid p V) as (f' & HF & HE). rewrite HE in E. injection E as <-.
  destruct (drain_total s Us) as (qs & left & Es & D).
  destruct (resync_general p f' s V HF Us (length g) g (le_n _) Ug Hno qs left D) as (pieces & ips & H1 & H2 & H3 & H4).
  exists pieces, ips, qs, left. repeat split; auto.
  apply drain_iff; [|exact H4]. rewrite !u8s_app. repeat split; auto. apply (frame_of_valid p f'); auto.
Qed.
Theorem C11_resync_after_garbage : forall p f s g, valid_packet p -> encode p [] = Ok f -> u8s s ->
  Forall (fun b => b < 256 /\ ~ is_hex_digit b /\ b <> 16) g ->
  exists pieces invalids qs left,
    concat pieces = g /\ Forall (fun x => (1 <= length x <= N.to_nat 1024)%nat) pieces /\
    Forall2 (fun raw q => exists why, q = PInvalid raw why) pieces invalids /\
    drain s = Ok (qs, left) /\
    drain (g ++ f ++ s) = Ok (invalids ++ p :: qs, left).
Proof.
  intros p f s g V E Us Hg. apply C11_resync_general; auto.
  - eapply Forall_impl; [|exact Hg]. cbn. tauto.
  - intros i Hi. apply junk_no_begin; assumption.
Qed.
Example C11_example : exists i1 i2, drain (repeat 255 (N.to_nat 1030) ++ ex_ascii ++ B "x") =
  Ok ([PInvalid (repeat 255 (N.to_nat 1024)) i1; PInvalid (repeat 255 6) i2; PAscii ex_ascii_body], B "x").
Proof. eexists _, _. vm_compute. reflexivity. Qed.

Print Assumptions C01_decode_lossless.
Print Assumptions C01_decode_never_panics.
Print Assumptions C02_try_from_exact.
Print Assumptions C02_encode_decode.
Print Assumptions C02_encode_decode_sequence.
Print Assumptions C03_prefix_waits.
Print Assumptions C04_more_bytes_same_packet.
Print Assumptions C04_chunking_irrelevant.
Print Assumptions C05_decode_characterised.
Print Assumptions C05_ascii_frames_exact.
Print Assumptions C05_rp_frames_exact.
Print Assumptions C06_progress_and_bound.
Print Assumptions C06_none_leaves_buffer.
Print Assumptions C06_drain_at_most_n_packets.
Print Assumptions C07_bounded_buffering_refuted.
Print Assumptions C07_stall_is_forever.
Print Assumptions C07_bounded_buffering_partial.
Print Assumptions C07_otherwise_a_packet_partial.
Print Assumptions C08_ascii_single_corruption_detected.
Print Assumptions C09_crc_is_xmodem.
Print Assumptions C10_rp_body_corruption_detected.
Print Assumptions C10_rp_crc_corruption_detected.
Print Assumptions C11_resync_general.
Print Assumptions C11_resync_after_garbage.
