(* PropLog.v: the property C84: the characters printed and logged identify what they stand for. *)
From Verif Require Import Base BaseFacts Pkt SpecPkt CrcFacts PktFacts DecodeFacts Msg SpecMsg DecFacts MsgFacts WireFacts IsoFacts Tokio SpecConn ConnFacts
  State SpecState StateFacts RunFacts HistFacts ExState PropState PropMsg Serde SerdeFacts PropSerde Fmt PropFmt ShowFacts SpecReason ReasonFacts
  Cli SpecCli PropPkt PropCli FmtText SpecLog LogFacts.
From Coq Require Import ZifyBool ZifyNat ZifyN.
Ltac Zify.zify_post_hook ::= Z.div_mod_to_equations.

(* ---- texts are printable ---- *)
Definition plain (s : string) : Prop := all_printable (bytes_of_string s) = true.
Lemma plain_iff s : plain s <-> Forall printable (bytes_of_string s).
Proof. unfold plain, all_printable. rewrite (Forall_forallb printable printable_byte _ printable_byte_iff). tauto. Qed.
Lemma printable_all s : Forall printable s -> all_printable s = true.
Proof. unfold all_printable. apply (Forall_forallb printable printable_byte _ printable_byte_iff). Qed.
Lemma plain_append a b : plain a -> plain b -> plain (a ++ b).
Proof. unfold plain, all_printable. rewrite bytes_append, forallb_app. intros -> ->. reflexivity. Qed.
Lemma plain_bytes s : Forall printable s -> plain (string_of_bytes s).
Proof. intros H. apply plain_iff. rewrite bytes_string by (apply printable_u8s; exact H). exact H. Qed.
Lemma plain_dec n : plain (show_dec n).
Proof. apply plain_bytes, printable_digits, fmt_dec_spec. Qed.
Lemma plain_len {A} (s : list A) : plain (show_len s).
Proof. apply plain_dec. Qed.
Lemma plain_slice s : plain (show_slice s).
Proof.
  unfold show_slice. apply plain_append; [reflexivity|]. apply plain_append; [|reflexivity].
  induction s as [|c s IH]; [reflexivity|]. cbn [map String.concat]. destruct (map show_dec s) eqn:E; [apply plain_dec|].
  apply plain_append; [apply plain_dec|]. apply plain_append; [reflexivity | exact IH].
Qed.
Lemma plain_char c : c <= 126 -> plain (show_char c).
Proof.
  intros H. unfold show_char. apply plain_bytes. rewrite !Forall_app.
  assert (D : forall d, d < 16 -> printable (if d <? 10 then ch "0" + d else ch "a" + (d - 10))).
  { intros d Hd. unfold printable. change (ch "0") with 48. change (ch "a") with 97. destruct (N.ltb_spec d 10); lia. }
  split; [repeat constructor; cbn; lia|]. split; [|repeat constructor; cbn; lia]. unfold escape_char.
  destruct (c =? 0); [repeat constructor; cbn; lia|]. destruct (c =? 9); [repeat constructor; cbn; lia|]. destruct (c =? 10); [repeat constructor; cbn; lia|].
  destruct (c =? 13); [repeat constructor; cbn; lia|]. destruct (N.eqb_spec c (ch "'")) as [-> |_]; [repeat constructor; cbn; lia|]. destruct (c =? _); [repeat constructor; cbn; lia|].
  destruct ((32 <=? c) && (c <=? 126)) eqn:E; [repeat constructor; lia|]. replace ((c <? 161) || (c =? 173)) with true by lia.
  rewrite !Forall_app. split; [repeat constructor; cbn; lia|]. split; [destruct (c <? 16); [constructor | apply printable_1, D; lia]|].
  split; [apply printable_1, D; lia | repeat constructor; cbn; lia].
Qed.
Ltac plains :=
  repeat match goal with
  | |- plain (_ ++ _) => apply plain_append
  | |- plain (show_dec _) => apply plain_dec
  | |- plain (show_len _) => apply plain_len
  | |- plain (show_slice _) => apply plain_slice
  | |- plain (show_char _) => apply plain_char
  | |- plain _ => reflexivity
  end.
Lemma byte_small i data : Forall printable data -> byte i data <= 126.
Proof.
  intros H. unfold byte. destruct (Nat.lt_ge_cases i (length data)) as [L|L]; [|rewrite nth_overflow by exact L; lia].
  rewrite Forall_forall in H. specialize (H _ (nth_In data 0 L)). unfold printable in H. lia.
Qed.
Lemma fv_in_plain l why : first_violated l why -> Forall (fun c : check => plain (snd c)) l -> plain why.
Proof. induction 1; intros F; inversion F; subst; auto. Qed.
Lemma number_plain name s l : plain name -> Forall (fun c : check => plain (snd c)) l -> Forall (fun c : check => plain (snd c)) (a_number name s ++ l).
Proof. intros P F. repeat (apply Forall_cons; [cbn [snd]; apply plain_append; [exact P|]; plains|]). exact F. Qed.
Lemma ranged_plain name s lo hi l : plain name -> Forall (fun c : check => plain (snd c)) l -> Forall (fun c : check => plain (snd c)) (ranged name s lo hi ++ l).
Proof. intros P F. unfold ranged. rewrite <- app_assoc. apply number_plain; [exact P|]. apply Forall_cons; [cbn [snd]; apply plain_append; [exact P | reflexivity] | exact F]. Qed.
Ltac check_plain := repeat match goal with
  | |- Forall _ (a_number _ _ ++ _) => apply number_plain; [reflexivity|]
  | |- Forall _ (a_number _ _) => rewrite <- (app_nil_r (a_number _ _)); apply number_plain; [reflexivity|]
  | |- Forall _ (ranged _ _ _ _ ++ _) => apply ranged_plain; [reflexivity|]
  | |- Forall _ (_ ++ _) => rewrite <- ?app_assoc; cbn [app]
  | |- Forall _ (_ :: _) => apply Forall_cons; [cbn [snd at_least limited one_of hexadigit text_type]; plains; try (apply byte_small; assumption)|]
  | |- Forall _ [] => apply Forall_nil
  end.
Lemma malformed_plain body why : Forall printable body -> malformed body why -> plain why.
Proof.
  intros P M. destruct M as [_|lvl c data w E _ _ V|cmd data l w E _ HI V]; [reflexivity| |].
  - eapply fv_in_plain; [exact V|]. unfold arm_checks. check_plain.
  - assert (PD : Forall printable data) by (rewrite E in P; apply Forall_app in P; apply P). eapply fv_in_plain; [exact V|].
    cbn [checks_of In] in HI. repeat (destruct HI as [HI|HI]; [injection HI as <- <-|]); [| | | | | | | | | | |destruct HI].
    + unfold as_checks. apply Forall_cons; [reflexivity|]. apply Forall_app. split; [|check_plain]. apply Forall_forall. intros x Hx. apply in_flat_map in Hx as (i & _ & Hx).
      cbn [In] in Hx. destruct Hx as [<-|[<-|[<-|[]]]]; cbn [snd one_of]; plains; apply byte_small; exact PD.
    + unfold ee_checks. check_plain.
    + unfold ic_checks. check_plain.
    + unfold rtc_checks. check_plain.
    + unfold sdq_checks. check_plain.
    + unfold sd_checks. check_plain.
    + unfold task_checks. check_plain.
    + unfold task_checks. check_plain.
    + unfold rtc_checks. check_plain.
    + unfold zc_checks. check_plain.
    + unfold zs_checks. apply Forall_cons; [cbn [snd at_least]; plains|]. apply Forall_map, Forall_forall. intros i _. cbn [snd hexadigit]. plains. apply byte_small. exact PD.
Qed.
Lemma hexes_printable s n : hex_value s n -> Forall printable s.
Proof.
  induction 1 as [|s n i c _ IH D]; [constructor|]. apply Forall_app. split; [exact IH|]. apply printable_1. unfold hex_digit in D.
  do 16 (destruct i as [|i]; [injection D as <-; unfold printable; lia|]). destruct i; discriminate.
Qed.
Lemma reason_plain raw rest why : explains raw rest why -> plain why.
Proof.
  intros X. destruct X; unfold says; try reflexivity; (apply plain_append; [reflexivity|]; apply plain_bytes).
  - match goal with H : hex2 _ right_cc |- _ => apply hex2_range in H; eapply Forall_impl; [|exact H]; unfold printable; cbv beta; intros; lia end.
  - match goal with H : numeral _ i |- _ => apply printable_digits; apply H end.
  - match goal with H : hex_numeral _ s |- _ => eapply hexes_printable; apply H end.
  - match goal with H : hex_numeral _ s |- _ => eapply hexes_printable; apply H end.
Qed.

(* ---- values without dumps ---- *)
Fixpoint dumps (d : dbg) : bool :=
  match d with
  | DHex _ => true
  | DTuple _ fs => existsb dumps fs
  | DStruct _ fs => existsb (fun f => dumps (snd f)) fs
  | DList ds => existsb dumps ds
  | DMap es => existsb (fun e => dumps (snd e)) es
  | _ => false
  end.
Lemma no_dumps_text hex hex' d : dumps d = false -> forall l, dbg_text hex l d = dbg_text hex' l d.
Proof.
  assert (X : forall A (f : A -> bool) l, existsb f l = false -> forall x, In x l -> f x = false).
  { intros A f l H x Hx. destruct (f x) eqn:Q; [|reflexivity]. rewrite <- H. symmetry. apply existsb_exists. eauto. }
  induction d as [n|b|s|s|b|s|s fs IH|s fs IH|ds IH|es IH] using dbg_induct; intros H l; cbn [dumps] in H; try reflexivity; try discriminate;
    rewrite Forall_forall in IH; pose proof (X _ _ _ H) as Y; clear H.
  - assert (M : map (dbg_text hex (option_map S l)) fs = map (dbg_text hex' (option_map S l)) fs) by (apply map_ext_in; intros x Hx; apply IH; auto).
    cbn [dbg_text]. destruct fs; [reflexivity|]. rewrite M. reflexivity.
  - assert (M : map (fun f => bytes_of_string (fst f) ++ B ": " ++ dbg_text hex (option_map S l) (snd f)) fs =
                map (fun f => bytes_of_string (fst f) ++ B ": " ++ dbg_text hex' (option_map S l) (snd f)) fs).
    { apply map_ext_in. intros x Hx. rewrite (IH x Hx) by (apply (Y x Hx)). reflexivity. }
    cbn [dbg_text]. destruct fs; [reflexivity|]. rewrite M. reflexivity.
  - cbn [dbg_text]. f_equal. f_equal. f_equal. apply map_ext_in. intros x Hx. apply IH; auto.
  - cbn [dbg_text]. f_equal. f_equal. f_equal. apply map_ext_in. intros x Hx. rewrite (IH x Hx) by (apply (Y x Hx)). reflexivity.
Qed.
(* A dump in the manner of pretty_hex. *)
Definition plain_dump (b : bytes) : bytes :=
  B "Length: " ++ fmt_dec (N.of_nat (length b)) ++ B " bytes" ++ [10] ++ flat_map (fun c => [hex_upper (c / 16); hex_upper (c mod 16); ch " "]) b.
Lemma hex_upper_inj a b : a < 16 -> b < 16 -> hex_upper a = hex_upper b -> a = b.
Proof. unfold hex_upper. change (ch "0") with 48. change (ch "A") with 65. intros. destruct (N.ltb_spec a 10), (N.ltb_spec b 10); lia. Qed.
Lemma plain_dump_ok : dump_ok plain_dump.
Proof.
  split; [intros b; eexists; reflexivity|]. intros b b' r r' U U' E. unfold plain_dump in E. rewrite <- !app_assoc in E. apply app_inv_head in E.
  apply dec_tells in E as [L E]; [|reflexivity .. ]. apply Nat2N.inj in L. apply app_inv_head in E. apply app_inv_head in E.
  revert b' L U' E. induction b as [|c b IH]; intros [|c' b'] L U' E; try discriminate; [reflexivity|]. inversion_clear U. inversion_clear U'.
  cbn [flat_map app] in E. injection E as E1 E2 E. apply hex_upper_inj in E1; [|lia ..]. apply hex_upper_inj in E2; [|lia ..]. f_equal; [lia|]. apply IH; auto.
Qed.

(* ---- messages ---- *)
Ltac by_cases x := destruct x; reflexivity.
Definition message_like (d : dbg) : Prop := nice d = true /\ dumps d = false /\ norm d = d.
Lemma ml_list {A} (f : A -> dbg) l : (forall x, message_like (f x)) -> message_like (DList (map f l)).
Proof.
  intros H. unfold message_like. cbn [nice dumps norm]. rewrite map_map. repeat split.
  - apply forallb_forall. intros d Hd. apply in_map_iff in Hd as (x & <- & _). apply H.
  - apply Bool.not_true_is_false. intros Q. apply existsb_exists in Q as (d & Hd & Q). apply in_map_iff in Hd as (x & <- & _). destruct (H x) as (_ & Dx & _). congruence.
  - f_equal. apply map_ext. intros x. apply H.
Qed.
Lemma ml_map es : Forall (fun e => message_like (snd e)) es -> message_like (DMap es).
Proof.
  rewrite Forall_forall. intros H. unfold message_like. cbn [nice dumps norm]. repeat split.
  - apply forallb_forall. intros d Hd. apply (H d Hd).
  - apply Bool.not_true_is_false. intros Q. apply existsb_exists in Q as (d & Hd & Q). destruct (H d Hd) as (_ & D & _). congruence.
  - f_equal. rewrite <- (map_id es) at 2. apply map_ext_in. intros [n d] Hd. destruct (H _ Hd) as (_ & _ & E). cbn [fst snd] in *. rewrite E. reflexivity.
Qed.
Lemma ml_tuple s fs : is_name s = true -> fs <> [] -> Forall message_like fs -> message_like (DTuple s fs).
Proof.
  rewrite Forall_forall. intros Hs NE H. unfold message_like. cbn [nice dumps norm]. rewrite Hs. repeat split.
  - destruct fs; [congruence|]. apply forallb_forall. intros x Hx. apply (H x Hx).
  - apply Bool.not_true_is_false. intros Q. apply existsb_exists in Q as (d & Hd & Q). destruct (H d Hd) as (_ & D & _). congruence.
  - f_equal. rewrite <- (map_id fs) at 2. apply map_ext_in. intros d Hd. apply (H d Hd).
Qed.
Lemma ml_struct s fs : is_name s = true -> fs <> [] -> Forall (fun f => is_name (fst f) = true /\ message_like (snd f)) fs -> message_like (DStruct s fs).
Proof.
  rewrite Forall_forall. intros Hs NE H. unfold message_like. cbn [nice dumps norm]. rewrite Hs. repeat split.
  - destruct fs; [congruence|]. apply forallb_forall. intros x Hx. destruct (H x Hx) as (-> & N & _). exact N.
  - apply Bool.not_true_is_false. intros Q. apply existsb_exists in Q as (d & Hd & Q). destruct (H d Hd) as (_ & _ & D & _). congruence.
  - f_equal. rewrite <- (map_id fs) at 2. apply map_ext_in. intros [n d] Hd. destruct (H _ Hd) as (_ & _ & _ & E). cbn [fst snd] in *. rewrite E. reflexivity.
Qed.
Lemma ml_num n : message_like (DNum n). Proof. repeat split. Qed.
Lemma ml_bool b : message_like (DBool b). Proof. repeat split. Qed.
Lemma ml_str s : Forall printable s -> message_like (DStr s).
Proof. intros H. split; [|repeat split]. cbn [nice]. apply printable_all. exact H. Qed.
Lemma ml_word s : is_name s = true -> message_like (DWord s). Proof. intros H. repeat split. exact H. Qed.
Ltac word x := apply ml_word; destruct x; reflexivity.
Ltac struct := apply ml_struct; [reflexivity | discriminate | repeat (apply Forall_cons; [split; [reflexivity | cbn [snd]] |]); [..| apply Forall_nil]].
Ltac tuple := apply ml_tuple; [reflexivity | discriminate | repeat (apply Forall_cons; [|]); [..| apply Forall_nil]].
Lemma ml_report r : message_like (ArmingStatusReport_dbg r).
Proof. struct; [apply ml_list; intros x; word x .. | apply ml_num]. Qed.
Lemma ml_status s : s < 16 -> message_like (status_words s).
Proof.
  intros H. tuple; apply ml_word.
  - unfold logical_word. assert (L : (N.to_nat (s / 4) < 4)%nat) by lia. destruct (N.to_nat (s / 4)) as [|[|[|[|k]]]]; try reflexivity. lia.
  - unfold physical_word. assert (L : (N.to_nat (s mod 4) < 4)%nat) by lia. destruct (N.to_nat (s mod 4)) as [|[|[|[|k]]]]; try reflexivity. lia.
Qed.
Lemma ml_zones z : Forall (fun s => s < 16) z -> message_like (zones_tree z).
Proof.
  intros F. apply ml_map, Forall_forall. intros [n d] H. apply entries_in in H as (k & x & E & _ & _ & ->). apply ml_status.
  rewrite Forall_forall in F. apply F. eapply nth_error_In. exact E.
Qed.
Lemma trim_printable s : Forall printable s -> Forall printable (trim_end s).
Proof. intros H. destruct (trim_end_spec s) as (k & E & _). rewrite E in H. apply Forall_app in H. apply H. Qed.
Lemma ml_names l : Forall text_ok l -> message_like (DMap (entries (fun t => negb (hd 0 t =? ch " ")) (fun t => DStr (trim_end t)) 0 l)).
Proof.
  intros F. apply ml_map, Forall_forall. intros [n d] H. apply entries_in in H as (k & x & E & _ & _ & ->). apply ml_str, trim_printable.
  rewrite Forall_forall in F. apply (F x). eapply nth_error_In. exact E.
Qed.
Lemma ml_date d : message_like (DateTime_dbg d).
Proof.
  apply ml_str. unfold to_iso_8601. rewrite !Forall_app. repeat match goal with |- _ /\ _ => split end; try (apply printable_digits; unfold fmt_pad; apply Forall_app; split; [apply digits_zeros | apply fmt_dec_spec]); repeat (apply Forall_cons; [unfold printable; cbn; lia|]); apply Forall_nil.
Qed.
Lemma ml_rtc r : message_like (RtcData_dbg r).
Proof. struct; [apply ml_date | word (weekday r) | apply ml_bool | word (clock_display r) | word (date_display r)]. Qed.
Lemma message_is_like m : wf_message m -> message_like (message_tree m).
Proof.
  intros W. destruct m as [m| |m|m|m| |m|m|m|m|m|m|m| |m]; cbn [message_tree Message_dbg wf_message] in *; tuple; try (apply ml_word; reflexivity).
  - struct; [apply ml_num | word (ar_level m) | apply ml_str, printable_digits; apply W].
  - apply ml_report.
  - struct; [apply ml_num | word (ee_ty m) | apply ml_num | apply ml_num |]. destruct (ee_armed_state m) as [a|]; [tuple; word a | apply ml_word; reflexivity].
  - struct; [apply ml_list, ml_num | apply ml_num | apply ml_num].
  - struct. apply ml_rtc.
  - struct; [word (sdq_ty m) | apply ml_num].
  - struct; [word (sd_ty m) | apply ml_num | apply ml_str, trim_printable; apply W].
  - struct. apply ml_num.
  - struct. apply ml_num.
  - struct. apply ml_rtc.
  - struct; [apply ml_num | apply ml_status; apply W].
  - apply ml_zones. apply W.
Qed.

(* The line of a message in a log, on one line or indented, is that of no other message, whatever comes after it. *)
Lemma line_ends r : ends (10 :: r). Proof. cbn. tauto. Qed.
Theorem C84_text_identifies_message : forall hex l m m' d d' r r', wf_message m -> wf_message m' -> Message_dbg m = Ok d -> Message_dbg m' = Ok d' ->
  dbg_text hex l d ++ 10 :: r = dbg_text hex l d' ++ 10 :: r' -> m = m' /\ r = r'.
Proof.
  intros hex l m m' d d' r r' W W' E E' T. rewrite message_dbg_tree in E, E' by (apply wf_prints; assumption). injection E as <-. injection E' as <-.
  destruct (message_is_like m W) as (N & D & Q), (message_is_like m' W') as (N' & D' & Q').
  rewrite (no_dumps_text hex plain_dump _ D), (no_dumps_text hex plain_dump _ D') in T.
  destruct (text_tells _ plain_dump_ok _ _ _ _ _ N N' (line_ends r) (line_ends r') T) as [X R]. injection R as ->. split; [|reflexivity]. rewrite Q, Q' in X. apply message_tree_inj; assumption.
Qed.

(* ---- the state ---- *)
Lemma opt_like {A} (f : A -> dbg) o : (forall x, o = Some x -> message_like (f x)) -> message_like (opt_tree f o).
Proof. intros H. destruct o as [x|]; cbn [opt_tree]; [tuple; apply H; reflexivity | apply ml_word; reflexivity]. Qed.
Lemma state_tree p : reachable p -> exists d, PanelState_dbg (p_state p) = Ok d /\ message_like d.
Proof.
  intros R. destruct (reachable_inv _ R) as [(_ & ((_ & N1) & (_ & N2) & (_ & N3)) & ZI & _) _]. unfold PanelState_dbg. rewrite !names_tree by assumption.
  assert (EA : dbg_option (fun r => Ok (ArmingStatusReport_dbg r)) (s_arming (p_state p)) = Ok (opt_tree ArmingStatusReport_dbg (s_arming (p_state p)))) by (destruct (s_arming (p_state p)); reflexivity).
  assert (EZ : dbg_option ZoneStatusReport_dbg (s_zones (p_state p)) = Ok (opt_tree zones_tree (s_zones (p_state p)))).
  { destruct (s_zones (p_state p)) as [z|]; [|reflexivity]. cbn [dbg_option]. rewrite zones_dbg by apply (ZI z eq_refl). reflexivity. }
  rewrite EA, EZ. cbn [bind]. eexists. split; [reflexivity|].
  struct; [apply opt_like; intros; apply ml_report | apply opt_like; intros z Hz; apply ml_zones; apply (ZI z Hz) | apply ml_names; assumption ..].
Qed.
(* So is the text of a panel's state, up to names that are not listed (C64). *)
Theorem C84_text_identifies_state : forall hex l p p' d d' r r', reachable p -> reachable p' ->
  PanelState_dbg (p_state p) = Ok d -> PanelState_dbg (p_state p') = Ok d' ->
  dbg_text hex l d ++ 10 :: r = dbg_text hex l d' ++ 10 :: r' ->
  r = r' /\ s_arming (p_state p) = s_arming (p_state p') /\ s_zones (p_state p) = s_zones (p_state p') /\
  same_names (zone_names (p_state p)) (zone_names (p_state p')) /\ same_names (area_names (p_state p)) (area_names (p_state p')) /\
  same_names (task_names (p_state p)) (task_names (p_state p')).
Proof.
  intros hex l p p' d d' r r' P P' E E' T. destruct (state_tree p P) as (t & S & N & D & Q), (state_tree p' P') as (t' & S' & N' & D' & Q').
  assert (d = t) by congruence. assert (d' = t') by congruence. subst t t'.
  rewrite (no_dumps_text hex plain_dump _ D), (no_dumps_text hex plain_dump _ D') in T.
  destruct (text_tells _ plain_dump_ok _ _ _ _ _ N N' (line_ends r) (line_ends r') T) as [X R]. injection R as ->. split; [reflexivity|].
  apply (C63_log_identifies_state p p' P P'). congruence.
Qed.

(* ---- packets and events ---- *)
Definition told (p : packet) : Prop := match p with PAscii b => Forall printable b | PRp d => u8s d | PInvalid raw why => u8s raw /\ plain why end.
Lemma packet_nice p : told p -> nice (Packet_dbg p) = true.
Proof.
  destruct p as [b|d|raw why]; cbn [told]; intros H; cbn [Packet_dbg AsciiPacket_dbg RpPacket_dbg InvalidPacket_dbg nice forallb fst snd].
  - rewrite (printable_all _ H). reflexivity.
  - rewrite (proj2 (all_u8_iff _) H). reflexivity.
  - destruct H as [H1 H2]. rewrite (proj2 (all_u8_iff _) H1), H2. reflexivity.
Qed.
Lemma packet_norm p p' : norm (Packet_dbg p) = norm (Packet_dbg p') -> p = p'.
Proof.
  destruct p, p'; cbn [Packet_dbg AsciiPacket_dbg RpPacket_dbg InvalidPacket_dbg norm map fst snd]; intros E; try discriminate E; injection E; intros; subst; try reflexivity.
  match goal with H : bytes_of_string _ = bytes_of_string _ |- _ => apply string_bytes_inj in H; subst; reflexivity end.
Qed.
Lemma decoded_told src p rest : u8s src -> decode src = Ok (Some p, rest) -> told p.
Proof.
  intros U E. destruct (decode_some_inv _ _ _ U E) as (raw & Es & _ & _ & F & V). destruct p as [b|d|w why]; cbn [told].
  - apply V.
  - apply V.
  - cbn [frame_of] in F. subst raw. split; [rewrite Es in U; apply u8s_app in U; apply U|]. destruct (decode_explained _ _ _ _ U E) as [_ X]. eapply reason_plain. exact X.
Qed.
Lemma event_told p now p' r w e : pinv p -> poll_next now p = Ok (p', r, w) -> yields r e ->
  (forall k, e_pkt e = Some k -> told k) /\ (forall er, e_msg e = Some (inr er) -> plain er).
Proof.
  intros I E Y. assert (PC := poll_next_case _ _ _ _ _ I E). unfold yields in Y. pose proof (unread_u8 _ (proj1 I)) as U.
  destruct PC as [pkt m e' w' D K EP E1 E2 N M R|pkt e' D K EP E1 E2 E3 E4 E5|d m prior D U' X E1 E2 E3 E4|r' NE U' F E0]; [| | |elim (NE e); exact Y].
  - injection Y as ->. split; [|congruence]. intros k Hk. assert (k = pkt) by congruence. subst k. eapply decoded_told; eauto.
  - injection Y as ->. assert (T : told pkt) by (eapply decoded_told; eauto). split; [intros k Hk; assert (k = pkt) by congruence; subst k; exact T|].
    intros er Her. rewrite E2 in Her. destruct pkt as [b|d|raw why]; cbn [parse] in *; try discriminate.
    destruct (parse_ascii b) as [o|x|x] eqn:P; try discriminate. injection Her as <-. apply malformed_iff in P. eapply malformed_plain; [exact T | exact P].
  - injection Y as <-. split; intros; discriminate.
Qed.
Lemma opt_nice {A} (f : A -> dbg) o : (forall x, o = Some x -> nice (f x) = true) -> nice (opt_tree f o) = true.
Proof. intros H. destruct o as [x|]; [|reflexivity]. cbn [opt_tree nice forallb]. rewrite (H x eq_refl). reflexivity. Qed.
Lemma opt_norm {A} (f : A -> dbg) o o' : (forall x y, o = Some x -> o' = Some y -> norm (f x) = norm (f y) -> x = y) -> norm (opt_tree f o) = norm (opt_tree f o') -> o = o'.
Proof. intros H. destruct o as [x|], o' as [y|]; cbn; intros E; try discriminate E; [|reflexivity]. injection E as E. f_equal. apply H; auto. Qed.
(* So is the line of an event, given that dumps tell what they dump. *)
Theorem C84_text_identifies_event : forall hex l p1 t1 p1' r1 w1 e1 d1 p2 t2 p2' r2 w2 e2 d2 r r', dump_ok hex ->
  reachable p1 -> poll_next t1 p1 = Ok (p1', r1, w1) -> yields r1 e1 -> Event_dbg e1 = Ok d1 ->
  reachable p2 -> poll_next t2 p2 = Ok (p2', r2, w2) -> yields r2 e2 -> Event_dbg e2 = Ok d2 ->
  dbg_text hex l d1 ++ 10 :: r = dbg_text hex l d2 ++ 10 :: r' -> e1 = e2 /\ r = r'.
Proof.
  intros hex l p1 t1 p1' r1 w1 e1 d1 p2 t2 p2' r2 w2 e2 d2 r r' H R1 E1 Y1 D1 R2 E2 Y2 D2 T.
  destruct (reachable_inv _ R1) as [I1 _]. destruct (reachable_inv _ R2) as [I2 _].
  assert (O1 := emitted_ok _ _ _ _ _ _ I1 E1 Y1). assert (O2 := emitted_ok _ _ _ _ _ _ I2 E2 Y2).
  destruct (event_told _ _ _ _ _ _ I1 E1 Y1) as [T1 M1], (event_told _ _ _ _ _ _ I2 E2 Y2) as [T2 M2].
  rewrite event_dbg_tree in D1, D2 by assumption. injection D1 as <-. injection D2 as <-.
  assert (CN : forall c, change_ok c -> message_like (change_tree c)).
  { intros [z s|q] C; cbn [change_tree]; struct; [apply ml_num | apply ml_status; apply C | apply ml_report]. }
  assert (NI : forall e, event_ok e -> (forall k, e_pkt e = Some k -> told k) -> (forall er, e_msg e = Some (inr er) -> plain er) -> nice (event_tree e) = true).
  { intros e (_ & OM & OC & OX) TE ME. cbn [event_tree nice forallb fst snd]. rewrite !opt_nice; [reflexivity | | | |].
    - intros c Hc. apply CN. auto.
    - intros m Hm. apply message_is_like. apply (OC m Hm).
    - intros [m|er] Hm; cbn [outcome_tree nice forallb Error_dbg]; [rewrite (proj1 (message_is_like m (OM m Hm))); reflexivity | rewrite (ME er Hm); reflexivity].
    - intros k Hk. apply packet_nice. auto. }
  destruct (text_tells _ H _ _ _ _ _ (NI e1 O1 T1 M1) (NI e2 O2 T2 M2) (line_ends r) (line_ends r') T) as [X R]. injection R as ->. split; [|reflexivity].
  destruct O1 as (_ & OM1 & OC1 & OX1), O2 as (_ & OM2 & OC2 & OX2). unfold event_tree in X. destruct e1 as [a1 m1 c1 x1], e2 as [a2 m2 c2 x2]. cbn [e_pkt e_msg e_completes e_change] in *.
  cbn [norm map fst snd] in X. injection X as X1 X2 X3 X4. f_equal.
  - eapply opt_norm; [|exact X1]. intros; apply packet_norm; assumption.
  - eapply opt_norm; [|exact X2]. intros [m|er] [m'|er'] S1 S2 Q; cbn [outcome_tree norm map Error_dbg] in Q; try discriminate Q.
    + injection Q as Q. f_equal. rewrite (proj2 (proj2 (message_is_like m (OM1 m S1)))), (proj2 (proj2 (message_is_like m' (OM2 m' S2)))) in Q. apply message_tree_inj; auto.
    + injection Q as Q. f_equal. apply string_bytes_inj. exact Q.
  - eapply opt_norm; [|exact X3]. intros m m' S1 S2 Q. destruct (OC1 m S1) as [W1 _], (OC2 m' S2) as [W2 _].
    rewrite (proj2 (proj2 (message_is_like m W1))), (proj2 (proj2 (message_is_like m' W2))) in Q. apply message_tree_inj; auto.
  - eapply opt_norm; [|exact X4]. intros c c' S1 S2 Q. rewrite (proj2 (proj2 (CN c (OX1 c S1)))), (proj2 (proj2 (CN c' (OX2 c' S2)))) in Q.
    specialize (OX1 c S1). specialize (OX2 c' S2). destruct c as [z s|q], c' as [z' s'|q']; cbn [change_tree change_ok] in *; try discriminate Q.
    + injection Q as -> Q1 Q2. f_equal. apply status_words_inj; [apply OX1 | apply OX2 | unfold status_words; congruence].
    + f_equal. apply as_dbg_inj. congruence.
Qed.

(* ---- read ---- *)
Definition line_ok (o : out_line) : Prop := match o with OPacket p => told p | OIncomplete rest => u8s rest end.
Lemma packet_first hex p : exists c t, dbg_text hex None (Packet_dbg p) = c :: t /\ c <> ch "i".
Proof. destruct p; eexists _, _; (split; [reflexivity | discriminate]). Qed.
Lemma lines_tell hex : dump_ok hex -> forall ls ls', Forall line_ok ls -> Forall line_ok ls' ->
  concat (map (line_text hex) ls) = concat (map (line_text hex) ls') -> ls = ls'.
Proof.
  intros H. assert (NE : forall o, line_text hex o <> []).
  { intros [p|rest]; cbn [line_text]; [destruct (packet_first hex p) as (c & t & -> & _)|]; discriminate. }
  induction ls as [|o ls IH]; intros [|o' ls'] F F' E; cbn [map concat] in E; [reflexivity| | |].
  - symmetry in E. apply app_eq_nil in E as [E _]. elim (NE _ E).
  - apply app_eq_nil in E as [E _]. elim (NE _ E).
  - inversion F as [|? ? F1 F2]; inversion F' as [|? ? F1' F2']; subst. destruct o as [p|rest], o' as [p'|rest']; cbn [line_text line_ok] in *.
    + rewrite <- !app_assoc in E. destruct (text_tells _ H _ _ _ _ _ (packet_nice p F1) (packet_nice p' F1') (line_ends _) (line_ends _) E) as [X R].
      apply packet_norm in X as ->. injection R as R. f_equal. apply IH; assumption.
    + exfalso. destruct (packet_first hex p) as (c & t & Q & Hc). rewrite Q in E. cbn [app] in E. injection E; intros; congruence.
    + exfalso. destruct (packet_first hex p') as (c & t & Q & Hc). rewrite Q in E. cbn [app] in E. injection E; intros; congruence.
    + rewrite <- !app_assoc in E. apply app_inv_head in E. assert (rest = rest') as <- by (eapply (proj2 H); eassumption). apply app_inv_head in E. apply app_inv_head in E. f_equal. apply IH; assumption.
Qed.
Definition line_bytes (o : out_line) : bytes := match o with OPacket p => match encode p [] with Ok f => f | _ => [] end | OIncomplete rest => rest end.
Lemma read_lines data : u8s data -> exists ls, cli_read data = Ok ls /\ Forall line_ok ls /\ concat (map line_bytes ls) = data.
Proof.
  intros U. destruct (drain_total _ U) as (ps & left & E & D). exists (map OPacket ps ++ match left with [] => [] | _ :: _ => [OIncomplete left] end). split.
  - unfold cli_read. rewrite read_loop_drain. unfold drain in E. rewrite E. reflexivity.
  - clear E. induction D as [src E|src p rest ps left E _ IH]; cbn [map app].
    + destruct src as [|x src]; [split; [constructor | reflexivity]|]. split; [constructor; [exact U | constructor]|]. cbn. rewrite app_nil_r. reflexivity.
    + destruct (decode_some_inv _ _ _ U E) as (raw & -> & _ & EN & _). pose proof (decoded_told _ _ _ U E) as T. apply u8s_app in U as [_ U'].
      destruct (IH U') as [F C]. split; [constructor; [exact T | exact F]|]. cbn [map concat line_bytes]. rewrite (EN []). cbn [app]. rewrite C. reflexivity.
Qed.
(* What read prints for a file is what it prints for no other file. *)
Theorem C84_output_identifies_file : forall hex data data', dump_ok hex -> u8s data -> u8s data' ->
  exists text text', read_text hex data = Ok text /\ read_text hex data' = Ok text' /\ (text = text' -> data = data').
Proof.
  intros hex data data' H U U'. destruct (read_lines data U) as (ls & E & F & C), (read_lines data' U') as (ls' & E' & F' & C').
  unfold read_text. rewrite E, E'. cbn [bind]. eexists _, _. split; [reflexivity|]. split; [reflexivity|]. intros T.
  apply lines_tell in T; [|assumption ..]. congruence.
Qed.

(* ---- cases ---- *)
Definition nl : bytes := [10].
Example C84_message_example : forall hex d, Message_dbg (MZoneChange (mkZC 7 9)) = Ok d ->
  dbg_text hex None d = B "ZoneChange(ZoneChange { zone: 7, status: ZoneStatus(Violated, Open) })" /\
  dbg_text hex (Some 0%nat) d =
    B "ZoneChange(" ++ nl ++ B "    ZoneChange {" ++ nl ++ B "        zone: 7," ++ nl ++ B "        status: ZoneStatus(" ++ nl ++ B "            Violated," ++ nl ++
    B "            Open," ++ nl ++ B "        )," ++ nl ++ B "    }," ++ nl ++ B ")".
Proof. intros hex d [= <-]. split; reflexivity. Qed.
Example C84_read_example : dump_ok plain_dump /\
  read_text plain_dump (B "08ZC00792B" ++ [13; 10] ++ B "08ZC007900" ++ [13; 10] ++ B "0?x") =
    Ok (B "Ascii(AsciiPacket(""ZC0079""))" ++ nl ++
        B "Invalid(InvalidPacket { reason: ""ASCII packet doesn't have expected checksum 2B"", raw: Length: 12 bytes" ++ nl ++ B "30 38 5A 43 30 30 37 39 30 30 0D 0A  })" ++ nl ++
        B "incomplete data: Length: 3 bytes" ++ nl ++ B "30 3F 78 " ++ nl).
Proof. split; [exact plain_dump_ok | reflexivity]. Qed.

Print Assumptions C84_text_identifies_message.
Print Assumptions C84_text_identifies_state.
Print Assumptions C84_text_identifies_event.
Print Assumptions C84_output_identifies_file.
