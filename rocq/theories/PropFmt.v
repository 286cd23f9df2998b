(* PropFmt.v: theorems C62 to C64 about what the library writes to logs (Debug). *)
From Verif Require Import Base BaseFacts Pkt SpecPkt PktFacts DecodeFacts Msg SpecMsg DecFacts MsgFacts WireFacts IsoFacts
  Tokio SpecConn ConnFacts State SpecState StateFacts RunFacts HistFacts ExState PropState PropMsg Serde SerdeFacts PropSerde Fmt.
From Coq Require Import ZifyBool ZifyNat ZifyN Sorted.
Ltac Zify.zify_post_hook ::= Z.div_mod_to_equations.

(* ---- C62 ---- *)
(* The values that the unchecked invariants of the types are about. *)
Definition message_prints (m : message) : Prop :=
  match m with
  | MArmRequest r => utf8_valid (ar_code r) = true
  | MStringDescriptionResponse r => utf8_valid (sd_text r) = true
  | MZoneChange r => zc_status r < 16
  | MZoneStatusReport z => Forall (fun s => s < 16) z
  | _ => True
  end.
Definition writes (r : res dbg) : Prop := exists d, r = Ok d.
Definition panics (r : res dbg) : Prop := exists why, r = Panic why.

(* the words for a status *)
Definition logical_word (s : N) : string := nth (N.to_nat (s / 4)) ["Normal"; "Trouble"; "Violated"; "Bypassed"]%string ""%string.
Definition physical_word (s : N) : string := nth (N.to_nat (s mod 4)) ["Unconfigured"; "Open"; "EOL"; "Short"]%string ""%string.
Definition status_words (s : N) : dbg := DTuple "ZoneStatus" [DWord (logical_word s); DWord (physical_word s)].
Lemma status_dbg s : s < 16 -> ZoneStatus_dbg s = Ok (status_words s).
Proof.
  intros H. assert (C : In s (map N.of_nat (seq 0 16))).
  { apply in_map_iff. exists (N.to_nat s). split; [lia|]. apply in_seq. lia. }
  cbn in C. repeat (destruct C as [<-|C]; [reflexivity|]). elim C.
Qed.
Lemma status_dbg_panics s : 16 <= s -> exists w, ZoneStatus_dbg s = Panic w.
Proof.
  intros H. unfold ZoneStatus_dbg, ZoneStatus_logical. rewrite N.shiftr_div_pow2. change (2 ^ 2) with 4.
  assert (4 <= s / 4) by lia.
  replace (s / 4 =? 0) with false by lia. replace (s / 4 =? 1) with false by lia. replace (s / 4 =? 2) with false by lia.
  replace (s / 4 =? 3) with false by lia. eexists. reflexivity.
Qed.
(* a map of the kept elements, numbered from 1 *)
Fixpoint entries {A} (keep : A -> bool) (f : A -> dbg) (i : N) (l : list A) : list (N * dbg) :=
  match l with [] => [] | x :: l' => if keep x then (i + 1, f x) :: entries keep f (i + 1) l' else entries keep f (i + 1) l' end.
Lemma entries_ok {A} (skip : A -> res bool) d keep f (l : list A) :
  Forall (fun x => skip x = Ok (negb (keep x)) /\ (keep x = true -> d x = Ok (f x))) l ->
  forall i, dbg_entries skip d i l = Ok (entries keep f i l).
Proof.
  induction 1 as [|x l [S D] _ IH]; intros i; cbn [dbg_entries entries]; [reflexivity|].
  rewrite S. cbn [bind]. destruct (keep x); cbn [negb]; [rewrite D by reflexivity; cbn [bind]|]; rewrite IH; reflexivity.
Qed.
Lemma entries_in {A} keep f (l : list A) : forall i n v, In (n, v) (entries keep f i l) <->
  exists k x, nth_error l k = Some x /\ n = i + N.of_nat k + 1 /\ keep x = true /\ v = f x.
Proof.
  induction l as [|x l IH]; intros i n v; cbn [entries].
  - split; [intros [] | intros (k & x & E & _); destruct k; discriminate].
  - assert (T : In (n, v) (entries keep f (i + 1) l) <-> exists k y, nth_error (x :: l) (S k) = Some y /\ n = i + N.of_nat (S k) + 1 /\ keep y = true /\ v = f y).
    { rewrite IH. split; intros (k & y & E & Hn & R); exists k, y; (split; [exact E|]; split; [lia | exact R]). }
    destruct (keep x) eqn:K; cbn [In]; rewrite T; split.
    + intros [[= <- <-]|(k & y & H)]; [exists 0%nat, x; repeat split; try assumption; lia | exists (S k), y; exact H].
    + intros ([|k] & y & E & Hn & R & V); [left; injection E as <-; f_equal; [lia | congruence] | right; exists k, y; auto].
    + intros (k & y & H). exists (S k), y. exact H.
    + intros ([|k] & y & E & Hn & R & V); [injection E as <-; congruence | exists k, y; auto].
Qed.
Lemma entries_sorted {A} keep f (l : list A) : forall i, StronglySorted (fun a b => fst a < fst b) (entries keep f i l).
Proof.
  induction l as [|x l IH]; intros i; cbn [entries]; [constructor|]. destruct (keep x); [|apply IH]. constructor; [apply IH|].
  apply Forall_forall. intros [n v] H. apply entries_in in H as (k & y & _ & -> & _). cbn [fst]. lia.
Qed.
Lemma entries_inj {A} keep f (c : A) (OK : A -> Prop) : (forall x, OK x -> keep x = false -> x = c) -> (forall x y, OK x -> OK y -> f x = f y -> x = y) ->
  forall l l' i, Forall OK l -> Forall OK l' -> length l = length l' -> entries keep f i l = entries keep f i l' -> l = l'.
Proof.
  intros C F. assert (X : forall (l : list A) i v r, entries keep f (i + 1) l = (i + 1, v) :: r -> False).
  { intros l i v r E. assert (H : In (i + 1, v) (entries keep f (i + 1) l)) by (rewrite E; left; reflexivity).
    apply entries_in in H as (k & x & _ & Hk & _). lia. }
  induction l as [|x l IH]; intros [|x' l'] i O O' L E; try discriminate; [reflexivity|]. cbn [entries] in E.
  inversion_clear O. inversion_clear O'. injection L as L. destruct (keep x) eqn:K, (keep x') eqn:K'.
  - injection E as E1 E2. f_equal; [auto|]. eapply IH; eauto.
  - exfalso. symmetry in E. eapply X. exact E.
  - exfalso. eapply X. exact E.
  - f_equal; [rewrite (C x), (C x'); auto|]. eapply IH; eauto.
Qed.
Definition zones_tree (z : list N) : dbg := DMap (entries (fun s => negb (s =? 0)) status_words 0 z).
Lemma zones_dbg z : Forall (fun s => s < 16) z -> ZoneStatusReport_dbg z = Ok (zones_tree z).
Proof.
  intros H. unfold ZoneStatusReport_dbg, zones_tree. rewrite (entries_ok _ _ (fun s => negb (s =? 0)) status_words); [reflexivity|].
  eapply Forall_impl; [|exact H]. intros s L. cbv beta. rewrite negb_involutive. split; [reflexivity|]. intros _. apply status_dbg. exact L.
Qed.
Lemma zones_dbg_panics z : ~ Forall (fun s => s < 16) z -> exists w, ZoneStatusReport_dbg z = Panic w.
Proof.
  enough (W : forall i, ~ Forall (fun s => s < 16) z -> exists w, (e <- dbg_entries (fun s => Ok (s =? 0)) ZoneStatus_dbg i z ;; Ok (DMap e)) = Panic w) by apply W.
  induction z as [|s z IH]; intros i H; [elim H; constructor|]. cbn [dbg_entries bind].
  assert (NF : s < 16 -> ~ Forall (fun s => s < 16) z) by (intros L F; apply H; constructor; assumption).
  destruct (s =? 0) eqn:Z0; [apply IH; apply NF; lia|]. destruct (N.lt_ge_cases s 16) as [L|L].
  - rewrite (status_dbg s L). cbn [bind]. destruct (IH (i + 1) (NF L)) as (w & E).
    destruct (dbg_entries _ _ _ z) as [e|e|w']; cbn [bind] in E |- *; [discriminate | discriminate | eexists; reflexivity].
  - destruct (status_dbg_panics s L) as (w & ->). eexists. reflexivity.
Qed.
(* Exactly which messages can be written; writing any other panics. *)
Theorem C62_messages_written_exactly : forall m,
  (message_prints m -> writes (Message_dbg m)) /\ (~ message_prints m -> panics (Message_dbg m)).
Proof.
  unfold writes, panics. intros m. destruct m; cbn [message_prints Message_dbg]; try (split; [intros _; eexists; reflexivity | tauto]).
  - unfold ArmRequest_dbg, ArmCode_dbg. destruct (utf8_valid (ar_code m)); cbn [bind]; split; intros H; try tauto; try discriminate; eexists; reflexivity.
  - split; [intros _|tauto]. unfold SendTimeData_dbg, dbg_option. destruct (ee_armed_state m); eexists; reflexivity.
  - unfold StringDescriptionResponse_dbg, TextDescription_dbg, TextDescription_as_str, as_padded_str.
    destruct (utf8_valid (sd_text m)); cbn [bind]; split; intros H; try tauto; try discriminate; eexists; reflexivity.
  - unfold ZoneChange_dbg. split; intros H.
    + rewrite status_dbg by exact H. eexists. reflexivity.
    + destruct (status_dbg_panics (zc_status m)) as (w & ->); [lia|]. eexists. reflexivity.
  - split; intros H.
    + rewrite zones_dbg by exact H. eexists. reflexivity.
    + destruct (zones_dbg_panics zones H) as (w & ->). eexists. reflexivity.
Qed.
Lemma wf_prints m : wf_message m -> message_prints m.
Proof.
  destruct m; cbn [wf_message message_prints]; try tauto.
  - intros (_ & _ & D). apply utf8_printable. eapply Forall_impl; [|exact D]. cbv beta. unfold printable. intros b Hb. cbn in Hb. lia.
  - intros (_ & _ & P). apply utf8_printable. exact P.
  - intros (_ & Z). exact Z.
Qed.

Lemma utf8_code c : arm_code_ok c -> utf8_valid c = true.
Proof. intros H. apply (wf_prints (MArmRequest (mkArmRequest 1 AL_Disarm c))). split; [unfold area_ok; cbn; lia | exact H]. Qed.

(* what is written, as a function *)
Definition message_tree (m : message) : dbg :=
  match m with
  | MArmRequest m => DTuple "ArmRequest" [DStruct "ArmRequest" [("area", DNum (ar_area m)); ("level", ArmLevel_dbg (ar_level m)); ("code", DStr (ar_code m))]]
  | MSendTimeData m => DTuple "SendTimeData" [DStruct "SendTimeData" [("area", DNum (ee_area m)); ("ty", TimeDataType_dbg (ee_ty m)); ("timer1", DNum (ee_timer1 m));
      ("timer2", DNum (ee_timer2 m)); ("armed_state", match ee_armed_state m with Some s => DTuple "Some" [ArmedState_dbg s] | None => DWord "None" end)]]
  | MStringDescriptionResponse m => DTuple "StringDescriptionResponse" [DStruct "StringDescriptionResponse"
      [("ty", TextDescriptionType_dbg (sd_ty m)); ("num", DNum (sd_num m)); ("text", DStr (trim_end (sd_text m)))]]
  | MZoneChange m => DTuple "ZoneChange" [DStruct "ZoneChange" [("zone", DNum (zc_zone m)); ("status", status_words (zc_status m))]]
  | MZoneStatusReport z => DTuple "ZoneStatusReport" [zones_tree z]
  | m => match Message_dbg m with Ok d => d | _ => DWord "" end
  end%string.
Lemma message_dbg_tree m : message_prints m -> Message_dbg m = Ok (message_tree m).
Proof.
  destruct m; cbn [message_prints Message_dbg message_tree]; try reflexivity; intros H.
  - unfold ArmRequest_dbg, ArmCode_dbg. rewrite H. reflexivity.
  - unfold SendTimeData_dbg, dbg_option. destruct (ee_armed_state m); reflexivity.
  - unfold StringDescriptionResponse_dbg, TextDescription_dbg, TextDescription_as_str, as_padded_str. rewrite H. reflexivity.
  - unfold ZoneChange_dbg. rewrite status_dbg by exact H. reflexivity.
  - rewrite zones_dbg by exact H. reflexivity.
Qed.
Definition change_tree (c : Change) : dbg :=
  match c with
  | CZoneChange z s => DStruct "ZoneChange" [("zone", DNum z); ("prior", status_words s)]
  | CArmingStatus r => DStruct "ArmingStatus" [("prior", ArmingStatusReport_dbg r)]
  end%string.
Definition opt_tree {A} (f : A -> dbg) (o : option A) : dbg := match o with Some x => DTuple "Some" [f x] | None => DWord "None" end.
Definition outcome_tree (o : message + string) : dbg := match o with inl m => DTuple "Ok" [message_tree m] | inr e => DTuple "Err" [Error_dbg e] end.
Definition event_tree (e : Event) : dbg :=
  DStruct "Event" [("pkt", opt_tree Packet_dbg (e_pkt e)); ("msg", opt_tree outcome_tree (e_msg e));
    ("completes", opt_tree message_tree (e_completes e)); ("change", opt_tree change_tree (e_change e))]%string.
Lemma event_dbg_tree e : event_ok e -> Event_dbg e = Ok (event_tree e).
Proof.
  intros (_ & M & C & X). unfold Event_dbg, event_tree, dbg_option, opt_tree. destruct e as [p m c x]. cbn [e_pkt e_msg e_completes e_change] in *.
  assert (EP : match p with Some p => Ok (DTuple "Some" [Packet_dbg p]) | None => Ok (DWord "None") end = Ok (opt_tree Packet_dbg p)) by (destruct p; reflexivity).
  assert (EM : match m with Some x => v <- Outcome_dbg x ;; Ok (DTuple "Some" [v]) | None => Ok (DWord "None") end = Ok (opt_tree outcome_tree m)).
  { destruct m as [[m|er]|]; try reflexivity. cbn [Outcome_dbg]. rewrite message_dbg_tree by (apply wf_prints; auto). reflexivity. }
  assert (EC : match c with Some x => v <- Message_dbg x ;; Ok (DTuple "Some" [v]) | None => Ok (DWord "None") end = Ok (opt_tree message_tree c)).
  { destruct c as [c|]; try reflexivity. rewrite message_dbg_tree by (apply wf_prints; apply (C c eq_refl)). reflexivity. }
  assert (EX : match x with Some x => v <- Change_dbg x ;; Ok (DTuple "Some" [v]) | None => Ok (DWord "None") end = Ok (opt_tree change_tree x)).
  { destruct x as [[z s|r]|]; try reflexivity. destruct (X _ eq_refl) as [_ L]. cbn [Change_dbg]. rewrite status_dbg by exact L. reflexivity. }
  unfold bind at 1. cbn [bind] in EP. cbn [bind]. destruct p; cbn [bind]; rewrite EM; cbn [bind]; rewrite EC; cbn [bind]; rewrite EX; reflexivity.
Qed.

(* Every event of a connected panel can be written. *)
Theorem C62_events_written : forall p now p' r w e,
  reachable p -> poll_next now p = Ok (p', r, w) -> yields r e -> writes (Event_dbg e).
Proof.
  intros p now p' r w e R E Y. destruct (reachable_inv _ R) as [I _]. eexists. apply event_dbg_tree. eapply emitted_ok; eauto.
Qed.
(* So can the panel's state, and every command made of checked values. *)
Lemma names_tree l : Forall text_ok l ->
  TextDescriptions_dbg l = Ok (DMap (entries (fun t => negb (hd 0 t =? ch " ")) (fun t => DStr (trim_end t)) 0 l)).
Proof.
  intros H. unfold TextDescriptions_dbg. rewrite (entries_ok _ _ (fun t => negb (hd 0 t =? ch " ")) (fun t => DStr (trim_end t))); [reflexivity|].
  eapply Forall_impl; [|exact H]. intros t [L P]. cbv beta. rewrite negb_involutive. split.
  - unfold TextDescription_is_empty, index. destruct t as [|b t]; [discriminate | reflexivity].
  - intros _. unfold TextDescription_dbg, TextDescription_as_str, as_padded_str. rewrite utf8_printable by exact P. reflexivity.
Qed.
Theorem C62_state_written : forall p, reachable p -> writes (PanelState_dbg (p_state p)).
Proof.
  intros p R. destruct (reachable_inv _ R) as [(_ & ((_ & N1) & (_ & N2) & (_ & N3)) & ZI & _) _]. unfold writes, PanelState_dbg, dbg_option.
  rewrite !names_tree by assumption. destruct (s_arming (p_state p)); cbn [bind]; (destruct (s_zones (p_state p)) as [z|]; cbn [bind];
    [rewrite zones_dbg by apply (ZI z eq_refl)|]); eexists; reflexivity.
Qed.
Theorem C62_commands_written : forall c, wf_message (into_msg c) -> writes (Command_dbg c).
Proof.
  intros [m|t] W; [|eexists; reflexivity]. unfold writes. cbn [Command_dbg]. unfold ArmRequest_dbg, ArmCode_dbg. destruct W as [_ W].
  rewrite utf8_code by exact W. eexists. reflexivity.
Qed.
(* False for deserialised messages: three kinds can be read from JSON and then panic when written. *)
Theorem C62_deserialised_written_refuted :
  (exists v m, Message_de FromText v = Ok (MArmRequest m) /\ panics (Message_dbg (MArmRequest m))) /\
  (exists v m, Message_de FromText v = Ok (MStringDescriptionResponse m) /\ panics (Message_dbg (MStringDescriptionResponse m))) /\
  (exists v m, Message_de FromText v = Ok (MZoneChange m) /\ panics (Message_dbg (MZoneChange m))).
Proof.
  split; [|split].
  - exists (tagged (B "armRequest") (VObj [(B "area", VNum 1); (B "level", ser_str (B "disarm")); (B "code", VArr (repeat (VNum 255) 6))])). eexists.
    split; [vm_compute; reflexivity|]. eexists. vm_compute. reflexivity.
  - exists (tagged (B "stringDescriptionResponse") (VObj [(B "ty", ser_str (B "zone")); (B "num", VNum 1); (B "text", VArr (repeat (VNum 255) 16))])). eexists.
    split; [vm_compute; reflexivity|]. eexists. vm_compute. reflexivity.
  - exists (tagged (B "zoneChange") (VObj [(B "zone", VNum 1); (B "status", VNum 16)])). eexists.
    split; [vm_compute; reflexivity|]. eexists. vm_compute. reflexivity.
Qed.
Example C62_example :
  Message_dbg (MArmRequest (mkArmRequest 1 AL_ArmedAway (B "001234"))) =
    Ok (DTuple "ArmRequest" [DStruct "ArmRequest" [("area", DNum 1); ("level", DWord "ArmedAway"); ("code", DStr (B "001234"))]])%string /\
  Event_dbg (mkEvent None None None (Some (CZoneChange 208 9))) =
    Ok (DStruct "Event" [("pkt", DWord "None"); ("msg", DWord "None"); ("completes", DWord "None");
      ("change", DTuple "Some" [DStruct "ZoneChange" [("zone", DNum 208); ("prior", DTuple "ZoneStatus" [DWord "Violated"; DWord "Open"])]])])%string.
Proof. split; reflexivity. Qed.

(* ---- C63 ---- *)
Lemma words_inj {A} (f : A -> dbg) : (forall x y, f x = f y -> x = y) -> forall l l', map f l = map f l' -> l = l'.
Proof. intros F. induction l as [|x l IH]; intros [|y l'] E; try discriminate; [reflexivity|]. injection E as E1 E2. f_equal; auto. Qed.
Ltac winj := intros x y; destruct x, y; cbn; intros E; try reflexivity; discriminate E.
Lemma ArmLevel_dbg_inj : forall x y, ArmLevel_dbg x = ArmLevel_dbg y -> x = y. Proof. winj. Qed.
Lemma TimeDataType_dbg_inj : forall x y, TimeDataType_dbg x = TimeDataType_dbg y -> x = y. Proof. winj. Qed.
Lemma ArmedState_dbg_inj : forall x y, ArmedState_dbg x = ArmedState_dbg y -> x = y. Proof. winj. Qed.
Lemma Weekday_dbg_inj : forall x y, Weekday_dbg x = Weekday_dbg y -> x = y. Proof. winj. Qed.
Lemma ClockDisplayMode_dbg_inj : forall x y, ClockDisplayMode_dbg x = ClockDisplayMode_dbg y -> x = y. Proof. winj. Qed.
Lemma DateDisplayMode_dbg_inj : forall x y, DateDisplayMode_dbg x = DateDisplayMode_dbg y -> x = y. Proof. winj. Qed.
Lemma ArmingStatus_dbg_inj : forall x y, ArmingStatus_dbg x = ArmingStatus_dbg y -> x = y. Proof. winj. Qed.
Lemma ArmUpState_dbg_inj : forall x y, ArmUpState_dbg x = ArmUpState_dbg y -> x = y. Proof. winj. Qed.
Lemma AlarmState_dbg_inj : forall x y, AlarmState_dbg x = AlarmState_dbg y -> x = y. Proof. winj. Qed.
Lemma TextDescriptionType_dbg_inj : forall x y, TextDescriptionType_dbg x = TextDescriptionType_dbg y -> x = y. Proof. winj. Qed.
Lemma nums_inj : forall l l', map DNum l = map DNum l' -> l = l'. Proof. apply words_inj. intros x y [= ->]. reflexivity. Qed.
Lemma status_words_inj s t : s < 16 -> t < 16 -> status_words s = status_words t -> s = t.
Proof.
  intros H H' E. injection E as E1 E2. unfold logical_word in E1. unfold physical_word in E2.
  assert (Q : s / 4 = t / 4 /\ s mod 4 = t mod 4).
  { assert (A : s / 4 < 4) by lia. assert (A' : t / 4 < 4) by lia. assert (M : s mod 4 < 4) by lia. assert (M' : t mod 4 < 4) by lia.
    revert E1 E2 A A' M M'. generalize (s / 4) (t / 4) (s mod 4) (t mod 4). clear.
    assert (X : forall n, n < 4 -> n = 0 \/ n = 1 \/ n = 2 \/ n = 3) by (intros; lia).
    intros a b c d E1 E2 A A' M M'. apply X in A, A', M, M'. clear X. split.
    - destruct A as [->|[->|[->| ->]]], A' as [->|[->|[->| ->]]]; try reflexivity; discriminate E1.
    - destruct M as [->|[->|[->| ->]]], M' as [->|[->|[->| ->]]]; try reflexivity; discriminate E2. }
  lia.
Qed.
Lemma zones_tree_inj z z' : zones_ok z -> zones_ok z' -> zones_tree z = zones_tree z' -> z = z'.
Proof.
  intros [L F] [L' F'] E. injection E as E. eapply (entries_inj _ _ 0 (fun s => s < 16)); try eassumption; [| |congruence].
  - intros x _ K. cbv beta in K. apply negb_false_iff, N.eqb_eq in K. exact K.
  - intros x y. apply status_words_inj.
Qed.
Lemma as_dbg_inj r r' : ArmingStatusReport_dbg r = ArmingStatusReport_dbg r' -> r = r'.
Proof.
  destruct r as [a u l t], r' as [a' u' l' t']. unfold ArmingStatusReport_dbg. cbn [arming_status up_state alarm_state first_exit_time]. intros [= E1 E2 E3 E4].
  apply (words_inj _ ArmingStatus_dbg_inj) in E1. apply (words_inj _ ArmUpState_dbg_inj) in E2. apply (words_inj _ AlarmState_dbg_inj) in E3. congruence.
Qed.
Lemma rtc_dbg_inj r r' : datetime_ok (datetime r) -> datetime_ok (datetime r') -> RtcData_dbg r = RtcData_dbg r' -> r = r'.
Proof.
  intros H H' E. unfold RtcData_dbg, DateTime_dbg in E. assert (X : to_iso_8601 (datetime r) = to_iso_8601 (datetime r')) by congruence.
  assert (D : Ok (datetime r) = Ok (datetime r')) by (rewrite <- !from_to_iso by assumption; congruence). injection D as D.
  assert (W : Weekday_dbg (weekday r) = Weekday_dbg (weekday r')) by congruence. apply Weekday_dbg_inj in W.
  assert (C : ClockDisplayMode_dbg (clock_display r) = ClockDisplayMode_dbg (clock_display r')) by congruence. apply ClockDisplayMode_dbg_inj in C.
  assert (M : DateDisplayMode_dbg (date_display r) = DateDisplayMode_dbg (date_display r')) by congruence. apply DateDisplayMode_dbg_inj in M.
  assert (S : dst r = dst r') by congruence. destruct r, r'. cbn in *. congruence.
Qed.
Lemma trim_inj t t' : length t = length t' -> trim_end t = trim_end t' -> t = t'.
Proof.
  intros L E. destruct (trim_end_spec t) as (k & Et & _). destruct (trim_end_spec t') as (k' & Et' & _). rewrite <- E in Et'.
  assert (k = k'). { rewrite Et, Et', !app_length, !repeat_length in L. lia. } subst k'. congruence.
Qed.
Lemma message_tree_inj m m' : wf_message m -> wf_message m' -> message_tree m = message_tree m' -> m = m'.
Proof.
  intros W W' E. destruct m, m'; cbn [message_tree Message_dbg] in E; try discriminate E; try reflexivity; cbn [wf_message] in W, W'.
  - destruct m as [a l c], m0 as [a' l' c']. cbn [ar_area ar_level ar_code] in *. assert (X : ArmLevel_dbg l = ArmLevel_dbg l') by congruence.
    apply ArmLevel_dbg_inj in X. congruence.
  - f_equal. apply as_dbg_inj. congruence.
  - destruct m as [a t x y s], m0 as [a' t' x' y' s']. cbn [ee_area ee_ty ee_timer1 ee_timer2 ee_armed_state] in *.
    assert (X : TimeDataType_dbg t = TimeDataType_dbg t') by congruence. apply TimeDataType_dbg_inj in X.
    assert (s = s'). { destruct s, s'; try discriminate E; [|reflexivity]. f_equal. apply ArmedState_dbg_inj. congruence. } congruence.
  - destruct m as [c u k], m0 as [c' u' k']. unfold SendCode_dbg in E. cbn [ic_code ic_user ic_keypad] in *.
    assert (X : map DNum c = map DNum c') by congruence. apply nums_inj in X. unfold limited_dbg in E. congruence.
  - f_equal. apply rtc_dbg_inj; auto. unfold RtcResponse_dbg in E. congruence.
  - destruct m as [t n], m0 as [t' n']. unfold StringDescriptionRequest_dbg in E. cbn [sdq_ty sdq_num] in *.
    assert (X : TextDescriptionType_dbg t = TextDescriptionType_dbg t') by congruence. apply TextDescriptionType_dbg_inj in X. congruence.
  - destruct m as [t n x], m0 as [t' n' x']. cbn [sd_ty sd_num sd_text] in *. destruct W as (_ & L & _), W' as (_ & L' & _).
    assert (X : TextDescriptionType_dbg t = TextDescriptionType_dbg t') by congruence. apply TextDescriptionType_dbg_inj in X.
    assert (x = x') by (apply trim_inj; congruence). congruence.
  - unfold ActivateTask_dbg, limited_dbg in E. congruence.
  - unfold TaskChange_dbg, limited_dbg in E. congruence.
  - f_equal. apply rtc_dbg_inj; auto. unfold Heartbeat_dbg in E. congruence.
  - destruct m as [z s], m0 as [z' s']. cbn [zc_zone zc_status] in *. assert (s = s') by (apply status_words_inj; [tauto | tauto | congruence]). congruence.
  - f_equal. apply zones_tree_inj; auto. congruence.
Qed.
(* What is written for a received message determines it, and so does what is written for an event. *)
Theorem C63_log_identifies_message : forall m m', wf_message m -> wf_message m' -> Message_dbg m = Message_dbg m' -> m = m'.
Proof.
  intros m m' W W' E. rewrite !message_dbg_tree in E by (apply wf_prints; assumption). injection E as E. apply message_tree_inj; assumption.
Qed.
Lemma packet_dbg_inj p p' : Packet_dbg p = Packet_dbg p' -> p = p'.
Proof. destruct p, p'; unfold Packet_dbg, AsciiPacket_dbg, RpPacket_dbg, InvalidPacket_dbg; intros E; try discriminate E; congruence. Qed.
Lemma opt_tree_inj {A} (f : A -> dbg) o o' : (forall x y, o = Some x -> o' = Some y -> f x = f y -> x = y) -> opt_tree f o = opt_tree f o' -> o = o'.
Proof. destruct o, o'; cbn; intros H E; try discriminate E; [f_equal; apply H; congruence | reflexivity]. Qed.
Theorem C63_log_identifies_event : forall p1 t1 p1' r1 w1 e1 p2 t2 p2' r2 w2 e2,
  reachable p1 -> poll_next t1 p1 = Ok (p1', r1, w1) -> yields r1 e1 ->
  reachable p2 -> poll_next t2 p2 = Ok (p2', r2, w2) -> yields r2 e2 ->
  Event_dbg e1 = Event_dbg e2 -> e1 = e2.
Proof.
  intros p1 t1 p1' r1 w1 e1 p2 t2 p2' r2 w2 e2 R1 E1 Y1 R2 E2 Y2 E. destruct (reachable_inv _ R1) as [I1 _]. destruct (reachable_inv _ R2) as [I2 _].
  assert (O1 := emitted_ok _ _ _ _ _ _ I1 E1 Y1). assert (O2 := emitted_ok _ _ _ _ _ _ I2 E2 Y2).
  rewrite !event_dbg_tree in E by assumption. injection E as EP EM EC EX.
  destruct O1 as (_ & M1 & C1 & X1), O2 as (_ & M2 & C2 & X2). destruct e1 as [a1 m1 c1 x1], e2 as [a2 m2 c2 x2]. cbn [e_pkt e_msg e_completes e_change] in *.
  f_equal.
  - eapply opt_tree_inj; [|exact EP]. intros x y _ _. apply packet_dbg_inj.
  - eapply opt_tree_inj; [|exact EM]. intros [x|x] [y|y] -> -> Q; try discriminate Q; cbn in Q.
    + f_equal. apply message_tree_inj; auto. congruence.
    + unfold Error_dbg in Q. congruence.
  - eapply opt_tree_inj; [|exact EC]. intros x y -> -> Q. apply message_tree_inj; auto; [apply (C1 x eq_refl) | apply (C2 y eq_refl)].
  - eapply opt_tree_inj; [|exact EX]. intros [z s|r] [z' s'|r'] -> -> Q; try discriminate Q.
    + destruct (X1 _ eq_refl), (X2 _ eq_refl). assert (s = s') by (apply status_words_inj; [assumption | assumption | cbn in Q; congruence]). cbn in Q. congruence.
    + f_equal. apply as_dbg_inj. cbn in Q. congruence.
Qed.
(* What is written for the panel's state determines it, except for names that start with a space (C64). *)
Lemma entries_same {A} keep (f : A -> dbg) : forall l l' i, length l = length l' -> entries keep f i l = entries keep f i l' ->
  forall k x y, nth_error l k = Some x -> nth_error l' k = Some y -> (keep x = true /\ keep y = true /\ f x = f y) \/ (keep x = false /\ keep y = false).
Proof.
  assert (X : forall (l : list A) i v r, entries keep f (i + 1) l = (i + 1, v) :: r -> False).
  { intros l i v r E. assert (H : In (i + 1, v) (entries keep f (i + 1) l)) by (rewrite E; left; reflexivity).
    apply entries_in in H as (k & x & _ & Hk & _). lia. }
  induction l as [|a l IH]; intros [|b l'] i L E k x y Hx Hy; try discriminate L; [destruct k; discriminate Hx|].
  injection L as L. cbn [entries] in E. destruct (keep a) eqn:K, (keep b) eqn:K'.
  - injection E as E1 E2. destruct k; [left; cbn in Hx, Hy; injection Hx as <-; injection Hy as <-; auto | eapply IH; eauto].
  - exfalso. symmetry in E. eapply X. exact E.
  - exfalso. eapply X. exact E.
  - destruct k; [right; cbn in Hx, Hy; injection Hx as <-; injection Hy as <-; auto | eapply IH; eauto].
Qed.
Definition same_names (l l' : list bytes) : Prop := forall i t t', nth_error l i = Some t -> nth_error l' i = Some t' ->
  t = t' \/ (hd 0 t = ch " " /\ hd 0 t' = ch " ").
Lemma names_dbg_same l l' d : Forall text_ok l -> Forall text_ok l' -> length l = length l' ->
  TextDescriptions_dbg l = Ok d -> TextDescriptions_dbg l' = Ok d -> same_names l l'.
Proof.
  intros F F' L E E' i t t' Ht Ht'. rewrite names_tree in E, E' by assumption. assert (Q : forall a b, DMap a = DMap b -> a = b) by congruence.
  assert (X := Q _ _ (f_equal (fun r => match r with Ok d => d | _ => DMap [] end) (eq_trans E (eq_sym E')))). clear Q E E'.
  destruct (entries_same _ _ _ _ _ L X i t t' Ht Ht') as [(_ & _ & R)|[R R']].
  - left. rewrite Forall_forall in F, F'. apply trim_inj; [|congruence].
    destruct (F t (nth_error_In _ _ Ht)) as [-> _]. destruct (F' t' (nth_error_In _ _ Ht')) as [-> _]. reflexivity.
  - right. cbv beta in R, R'. split; apply N.eqb_eq, negb_false_iff; assumption.
Qed.
Theorem C63_log_identifies_state : forall p p', reachable p -> reachable p' -> PanelState_dbg (p_state p) = PanelState_dbg (p_state p') ->
  let s := p_state p in let s' := p_state p' in
  s_arming s = s_arming s' /\ s_zones s = s_zones s' /\
  same_names (zone_names s) (zone_names s') /\ same_names (area_names s) (area_names s') /\ same_names (task_names s) (task_names s').
Proof.
  intros p p' R R' E. destruct (reachable_inv _ R) as [(_ & ((L1 & N1) & (L2 & N2) & (L3 & N3)) & ZI & _) _].
  destruct (reachable_inv _ R') as [(_ & ((L1' & N1') & (L2' & N2') & (L3' & N3')) & ZI' & _) _]. cbv zeta.
  destruct (p_state p) as [a z zn an tn], (p_state p') as [a' z' zn' an' tn']. unfold PanelState_dbg in E. cbn [s_arming s_zones zone_names area_names task_names] in *.
  destruct (TextDescriptions_dbg zn) as [d1|e|w] eqn:D1; [|rewrite names_tree in D1 by assumption; discriminate D1 ..].
  destruct (TextDescriptions_dbg an) as [d2|e|w] eqn:D2; [|rewrite names_tree in D2 by assumption; discriminate D2 ..].
  destruct (TextDescriptions_dbg tn) as [d3|e|w] eqn:D3; [|rewrite names_tree in D3 by assumption; discriminate D3 ..].
  destruct (TextDescriptions_dbg zn') as [d1'|e|w] eqn:D1'; [|rewrite names_tree in D1' by assumption; discriminate D1' ..].
  destruct (TextDescriptions_dbg an') as [d2'|e|w] eqn:D2'; [|rewrite names_tree in D2' by assumption; discriminate D2' ..].
  destruct (TextDescriptions_dbg tn') as [d3'|e|w] eqn:D3'; [|rewrite names_tree in D3' by assumption; discriminate D3' ..].
  assert (A : dbg_option (fun r => Ok (ArmingStatusReport_dbg r)) a = Ok (opt_tree ArmingStatusReport_dbg a)) by (destruct a; reflexivity).
  assert (A' : dbg_option (fun r => Ok (ArmingStatusReport_dbg r)) a' = Ok (opt_tree ArmingStatusReport_dbg a')) by (destruct a'; reflexivity).
  assert (Z : dbg_option ZoneStatusReport_dbg z = Ok (opt_tree zones_tree z)).
  { destruct z as [z|]; [|reflexivity]. cbn [dbg_option opt_tree]. rewrite zones_dbg by apply (ZI z eq_refl). reflexivity. }
  assert (Z' : dbg_option ZoneStatusReport_dbg z' = Ok (opt_tree zones_tree z')).
  { destruct z' as [z'|]; [|reflexivity]. cbn [dbg_option opt_tree]. rewrite zones_dbg by apply (ZI' z' eq_refl). reflexivity. }
  rewrite A, A', Z, Z' in E. cbn [bind] in E. injection E as EA EZ E1 E2 E3. subst d1' d2' d3'.
  split; [eapply opt_tree_inj; [|exact EA]; intros; apply as_dbg_inj; assumption|].
  split; [eapply opt_tree_inj; [|exact EZ]; intros x y -> -> Q; apply zones_tree_inj; auto|].
  split; [|split]; eapply names_dbg_same; eauto; congruence.
Qed.
(* Display of an area, keypad, task or zone number writes its decimal digits. *)
Theorem C63_numbers_written : forall n, n < 256 -> let s := limited_display n in
  Forall (fun c => ch "0" <= c <= ch "9") s /\ (1 <= length s <= 3)%nat /\ fold_left (fun v c => v * 10 + (c - ch "0")) s 0 = n.
Proof.
  intros n H. cbv zeta. unfold limited_display. destruct (fmt_dec_spec n) as (D & V & NE & W).
  split; [exact D|]. split; [|exact V]. assert (X := W 3%nat ltac:(discriminate) ltac:(cbn; lia)). destruct (fmt_dec n); [congruence|cbn in *; lia].
Qed.
Example C63_example : wf_message (MZoneChange (mkZC 7 2)) /\ wf_message (MZoneChange (mkZC 7 3)) /\
  Message_dbg (MZoneChange (mkZC 7 2)) <> Message_dbg (MZoneChange (mkZC 7 3)).
Proof. repeat split; try discriminate; cbn; unfold zone_ok; lia. Qed.

(* ---- C64 ---- *)
(* False as stated: a name that starts with a space is left out, and is_empty says it is empty. *)
Theorem C64_names_listed_refuted : exists s t u,
  TextDescription_new s = Ok t /\ TextDescription_as_str t = Ok u /\ u <> [] /\
  TextDescription_is_empty t = Ok true /\ TextDescriptions_dbg [t] = Ok (DMap []).
Proof.
  exists (B " x"). eexists _, _. split; [reflexivity|]. split; [reflexivity|]. split; [discriminate|]. split; reflexivity.
Qed.
(* Otherwise true: what is left out are exactly the names that start with a space; among them all empty ones. *)
Theorem C64_names_listed_partial : forall l, Forall text_ok l -> exists e, TextDescriptions_dbg l = Ok (DMap e) /\
  StronglySorted (fun a b => fst a < fst b) e /\
  (forall n d, In (n, d) e <-> exists t s, 1 <= n /\ nth_error l (N.to_nat (n - 1)) = Some t /\
     (forall t', t <> ch " " :: t') /\ trimmed t s /\ d = DStr s).
Proof.
  intros l H. eexists. split; [apply names_tree; exact H|]. split; [apply entries_sorted|]. intros n d. rewrite entries_in. split.
  - intros (k & t & E & -> & K & ->). exists t, (trim_end t). split; [lia|].
    replace (N.to_nat (0 + N.of_nat k + 1 - 1)) with k by lia. split; [exact E|]. split; [|split; [apply trim_end_spec | reflexivity]].
    intros t' ->. discriminate K.
  - intros (t & s & L & E & NS & T & ->). exists (N.to_nat (n - 1)), t. split; [exact E|]. split; [lia|]. split.
    + destruct t as [|b t].
      * apply nth_error_In in E. rewrite Forall_forall in H. destruct (H _ E). discriminate.
      * cbn [hd]. destruct (b =? ch " ") eqn:Q; [|reflexivity]. apply N.eqb_eq in Q. elim (NS t). congruence.
    + f_equal. eapply trimmed_fun; [exact T | apply trim_end_spec].
Qed.
Theorem C64_empty_exactly_partial : forall t, text_ok t ->
  exists b, TextDescription_is_empty t = Ok b /\ (b = true <-> exists t', t = ch " " :: t') /\ (TextDescription_as_str t = Ok [] -> b = true).
Proof.
  intros [|c t] [L P]; [discriminate|]. exists (c =? ch " "). split; [reflexivity|]. split.
  - rewrite N.eqb_eq. split; [intros ->; eauto | intros (t' & [= -> _]); reflexivity].
  - unfold TextDescription_as_str, as_padded_str. rewrite utf8_printable by exact P. cbn [bind]. intros [= E].
    destruct (trim_end_spec (c :: t)) as (k & Q & _). cbn [trim_end] in Q. rewrite E in Q. destruct k as [|k]; [discriminate Q|].
    cbn in Q. injection Q as -> _. reflexivity.
Qed.
(* A zone status report lists exactly the zones with a status, in order. *)
Theorem C64_zones_listed : forall z, zones_ok z -> exists e, ZoneStatusReport_dbg z = Ok (DMap e) /\
  StronglySorted (fun a b => fst a < fst b) e /\
  (forall n d, In (n, d) e <-> exists s, 1 <= n <= 208 /\ nth_error z (N.to_nat (n - 1)) = Some s /\ s <> 0 /\
     d = DTuple "ZoneStatus" [DWord (logical_word s); DWord (physical_word s)]).
Proof.
  intros z [L F]. eexists. split; [apply zones_dbg; exact F|]. split; [apply entries_sorted|]. intros n d. rewrite entries_in. split.
  - intros (k & s & E & -> & K & ->). assert (k < 208)%nat by (rewrite <- L; apply nth_error_Some; congruence). exists s. split; [lia|].
    replace (N.to_nat (0 + N.of_nat k + 1 - 1)) with k by lia. split; [exact E|]. split; [|reflexivity]. intros ->. discriminate K.
  - intros (s & H & E & NZ & ->). exists (N.to_nat (n - 1)), s. split; [exact E|]. split; [lia|]. split; [|reflexivity].
    cbv beta. destruct (s =? 0) eqn:Q; [apply N.eqb_eq in Q; contradiction | reflexivity].
Qed.
Example C64_example : 
  TextDescriptions_dbg [TextDescription_EMPTY; B "Front door      "; B "  indented      "] = Ok (DMap [(2, DStr (B "Front door"))]) /\
  (exists d e, ZoneStatusReport_dbg ex_zones' = Ok (DMap ((1, d) :: e))) /\ zones_ok ex_zones'.
Proof.
  split; [reflexivity|]. split; [eexists _, _; vm_compute; reflexivity|]. split; [reflexivity|].
  apply Forall_forall. intros s Hs. assert (X : forallb (fun s => s <? 16) ex_zones' = true) by (vm_compute; reflexivity).
  rewrite forallb_forall in X. apply N.ltb_lt. auto.
Qed.

Print Assumptions C62_messages_written_exactly.
Print Assumptions C62_events_written.
Print Assumptions C62_state_written.
Print Assumptions C62_commands_written.
Print Assumptions C62_deserialised_written_refuted.
Print Assumptions C63_log_identifies_message.
Print Assumptions C63_log_identifies_event.
Print Assumptions C63_log_identifies_state.
Print Assumptions C63_numbers_written.
Print Assumptions C64_names_listed_refuted.
Print Assumptions C64_names_listed_partial.
Print Assumptions C64_empty_exactly_partial.
Print Assumptions C64_zones_listed.
