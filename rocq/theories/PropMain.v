(* PropMain.v: C112, the programs from their command line on. *)
From Verif Require Import Base BaseFacts Pkt SpecPkt PktFacts DecodeFacts Msg SpecMsg DecFacts MsgFacts WireFacts IsoFacts
  PropMsg Tokio SpecConn ConnFacts State SpecState StateFacts RunFacts HistFacts ViewFacts ExState PropState PropSink PropLive
  Serde SerdeFacts PropSerde SpecInit InitFacts PropConnect SpecSend SendFacts PropSend Mqtt Config SpecMqtt MqttFacts SpecConfig PropMqtt PropConfig PropEnd
  SpecServe ServeFacts PropServe SpecProgram ProgramFacts PropProgram BridgeText SpecJson JsonFacts TextFacts PropText Cli SpecLog FmtText PropCli PropLog Main SpecMain.
From Coq Require Import ZifyBool ZifyNat ZifyN.
Ltac Zify.zify_post_hook ::= Z.div_mod_to_equations.

Lemma main_args_ok args files r : main_args args files = Ok r <-> exists prog path file, args = [prog; path] /\ files path = Some file /\ main_text file = Ok r.
Proof.
  unfold main_args. split.
  - destruct args as [|prog [|path [|x l]]]; cbn [bind]; try discriminate. destruct (files path) as [f|] eqn:E; cbn [bind]; [|discriminate]. intros H. exists prog, path, f. auto.
  - intros (prog & path & f & -> & E & H). cbn [bind]. rewrite E. exact H.
Qed.
Lemma says_iff files path c : file_says files path c <-> exists f v, files path = Some f /\ from_slice f = Ok v /\ file_value v c.
Proof.
  split; intros (f & v & E & D & F); exists f, v; apply from_slice_spec in D; auto.
Qed.
Lemma paired_dec m : credentials_paired m \/ ~ credentials_paired m.
Proof.
  unfold credentials_paired. destruct (m_username m) as [u|], (m_password m) as [p|]; [left; split; discriminate| | |left; tauto];
    right; intros [H1 H2]; [specialize (H2 eq_refl); discriminate | specialize (H1 eq_refl); discriminate].
Qed.
(* reading a configuration does not panic *)
Definition calm {A : Type} (m : res A) : Prop := forall w, m <> Panic w.
Lemma calm_bind {A C : Type} (m : res A) (k : A -> res C) : calm m -> (forall x, calm (k x)) -> calm (bind m k).
Proof. intros H K w. destruct m as [x|e|w']; cbn [bind]; [apply K | discriminate | intros _; exact (H w' eq_refl)]. Qed.
Lemma calm_mapM {A C : Type} (f : A -> res C) l : (forall x, calm (f x)) -> calm (mapM f l).
Proof. intros H. induction l as [|x l IH]; [discriminate|]. cbn [mapM]. apply calm_bind; [apply H|]. intros y. apply calm_bind; [exact IH | discriminate]. Qed.
Lemma calm_fields names v : calm (de_fields names v).
Proof.
  destruct v as [| | | | |l|l]; cbn [de_fields]; try discriminate.
  - destruct (_ =? _)%nat; discriminate.
  - apply calm_mapM. intros k. destruct (occurrences k l) as [|x [|y r]]; discriminate.
Qed.
Lemma calm_field {A : Type} (de : value -> res A) fs i : (forall v, calm (de v)) -> calm (field de fs i).
Proof. intros H. unfold field. destruct (nth_error fs i) as [[v|]|]; try discriminate. apply H. Qed.
Lemma calm_field_or {A : Type} d (de : value -> res A) fs i : (forall v, calm (de v)) -> calm (field_or d de fs i).
Proof. intros H. unfold field_or. destruct (nth_error fs i) as [[v|]|]; try discriminate. apply H. Qed.
Lemma calm_field_opt {A : Type} (de : value -> res A) fs i : (forall v, calm (de v)) -> calm (field_opt de fs i).
Proof.
  intros H. unfold field_opt. destruct (nth_error fs i) as [[v|]|]; try discriminate. unfold de_opt. destruct v; try discriminate; (apply calm_bind; [apply H | discriminate]).
Qed.
Lemma calm_str v : calm (de_str v).
Proof. destruct v; discriminate. Qed.
Lemma calm_u16 v : calm (de_u16 v).
Proof. destruct v; try discriminate. cbn [de_u16]. destruct (_ <? _); discriminate. Qed.
Lemma calm_u32 v : calm (de_u32 v).
Proof. destruct v; try discriminate. cbn [de_u32]. destruct (_ <? _); discriminate. Qed.
Lemma calm_entries {A : Type} (de : value -> res A) l : (forall v, calm (de v)) -> forall m, calm (de_entries de m l).
Proof.
  intros H. induction l as [|[k v] l IH]; intros m; [discriminate|]. cbn [de_entries]. apply calm_bind.
  - unfold key_u8. destruct k as [|c s]; [discriminate|]. destruct (negb _); [discriminate|]. destruct (_ && _); [discriminate|]. destruct (_ <? _); discriminate.
  - intros n. apply calm_bind; [apply H|]. intros x. apply IH.
Qed.
Lemma calm_map {A : Type} (de : value -> res A) v : (forall v, calm (de v)) -> calm (de_map de v).
Proof. intros H. destruct v; try discriminate. apply calm_entries. exact H. Qed.
Ltac calms := repeat lazymatch goal with
  | |- calm (bind _ _) => apply calm_bind; [|intro]
  | |- calm (de_fields _ _) => apply calm_fields
  | |- calm (field _ _ _) => apply calm_field
  | |- calm (field_or _ _ _ _) => apply calm_field_or
  | |- calm (field_opt _ _ _) => apply calm_field_opt
  | |- calm (de_str _) => apply calm_str
  | |- calm (de_u16 _) => apply calm_u16
  | |- calm (de_u32 _) => apply calm_u32
  | |- calm (de_map _ _) => apply calm_map
  | |- calm (Ok _) => intros w0; discriminate
  | |- forall _ : value, _ => intro
  end.
Lemma calm_area v : calm (AreaCfg_de v).
Proof. unfold AreaCfg_de. calms. Qed.
Lemma calm_zone v : calm (ZoneCfg_de v).
Proof. unfold ZoneCfg_de. calms. Qed.
Lemma calm_elk v : calm (ElkCfg_de v).
Proof. unfold ElkCfg_de. calms; [apply calm_area | apply calm_zone]. Qed.
Lemma calm_mqtt v : calm (MqttCfg_de v).
Proof. unfold MqttCfg_de. calms. Qed.
Lemma calm_file v : calm (FileCfg_de v).
Proof. unfold FileCfg_de. calms; [apply calm_elk | apply calm_mqtt]. Qed.
(* what FileCfg_de and the credentials make of a value *)
Lemma setup_cases v :
  (exists c o h cfg, FileCfg_de v = Ok c /\ credentials_paired (f_mqtt c) /\ main_setup v = Ok (o, h, cfg)) \/
  (exists c, FileCfg_de v = Ok c /\ ~ credentials_paired (f_mqtt c) /\ main_setup v = Panic "username without password or vice versa") \/
  ((forall c, ~ file_value v c) /\ main_setup v = Panic "called `Result::unwrap()` on an `Err` value").
Proof.
  destruct (FileCfg_de v) as [c|e|w] eqn:E.
  - unfold main_setup. rewrite E. cbn [expect bind]. destruct (paired_dec (f_mqtt c)) as [P|P].
    + left. exists c. unfold credentials_paired in P. destruct (m_username (f_mqtt c)) as [u|] eqn:EU, (m_password (f_mqtt c)) as [p|] eqn:EP.
      all: try (exfalso; destruct P as [P1 P2]; try (specialize (P1 eq_refl); discriminate P1); specialize (P2 eq_refl); discriminate P2).
      all: cbn [bind]; eexists _, _, _; (split; [reflexivity|]); (split; [unfold credentials_paired; rewrite EU, EP; split; intros; congruence | reflexivity]).
    + right; left. exists c. split; [reflexivity|]. split; [exact P|]. unfold credentials_paired in P.
      destruct (m_username (f_mqtt c)) as [u|], (m_password (f_mqtt c)) as [p|]; cbn [bind]; try reflexivity; exfalso; apply P; split; intros; congruence.
  - right; right. split; [|unfold main_setup; rewrite E; reflexivity]. intros c F. apply C66_configuration_accepted in F as (c' & F & _). congruence.
  - elim (calm_file v w E).
Qed.

(* The bridge runs exactly if it is given the path of a file that says how; otherwise it stops for one of these reasons. *)
Theorem C112_starts : forall cl args files is,
  (forall o h cfg b, main cl args files is = Running o h cfg b ->
     exists c, given args files c /\ set_up_for c o h cfg /\ cfg_ok cfg /\ brun cl cfg is = b) /\
  (forall c, given args files c -> exists c' o h cfg, same_file c c' /\ set_up_for c' o h cfg /\ main cl args files is = Running o h cfg (brun cl cfg is)) /\
  (forall why, main cl args files is = Stopped why <-> refuses files args why).
Proof.
  intros cl args files is. unfold main. split; [|split].
  - intros o h cfg b E. destruct (main_args args files) as [[[o' h'] cfg']|e|w] eqn:EM; try discriminate. injection E as -> -> -> <-.
    apply main_args_ok in EM as (prog & path & f & -> & EF & EM). apply (proj1 (C80_configuration_text f)) in EM as (v & c & D & F & P & S & K).
    exists c. split; [|auto]. exists prog, path. split; [reflexivity|]. split; [exists f, v; auto | exact P].
  - intros c (prog & path & -> & (f & v & EF & D & F) & P). destruct (proj1 (proj2 (C80_configuration_text f)) v c D F P) as (c' & o & h & cfg & S & EM & U).
    exists c', o, h, cfg. split; [exact S|]. split; [exact U|]. rewrite (proj2 (main_args_ok [prog; path] files (o, h, cfg))); [reflexivity|]. exists prog, path, f. auto.
  - intros why. destruct args as [|prog [|path [|x l]]].
    + cbn. split; [intros [= <-]; constructor | intros H; inversion H; reflexivity].
    + cbn. split; [intros [= <-]; constructor | intros H; inversion H; reflexivity].
    + unfold main_args. cbn [bind]. destruct (files path) as [f|] eqn:EF; cbn [bind].
      2:{ split; [intros [= <-]; apply R_no_file; exact EF|]. intros H. inversion H as [| | |p1 p2 X|p1 p2 t X|p1 p2 c (t & v & X & _)]; subst; [reflexivity | congruence | congruence]. }
      assert (V : forall v, from_slice f = Ok v -> forall c, file_says files path c <-> file_value v c).
      { intros v EV c. rewrite says_iff. split; [intros (f' & v' & E1 & E2 & F); congruence | intros F; eauto]. }
      unfold main_text. destruct (from_slice f) as [v|e|w] eqn:EV; cbn [expect bind].
      2:{ assert (N : forall c, ~ file_says files path c) by (intros c X; apply says_iff in X as (f' & v' & E1 & E2 & _); congruence).
          split; [intros [= <-]; eapply R_no_configuration; eauto|]. intros H. inversion H as [| | |p1 p2 X|p1 p2 t X X2|p1 p2 c X]; subst; [reflexivity | reflexivity | elim (N c X)]. }
      2:{ elim (from_slice_safe _ _ EV). }
      destruct (setup_cases v) as [(c & o & h & cfg & E1 & P & E2)|[(c & E1 & P & E2)|(N & E2)]]; rewrite E2.
      * split; [discriminate|]. intros H. pose proof (C66_configuration_read _ _ E1) as FV. inversion H as [| | |p1 p2 X|p1 p2 t X X2|p1 p2 c2 X X2]; subst; [congruence | elim (X2 c); apply (V v eq_refl); exact FV|].
        exfalso. apply (V v eq_refl), C66_configuration_accepted in X as (c' & X & _ & SM). rewrite E1 in X. injection X as <-. apply X2. rewrite SM. exact P.
      * pose proof (C66_configuration_read _ _ E1) as FV. split; [intros [= <-]; apply (R_not_paired _ _ _ c); [apply (V v eq_refl); exact FV | exact P]|].
        intros H. inversion H as [| | |p1 p2 X|p1 p2 t X X2|p1 p2 c2 X X2]; subst; [congruence | elim (X2 c); apply (V v eq_refl); exact FV | reflexivity].
      * split; [intros [= <-]; eapply R_no_configuration; [exact EF|]; intros c X; apply (V v eq_refl) in X; exact (N c X)|].
        intros H. inversion H as [| | |p1 p2 X|p1 p2 t X X2|p1 p2 c2 X X2]; subst; [congruence | reflexivity|]. apply (V v eq_refl) in X. elim (N c2 X).
    + cbn. split; [intros [= <-]; constructor | intros H; inversion H; reflexivity].
Qed.

(* What the broker gets from the process.  Nothing at all unless it is given a configuration.  Otherwise everything is on topics that the
   file gives; and availability says "online" once the bridge is up, and "offline" when it has ended. *)
Theorem C112_what_the_broker_gets : forall cl args files is, Forall input_ok is ->
  match main cl args files is with
  | Stopped why => refuses files args why /\ broker_gets (main cl args files is) = []
  | Running o h cfg b => exists c prefix, given args files c /\ set_up_for c o h cfg /\ prefix_of c prefix /\
      Forall (proper cfg) (blog b) /\
      let t := prefix ++ B "/availability" in
      match b with
      | Connecting _ _ => broker_gets (main cl args files is) = []
      | Up _ => holds (broker_gets (main cl args files is)) t (PText (B "online"))
      | Dead _ _ => holds (broker_gets (main cl args files is)) t (PText (B "offline"))
      end
  end.
Proof.
  intros cl args files is OK. destruct (C112_starts cl args files is) as (S1 & _ & S3). destruct (main cl args files is) as [why|o h cfg b] eqn:EM.
  - split; [apply S3; reflexivity | reflexivity].
  - destruct (S1 _ _ _ _ eq_refl) as (c & G & U & K & EB). pose proof U as (_ & _ & _ & _ & (p & PP & TP & _) & _). exists c, p. split; [exact G|]. split; [exact U|]. split; [exact PP|].
    assert (A : bridge_after cl cfg is b) by (split; assumption). split; [eapply C68_only_these_topics; eauto|]. cbv zeta. rewrite <- TP.
    unfold main in EM. destruct (main_args args files) as [[[o' h'] cfg']|e|w] eqn:EA; try discriminate. injection EM as -> -> -> EB'.
    apply main_args_ok in EA as (prog & path & f & -> & EF & EA). unfold main_text in EA. destruct (from_slice f) as [v|e|w] eqn:EV; try discriminate. cbn [expect bind] in EA.
    pose proof (C69_availability_retained _ _ _ _ _ _ _ EA A) as H. destruct b as [i rx|u|log why]; [reflexivity | exact H | exact H].
Qed.

(* Given the path of a file with a configuration that is good whatever order its areas and zones are gone through in, the program does what
   C99 says: with a panel that answers, a network that delivers and a task that keeps running, the commands asked for get completed. *)
Theorem C112_serves : forall nm cl (may : packet -> Prop) args files c,
  given args files c -> (forall c' o h cfg, same_file c c' -> set_up_for c' o h cfg -> well_configured cl cfg) ->
  exists o h cfg, main_args args files = Ok (o, h, cfg) /\ (exists c', same_file c c' /\ set_up_for c' o h cfg) /\
    (forall v, gets_to nm cl cfg may v -> forall log why, v_bridge v <> Dead log why) /\
    forall vs acts k, goes_on nm cl cfg may vs acts -> fair_program vs acts ->
      exists n, forall m, (n <= m)%nat -> exists u later, v_bridge (vs m) = Up u /\
        In (APublish (topic_prefix cfg ++ B "/availability") true (PText (B "online"))) (u_log u) /\
        completed (v_events (vs m)) = map into_msg (v_asked (vs k)) ++ later.
Proof.
  intros nm cl may args files c G W. destruct (C112_starts cl args files []) as (_ & S2 & _). destruct (S2 c G) as (c' & o & h & cfg & S & U & EM).
  exists o, h, cfg. unfold main in EM. destruct (main_args args files) as [[[o' h'] cfg']|e|w]; try discriminate. injection EM as -> -> ->.
  split; [reflexivity|]. split; [eauto|]. pose proof (W _ _ _ _ S U) as WC. split.
  - intros v R log why E. destruct (C99_never_stops nm cl cfg may v WC R) as [(s & ph & p & rx & E' & _)|(u & E' & _)]; congruence.
  - intros vs acts k X F. eapply C99_all_completed; eauto.
Qed.

(* `elkm1-cli read` prints something exactly if the file can be read, and what it prints is printed for no other contents. *)
Theorem C112_read : forall hex files path,
  (files path = None -> exists why, read_file hex files path = Panic why) /\
  (forall data, files path = Some data -> u8s data -> exists text, read_file hex files path = Ok text /\
     (dump_ok hex -> forall files' path' data', files' path' = Some data' -> u8s data' -> read_file hex files' path' = Ok text -> data' = data)).
Proof.
  intros hex files path. unfold read_file. split; [intros ->; cbn; eauto|]. intros data -> U. cbn [bind].
  destruct (read_lines data U) as (ls & E & _). exists (concat (map (line_text hex) ls)). split; [unfold read_text; rewrite E; reflexivity|].
  intros H files' path' data' EF U'. rewrite EF. cbn [bind]. intros T. destruct (C84_output_identifies_file hex data data' H U U') as (t & t' & T1 & T2 & EQ).
  unfold read_text in T1. rewrite E in T1. injection T1 as <-. symmetry. apply EQ. congruence.
Qed.

(* The configuration of PropText.v, and other command lines and files. *)
Definition ex_files (p : bytes) : option bytes :=
  if beq p (B "elk.json") then Some ex_text
  else if beq p (B "user.json") then Some (q (B "{'elk': {'serialNumber': '0001', 'code': 1234, 'hostPort': 'elk:2101', 'areas': {}, 'zones': {}},
    'mqtt': {'host': 'broker', 'username': 'me'}}"))
  else if beq p (B "empty") then Some [] else None.
Example C112_example :
  (exists c, given [B "elkm1-mqtt"; B "elk.json"] ex_files c) /\
  (exists o, main ex_cl [B "elkm1-mqtt"; B "elk.json"] ex_files ex_start = Running o (B "elk:2101") ex_cfg (Up ex_up)) /\
  refuses ex_files [B "elkm1-mqtt"; B "user.json"] "username without password or vice versa" /\
  refuses ex_files [B "elkm1-mqtt"; B "empty"] "called `Result::unwrap()` on an `Err` value" /\
  refuses ex_files [B "elkm1-mqtt"; B "none"] "called `Result::unwrap()` on an `Err` value" /\
  refuses ex_files [B "elkm1-mqtt"; B "elk.json"; B "-v"] "extra argument after cfg" /\
  (exists t, read_file plain_dump ex_files (B "elk.json") = Ok t).
Proof.
  assert (R : exists o, main ex_cl [B "elkm1-mqtt"; B "elk.json"] ex_files ex_start = Running o (B "elk:2101") ex_cfg (Up ex_up)).
  { destruct C80_example as ((o & E) & _). exists o. unfold main, main_args. cbn [bind]. change (ex_files (B "elk.json")) with (Some ex_text). cbn [bind]. rewrite E.
    destruct C79_example as (_ & (_ & A) & _). rewrite A. reflexivity. }
  split; [destruct R as (o & R); destruct (proj1 (C112_starts _ _ _ _) _ _ _ _ R) as (c & G & _); eauto|]. split; [exact R|].
  split; [apply (C112_starts ex_cl _ _ []); vm_compute; reflexivity|]. split; [apply (C112_starts ex_cl _ _ []); vm_compute; reflexivity|].
  split; [apply R_no_file; reflexivity|]. split; [constructor|].
  destruct (C112_read plain_dump ex_files (B "elk.json")) as [_ H]. destruct (H ex_text eq_refl) as (t & T & _); [|eauto]. apply Forall_forall. intros x Hx. unfold ex_text, q in Hx.
  assert (Y : forallb (fun x => x <? 256) ex_text = true) by (vm_compute; reflexivity). rewrite forallb_forall in Y. apply N.ltb_lt, Y. exact Hx.
Qed.

Print Assumptions C112_starts.
Print Assumptions C112_what_the_broker_gets.
Print Assumptions C112_serves.
Print Assumptions C112_read.
