(* PropShare.v: the property C138: bridges that share a broker keep apart. *)
From Verif Require Import Base BaseFacts Pkt SpecPkt PktFacts DecodeFacts Msg SpecMsg DecFacts MsgFacts WireFacts IsoFacts
  Tokio SpecConn ConnFacts State SpecState StateFacts RunFacts HistFacts ExState PropState PropMsg Serde SerdeFacts PropSerde
  Mqtt MqttFacts Config SpecMqtt SpecConfig PropMqtt PropConfig SpecOrder SpecShare.
From Coq Require Import ZifyBool ZifyNat ZifyN.
Ltac Zify.zify_post_hook ::= Z.div_mod_to_equations.
Import SpecMqtt.

(* ---- topics ---- *)
Definition announces (w : purpose) : bool := match w with AreaAnnouncement _ | ZoneAnnouncement _ => true | _ => false end.
Lemma topic_within cfg w t : topic_for cfg w t -> announces w = false -> exists r, t = (topic_prefix cfg ++ B "/") ++ r.
Proof.
  destruct w; cbn [topic_for announces]; intros H E; try discriminate E.
  - destruct H as (n & _ & ->). exists (B "area/" ++ n ++ B "/ha_state"). rewrite <- app_assoc. reflexivity.
  - destruct H as (n & _ & ->). exists (B "area/" ++ n ++ B "/ha_command"). rewrite <- app_assoc. reflexivity.
  - destruct H as (n & _ & ->). exists (B "zone/" ++ z_name n ++ B "/ha_state"). rewrite <- app_assoc. reflexivity.
  - subst t. exists (B "availability"). rewrite <- app_assoc. reflexivity.
  - subst t. exists (B "event"). rewrite <- app_assoc. reflexivity.
Qed.
Lemma comparable (p q r s : bytes) : (p ++ B "/") ++ r = (q ++ B "/") ++ s -> within p q \/ within q p.
Proof. intros E. apply app_eq_app in E as (l & [[E _]|[E _]]); [right | left]; exists l; exact E. Qed.

(* the last part of a text, after the last slash; and a text without its last digits *)
Lemma last_level (a b s s' : bytes) : one_level s -> one_level s' -> a ++ ch "/" :: s = b ++ ch "/" :: s' -> s = s'.
Proof.
  intros H H' E. apply app_eq_app in E as (l & [[-> E]|[-> E]]); destruct l as [|c l]; cbn [app] in E.
  - injection E as E. auto.
  - injection E as _ E. exfalso. apply H'. rewrite E. apply in_app_iff. right. left. reflexivity.
  - injection E as E. auto.
  - injection E as _ E. exfalso. apply H. rewrite E. apply in_app_iff. right. left. reflexivity.
Qed.
Lemma digits_tail (a b d d' : bytes) c : ~ (ch "0" <= c <= ch "9") -> digits d -> digits d' -> a ++ c :: d = b ++ c :: d' -> d = d' /\ a = b.
Proof.
  intros NC D D' E. apply app_eq_app in E as (l & [[-> E]|[-> E]]); destruct l as [|x l]; cbn [app] in E.
  - injection E as E. rewrite app_nil_r. auto.
  - injection E as _ E. exfalso. unfold digits in D'. rewrite E in D'. apply Forall_app in D' as [_ D']. inversion D'; subst. auto.
  - injection E as E. rewrite app_nil_r. auto.
  - injection E as _ E. exfalso. unfold digits in D. rewrite E in D. apply Forall_app in D as [_ D]. inversion D; subst. auto.
Qed.
Definition kind (w : purpose) : bytes := match w with AreaAnnouncement _ => B "area" | _ => B "zone" end.
Lemma announce_form cfg w t : topic_for cfg w t -> announces w = true -> exists h d, digits d /\
  t = ((h ++ ch "/" :: B "elk-" ++ serial_number cfg ++ B "-" ++ kind w) ++ ch "-" :: d) ++ B "/config".
Proof.
  destruct w; cbn [topic_for announces kind]; intros H E; try discriminate E; destruct H as (ha & n & d & _ & _ & (_ & D & _) & ->).
  - exists (ha ++ B "/alarm_control_panel"), d. split; [exact D|]. repeat ((rewrite <- app_assoc) || (progress cbn [app])). reflexivity.
  - exists (ha ++ B "/binary_sensor"), d. split; [exact D|]. repeat ((rewrite <- app_assoc) || (progress cbn [app])). reflexivity.
Qed.
Lemma one_level_app a b : one_level a -> one_level b -> one_level (a ++ b).
Proof. intros H H' I. apply in_app_iff in I as [I|I]; auto. Qed.
Lemma one_level_check s : forallb (fun c => negb (c =? ch "/")) s = true -> one_level s.
Proof. intros H I. rewrite forallb_forall in H. specialize (H _ I). rewrite N.eqb_refl in H. discriminate. Qed.
Lemma one_level_kind w : one_level (kind w).
Proof. apply one_level_check. destruct w; reflexivity. Qed.

(* ---- C138 ---- *)
(* No topic belongs to two bridges, whatever it is for, if their serial numbers differ and have no slash in them, and neither of their
   topic prefixes is within the other. *)
Theorem C138_topics_partial : forall cfg cfg' w w' t,
  apart (topic_prefix cfg) (topic_prefix cfg') -> one_level (serial_number cfg) -> one_level (serial_number cfg') -> serial_number cfg <> serial_number cfg' ->
  topic_for cfg w t -> ~ topic_for cfg' w' t.
Proof.
  intros cfg cfg' w w' t (A1 & A2) O O' NS H H'. assert (L : announces w = announces w').
  { pose proof (topic_last _ _ _ H) as L. rewrite (topic_last _ _ _ H') in L. destruct w, w'; try discriminate L; reflexivity. }
  destruct (announces w) eqn:EW; symmetry in L.
  - destruct (announce_form _ _ _ H EW) as (h & d & D & ->), (announce_form _ _ _ H' L) as (h' & d' & D' & E).
    apply app_inv_tail in E. apply digits_tail in E as (_ & E); [|vm_compute; intros [X _]; elim X; reflexivity|exact D|exact D'].
    apply last_level in E.
    + apply app_inv_head in E. apply NS. rewrite !app_assoc in E. revert E. clear. intros E.
      assert (K : kind w = kind w').
      { assert (KN : forall v, kind v <> []) by (intros []; discriminate). pose proof (app_same_last _ _ _ _ E (KN w) (KN w')) as X.
        destruct w, w'; cbn [kind] in X |- *; try reflexivity; discriminate X. }
      rewrite K in E. apply app_inv_tail, app_inv_tail in E. exact E.
    + repeat apply one_level_app; auto using one_level_kind; apply one_level_check; reflexivity.
    + repeat apply one_level_app; auto using one_level_kind; apply one_level_check; reflexivity.
  - destruct (topic_within _ _ _ H EW) as (r & ->), (topic_within _ _ _ H' L) as (r' & E). destruct (comparable _ _ _ _ E) as [X|X]; auto.
Qed.
(* So it is with the prefixes that are used if none is configured. *)
Theorem C138_default_partial : forall cfg cfg',
  cfg_topic_prefix cfg = None -> cfg_topic_prefix cfg' = None ->
  one_level (serial_number cfg) -> one_level (serial_number cfg') -> serial_number cfg <> serial_number cfg' ->
  apart (topic_prefix cfg) (topic_prefix cfg').
Proof.
  assert (G : forall s s', one_level s -> one_level s' -> s <> s' -> ~ within (B "elkm1/" ++ s) (B "elkm1/" ++ s')).
  { intros s s' O O' N (r & E). rewrite <- !app_assoc in E. apply app_inv_head in E. apply N. clear N. revert s' O' E. induction s as [|c s IH]; intros [|c' s'] O' E.
    - reflexivity.
    - injection E as E _. elim O'. left. exact E.
    - injection E as E _. elim O. left. symmetry. exact E.
    - injection E as -> E. f_equal. apply IH; [intros X; apply O; right; exact X | intros X; apply O'; right; exact X | exact E]. }
  intros cfg cfg' E E' O O' N. unfold topic_prefix. rewrite E, E'. split; apply G; auto.
Qed.

Lemma merged_filter {A} (f : A -> bool) l1 l2 l : merged l1 l2 l -> Forall (fun a => f a = false) l2 -> filter f l = filter f l1.
Proof.
  induction 1 as [|a l1 l2 l _ IH|a l1 l2 l _ IH]; intros F; [reflexivity| |].
  - cbn [filter]. rewrite (IH F). reflexivity.
  - inversion F as [|? ? F1 F2]; subst. cbn [filter]. rewrite F1. exact (IH F2).
Qed.
Lemma holds_filter l l' t p : filter (on_topic t) l = filter (on_topic t) l' -> holds l t p -> holds l' t p.
Proof.
  intros E (q & a & b & -> & N). assert (X : forall m x c d, filter (on_topic t) m = c ++ x :: d -> exists m1 m2, m = m1 ++ x :: m2 /\ filter (on_topic t) m2 = d).
  { clear. intros m x. induction m as [|y m IH]; intros c d E; cbn [filter] in E; [destruct c; discriminate|]. destruct (on_topic t y) eqn:Y.
    - destruct c as [|z c]; injection E as -> E; [exists [], m; auto|]. destruct (IH _ _ E) as (m1 & m2 & -> & E2). exists (z :: m1), m2. auto.
    - destruct (IH _ _ E) as (m1 & m2 & -> & E2). exists (y :: m1), m2. auto. }
  rewrite filter_app in E. cbn [filter on_topic] in E. rewrite beq_refl in E. symmetry in E. destruct (X _ _ _ _ E) as (m1 & m2 & -> & E2).
  exists q, m1, m2. split; [reflexivity|]. intros q' p' I. assert (J : In (APublishQ q' t true p') (filter (on_topic t) b)).
  { rewrite <- E2. apply filter_In. split; [exact I | cbn [on_topic]; apply beq_refl]. }
  apply filter_In in J as [J _]. exact (N _ _ J).
Qed.
Lemma seen_topics v o h cfg cl is b : main_setup v = Ok (o, h, cfg) -> bridge_after cl cfg is b ->
  forall q t r p, In (APublishQ q t r p) (broker_sees (o_last_will o) b) -> exists w, topic_for cfg w t.
Proof.
  intros M A q t r p I. destruct (C66_set_up v) as (S & _). destruct (S _ _ _ M) as (c & _ & _ & S' & K).
  destruct S' as (_ & _ & _ & _ & (pf & _ & EP & W) & _). unfold broker_sees in I. apply in_app_iff in I as [I|I].
  - pose proof (C68_only_these_topics _ _ _ _ A K) as F. rewrite Forall_forall in F. destruct (F _ I) as (_ & w & T & _). eauto.
  - destruct b; try contradiction. destruct I as [I|[]]. rewrite W in I. cbn in I. injection I as _ <- _ _. exists Availability. cbn [topic_for]. rewrite EP. reflexivity.
Qed.
(* Then what the broker gets and holds on a topic of one bridge is what this bridge has published there, and its last will when it has
   ended, whatever the other has done and whether it has ended. *)
Theorem C138_broker_partial : forall v o h cfg v' o' h' cfg' cl cl' is is' b b' l,
  main_setup v = Ok (o, h, cfg) -> main_setup v' = Ok (o', h', cfg') ->
  apart (topic_prefix cfg) (topic_prefix cfg') -> one_level (serial_number cfg) -> one_level (serial_number cfg') -> serial_number cfg <> serial_number cfg' ->
  bridge_after cl cfg is b -> bridge_after cl' cfg' is' b' -> merged (broker_sees (o_last_will o) b) (broker_sees (o_last_will o') b') l ->
  (forall w t, topic_for cfg w t -> filter (on_topic t) l = filter (on_topic t) (broker_sees (o_last_will o) b) /\
     forall p, holds l t p <-> holds (broker_sees (o_last_will o) b) t p) /\
  (forall w t, topic_for cfg' w t -> filter (on_topic t) l = filter (on_topic t) (broker_sees (o_last_will o') b') /\
     forall p, holds l t p <-> holds (broker_sees (o_last_will o') b') t p).
Proof.
  assert (G : forall v' o' h' cfg cfg' cl' is' (b' : bridge) l1 l, main_setup v' = Ok (o', h', cfg') ->
    apart (topic_prefix cfg) (topic_prefix cfg') -> one_level (serial_number cfg) -> one_level (serial_number cfg') -> serial_number cfg <> serial_number cfg' ->
    bridge_after cl' cfg' is' b' -> merged l1 (broker_sees (o_last_will o') b') l ->
    forall w t, topic_for cfg w t -> filter (on_topic t) l = filter (on_topic t) l1 /\ forall p, holds l t p <-> holds l1 t p).
  { intros v' o' h' cfg cfg' cl' is' b' l1 l M' A O O' N B' ML w t T. assert (E : filter (on_topic t) l = filter (on_topic t) l1).
    { apply (merged_filter _ _ _ _ ML). apply Forall_forall. intros [q t' r p|q fs] I; [|reflexivity]. cbn [on_topic]. destruct (beq t t') eqn:EB; [|reflexivity].
      apply beq_eq in EB. subst t'. destruct (seen_topics _ _ _ _ _ _ _ M' B' _ _ _ _ I) as (w' & T'). elim (C138_topics_partial _ _ _ _ _ A O O' N T T'). }
    split; [exact E|]. intros p. split; apply holds_filter; congruence. }
  assert (MS : forall l1 l2 l : list action, merged l1 l2 l -> merged l2 l1 l) by (induction 1; constructor; assumption).
  intros v o h cfg v' o' h' cfg' cl cl' is is' b b' l M M' A O O' N BA BA' ML. split.
  - exact (G v' o' h' cfg cfg' cl' is' b' _ l M' A O O' N BA' ML).
  - apply (G v o h cfg' cfg cl is b _ l M); auto. destruct A; split; assumption.
Qed.
(* And a bridge that gets a message on a topic of the other one (it has not subscribed to any) puts it aside. *)
Theorem C138_commands_partial : forall cfg cl' cfg' is' u w t pl rx,
  apart (topic_prefix cfg) (topic_prefix cfg') -> topic_for cfg w t -> (forall n, w <> AreaAnnouncement n) -> (forall n, w <> ZoneAnnouncement n) ->
  cfg_ok cfg' -> bridge_after cl' cfg' is' (Up u) -> u_mode u = Selecting -> u_rx u = (t, pl) :: rx ->
  (forall q fs, In (ASubscribeQ q fs) (u_log u) -> ~ In t fs) /\
  brun cl' cfg' (is' ++ [PollRx]) = Up (mkUp (u_panel u) (u_code u) Selecting rx (u_log u)).
Proof.
  intros cfg cl' cfg' is' u w t pl rx (A1 & A2) T W1 W2 K BA EM ER.
  assert (NT : forall a n, In (a, n) (areas cfg') -> t <> area_command_topic (topic_prefix cfg') n).
  { intros a n I ->. destruct (topic_within _ _ _ T) as (r & E); [destruct w; try reflexivity; [elim (W1 area) | elim (W2 zone)]; reflexivity|].
    destruct (topic_within cfg' (AreaCommand a) (area_command_topic (topic_prefix cfg') n)) as (r' & E'); [exists n; split; [exact I | reflexivity] | reflexivity|].
    rewrite E' in E. destruct (comparable _ _ _ _ E); auto. }
  assert (R : forall as_ c, (forall a n, In (a, n) as_ -> t <> area_command_topic (topic_prefix cfg') n) -> requested (topic_prefix cfg') c as_ t pl = Ok None).
  { induction as_ as [|[a n] as_ IH]; intros c H; cbn [requested]; [reflexivity|]. rewrite (proj2 (beq_neq _ _) (H a n (or_introl eq_refl))). cbn [negb]. apply IH. intros a' n' I. exact (H a' n' (or_intror I)). }
  split.
  - intros q fs I J. pose proof (C68_only_these_topics _ _ _ _ BA K) as F. rewrite Forall_forall in F. destruct (F _ I) as (_ & H).
    apply H in J as (a & n & I' & ->). exact (NT a n I' eq_refl).
  - destruct BA as (_ & E). rewrite brun_snoc, E. cbn [bstep]. rewrite EM, ER, (R _ _ NT). reflexivity.
Qed.

(* False as stated: two panels with different serial numbers whose bridges have been given the same topic prefix.  When one of the bridges
   has ended, the broker holds "online" for it; and one DISARM for one house disarms both. *)
Definition ex_shared (serial : bytes) (mqtt : list (bytes * value)) (name : bytes) : value :=
  VObj [(B "elk", VObj [(B "serialNumber", ser_str serial); (B "code", VNum 1234); (B "hostPort", ser_str (B "elk:2101"));
                        (B "areas", VObj [(B "1", ex_area name)]); (B "zones", VObj [])]);
        (B "mqtt", VObj ([(B "host", ser_str (B "broker")); (B "haDiscoveryPrefix", ser_str (B "homeassistant"))] ++ mqtt))].
Definition ex_prefix : list (bytes * value) := [(B "topicPrefix", ser_str (B "elk"))].
Definition ex_cfg_a : Cfg := mkCfg (B "0001") 1234 [(1, B "house")] [] (Some (B "elk")) (Some (B "homeassistant")).
Definition ex_cfg_b : Cfg := mkCfg (B "0002") 1234 [(1, B "house")] [] (Some (B "elk")) (Some (B "homeassistant")).
Definition ex_disarm : list input := [MqttArrive (B "elk/area/house/ha_command") (B "DISARM"); PollRx].
Definition ex_options_ab : MqttOptions := mkMqttOptions [] (B "broker") 1883 None (mkLastWill (B "elk/availability") (B "offline") AtLeastOnce true).
Definition ex_ended : list action := Eval vm_compute in blog (brun ex_cl ex_cfg_a (ex_start ++ [MqttFail])).
Definition ex_up_b : up := Eval vm_compute in up_of (brun ex_cl ex_cfg_b ex_start).
Definition ex_told_a : up := Eval vm_compute in up_of (brun ex_cl ex_cfg_a (ex_start ++ ex_disarm)).
Definition ex_told_b : up := Eval vm_compute in up_of (brun ex_cl ex_cfg_b (ex_start ++ ex_disarm)).
Lemma ex_more_ok is : Forall input_ok is -> Forall input_ok (ex_start ++ is).
Proof. intros H. apply Forall_app. split; [exact ex_start_ok | exact H]. Qed.
Lemma merged_app {A} (l1 l2 : list A) : merged l1 l2 (l1 ++ l2).
Proof. induction l1 as [|a l1 IH]; [induction l2; constructor; assumption | constructor; exact IH]. Qed.
Lemma ex_up_b_after : bridge_after ex_cl ex_cfg_b ex_start (Up ex_up_b).
Proof. split; [exact ex_start_ok | vm_compute; reflexivity]. Qed.
Lemma ex_setup_b : main_setup (ex_shared (B "0002") ex_prefix (B "house")) = Ok (ex_options_ab, B "elk:2101", ex_cfg_b).
Proof. vm_compute. reflexivity. Qed.
Theorem C138_refuted : exists v o h cfg v' o' h' cfg' cl is is' log why u l,
  main_setup v = Ok (o, h, cfg) /\ main_setup v' = Ok (o', h', cfg') /\
  one_level (serial_number cfg) /\ one_level (serial_number cfg') /\ serial_number cfg <> serial_number cfg' /\
  (* the one has ended, the other runs: the broker says that the one is online *)
  bridge_after cl cfg is (Dead log why) /\ bridge_after cl cfg' is' (Up u) /\
  merged (broker_sees (o_last_will o) (Dead log why)) (broker_sees (o_last_will o') (Up u)) l /\
  holds l (topic_prefix cfg ++ B "/availability") (PText (B "online")) /\
  (* both act on the same message *)
  exists is1 is2 u1 u2 t c, bridge_after cl cfg (is1 ++ [MqttArrive t (B "DISARM"); PollRx]) (Up u1) /\
    bridge_after cl cfg' (is2 ++ [MqttArrive t (B "DISARM"); PollRx]) (Up u2) /\
    waiting u1 = [CmdArm (mkArmRequest 1 AL_Disarm c)] /\ waiting u2 = [CmdArm (mkArmRequest 1 AL_Disarm c)].
Proof.
  exists (ex_shared (B "0001") ex_prefix (B "house")), ex_options_ab, (B "elk:2101"), ex_cfg_a,
    (ex_shared (B "0002") ex_prefix (B "house")), ex_options_ab, (B "elk:2101"), ex_cfg_b,
    ex_cl, (ex_start ++ [MqttFail]), ex_start, ex_ended, "called `Result::unwrap()` on an `Err` value"%string, ex_up_b. eexists.
  split; [vm_compute; reflexivity|]. split; [exact ex_setup_b|]. split; [apply one_level_check; vm_compute; reflexivity|].
  split; [apply one_level_check; vm_compute; reflexivity|]. split; [discriminate|].
  split; [split; [apply ex_more_ok; apply Forall_cons; [exact Logic.I | apply Forall_nil] | vm_compute; reflexivity]|]. split; [exact ex_up_b_after|].
  split; [apply merged_app|]. split.
  - apply holds_right. exact (C69_availability_retained _ _ _ _ _ _ _ ex_setup_b ex_up_b_after).
  - exists ex_start, ex_start, ex_told_a, ex_told_b, (B "elk/area/house/ha_command"), (B "001234").
    split; [split; [apply ex_more_ok; repeat (apply Forall_cons; [exact Logic.I|]); apply Forall_nil | vm_compute; reflexivity]|].
    split; [split; [apply ex_more_ok; repeat (apply Forall_cons; [exact Logic.I|]); apply Forall_nil | vm_compute; reflexivity]|].
    split; vm_compute; reflexivity.
Qed.
(* And a serial number with slashes can do the same without any prefix configured. *)
Theorem C138_default_refuted : exists v o h cfg v' o' h' cfg' cl is u u' t,
  main_setup v = Ok (o, h, cfg) /\ main_setup v' = Ok (o', h', cfg') /\ serial_number cfg <> serial_number cfg' /\
  cfg_topic_prefix cfg = None /\ cfg_topic_prefix cfg' = None /\ bridge_after cl cfg is (Up u) /\ bridge_after cl cfg' is (Up u') /\ topic_for cfg (AreaCommand 1) t /\ topic_for cfg' (AreaCommand 1) t.
Proof.
  exists (ex_shared (B "1") [] (B "2/area/house")).
  eexists _, _, (mkCfg (B "1") 1234 [(1, B "2/area/house")] [] None (Some (B "homeassistant"))).
  exists (ex_shared (B "1/area/2") [] (B "house")).
  eexists _, _, (mkCfg (B "1/area/2") 1234 [(1, B "house")] [] None (Some (B "homeassistant"))).
  exists ex_cl, ex_start. eexists _, _, (B "elkm1/1/area/2/area/house/ha_command").
  split; [vm_compute; reflexivity|]. split; [vm_compute; reflexivity|]. split; [discriminate|]. split; [reflexivity|]. split; [reflexivity|].
  split; [split; [exact ex_start_ok | vm_compute; reflexivity]|]. split; [split; [exact ex_start_ok | vm_compute; reflexivity]|].
  split; [exists (B "2/area/house") | exists (B "house")]; (split; [left; reflexivity | reflexivity]).
Qed.

(* two bridges with the default prefixes: the hypotheses hold, and the one keeps its topics when the other has ended *)
Definition ex_cfg_1 : Cfg := mkCfg (B "0001") 1234 [(1, B "house")] [] None (Some (B "homeassistant")).
Definition ex_cfg_2 : Cfg := mkCfg (B "0002") 1234 [(1, B "house")] [] None (Some (B "homeassistant")).
Definition ex_up_1 : up := Eval vm_compute in up_of (brun ex_cl ex_cfg_1 ex_start).
Definition ex_ended_2 : list action := Eval vm_compute in blog (brun ex_cl ex_cfg_2 (ex_start ++ [MqttFail])).
Definition ex_got_1 : list input := [MqttArrive (B "elkm1/0002/area/house/ha_command") (B "DISARM")].
Definition ex_up_1_got : up := Eval vm_compute in up_of (brun ex_cl ex_cfg_1 (ex_start ++ ex_got_1)).
Example C138_example : exists v o h v' o' h' why l,
  main_setup v = Ok (o, h, ex_cfg_1) /\ main_setup v' = Ok (o', h', ex_cfg_2) /\
  apart (topic_prefix ex_cfg_1) (topic_prefix ex_cfg_2) /\ one_level (serial_number ex_cfg_1) /\ one_level (serial_number ex_cfg_2) /\
  bridge_after ex_cl ex_cfg_1 ex_start (Up ex_up_1) /\ bridge_after ex_cl ex_cfg_2 (ex_start ++ [MqttFail]) (Dead ex_ended_2 why) /\
  merged (broker_sees (o_last_will o) (Up ex_up_1)) (broker_sees (o_last_will o') (Dead ex_ended_2 why)) l /\
  holds l (B "elkm1/0001/availability") (PText (B "online")) /\ holds l (B "elkm1/0002/availability") (PText (B "offline")) /\
  (* a message that was meant for the other *)
  bridge_after ex_cl ex_cfg_1 (ex_start ++ ex_got_1) (Up ex_up_1_got) /\ u_mode ex_up_1_got = Selecting /\ cfg_ok ex_cfg_1 /\
  u_rx ex_up_1_got = [(B "elkm1/0002/area/house/ha_command", B "DISARM")] /\ topic_for ex_cfg_2 (AreaCommand 1) (B "elkm1/0002/area/house/ha_command").
Proof.
  assert (O1 : one_level (serial_number ex_cfg_1)) by (apply one_level_check; vm_compute; reflexivity).
  assert (O2 : one_level (serial_number ex_cfg_2)) by (apply one_level_check; vm_compute; reflexivity).
  assert (N12 : serial_number ex_cfg_1 <> serial_number ex_cfg_2) by discriminate.
  assert (AP : apart (topic_prefix ex_cfg_1) (topic_prefix ex_cfg_2)) by (exact (C138_default_partial ex_cfg_1 ex_cfg_2 eq_refl eq_refl O1 O2 N12)).
  assert (M1 : main_setup (ex_shared (B "0001") [] (B "house")) = Ok (mkMqttOptions [] (B "broker") 1883 None (mkLastWill (B "elkm1/0001/availability") (B "offline") AtLeastOnce true), B "elk:2101", ex_cfg_1)) by (vm_compute; reflexivity).
  assert (M2 : main_setup (ex_shared (B "0002") [] (B "house")) = Ok (mkMqttOptions [] (B "broker") 1883 None (mkLastWill (B "elkm1/0002/availability") (B "offline") AtLeastOnce true), B "elk:2101", ex_cfg_2)) by (vm_compute; reflexivity).
  assert (B1 : bridge_after ex_cl ex_cfg_1 ex_start (Up ex_up_1)) by (split; [exact ex_start_ok | vm_compute; reflexivity]).
  assert (B2 : bridge_after ex_cl ex_cfg_2 (ex_start ++ [MqttFail]) (Dead ex_ended_2 "called `Result::unwrap()` on an `Err` value"%string)).
  { split; [apply ex_more_ok; apply Forall_cons; [exact Logic.I | apply Forall_nil] | vm_compute; reflexivity]. }
  eexists _, _, _, _, _, _, _, _. split; [exact M1|]. split; [exact M2|]. split; [exact AP|]. split; [exact O1|]. split; [exact O2|]. split; [exact B1|]. split; [exact B2|].
  split; [apply merged_app|].
  destruct (C138_broker_partial _ _ _ _ _ _ _ _ _ _ _ _ _ _ _ M1 M2 AP O1 O2 N12 B1 B2 (merged_app _ _)) as (X1 & X2).
  split; [apply (proj2 (X1 Availability (B "elkm1/0001/availability") eq_refl)); exact (C69_availability_retained _ _ _ _ _ _ _ M1 B1)|].
  split; [apply (proj2 (X2 Availability (B "elkm1/0002/availability") eq_refl)); exact (C69_availability_retained _ _ _ _ _ _ _ M2 B2)|].
  split; [split; [apply ex_more_ok; apply Forall_cons; [exact Logic.I | apply Forall_nil] | vm_compute; reflexivity]|].
  split; [reflexivity|]. split; [destruct (C66_set_up (ex_shared (B "0001") [] (B "house"))) as (S1 & _); destruct (S1 _ _ _ M1) as (c & _ & _ & _ & K); exact K|].
  split; [vm_compute; reflexivity|]. exists (B "house"). split; [left; reflexivity | reflexivity].
Qed.

Print Assumptions C138_topics_partial.
Print Assumptions C138_default_partial.
Print Assumptions C138_broker_partial.
Print Assumptions C138_commands_partial.
Print Assumptions C138_refuted.
Print Assumptions C138_default_refuted.
