(* PropListen.v: the property C139: to which topics the bridge listens. *)
From Verif Require Import Base BaseFacts Pkt SpecPkt PktFacts DecodeFacts Msg SpecMsg DecFacts MsgFacts WireFacts IsoFacts
  Tokio SpecConn ConnFacts State SpecState StateFacts RunFacts HistFacts ExState PropState PropMsg Serde SerdeFacts PropSerde
  Mqtt MqttFacts Config SpecMqtt SpecConfig PropMqtt PropConfig SpecListen SpecShare PropShare.
From Coq Require Import ZifyBool ZifyNat ZifyN.
Ltac Zify.zify_post_hook ::= Z.div_mod_to_equations.
Import SpecMqtt.

(* ---- filters ---- *)
Lemma levels_some s : exists l ls, levels s = l :: ls.
Proof. induction s as [|c s IH]; cbn [levels]; [eauto|]. destruct (c =? ch "/"); [eauto|]. destruct IH as (l & ls & ->). eauto. Qed.
Lemma levels_inj s : forall t, levels s = levels t -> s = t.
Proof.
  induction s as [|c s IH]; intros [|d t] E; [reflexivity| | |]; cbn [levels] in E.
  - destruct (levels_some t) as (l & ls & EL). destruct (d =? ch "/"); rewrite EL in E; discriminate.
  - destruct (levels_some s) as (l & ls & EL). destruct (c =? ch "/"); rewrite EL in E; discriminate.
  - destruct (levels_some s) as (l & ls & EL), (levels_some t) as (l' & ls' & EL'). destruct (c =? ch "/") eqn:EC, (d =? ch "/") eqn:ED; rewrite ?EL, ?EL' in E; try discriminate E.
    + injection E as -> ->. f_equal; [lia|]. apply IH. congruence.
    + injection E as -> -> ->. f_equal. apply IH. congruence.
Qed.
Lemma levels_in s l c : In l (levels s) -> In c l -> In c s.
Proof.
  revert l. induction s as [|d s IH]; intros l H I; cbn [levels] in H; [destruct H as [<-|[]]; destruct I|].
  destruct (d =? ch "/"); [destruct H as [<-|H]; [destruct I | right; exact (IH l H I)]|].
  destruct (levels_some s) as (l0 & ls & E). rewrite E in H. destruct H as [<-|H].
  - destruct I as [->|I]; [left; reflexivity | right; apply (IH l0); [rewrite E; left; reflexivity | exact I]].
  - right. apply (IH l); [rewrite E; right; exact H | exact I].
Qed.
Lemma match_plain f t : plain_topic f -> filter_matches f t <-> t = f.
Proof.
  intros (NP & NH). unfold filter_matches. split.
  - intros H. symmetry. apply levels_inj.
    assert (G : forall fs ts, level_match fs ts -> ~ In (B "+") fs -> ~ In (B "#") fs -> fs = ts).
    { induction 1 as [|l fs ts _ IH|l fs ts _ IH|ts]; intros N1 N2.
      - reflexivity.
      - f_equal. apply IH; [intros X; apply N1; right; exact X | intros X; apply N2; right; exact X].
      - elim N1. left. reflexivity.
      - elim N2. left. reflexivity. }
    apply (G _ _ H); intros X; [apply NP | apply NH]; (apply (levels_in _ _ _ X); left; reflexivity).
  - intros ->. induction (levels f) as [|l ls IH]; constructor; exact IH.
Qed.

(* ---- when the bridge subscribes ---- *)
Definition sub_after (cl : client) (cfg : Cfg) (a : action) : Prop :=
  match a with ASubscribeQ _ _ => forall area name, In (area, name) (areas cfg) -> topic_ok cl (area_state_topic (topic_prefix cfg) name) = true | _ => True end.
Lemma obind_log_ok {A C} (P : action -> Prop) (m : out A) (f : A -> out C) :
  Forall P (fst m) -> (forall l a, m = (l, Ok a) -> Forall P (fst (f a))) -> Forall P (fst (obind m f)).
Proof. destruct m as [l [a|e|w]]; cbn [obind fst]; intros H HF; try exact H. specialize (HF l a eq_refl). destruct (f a) as [l' r]. apply Forall_app. auto. Qed.
Lemma pub_sub cl cfg q t r p : Forall (sub_after cl cfg) (fst (publish cl q t r p)).
Proof. apply publish_log. exact Logic.I. Qed.
Lemma areas_sub cl cfg p : Forall (sub_after cl cfg) (fst (publish_area_states cl p (topic_prefix cfg) (areas cfg))).
Proof. apply each_log_in. intros [n name] I. repeat (apply obind_log; [apply lift_log|intros ?]). apply pub_sub. Qed.
Lemma zone_sub cl cfg p z c : Forall (sub_after cl cfg) (fst (publish_zone_state cl p (topic_prefix cfg) z c)).
Proof. repeat (apply obind_log; [apply lift_log|intros ?]). apply pub_sub. Qed.
Lemma event_sub cl cfg p e : Forall (sub_after cl cfg) (fst (handle_event cl cfg p e)).
Proof.
  apply obind_log; [apply lift_log|]. intros v. apply obind_log; [apply pub_sub|].
  intros _. destruct (e_change e) as [[z s|prior]|]; [|apply areas_sub|constructor]. destruct (find _ (zones cfg)) as [[k c]|]; [apply zone_sub | constructor].
Qed.
Lemma areas_done cl cfg p l : publish_area_states cl p (topic_prefix cfg) (areas cfg) = (l, Ok tt) ->
  forall area name, In (area, name) (areas cfg) -> topic_ok cl (area_state_topic (topic_prefix cfg) name) = true.
Proof.
  intros H area name I. apply each_ok in H as (ls & F & _). induction F as [|[n x] l0 xs ls H F IH]; [destruct I|]. destruct I as [[= -> ->]|I]; [|exact (IH I)].
  clear - H. repeat (apply obind_ok in H as (? & ? & ? & _ & H & _)). apply publish_ok in H as [H _]. exact H.
Qed.
Lemma start_sub cl cfg p : Forall (sub_after cl cfg) (fst (start_up cl cfg p)).
Proof.
  unfold start_up. apply obind_log; [apply lift_log|]. intros code'.
  apply obind_log; [|intros _; apply obind_log_ok; [apply areas_sub|]; intros la [] EA; apply obind_log; [|intros _; apply obind_log; [|intros _; apply obind_log; [apply pub_sub|constructor]]]].
  - destruct (ha_discovery_prefix cfg) as [ha|]; [|constructor]. apply obind_log; [|intros _]; apply each_log_in; intros [n x] I; apply pub_sub.
  - apply each_log_in. intros [n z] I. apply obind_log; [apply lift_log|]. intros k. apply zone_sub.
  - unfold subscribe_many. destruct (filters_ok cl _); constructor; [|constructor]. cbn [sub_after]. exact (areas_done _ _ _ _ EA).
Qed.
Lemma log_sub cl cfg is b : bridge_after cl cfg is b -> Forall (sub_after cl cfg) (blog b).
Proof.
  intros (HI & E). subst b. induction is as [|i is IH] using rev_ind; [constructor|]. apply Forall_app in HI as [HI _]. specialize (IH HI). rewrite brun_snoc.
  destruct (brun cl cfg is) as [s rx|u|l w]; [| |exact IH].
  - destruct i as [a|t pl| |now ws|now| |ws]; cbn [bstep]; try constructor. unfold after_connect. destruct (istep now ws s) as [st ph p|p|er|why]; try constructor.
    pose proof (start_sub cl cfg p) as H. unfold settle. destruct (start_up cl cfg p) as [l [c|er|why]]; exact H.
  - cbn [blog] in IH. assert (F : forall ws v, u_log v = u_log u -> Forall (sub_after cl cfg) (blog (poll_send_flush ws v))).
    { intros ws v EV. unfold poll_send_flush. destruct (poll_flush ws (u_panel v)) as [p [|[[]|e]]]; cbn; rewrite EV; exact IH. }
    destruct i as [a|t pl| |now ws|now| |ws]; cbn [bstep]; try exact IH.
    + destruct (u_mode u); try exact IH. destruct (poll_next now (u_panel u)) as [[[p [|[[e|er]|]]] w]|er|why]; try exact IH.
      pose proof (event_sub cl cfg p e) as H. unfold settle. destruct (handle_event cl cfg p e) as [l [[]|er|why]]; cbn [blog u_log]; apply Forall_app; auto.
    + destruct (u_mode u); try exact IH. destruct (u_rx u) as [|[t pl] rx]; try exact IH. destruct (requested _ _ _ _ _) as [[c|]|er|why]; exact IH.
    + destruct (u_mode u); try exact IH; [|apply F; reflexivity]. destruct (poll_ready TASK ws (u_panel u)) as [p [|[[]|e]]]; try exact IH.
      destruct (start_send c p); try exact IH. apply F. reflexivity.
Qed.

(* ---- C139 ---- *)
(* Whatever the names and the prefix are, and whatever becomes of the bridge: the filters it has subscribed to have no wildcards; together
   they match the topics of its areas' commands and no others. *)
Theorem C139_listens : forall cl cfg is b q fs, no_wildcards_published cl -> cfg_ok cfg -> bridge_after cl cfg is b -> In (ASubscribeQ q fs) (blog b) ->
  Forall plain_topic fs /\
  (forall t, (exists f, In f fs /\ filter_matches f t) <-> exists area name, In (area, name) (areas cfg) /\ t = topic_prefix cfg ++ B "/area/" ++ name ++ B "/ha_command").
Proof.
  intros cl cfg is b q fs NW K A I. pose proof (C68_only_these_topics _ _ _ _ A K) as F. rewrite Forall_forall in F. destruct (F _ I) as (_ & HF).
  pose proof (log_sub _ _ _ _ A) as G. rewrite Forall_forall in G. specialize (G _ I). cbn [sub_after] in G.
  assert (PL : Forall plain_topic fs).
  { apply Forall_forall. intros f J. apply HF in J as (a & n & J & ->). specialize (NW _ (G a n J)). unfold area_state_topic in NW. destruct NW as (N1 & N2).
    split; intros X; [apply N1 | apply N2]; clear N1 N2; rewrite !in_app_iff in *; (destruct X as [X|[X|[X|X]]]; [left; exact X | right; left; exact X | right; right; left; exact X |]);
      exfalso; cbn in X; repeat (destruct X as [X|X]; [discriminate X|]); exact X. }
  split; [exact PL|]. rewrite Forall_forall in PL. intros t. split.
  - intros (f & J & M). apply (match_plain f t (PL f J)) in M. subst t. apply HF in J as (a & n & J & ->). exists a, n. auto.
  - intros (a & n & J & E). assert (T : In t fs) by (apply HF; exists a, n; auto). exists t. split; [exact T|]. apply (match_plain t t (PL t T)). reflexivity.
Qed.
(* And while it is up it listens to all of them. *)
Theorem C139_all_of_them : forall cl cfg is u area name, no_wildcards_published cl -> cfg_ok cfg -> bridge_after cl cfg is (Up u) -> In (area, name) (areas cfg) ->
  exists q fs f, In (ASubscribeQ q fs) (u_log u) /\ In f fs /\ filter_matches f (topic_prefix cfg ++ B "/area/" ++ name ++ B "/ha_command").
Proof.
  intros cl cfg is u area name NW K A I. destruct (up_log cl cfg is u _ A (loop_not_availability cfg)) as (u0 & l & (C & E & _) & EL & _).
  destruct (start_up_ok _ _ _ _ _ (connected_reachable _ C) E) as (_ & _ & _ & ld & la & lz & fs & EL' & _).
  assert (S : In (ASubscribe fs) (u_log u)) by (rewrite EL, EL'; rewrite !in_app_iff; cbn; tauto).
  destruct (proj2 (proj2 (C139_listens cl cfg is (Up u) _ fs NW K A S) (topic_prefix cfg ++ B "/area/" ++ name ++ B "/ha_command"))) as (f & J & M); [eauto|]. eauto 8.
Qed.
(* With a name that has a wildcard in it, the bridge subscribes to nothing and never comes up. *)
Theorem C139_wildcard_in_name : forall cl cfg is b area name c, no_wildcards_published cl -> cfg_ok cfg -> bridge_after cl cfg is b ->
  In (area, name) (areas cfg) -> In c name -> In c [ch "+"; ch "#"] -> (forall q fs, ~ In (ASubscribeQ q fs) (blog b)) /\ (forall u, b <> Up u).
Proof.
  intros cl cfg is b area name c NW K A I IC W. assert (G : forall q fs, ~ In (ASubscribeQ q fs) (blog b)).
  { intros q fs J. pose proof (log_sub _ _ _ _ A) as G. rewrite Forall_forall in G. specialize (NW _ (G _ J area name I)). unfold area_state_topic in NW. destruct NW as (N1 & N2).
    rewrite !in_app_iff in N1, N2. destruct W as [<-|[<-|[]]]; [apply N1 | apply N2]; right; right; left; exact IC. }
  split; [exact G|]. intros u ->. destruct (C139_all_of_them cl cfg is u area name NW K A I) as (q & fs & _ & J & _). exact (G q fs J).
Qed.

(* ---- C138 ---- *)
(* Of two bridges that are apart, neither has subscribed to a filter that matches a topic of the other. *)
Theorem C138_not_delivered_partial : forall cfg cl' cfg' is' b' w t q fs f,
  apart (topic_prefix cfg) (topic_prefix cfg') -> one_level (serial_number cfg) -> one_level (serial_number cfg') -> serial_number cfg <> serial_number cfg' ->
  topic_for cfg w t -> no_wildcards_published cl' -> cfg_ok cfg' -> bridge_after cl' cfg' is' b' -> In (ASubscribeQ q fs) (blog b') -> In f fs -> ~ filter_matches f t.
Proof.
  intros cfg cl' cfg' is' b' w t q fs f A O O' N T NW K BA I J M. destruct (C139_listens cl' cfg' is' b' q fs NW K BA I) as (_ & L).
  destruct (proj1 (L t)) as (a & n & IA & E); [eauto|]. apply (C138_topics_partial cfg cfg' w (AreaCommand a) t A O O' N T). exists n. auto.
Qed.

(* ---- examples ---- *)
Definition plainb (t : bytes) : bool := forallb (fun c => negb (c =? ch "+") && negb (c =? ch "#")) t.
Lemma plainb_plain t : plainb t = true -> plain_topic t.
Proof. intros H. unfold plainb in H. rewrite forallb_forall in H. split; intros I; specialize (H _ I); cbn in H; discriminate. Qed.
Definition ex_strict : client := mkClient plainb (fun _ => true).
Definition ex_wild : Cfg := mkCfg (B "0001") 1234 [(1, B "+")] [] None (Some (B "homeassistant")).
Definition ex_strict_up : up := Eval vm_compute in up_of (brun ex_strict ex_cfg ex_start).
Definition ex_wild_log : list action := Eval vm_compute in blog (brun ex_strict ex_wild ex_start).
Definition ex_lax_up : up := Eval vm_compute in up_of (brun ex_cl ex_wild ex_start).
Example C139_example :
  no_wildcards_published ex_strict /\ cfg_ok ex_cfg /\ cfg_ok ex_wild /\
  (* the bridge listens to one topic *)
  bridge_after ex_strict ex_cfg ex_start (Up ex_strict_up) /\ In (ASubscribe [B "elkm1/0001/area/house/ha_command"]) (u_log ex_strict_up) /\
  filter_matches (B "elkm1/0001/area/house/ha_command") (B "elkm1/0001/area/house/ha_command") /\
  ~ filter_matches (B "elkm1/0001/area/house/ha_command") (B "elkm1/0001/area/garage/ha_command") /\
  (* an area called "+": it has announced the area and has ended before it could subscribe *)
  (exists why, bridge_after ex_strict ex_wild ex_start (Dead ex_wild_log why)) /\ length ex_wild_log = 1%nat /\
  (* a client that does not check: the filter would match the topics of all areas *)
  bridge_after ex_cl ex_wild ex_start (Up ex_lax_up) /\ In (ASubscribe [B "elkm1/0001/area/+/ha_command"]) (u_log ex_lax_up) /\
  filter_matches (B "elkm1/0001/area/+/ha_command") (B "elkm1/0001/area/garage/ha_command").
Proof.
  split; [exact plainb_plain|].
  assert (K : forall n (x : bytes), n <= 255 -> u8_keys [(n, x)]) by (intros n x H; split; [apply NoDup_cons; [intros [] | apply NoDup_nil] | apply Forall_cons; [exact H | apply Forall_nil]]).
  split; [split; [apply K; lia | split; [apply NoDup_cons; [intros [] | apply NoDup_nil] | apply Forall_cons; [cbn; lia | apply Forall_nil]]]|].
  split; [split; [apply K; lia | split; [apply NoDup_nil | apply Forall_nil]]|].
  split; [split; [exact ex_start_ok | vm_compute; reflexivity]|].
  split; [vm_compute; right; right; right; right; left; reflexivity|].
  assert (P : plain_topic (B "elkm1/0001/area/house/ha_command")) by (apply plainb_plain; vm_compute; reflexivity).
  split; [apply (match_plain _ _ P); reflexivity|]. split; [intros X; apply (match_plain _ _ P) in X; discriminate X|].
  split; [eexists; split; [exact ex_start_ok | vm_compute; reflexivity]|]. split; [reflexivity|].
  split; [split; [exact ex_start_ok | vm_compute; reflexivity]|]. split; [vm_compute; right; right; left; reflexivity|].
  unfold filter_matches. vm_compute. apply match_same, match_same, match_same, match_plus, match_same, match_end.
Qed.

Example C138_example_not_delivered :
  apart (topic_prefix ex_cfg_2) (topic_prefix ex_cfg_1) /\ topic_for ex_cfg_2 (AreaCommand 1) (B "elkm1/0002/area/house/ha_command") /\
  bridge_after ex_strict ex_cfg_1 ex_start (brun ex_strict ex_cfg_1 ex_start) /\ In (ASubscribe [B "elkm1/0001/area/house/ha_command"]) (blog (brun ex_strict ex_cfg_1 ex_start)) /\
  ~ filter_matches (B "elkm1/0001/area/house/ha_command") (B "elkm1/0002/area/house/ha_command").
Proof.
  assert (O1 : one_level (serial_number ex_cfg_1)) by (apply one_level_check; vm_compute; reflexivity).
  assert (O2 : one_level (serial_number ex_cfg_2)) by (apply one_level_check; vm_compute; reflexivity).
  split; [apply (C138_default_partial ex_cfg_2 ex_cfg_1 eq_refl eq_refl O2 O1); discriminate|].
  split; [exists (B "house"); split; [left; reflexivity | reflexivity]|]. split; [split; [exact ex_start_ok | exact eq_refl]|].
  split; [vm_compute; right; right; left; reflexivity|]. intros X. apply match_plain in X; [discriminate X | apply plainb_plain; vm_compute; reflexivity].
Qed.

Print Assumptions C138_not_delivered_partial.
Print Assumptions C139_listens.
Print Assumptions C139_all_of_them.
Print Assumptions C139_wildcard_in_name.
