(* FlowFacts.v: for C119: how many requests are made, as against what was taken that can be an answer. *)
From Verif Require Import Base BaseFacts Pkt SpecPkt PktFacts DecodeFacts Msg SpecMsg DecFacts MsgFacts WireFacts IsoFacts
  PropMsg PropPkt Tokio SpecConn ConnFacts State SpecState StateFacts RunFacts HistFacts ViewFacts ExState PropState PropSink SpecInit
  Serde SerdeFacts PropSerde Mqtt SpecMqtt MqttFacts PropMqtt SpecBuffer PropBuffer SpecFlow.
From Coq Require Import ZifyBool ZifyNat ZifyN.
Ltac Zify.zify_post_hook ::= Z.div_mod_to_equations.

(* ---- counting ---- *)
Lemma some_app f ps qs : some_of f (ps ++ qs) = Nat.max (some_of f ps) (some_of f qs).
Proof. unfold some_of. rewrite existsb_app. destruct (existsb f ps), (existsb f qs); reflexivity. Qed.
Lemma count_app f ps qs : count f (ps ++ qs) = (count f ps + count f qs)%nat.
Proof. unfold count. rewrite filter_app, app_length. reflexivity. Qed.
Lemma some_le f ps : (some_of f ps <= count f ps)%nat.
Proof. unfold some_of, count. induction ps as [|x ps IH]; [reflexivity|]. cbn [existsb filter]. destruct (f x); cbn [orb length]; lia. Qed.
Lemma misleading_app ps qs : (misleading ps <= misleading (ps ++ qs))%nat.
Proof. unfold misleading. rewrite !some_app, !count_app. lia. Qed.
Lemma one_kind x : (count arming_like [x] + count zones_like [x] + count name_like [x] + count command_like [x] <= 1)%nat.
Proof. unfold count, arming_like, zones_like, name_like, command_like. cbn [filter]. destruct (message_of x) as [[]|]; cbn; lia. Qed.
(* answers of some kind *)
Definition gave (ds : list pdeed) : list packet := concat (map (fun d => match d with Takes _ (Some x) => [x] | _ => [] end) ds).
Lemma out_count f ds : count f (put_out ds) = (count f (gave ds) + count f (own ds))%nat.
Proof.
  induction ds as [|d ds IH]; [reflexivity|]. unfold put_out, gave, own in *. cbn [map concat]. destruct d as [q [x|]|x]; cbn [out1]; rewrite ?count_app, IH; cbn [count filter length]; lia.
Qed.
Lemma out_some f ds : (some_of f (put_out ds) <= count f (gave ds) + some_of f (own ds))%nat.
Proof.
  induction ds as [|d ds IH]; [cbn; lia|]. unfold put_out, gave, own in *. cbn [map concat]. destruct d as [q [x|]|x]; cbn [out1]; rewrite ?some_app, ?count_app.
  - pose proof (some_le f [x]). cbn [app]. lia.
  - exact IH.
  - cbn [app]. lia.
Qed.
Lemma gave_kinds ds : (count arming_like (gave ds) + count zones_like (gave ds) + count name_like (gave ds) + count command_like (gave ds) <= length (taken_out ds))%nat.
Proof.
  induction ds as [|d ds IH]; [cbn; lia|]. unfold gave, taken_out in *. cbn [map concat]. destruct d as [q [x|]|x].
  - rewrite !count_app, app_length. pose proof (one_kind x). cbn [length]. lia.
  - rewrite app_length. cbn [length app]. lia.
  - exact IH.
Qed.
Lemma out_misleading ds : (misleading (put_out ds) <= length (taken_out ds) + misleading (own ds))%nat.
Proof.
  unfold misleading. pose proof (out_some arming_like ds). pose proof (out_some zones_like ds). rewrite !out_count. pose proof (gave_kinds ds). lia.
Qed.
Lemma out_commands ds : (count command_like (put_out ds) <= length (taken_out ds) + count command_like (own ds))%nat.
Proof. rewrite out_count. pose proof (gave_kinds ds). lia. Qed.
Lemma put_out_app a b : put_out (a ++ b) = put_out a ++ put_out b.
Proof. unfold put_out. rewrite map_app. apply concat_app. Qed.
Lemma taken_out_app a b : taken_out (a ++ b) = taken_out a ++ taken_out b.
Proof. unfold taken_out. rewrite map_app. apply concat_app. Qed.

(* ---- frames ---- *)
Lemma request_valid q f : request_frame q f -> exists body, valid_packet (PAscii body) /\ frame_of (PAscii body) f.
Proof.
  intros (W & body & HW & HF). exists body. split; [|exact HF]. destruct (to_pkt_spec _ W) as (b & _ & HW' & Hb & _).
  pose proof (wire_fun _ _ _ HW HW') as ->. exact Hb.
Qed.

Lemma valid_u8 p f : valid_packet p -> frame_of p f -> u8s f.
Proof. intros V F. apply (frame_of_valid p f V F). Qed.
(* all that was written are the frames of qs; what the panel has taken is a first part of that *)
Lemma frames_split qs gs : Forall2 request_frame qs gs -> forall ts fs a, Forall2 request_frame ts fs -> concat gs = concat fs ++ a ->
  exists gs', gs = fs ++ gs' /\ concat gs' = a.
Proof.
  intros G ts fs a F. revert qs gs G. induction F as [|t f ts fs Ht F IH]; intros qs gs G E; [exists gs; auto|]. cbn [concat] in E. rewrite <- app_assoc in E.
  destruct (request_valid _ _ Ht) as (tb & Vt & Ft). assert (NE : f <> []) by (intros ->; destruct (frame_of_valid _ _ Vt Ft) as (_ & L & _); cbn in L; lia).
  destruct G as [|q g qs gs Hq G]; [destruct f; [congruence | discriminate E]|]. cbn [concat] in E. destruct (request_valid _ _ Hq) as (qb & Vq & Fq).
  assert (Ug : u8s (concat gs)).
  { clear -G. induction G as [|q g qs gs Hq G IG]; [constructor|]. cbn [concat]. apply u8s_app. split; [|exact IG]. destruct (request_valid _ _ Hq) as (b & V & Fb). eapply valid_u8; eauto. }
  assert (U : u8s (f ++ concat fs ++ a)) by (rewrite <- E; apply u8s_app; split; [eapply valid_u8; eauto | exact Ug]). apply u8s_app in U as [_ U].
  pose proof (decode_of_frame _ _ _ Vq Fq Ug) as D1. pose proof (decode_of_frame _ _ _ Vt Ft U) as D2. rewrite E, D2 in D1. injection D1 as _ EC.
  rewrite <- EC in E. apply app_inv_tail in E as <-. destruct (IH _ _ G (eq_sym EC)) as (gs' & -> & <-). exists gs'. auto.
Qed.
Lemma frames_bound gs : Forall (fun f : bytes => (length f <= 17)%nat) gs -> (length (concat gs) <= 17 * length gs)%nat.
Proof. induction 1 as [|g gs H F IH]; [cbn; lia|]. cbn [concat length]. rewrite app_length. lia. Qed.
Lemma left_over w w' ts rest qs gs n : in_buffer w ts rest -> w ++ w' = concat gs -> Forall2 request_frame qs gs -> Forall (fun f : bytes => (length f <= 17)%nat) gs ->
  (length qs <= n + length (taken_out ts))%nat -> (length rest <= 17 * n)%nat.
Proof.
  intros (fs & F & ->) E G L N. rewrite <- app_assoc in E. destruct (frames_split _ _ G _ _ _ F (eq_sym E)) as (gs' & -> & EC).
  assert (LG : length qs = (length fs + length gs')%nat) by (rewrite (Forall2_len _ _ _ G), app_length; reflexivity).
  pose proof (Forall2_len _ _ _ F) as LF. apply Forall_app in L as [_ L]. pose proof (frames_bound _ L) as B. rewrite EC, app_length in B. nia.
Qed.

(* ---- connecting ---- *)
Definition allowed (s : stage) (ps : list packet) : nat :=
  match s with St_as => 0 | St_zs => some_of arming_like ps | St_sd _ _ _ => some_of arming_like ps + some_of zones_like ps + count name_like ps end.
Definition flows (stream : bytes) (p : Panel) (n : list packet -> nat) : Prop :=
  exists ps qs fs, takes stream ps (unread (p_conn p)) /\ Forall2 request_frame qs fs /\ Forall (fun f : bytes => (length f <= 17)%nat) fs /\
    written (p_conn p) = concat fs /\ (length qs <= n ps)%nat.
Definition flow (stream : bytes) (i : istate) : Prop :=
  match i with
  | IRun s ph p => flows stream p (fun ps => allowed s ps + match ph with PhReady => 0 | _ => 1 end)%nat
  | IDone p => flows stream p (fun ps => some_of arming_like ps + some_of zones_like ps + count name_like ps)%nat
  | _ => True
  end.
Lemma allowed_app s ps qs : (allowed s ps <= allowed s (ps ++ qs))%nat.
Proof. destruct s; cbn [allowed]; rewrite ?some_app, ?count_app; lia. Qed.
Lemma flow_same stream s ph p p' : unread (p_conn p') = unread (p_conn p) -> written (p_conn p') = written (p_conn p) -> flow stream (IRun s ph p) -> flow stream (IRun s ph p').
Proof. intros A B (ps & qs & fs & K). exists ps, qs, fs. rewrite A, B. exact K. Qed.
Lemma istep_flow now ws stream i : iinv i -> flow stream i -> flow stream (istep now ws i).
Proof.
  destruct i as [s ph p|p|e|w]; auto. intros (I & C & S & W) V. destruct ph; cbn [istep].
  - unfold conn_poll_ready. rewrite W by discriminate. cbn [length]. change (BACKPRESSURE <=? N.of_nat 0) with false. cbv beta iota.
    destruct (to_pkt_spec _ (stage_msg_wf s p S)) as (b & -> & HW & Hb & _). cbn [bind].
    destruct (encode_valid (PAscii b) Hb) as (f & HF & HE). unfold conn_start_send. rewrite HE. cbn [bind flow].
    destruct V as (ps & qs & fs & T & F & L & WW & N). exists ps, (qs ++ [stage_msg s]), (fs ++ [f]).
    split; [exact T|]. split; [apply Forall2_app; [exact F|]; constructor; [|constructor]; split; [exact (stage_msg_wf s p S)|]; exists b; auto|].
    split; [apply Forall_app; split; [exact L|]; constructor; [|constructor]; apply (stage_length _ _ _ _ S HW HF)|].
    split; [unfold written in *; cbn [p_conn with_conn sent wbuf]; rewrite concat_app, <- WW; cbn [concat]; rewrite app_nil_r, <- app_assoc; reflexivity|].
    rewrite app_length. cbn [length]. lia.
  - destruct (conn_poll_flush (p_conn p) ws) as [[c ws'] r] eqn:EF.
    destruct (conn_flush_spec _ _ _ _ _ EF) as ((R1 & _ & _ & _ & R2 & _) & _ & WW & _).
    assert (U : unread c = unread (p_conn p)) by (unfold unread; congruence).
    destruct r as [|[[]|e]]; cbn [flow]; auto; destruct V as (ps & qs & fs & K); exists ps, qs, fs; cbn [p_conn with_conn]; rewrite U; unfold written in *; rewrite WW; exact K.
  - pose proof I as (CI & _). destruct (conn_next_total _ CI) as (c & r & E & X). rewrite E.
    pose proof (nexts_unread _ _ _ X CI) as U. destruct (await_eof_fails s) as (eof & ->). destruct (nexts_same_write _ _ _ X) as (E1 & E2 & _).
    assert (WC : written c = written (p_conn p)) by (unfold written; congruence).
    destruct r as [|[[pkt|e]|]]; cbv beta iota in U; try exact Logic.I.
    + eapply flow_same; [| |exact V]; cbn [p_conn with_conn]; [apply U | exact WC].
    + pose proof (with_conn_inv p c I (nexts_inv _ _ _ X CI) E1) as I'.
      destruct (interpret_spec now (with_conn p c) pkt I' (nexts_pkt_ok _ _ _ X CI)) as (p' & e & w & EI & I2 & C2 & (EK & Y)). rewrite EI.
      assert (WP : written (p_conn p') = written (p_conn p)) by (rewrite C2; exact WC).
      assert (UP : unread (p_conn p') = unread c) by (rewrite C2; reflexivity).
      destruct V as (ps & qs & fs & T & F & L & WW & N).
      assert (T' : takes stream (ps ++ [pkt]) (unread (p_conn p'))) by (rewrite UP; econstructor; eauto).
      assert (ST : flow stream (IRun s PhWait p')) by (exists (ps ++ [pkt]), qs, fs; pose proof (allowed_app s ps [pkt]); repeat (split; [solve [auto | congruence]|]); lia).
      destruct (e_msg e) as [[m|]|] eqn:EE; try exact ST. destruct (is_response_to m (stage_msg s)) eqn:ER; [|exact ST]. clear ST. apply is_response_spec in ER.
      assert (EM : message_of pkt = Some m).
      { unfold message_of. destruct (parse pkt) as [[m'|]|er|why]; [destruct Y as (Y & _); congruence | destruct Y as (_ & Y & _); congruence | destruct Y as (_ & Y & _); congruence | destruct Y]. }
      assert (AL : allowed s ps = allowed s ps) by reflexivity.
      assert (GO : forall (q : Panel) (n : list packet -> nat), p_conn q = p_conn p' -> (allowed s ps + 1 <= n (ps ++ [pkt]))%nat -> flows stream q n).
      { intros q n EQ LE. exists (ps ++ [pkt]), qs, fs. rewrite EQ. repeat (split; [solve [auto | congruence]|]). lia. }
      destruct s as [| |ty max i]; cbn [stage_msg] in ER; destruct m; cbn [replies] in ER; try contradiction; cbn [after_reply].
      * apply GO; [reflexivity|]. cbn [allowed]. rewrite some_app. unfold some_of at 2. cbn [existsb]. unfold arming_like at 2. rewrite EM. cbn [orb]. lia.
      * apply GO; [reflexivity|]. cbn [allowed]. rewrite !some_app, count_app. unfold some_of at 5. cbn [existsb]. unfold zones_like at 2. rewrite EM. cbn [orb]. lia.
      * assert (NL : (allowed (St_sd ty max i) ps + 1 <= some_of arming_like (ps ++ [pkt]) + some_of zones_like (ps ++ [pkt]) + count name_like (ps ++ [pkt]))%nat).
        { cbn [allowed]. rewrite !some_app, count_app. unfold count at 3. cbn [filter]. unfold name_like at 3. rewrite EM. cbn [length]. lia. }
        assert (NL' : forall s', (allowed (St_sd ty max i) ps + 1 <= allowed (St_sd (fst (fst s')) (snd (fst s')) (snd s')) (ps ++ [pkt]) + 0)%nat) by (intros s'; cbn [allowed] in *; lia).
        assert (AS : forall q, p_conn q = p_conn p' -> flow stream (after_sds ty q)).
        { intros q EQ. destruct ty; cbn [after_sds flow]; (apply GO; [exact EQ|]); first [exact NL | cbn [allowed] in *; lia]. }
        unfold sds_reply. destruct (negb _); [exact Logic.I|]. destruct (names_of (p_state p') ty); [|exact Logic.I]. destruct (sd_num m =? 0); [auto|].
        destruct (_ <? _)%nat; [exact Logic.I|]. destruct (set_nth l _ _) as [l'|?|?]; try exact Logic.I.
        destruct (_ <? _)%nat; [apply GO; [reflexivity|]; cbn [allowed] in *; lia | apply AS; reflexivity].
Qed.
Lemma irun_flow h : Forall iop_ok h -> flow (iarrived h) (irun conn_new h).
Proof.
  induction h as [|o h IH] using rev_ind; intros HO.
  - exists [], [], []. repeat split; constructor.
  - apply Forall_app in HO as [HO Ho]. inversion Ho; subst. specialize (IH HO). pose proof (irun_inv h HO) as I.
    pose proof (iarrived_u8 _ HO) as U. rewrite irun_snoc, iarrived_app. destruct o as [a|now ws].
    + replace (iarrived [IArrive a]) with (arrival_data a) by (unfold iarrived; cbn [map concat]; rewrite app_nil_r; reflexivity).
      assert (Ua : u8s (arrival_data a)) by (destruct a; [exact H1 | constructor | constructor]).
      assert (WA : forall c, written (arrive c a) = written c) by (intros c; destruct a; reflexivity).
      cbn [iop_step]. destruct (irun conn_new h) as [s ph p|p|e|w]; auto; destruct IH as (ps & qs & fs & T & F & L & WW & N); exists ps, qs, fs;
        cbn [p_conn with_conn]; rewrite arrive_unread, WA; (split; [apply takes_more; auto|]); auto.
    + change (iarrived [IStep now ws]) with (@nil N). rewrite app_nil_r. apply istep_flow; auto.
Qed.

(* ---- afterwards ---- *)
Lemma completions_count p0 h p bs : pinv p0 -> Forall op_ok h -> run p0 h = Ok (p, bs) -> (length (completions bs) <= count command_like (packets (events bs)))%nat.
Proof.
  intros I0 HO E. refine (proj2 (run_ind (fun _ bs _ => (length (completions bs) <= count command_like (packets (events bs)))%nat) p0 I0 _ _ h bs p HO E)); [cbn; lia|].
  clear. intros h bs p o p' b _ _ Ip IH _ _ _ S. rewrite completions_app, events_app, packets_app, app_length, count_app.
  assert (K : (length (completions [b]) <= count command_like (packets (events [b])))%nat); [|lia].
  destruct (step_view _ _ _ _ S Ip) as [(V & _)|(now & r & w & e & -> & -> & Y & V & PC)].
  - unfold completions. rewrite V. cbn. lia.
  - rewrite (completes_event _ _ V), V. destruct (e_completes e) as [q|] eqn:EC; [|cbn; lia].
    pose proof (event_cmd _ _ _ _ _ _ PC Y) as H. destruct Ip as (_ & _ & _ & _ & Ic). unfold cmd_ok in Ic. destruct (cmd_state p) as [|q' f k]; [destruct H as (_ & H & _); congruence|].
    destruct H as [(m & H1 & H2 & _ & H3 & _)|(_ & _ & H & _)]; [|congruence]. destruct Ic as ((c & -> & _) & _).
    destruct (poll_event _ _ _ _ _ _ PC Y) as [(pkt & m' & P1 & P2 & _ & P3 & _)|[(pkt & _ & _ & _ & _ & _ & P & _)|(d & m' & prior & -> & _)]]; [|congruence|discriminate].
    unfold packets. cbn [map catMaybes]. rewrite P1. unfold count. cbn [filter catMaybes]. unfold command_like, message_of. rewrite P2.
    assert (m' = m) as -> by congruence. destruct c; cbn [into_msg] in H2; destruct m; cbn [replies] in H2; try contradiction; cbn; lia.
Qed.
Lemma run_outstanding p0 h p bs : pinv p0 -> Forall op_ok h -> run p0 h = Ok (p, bs) -> outstanding p0 ++ map into_msg (accepted h) = completions bs ++ outstanding p.
Proof.
  intros I0 HO E. refine (proj2 (run_ind (fun h bs p => outstanding p0 ++ map into_msg (accepted h) = completions bs ++ outstanding p) p0 I0 _ _ h bs p HO E)); [apply app_nil_r|].
  clear. intros h bs p o p' b _ _ Ip IH _ _ _ S. rewrite accepted_app, map_app, completions_app, app_assoc, IH, <- !app_assoc. f_equal. apply step_outstanding; auto.
Qed.
Lemma accepted_count p0 h p bs : pinv p0 -> Forall op_ok h -> run p0 h = Ok (p, bs) -> (length (accepted h) <= 1 + count command_like (packets (events bs)))%nat.
Proof.
  intros I0 HO E. pose proof (run_outstanding _ _ _ _ I0 HO E) as O. apply (f_equal (@length _)) in O. rewrite !app_length, map_length in O.
  pose proof (completions_count _ _ _ _ I0 HO E). assert (length (outstanding p) <= 1)%nat by (unfold outstanding; destruct (cmd_state p); cbn; lia). lia.
Qed.
Lemma accepted_frames h fs : Forall op_ok h -> Forall2 command_frame (accepted h) fs ->
  Forall2 request_frame (map into_msg (accepted h)) fs /\ Forall (fun f : bytes => (length f <= 17)%nat) fs.
Proof.
  intros HO F. assert (W : Forall (fun c => wf_message (into_msg c)) (accepted h)).
  { clear F. induction HO as [|o h Ho HO IH]; [constructor|]. unfold accepted in *. cbn [map]. destruct o; cbn [catMaybes]; auto. }
  induction F as [|c f cs fs Hc F IH]; [split; constructor|]. inversion W; subst. destruct (IH ltac:(assumption)) as [A B].
  split; constructor; auto; [split; assumption|]. apply (command_length _ _ Hc).
Qed.
