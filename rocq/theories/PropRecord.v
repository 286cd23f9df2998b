(* PropRecord.v: C127, reading a recording shows what was received live (elkm1-cli/src/main.rs, tokio.rs, state.rs). *)
From Verif Require Import Base BaseFacts Pkt SpecPkt PktFacts DecodeFacts Msg SpecMsg DecFacts MsgFacts WireFacts IsoFacts
  Tokio SpecConn ConnFacts State SpecState StateFacts RunFacts HistFacts ViewFacts ExState PropState Cli SpecCli PropPkt PropConn PropCli
  SpecAgree PropAgree SpecRecord.
From Coq Require Import ZifyBool ZifyNat ZifyN.
Ltac Zify.zify_post_hook ::= Z.div_mod_to_equations.

Lemma read_is data ps left : u8s data -> drain data = Ok (ps, left) -> cli_read data = Ok (lines_for ps left).
Proof. intros U E. apply C53_read_characterised; [exact U|]. apply reads_drains; [exact U|]. apply drain_iff; assumption. Qed.

(* The bytes a Connection receives, in whatever pieces and however it is polled, read from a file: read prints the packets that the polls
   answer, and then what is left over, for which the connection answers an error when the peer closes. *)
Theorem C127_connection : forall h closed n,
  Forall (fun a => match a with Bytes c => c <> [] /\ u8s c | _ => False end) (arrivals h) ->
  exists ps left c rs c' r, cli_read (concat (map arrival_data (arrivals h))) = Ok (lines_for ps left) /\
    crun conn_new (history h closed n) = Ok (c, rs) /\ conn_poll_next c = Ok (c', r) /\
    r = answer (map Packet ps) left closed (ready_count rs).
Proof.
  intros h closed n F.
  assert (X : exists chunks, arrivals h = map Bytes chunks /\ Forall (fun c => u8s c) chunks /\ concat (map arrival_data (arrivals h)) = concat chunks).
  { revert F. generalize (arrivals h). induction l as [|a l IH]; intros F; [exists []; repeat split; constructor|].
    inversion F as [|? ? F1 F2]; subst. destruct (IH F2) as (cs & -> & H2 & H3). destruct a as [c| |]; [|destruct F1|destruct F1].
    exists (c :: cs). split; [reflexivity|]. split; [constructor; [apply F1 | exact H2]|]. cbn [map concat arrival_data]. rewrite H3. reflexivity. }
  destruct X as (chunks & EA & FU & EC).
  assert (FO : Forall arrival_ok (arrivals h)).
  { rewrite Forall_forall in *. intros a I. specialize (F a I). destruct a; [exact F | exact Logic.I | destruct F]. }
  destruct (C45_owed_packets chunks FU) as (ps & left & D & O). rewrite <- EA in O.
  destruct (C45_every_poll_answers_what_is_owed h closed n FO) as (c & rs & os & left' & c' & r & E1 & O' & E2 & E3).
  destruct (C45_owed_is_determined _ _ _ _ _ _ O O') as [<- <-].
  exists ps, left, c, rs, c', r. split; [|auto]. rewrite EC. apply read_is; [|exact D].
  clear -FU. induction FU; cbn [concat]; [constructor | apply u8s_app; auto].
Qed.

(* The bytes a panel's client receives from the start, read from a file: what came while connecting, and then exactly the packets of the events. *)
Theorem C127_recording : forall h0 p0 h p bs,
  Forall iop_ok h0 -> irun conn_new h0 = IDone p0 -> Forall op_ok h -> run p0 h = Ok (p, bs) -> all_read p ->
  exists ps, cli_read (iarrived h0 ++ arrived h) = Ok (lines_for (ps ++ packets (events bs)) (unread (p_conn p))) /\
    takes (iarrived h0) ps (unread (p_conn p0)).
Proof.
  intros h0 p0 h p bs HO0 E0 HO E AR. destruct (connected_viewed _ _ HO0 E0) as (ps & T0 & _).
  assert (C : connected p0) by (exists h0; auto). assert (R : reachable p0) by (apply connected_reachable; exact C).
  destruct (reachable_inv _ R) as [I0 _]. pose proof (run_pinv _ _ _ _ I0 HO E) as I.
  exists ps. split; [|exact T0]. apply read_is; [apply u8s_app; split; [apply iarrived_u8 | apply arrived_u8]; auto|].
  apply drain_iff; [apply u8s_app; split; [apply iarrived_u8 | apply arrived_u8]; auto|].
  eapply takes_drains; [apply takes_more; [exact T0 | apply iarrived_u8; auto | apply arrived_u8; auto]|].
  apply drain_iff; [apply u8s_app; split; [apply unread_u8, I0 | apply arrived_u8; auto]|]. apply read_packets; assumption.
Qed.

(* A recording that goes on: what was printed for packets stays, and the rest is what is printed for the part left over with what follows. *)
Theorem C127_longer : forall d1 d2, u8s d1 -> u8s d2 ->
  exists ps1 left1 ps2 left2, cli_read d1 = Ok (lines_for ps1 left1) /\ cli_read (left1 ++ d2) = Ok (lines_for ps2 left2) /\
    cli_read (d1 ++ d2) = Ok (lines_for (ps1 ++ ps2) left2) /\ exists front, d1 = front ++ left1.
Proof.
  intros d1 d2 U1 U2. destruct (drain_total _ U1) as (ps1 & left1 & E1 & D1).
  assert (FR : exists front, d1 = front ++ left1).
  { clear -D1 U1. induction D1 as [src E|src p rest ps left E _ IH]; [exists []; reflexivity|].
    destruct (C06_progress_and_bound _ _ _ U1 E) as (raw & -> & _). apply u8s_app in U1 as [_ U1]. destruct (IH U1) as (f & ->). exists (raw ++ f). apply app_assoc. }
  assert (UL : u8s left1) by (destruct FR as (f & ->); apply u8s_app in U1; apply U1).
  assert (U3 : u8s (left1 ++ d2)) by (apply u8s_app; auto).
  destruct (drain_total _ U3) as (ps2 & left2 & E2 & D2). exists ps1, left1, ps2, left2.
  split; [apply read_is; assumption|]. split; [apply read_is; assumption|]. split; [|exact FR]. apply read_is; [apply u8s_app; auto|].
  apply drain_iff; [apply u8s_app; auto|]. clear -D1 D2 U1 U2.
  induction D1 as [src E|src p rest ps left E _ IH]; [exact D2|]. cbn [app]. econstructor.
  - apply C04_more_bytes_same_packet; eauto.
  - apply IH; [|exact D2]. destruct (C06_progress_and_bound _ _ _ U1 E) as (raw & -> & _). apply u8s_app in U1. apply U1.
Qed.

(* Non-vacuity: a frame in two pieces, polled in between, then an incomplete one, and the peer closes. *)
Definition ex_hist : list cop := [CArrive (Bytes (firstn 8 ex_ascii)); CPoll; CArrive (Bytes (skipn 8 ex_ascii ++ B "1E"))].
Example C127_connection_example :
  Forall (fun a => match a with Bytes c => c <> [] /\ u8s c | _ => False end) (arrivals ex_hist) /\
  cli_read (concat (map arrival_data (arrivals ex_hist))) = Ok [OPacket (PAscii ex_ascii_body); OIncomplete (B "1E")] /\
  match crun conn_new (history ex_hist true 3) with Ok (_, rs) => Some rs | _ => None end =
    Some [Pending; Ready (Some (IoOk (PAscii ex_ascii_body))); Ready (Some (IoErr "bytes remaining on stream")); Ready None].
Proof.
  split; [|split; vm_compute; reflexivity]. assert (U : forall b, forallb (fun x => x <? 256) b = true -> u8s b) by (intros b H; apply Forall_forall; intros x Hx; rewrite forallb_forall in H; apply N.ltb_lt; auto).
  apply Forall_cons; [split; [discriminate | apply U; vm_compute; reflexivity]|]. apply Forall_cons; [split; [discriminate | apply U; vm_compute; reflexivity]|]. constructor.
Qed.
(* A connected panel that gets a zone change and the start of another frame. *)
Definition ex_ops : list op := [Arrive (Bytes (bytes_of (MZoneChange (mkZC 2 2)) ++ B "0A")); PollNext 5; PollNext 6].
Example C127_recording_example :
  Forall iop_ok ex_init /\ irun conn_new ex_init = IDone ex_panel /\ Forall op_ok ex_ops /\
  exists p bs, run ex_panel ex_ops = Ok (p, bs) /\ all_read p /\ length (packets (events bs)) = 1%nat /\ unread (p_conn p) = B "0A" /\
  exists ls, cli_read (iarrived ex_init ++ arrived ex_ops) = Ok ls /\ length ls = 10%nat /\ skipn 8 ls = lines_for (packets (events bs)) (B "0A").
Proof.
  split; [exact ex_init_ok|]. split; [vm_compute; reflexivity|]. split.
  - apply Forall_cons; [apply Forall_forall; intros b Hb; apply N.ltb_lt; revert b Hb; apply forallb_forall; vm_compute; reflexivity|].
    repeat (apply Forall_cons; [exact Logic.I|]); constructor.
  - eexists _, _. split; [vm_compute; reflexivity|]. split; [eexists; vm_compute; reflexivity|]. split; [vm_compute; reflexivity|]. split; [vm_compute; reflexivity|].
    eexists. split; [vm_compute; reflexivity|]. split; vm_compute; reflexivity.
Qed.
Example C127_longer_example :
  cli_read (firstn 8 ex_ascii) = Ok [OIncomplete (firstn 8 ex_ascii)] /\ cli_read (firstn 8 ex_ascii ++ skipn 8 ex_ascii) = Ok [OPacket (PAscii ex_ascii_body)].
Proof. vm_compute. split; reflexivity. Qed.

Print Assumptions C127_connection.
Print Assumptions C127_recording.
Print Assumptions C127_longer.
