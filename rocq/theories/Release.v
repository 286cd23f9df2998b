(* Release.v: /repo again, as it is compiled without overflow checks and without debug_assert! (cargo build --release; no [profile] in /repo/Cargo.toml says otherwise).
   Integer arithmetic wraps, and the three debug_assert!s (pkt.rs:361, msg.rs:723, state.rs:196) are gone.  Only functions that contain such a place, or call one that does,
   are here, each named as in Pkt.v, Msg.v, Tokio.v, State.v, Mqtt.v and Cli.v with _r added; they call the others as they are.  Definitions only.

   All places with arithmetic that could overflow: pkt.rs:230, msg.rs:520, msg.rs:1056, state.rs:188.  At all others either the operands are bounded by the pattern or the
   comparison around (pkt.rs:249-250, msg.rs:632, 818, 1034, 1370), or they are positions in buffers, far below 2^32. *)
From Verif Require Import Base Pkt Msg Tokio State Serde Cli.
From Verif Require Import Mqtt.
From Verif Require FmtMsg Layout.

(* ---- pkt.rs ---- *)
(* pkt.rs:228-237 AsciiPacket::encode *)
Definition ascii_encode_r (body to : bytes) : res bytes :=
  let len := (2 + as_u8 (length body)) mod 256 in
  let encoded_len := hex_byte len in
  let csum := wrapping_add8 (checksum encoded_len) (checksum body) in
  Ok (to ++ encoded_len ++ body ++ hex_byte csum ++ CRLF).
(* pkt.rs:85-91 Packet::encode *)
Definition encode_r (p : packet) (to : bytes) : res bytes :=
  match p with
  | PAscii body => ascii_encode_r body to
  | PRp data => rp_encode data to
  | PInvalid raw _ => Ok (to ++ raw)
  end.
(* pkt.rs:359-407 RpPacket::decode; the assert! of 360 stays *)
Definition rp_decode_r (src : bytes) : res (rp_result * bytes) :=
  if (length src <? 2)%nat then Panic "assertion failed: src.len() >= 2"
  else let buf := firstn (Nat.min (length src) RP_MAX_LEN) src in
       rp_loop (S (length buf)) src buf 2 [].
(* pkt.rs:41-83 Packet::decode *)
Definition decode_r (src : bytes) : res (option packet * bytes) :=
  if (length src <? 2)%nat then Ok (None, src)
  else if starts_with src RP_HEADER then
    r <- rp_decode_r src ;;
    match r with
    | (RpOk None, src') => Ok (None, src')
    | (RpOk (Some d), src') => Ok (Some (PRp d), src')
    | (RpErr raw reason, src') => Ok (Some (PInvalid raw reason), src')
    end
  else
    a <- index src 0 ;;
    b <- index src 1 ;;
    match dehex_byte a b with
    | Ok len =>
        let len := (4 + N.to_nat len)%nat in
        match get_to src len with
        | None => Ok (None, src)
        | Some raw =>
            pkt <- match ascii_decode raw with
                   | Ok body => Ok (PAscii body)
                   | Err e => Ok (PInvalid raw e)
                   | Panic w => Panic w
                   end ;;
            src' <- advance src len ;;
            Ok (Some pkt, src')
        end
    | Err _ =>
        r <- scan (S INVALID_MAX_LEN) 0 src ;;
        match r with
        | None => Ok (None, src)
        | Some pos =>
            raw <- slice src 0 pos ;;
            src' <- advance src pos ;;
            Ok (Some (PInvalid raw "bytes without ASCII length or RP prefix"), src')
        end
    | Panic w => Panic w
    end.

(* ---- msg.rs ---- *)
(* msg.rs:718-766 RtcData::from_ascii *)
Definition RtcData_from_ascii_r (data : bytes) : res RtcData :=
  if (length data <? 16)%nat then Err "RTC data must be at least 16 bytes" else
  s_year <- slice data 11 13 ;;
  y <- parse_u8_dec "year" s_year ;;
  s_month <- slice data 9 11 ;;
  mo <- parse_u8_dec "month" s_month ;;
  if negb (in_range 1 12 mo) then Err "month out of range" else
  s_day <- slice data 7 9 ;;
  d <- parse_u8_dec "day" s_day ;;
  if negb (in_range 1 31 d) then Err "day out of range" else
  s_hour <- slice data 4 6 ;;
  h <- parse_u8_dec "hour" s_hour ;;
  if 24 <=? h then Err "hour out of range" else
  s_minute <- slice data 2 4 ;;
  mi <- parse_u8_dec "minute" s_minute ;;
  if 60 <=? mi then Err "minute out of range" else
  s_second <- slice data 0 2 ;;
  se <- parse_u8_dec "second" s_second ;;
  if 60 <=? se then Err "second out of range" else
  b6 <- index data 6 ;;
  wd <- Weekday_try_from b6 ;;
  b13 <- index data 13 ;;
  ds <- (if b13 =? ch "0" then Ok false else if b13 =? ch "1" then Ok true else Err "bad dst flag") ;;
  b14 <- index data 14 ;;
  cd <- ClockDisplayMode_try_from b14 ;;
  b15 <- index data 15 ;;
  dd <- DateDisplayMode_try_from b15 ;;
  Ok (mkRtcData (mkDateTime y mo d h mi se) wd ds cd dd).
(* msg.rs:250-280 Message::parse_ascii *)
Definition parse_ascii_r (payload : bytes) : res (option message) :=
  if (length payload <? 4)%nat then Err "malformed ASCII message: too short" else
  cmd <- slice payload 0 2 ;;
  data <- slice payload 2 (length payload) ;;
  if existsb (beq cmd) [B "a0"; B "a1"; B "a2"; B "a3"; B "a4"; B "a5"; B "a6"; B "a7"; B "a8"; B "a9"; B "a:"]
  then c1 <- index cmd 1 ;; m <- ArmRequest_from_ascii c1 data ;; Ok (Some (MArmRequest m))
  else if beq cmd (B "as") then Ok (Some MArmingStatusRequest)
  else if beq cmd (B "AS") then m <- ArmingStatusReport_from_ascii_data data ;; Ok (Some (MArmingStatusReport m))
  else if beq cmd (B "EE") then m <- SendTimeData_from_ascii_data data ;; Ok (Some (MSendTimeData m))
  else if beq cmd (B "IC") then m <- SendCode_from_ascii_data data ;; Ok (Some (MSendCode m))
  else if beq cmd (B "rr") then Ok (Some MRtcRequest)
  else if beq cmd (B "RR") then m <- RtcData_from_ascii_r data ;; Ok (Some (MRtcResponse m))
  else if beq cmd (B "sd") then m <- SdReq_from_ascii_data data ;; Ok (Some (MStringDescriptionRequest m))
  else if beq cmd (B "SD") then m <- SdResp_from_ascii_data data ;; Ok (Some (MStringDescriptionResponse m))
  else if beq cmd (B "tn") then m <- ActivateTask_from_ascii_data data ;; Ok (Some (MActivateTask m))
  else if beq cmd (B "TC") then m <- TaskChange_from_ascii_data data ;; Ok (Some (MTaskChange m))
  else if beq cmd (B "XK") then m <- RtcData_from_ascii_r data ;; Ok (Some (MHeartbeat m))
  else if beq cmd (B "ZC") then m <- ZoneChange_from_ascii_data data ;; Ok (Some (MZoneChange m))
  else if beq cmd (B "zs") then Ok (Some MZoneStatusRequest)
  else if beq cmd (B "ZS") then m <- ZoneStatusReport_from_ascii_data data ;; Ok (Some (MZoneStatusReport m))
  else Ok None.
(* msg.rs:242-248 Message::parse *)
Definition parse_r (pkt : packet) : res (option message) :=
  match pkt with
  | PAscii body => parse_ascii_r body
  | PRp _ => Ok None
  | PInvalid _ _ => Ok None
  end.
(* msg.rs:1055-1063 *)
Definition ArmRequest_to_ascii_r (m : ArmRequest) : res bytes :=
  let a := (ar_area m + ch "0") mod 256 in
  expect (ascii_try_from ([ch "a"; ArmLevel_u8 (ar_level m); a] ++ ar_code m ++ B "00")) "ArmRequest invalid".
(* msg.rs:62-68 Message::to_pkt, through :98-103 *)
Definition to_ascii_r (m : message) : res bytes :=
  match m with
  | MArmRequest m => ArmRequest_to_ascii_r m
  | MArmingStatusRequest => ArmingStatusRequest_to_ascii
  | MArmingStatusReport m => ArmingStatusReport_to_ascii m
  | MSendTimeData m => SendTimeData_to_ascii m
  | MSendCode m => SendCode_to_ascii m
  | MRtcRequest => RtcRequest_to_ascii
  | MRtcResponse m => RtcResponse_to_ascii m
  | MStringDescriptionRequest m => SdReq_to_ascii m
  | MStringDescriptionResponse m => SdResp_to_ascii m
  | MActivateTask t => ActivateTask_to_ascii t
  | MTaskChange t => TaskChange_to_ascii t
  | MHeartbeat m => Heartbeat_to_ascii m
  | MZoneChange m => ZoneChange_to_ascii m
  | MZoneStatusRequest => ZoneStatusRequest_to_ascii
  | MZoneStatusReport z => ZoneStatusReport_to_ascii z
  end.
(* msg.rs:62-68 *)
Definition to_pkt_r (m : message) : res packet := b <- to_ascii_r m ;; Ok (PAscii b).
(* msg.rs:519-521 to_index: a usize, of 64 bits *)
Definition to_index_r (v : N) : N := (v + (2 ^ 64 - 1)) mod 2 ^ 64.
(* `l[i]` and `l[i] = x` for a usize; used at state.rs:114, 224, main.rs:121 *)
Definition index_r {A : Type} (l : list A) (i : N) : res A := if i <? N.of_nat (length l) then index l (N.to_nat i) else Panic "index out of range".
Definition set_nth_r {A : Type} (l : list A) (i : N) (x : A) : res (list A) := if i <? N.of_nat (length l) then set_nth l (N.to_nat i) x else Panic "index out of range".

(* ---- tokio.rs ---- *)
(* tokio.rs:93-95 Codec::decode *)
Definition codec_decode_r (src : bytes) : res (option packet * bytes) := decode_r src.
(* and the default decode_eof; tokio.rs:92-96 *)
Definition codec_decode_eof_r (src : bytes) : res (io (option packet) * bytes) :=
  ' (o, rest) <- codec_decode_r src ;;
  match o with
  | Some p => Ok (IoOk (Some p), rest)
  | None => match rest with
            | [] => Ok (IoOk None, rest)
            | _ :: _ => Ok (IoErr "bytes remaining on stream", rest)
            end
  end.
(* what tokio.rs:42 calls *)
Fixpoint framed_loop_r (fuel : nat) (c : conn) : res (conn * poll (option (io packet))) :=
  match fuel with
  | O => Panic "out of fuel"
  | S fuel' =>
      (* reading: append to the buffer, then try to decode again *)
      let read (c : conn) :=
        let got (chunk : bytes) (q : list rd) :=
          match chunk with
          | [] => if c_eof c
                  then Ok (set_read c (rbuf c) true false false q, Ready None)
                  else framed_loop_r fuel' (set_read c (rbuf c) true true false q)
          | _ :: _ => framed_loop_r fuel' (set_read c (rbuf c ++ chunk) false true false q)
          end in
        match rq c with
        | [] => if peer_closed c then got [] [] else Ok (c, Pending)
        | RErr e :: q => Ok (set_read c (rbuf c) (c_eof c) false true q, Ready (Some (IoErr e)))
        | RData chunk :: q => got chunk q
        end in
      if has_errored c then Ok (set_read c (rbuf c) (c_eof c) false false (rq c), Ready None)
      else if is_readable c then
        if c_eof c then
          ' (r, rest) <- codec_decode_eof_r (rbuf c) ;;
          match r with
          | IoErr e => Ok (set_read c rest true true true (rq c), Ready (Some (IoErr e)))
          | IoOk None => Ok (set_read c rest true false false (rq c), Ready None)
          | IoOk (Some p) => Ok (set_read c rest true true false (rq c), Ready (Some (IoOk p)))
          end
        else
          ' (o, rest) <- codec_decode_r (rbuf c) ;;
          match o with
          | Some p => Ok (set_read c rest false true false (rq c), Ready (Some (IoOk p)))
          | None => read (set_read c rest false false false (rq c))
          end
      else read c
  end.
(* tokio.rs:38-47 *)
Definition conn_poll_next_r (c : conn) : res (conn * poll (option (io packet))) :=
  framed_loop_r (2 + length (rq c)) c.
(* tokio.rs:61-67, 102-105 *)
Definition conn_start_send_r (c : conn) (p : packet) : res conn :=
  buf <- encode_r p (wbuf c) ;; Ok (set_write c buf (sent c)).

(* ---- state.rs ---- *)
(* state.rs:112-115 *)
Definition panel_zone_name_r (p : Panel) (zone : N) : res bytes :=
  let i := to_index_r zone in index_r (zone_names (p_state p)) i.
(* state.rs:217-238 *)
Definition interpret_msg_r (now : N) (p : Panel) (m : message) : res (Panel * option Change) :=
  match m with
  | MArmingStatusReport r => Ok (interpret_arming_status now p r)
  | MZoneChange z =>
      match s_zones (p_state p) with
      | None => Ok (p, None)
      | Some zs =>
          let i := to_index_r (zc_zone z) in
          s <- index_r zs i ;;
          zs' <- set_nth_r zs i (zc_status z) ;;
          Ok (with_zones p zs',
              if s =? zc_status z then None else Some (CZoneChange (zc_zone z) s))
      end
  | MZoneStatusReport zs => Ok (with_zones p zs, None)
  | _ => Ok (p, None)
  end.
(* state.rs:212-257 interpret *)
Definition interpret_r (now : N) (p : Panel) (pkt : packet) : res (Panel * Event * option nat) :=
  match parse_r pkt with
  | Panic w => Panic w
  | Ok None => Ok (p, mkEvent (Some pkt) None None None, None)
  | Err e => Ok (p, mkEvent (Some pkt) (Some (inr e)) None None, None)
  | Ok (Some m) =>
      ' (p1, change) <- interpret_msg_r now p m ;;
      let '(p2, reply_to, woken) := interpret_reply p1 m in
      Ok (p2, mkEvent (Some pkt) (Some (inl m)) reply_to change, woken)
  end.
(* state.rs:307-345 <Panel as Stream>::poll_next *)
Definition poll_next_r (now : N) (p : Panel) : res (Panel * poll (option (io Event)) * option nat) :=
  ' (c, r) <- conn_poll_next_r (p_conn p) ;;
  let p := with_conn p c in
  match r with
  | Ready (Some (IoErr e)) => Ok (p, Ready (Some (IoErr e)), None)
  | Ready None => Ok (p, Ready None, None)
  | Ready (Some (IoOk pkt)) =>
      ' (p', event, woken) <- interpret_r now p pkt ;;
      Ok (p', Ready (Some (IoOk event)), woken)
  | Pending =>
      match pending_arm p with
      | Some (deadline, pending) =>
          if deadline <=? now then
            match s_arming (p_state p) with
            | None => Panic "have prior arming_status when transition pending"
            | Some prior =>
                Ok (with_pending (with_arming p pending) None,
                    Ready (Some (IoOk (mkEvent None None None (Some (CArmingStatus prior))))), None)
            end
          else Ok (p, Pending, None)
      | None => Ok (p, Pending, None)
      end
  end.
(* state.rs:378-390 <Panel as Sink>::start_send *)
Definition start_send_r (c : Command) (p : Panel) : res Panel :=
  match cmd_state p with
  | Busy _ _ _ => Panic "assertion failed: matches!(this.cmd_state, CmdState::Idle)"
  | Idle =>
      let msg := into_msg c in
      pkt <- to_pkt_r msg ;;
      conn <- conn_start_send_r (p_conn p) pkt ;;
      Ok (with_cmd (with_conn p conn) (Busy msg false None))
  end.
(* the calls of state.rs:304-420 *)
Definition step_r (p : Panel) (o : op) : res (Panel * obs) :=
  match o with
  | Arrive a => Ok (with_conn p (arrive (p_conn p) a), ONone)
  | PollNext now => ' (p', r, woken) <- poll_next_r now p ;; Ok (p', ONext r woken)
  | PollReady w ws => let '(p', r) := poll_ready w ws p in Ok (p', OSink r)
  | StartSend c => p' <- start_send_r c p ;; Ok (p', ONone)
  | PollFlush ws => let '(p', r) := poll_flush ws p in Ok (p', OSink r)
  | PollClose ws => let '(p', r) := poll_close ws p in Ok (p', OSink r)
  end.
(* the calls of state.rs:304-420 *)
Fixpoint run_r (p : Panel) (os : list op) : res (Panel * list obs) :=
  match os with
  | [] => Ok (p, [])
  | o :: os' => ' (p1, b) <- step_r p o ;; ' (p2, bs) <- run_r p1 os' ;; Ok (p2, b :: bs)
  end.
(* state.rs:142-149, 188 *)
Definition stage_msg_r (s : stage) : message :=
  match s with
  | St_as => MArmingStatusRequest
  | St_zs => MZoneStatusRequest
  | St_sd ty _ i => MStringDescriptionRequest (mkSdReq ty ((N.of_nat i mod 256 + 1) mod 256))
  end.
(* state.rs:192-206 *)
Definition sds_reply_r (ty : TextDescriptionType) (max unfilled_i : nat) (p : Panel) (m : message) : istate :=
  match m with
  | MStringDescriptionResponse r =>
        match names_of (p_state p) ty with
        | None => ICrash "have names for ty"
        | Some names =>
            if sd_num r =? 0 then after_sds ty p
            else
              let reply_i := N.to_nat (sd_num r - 1) in
              if (reply_i <? unfilled_i)%nat then ICrash "assertion failed: reply_i >= unfilled_i"
              else
                match set_nth names reply_i (sd_text r) with
                | Ok names' =>
                    let p' := with_state p (set_names (p_state p) ty names') in
                    if (reply_i + 1 <? max)%nat
                    then IRun (St_sd ty max (reply_i + 1)) PhReady p'
                    else after_sds ty p'
                | Err e => ICrash e
                | Panic w => ICrash w
                end
        end
  | _ => ICrash "only SD should be accepted as reply to sd"
  end.
(* state.rs:161-178 *)
Definition after_reply_r (s : stage) (p : Panel) (m : message) : istate :=
  match s with
  | St_as => IRun St_zs PhReady p
  | St_zs => IRun (St_sd TT_Area NUM_AREAS 0) PhReady p
  | St_sd ty max i => sds_reply_r ty max i p m
  end.
(* state.rs:174-177 *)
Definition await_eof_r (s : stage) : istate :=
  match FmtMsg.Message_dbg (stage_msg_r s) with
  | Ok d => IFail (string_of_bytes (B "EOF while expecting reply to " ++ Layout.dbg_text (fun b => b) None d))
  | Err e => ICrash e
  | Panic w => ICrash w
  end.
(* state.rs:135-209 *)
Definition istep_r (now : N) (ws : list wr) (i : istate) : istate :=
  match i with
  | IRun s PhReady p =>
      let '(c, _, r) := conn_poll_ready (p_conn p) ws in
      let p := with_conn p c in
      match r with
      | Pending => IRun s PhReady p
      | Ready (IoErr e) => IFail e
      | Ready (IoOk _) =>
          match (pkt <- to_pkt_r (stage_msg_r s) ;; conn_start_send_r c pkt) with
          | Ok c' => IRun s PhFlush (with_conn p c')
          | Err e => ICrash e
          | Panic w => ICrash w
          end
      end
  | IRun s PhFlush p =>
      let '(c, _, r) := conn_poll_flush (p_conn p) ws in
      let p := with_conn p c in
      match r with
      | Pending => IRun s PhFlush p
      | Ready (IoErr e) => IFail e
      | Ready (IoOk _) => IRun s PhWait p
      end
  | IRun s PhWait p =>
      match conn_poll_next_r (p_conn p) with
      | Panic w => ICrash w
      | Err e => ICrash e
      | Ok (c, r) =>
          let p := with_conn p c in
          match r with
          | Pending => IRun s PhWait p
          | Ready None => await_eof_r s
          | Ready (Some (IoErr e)) => IFail e
          | Ready (Some (IoOk pkt)) =>
              match interpret_r now p pkt with
              | Ok (p', event, _) =>
                  match e_msg event with
                  | Some (inl m) =>
                      if is_response_to m (stage_msg_r s) then after_reply_r s p' m else IRun s PhWait p'
                  | _ => IRun s PhWait p'
                  end
              | Err e => ICrash e
              | Panic w => ICrash w
              end
          end
      end
  | _ => i
  end.
(* state.rs:135-209 *)
Definition iop_step_r (i : istate) (o : iop) : istate :=
  match o with IArrive a => iarrive a i | IStep now ws => istep_r now ws i end.
(* state.rs:107-110, 135-209 *)
Definition irun_r (c : conn) (os : list iop) : istate := fold_left iop_step_r os (init_start c).

(* ---- elkm1-mqtt ---- *)
(* main.rs:118-142 *)
Definition ha_area_state_r (report : ArmingStatusReport) (area : N) : res bytes :=
  let i := to_index_r area in
  s <- index_r (arming_status report) i ;;
  u <- index_r (up_state report) i ;;
  a <- index_r (alarm_state report) i ;;
  if is_firing a then Ok (B "triggered")
  else if AlarmState_eqb a AA_AlarmAbortDelayActive then Ok (B "pending")
  else if ArmUpState_eqb u AU_ArmedWithExitTimer then Ok (B "arming")
  else Ok match s with
          | AST_Disarmed => B "disarmed"
          | AST_ArmedStay | AST_ArmedStayInstant => B "armed_home"
          | AST_ArmedAway => B "armed_away"
          | AST_ArmedNight | AST_ArmedNightInstant => B "armed_night"
          | AST_ArmedVacation => B "armed_vacation"
          end.
(* main.rs:144-162 *)
Definition publish_area_states_r (cl : client) (panel : Panel) (prefix : bytes) (areas : list (N * bytes)) : out unit :=
  each (fun '(area_id, name) =>
    area <~ lift (expect (Area_try_from area_id) "called `Result::unwrap()` on an `Err` value") ;;
    report <~ lift (panel_arming_status panel) ;;
    s <~ lift (ha_area_state_r report area) ;;
    publish cl AtLeastOnce (area_state_topic prefix name) true (PText s)) areas.
(* main.rs:164-187 *)
Definition publish_zone_state_r (cl : client) (panel : Panel) (prefix : bytes) (zone : N) (cfg : ZoneCfg) : out unit :=
  zs <~ lift (panel_zone_statuses panel) ;;
  let i := to_index_r zone in
  status <~ lift (index_r zs i) ;;
  s <~ lift (ha_zone_state status) ;;
  publish cl AtLeastOnce (zone_state_topic prefix (z_name cfg)) true (PText s).
(* main.rs:420-442 *)
Definition start_up_r (cl : client) (cfg : Cfg) (panel : Panel) : out bytes :=
  let prefix := topic_prefix cfg in
  code <~ lift (expect (ArmCode_try_from_u32 (code cfg)) "called `Result::unwrap()` on an `Err` value") ;;
  _ <~ match ha_discovery_prefix cfg with
       | Some ha => publish_ha_discovery cl prefix ha cfg
       | None => done tt
       end ;;
  _ <~ publish_area_states_r cl panel prefix (areas cfg) ;;
  _ <~ each (fun '(zone_id, z) =>
         zone <~ lift (expect (Zone_try_from zone_id) "called `Result::unwrap()` on an `Err` value") ;;
         publish_zone_state_r cl panel prefix zone z) (zones cfg) ;;
  _ <~ subscribe_many cl AtMostOnce (map (fun '(_, name) => area_command_topic prefix name) (areas cfg)) ;;
  _ <~ publish cl AtLeastOnce (availability_topic prefix) true (PText (B "online")) ;;
  done code.
(* main.rs:449-467 *)
Definition handle_event_r (cl : client) (cfg : Cfg) (panel : Panel) (e : Event) : out unit :=
  let prefix := topic_prefix cfg in
  v <~ lift (Event_ser e) ;;
  _ <~ publish cl AtLeastOnce (event_topic prefix) false (PJson v) ;;
  match e_change e with
  | Some (CArmingStatus _) => publish_area_states_r cl panel prefix (areas cfg)
  | Some (CZoneChange zone _) =>
      match find (fun '(k, _) => k =? zone) (zones cfg) with
      | None => done tt
      | Some (_, z) => publish_zone_state_r cl panel prefix zone z
      end
  | None => done tt
  end.
(* main.rs:418 *)
Definition after_connect_r (cl : client) (cfg : Cfg) (i : istate) (rx : list (bytes * bytes)) : bridge :=
  match i with
  | IRun _ _ _ => Connecting i rx
  | IDone p => settle [] (start_up_r cl cfg p) (fun log code => Up (mkUp p code Selecting rx log))
  | IFail e => Dead [] e
  | ICrash w => Dead [] w
  end.
(* main.rs:412-475, 329-342 *)
Definition bstep_r (cl : client) (cfg : Cfg) (b : bridge) (i : input) : bridge :=
  match b with
  | Dead _ _ => b
  | Connecting s rx =>
      match i with
      | NetArrive a => Connecting (iarrive a s) rx
      | MqttArrive topic pl => Connecting s (rx ++ [(topic, pl)])
      | PollConnect now ws => after_connect_r cl cfg (istep_r now ws s) rx
      | MqttFail => Dead [] "called `Result::unwrap()` on an `Err` value"
      | _ => b
      end
  | Up u =>
      match i with
      | NetArrive a => Up (set_panel u (with_conn (u_panel u) (arrive (p_conn (u_panel u)) a)))
      | MqttArrive topic pl => Up (mkUp (u_panel u) (u_code u) (u_mode u) (u_rx u ++ [(topic, pl)]) (u_log u))
      | MqttFail => Dead (u_log u) "called `Result::unwrap()` on an `Err` value"
      | PollConnect _ _ => b
      | PollPanel now =>
          match u_mode u with
          | Selecting =>
              match poll_next_r now (u_panel u) with
              | Ok (p, Pending, _) => Up (set_panel u p)
              | Ok (p, Ready None, _) => Dead (u_log u) "called `Option::unwrap()` on a `None` value"
              | Ok (p, Ready (Some (IoErr e)), _) => Dead (u_log u) e
              | Ok (p, Ready (Some (IoOk e)), _) =>
                  settle (u_log u) (handle_event_r cl cfg p e) (fun log _ => Up (mkUp p (u_code u) Selecting (u_rx u) log))
              | Err e => Dead (u_log u) e
              | Panic w => Dead (u_log u) w
              end
          | _ => b
          end
      | PollRx =>
          match u_mode u, u_rx u with
          | Selecting, (topic, pl) :: rx =>
              match requested (topic_prefix cfg) (u_code u) (areas cfg) topic pl with
              | Ok None => Up (mkUp (u_panel u) (u_code u) Selecting rx (u_log u))
              | Ok (Some c) => Up (mkUp (u_panel u) (u_code u) (Feeding c) rx (u_log u))
              | Err e => Dead (u_log u) e
              | Panic w => Dead (u_log u) w
              end
          | _, _ => b
          end
      | PollSend ws =>
          match u_mode u with
          | Selecting => b
          | Flushing => poll_send_flush ws u
          | Feeding c =>
              let '(p, r) := poll_ready TASK ws (u_panel u) in
              match r with
              | Pending => Up (set_panel u p)
              | Ready (IoErr e) => Dead (u_log u) e
              | Ready (IoOk _) =>
                  match start_send_r c p with
                  | Ok p' => poll_send_flush ws (set_panel u p')
                  | Err e => Dead (u_log u) e
                  | Panic w => Dead (u_log u) w
                  end
              end
          end
      end
  end.
(* main.rs:404-409 *)
Definition brun_r (cl : client) (cfg : Cfg) (is : list input) : bridge :=
  fold_left (bstep_r cl cfg) is (Connecting (init_start conn_new) []).

(* ---- elkm1-cli ---- *)
(* elkm1-cli/src/main.rs:25-56 *)
Definition watch_event_r (panel : Panel) (e : Event) : res (list line) :=
  match e_change e with
  | Some (CZoneChange zone prior) =>
      name <- panel_zone_name_r panel zone ;;
      shown <- TextDescription_as_str name ;;
      zs <- panel_zone_statuses panel ;;
      let i := to_index_r zone in
      s <- index_r zs i ;;
      Ok [LZone shown prior s]
  | Some (CArmingStatus prior) =>
      cur <- panel_arming_status panel ;;
      watch_areas prior cur (panel_area_names panel) (seq 0 NUM_AREAS)
  | None => Ok []
  end.
(* elkm1-cli/src/main.rs:18-58 *)
Definition wstep_r (w : watcher) (o : iop) : watcher :=
  match w, o with
  | WConnecting i, IArrive a => WConnecting (iarrive a i)
  | WConnecting i, IStep now ws =>
      match istep_r now ws i with
      | IRun s ph p => WConnecting (IRun s ph p)
      | IDone p => WLoop p []
      | IFail e => WCrash [] e
      | ICrash why => WCrash [] why
      end
  | WLoop p log, IArrive a => WLoop (with_conn p (arrive (p_conn p) a)) log
  | WLoop p log, IStep now _ =>
      match poll_next_r now p with
      | Ok (p', Pending, _) => WLoop p' log
      | Ok (p', Ready None, _) => WDone log
      | Ok (p', Ready (Some (IoErr e)), _) => WCrash log e
      | Ok (p', Ready (Some (IoOk e)), _) =>
          match watch_event_r p' e with
          | Ok ls => WLoop p' (log ++ ls)
          | Err er => WCrash log er
          | Panic why => WCrash log why
          end
      | Err e => WCrash log e
      | Panic why => WCrash log why
      end
  | _, _ => w
  end.
Definition watch_r (h : list iop) : watcher := fold_left wstep_r h (WConnecting (init_start conn_new)).
