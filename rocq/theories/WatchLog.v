(* WatchLog.v: what `elkm1-cli watch` logs, at all levels: /repo/elkm1-cli/src/main.rs:18-58, on top of Log.v for the library's lines and
   Cli.v for what happens.  Definitions only.  Not modelled: as in Log.v; a panic's message, which is not logged but written to stderr. *)
From Verif Require Import Base Pkt Msg Tokio State Cli Fmt Log.

(* main.rs:27-32 and 42-51 *)
Definition log_line (l : line) : res entry :=
  match l with
  | LZone name prior new =>
      dp <- ZoneStatus_dbg prior ;;
      dn <- ZoneStatus_dbg new ;;
      Ok (mkEntry Info "zone change" [("zone.name"%string, ByDisplay name); ("prior.state"%string, ByDebug dp); ("new.state"%string, ByDebug dn)])
  | LArea name ps pu pa cs cu ca =>
      Ok (mkEntry Info "arming status change"
        [("area.name"%string, ByDisplay name);
         ("prior.arming_status"%string, ByDebug (ArmingStatus_dbg ps)); ("prior.up_state"%string, ByDebug (ArmUpState_dbg pu)); ("prior.alarm_state"%string, ByDebug (AlarmState_dbg pa));
         ("new.arming_status"%string, ByDebug (ArmingStatus_dbg cs)); ("new.up_state"%string, ByDebug (ArmUpState_dbg cu)); ("new.alarm_state"%string, ByDebug (AlarmState_dbg ca))])
  end.
(* main.rs:23-56 the body of the loop *)
Definition log_watch_event (panel : Panel) (e : Event) : res (list entry) :=
  d <- Event_dbg e ;;   (* main.rs:24; the variable is called pkt *)
  ls <- watch_event panel e ;;
  es <- mapM log_line ls ;;
  Ok (mkEntry Debug "received packet" [("pkt"%string, ByDebug d)] :: es).
(* a step of watch, as wstep *)
Definition log_wstep (w : watcher) (o : iop) : res (list entry) :=
  match w, o with
  | WConnecting i, IStep now ws =>
      l <- log_istep now ws i ;;
      Ok (l ++ match istep now ws i with
               | IDone _ => [mkEntry Info "tracking changes" []]   (* main.rs:20 *)
               | _ => []
               end)
  | WLoop p _, IStep now _ =>
      l <- log_poll_next now p ;;
      match poll_next now p with
      | Ok (p', Ready (Some (IoOk e)), _) => l' <- log_watch_event p' e ;; Ok (l ++ l')
      | _ => Ok l
      end
  | _, _ => Ok []
  end.
Fixpoint log_wsteps (w : watcher) (h : list iop) : res (list entry) :=
  match h with
  | [] => Ok []
  | o :: h' => l <- log_wstep w o ;; ls <- log_wsteps (wstep w o) h' ;; Ok (l ++ ls)
  end.
(* all that watch logs *)
Definition log_wrun (h : list iop) : res (list entry) :=
  l <- log_init_req St_as ;; ls <- log_wsteps (WConnecting (init_start conn_new)) h ;; Ok (l ++ ls).
