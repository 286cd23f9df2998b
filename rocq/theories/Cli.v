(* Cli.v: model of /repo/elkm1-cli/src/main.rs (the two commands).  Definitions only.

   Not modelled: argument parsing (main.rs:12-16, 100), opening the file and resolving the address, and how lines are
   formatted (main.rs:71-95; the Debug impls are in Fmt.v and FmtText.v); a line is its fields.  Log lines at level INFO are on by default (main.rs:83). *)
From Verif Require Export Base Pkt Msg Tokio State.

(* what read prints: main.rs:64 and 67 *)
Inductive out_line : Type :=
| OPacket (p : packet)
| OIncomplete (left : bytes).
(* main.rs:63-65 the loop.  fuel: every packet consumes at least one byte. *)
Fixpoint cli_read_loop (fuel : nat) (left : bytes) : res (list out_line * bytes) :=
  match fuel with
  | O => Panic "out of fuel"
  | S fuel' =>
      ' (o, left') <- decode left ;;
      match o with
      | None => Ok ([], left')
      | Some pkt => ' (ls, l) <- cli_read_loop fuel' left' ;; Ok (OPacket pkt :: ls, l)
      end
  end.
(* main.rs:60-69 read, on the file's contents *)
Definition cli_read (data : bytes) : res (list out_line) :=
  ' (ls, l) <- cli_read_loop (S (length data)) data ;;
  Ok (ls ++ match l with [] => [] | _ :: _ => [OIncomplete l] end).

(* what watch logs at level INFO: main.rs:27-32 and 42-51 *)
Inductive line : Type :=
| LZone (name : bytes) (prior new : N)
| LArea (name : bytes) (prior_arming : ArmingStatus) (prior_up : ArmUpState) (prior_alarm : AlarmState)
    (new_arming : ArmingStatus) (new_up : ArmUpState) (new_alarm : AlarmState).
(* main.rs:37-53 the loop over areas; is are the indices still to go *)
Fixpoint watch_areas (prior cur : ArmingStatusReport) (names : list bytes) (is : list nat) : res (list line) :=
  match is with
  | [] => Ok []
  | i :: is' =>
      ps <- index (arming_status prior) i ;; cs <- index (arming_status cur) i ;;
      pu <- index (up_state prior) i ;; cu <- index (up_state cur) i ;;
      pa <- index (alarm_state prior) i ;; ca <- index (alarm_state cur) i ;;
      if negb (ArmingStatus_eqb ps cs) || negb (ArmUpState_eqb pu cu) || negb (AlarmState_eqb pa ca)
      then name <- index names i ;;
           shown <- TextDescription_as_str name ;;
           ls <- watch_areas prior cur names is' ;;
           Ok (LArea shown ps pu pa cs cu ca :: ls)
      else watch_areas prior cur names is'
  end.
(* main.rs:25-56 what an event makes watch log *)
Definition watch_event (panel : Panel) (e : Event) : res (list line) :=
  match e_change e with
  | Some (CZoneChange zone prior) =>
      name <- panel_zone_name panel zone ;;
      shown <- TextDescription_as_str name ;;
      zs <- panel_zone_statuses panel ;;
      i <- to_index zone ;;
      s <- index zs i ;;
      Ok [LZone shown prior s]
  | Some (CArmingStatus prior) =>
      cur <- panel_arming_status panel ;;
      watch_areas prior cur (panel_area_names panel) (seq 0 NUM_AREAS)
  | None => Ok []
  end.

(* main.rs:18-58 watch: connecting, in the loop, returned, panicked; with what it has logged *)
Inductive watcher : Type :=
| WConnecting (i : istate)
| WLoop (p : Panel) (log : list line)
| WDone (log : list line)
| WCrash (log : list line) (why : string).
Definition wstep (w : watcher) (o : iop) : watcher :=
  match w, o with
  | WConnecting i, IArrive a => WConnecting (iarrive a i)
  | WConnecting i, IStep now ws =>
      match istep now ws i with
      | IRun s ph p => WConnecting (IRun s ph p)
      | IDone p => WLoop p []
      | IFail e => WCrash [] e
      | ICrash why => WCrash [] why
      end
  | WLoop p log, IArrive a => WLoop (with_conn p (arrive (p_conn p) a)) log
  | WLoop p log, IStep now _ =>
      match poll_next now p with
      | Ok (p', Pending, _) => WLoop p' log
      | Ok (p', Ready None, _) => WDone log
      | Ok (p', Ready (Some (IoErr e)), _) => WCrash log e
      | Ok (p', Ready (Some (IoOk e)), _) =>
          match watch_event p' e with
          | Ok ls => WLoop p' (log ++ ls)
          | Err er => WCrash log er
          | Panic why => WCrash log why
          end
      | Err e => WCrash log e
      | Panic why => WCrash log why
      end
  | _, _ => w
  end.
Definition watch (h : list iop) : watcher := fold_left wstep h (WConnecting (init_start conn_new)).
