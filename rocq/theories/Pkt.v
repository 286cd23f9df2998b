(* Pkt.v: model of elkm1/src/pkt.rs (framing and unframing packets).  Definitions only. *)
From Verif Require Export Base.

(* pkt.rs:12-13 *)
Definition RP_HEADER : bytes := [16; 2].
Definition RP_FOOTER : bytes := [16; 3].
(* pkt.rs:125 InvalidPacket::MAX_LEN; pkt.rs:357 RpPacket::MAX_LEN.
   Written with N.to_nat so that the numeral stays small. *)
Definition INVALID_MAX_LEN : nat := N.to_nat 1024.
Definition RP_MAX_LEN : nat := N.to_nat 1024.

(* pkt.rs:25-29 Packet; :119-122 InvalidPacket; :203 AsciiPacket(String); :354 RpPacket(Vec<u8>).
   AsciiPacket and RpPacket are represented by their bodies. *)
Inductive packet : Type :=
| PAscii (body : bytes)
| PRp (data : bytes)
| PInvalid (raw : bytes) (reason : string).

(* pkt.rs:19 derived PartialEq, with :159-163 InvalidPacket compared by its bytes only *)
Definition packet_eqb (p q : packet) : bool :=
  match p, q with
  | PAscii a, PAscii b => beq a b
  | PRp a, PRp b => beq a b
  | PInvalid a _, PInvalid b _ => beq a b
  | _, _ => false
  end.

(* pkt.rs:242-244 AsciiPacket::checksum *)
Definition checksum (s : bytes) : N := fold_left (fun acc b => wrapping_sub8 acc b) s 0.

(* pkt.rs:247-253 AsciiPacket::dehex_nibble *)
Definition dehex_nibble (c : N) : res N :=
  if (ch "0" <=? c) && (c <=? ch "9") then Ok (c - ch "0")
  else if (ch "A" <=? c) && (c <=? ch "F") then Ok (c - ch "A" + 10)
  else Err "".

(* pkt.rs:256-258 AsciiPacket::dehex_byte; `<< 4` on u8 drops the bits shifted out *)
Definition dehex_byte (hi lo : N) : res N :=
  h <- dehex_nibble hi ;;
  l <- dehex_nibble lo ;;
  Ok (N.lor (N.shiftl h 4 mod 256) l).

(* pkt.rs:263-266 *)
Definition HEX_CHARS : bytes := B "0123456789ABCDEF".

(* pkt.rs:261-268 AsciiPacket::hex_nibble.  The index is masked to 4 bits, so the lookup is
   always in range (PktFacts.hex_nibble_in_range); the default 0 is never used. *)
Definition hex_nibble (n : N) : N := nth (N.to_nat (N.land n 15)) HEX_CHARS 0.

(* pkt.rs:271-273 AsciiPacket::hex_byte *)
Definition hex_byte (b : N) : bytes := [hex_nibble (N.shiftr b 4); hex_nibble b].

(* pkt.rs:276-281 AsciiPacket::check_printable *)
Definition printable_byte (b : N) : bool := (32 <=? b) && (b <=? 126).
Definition check_printable (s : bytes) : res unit :=
  if forallb printable_byte s then Ok tt else Err ("non-printable character at index " ++ show_dec (N.of_nat (position (fun b => negb (printable_byte b)) s))).

(* pkt.rs:284-328 AsciiPacket::try_from (Vec<u8>, String, &str and &[u8] all go through the first) *)
Definition ascii_try_from (s : bytes) : res bytes :=
  _ <- check_printable s ;;
  if (length s <? 2)%nat || (253 <? length s)%nat
  then Err ("ASCII packet body length " ++ show_len s ++ " not in [2, 253].
body:
" ++ show_str s)
  else Ok s.

(* pkt.rs:210-226, 236 *)
Definition CRLF : bytes := [13; 10].

(* pkt.rs:210-226 AsciiPacket::decode *)
Definition ascii_decode (raw : bytes) : res bytes :=
  if ends_with raw CRLF then
    (* [d @ .., csum_hi, csum_lo, b'\r', b'\n'] if d.len() >= 4 *)
    if (4 + 4 <=? length raw)%nat then
      let n := (length raw - 4)%nat in
      until_csum <- slice raw 0 n ;;
      csum_hi <- index raw n ;;
      csum_lo <- index raw (n + 1) ;;
      match dehex_byte csum_hi csum_lo with
      | Ok actual =>
          if actual =? checksum until_csum
          then body <- slice until_csum 2 (length until_csum) ;;
               ascii_try_from body
          else Err ("ASCII packet doesn't have expected checksum " ++ show_hex2 (checksum until_csum))
      | Err _ => Err "ASCII packet has unparseable checksum"
      | Panic w => Panic w
      end
    else Err "ASCII packet too short"
  else Err "ASCII packet must end with CRLF".

(* pkt.rs:228-237 AsciiPacket::encode; `2 + self.0.len() as u8` panics on u8 overflow *)
Definition ascii_encode (body to : bytes) : res bytes :=
  len <- add8 2 (as_u8 (length body)) ;;
  let encoded_len := hex_byte len in
  let csum := wrapping_add8 (checksum encoded_len) (checksum body) in
  Ok (to ++ encoded_len ++ body ++ hex_byte csum ++ CRLF).

(* pkt.rs:438-447 table_entry (crc is a u16, so << drops the bits shifted out) *)
Definition crc_bit (crc : N) : N :=
  N.lxor (N.shiftl crc 1 mod 65536) (if N.land crc 32768 =? 0 then 0 else 4129 (* 0x1021 *)).
Fixpoint crc_bits (i : nat) (crc : N) : N :=
  match i with O => crc | S i' => crc_bits i' (crc_bit crc) end.
Definition table_entry (b : N) : N := crc_bits 8 (N.shiftl b 8 mod 65536).

(* pkt.rs:449-457 TABLE *)
Definition TABLE : list N := map (fun i => table_entry (N.of_nat i)) (seq 0 256).

(* pkt.rs:459-462 one step of the fold; the u8 index into the 256-entry TABLE is always in range *)
Definition crc_step (crc b : N) : N :=
  let i := N.lxor (N.shiftr crc 8 mod 256) b in
  N.lxor (nth (N.to_nat i) TABLE 0) (N.shiftl crc 8 mod 65536).
(* pkt.rs:437-463 RpPacket::crc *)
Definition crc (data : bytes) : N := fold_left crc_step data 0.

(* Result<Option<RpPacket>, InvalidPacket>, together with the updated src; used at pkt.rs:359 *)
Inductive rp_result : Type :=
| RpOk (data : option bytes)
| RpErr (raw : bytes) (reason : string).
Arguments RpErr raw reason%string.

(* pkt.rs:410-420 RpPacket::decode_unfinished *)
Definition rp_decode_unfinished (src : bytes) : res (rp_result * bytes) :=
  if (RP_MAX_LEN <=? length src)%nat then
    raw <- slice src 0 RP_MAX_LEN ;;
    src' <- advance src RP_MAX_LEN ;;
    Ok (RpErr raw ("RP packet has no DLE EXT after " ++ show_dec 1024 ++ " bytes"), src')
  else Ok (RpOk None, src).

(* pkt.rs:366-406 the loop of RpPacket::decode and what follows it.
   fuel: each iteration increases pos, which never exceeds the buffer length. *)
Fixpoint rp_loop (fuel : nat) (src buf : bytes) (pos : nat) (data : bytes)
  : res (rp_result * bytes) :=
  match fuel with
  | O => Panic "out of fuel"
  | S fuel' =>
      rest <- slice buf pos (length buf) ;;
      match memchr 16 rest with
      | None => rp_decode_unfinished src                            (* :366, :406 *)
      | Some rel =>
          match nth_error buf (pos + rel + 1) with                  (* :367 buf.get *)
          | None => rp_decode_unfinished src                        (* :368 *)
          | Some e =>
              if e =? 16 then                                       (* :369-372 *)
                s <- slice buf pos (pos + rel + 1) ;;
                rp_loop fuel' src buf (pos + rel + 2) (data ++ s)
              else if e =? 3 then                                   (* :373-390 *)
                s <- slice buf pos (pos + rel) ;;
                let data := data ++ s in
                match get_to buf (pos + rel + 4) with
                | None => Ok (RpOk None, src)                       (* :377 *)
                | Some frame =>
                    hi <- index frame (pos + rel + 2) ;;
                    lo <- index frame (pos + rel + 3) ;;
                    let c := hi * 256 + lo in                       (* u16::from_be_bytes *)
                    src' <- advance src (pos + rel + 4) ;;
                    if crc data =? c
                    then Ok (RpOk (Some data), src')
                    else Ok (RpErr frame ("RP packet doesn't have expected CRC " ++ show_hex2 (crc data)), src')
                end
              else                                                  (* :391-405 *)
                raw <- slice src 0 (pos + rel + 1) ;;
                src' <- advance src (pos + rel + 1) ;;
                Ok (RpErr raw ("RP packet has bad sequence DTS " ++ show_hex2 e), src')
          end
      end
  end.

(* pkt.rs:359-407 RpPacket::decode *)
Definition rp_decode (src : bytes) : res (rp_result * bytes) :=
  if (length src <? 2)%nat then Panic "assertion failed: src.len() >= 2"
  else if negb (starts_with src RP_HEADER) then Panic "assertion failed: RP_HEADER"
  else let buf := firstn (Nat.min (length src) RP_MAX_LEN) src in
       rp_loop (S (length buf)) src buf 2 [].

(* pkt.rs:424-431 escaping loop of RpPacket::encode *)
Fixpoint rp_escape (fuel : nat) (data : bytes) (input_pos : nat) : res bytes :=
  match fuel with
  | O => Panic "out of fuel"
  | S fuel' =>
      rest <- slice data input_pos (length data) ;;
      match memchr 16 rest with
      | Some off =>
          s <- slice data input_pos (input_pos + off + 1) ;;
          t <- rp_escape fuel' data (input_pos + off + 1) ;;
          Ok (s ++ [16] ++ t)
      | None => Ok rest
      end
  end.

(* pkt.rs:422-434 RpPacket::encode *)
Definition rp_encode (data to : bytes) : res bytes :=
  body <- rp_escape (S (length data)) data 0 ;;
  let c := crc data in
  Ok (to ++ RP_HEADER ++ body ++ RP_FOOTER ++ [c / 256; c mod 256]).

(* pkt.rs:478-501 RpPacket::try_from *)
Definition rp_try_from (value : bytes) : res bytes :=
  let escapes := length (filter (fun b => b =? 16) value) in
  if (RP_MAX_LEN <? 6 + length value + escapes)%nat
  then Err (show_len value ++ "-byte body that requires " ++ show_dec (N.of_nat escapes) ++ " escapes exceeds maximum framed length " ++ show_dec 1024)
  else Ok value.

(* pkt.rs:64-75 the scan loop of Packet::decode: Ok None is `return None`, Ok (Some pos) is leaving
   the loop at pos *)
Fixpoint scan (fuel pos : nat) (src : bytes) : res (option nat) :=
  match fuel with
  | O => Panic "out of fuel"
  | S fuel' =>
      if (pos <? INVALID_MAX_LEN)%nat then
        if (pos + 2 =? length src)%nat then Ok None
        else
          tail <- slice src pos (length src) ;;
          if starts_with tail RP_HEADER then Ok (Some pos)
          else
            a <- index src pos ;;
            b <- index src (pos + 1) ;;
            if is_ok (dehex_byte a b) then Ok (Some pos)
            else scan fuel' (pos + 1) src
      else Ok (Some pos)
  end.

(* pkt.rs:41-83 Packet::decode: the returned Option<Packet> and the updated src *)
Definition decode (src : bytes) : res (option packet * bytes) :=
  if (length src <? 2)%nat then Ok (None, src)
  else if starts_with src RP_HEADER then
    r <- rp_decode src ;;
    match r with
    | (RpOk None, src') => Ok (None, src')
    | (RpOk (Some d), src') => Ok (Some (PRp d), src')
    | (RpErr raw reason, src') => Ok (Some (PInvalid raw reason), src')
    end
  else
    a <- index src 0 ;;
    b <- index src 1 ;;
    match dehex_byte a b with
    | Ok len =>
        let len := (4 + N.to_nat len)%nat in
        match get_to src len with
        | None => Ok (None, src)
        | Some raw =>
            pkt <- match ascii_decode raw with
                   | Ok body => Ok (PAscii body)
                   | Err e => Ok (PInvalid raw e)
                   | Panic w => Panic w
                   end ;;
            src' <- advance src len ;;
            Ok (Some pkt, src')
        end
    | Err _ =>
        r <- scan (S INVALID_MAX_LEN) 0 src ;;
        match r with
        | None => Ok (None, src)
        | Some pos =>
            raw <- slice src 0 pos ;;
            src' <- advance src pos ;;
            Ok (Some (PInvalid raw "bytes without ASCII length or RP prefix"), src')
        end
    | Panic w => Panic w
    end.

(* pkt.rs:85-91 Packet::encode *)
Definition encode (p : packet) (to : bytes) : res bytes :=
  match p with
  | PAscii body => ascii_encode body to
  | PRp data => rp_encode data to
  | PInvalid raw _ => Ok (to ++ raw)
  end.

(* The loop `while let Some(pkt) = Packet::decode(&mut left)` as in fuzz/fuzz_targets/depkt.rs:16-20,
   elkm1-cli/src/main.rs:63-65 and the draining done by tokio_util's Framed: the packets in
   order, and what is left.  fuel: every packet consumes at least one byte. *)
Fixpoint drain_fuel (fuel : nat) (src : bytes) : res (list packet * bytes) :=
  match fuel with
  | O => Panic "out of fuel"
  | S fuel' =>
      r <- decode src ;;
      match r with
      | (None, src') => Ok ([], src')
      | (Some p, src') => t <- drain_fuel fuel' src' ;; Ok (p :: fst t, snd t)
      end
  end.
Definition drain (src : bytes) : res (list packet * bytes) := drain_fuel (S (length src)) src.

(* fuzz/fuzz_targets/depkt.rs:16-20: encode all packets one after the other *)
Fixpoint encode_all (ps : list packet) (to : bytes) : res bytes :=
  match ps with
  | [] => Ok to
  | p :: ps' => to' <- encode p to ;; encode_all ps' to'
  end.
