(* Model of m2ts/webm2pes.cc, m2ts/vpxpes2ts.cc and m2ts/vpxpes_parser.cc, and
   of the helpers of common/libwebm_util.cc they use.  Byte buffers are lists;
   null pointers and allocation failures are not modelled. *)
From Verif Require Import Base MFloat.

(* ---------- common/libwebm_util.cc ---------- *)

(* kNanosecondsPerSecond: libwebm_util.h:19 *)
Definition kNanosecondsPerSecond : f64 := f64_of_Z 1000000000.

(* NanosecondsTo90KhzTicks: libwebm_util.cc:17-20 *)
Definition NanosecondsTo90KhzTicks (ns : Z) : outcome Z :=
  f64_to_s64 (f64_mul (f64_div (f64_of_Z ns) kNanosecondsPerSecond) (f64_of_Z 90000)).

(* Khz90TicksToNanoseconds: libwebm_util.cc:22-25 *)
Definition Khz90TicksToNanoseconds (ticks : Z) : outcome Z :=
  f64_to_s64 (f64_mul (f64_div (f64_of_Z ticks) (f64_of_Z 90000)) kNanosecondsPerSecond).

(* ReadUint16: libwebm_util.cc:104-108 *)
Definition ReadUint16 (b0 b1 : Z) : Z := Z.lor (Z.shiftl b0 8) b1.

(* Range: libwebm_util.h:33-41 *)
Record range := mkRange { rg_offset : Z; rg_length : Z }.

(* libwebm_util.cc:65-69: one little-endian length field *)
Fixpoint le_field (n : nat) (j : Z) (l : list Z) : Z * list Z :=
  match n with
  | O => (0, l)
  | S n' => match l with
            | [] => (0, [])
            | b :: l' => let '(v, r) := le_field n' (j + 1) l' in
                         (Z.lor (wrap32 (Z.shiftl b (j * 8))) v, r)
            end
  end.

(* libwebm_util.cc:64-81: the loop over the child frames.  None: "sub frame
   larger than entire frame". *)
Fixpoint superframe_loop (n : nat) (fsize : nat) (l : list Z) (length offset : Z) : option (list range) :=
  match n with
  | O => Some []
  | S n' =>
      let '(child, l') := le_field fsize 0 l in
      if wrap64 (length - offset) <? child then None
      else match superframe_loop n' fsize l' length (offset + child) with
           | Some rs => Some (mkRange offset child :: rs)
           | None => None
           end
  end.

(* ParseVP9SuperFrameIndex: libwebm_util.cc:27-96.  Returns (result, error,
   ranges); the ranges are those pushed by this call on an empty vector (on the
   error path at 71-77 the already pushed ones are not reported here). *)
Definition ParseVP9SuperFrameIndex (frame : list Z) : bool * bool * list range :=
  if zlen frame =? 0 then (false, false, []) else
  let frame_length := zlen frame in
  let marker := last frame 0 in
  if Z.land marker 0xe0 =? 0xc0 then
    let num_frames := Z.land marker 7 + 1 in
    let length_field_size := Z.land (Z.shiftr marker 3) 3 + 1 in
    let index_length := 2 + length_field_size * num_frames in
    if frame_length <? index_length then (false, true, [])
    else
      let length := frame_length - index_length in
      if (index_length <=? length) && (nth (Z.to_nat length) frame 0 =? marker) then
        match superframe_loop (Z.to_nat num_frames) (Z.to_nat length_field_size)
                (skipn (Z.to_nat (length + 1)) frame) length 0 with
        | None => (false, true, [])
        | Some rs => if zlen rs =? num_frames then (true, false, rs) else (false, true, rs)
        end
      else (false, true, [])
  else (false, false, []).

(* ---------- m2ts/webm2pes.cc ---------- *)

(* CopyAndEscapeStartCodes, loop: webm2pes.cc:533-547.  num_zeros is an int in
   the code; it is unbounded here (differs only after 2^31 zero bytes). *)
Fixpoint escape_loop (num_zeros : Z) (raw : list Z) : list Z :=
  match raw with
  | [] => []
  | byte :: raw' =>
      if byte =? 0 then byte :: escape_loop (num_zeros + 1) raw'
      else if (2 <=? num_zeros) && ((byte =? 1) || (byte =? 3))
           then 3 :: byte :: escape_loop 0 raw'
           else byte :: escape_loop 0 raw'
  end.

(* CopyAndEscapeStartCodes: webm2pes.cc:527-550.  None: returns false. *)
Definition CopyAndEscapeStartCodes (raw buffer : list Z) : option (list Z) :=
  if zlen raw <? 1 then None else Some (buffer ++ escape_loop 0 raw).

(* PesOptionalHeader::SetPtsBits: webm2pes.cc:35-78.  The result is the 64-bit
   field pts.bits. *)
Definition SetPtsBits (pts_90khz : Z) : Z :=
  let pts1 := wrap32 (Z.land (Z.shiftr pts_90khz 30) 7) in
  let pts2 := wrap32 (Z.land (Z.shiftr pts_90khz 15) 0x7FFF) in
  let pts3 := wrap32 (Z.land pts_90khz 0x7FFF) in
  let bits := 0 in
  let bits := Z.lor bits (Z.land (wrap32 (Z.shiftl pts3 1)) 0xff) in
  let bits := Z.lor bits 1 in
  let bits := wrap64 (Z.shiftl bits 8) in
  let bits := Z.lor bits (Z.land (Z.shiftr pts3 7) 0xff) in
  let bits := wrap64 (Z.shiftl bits 8) in
  let bits := Z.lor bits (wrap32 (Z.shiftl pts2 1)) in
  let bits := Z.lor bits 1 in
  let bits := wrap64 (Z.shiftl bits 8) in
  let bits := Z.lor bits (Z.land (Z.shiftr pts2 7) 0xff) in
  let bits := wrap64 (Z.shiftl bits 8) in
  let bits := Z.lor bits (Z.shiftl 1 5) in
  let bits := Z.lor bits (wrap32 (Z.shiftl pts1 1)) in
  Z.lor bits 1.

(* PesOptionalHeader::Write, the nine header bytes: webm2pes.cc:88-139, with the
   field values of webm2pes.h:89-132 (marker 2 << 6, has_pts 1 << 7, remaining
   size 6, stuffing byte 0xFF; every other field is 0).  The Check() calls at
   92-99 only look at constants and succeed. *)
Definition opt_header_bytes (write_pts : bool) (pts_bits : Z) : list Z :=
  [ wrap8 (Z.shiftl 2 6);
    (if write_pts then wrap8 (Z.shiftl 1 7) else 0);
    Z.land 6 0xff ] ++
  (if write_pts then
     [ Z.land pts_bits 0xff;
       Z.land (Z.shiftr pts_bits 8) 0xff;
       Z.land (Z.shiftr pts_bits 16) 0xff;
       Z.land (Z.shiftr pts_bits 24) 0xff;
       Z.land (Z.shiftr pts_bits 32) 0xff;
       0xFF ]
   else repeat 0xFF 6).

(* PesOptionalHeader::Write: webm2pes.cc:82-142 *)
Definition PesOptionalHeader_Write (write_pts : bool) (pts_bits : Z) (buffer : list Z) : option (list Z) :=
  CopyAndEscapeStartCodes (opt_header_bytes write_pts pts_bits) buffer.

(* BCMVHeader::Write: webm2pes.cc:148-169 *)
Definition BCMVHeader_Write (length : Z) (buffer : list Z) : option (list Z) :=
  let total := wrap32 (length + 10) in
  CopyAndEscapeStartCodes
    [ Z.land (Z.shiftr total 24) 0xff; Z.land (Z.shiftr total 16) 0xff;
      Z.land (Z.shiftr total 8) 0xff; Z.land total 0xff; 0; 0 ]
    (buffer ++ [66; 67; 77; 86]).

(* PesHeader::Write: webm2pes.cc:177-208; packet_length is a uint16_t
   (webm2pes.h:174) *)
Definition PesHeader_Write (write_pts : bool) (packet_length pts_bits : Z) (buffer : list Z) : option (list Z) :=
  let buffer := buffer ++ [0; 0; 1; 0xE0] in
  let header_length := wrap16 packet_length + 9 in
  if 65535 <? header_length then None
  else
    let buffer := buffer ++ [Z.land (Z.shiftr header_length 8) 0xff; Z.land header_length 0xff] in
    PesOptionalHeader_Write write_pts pts_bits buffer.

(* kMaxPayloadSize: webm2pes.cc:21 *)
Definition kMaxPayloadSize : Z := 32768.

(* WritePesPacket, the loop over the remaining fragments: webm2pes.cc:501-521.
   `rest` is the frame data from payload_start + bytes_copied.  One fragment per
   fuel unit; the fuel used by the caller is never exhausted. *)
Fixpoint write_fragments (fuel : nat) (pts_bits extra_bytes : Z) (rest buffer : list Z) : option (list Z) :=
  if extra_bytes =? 0 then Some buffer
  else match fuel with
  | O => None
  | S fuel' =>
      let n := Z.min kMaxPayloadSize extra_bytes in
      match PesHeader_Write false n pts_bits buffer with
      | None => None
      | Some buffer =>
          match CopyAndEscapeStartCodes (firstn (Z.to_nat n) rest) buffer with
          | None => None
          | Some buffer =>
              write_fragments fuel' pts_bits (extra_bytes - n) (skipn (Z.to_nat n) rest) buffer
          end
      end
  end.

(* WritePesPacket, one range: webm2pes.cc:465-521 *)
Definition write_range (frame : list Z) (pts_bits : Z) (r : range) (buffer : list Z) : option (list Z) :=
  let extra_bytes := if kMaxPayloadSize <? rg_length r then rg_length r - kMaxPayloadSize else 0 in
  if zlen frame <? rg_length r + rg_offset r then None
  else
    match PesHeader_Write true (rg_length r - extra_bytes + 10) pts_bits buffer with
    | None => None
    | Some buffer =>
        match BCMVHeader_Write (wrap32 (rg_length r)) buffer with
        | None => None
        | Some buffer =>
            let payload := skipn (Z.to_nat (rg_offset r)) frame in
            let n := rg_length r - extra_bytes in
            match CopyAndEscapeStartCodes (firstn (Z.to_nat n) payload) buffer with
            | None => None
            | Some buffer =>
                write_fragments (Z.to_nat extra_bytes) pts_bits extra_bytes
                  (skipn (Z.to_nat n) payload) buffer
            end
        end
    end.

(* the loop over the ranges of a frame: webm2pes.cc:464-522 *)
Fixpoint write_ranges (frame : list Z) (pts_bits : Z) (rs : list range) (buffer : list Z) : option (list Z) :=
  match rs with
  | [] => Some buffer
  | r :: rs' => match write_range frame pts_bits r buffer with
                | None => None
                | Some buffer => write_ranges frame pts_bits rs' buffer
                end
  end.

(* webm2pes.cc:440-455: the ranges of a frame; None: superframe index error *)
Definition frame_ranges (vp9 : bool) (frame : list Z) : option (list range) :=
  if vp9 then
    let '(ok, err, rs) := ParseVP9SuperFrameIndex frame in
    if (err : bool) then None
    else if (ok : bool) then Some rs else Some [mkRange 0 (zlen frame)]
  else Some [mkRange 0 (zlen frame)].

(* WritePesPacket after the time conversion: webm2pes.cc:435-525 with
   khz90_pts given *)
Definition WritePes (vp9 : bool) (frame : list Z) (khz90_pts : Z) : option (list Z) :=
  if zlen frame <? 1 then None
  else match frame_ranges vp9 frame with
       | None => None
       | Some rs => write_ranges frame (SetPtsBits khz90_pts) rs []
       end.

(* WritePesPacket: webm2pes.cc:435-525 *)
Definition WritePesPacket (vp9 : bool) (frame : list Z) (nanosecond_pts : Z) : outcome (option (list Z)) :=
  match NanosecondsTo90KhzTicks nanosecond_pts with
  | UB => UB
  | Val ticks => Val (WritePes vp9 frame ticks)
  end.

(* ---------- m2ts/vpxpes2ts.cc ---------- *)

(* TsHeader and TsHeader::Write: vpxpes2ts.cc:51-128 *)
Definition TsHeader_Write (payload_start adaptation : bool) (counter : Z) : list Z :=
  [ 0x47;
    wrap8 (Z.shiftl (if payload_start then 1 else 0) 6);
    Z.land 0x20 0xff;
    wrap8 (Z.lor (Z.lor (Z.shiftl (if adaptation then 1 else 0) 5) (Z.shiftl 1 4)) counter) ].

(* One iteration of ReceivePacket: vpxpes2ts.cc:156-198.  Returns the packet
   (header, padding, payload) and the payload size taken.  ts_buffer_ is only
   reserve()d and then indexed (153, 184-194), which is formally undefined; the
   model treats the reserved storage as usable. *)
Definition ts_packet (first : bool) (counter : Z) (data : list Z) : list Z * Z :=
  let size0 := Z.min (zlen data) 184 in
  let header := TsHeader_Write first (negb (size0 =? 184)) counter in
  if size0 <? 184 then
    let size := if size0 =? 183 then size0 - 1 else size0 in
    let pad := 184 - size - 1 - 1 in
    (header ++ [wrap8 (pad + 1); 0] ++ repeat 0xff (Z.to_nat pad) ++ firstn (Z.to_nat size) data, size)
  else (header ++ firstn (Z.to_nat size0) data, size0).

(* ReceivePacket: vpxpes2ts.cc:145-216.  Returns the sequence of packets handed
   to fwrite; None when an iteration fails (200-203).  Write failures of the
   output file are not modelled.  `bytes_to_packetize` is the length of `data`
   (the conversion of size() to int is exact below 2^31). *)
Fixpoint ReceivePacket_loop (fuel : nat) (first : bool) (counter : Z) (data : list Z) : option (list (list Z)) :=
  if zlen data <=? 0 then Some []
  else match fuel with
  | O => None
  | S fuel' =>
      let counter := if 0xf <? counter then 0 else counter in
      let '(pkt, size) := ts_packet first counter data in
      if negb (zlen pkt =? 188) then None
      else match ReceivePacket_loop fuel' false (wrap8 (counter + 1)) (skipn (Z.to_nat size) data) with
           | None => None
           | Some rest => Some (pkt :: rest)
           end
  end.

(* VpxPes2Ts::ReceivePacket: vpxpes2ts.cc:145-216 *)
Definition ReceivePacket (packet_data : list Z) : option (list (list Z)) :=
  ReceivePacket_loop (length packet_data) true 0 packet_data.

(* ConvertToPacketReceiver, as seen from the TS writer: webm2pes.cc:291-355,
   vpxpes2ts.cc:130-143: one ReceivePacket call per frame *)
Fixpoint ReceivePackets (ps : list (list Z)) : option (list (list Z)) :=
  match ps with
  | [] => Some []
  | p :: ps' => match ReceivePacket p with
                | None => None
                | Some a => match ReceivePackets ps' with
                            | None => None
                            | Some b => Some (a ++ b)
                            end
                end
  end.

(* ---------- m2ts/vpxpes_parser.cc ---------- *)

(* pes_file_data_[i]: reading outside the vector is undefined: vpxpes_parser.cc:67-103 *)
Definition pbyte (d : list Z) (i : Z) : outcome Z :=
  if (0 <=? i) && (i <? zlen d) then Val (nth (Z.to_nat i) d 0) else UB.

Notation "'olet' x := m 'in' k" := (obind m (fun x => k)) (at level 200, x pattern, m at level 100, k at level 200).

(* RemoveStartCodeEmulationPreventionBytes, loop: vpxpes_parser.cc:307-334, over
   the bytes from raw_data to the end of the file.  The test at 313 lets the
   position one past the end through, so running out of input is an
   out-of-bounds read. Returns (processed, consumed). *)
Fixpoint unescape_loop (required num_zeros : Z) (l : list Z) : outcome (list Z * Z) :=
  if required <=? 0 then Val ([], 0)
  else match l with
  | [] => UB
  | byte :: l' =>
      if (byte =? 3) && (num_zeros =? 2) then
        olet (out, n) := unescape_loop required 0 l' in Val (out, n + 1)
      else
        let nz := if byte =? 0 then num_zeros + 1 else 0 in
        olet (out, n) := unescape_loop (required - 1) nz l' in Val (byte :: out, n + 1)
  end.

(* RemoveStartCodeEmulationPreventionBytes: vpxpes_parser.cc:301-335.
   None: returns false.  The processed bytes are appended by the caller. *)
Definition RemoveEmulation (d : list Z) (pos required : Z) : outcome (option (list Z * Z)) :=
  if required =? 0 then Val None
  else if zlen d <? pos then Val None
  else olet x := unescape_loop required 0 (skipn (Z.to_nat pos) d) in Val (Some x).

(* VerifyPacketStartCode: vpxpes_parser.cc:62-73 (note && / || order: bytes are
   read left to right and the first mismatch stops) *)
Definition VerifyPacketStartCode (d : list Z) (pos : Z) : outcome bool :=
  if zlen d <? pos + 2 then Val false
  else olet b0 := pbyte d pos in
       if negb (b0 =? 0) then Val false
       else olet b1 := pbyte d (pos + 1) in
            if negb (b1 =? 0) then Val false
            else olet b2 := pbyte d (pos + 2) in Val (b2 =? 1).

(* BytesAvailable: vpxpes_parser.cc:337-339 *)
Definition BytesAvailable (d : list Z) (pos : Z) : Z := sint32 (zlen d - pos).

(* ParsePesHeader: vpxpes_parser.cc:94-120 with ReadStreamId (75-81) and
   ReadPacketLength (83-92).  Returns (packet_length, new read_pos). *)
Definition ParsePesHeader (d : list Z) (pos : Z) : outcome (option (Z * Z)) :=
  olet ok := VerifyPacketStartCode d pos in
  if negb ok then Val None
  else
    olet c0 := pbyte d pos in olet c1 := pbyte d (pos + 1) in
    olet c2 := pbyte d (pos + 2) in olet c3 := pbyte d (pos + 3) in
    if BytesAvailable d pos <? 4 then Val None
    else
      olet stream_id := pbyte d (pos + 3) in
      if (stream_id <? 0xE0) || (0xEF <? stream_id) then Val None
      else if BytesAvailable d pos <? 6 then Val None
      else
        olet l0 := pbyte d (pos + 4) in olet l1 := pbyte d (pos + 5) in
        Val (Some (wrap16 (Z.lor (Z.shiftl l0 8) l1), pos + 6)).

(* vpxpes_parser.cc:179-181: `(b & 0xe) << 29` is a shift of an int: undefined
   when the result does not fit 32 bits, otherwise converted to int; the or of
   the three ints is then converted to uint64_t. *)
Definition parse_pts (b0 b1 b2 b3 b4 : Z) : outcome Z :=
  let top := Z.shiftl (Z.land b0 0xe) 29 in
  if 4294967295 <? top then UB
  else Val (wrap64 (Z.lor (Z.lor (sint32 top)
                                 (Z.shiftl (Z.land (ReadUint16 b1 b2) 0xFFFE) 14))
                          (Z.shiftr (ReadUint16 b3 b4) 1))).

(* ParsePesOptionalHeader: vpxpes_parser.cc:123-196.  Returns (pts, consumed);
   pts is the value already in the header when no PTS is present (the members
   default to 0).  The informational fields (138-148) are not modelled. *)
Definition ParsePesOptionalHeader (d : list Z) (pos : Z) : outcome (option (Z * Z)) :=
  if zlen d <=? pos then Val None
  else
    olet r := RemoveEmulation d pos 9 in
    match r with
    | None => Val None
    | Some (h, consumed) =>
        let g := fun i => nth i h 0 in
        let has_pts := Z.shiftr (Z.land (g 1%nat) 0x80) 7 in
        if negb (g 2%nat =? 6) then Val None
        else if negb (has_pts =? 0) then
          if negb (Z.land (g 3%nat) 1 =? 1) || negb (Z.land (g 5%nat) 1 =? 1)
             || negb (Z.land (g 7%nat) 1 =? 1) then Val None
          else
            olet pts := parse_pts (g 3%nat) (g 4%nat) (g 5%nat) (g 6%nat) (g 7%nat) in
            if negb (g 8%nat =? 0xff) then Val None
            else Val (Some (pts, pos + consumed))
        else if forallb (fun b => b =? 0xff) (skipn 3 h) then Val (Some (0, pos + consumed))
        else Val None
    end.

(* ParseBcmvHeader: vpxpes_parser.cc:199-234; returns (length, read_pos).
   `<< 24` of a byte above 127 is converted to int and or-ed into a uint32_t. *)
Definition ParseBcmvHeader (d : list Z) (pos : Z) : outcome (option (Z * Z)) :=
  olet r := RemoveEmulation d pos 10 in
  match r with
  | None => Val None
  | Some (h, consumed) =>
      let g := fun i => nth i h 0 in
      let length := wrap32 (Z.lor (Z.lor (Z.lor (Z.shiftl (g 4%nat) 24) (Z.shiftl (g 5%nat) 16))
                                         (Z.shiftl (g 6%nat) 8)) (g 7%nat)) in
      if negb (g 8%nat =? 0) || negb (g 9%nat =? 0) then Val None
      else if (0 <? length) && (g 0%nat =? 66) && (g 1%nat =? 67) && (g 2%nat =? 77) && (g 3%nat =? 86)
           then Val (Some (length, pos + consumed)) else Val None
  end.

(* FindStartCode, loop: vpxpes_parser.cc:246-251, over the bytes from origin on;
   `i < length - 3` leaves the last three bytes out *)
Fixpoint start_code_scan (l : list Z) (i : Z) : option Z :=
  match l with
  | a :: ((b :: c :: _ :: _) as l') =>
      if (a =? 0) && (b =? 0) && (c =? 1) then Some i else start_code_scan l' (i + 1)
  | _ => None
  end.

(* FindStartCode: vpxpes_parser.cc:236-254, called with origin = read_pos_ *)
Definition FindStartCode (d : list Z) (pos : Z) : option Z :=
  if zlen d <=? pos + 2 then None
  else if zlen d - pos <? 3 then None
  else start_code_scan (skipn (Z.to_nat pos) d) pos.

(* IsPayloadFragmented: vpxpes_parser.cc:256-260 (size_t arithmetic) *)
Definition IsPayloadFragmented (packet_length bcmv_length : Z) : bool :=
  negb (packet_length =? 0) && negb (wrap64 (packet_length - 9) =? bcmv_length).

(* AccumulateFragmentedPayload, loop: vpxpes_parser.cc:272-297.  Returns
   (payload_, read_pos_).  Each round consumes input, so the fuel given by the
   caller is never exhausted. *)
Fixpoint accumulate_loop (fuel : nat) (d : list Z) (pos payload_length : Z) (payload : list Z)
  : outcome (option (list Z * Z)) :=
  if payload_length <=? zlen payload then Val (Some (payload, pos))
  else match fuel with
  | O => Val None
  | S fuel' =>
      match FindStartCode d pos with
      | None => Val None
      | Some start =>
          olet h := ParsePesHeader d start in
          match h with
          | None => Val None
          | Some (packet_length, pos1) =>
              olet o := ParsePesOptionalHeader d pos1 in
              match o with
              | None => Val None
              | Some (_, pos2) =>
                  olet x := RemoveEmulation d pos2 (wrap64 (packet_length - 9)) in
                  match x with
                  | None => Val None
                  | Some (out, consumed) =>
                      accumulate_loop fuel' d (pos2 + consumed) payload_length (payload ++ out)
                  end
              end
          end
      end
  end.

(* AccumulateFragmentedPayload: vpxpes_parser.cc:262-299 *)
Definition AccumulateFragmentedPayload (d : list Z) (pos packet_length payload_length : Z) (payload : list Z)
  : outcome (option (list Z * Z)) :=
  let first := wrap64 (packet_length - 9 - 10) in
  if zlen d <? pos + first then UB   (* 266-268 reads past the end of the file *)
  else accumulate_loop (length d) d (pos + first) payload_length
         (payload ++ firstn (Z.to_nat first) (skipn (Z.to_nat pos) d)).

(* the VideoFrame handed out (video_frame.h:36-62), with the PTS in 90 kHz ticks it was computed from *)
Record pes_frame := mkPesFrame { pf_ns : Z; pf_ticks : Z; pf_data : list Z }.

(* ParseNextPacket: vpxpes_parser.cc:341-407, for a parser whose payload_ is
   empty (it is cleared by every successful call).  Returns the frame, the
   ticks it was computed from and the new read position; None: returns false. *)
Definition ParseNextPacket (d : list Z) (pos : Z) : outcome (option (pes_frame * Z)) :=
  if BytesAvailable d pos =? 0 then Val None
  else match FindStartCode d pos with
  | None => Val None
  | Some start =>
      olet h := ParsePesHeader d start in
      match h with
      | None => Val None
      | Some (packet_length, pos1) =>
          olet o := ParsePesOptionalHeader d pos1 in
          match o with
          | None => Val None
          | Some (pts, pos2) =>
              olet b := ParseBcmvHeader d pos2 in
              match b with
              | None => Val None
              | Some (bcmv_length, pos3) =>
                  let payload_length := wrap64 (bcmv_length - 10) in
                  if zlen d <? wrap64 (pos3 + payload_length) then Val None
                  else
                    olet p := (if IsPayloadFragmented packet_length bcmv_length
                               then AccumulateFragmentedPayload d pos3 packet_length payload_length []
                               else olet x := RemoveEmulation d pos3 payload_length in
                                    Val (match x with
                                         | None => None
                                         | Some (out, consumed) => Some (out, pos3 + consumed)
                                         end)) in
                    match p with
                    | None => Val None
                    | Some (payload, pos4) =>
                        olet ns := Khz90TicksToNanoseconds (sint64 pts) in
                        Val (Some (mkPesFrame ns pts payload, pos4))
                    end
              end
          end
      end
  end.
