(* Property theorems about the MPEG-2 TS tools (m2ts/): C33-C37, C45, C46.
   Specification vocabulary: PesSpec.v.  Proofs: PPes*.v, PTs.v. *)
From Verif Require Import Base MFloat MPes PesSpec PPes PPesPts PPesStream PPesParse PTs PTick.

(* ---- C33 ---- *)

(* Escaping appends to the buffer a payload without a start code. *)
Theorem C33_escaped_payload_has_no_start_code : forall raw buf out,
  CopyAndEscapeStartCodes raw buf = Some out ->
  exists payload, out = buf ++ payload /\ no_start_code payload.
Proof. exact copy_escape_no_start_code. Qed.
Print Assumptions C33_escaped_payload_has_no_start_code.
Example C33_ex : CopyAndEscapeStartCodes [9; 0; 0; 1; 0; 0; 0; 3; 0; 0; 2] [7] =
  Some [7; 9; 0; 0; 3; 1; 0; 0; 0; 3; 3; 0; 0; 2].
Proof. reflexivity. Qed.

(* The bytes written for a frame are a sequence of packets, each beginning with
   00 00 01 E0, and a start code occurs exactly at each packet start. *)
Theorem C33_start_codes_only_at_packets : forall frame pts out,
  1 <= zlen frame -> zlen frame + 10 < 2 ^ 32 -> ~ starts_like_code frame ->
  WritePes false frame pts = Some out ->
  exists pkts, out = concat pkts /\
    Forall (fun p => exists b, p = [0; 0; 1; 0xE0] ++ b) pkts /\
    (forall i, start_code_at out i <->
       exists k, (k < length pkts)%nat /\ i = zlen (concat (firstn k pkts))).
Proof. exact WritePes_start_codes. Qed.
Print Assumptions C33_start_codes_only_at_packets.
Example C33_packet_ex : ~ starts_like_code [0; 0; 1; 5] /\ exists out, WritePes false [0; 0; 1; 5] 90000 = Some out.
Proof. split; [intros (b & [E|E]); discriminate|]. eexists. vm_compute. reflexivity. Qed.

(* Without that restriction the claim is false: the two zero padding bytes of
   the BCMV header and a first frame byte 01 form a start code. *)
Theorem C33_all_frames_refuted : exists frame out,
  WritePes false frame 0 = Some out /\ zlen frame = 1 /\ start_code_at out 23.
Proof.
  exists [1]. eexists. split; [vm_compute; reflexivity|]. split; [reflexivity|].
  exists [0; 0; 1; 0xE0; 0; 20; 0x80; 0x80; 6; 0x21; 0; 1; 0; 1; 0xFF; 66; 67; 77; 86; 0; 0; 0; 11], [].
  split; reflexivity.
Qed.
Print Assumptions C33_all_frames_refuted.

(* ---- C34 ---- *)

(* Anywhere in a file, the parser's unescaping of an escaped payload returns
   that payload, and consumes all of it, exactly when the payload has no
   00 00 00 01 and no 00 00 00 03. *)
Theorem C34_unescape_iff : forall pre raw esc rest, raw <> [] ->
  CopyAndEscapeStartCodes raw [] = Some esc ->
  RemoveEmulation (pre ++ esc ++ rest) (zlen pre) (zlen raw) = Val (Some (raw, zlen esc)) <->
  ~ has_long_zero_run raw.
Proof. exact unescape_iff. Qed.
Print Assumptions C34_unescape_iff.
Example C34_ex : ~ has_long_zero_run [5; 0; 0; 1; 0; 0; 0; 7; 0; 0; 3].
Proof.
  intros H. apply has_long_complete in H. vm_compute in H. discriminate.
Qed.

(* For every payload is false: 00 00 00 01 comes back as 00 00 00 03. *)
Theorem C34_all_payloads_refuted : exists raw esc got n,
  CopyAndEscapeStartCodes raw [] = Some esc /\
  RemoveEmulation esc 0 (zlen raw) = Val (Some (got, n)) /\ got <> raw.
Proof.
  exists [0; 0; 0; 1], [0; 0; 0; 3; 1], [0; 0; 0; 3], 4. repeat split; discriminate.
Qed.
Print Assumptions C34_all_payloads_refuted.

(* A stream of frames written one after the other is parsed back, frame by
   frame, with the same data and time stamps. *)
Theorem C34_stream_roundtrip : forall fs out, Forall frame_ok fs ->
  write_stream fs = Some out -> zlen out < 2 ^ 31 ->
  parses out 0 fs (zlen out).
Proof. intros fs out H1 H2 H3. exact (stream_round_trip fs [] out H1 H2 H3). Qed.
Print Assumptions C34_stream_roundtrip.
Example C34_stream_ex : Forall frame_ok [(0, [5; 0; 0; 1; 9]); (3003, [7; 7])].
Proof.
  assert (L : forall l, has_long 0 l = false -> ~ has_long_zero_run l).
  { intros l E H. apply has_long_complete in H; congruence. }
  constructor; [|constructor; [|constructor]]; unfold frame_ok, payload_ok, pts_clean; cbn [fst snd];
    (split; [split; [unfold zlen; cbn; lia|cbn; apply L; reflexivity]|]);
    (split; [unfold zlen; cbn; lia|]); (split; [lia|]); (split; [split; reflexivity|]);
    eexists; vm_compute; reflexivity.
Qed.

(* A frame above 32768 bytes is stored in several packets, and then even a plain
   00 00 01 in its first part is not restored. *)
Theorem C34_fragmented_refuted : exists frame out f pos,
  WritePes false frame 0 = Some out /\ has_escapable frame /\ ~ has_long_zero_run frame /\
  ParseNextPacket out 0 = Val (Some (f, pos)) /\ pf_data f <> frame.
Proof. exact fragmented_refuted. Qed.
Print Assumptions C34_fragmented_refuted.

(* ---- C35 ---- *)

(* The written header is read back as the same PTS exactly for clean values. *)
Theorem C35_pts_roundtrip_iff : forall p, 0 <= p < 2 ^ 33 ->
  (exists h, PesOptionalHeader_Write true (SetPtsBits p) [] = Some h /\
             ParsePesOptionalHeader h 0 = Val (Some (p, 9))) <-> pts_clean p.
Proof. exact pts_header_round_trip. Qed.
Print Assumptions C35_pts_roundtrip_iff.

(* All time stamps below 2^22 ticks (46 seconds) are clean. *)
Theorem C35_small_pts : forall p, 0 <= p < 2 ^ 22 -> pts_clean p.
Proof. exact pts_small_clean. Qed.
Print Assumptions C35_small_pts.

(* The bytes on the wire are the ISO 13818-1 PTS field under the bit condition. *)
Theorem C35_pts_wire_iff : forall p, 0 <= p < 2 ^ 33 ->
  opt_header_bytes true (SetPtsBits p) = [0x80; 0x80; 6] ++ pts_field p ++ [0xFF] <->
  Z.land ((p / 2 ^ 22) mod 256) ((p / 2 ^ 7) mod 256) = (p / 2 ^ 22) mod 256.
Proof. exact pts_wire_iff. Qed.
Print Assumptions C35_pts_wire_iff.

(* Every 33-bit value is false: 2^22 comes back as 2^22 + 2^15 / 2^8, and values
   from 2^31 on overflow a signed shift in the parser or come back different. *)
Theorem C35_all_pts_refuted : exists p h,
  0 <= p < 2 ^ 33 /\ PesOptionalHeader_Write true (SetPtsBits p) [] = Some h /\
  ParsePesOptionalHeader h 0 = Val (Some (p + 2 ^ 7, 9)).
Proof.
  exists 4194304, [0x80; 0x80; 6; 0x21; 1; 1; 1; 1; 0xFF]. split; [lia|].
  split; [vm_cast_no_check (eq_refl (Some [0x80; 0x80; 6; 0x21; 1; 1; 1; 1; 0xFF]))|vm_compute; reflexivity].
Qed.
Print Assumptions C35_all_pts_refuted.

(* ---- C36 ---- *)

(* One PES packet: 188-byte TS packets, readable by a demultiplexer, payloads
   concatenating to the PES packet, start flag on the first one only, counters
   0, 1, 2, ... modulo 16. *)
Theorem C36_packetise : forall data, exists pkts vs,
  ReceivePacket data = Some pkts /\ ts_demux_all pkts = Some vs /\
  Forall (fun p => zlen p = 188) pkts /\ concat (map tv_payload vs) = data /\
  continuous (map tv_cc vs) /\
  (forall k v, nth_error vs k = Some v -> tv_start v = Nat.eqb k 0 /\ tv_cc v = Z.of_nat k mod 16).
Proof. exact packetise. Qed.
Print Assumptions C36_packetise.
Example C36_ex : exists pkts, ReceivePacket (repeat 5 183) = Some pkts /\ length pkts = 2%nat.
Proof. eexists. split; [vm_compute; reflexivity|reflexivity]. Qed.

(* Over a sequence of PES packets the counter is not continuous: it restarts. *)
Theorem C36_stream_continuity_refuted : exists ds pkts vs,
  ReceivePackets ds = Some pkts /\ ts_demux_all pkts = Some vs /\ ~ continuous (map tv_cc vs).
Proof.
  exists [[1]; [2]]. eexists. eexists. split; [vm_compute; reflexivity|].
  split; [vm_compute; reflexivity|]. cbn. intros [E _]. discriminate.
Qed.
Print Assumptions C36_stream_continuity_refuted.

(* ---- C37 ---- *)

Theorem C37_superframe : forall f, bytes f -> 1 <= zlen f < 2 ^ 63 ->
  let total := zlen f - sf_index_size f in
  let sizes := le_fields (Z.to_nat (sf_count f)) (Z.to_nat (sf_bytes f)) (skipn (Z.to_nat (total + 1)) f) in
  let '(ok, err, rs) := ParseVP9SuperFrameIndex f in
  (~ sf_marker f -> ok = false /\ err = false /\ rs = []) /\
  (sf_marker f ->
     (ok = true /\ err = false /\
        sf_index_size f <= total /\ nth (Z.to_nat total) f 0 = last f 0 /\
        map rg_length rs = sizes /\ consecutive 0 (map rpair rs) /\
        fold_right Z.add 0 sizes <= total)
     \/
     (ok = false /\ err = true /\
        ~ (sf_index_size f <= total /\ nth (Z.to_nat total) f 0 = last f 0 /\ fold_right Z.add 0 sizes <= total))).
Proof. exact superframe_spec. Qed.
Print Assumptions C37_superframe.
Example C37_ex : ParseVP9SuperFrameIndex [1; 2; 3; 4; 5; 0xC1; 2; 3; 0xC1] =
  (true, false, [mkRange 0 2; mkRange 2 3]).
Proof. reflexivity. Qed.

(* The frame is written as one packet group per range. *)
Theorem C37_passthrough : forall f, bytes f -> 1 <= zlen f < 2 ^ 63 -> ~ sf_marker f ->
  frame_ranges true f = Some [mkRange 0 (zlen f)].
Proof. exact frame_ranges_passthrough. Qed.
Print Assumptions C37_passthrough.

(* A frame without an index whose last byte happens to look like a marker is not
   passed through: writing it fails. *)
Theorem C37_lookalike_refuted : exists f, bytes f /\
  nth (Z.to_nat (zlen f - sf_index_size f)) f 0 <> last f 0 /\ WritePes true f 0 = None.
Proof.
  exists [1; 2; 3; 4; 5; 6; 7; 0xC0]. split; [repeat constructor; unfold is_byte; lia|].
  split; [vm_compute; discriminate|reflexivity].
Qed.
Print Assumptions C37_lookalike_refuted.

(* ---- C45 ---- *)

(* Reads outside the buffer are UB in the model; a seven byte file causes one. *)
Theorem C45_parser_in_bounds_refuted : exists file, bytes file /\ zlen file = 7 /\
  ParseNextPacket file 0 = UB.
Proof.
  exists [0; 0; 1; 0xE0; 0; 0; 0x80]. split; [repeat constructor; unfold is_byte; lia|].
  split; vm_compute; reflexivity.
Qed.
Print Assumptions C45_parser_in_bounds_refuted.

(* Files made of well-formed frames are parsed without such a read. *)
Theorem C45_well_formed_in_bounds : forall pre frame pts out rest,
  frame_ok (pts, frame) -> WritePes false frame pts = Some out -> zlen (pre ++ out ++ rest) < 2 ^ 31 ->
  ParseNextPacket (pre ++ out ++ rest) (zlen pre) <> UB.
Proof. exact well_formed_in_bounds. Qed.
Print Assumptions C45_well_formed_in_bounds.

(* ---- C46 ---- *)

(* Converting 90 kHz ticks to nanoseconds and back loses a tick. *)
Theorem C46_tick_roundtrip_refuted : exists t ns t',
  Khz90TicksToNanoseconds t = Val ns /\ NanosecondsTo90KhzTicks ns = Val t' /\ t' = t - 1.
Proof. exists 1. eexists. eexists. split; [vm_compute; reflexivity|]. split; vm_compute; reflexivity. Qed.
Print Assumptions C46_tick_roundtrip_refuted.

(* It never gains a tick and never loses more than one. *)
Theorem C46_tick_roundtrip_bound : forall t, 0 <= t < 2 ^ 33 ->
  exists ns t', Khz90TicksToNanoseconds t = Val ns /\ NanosecondsTo90KhzTicks ns = Val t' /\ t - 1 <= t' <= t.
Proof. exact tick_roundtrip. Qed.
Print Assumptions C46_tick_roundtrip_bound.
Example C46_ex : Khz90TicksToNanoseconds (2 ^ 33 - 1) = Val 95443717677777 /\ NanosecondsTo90KhzTicks 95443717677777 = Val (2 ^ 33 - 2).
Proof. split; vm_compute; reflexivity. Qed.
