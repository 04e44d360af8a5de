(* Model of the muxer's frames and of the writing of blocks:
   mkvmuxer/mkvmuxer.cc:178-285 (Frame), mkvmuxer.cc:2642-2651
   (GetRelativeTimecode) and mkvmuxer/mkvmuxerutil.cc:35-180, 550-569. *)
From Verif Require Import Base MWriter MMuxUtil Ids.

(* mkvmuxer.h:33 *)
Definition kMaxTrackNumber : Z := 126.        (* mkvmuxer.h:33 *)
Definition kMaxBlockTimecode : Z := 32767.    (* mkvmuxerutil.h:29 *)

(* Frame: mkvmuxer.h:87-179.  The data pointer and its length are one list: a
   frame whose pointer is null has length 0.  fr_additional = None: null pointer
   (then the length is 0). *)
Record frame := mkFrame {
  fr_data : list Z;
  fr_additional : option (list Z);
  fr_add_id : Z;
  fr_duration : Z;
  fr_duration_set : bool;
  fr_is_key : bool;
  fr_track : Z;
  fr_timestamp : Z;
  fr_discard : Z;             (* int64 *)
  fr_ref : Z;                 (* int64 reference_block_timestamp_ *)
  fr_ref_set : bool
}.

(* Frame::CanBeSimpleBlock: mkvmuxer.cc:273-275 *)
Definition CanBeSimpleBlock (f : frame) : bool :=
  match fr_additional f with None => true | Some _ => false end &&
  (fr_discard f =? 0) && (fr_duration f =? 0).

(* Frame::IsValid: mkvmuxer.cc:256-271 *)
Definition IsValid (f : frame) : bool :=
  if zlen (fr_data f) =? 0 then false
  else if match fr_additional f with Some a => zlen a =? 0 | None => false end then false
  else if (fr_track f =? 0) || (fr_track f >? kMaxTrackNumber) then false
  else if negb (CanBeSimpleBlock f) && negb (fr_is_key f) && negb (fr_ref_set f) then false
  else true.

(* Frame::set_duration: mkvmuxer.cc:277-280 *)
Definition set_duration (f : frame) (d : Z) : frame :=
  mkFrame (fr_data f) (fr_additional f) (fr_add_id f) d true (fr_is_key f) (fr_track f)
          (fr_timestamp f) (fr_discard f) (fr_ref f) (fr_ref_set f).

(* Frame::set_reference_block_timestamp: mkvmuxer.cc:282-285; the argument of the
   callers is a uint64 converted to int64 *)
Definition set_reference_block_timestamp (f : frame) (t : Z) : frame :=
  mkFrame (fr_data f) (fr_additional f) (fr_add_id f) (fr_duration f) (fr_duration_set f)
          (fr_is_key f) (fr_track f) (fr_timestamp f) (fr_discard f) (sint64 t) true.

(* Frame::CopyFrom: mkvmuxer.cc:198-224 (allocation never fails).  Empty data or
   empty additional data is copied as null; add_id is kept only with additional
   data. *)
Definition CopyFrom (f : frame) : frame :=
  let add := match fr_additional f with
             | Some a => if zlen a >? 0 then Some a else None
             | None => None
             end in
  mkFrame (fr_data f) add (match add with Some _ => fr_add_id f | None => 0 end)
          (fr_duration f) (fr_duration_set f) (fr_is_key f) (fr_track f) (fr_timestamp f)
          (fr_discard f) (fr_ref f) (fr_ref_set f).

(* Cluster::GetRelativeTimecode: mkvmuxer.cc:2642-2651.  abs_timecode and the
   cluster's timecode are uint64 values converted to int64; the subtraction
   overflows (undefined) when the difference does not fit. *)
Definition GetRelativeTimecode (cluster_timecode abs_timecode : Z) : outcome Z :=
  let rel := sint64 abs_timecode - sint64 cluster_timecode in
  if (rel <? - 2 ^ 63) || (2 ^ 63 <=? rel) then UB
  else if (rel <? 0) || (rel >? kMaxBlockTimecode) then Val (-1)
  else Val rel.

(* WriteSimpleBlock: mkvmuxerutil.cc:153-180.  size is an int32 (the addition may
   overflow) that is converted to uint64. *)
Definition WriteSimpleBlock (f : frame) (timecode : Z) : W Z :=
  check_status (WriteID kMkvSimpleBlock) 0 (
  match add_s32 (sint32 (zlen (fr_data f))) 4 with
  | UB => wub
  | Val size =>
      check_status (WriteUInt (wrap64 size)) 0 (
      check_status (WriteUInt (fr_track f)) 0 (
      check_status (SerializeInt timecode 2) 0 (
      let flags := if fr_is_key f then 128 else 0 in
      check_status (SerializeInt flags 1) 0 (
      check_status (w_write_u32 (fr_data f)) 0 (
      ret (wrap64 (GetUIntSize kMkvSimpleBlock + GetCodedUIntSize (wrap64 size) + 4
                   + zlen (fr_data f))))))))
  end).

(* mkvmuxerutil.cc:37-60: (BlockMore payload size, BlockAdditions payload size,
   BlockAdditions element size) *)
Definition additions_sizes (f : frame) : Z * Z * Z :=
  match fr_additional f with
  | None => (0, 0, 0)
  | Some a =>
      let block_additional_elem_size := EbmlElementSizeBuf kMkvBlockAdditional a in
      let block_addid_elem_size := EbmlElementSizeUInt kMkvBlockAddID (fr_add_id f) in
      let block_more_payload_size := wrap64 (block_addid_elem_size + block_additional_elem_size) in
      let block_more_elem_size :=
        wrap64 (EbmlMasterElementSize kMkvBlockMore block_more_payload_size + block_more_payload_size) in
      let block_additions_payload_size := block_more_elem_size in
      let block_additions_elem_size :=
        wrap64 (EbmlMasterElementSize kMkvBlockAdditions block_additions_payload_size
                + block_additions_payload_size) in
      (block_more_payload_size, block_additions_payload_size, block_additions_elem_size)
  end.

(* WriteBlock: mkvmuxerutil.cc:35-151.  timecode_scale is not 0 (checked by the
   caller); the reference timestamp is converted to uint64 by the division. *)
Definition WriteBlock (f : frame) (timecode timecode_scale : Z) : W Z :=
  let '(block_more_payload_size, block_additions_payload_size, block_additions_elem_size) :=
    additions_sizes f in
  let discard_padding_elem_size :=
    if negb (fr_discard f =? 0) then EbmlElementSizeInt kMkvDiscardPadding (fr_discard f) else 0 in
  let reference_block_timestamp := wrap64 (fr_ref f) / timecode_scale in
  let reference_block_elem_size :=
    if negb (fr_is_key f) then EbmlElementSizeUInt kMkvReferenceBlock reference_block_timestamp else 0 in
  let duration := fr_duration f / timecode_scale in
  let block_duration_elem_size :=
    if duration >? 0 then EbmlElementSizeUInt kMkvBlockDuration duration else 0 in
  let block_payload_size := wrap64 (4 + zlen (fr_data f)) in
  let block_elem_size :=
    wrap64 (EbmlMasterElementSize kMkvBlock block_payload_size + block_payload_size) in
  let block_group_payload_size :=
    wrap64 (block_elem_size + block_additions_elem_size + block_duration_elem_size
            + discard_padding_elem_size + reference_block_elem_size) in
  check_true (WriteEbmlMasterElement kMkvBlockGroup block_group_payload_size) 0 (
  check_true (WriteEbmlMasterElement kMkvBlock block_payload_size) 0 (
  check_status (WriteUInt (fr_track f)) 0 (
  check_status (SerializeInt timecode 2) 0 (
  check_status (SerializeInt 0 1) 0 (
  check_status (w_write_u32 (fr_data f)) 0 (
  check_true (match fr_additional f with
              | None => ret true
              | Some a =>
                  check_true (WriteEbmlMasterElement kMkvBlockAdditions block_additions_payload_size) false (
                  check_true (WriteEbmlMasterElement kMkvBlockMore block_more_payload_size) false (
                  check_true (WriteEbmlElementUInt kMkvBlockAddID (fr_add_id f)) false (
                  check_true (WriteEbmlElementBuf kMkvBlockAdditional a) false (
                  ret true))))
              end) 0 (
  check_true (if negb (fr_discard f =? 0) then WriteEbmlElementInt kMkvDiscardPadding (fr_discard f)
              else ret true) 0 (
  check_true (if negb (fr_is_key f) then WriteEbmlElementUInt kMkvReferenceBlock reference_block_timestamp
              else ret true) 0 (
  check_true (if duration >? 0 then WriteEbmlElementUInt kMkvBlockDuration duration
              else ret true) 0 (
  ret (wrap64 (EbmlMasterElementSize kMkvBlockGroup block_group_payload_size
               + block_group_payload_size)))))))))))).

(* WriteFrame: mkvmuxerutil.cc:550-569; the cluster is given by its timecode and
   timecode scale *)
Definition WriteFrame (f : frame) (cluster_timecode timecode_scale : Z) : W Z :=
  if negb (IsValid f) || (timecode_scale =? 0) then ret 0
  else
    match GetRelativeTimecode cluster_timecode (fr_timestamp f / timecode_scale) with
    | UB => wub
    | Val relative_timecode =>
        if (relative_timecode <? 0) || (relative_timecode >? kMaxBlockTimecode) then ret 0
        else if CanBeSimpleBlock f then WriteSimpleBlock f relative_timecode
        else WriteBlock f relative_timecode timecode_scale
    end.
