(* Model of the metadata elements of mkvmuxer/mkvmuxer.cc: the EBML header, cue
   points and cues, content encodings, tracks with their video and audio
   settings, chapters, tags and the segment information.

   A char* string is an option (None = null pointer) over the bytes before the
   terminating NUL; a buffer and its length are one list.  Size additions are on
   uint64 and wrap.  A float is given by its IEEE-754 bit pattern.  The null
   check of the writer argument is not modelled; allocation never fails. *)
From Coq Require Import Floats.SpecFloat.
From Verif Require Import Base MWriter MMuxUtil MFloat Ids.

(* size = a; size += b; ... on uint64 *)
Definition size_sum (l : list Z) : Z := fold_left (fun acc x => wrap64 (acc + x)) l 0.

(* an optional addend / an optional write, e.g. mkvmuxer.cc:2969-2970, 2988-2992 *)
Definition opt_sz (b : bool) (n : Z) : Z := if b then n else 0.
Definition opt_w (b : bool) (m : W bool) : W bool := if b then m else ret true.

(* `if (!w1) return false; if (!w2) return false; ... return true;`
   e.g. mkvmuxer.cc:2978-3001 *)
Fixpoint write_seq (l : list (W bool)) : W bool :=
  match l with
  | [] => ret true
  | m :: r => check_true m false (write_seq r)
  end.

(* EbmlElementSize / WriteEbmlElement on char*: mkvmuxerutil.cc:280-294, 500-515 *)
Definition EbmlElementSizeCStr (type : Z) (v : option (list Z)) : Z :=
  match v with None => 0 | Some s => EbmlElementSizeString type s end.
Definition WriteEbmlElementCStr (type : Z) (v : option (list Z)) : W bool :=
  match v with None => ret false | Some s => WriteEbmlElementString type s end.

(* EbmlElementSize / WriteEbmlElement on a buffer: mkvmuxerutil.cc:296-310, 517-532 *)
Definition EbmlElementSizePtr (type : Z) (v : option (list Z)) : Z :=
  match v with None => 0 | Some s => EbmlElementSizeBuf type s end.
Definition WriteEbmlElementPtr (type : Z) (v : option (list Z)) : W bool :=
  match v with None => ret false | Some s => WriteEbmlElementBuf type s end.

(* tests of a pointer against NULL, e.g. mkvmuxer.cc:727 *)
Definition present {A} (v : option A) : bool := match v with None => false | Some _ => true end.

(* The pattern: payload_position = Position(); if < 0 fail; body;
   stop = Position(); if stop < 0 or stop - payload_position != size fail.
   e.g. mkvmuxer.cc:464-482 *)
Definition position_checked (size : Z) (body : W bool) : W bool :=
  payload_position <- w_position;;
  if payload_position <? 0 then ret false else
  check_true body false (
  stop_position <- w_position;;
  if (stop_position <? 0) || negb (stop_position - payload_position =? sint64 size)
  then ret false else ret true).

(* The pattern of chapters and tags: start = Position(); body (0 on error);
   stop = Position(); if (stop >= start && uint64(stop - start) != size) return 0;
   return size. *)
Definition position_checked_sz (size : Z) (body : W bool) : W Z :=
  start <- w_position;;
  check_true body 0 (
  stop <- w_position;;
  if (stop >=? start) && negb (wrap64 (stop - start) =? size) then ret 0 else ret size).

(* `if (call == 0) return bad;` with a size-returning call, e.g. mkvmuxer.cc:2146, 2205, 2413 *)
Definition nonzero (m : W Z) : W bool := n <- m;; ret (negb (n =? 0)).

(* ---------- EBML header: mkvmuxer.cc:96-138 ---------- *)

Definition ebml_header_size (doc_type_version : Z) (doc_type : list Z) : Z :=
  size_sum [EbmlElementSizeUInt kMkvEBMLVersion 1;
            EbmlElementSizeUInt kMkvEBMLReadVersion 1;
            EbmlElementSizeUInt kMkvEBMLMaxIDLength 4;
            EbmlElementSizeUInt kMkvEBMLMaxSizeLength 8;
            EbmlElementSizeCStr kMkvDocType (Some doc_type);
            EbmlElementSizeUInt kMkvDocTypeVersion doc_type_version;
            EbmlElementSizeUInt kMkvDocTypeReadVersion 2].

(* WriteEbmlHeader: mkvmuxer.cc:96-141 *)
Definition WriteEbmlHeader (doc_type_version : Z) (doc_type : list Z) : W bool :=
  write_seq
    [WriteEbmlMasterElement kMkvEBML (ebml_header_size doc_type_version doc_type);
     WriteEbmlElementUInt kMkvEBMLVersion 1;
     WriteEbmlElementUInt kMkvEBMLReadVersion 1;
     WriteEbmlElementUInt kMkvEBMLMaxIDLength 4;
     WriteEbmlElementUInt kMkvEBMLMaxSizeLength 8;
     WriteEbmlElementCStr kMkvDocType (Some doc_type);
     WriteEbmlElementUInt kMkvDocTypeVersion doc_type_version;
     WriteEbmlElementUInt kMkvDocTypeReadVersion 2].

(* kDocTypeWebm, kDocTypeMatroska: mkvmuxer.cc:42-43 *)
Definition kDocTypeWebm : list Z := [119; 101; 98; 109].
Definition kDocTypeMatroska : list Z := [109; 97; 116; 114; 111; 115; 107; 97].

(* ---------- CuePoint, Cues: mkvmuxer.cc:290-484 ---------- *)

(* mkvmuxer.h:183-228 *)
Record cue_point := mkCue {
  cue_time : Z; cue_track : Z; cue_cluster_pos : Z; cue_block_number : Z;
  cue_output_block_number : bool
}.

(* mkvmuxer.cc:303-311 = 349-353 *)
Definition cue_positions_size (c : cue_point) : Z :=
  size_sum [EbmlElementSizeUInt kMkvCueClusterPosition (cue_cluster_pos c);
            EbmlElementSizeUInt kMkvCueTrack (cue_track c);
            opt_sz (cue_output_block_number c && (cue_block_number c >? 1))
                   (EbmlElementSizeUInt kMkvCueBlockNumber (cue_block_number c))].

(* CuePoint::PayloadSize: mkvmuxer.cc:355-369 *)
Definition CuePoint_PayloadSize (c : cue_point) : Z :=
  let size := cue_positions_size c in
  let track_pos_size := wrap64 (EbmlMasterElementSize kMkvCueTrackPositions size + size) in
  wrap64 (EbmlElementSizeUInt kMkvCueTime (cue_time c) + track_pos_size).

(* CuePoint::Size: mkvmuxer.cc:371-375 *)
Definition CuePoint_Size (c : cue_point) : Z :=
  let payload_size := CuePoint_PayloadSize c in
  wrap64 (EbmlMasterElementSize kMkvCuePoint payload_size + payload_size).

(* CuePoint::Write: mkvmuxer.cc:300-353 *)
Definition CuePoint_Write (c : cue_point) : W bool :=
  if (cue_track c <? 1) || (cue_cluster_pos c <? 1) then ret false else
  let size := cue_positions_size c in
  let payload_size := CuePoint_PayloadSize c in
  write_seq
    [WriteEbmlMasterElement kMkvCuePoint payload_size;
     position_checked payload_size (write_seq
       [WriteEbmlElementUInt kMkvCueTime (cue_time c);
        WriteEbmlMasterElement kMkvCueTrackPositions size;
        WriteEbmlElementUInt kMkvCueTrack (cue_track c);
        WriteEbmlElementUInt kMkvCueClusterPosition (cue_cluster_pos c);
        opt_w (cue_output_block_number c && (cue_block_number c >? 1))
              (WriteEbmlElementUInt kMkvCueBlockNumber (cue_block_number c))])].

(* the loops of Cues::Size and Cues::Write: mkvmuxer.cc:440-443 *)
Definition cues_payload_size (l : list cue_point) : Z := size_sum (map CuePoint_Size l).

(* Cues::Size: mkvmuxer.cc:439-445 *)
Definition Cues_Size (l : list cue_point) : Z :=
  let size := cues_payload_size l in wrap64 (size + EbmlMasterElementSize kMkvCues size).

(* Cues::Write: mkvmuxer.cc:447-483 *)
Definition Cues_Write (l : list cue_point) : W bool :=
  let size := cues_payload_size l in
  write_seq [WriteEbmlMasterElement kMkvCues size;
             position_checked size (write_seq (map CuePoint_Write l))].

(* ---------- ContentEncAESSettings, ContentEncoding: mkvmuxer.cc:486-647 ---------- *)

Record content_encoding := mkCE {
  ce_enc_algo : Z; ce_key_id : option (list Z); ce_order : Z; ce_scope : Z; ce_type : Z;
  ce_cipher_mode : Z
}.

(* ContentEncAESSettings::PayloadSize: mkvmuxer.cc:523-527 *)
Definition AES_PayloadSize (c : content_encoding) : Z :=
  EbmlElementSizeUInt kMkvAESSettingsCipherMode (ce_cipher_mode c).
(* ContentEncAESSettings::Size: mkvmuxer.cc:491-497 *)
Definition AES_Size (c : content_encoding) : Z :=
  wrap64 (EbmlMasterElementSize kMkvContentEncAESSettings (AES_PayloadSize c) + AES_PayloadSize c).
(* ContentEncAESSettings::Write: mkvmuxer.cc:499-521 *)
Definition AES_Write (c : content_encoding) : W bool :=
  write_seq
    [WriteEbmlMasterElement kMkvContentEncAESSettings (AES_PayloadSize c);
     position_checked (AES_PayloadSize c)
       (write_seq [WriteEbmlElementUInt kMkvAESSettingsCipherMode (ce_cipher_mode c)])].

(* ContentEncoding::EncryptionSize: mkvmuxer.cc:639-648 *)
Definition EncryptionSize (c : content_encoding) : Z :=
  wrap64 (size_sum [EbmlElementSizePtr kMkvContentEncKeyID (ce_key_id c);
                    EbmlElementSizeUInt kMkvContentEncAlgo (ce_enc_algo c)] + AES_Size c).

(* ContentEncoding::EncodingSize with compression_size = 0: mkvmuxer.cc:616-637 *)
Definition EncodingSize (c : content_encoding) (encryption_size : Z) : Z :=
  size_sum [opt_sz (encryption_size >? 0)
              (wrap64 (EbmlMasterElementSize kMkvContentEncryption encryption_size + encryption_size));
            EbmlElementSizeUInt kMkvContentEncodingType (ce_type c);
            EbmlElementSizeUInt kMkvContentEncodingScope (ce_scope c);
            EbmlElementSizeUInt kMkvContentEncodingOrder (ce_order c)].

(* ContentEncoding::Size: mkvmuxer.cc:560-568 *)
Definition ContentEncoding_Size (c : content_encoding) : Z :=
  let encoding_size := EncodingSize c (EncryptionSize c) in
  wrap64 (EbmlMasterElementSize kMkvContentEncoding encoding_size + encoding_size).

(* ContentEncoding::Write: mkvmuxer.cc:570-614 *)
Definition ContentEncoding_Write (c : content_encoding) : W bool :=
  let encryption_size := EncryptionSize c in
  let encoding_size := EncodingSize c encryption_size in
  let size := wrap64 (EbmlMasterElementSize kMkvContentEncoding encoding_size + encoding_size) in
  position_checked size (write_seq
    [WriteEbmlMasterElement kMkvContentEncoding encoding_size;
     WriteEbmlElementUInt kMkvContentEncodingOrder (ce_order c);
     WriteEbmlElementUInt kMkvContentEncodingScope (ce_scope c);
     WriteEbmlElementUInt kMkvContentEncodingType (ce_type c);
     WriteEbmlMasterElement kMkvContentEncryption encryption_size;
     WriteEbmlElementUInt kMkvContentEncAlgo (ce_enc_algo c);
     WriteEbmlElementPtr kMkvContentEncKeyID (ce_key_id c);
     AES_Write c]).

(* ---------- floats ---------- *)

(* the value denoted by a binary32 bit pattern *)
Definition f32_of_bits (u : Z) : spec_float :=
  let s := u / 2147483648 mod 2 =? 1 in
  let e := u / 8388608 mod 256 in
  let m := u mod 8388608 in
  if e =? 255 then (if m =? 0 then S754_infinity s else S754_nan)
  else if e =? 0 then match m with Zpos p => S754_finite s p (-149) | _ => S754_zero s end
  else match m + 8388608 with Zpos p => S754_finite s p (e - 150) | _ => S754_nan end.

(* the binary32 bit pattern of a canonical value *)
Definition bits_of_f32 (f : spec_float) : Z :=
  let sb (s : bool) := if s then 2147483648 else 0 in
  match f with
  | S754_zero s => sb s
  | S754_infinity s => sb s + 2139095040
  | S754_nan => 2143289344
  | S754_finite s p e =>
      if Zpos p <? 8388608 then sb s + Zpos p else sb s + (e + 150) * 8388608 + (Zpos p - 8388608)
  end.

(* static_cast<float>(double), round to nearest even, e.g. mkvmuxer.cc:1531, 1704, 2952 *)
Definition f32_of_f64 (d : f64) : Z :=
  match d with
  | S754_finite s p e => bits_of_f32 (binary_round 24 128 s p e)
  | _ => bits_of_f32 d
  end.

(* d > 0.0, e.g. mkvmuxer.cc:1529, 2941 *)
Definition f64_pos (d : f64) : bool := SFltb (S754_zero false) d.

(* mkvmuxer.cc:31-36 *)
Definition f_zero : Z := 0.
Definition kChromaticityMax : Z := 0x3F800000.   (* 1.0f *)
Definition kMinLuminanceMax : Z := 0x4479FF5C.   (* 999.99f *)
Definition kMaxLuminanceMax : Z := 0x461C3FF6.   (* 9999.99f *)
Definition kLuminanceNotPresent : Z := 0x7F7FFFFF. (* FLT_MAX *)

(* comparisons of floats, e.g. mkvmuxer.cc:980-981, 994-1002 *)
Definition f32_le (a b : Z) : bool := SFleb (f32_of_bits a) (f32_of_bits b).
Definition f32_lt (a b : Z) : bool := SFltb (f32_of_bits a) (f32_of_bits b).
Definition f32_eq (a b : Z) : bool := SFeqb (f32_of_bits a) (f32_of_bits b).

(* ---------- PrimaryChromaticity, MasteringMetadata, Colour ---------- *)

(* PrimaryChromaticity: mkvmuxer.h:357-381 *)
Definition chroma : Type := (Z * Z)%type.   (* x_, y_ *)

(* PrimaryChromaticity::PrimaryChromaticitySize: mkvmuxer.cc:965-968 *)
Definition Chroma_Size (x_id y_id : Z) : Z :=
  wrap64 (EbmlElementSizeFloat x_id + EbmlElementSizeFloat y_id).

(* PrimaryChromaticity::Valid: mkvmuxer.cc:979-982 *)
Definition Chroma_Valid (c : chroma) : bool :=
  f32_le f_zero (fst c) && f32_le (fst c) kChromaticityMax &&
  f32_le f_zero (snd c) && f32_le (snd c) kChromaticityMax.

(* PrimaryChromaticity::Write: mkvmuxer.cc:970-977 *)
Definition Chroma_Write (c : chroma) (x_id y_id : Z) : W bool :=
  if negb (Chroma_Valid c) then ret false else
  write_seq [WriteEbmlElementFloat x_id (fst c); WriteEbmlElementFloat y_id (snd c)].

(* MasteringMetadata: mkvmuxer.h:383-438 *)
Record mastering := mkMM {
  mm_luminance_max : Z; mm_luminance_min : Z;   (* float bit patterns *)
  mm_r : option chroma; mm_g : option chroma; mm_b : option chroma; mm_white : option chroma
}.

(* luminance != kValueNotPresent, e.g. mkvmuxer.cc:994 *)
Definition lum_present (u : Z) : bool := negb (f32_eq u kLuminanceNotPresent).

(* MasteringMetadata::PayloadSize: mkvmuxer.cc:1087-1114 *)
Definition MM_PayloadSize (m : mastering) : Z :=
  size_sum
    [opt_sz (lum_present (mm_luminance_max m)) (EbmlElementSizeFloat kMkvLuminanceMax);
     opt_sz (lum_present (mm_luminance_min m)) (EbmlElementSizeFloat kMkvLuminanceMin);
     opt_sz (present (mm_r m)) (Chroma_Size kMkvPrimaryRChromaticityX kMkvPrimaryRChromaticityY);
     opt_sz (present (mm_g m)) (Chroma_Size kMkvPrimaryGChromaticityX kMkvPrimaryGChromaticityY);
     opt_sz (present (mm_b m)) (Chroma_Size kMkvPrimaryBChromaticityX kMkvPrimaryBChromaticityY);
     opt_sz (present (mm_white m)) (Chroma_Size kMkvWhitePointChromaticityX kMkvWhitePointChromaticityY)].

(* MasteringMetadata::MasteringMetadataSize: mkvmuxer.cc:984-991 *)
Definition MM_Size (m : mastering) : Z :=
  let size := MM_PayloadSize m in
  if size >? 0 then wrap64 (size + EbmlMasterElementSize kMkvMasteringMetadata size) else size.

(* if (r_ && !r_->Valid()) return false: mkvmuxer.cc:1006-1013 *)
Definition opt_valid (c : option chroma) : bool :=
  match c with None => true | Some c => Chroma_Valid c end.

(* MasteringMetadata::Valid: mkvmuxer.cc:993-1016 *)
Definition MM_Valid (m : mastering) : bool :=
  let lmin := mm_luminance_min m in
  let lmax := mm_luminance_max m in
  negb (lum_present lmin &&
        (f32_lt lmin f_zero || f32_lt kMinLuminanceMax lmin || f32_lt lmax lmin)) &&
  negb (lum_present lmax &&
        (f32_lt lmax f_zero || f32_lt kMaxLuminanceMax lmax || f32_lt lmax lmin)) &&
  opt_valid (mm_r m) && opt_valid (mm_g m) && opt_valid (mm_b m) && opt_valid (mm_white m).

(* if (r_ && !r_->Write(...)) return false: mkvmuxer.cc:1035-1051 *)
Definition opt_chroma_w (c : option chroma) (x_id y_id : Z) : W bool :=
  match c with None => ret true | Some c => Chroma_Write c x_id y_id end.

(* MasteringMetadata::Write: mkvmuxer.cc:1018-1054 *)
Definition MM_Write (m : mastering) : W bool :=
  let size := MM_PayloadSize m in
  if size =? 0 then ret true else
  write_seq
    [WriteEbmlMasterElement kMkvMasteringMetadata size;
     opt_w (lum_present (mm_luminance_max m)) (WriteEbmlElementFloat kMkvLuminanceMax (mm_luminance_max m));
     opt_w (lum_present (mm_luminance_min m)) (WriteEbmlElementFloat kMkvLuminanceMin (mm_luminance_min m));
     opt_chroma_w (mm_r m) kMkvPrimaryRChromaticityX kMkvPrimaryRChromaticityY;
     opt_chroma_w (mm_g m) kMkvPrimaryGChromaticityX kMkvPrimaryGChromaticityY;
     opt_chroma_w (mm_b m) kMkvPrimaryBChromaticityX kMkvPrimaryBChromaticityY;
     opt_chroma_w (mm_white m) kMkvWhitePointChromaticityX kMkvWhitePointChromaticityY].

(* Colour: mkvmuxer.h:440-600.  A field holding Colour::kValueNotPresent
   (UINT64_MAX, mkvmuxer.cc:37) is absent. *)
Record colour := mkColour {
  co_matrix_coefficients : Z; co_bits_per_channel : Z;
  co_chroma_subsampling_horz : Z; co_chroma_subsampling_vert : Z;
  co_cb_subsampling_horz : Z; co_cb_subsampling_vert : Z;
  co_chroma_siting_horz : Z; co_chroma_siting_vert : Z;
  co_range : Z; co_transfer_characteristics : Z; co_primaries : Z;
  co_max_cll : Z; co_max_fall : Z;
  co_mastering : option mastering
}.
Definition kValueNotPresent : Z := 18446744073709551615.
Definition co_present (v : Z) : bool := negb (v =? kValueNotPresent).

(* the scalar fields with their element IDs, in the order of Write and of
   PayloadSize: mkvmuxer.cc:1162-1234, 1260-1316 *)
Definition co_fields (c : colour) : list (Z * Z) :=
  [(kMkvMatrixCoefficients, co_matrix_coefficients c);
   (kMkvBitsPerChannel, co_bits_per_channel c);
   (kMkvChromaSubsamplingHorz, co_chroma_subsampling_horz c);
   (kMkvChromaSubsamplingVert, co_chroma_subsampling_vert c);
   (kMkvCbSubsamplingHorz, co_cb_subsampling_horz c);
   (kMkvCbSubsamplingVert, co_cb_subsampling_vert c);
   (kMkvChromaSitingHorz, co_chroma_siting_horz c);
   (kMkvChromaSitingVert, co_chroma_siting_vert c);
   (kMkvRange, co_range c);
   (kMkvTransferCharacteristics, co_transfer_characteristics c);
   (kMkvPrimaries, co_primaries c);
   (kMkvMaxCLL, co_max_cll c);
   (kMkvMaxFALL, co_max_fall c)].

(* Colour::PayloadSize: mkvmuxer.cc:1259-1317 *)
Definition Colour_PayloadSize (c : colour) : Z :=
  size_sum (map (fun f => opt_sz (co_present (snd f)) (EbmlElementSizeUInt (fst f) (snd f))) (co_fields c)
            ++ [match co_mastering c with None => 0 | Some m => MM_Size m end]).

(* Colour::ColourSize: mkvmuxer.cc:1116-1123 *)
Definition Colour_Size (c : colour) : Z :=
  let size := Colour_PayloadSize c in
  if size >? 0 then wrap64 (size + EbmlMasterElementSize kMkvColour size) else size.

(* The value checks: mkvmuxerutil.cc:644-735, enumerations mkvmuxer.h:442-504 *)
Definition IsMatrixCoefficientsValueValid (v : Z) : bool := (0 <=? v) && (v <=? 10).
Definition IsChromaSitingHorzValueValid (v : Z) : bool := (0 <=? v) && (v <=? 2).
Definition IsChromaSitingVertValueValid (v : Z) : bool := (0 <=? v) && (v <=? 2).
Definition IsColourRangeValueValid (v : Z) : bool := (0 <=? v) && (v <=? 3).
Definition IsTransferCharacteristicsValueValid (v : Z) : bool := (1 <=? v) && (v <=? 18).
Definition IsPrimariesValueValid (v : Z) : bool := ((0 <=? v) && (v <=? 10)) || (v =? 22).

(* Colour::Valid: mkvmuxer.cc:1125-1150 *)
Definition Colour_Valid (c : colour) : bool :=
  let chk (v : Z) (p : Z -> bool) := negb (co_present v && negb (p v)) in
  match co_mastering c with None => true | Some m => MM_Valid m end &&
  chk (co_matrix_coefficients c) IsMatrixCoefficientsValueValid &&
  chk (co_chroma_siting_horz c) IsChromaSitingHorzValueValid &&
  chk (co_chroma_siting_vert c) IsChromaSitingVertValueValid &&
  chk (co_range c) IsColourRangeValueValid &&
  chk (co_transfer_characteristics c) IsTransferCharacteristicsValueValid &&
  chk (co_primaries c) IsPrimariesValueValid.

(* Colour::Write: mkvmuxer.cc:1152-1237 *)
Definition Colour_Write (c : colour) : W bool :=
  let size := Colour_PayloadSize c in
  if size =? 0 then ret true else
  if negb (Colour_Valid c) then ret false else
  write_seq
    (WriteEbmlMasterElement kMkvColour size ::
     map (fun f => opt_w (co_present (snd f)) (WriteEbmlElementUInt (fst f) (snd f))) (co_fields c)
     ++ [match co_mastering c with None => ret true | Some m => MM_Write m end]).

(* ---------- Projection: mkvmuxer.cc:1323-1406 ---------- *)

Record projection := mkProj {
  pj_type : Z;                      (* enum, -1..3; converted to uint64 *)
  pj_yaw : Z; pj_pitch : Z; pj_roll : Z;   (* float bit patterns *)
  pj_private : list Z               (* empty: no private data *)
}.

(* Projection::PayloadSize: mkvmuxer.cc:1392-1406.  The first addend is computed
   with the ID of the Projection element itself, as in the source. *)
Definition Projection_PayloadSize (p : projection) : Z :=
  size_sum
    [EbmlElementSizeUInt kMkvProjection (wrap64 (pj_type p));
     opt_sz (zlen (pj_private p) >? 0) (EbmlElementSizeBuf kMkvProjectionPrivate (pj_private p));
     EbmlElementSizeFloat kMkvProjectionPoseYaw;
     EbmlElementSizeFloat kMkvProjectionPosePitch;
     EbmlElementSizeFloat kMkvProjectionPoseRoll].

(* Projection::ProjectionSize: mkvmuxer.cc:1323-1330 *)
Definition Projection_Size (p : projection) : Z :=
  let size := Projection_PayloadSize p in
  if size >? 0 then wrap64 (size + EbmlMasterElementSize kMkvProjection size) else size.

(* Projection::Write: mkvmuxer.cc:1332-1366 *)
Definition Projection_Write (p : projection) : W bool :=
  let size := Projection_PayloadSize p in
  if size =? 0 then ret true else
  write_seq
    [WriteEbmlMasterElement kMkvProjection size;
     WriteEbmlElementUInt kMkvProjectionType (wrap64 (pj_type p));
     opt_w (zlen (pj_private p) >? 0) (WriteEbmlElementBuf kMkvProjectionPrivate (pj_private p));
     WriteEbmlElementFloat kMkvProjectionPoseYaw (pj_yaw p);
     WriteEbmlElementFloat kMkvProjectionPosePitch (pj_pitch p);
     WriteEbmlElementFloat kMkvProjectionPoseRoll (pj_roll p)].

(* ---------- Track, VideoTrack, AudioTrack ---------- *)

(* VideoTrack: mkvmuxer.h:742-837 *)
Record video := mkVideo {
  vi_display_height : Z; vi_display_width : Z; vi_pixel_height : Z; vi_pixel_width : Z;
  vi_crop_left : Z; vi_crop_right : Z; vi_crop_top : Z; vi_crop_bottom : Z;
  vi_frame_rate : f64; vi_height : Z; vi_stereo_mode : Z; vi_alpha_mode : Z; vi_width : Z;
  vi_colour_space : option (list Z); vi_colour : option colour; vi_projection : option projection
}.

(* AudioTrack: mkvmuxer.h:839-868 *)
Record audio := mkAudio { au_bit_depth : Z; au_channels : Z; au_sample_rate : f64 }.

(* Track, VideoTrack, AudioTrack: mkvmuxer.h:655, 742, 839 *)
Inductive track_kind := KPlain | KVideo (v : video) | KAudio (a : audio).

(* Track: mkvmuxer.h:655-740; the derived classes are the tk_kind field *)
Record track := mkTrack {
  tk_kind : track_kind;
  tk_codec_id : option (list Z); tk_codec_private : option (list Z);
  tk_language : option (list Z); tk_name : option (list Z);
  tk_max_block_additional_id : Z; tk_number : Z; tk_type : Z; tk_uid : Z;
  tk_codec_delay : Z; tk_seek_pre_roll : Z; tk_default_duration : Z;
  tk_encodings : list content_encoding
}.

(* tests of a number, e.g. mkvmuxer.cc:736 *)
Definition nz (v : Z) : bool := negb (v =? 0).

(* mkvmuxer.cc:722-749 = 806-838: the size without the content encodings *)
Definition track_fields_size (t : track) : Z :=
  size_sum
    [EbmlElementSizeUInt kMkvTrackNumber (tk_number t);
     EbmlElementSizeUInt kMkvTrackUID (tk_uid t);
     EbmlElementSizeUInt kMkvTrackType (tk_type t);
     opt_sz (present (tk_codec_id t)) (EbmlElementSizeCStr kMkvCodecID (tk_codec_id t));
     opt_sz (present (tk_codec_private t)) (EbmlElementSizePtr kMkvCodecPrivate (tk_codec_private t));
     opt_sz (present (tk_language t)) (EbmlElementSizeCStr kMkvLanguage (tk_language t));
     opt_sz (present (tk_name t)) (EbmlElementSizeCStr kMkvName (tk_name t));
     opt_sz (nz (tk_max_block_additional_id t))
            (EbmlElementSizeUInt kMkvMaxBlockAdditionID (tk_max_block_additional_id t));
     opt_sz (nz (tk_codec_delay t)) (EbmlElementSizeUInt kMkvCodecDelay (tk_codec_delay t));
     opt_sz (nz (tk_seek_pre_roll t)) (EbmlElementSizeUInt kMkvSeekPreRoll (tk_seek_pre_roll t));
     opt_sz (nz (tk_default_duration t)) (EbmlElementSizeUInt kMkvDefaultDuration (tk_default_duration t))].

(* mkvmuxer.cc:751-759 = 898-902 *)
Definition content_encodings_size (t : track) : Z :=
  size_sum (map ContentEncoding_Size (tk_encodings t)).

(* content_encoding_entries_size_ > 0: mkvmuxer.cc:751 *)
Definition nonempty {A} (l : list A) : bool := match l with [] => false | _ => true end.

(* Track::PayloadSize: mkvmuxer.cc:722-766 *)
Definition Track_PayloadSize_base (t : track) : Z :=
  wrap64 (track_fields_size t +
          opt_sz (nonempty (tk_encodings t))
            (wrap64 (EbmlMasterElementSize kMkvContentEncodings (content_encodings_size t)
                     + content_encodings_size t))).

(* if (colour_) size += ...: mkvmuxer.cc:1651-1654 *)
Definition opt_map {A} (f : A -> Z) (v : option A) : Z := match v with None => 0 | Some a => f a end.

(* VideoTrack::VideoPayloadSize: mkvmuxer.cc:1615-1657; kMono = 0, kNoAlpha = 0 *)
Definition VideoPayloadSize (v : video) : Z :=
  size_sum
    [EbmlElementSizeUInt kMkvPixelWidth (if vi_pixel_width v >? 0 then vi_pixel_width v else vi_width v);
     EbmlElementSizeUInt kMkvPixelHeight (if vi_pixel_height v >? 0 then vi_pixel_height v else vi_height v);
     opt_sz (vi_display_width v >? 0) (EbmlElementSizeUInt kMkvDisplayWidth (vi_display_width v));
     opt_sz (vi_display_height v >? 0) (EbmlElementSizeUInt kMkvDisplayHeight (vi_display_height v));
     opt_sz (vi_crop_left v >? 0) (EbmlElementSizeUInt kMkvPixelCropLeft (vi_crop_left v));
     opt_sz (vi_crop_right v >? 0) (EbmlElementSizeUInt kMkvPixelCropRight (vi_crop_right v));
     opt_sz (vi_crop_top v >? 0) (EbmlElementSizeUInt kMkvPixelCropTop (vi_crop_top v));
     opt_sz (vi_crop_bottom v >? 0) (EbmlElementSizeUInt kMkvPixelCropBottom (vi_crop_bottom v));
     opt_sz (vi_stereo_mode v >? 0) (EbmlElementSizeUInt kMkvStereoMode (vi_stereo_mode v));
     opt_sz (vi_alpha_mode v >? 0) (EbmlElementSizeUInt kMkvAlphaMode (vi_alpha_mode v));
     opt_sz (f64_pos (vi_frame_rate v)) (EbmlElementSizeFloat kMkvFrameRate);
     opt_sz (present (vi_colour_space v)) (EbmlElementSizeCStr kMkvColourSpace (vi_colour_space v));
     opt_map Colour_Size (vi_colour v);
     opt_map Projection_Size (vi_projection v)].

(* mkvmuxer.cc:1671-1676 = 1684-1689 *)
Definition AudioPayloadSize (a : audio) : Z :=
  size_sum
    [EbmlElementSizeFloat kMkvSamplingFrequency;
     EbmlElementSizeUInt kMkvChannels (au_channels a);
     opt_sz (au_bit_depth a >? 0) (EbmlElementSizeUInt kMkvBitDepth (au_bit_depth a))].

(* the virtual PayloadSize: mkvmuxer.cc:722-766, 1455-1462, 1668-1681 *)
Definition Track_PayloadSize (t : track) : Z :=
  let parent_size := Track_PayloadSize_base t in
  match tk_kind t with
  | KPlain => parent_size
  | KVideo v =>
      let size := VideoPayloadSize v in
      wrap64 (parent_size + wrap64 (size + EbmlMasterElementSize kMkvVideo size))
  | KAudio a =>
      let size := AudioPayloadSize a in
      wrap64 (parent_size + wrap64 (size + EbmlMasterElementSize kMkvAudio size))
  end.

(* Track::Size: mkvmuxer.cc:768-772 *)
Definition Track_Size (t : track) : Z :=
  let size := Track_PayloadSize t in
  wrap64 (size + EbmlMasterElementSize kMkvTrackEntry size).

(* Tracks::kAv1CodecId = "V_AV1": mkvmuxer.cc:1728 *)
Definition kAv1CodecId : list Z := [86; 95; 65; 86; 49].
Fixpoint list_eqb (a b : list Z) : bool :=
  match a, b with
  | [], [] => true
  | x :: a, y :: b => (x =? y) && list_eqb a b
  | _, _ => false
  end.
Definition is_av1 (c : option (list Z)) : bool :=
  match c with Some s => list_eqb s kAv1CodecId | None => false end.

(* Track::Write: mkvmuxer.cc:774-902 *)
Definition Track_Write_base (t : track) : W bool :=
  if (tk_type t =? 0) || negb (present (tk_codec_id t)) then ret false else
  if is_av1 (tk_codec_id t) && negb (present (tk_codec_private t)) then ret false else
  write_seq
    [WriteEbmlMasterElement kMkvTrackEntry (Track_PayloadSize t);
     position_checked (track_fields_size t) (write_seq
       [WriteEbmlElementUInt kMkvTrackNumber (tk_number t);
        WriteEbmlElementUInt kMkvTrackUID (tk_uid t);
        WriteEbmlElementUInt kMkvTrackType (tk_type t);
        opt_w (nz (tk_max_block_additional_id t))
              (WriteEbmlElementUInt kMkvMaxBlockAdditionID (tk_max_block_additional_id t));
        opt_w (nz (tk_codec_delay t)) (WriteEbmlElementUInt kMkvCodecDelay (tk_codec_delay t));
        opt_w (nz (tk_seek_pre_roll t)) (WriteEbmlElementUInt kMkvSeekPreRoll (tk_seek_pre_roll t));
        opt_w (nz (tk_default_duration t)) (WriteEbmlElementUInt kMkvDefaultDuration (tk_default_duration t));
        opt_w (present (tk_codec_id t)) (WriteEbmlElementCStr kMkvCodecID (tk_codec_id t));
        opt_w (present (tk_codec_private t)) (WriteEbmlElementPtr kMkvCodecPrivate (tk_codec_private t));
        opt_w (present (tk_language t)) (WriteEbmlElementCStr kMkvLanguage (tk_language t));
        opt_w (present (tk_name t)) (WriteEbmlElementCStr kMkvName (tk_name t))]);
     opt_w (nonempty (tk_encodings t)) (write_seq
       (WriteEbmlMasterElement kMkvContentEncodings (content_encodings_size t) ::
        map ContentEncoding_Write (tk_encodings t)));
     stop_position <- w_position;; ret (negb (stop_position <? 0))].

(* if (colour_) { if (!colour_->Write(...)) return false; }: mkvmuxer.cc:1535-1542 *)
Definition opt_write {A} (f : A -> W bool) (v : option A) : W bool :=
  match v with None => ret true | Some a => f a end.

(* The virtual Write: mkvmuxer.cc:774-902, 1464-1551 (VideoTrack), 1683-1720
   (AudioTrack) *)
Definition Track_Write (t : track) : W bool :=
  match tk_kind t with
  | KPlain => Track_Write_base t
  | KVideo v =>
      let size := VideoPayloadSize v in
      write_seq
        [Track_Write_base t;
         WriteEbmlMasterElement kMkvVideo size;
         position_checked size (write_seq
           [WriteEbmlElementUInt kMkvPixelWidth (if vi_pixel_width v >? 0 then vi_pixel_width v else vi_width v);
            WriteEbmlElementUInt kMkvPixelHeight (if vi_pixel_height v >? 0 then vi_pixel_height v else vi_height v);
            opt_w (vi_display_width v >? 0) (WriteEbmlElementUInt kMkvDisplayWidth (vi_display_width v));
            opt_w (vi_display_height v >? 0) (WriteEbmlElementUInt kMkvDisplayHeight (vi_display_height v));
            opt_w (vi_crop_left v >? 0) (WriteEbmlElementUInt kMkvPixelCropLeft (vi_crop_left v));
            opt_w (vi_crop_right v >? 0) (WriteEbmlElementUInt kMkvPixelCropRight (vi_crop_right v));
            opt_w (vi_crop_top v >? 0) (WriteEbmlElementUInt kMkvPixelCropTop (vi_crop_top v));
            opt_w (vi_crop_bottom v >? 0) (WriteEbmlElementUInt kMkvPixelCropBottom (vi_crop_bottom v));
            opt_w (vi_stereo_mode v >? 0) (WriteEbmlElementUInt kMkvStereoMode (vi_stereo_mode v));
            opt_w (vi_alpha_mode v >? 0) (WriteEbmlElementUInt kMkvAlphaMode (vi_alpha_mode v));
            opt_w (present (vi_colour_space v)) (WriteEbmlElementCStr kMkvColourSpace (vi_colour_space v));
            opt_w (f64_pos (vi_frame_rate v)) (WriteEbmlElementFloat kMkvFrameRate (f32_of_f64 (vi_frame_rate v)));
            opt_write Colour_Write (vi_colour v);
            opt_write Projection_Write (vi_projection v)])]
  | KAudio a =>
      let size := AudioPayloadSize a in
      write_seq
        [Track_Write_base t;
         WriteEbmlMasterElement kMkvAudio size;
         position_checked size (write_seq
           [WriteEbmlElementFloat kMkvSamplingFrequency (f32_of_f64 (au_sample_rate a));
            WriteEbmlElementUInt kMkvChannels (au_channels a);
            opt_w (au_bit_depth a >? 0) (WriteEbmlElementUInt kMkvBitDepth (au_bit_depth a))])]
  end.

(* Tracks::Write: mkvmuxer.cc:1846-1878 (the wrote_tracks_ flag is in MMuxTracks) *)
Definition tracks_payload_size (l : list track) : Z := size_sum (map Track_Size l).
Definition Tracks_Write (l : list track) : W bool :=
  let size := tracks_payload_size l in
  write_seq [WriteEbmlMasterElement kMkvTracks size;
             position_checked size (write_seq (map Track_Write l))].

(* ---------- Chapters: mkvmuxer.cc:1882-2215 ---------- *)

(* Chapter::Display: mkvmuxer.h:967-996 *)
Record display := mkDisplay {
  di_title : option (list Z); di_language : option (list Z); di_country : option (list Z)
}.
(* Chapter: mkvmuxer.h:928-1050 *)
Record chapter := mkChapter {
  ch_id : option (list Z); ch_start : Z; ch_end : Z; ch_uid : Z; ch_displays : list display
}.

(* mkvmuxer.cc:2065-2072 *)
Definition Display_payload (d : display) : Z :=
  size_sum [EbmlElementSizeCStr kMkvChapString (di_title d);
            opt_sz (present (di_language d)) (EbmlElementSizeCStr kMkvChapLanguage (di_language d));
            opt_sz (present (di_country d)) (EbmlElementSizeCStr kMkvChapCountry (di_country d))].
(* WriteDisplay(NULL): mkvmuxer.cc:2064-2078 *)
Definition Display_Size (d : display) : Z :=
  wrap64 (EbmlMasterElementSize kMkvChapterDisplay (Display_payload d) + Display_payload d).
(* Display::WriteDisplay: mkvmuxer.cc:2064-2105 *)
Definition WriteDisplay (d : display) : W Z :=
  position_checked_sz (Display_Size d) (write_seq
    [WriteEbmlMasterElement kMkvChapterDisplay (Display_payload d);
     WriteEbmlElementCStr kMkvChapString (di_title d);
     opt_w (present (di_language d)) (WriteEbmlElementCStr kMkvChapLanguage (di_language d));
     opt_w (present (di_country d)) (WriteEbmlElementCStr kMkvChapCountry (di_country d))]).

(* mkvmuxer.cc:1985-1995 *)
Definition Atom_payload (c : chapter) : Z :=
  size_sum (EbmlElementSizeCStr kMkvChapterStringUID (ch_id c) ::
            EbmlElementSizeUInt kMkvChapterUID (ch_uid c) ::
            EbmlElementSizeUInt kMkvChapterTimeStart (ch_start c) ::
            EbmlElementSizeUInt kMkvChapterTimeEnd (ch_end c) ::
            map Display_Size (ch_displays c)).
(* WriteAtom(NULL): mkvmuxer.cc:1984-2001 *)
Definition Atom_Size (c : chapter) : Z :=
  wrap64 (EbmlMasterElementSize kMkvChapterAtom (Atom_payload c) + Atom_payload c).
(* Chapter::WriteAtom: mkvmuxer.cc:1984-2038 *)
Definition WriteAtom (c : chapter) : W Z :=
  position_checked_sz (Atom_Size c) (write_seq
    (WriteEbmlMasterElement kMkvChapterAtom (Atom_payload c) ::
     WriteEbmlElementCStr kMkvChapterStringUID (ch_id c) ::
     WriteEbmlElementUInt kMkvChapterUID (ch_uid c) ::
     WriteEbmlElementUInt kMkvChapterTimeStart (ch_start c) ::
     WriteEbmlElementUInt kMkvChapterTimeEnd (ch_end c) ::
     map (fun d => nonzero (WriteDisplay d)) (ch_displays c))).

(* mkvmuxer.cc:2182-2187 *)
Definition Edition_payload (l : list chapter) : Z := size_sum (map Atom_Size l).
(* WriteEdition(NULL): mkvmuxer.cc:2181-2193 *)
Definition Edition_Size (l : list chapter) : Z :=
  wrap64 (EbmlMasterElementSize kMkvEditionEntry (Edition_payload l) + Edition_payload l).
(* Chapters::WriteEdition: mkvmuxer.cc:2181-2215 *)
Definition WriteEdition (l : list chapter) : W Z :=
  position_checked_sz (Edition_Size l) (write_seq
    (WriteEbmlMasterElement kMkvEditionEntry (Edition_payload l) ::
     map (fun c => nonzero (WriteAtom c)) l)).

(* Chapters::Write: mkvmuxer.cc:2135-2155.  The final check succeeds with true
   where position_checked_sz returns the (non-zero) size. *)
Definition Chapters_Write (l : list chapter) : W bool :=
  write_seq
    [WriteEbmlMasterElement kMkvChapters (Edition_Size l);
     start <- w_position;;
     check_true (nonzero (WriteEdition l)) false (
     stop <- w_position;;
     ret (negb ((stop >=? start) && negb (wrap64 (stop - start) =? Edition_Size l))))].

(* ---------- Tags: mkvmuxer.cc:2217-2447 ---------- *)

Record simple_tag := mkSTag { st_name : option (list Z); st_string : option (list Z) }.

(* mkvmuxer.cc:2338-2341 *)
Definition SimpleTag_payload (t : simple_tag) : Z :=
  size_sum [EbmlElementSizeCStr kMkvTagName (st_name t); EbmlElementSizeCStr kMkvTagString (st_string t)].
(* SimpleTag::Write(NULL): mkvmuxer.cc:2337-2348 *)
Definition SimpleTag_Size (t : simple_tag) : Z :=
  wrap64 (EbmlMasterElementSize kMkvSimpleTag (SimpleTag_payload t) + SimpleTag_payload t).
(* SimpleTag::Write: mkvmuxer.cc:2337-2366 *)
Definition SimpleTag_Write (t : simple_tag) : W Z :=
  position_checked_sz (SimpleTag_Size t) (write_seq
    [WriteEbmlMasterElement kMkvSimpleTag (SimpleTag_payload t);
     WriteEbmlElementCStr kMkvTagName (st_name t);
     WriteEbmlElementCStr kMkvTagString (st_string t)]).

(* Tag: mkvmuxer.h:1093-1161 *)
Definition tag : Type := list simple_tag.
(* mkvmuxer.cc:2284-2289 *)
Definition Tag_payload (t : tag) : Z := size_sum (map SimpleTag_Size t).
(* Tag::Write(NULL): mkvmuxer.cc:2283-2296 *)
Definition Tag_Size (t : tag) : Z :=
  wrap64 (EbmlMasterElementSize kMkvTag (Tag_payload t) + Tag_payload t).
(* Tag::Write: mkvmuxer.cc:2283-2315 *)
Definition Tag_Write (t : tag) : W Z :=
  position_checked_sz (Tag_Size t) (write_seq
    (WriteEbmlMasterElement kMkvTag (Tag_payload t) ::
     map (fun x => nonzero (SimpleTag_Write x)) t)).

(* mkvmuxer.cc:2394-2399 *)
Definition Tags_payload (l : list tag) : Z := size_sum (map Tag_Size l).
(* Tags::Write: mkvmuxer.cc:2393-2423 *)
Definition Tags_Write (l : list tag) : W bool :=
  write_seq
    [WriteEbmlMasterElement kMkvTags (Tags_payload l);
     start <- w_position;;
     check_true (write_seq (map (fun t => nonzero (Tag_Write t)) l)) false (
     stop <- w_position;;
     ret (negb ((stop >=? start) && negb (wrap64 (stop - start) =? Tags_payload l))))].

(* ---------- SegmentInfo: mkvmuxer.cc:2888-3010 ---------- *)

Record segment_info := mkSI {
  si_duration : f64; si_muxing_app : option (list Z); si_timecode_scale : Z;
  si_writing_app : option (list Z); si_date_utc : Z; si_duration_pos : Z
}.
(* the value of date_utc_ that means absent: mkvmuxer.cc:2897, 2972 *)
Definition INT64_MIN : Z := -9223372036854775808.
Definition date_set (i : segment_info) : bool := negb (si_date_utc i =? INT64_MIN).

(* mkvmuxer.cc:2969-2976 *)
Definition SegmentInfo_payload (i : segment_info) : Z :=
  size_sum
    [EbmlElementSizeUInt kMkvTimecodeScale (si_timecode_scale i);
     opt_sz (f64_pos (si_duration i)) (EbmlElementSizeFloat kMkvDuration);
     opt_sz (date_set i) (EbmlDateElementSize kMkvDateUTC);
     EbmlElementSizeCStr kMkvMuxingApp (si_muxing_app i);
     EbmlElementSizeCStr kMkvWritingApp (si_writing_app i)].

(* SegmentInfo::Write: mkvmuxer.cc:2963-3011.  The result of writing the date is
   ignored.  Also returns the new duration_pos_ (2987). *)
Definition SegmentInfo_Write (i : segment_info) : W (bool * Z) :=
  if negb (present (si_muxing_app i)) || negb (present (si_writing_app i))
  then ret (false, si_duration_pos i) else
  let size := SegmentInfo_payload i in
  check_true (WriteEbmlMasterElement kMkvInfo size) (false, si_duration_pos i) (
  payload_position <- w_position;;
  if payload_position <? 0 then ret (false, si_duration_pos i) else
  check_true (WriteEbmlElementUInt kMkvTimecodeScale (si_timecode_scale i)) (false, si_duration_pos i) (
  pos <- w_position;;
  let dpos := if f64_pos (si_duration i) then pos else si_duration_pos i in
  check_true (opt_w (f64_pos (si_duration i))
                (WriteEbmlElementFloat kMkvDuration (f32_of_f64 (si_duration i)))) (false, dpos) (
  _ <- opt_w (date_set i) (WriteEbmlDateElement kMkvDateUTC (si_date_utc i));;
  check_true (write_seq [WriteEbmlElementCStr kMkvMuxingApp (si_muxing_app i);
                         WriteEbmlElementCStr kMkvWritingApp (si_writing_app i)]) (false, dpos) (
  stop_position <- w_position;;
  ret (negb ((stop_position <? 0) || negb (stop_position - payload_position =? sint64 size)), dpos))))).

(* SegmentInfo::Finalize: mkvmuxer.cc:2937-2961 *)
Definition SegmentInfo_Finalize (i : segment_info) : W bool :=
  if negb (f64_pos (si_duration i)) then ret true else
  seekable <- w_is_seekable;;
  if negb seekable then ret true else
  if si_duration_pos i =? -1 then ret false else
  pos <- w_position;;
  check_status (w_seek (si_duration_pos i)) false (
  check_true (WriteEbmlElementFloat kMkvDuration (f32_of_f64 (si_duration i))) false (
  check_status (w_seek pos) false (ret true))).
