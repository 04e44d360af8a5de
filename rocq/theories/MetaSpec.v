(* What the muxer's metadata objects must look like on the wire (RFC 8794 and
   RFC 9559), as trees of elements, and what writing them must achieve.  The
   objects are the API-level records of MMuxMeta; nothing else of the model is
   used, except the classes' public Valid() methods. *)
From Verif Require Import Base EbmlSpec MWriter WriterSpec MFloat Ids MMuxMeta.

(* ---------- element trees ---------- *)

Inductive leaf : Type :=
| LUint (v : Z)            (* unsigned integer *)
| LFloat (u : Z)           (* binary32 bit pattern *)
| LDate (v : Z)            (* signed 8-byte date *)
| LBytes (bs : list Z).    (* string or binary *)

Inductive tree : Type :=
| Leaf (id : Z) (l : leaf)
| Master (id : Z) (kids : list tree).

Definition leaf_payload (l : leaf) (bs : list Z) : Prop :=
  match l with
  | LUint v => uint_payload v bs /\ forall q, uint_payload v q -> zlen bs <= zlen q   (* as short as possible *)
  | LFloat u => bs = be_bytes 4 u
  | LDate v => zlen bs = 8 /\ sint_payload v bs
  | LBytes b => bs = b
  end.

(* bs is an encoding of the tree: every element's declared size is the exact
   number of bytes of its content. *)
Inductive encodes : tree -> list Z -> Prop :=
| enc_leaf : forall id l p bs, leaf_payload l p -> is_element id p bs -> encodes (Leaf id l) bs
| enc_master : forall id kids body bs,
    encodes_all kids body -> is_element id body bs -> encodes (Master id kids) bs
with encodes_all : list tree -> list Z -> Prop :=
| enc_nil : encodes_all [] []
| enc_cons : forall t ts a b, encodes t a -> encodes_all ts b -> encodes_all (t :: ts) (a ++ b).

(* The values fit their C++ types; strings and buffers are below 4 GiB (the
   writer interface takes 32-bit lengths). *)
Definition leaf_ok (l : leaf) : Prop :=
  match l with
  | LUint v => is_u64 v
  | LFloat u => True   (* the pattern is u mod 2^32 *)
  | LDate v => is_s64 v
  | LBytes bs => bytes bs /\ zlen bs < 2 ^ 32
  end.
Fixpoint values_ok (t : tree) : Prop :=
  match t with
  | Leaf id l => valid_id id /\ leaf_ok l
  | Master id kids => valid_id id /\ fold_right (fun k acc => values_ok k /\ acc) True kids
  end.

(* an upper bound of the encoded size *)
Definition leaf_weight (l : leaf) : Z := match l with LBytes bs => zlen bs | _ => 8 end.
Fixpoint weight (t : tree) : Z :=
  match t with
  | Leaf _ l => 16 + leaf_weight l
  | Master _ kids => 16 + fold_right (fun k acc => weight k + acc) 0 kids
  end.
Definition weight_all (ts : list tree) : Z := fold_right (fun k acc => weight k + acc) 0 ts.

(* a collection of elements the format can represent: total size below 2^56-1 *)
Definition representable (ts : list tree) : Prop :=
  Forall values_ok ts /\ weight_all ts <= 2 ^ 56 - 2.

(* m writes the given elements: it always returns; if it reports success, the
   object was valid, exactly the encoding of the elements was stored at the
   current position and its length is the announced size; and it does report
   success when the object is valid and the writer does not fail. *)
Definition writes_exactly (valid : bool) (size : Z) (m : W bool) (ts : list tree) : Prop :=
  forall s, good s -> exists r s', m s = Val (r, s') /\
    (r = true -> valid = true /\
                 exists bs, encodes_all ts bs /\ zlen bs = size /\ advanced s bs s') /\
    (valid = true -> no_fail s -> r = true).

(* ---------- the objects as trees ---------- *)

Definition opt (b : bool) (t : tree) : list tree := if b then [t] else [].
Definition uint (id v : Z) : tree := Leaf id (LUint v).
Definition str (id : Z) (s : option (list Z)) : list tree :=
  match s with None => [] | Some b => [Leaf id (LBytes b)] end.

Definition ebml_header_tree (version : Z) (doc_type : list Z) : tree :=
  Master kMkvEBML
    [uint kMkvEBMLVersion 1; uint kMkvEBMLReadVersion 1; uint kMkvEBMLMaxIDLength 4;
     uint kMkvEBMLMaxSizeLength 8; Leaf kMkvDocType (LBytes doc_type);
     uint kMkvDocTypeVersion version; uint kMkvDocTypeReadVersion 2].

Definition cue_tree (c : cue_point) : tree :=
  Master kMkvCuePoint
    [uint kMkvCueTime (cue_time c);
     Master kMkvCueTrackPositions
       (uint kMkvCueTrack (cue_track c) ::
        uint kMkvCueClusterPosition (cue_cluster_pos c) ::
        opt (cue_output_block_number c && (1 <? cue_block_number c))
            (uint kMkvCueBlockNumber (cue_block_number c)))].
Definition cue_valid (c : cue_point) : bool := (1 <=? cue_track c) && (1 <=? cue_cluster_pos c).
Definition cues_tree (l : list cue_point) : tree := Master kMkvCues (map cue_tree l).

Definition encoding_tree (c : content_encoding) : tree :=
  Master kMkvContentEncoding
    [uint kMkvContentEncodingOrder (ce_order c);
     uint kMkvContentEncodingScope (ce_scope c);
     uint kMkvContentEncodingType (ce_type c);
     Master kMkvContentEncryption
       (uint kMkvContentEncAlgo (ce_enc_algo c) ::
        str kMkvContentEncKeyID (ce_key_id c) ++
        [Master kMkvContentEncAESSettings [uint kMkvAESSettingsCipherMode (ce_cipher_mode c)]])].
Definition nonempty_buf (b : option (list Z)) : bool :=
  match b with Some (_ :: _) => true | _ => false end.
Definition encoding_valid (c : content_encoding) : bool := nonempty_buf (ce_key_id c).

Definition chroma_trees (c : option chroma) (x_id y_id : Z) : list tree :=
  match c with None => [] | Some (x, y) => [Leaf x_id (LFloat x); Leaf y_id (LFloat y)] end.

Definition mastering_kids (m : mastering) : list tree :=
  opt (lum_present (mm_luminance_max m)) (Leaf kMkvLuminanceMax (LFloat (mm_luminance_max m))) ++
  opt (lum_present (mm_luminance_min m)) (Leaf kMkvLuminanceMin (LFloat (mm_luminance_min m))) ++
  chroma_trees (mm_r m) kMkvPrimaryRChromaticityX kMkvPrimaryRChromaticityY ++
  chroma_trees (mm_g m) kMkvPrimaryGChromaticityX kMkvPrimaryGChromaticityY ++
  chroma_trees (mm_b m) kMkvPrimaryBChromaticityX kMkvPrimaryBChromaticityY ++
  chroma_trees (mm_white m) kMkvWhitePointChromaticityX kMkvWhitePointChromaticityY.

(* an element that is omitted when it would be empty *)
Definition nonempty_master (id : Z) (kids : list tree) : list tree :=
  match kids with [] => [] | _ => [Master id kids] end.

Definition colour_field (id v : Z) : list tree := opt (negb (v =? 2 ^ 64 - 1)) (uint id v).
Definition colour_kids (c : colour) : list tree :=
  colour_field kMkvMatrixCoefficients (co_matrix_coefficients c) ++
  colour_field kMkvBitsPerChannel (co_bits_per_channel c) ++
  colour_field kMkvChromaSubsamplingHorz (co_chroma_subsampling_horz c) ++
  colour_field kMkvChromaSubsamplingVert (co_chroma_subsampling_vert c) ++
  colour_field kMkvCbSubsamplingHorz (co_cb_subsampling_horz c) ++
  colour_field kMkvCbSubsamplingVert (co_cb_subsampling_vert c) ++
  colour_field kMkvChromaSitingHorz (co_chroma_siting_horz c) ++
  colour_field kMkvChromaSitingVert (co_chroma_siting_vert c) ++
  colour_field kMkvRange (co_range c) ++
  colour_field kMkvTransferCharacteristics (co_transfer_characteristics c) ++
  colour_field kMkvPrimaries (co_primaries c) ++
  colour_field kMkvMaxCLL (co_max_cll c) ++
  colour_field kMkvMaxFALL (co_max_fall c) ++
  match co_mastering c with
  | None => []
  | Some m => nonempty_master kMkvMasteringMetadata (mastering_kids m)
  end.
Definition colour_trees (c : colour) : list tree := nonempty_master kMkvColour (colour_kids c).

Definition projection_tree (p : projection) : tree :=
  Master kMkvProjection
    (uint kMkvProjectionType (pj_type p mod 2 ^ 64) ::
     opt (0 <? zlen (pj_private p)) (Leaf kMkvProjectionPrivate (LBytes (pj_private p))) ++
     [Leaf kMkvProjectionPoseYaw (LFloat (pj_yaw p));
      Leaf kMkvProjectionPosePitch (LFloat (pj_pitch p));
      Leaf kMkvProjectionPoseRoll (LFloat (pj_roll p))]).

Definition video_tree (v : video) : tree :=
  let pos id x := opt (0 <? x) (uint id x) in
  Master kMkvVideo
    (uint kMkvPixelWidth (if 0 <? vi_pixel_width v then vi_pixel_width v else vi_width v) ::
     uint kMkvPixelHeight (if 0 <? vi_pixel_height v then vi_pixel_height v else vi_height v) ::
     pos kMkvDisplayWidth (vi_display_width v) ++
     pos kMkvDisplayHeight (vi_display_height v) ++
     pos kMkvPixelCropLeft (vi_crop_left v) ++
     pos kMkvPixelCropRight (vi_crop_right v) ++
     pos kMkvPixelCropTop (vi_crop_top v) ++
     pos kMkvPixelCropBottom (vi_crop_bottom v) ++
     pos kMkvStereoMode (vi_stereo_mode v) ++
     pos kMkvAlphaMode (vi_alpha_mode v) ++
     str kMkvColourSpace (vi_colour_space v) ++
     opt (f64_pos (vi_frame_rate v)) (Leaf kMkvFrameRate (LFloat (f32_of_f64 (vi_frame_rate v)))) ++
     match vi_colour v with None => [] | Some c => colour_trees c end ++
     match vi_projection v with None => [] | Some p => [projection_tree p] end).

Definition audio_tree (a : audio) : tree :=
  Master kMkvAudio
    (Leaf kMkvSamplingFrequency (LFloat (f32_of_f64 (au_sample_rate a))) ::
     uint kMkvChannels (au_channels a) ::
     opt (0 <? au_bit_depth a) (uint kMkvBitDepth (au_bit_depth a))).

Definition track_tree (t : track) : tree :=
  let nonzero id x := opt (negb (x =? 0)) (uint id x) in
  Master kMkvTrackEntry
    (uint kMkvTrackNumber (tk_number t) ::
     uint kMkvTrackUID (tk_uid t) ::
     uint kMkvTrackType (tk_type t) ::
     nonzero kMkvMaxBlockAdditionID (tk_max_block_additional_id t) ++
     nonzero kMkvCodecDelay (tk_codec_delay t) ++
     nonzero kMkvSeekPreRoll (tk_seek_pre_roll t) ++
     nonzero kMkvDefaultDuration (tk_default_duration t) ++
     str kMkvCodecID (tk_codec_id t) ++
     str kMkvCodecPrivate (tk_codec_private t) ++
     str kMkvLanguage (tk_language t) ++
     str kMkvName (tk_name t) ++
     nonempty_master kMkvContentEncodings (map encoding_tree (tk_encodings t)) ++
     match tk_kind t with
     | KPlain => []
     | KVideo v => [video_tree v]
     | KAudio a => [audio_tree a]
     end).

Definition track_valid (t : track) : bool :=
  negb (tk_type t =? 0) &&
  match tk_codec_id t with
  | None => false
  | Some c => if list_eq_dec Z.eq_dec c [86; 95; 65; 86; 49] (* "V_AV1" *)
              then match tk_codec_private t with None => false | Some _ => true end else true
  end &&
  match tk_codec_private t with Some [] => false | _ => true end &&
  forallb encoding_valid (tk_encodings t) &&
  match tk_kind t with
  | KVideo v => match vi_colour v with None => true | Some c => Colour_Valid c end
  | _ => true
  end.

Definition tracks_tree (l : list track) : tree := Master kMkvTracks (map track_tree l).

Definition display_tree (d : display) : tree :=
  Master kMkvChapterDisplay
    (str kMkvChapString (di_title d) ++ str kMkvChapLanguage (di_language d) ++
     str kMkvChapCountry (di_country d)).
Definition chapter_tree (c : chapter) : tree :=
  Master kMkvChapterAtom
    (str kMkvChapterStringUID (ch_id c) ++
     uint kMkvChapterUID (ch_uid c) :: uint kMkvChapterTimeStart (ch_start c) ::
     uint kMkvChapterTimeEnd (ch_end c) :: map display_tree (ch_displays c)).
Definition chapters_tree (l : list chapter) : tree :=
  Master kMkvChapters [Master kMkvEditionEntry (map chapter_tree l)].
(* every chapter has a string id, every display a title *)
Definition chapter_valid (c : chapter) : bool :=
  present (ch_id c) && forallb (fun d => present (di_title d)) (ch_displays c).

Definition simple_tag_tree (t : simple_tag) : tree :=
  Master kMkvSimpleTag (str kMkvTagName (st_name t) ++ str kMkvTagString (st_string t)).
Definition tag_tree (t : tag) : tree := Master kMkvTag (map simple_tag_tree t).
Definition tags_tree (l : list tag) : tree := Master kMkvTags (map tag_tree l).
Definition tag_valid (t : tag) : bool :=
  forallb (fun x => present (st_name x) && present (st_string x)) t.

Definition info_tree (i : segment_info) : tree :=
  Master kMkvInfo
    (uint kMkvTimecodeScale (si_timecode_scale i) ::
     opt (f64_pos (si_duration i)) (Leaf kMkvDuration (LFloat (f32_of_f64 (si_duration i)))) ++
     opt (negb (si_date_utc i =? - 2 ^ 63)) (Leaf kMkvDateUTC (LDate (si_date_utc i))) ++
     str kMkvMuxingApp (si_muxing_app i) ++ str kMkvWritingApp (si_writing_app i)).
Definition info_valid (i : segment_info) : bool :=
  present (si_muxing_app i) && present (si_writing_app i).

(* the same for the objects that have no public size function: the size is then
   only that of the encoding *)
Definition writes_tree (valid : bool) (m : W bool) (ts : list tree) : Prop :=
  exists size, writes_exactly valid size m ts.
