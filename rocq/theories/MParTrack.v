(* Model of mkvparser's track parsers: Tracks, Track::Info, VideoTrack, AudioTrack,
   Colour, MasteringMetadata, Projection and ContentEncoding
   (mkvparser/mkvparser.cc).  Failing memory allocation is not modelled, except for
   the limit of SafeArrayAlloc.  A float is given by its IEEE-754 bit pattern. *)
From Coq Require Import Floats.SpecFloat.
From Verif Require Import Base MFloat Ids MMuxMeta MParUtil MParMeta.

(* SafeArrayAlloc<unsigned char>(1, n) returns NULL: mkvparser.cc:39-53 *)
Definition alloc_fails (n : Z) : bool := (n =? 0) || (n >? 0x80000000).

(* ---------- content encodings ---------- *)

(* ContentCompression: mkvparser.h:196-203; constructor mkvparser.cc:4082-4083 *)
Record p_compression := mkPComp { cp_algo : Z; cp_settings : option (list Z) }.
Definition cp_init : p_compression := mkPComp 0 None.

(* ContentEncryption with its ContentEncAESSettings: mkvparser.h:206-229;
   constructors mkvparser.h:207 and mkvparser.cc:4089-4098 *)
Record p_encryption := mkPEnc {
  en_algo : Z; en_key_id : option (list Z); en_signature : option (list Z); en_sig_key_id : option (list Z);
  en_sig_algo : Z; en_sig_hash_algo : Z; en_cipher_mode : Z
}.
Definition en_init : p_encryption := mkPEnc 0 None None None 0 0 1.

(* ContentEncoding: mkvparser.h:188-297; constructor mkvparser.cc:4106-4113 *)
Record p_encoding := mkPEd {
  ed_compressions : list p_compression; ed_encryptions : list p_encryption;
  ed_order : Z; ed_scope : Z; ed_type : Z
}.
Definition ed_init : p_encoding := mkPEd [] [] 0 1 0.

(* x = UnserializeUInt(...) into an unsigned long long, unchecked, e.g.
   mkvparser.cc:4266, 4458 *)
Definition unsigned_field {S : Type} (r : reader) (pos size : Z) (bad : Z -> bool) (err : Z) (set : Z -> S) : outcome (step S) :=
  match UnserializeUInt r pos size with
  | UB => UB
  | Val v => if bad (wrap64 v) then Val (Ret err (set (wrap64 v))) else Val (Next (set (wrap64 v)))
  end.
(* any number will do, e.g. mkvparser.cc:5921 *)
Definition any (v : Z) : bool := false.

(* mkvparser.cc:4188-4192 *)
Definition aes_element (r : reader) (id pos size : Z) (mode : Z) : outcome (step Z) :=
  if id =? kMkvAESSettingsCipherMode then unsigned_field r pos size (fun x => negb (x =? 1)) E_FILE_FORMAT_INVALID (fun x => x)
  else Val (Next mode).
(* ContentEncoding::ParseContentEncAESSettingsEntry: mkvparser.cc:4173-4200 *)
Definition AESSettings_Parse (r : reader) (start size : Z) (mode : Z) : outcome (Z * Z) :=
  walk_payload r ZPass (aes_element r) start size mode.

(* reading a binary element of a content encoding, e.g. mkvparser.cc:4391-4413.
   When the read fails the function returns the status of the element header,
   which is 0.  The replaced buffer is deleted first (cleared). *)
Definition binary_field {S : Type} (r : reader) (pos size : Z) (cleared : S) (set : list Z -> S) : outcome (step S) :=
  if size <=? 0 then Val (Ret E_FILE_FORMAT_INVALID cleared)
  else if alloc_fails size then Val (Ret (-1) cleared)
  else
    match r_read r pos size with
    | inl _ => Val (Ret 0 cleared)
    | inr buf => Val (Next (set buf))
    end.

(* mkvparser.cc:4328-4358; the flag is the local variable valid.  Reading the
   settings comes before the check for a second settings element. *)
Definition compression_element (r : reader) (id pos size : Z) (s : p_compression * bool) : outcome (step (p_compression * bool)) :=
  let '(mkPComp algo settings, valid) := s in
  if id =? kMkvContentCompAlgo then
    match UnserializeUInt r pos size with
    | UB => UB
    | Val v => if v <? 0 then Val (Ret E_FILE_FORMAT_INVALID s) else Val (Next (mkPComp v settings, true))
    end
  else if id =? kMkvContentCompSettings then
    match binary_field r pos size s (fun b => (mkPComp algo (Some b), valid)) with
    | Val (Next s') => match settings with None => Val (Next s') | Some _ => Val (Ret E_FILE_FORMAT_INVALID s) end
    | x => x
    end
  else Val (Next s).
(* ContentEncoding::ParseCompressionEntry: mkvparser.cc:4311-4370 *)
Definition Compression_Parse (r : reader) (start size : Z) : outcome (Z * p_compression) :=
  (* a return inside the loop does not come to the check of valid *)
  match walk_payload r ZPass (fun id pos size s =>
          match compression_element r id pos size s with
          | Val (Ret st s') => Val (Ret st (fst s', true))
          | x => x
          end) start size (cp_init, false) with
  | UB => UB
  | Val (status, (c, valid)) =>
      if negb (status =? 0) then Val (status, c)
      else if negb valid then Val (E_FILE_FORMAT_INVALID, c) else Val (0, c)
  end.

(* mkvparser.cc:4387-4466 *)
Definition encryption_element (r : reader) (id pos size : Z) (e : p_encryption) : outcome (step p_encryption) :=
  let '(mkPEnc al k sg sk sa sh cm) := e in
  if id =? kMkvContentEncAlgo then unsigned_field r pos size (fun x => negb (x =? 5)) E_FILE_FORMAT_INVALID (fun x => mkPEnc x k sg sk sa sh cm)
  else if id =? kMkvContentEncKeyID then
    binary_field r pos size (mkPEnc al None sg sk sa sh cm) (fun b => mkPEnc al (Some b) sg sk sa sh cm)
  else if id =? kMkvContentSignature then
    binary_field r pos size (mkPEnc al k None sk sa sh cm) (fun b => mkPEnc al k (Some b) sk sa sh cm)
  else if id =? kMkvContentSigKeyID then
    binary_field r pos size (mkPEnc al k sg None sa sh cm) (fun b => mkPEnc al k sg (Some b) sa sh cm)
  else if id =? kMkvContentSigAlgo then unsigned_field r pos size any 0 (fun x => mkPEnc al k sg sk x sh cm)
  else if id =? kMkvContentSigHashAlgo then unsigned_field r pos size any 0 (fun x => mkPEnc al k sg sk sa x cm)
  else if id =? kMkvContentEncAESSettings then
    match AESSettings_Parse r pos size cm with
    | UB => UB
    | Val (status, m) => on_status status (mkPEnc al k sg sk sa sh m)
    end
  else Val (Next e).
(* ContentEncoding::ParseEncryptionEntry: mkvparser.cc:4372-4474 *)
Definition Encryption_Parse (r : reader) (start size : Z) : outcome (Z * p_encryption) :=
  walk_payload r ZPass (encryption_element r) start size en_init.

(* counting the elements of one kind: mkvparser.cc:4219-4229, 4946-4950, 5692-5696 *)
Definition count_element (id0 : Z) (id pos size : Z) (n : Z) : outcome (step Z) :=
  if id =? id0 then (if n + 1 >? 2147483647 then Val (Ret E_PARSE_FAILED (n + 1)) else Val (Next (n + 1))) else Val (Next n).
(* mkvparser.cc:4219-4229 *)
Definition count_two (id pos size : Z) (n : Z * Z) : outcome (step (Z * Z)) :=
  let '(c, e) := n in
  if id =? kMkvContentCompression then (if c + 1 >? 2147483647 then Val (Ret E_PARSE_FAILED (c + 1, e)) else Val (Next (c + 1, e)))
  else if id =? kMkvContentEncryption then (if e + 1 >? 2147483647 then Val (Ret E_PARSE_FAILED (c, e + 1)) else Val (Next (c, e + 1)))
  else Val (Next n).

(* mkvparser.cc:4265-4299 (second loop) *)
Definition encoding_element (r : reader) (id pos size : Z) (e : p_encoding) : outcome (step p_encoding) :=
  let '(mkPEd cs es od sc ty) := e in
  if id =? kMkvContentEncodingOrder then unsigned_field r pos size any 0 (fun x => mkPEd cs es x sc ty)
  else if id =? kMkvContentEncodingScope then unsigned_field r pos size (fun x => x <? 1) (-1) (fun x => mkPEd cs es od x ty)
  else if id =? kMkvContentEncodingType then unsigned_field r pos size any 0 (fun x => mkPEd cs es od sc x)
  else if id =? kMkvContentCompression then
    match Compression_Parse r pos size with
    | UB => UB
    | Val (status, c) => if status =? 0 then Val (Next (mkPEd (cs ++ [c]) es od sc ty)) else Val (Ret status e)
    end
  else if id =? kMkvContentEncryption then
    match Encryption_Parse r pos size with
    | UB => UB
    | Val (status, c) => if status =? 0 then Val (Next (mkPEd cs (es ++ [c]) od sc ty)) else Val (Ret status e)
    end
  else Val (Next e).
(* ContentEncoding::ParseContentEncodingEntry: mkvparser.cc:4202-4309 *)
Definition Encoding_Parse (r : reader) (start size : Z) : outcome (Z * p_encoding) :=
  match walk_payload r ZPass count_two start size (0, 0) with
  | UB => UB
  | Val (status, (c, e)) =>
      if negb (status =? 0) then Val (status, ed_init)
      else if (c <=? 0) && (e <=? 0) then Val (-1, ed_init)
      else walk_payload r ZPass (encoding_element r) start size ed_init
  end.

(* mkvparser.cc:4978-4991 *)
Definition encodings_element (r : reader) (id pos size : Z) (l : list p_encoding) : outcome (step (list p_encoding)) :=
  if id =? kMkvContentEncoding then
    match Encoding_Parse r pos size with
    | UB => UB
    | Val (status, e) => if status =? 0 then Val (Next (l ++ [e])) else Val (Ret status l)
    end
  else Val (Next l).
(* Track::ParseContentEncodingsEntry: mkvparser.cc:4933-5002 *)
Definition Encodings_Parse (r : reader) (start size : Z) : outcome (Z * list p_encoding) :=
  match walk_payload r ZPass (count_element kMkvContentEncoding) start size 0 with
  | UB => UB
  | Val (status, n) =>
      if negb (status =? 0) then Val (status, [])
      else if n <=? 0 then Val (-1, [])
      else walk_payload r ZPass (encodings_element r) start size []
  end.

(* ---------- colour, projection ---------- *)

(* comparisons of doubles: mkvparser.cc:5031-5032, 5066-5085 *)
Definition f64_lt (a b : f64) : bool := SFltb a b.
(* FLT_MIN, FLT_MAX and the literals 9999.99, 999.9999 and 1.0 as doubles:
   mkvparser.cc:5031-5032, 5066-5072, 5079-5085 *)
Definition FLT_MIN : f64 := f64_of_bits32 0x00800000.
Definition FLT_MAX : f64 := f64_of_bits32 0x7F7FFFFF.
Definition d_9999_99 : f64 := f64_of_bits64 0x40C387FEB851EB85.
Definition d_999_9999 : f64 := f64_of_bits64 0x408F3FFFCB923A2A.
Definition d_one : f64 := f64_of_Z 1.
Definition d_zero : f64 := S754_zero false.

(* value < -FLT_MAX || value > FLT_MAX || (value > 0.0 && value < FLT_MIN):
   mkvparser.cc:5066-5067, 5079-5080, 5279-5280 *)
Definition not_a_float (v : f64) : bool :=
  f64_lt v (SFopp FLT_MAX) || f64_lt FLT_MAX v || (f64_lt d_zero v && f64_lt v FLT_MIN).

(* PrimaryChromaticity::Parse: mkvparser.cc:5010-5038.  None: false. *)
Definition Chromaticity_Parse (r : reader) (pos size : Z) (is_x : bool) (c : option chroma) : outcome (option chroma) :=
  match ParseFloat r pos size d_zero with
  | UB => UB
  | Val (status, v) =>
      if (status <? 0) || f64_lt v d_zero || f64_lt d_one v || (f64_lt d_zero v && f64_lt v FLT_MIN) then Val None
      else
        let '(x, y) := match c with None => (0, 0) | Some c => c end in
        Val (Some (if is_x then (f32_of_f64 v, y) else (x, f32_of_f64 v)))
  end.

(* MasteringMetadata: mkvparser.h:402-429 *)
Record p_mastering := mkPM {
  pm_max : Z; pm_min : Z;
  pm_r : option chroma; pm_g : option chroma; pm_b : option chroma; pm_white : option chroma
}.
(* kValueNotPresent = FLT_MAX: mkvparser.cc:27; constructor mkvparser.h:405-411 *)
Definition pm_init : p_mastering := mkPM 0x7F7FFFFF 0x7F7FFFFF None None None None.

(* mkvparser.cc:5063-5075: one luminance, at most lim *)
Definition Luminance_Parse (r : reader) (pos size : Z) (lim : f64) : outcome (option Z) :=
  match ParseFloat r pos size d_zero with
  | UB => UB
  | Val (status, v) =>
      if not_a_float v then Val None
      else
        let l := f32_of_f64 v in
        if (status <? 0) || f64_lt (f64_of_bits32 l) d_zero || f64_lt lim (f64_of_bits32 l) then Val None
        else Val (Some l)
  end.
(* false, or go on with the object updated: mkvparser.cc:5066-5120 *)
Definition on_some {S A : Type} (x : outcome (option A)) (s : S) (set : A -> S) : outcome (step S) :=
  match x with
  | UB => UB
  | Val None => Val (Ret (-1) s)
  | Val (Some a) => Val (Next (set a))
  end.
(* mkvparser.cc:5062-5119; leaving with Ret stands for returning false *)
Definition mastering_element (r : reader) (id pos size : Z) (m : p_mastering) : outcome (step p_mastering) :=
  let '(mkPM mx mn cr cg cb cw) := m in
  if id =? kMkvLuminanceMax then on_some (Luminance_Parse r pos size d_9999_99) m (fun l => mkPM l mn cr cg cb cw)
  else if id =? kMkvLuminanceMin then on_some (Luminance_Parse r pos size d_999_9999) m (fun l => mkPM mx l cr cg cb cw)
  else if (id =? kMkvPrimaryRChromaticityX) || (id =? kMkvPrimaryRChromaticityY) then
    on_some (Chromaticity_Parse r pos size (id =? kMkvPrimaryRChromaticityX) cr) m (fun c => mkPM mx mn (Some c) cg cb cw)
  else if (id =? kMkvPrimaryGChromaticityX) || (id =? kMkvPrimaryGChromaticityY) then
    on_some (Chromaticity_Parse r pos size (id =? kMkvPrimaryGChromaticityX) cg) m (fun c => mkPM mx mn cr (Some c) cb cw)
  else if (id =? kMkvPrimaryBChromaticityX) || (id =? kMkvPrimaryBChromaticityY) then
    on_some (Chromaticity_Parse r pos size (id =? kMkvPrimaryBChromaticityX) cb) m (fun c => mkPM mx mn cr cg (Some c) cw)
  else if (id =? kMkvWhitePointChromaticityX) || (id =? kMkvWhitePointChromaticityY) then
    on_some (Chromaticity_Parse r pos size (id =? kMkvWhitePointChromaticityX) cw) m (fun c => mkPM mx mn cr cg cb (Some c))
  else Val (Ret (-1) m).
(* a parser returning a truth value: any status but 0 is false: mkvparser.cc:5040-5128,
   5130-5226, 5228-5309 *)
Definition as_bool {S : Type} (x : outcome (Z * S)) : outcome (bool * S) :=
  match x with UB => UB | Val (status, s) => Val (status =? 0, s) end.
(* MasteringMetadata::Parse: mkvparser.cc:5040-5128 *)
Definition MasteringMetadata_Parse (r : reader) (start size : Z) : outcome (bool * p_mastering) :=
  as_bool (walk_payload r ZPass (mastering_element r) start size pm_init).

(* Colour: mkvparser.h:431-474 *)
Record p_colour := mkPC {
  pc_matrix_coefficients : Z; pc_bits_per_channel : Z; pc_chroma_subsampling_horz : Z; pc_chroma_subsampling_vert : Z; pc_cb_subsampling_horz : Z; pc_cb_subsampling_vert : Z; pc_chroma_siting_horz : Z; pc_chroma_siting_vert : Z; pc_range : Z; pc_transfer_characteristics : Z; pc_primaries : Z; pc_max_cll : Z; pc_max_fall : Z;
  pc_mastering : option p_mastering }.
(* Colour::kValueNotPresent: mkvparser.cc:28; the constructor: mkvparser.h:436-450 *)
Definition pc_init : p_colour := mkPC LLONG_MAX LLONG_MAX LLONG_MAX LLONG_MAX LLONG_MAX LLONG_MAX LLONG_MAX LLONG_MAX LLONG_MAX LLONG_MAX LLONG_MAX LLONG_MAX LLONG_MAX None.
(* mkvparser.cc:5151-5218; leaving with Ret stands for returning false *)
Definition colour_element (r : reader) (id pos size : Z) (c : p_colour) : outcome (step p_colour) :=
  let '(mkPC mc bpc csh csv cbh cbv sih siv rg tc pr cll fall mm) := c in
  let bad x := x <? 0 in
  if id =? kMkvMatrixCoefficients then uint_field r pos size bad (fun x => mkPC x bpc csh csv cbh cbv sih siv rg tc pr cll fall mm)
  else if id =? kMkvBitsPerChannel then uint_field r pos size bad (fun x => mkPC mc x csh csv cbh cbv sih siv rg tc pr cll fall mm)
  else if id =? kMkvChromaSubsamplingHorz then uint_field r pos size bad (fun x => mkPC mc bpc x csv cbh cbv sih siv rg tc pr cll fall mm)
  else if id =? kMkvChromaSubsamplingVert then uint_field r pos size bad (fun x => mkPC mc bpc csh x cbh cbv sih siv rg tc pr cll fall mm)
  else if id =? kMkvCbSubsamplingHorz then uint_field r pos size bad (fun x => mkPC mc bpc csh csv x cbv sih siv rg tc pr cll fall mm)
  else if id =? kMkvCbSubsamplingVert then uint_field r pos size bad (fun x => mkPC mc bpc csh csv cbh x sih siv rg tc pr cll fall mm)
  else if id =? kMkvChromaSitingHorz then uint_field r pos size bad (fun x => mkPC mc bpc csh csv cbh cbv x siv rg tc pr cll fall mm)
  else if id =? kMkvChromaSitingVert then uint_field r pos size bad (fun x => mkPC mc bpc csh csv cbh cbv sih x rg tc pr cll fall mm)
  else if id =? kMkvRange then uint_field r pos size bad (fun x => mkPC mc bpc csh csv cbh cbv sih siv x tc pr cll fall mm)
  else if id =? kMkvTransferCharacteristics then uint_field r pos size bad (fun x => mkPC mc bpc csh csv cbh cbv sih siv rg x pr cll fall mm)
  else if id =? kMkvPrimaries then uint_field r pos size bad (fun x => mkPC mc bpc csh csv cbh cbv sih siv rg tc x cll fall mm)
  else if id =? kMkvMaxCLL then uint_field r pos size bad (fun x => mkPC mc bpc csh csv cbh cbv sih siv rg tc pr x fall mm)
  else if id =? kMkvMaxFALL then uint_field r pos size bad (fun x => mkPC mc bpc csh csv cbh cbv sih siv rg tc pr cll x mm)
  else if id =? kMkvMasteringMetadata then
    match mm with
    | Some _ => Val (Ret (-1) c)
    | None =>
        match MasteringMetadata_Parse r pos size with
        | UB => UB
        | Val (ok, m) => if ok then Val (Next (mkPC mc bpc csh csv cbh cbv sih siv rg tc pr cll fall (Some m))) else Val (Ret (-1) c)
        end
    end
  else Val (Ret (-1) c).
(* Colour::Parse: mkvparser.cc:5130-5226 *)
Definition Colour_Parse (r : reader) (start size : Z) : outcome (bool * p_colour) :=
  as_bool (walk_payload r ZPass (colour_element r) start size pc_init).

(* Projection: mkvparser.h:476-502 *)
Record p_projection := mkPP {
  pp_type : Z; pp_private : option (list Z); pp_yaw : Z; pp_pitch : Z; pp_roll : Z
}.
(* mkvparser.h:485-491, kValueNotPresent: mkvparser.cc:29 *)
Definition pp_init : p_projection := mkPP (-1) None 0x7F7FFFFF 0x7F7FFFFF 0x7F7FFFFF.
(* a float of the projection, mkvparser.cc:5275-5282 *)
Definition Pose_Parse (r : reader) (pos size : Z) : outcome (option Z) :=
  match ParseFloat r pos size d_zero with
  | UB => UB
  | Val (status, v) => if (status <? 0) || not_a_float v then Val None else Val (Some (f32_of_f64 v))
  end.
(* mkvparser.cc:5249-5297.  The enumeration has the underlying type int. *)
Definition projection_element (r : reader) (id pos size : Z) (p : p_projection) : outcome (step p_projection) :=
  let '(mkPP ty pv ya pi ro) := p in
  if id =? kMkvProjectionType then
    match UnserializeUInt r pos size with
    | UB => UB
    | Val v => if v <? 0 then Val (Ret (-1) p) else Val (Next (mkPP (wraps 32 v) pv ya pi ro))
    end
  else if id =? kMkvProjectionPrivate then
    match pv with
    | Some _ => Val (Ret (-1) p)
    | None =>
        if alloc_fails size then Val (Ret (-1) p)
        else
          match r_read r pos size with
          | inl _ => Val (Ret (-1) p)
          | inr buf => Val (Next (mkPP ty (Some buf) ya pi ro))
          end
    end
  else
    match Pose_Parse r pos size with
    | UB => UB
    | Val None => Val (Ret (-1) p)
    | Val (Some v) =>
        if id =? kMkvProjectionPoseYaw then Val (Next (mkPP ty pv v pi ro))
        else if id =? kMkvProjectionPosePitch then Val (Next (mkPP ty pv ya v ro))
        else if id =? kMkvProjectionPoseRoll then Val (Next (mkPP ty pv ya pi v))
        else Val (Ret (-1) p)
    end.
(* Projection::Parse: mkvparser.cc:5228-5306 *)
Definition Projection_Parse (r : reader) (start size : Z) : outcome (bool * p_projection) :=
  as_bool (walk_payload r ZPass (projection_element r) start size pp_init).

(* ---------- video and audio settings ---------- *)

(* VideoTrack: mkvparser.h:504-544 *)
Record p_video := mkPV {
  pv_width : Z; pv_height : Z; pv_display_width : Z; pv_display_height : Z; pv_display_unit : Z; pv_stereo_mode : Z;
  pv_rate : f64; pv_colour_space : option (list Z); pv_colour : option p_colour; pv_projection : option p_projection
}.
(* mkvparser.cc:5330-5338 *)
Definition pv_init : p_video := mkPV 0 0 0 0 0 0 d_zero None None None.
(* status = UnserializeFloat(..., rate); if (status < 0) return status;
   if (rate <= 0) return E_FILE_FORMAT_INVALID: mkvparser.cc:5393-5399, 5610-5616 *)
Definition rate_field {S : Type} (r : reader) (pos size : Z) (old : f64) (set : f64 -> S) : outcome (step S) :=
  match ParseFloat r pos size old with
  | UB => UB
  | Val (status, v) =>
      if status <? 0 then Val (Ret status (set v))
      else if SFleb v d_zero then Val (Ret E_FILE_FORMAT_INVALID (set v)) else Val (Next (set v))
  end.
(* mkvparser.cc:5362-5420 *)
Definition video_element (r : reader) (id pos size : Z) (v : p_video) : outcome (step p_video) :=
  let '(mkPV w h dw dh du sm ra cs co pj) := v in
  if id =? kMkvPixelWidth then uint_field r pos size (fun x => x <=? 0) (fun x => mkPV x h dw dh du sm ra cs co pj)
  else if id =? kMkvPixelHeight then uint_field r pos size (fun x => x <=? 0) (fun x => mkPV w x dw dh du sm ra cs co pj)
  else if id =? kMkvDisplayWidth then uint_field r pos size (fun x => x <=? 0) (fun x => mkPV w h x dh du sm ra cs co pj)
  else if id =? kMkvDisplayHeight then uint_field r pos size (fun x => x <=? 0) (fun x => mkPV w h dw x du sm ra cs co pj)
  else if id =? kMkvDisplayUnit then uint_field r pos size (fun x => x <? 0) (fun x => mkPV w h dw dh x sm ra cs co pj)
  else if id =? kMkvStereoMode then uint_field r pos size (fun x => x <? 0) (fun x => mkPV w h dw dh du x ra cs co pj)
  else if id =? kMkvFrameRate then rate_field r pos size ra (fun x => mkPV w h dw dh du sm x cs co pj)
  else if id =? kMkvColour then
    match Colour_Parse r pos size with
    | UB => UB
    | Val (ok, c) => if ok then Val (Next (mkPV w h dw dh du sm ra cs (Some c) pj)) else Val (Ret E_FILE_FORMAT_INVALID v)
    end
  else if id =? kMkvProjection then
    match Projection_Parse r pos size with
    | UB => UB
    | Val (ok, p) => if ok then Val (Next (mkPV w h dw dh du sm ra cs co (Some p))) else Val (Ret E_FILE_FORMAT_INVALID v)
    end
  else if id =? kMkvColourSpace then
    let '(status, x) := UnserializeString r pos size in on_negative status (mkPV w h dw dh du sm ra x co pj)
  else Val (Next v).
(* VideoTrack::Parse, the settings: mkvparser.cc:5321-5428 *)
Definition Video_Parse (r : reader) (start size : Z) : outcome (Z * p_video) :=
  walk_payload r ZPass (video_element r) start size pv_init.

(* AudioTrack: mkvparser.h:546-564 *)
Record p_audio := mkPAu { pau_rate : f64; pau_channels : Z; pau_bit_depth : Z }.
(* mkvparser.cc:5597-5599 *)
Definition pau_init : p_audio := mkPAu (f64_of_Z 8000) 1 0.
(* mkvparser.cc:5609-5627 *)
Definition audio_element (r : reader) (id pos size : Z) (a : p_audio) : outcome (step p_audio) :=
  let '(mkPAu ra ch bd) := a in
  if id =? kMkvSamplingFrequency then rate_field r pos size ra (fun x => mkPAu x ch bd)
  else if id =? kMkvChannels then uint_field r pos size (fun x => x <=? 0) (fun x => mkPAu ra x bd)
  else if id =? kMkvBitDepth then uint_field r pos size (fun x => x <=? 0) (fun x => mkPAu ra ch x)
  else Val (Next a).
(* AudioTrack::Parse, the settings: mkvparser.cc:5577-5635 *)
Definition Audio_Parse (r : reader) (start size : Z) : outcome (Z * p_audio) :=
  walk_payload r ZPass (audio_element r) start size pau_init.

(* ---------- tracks ---------- *)

(* Track::Info: mkvparser.h:335-360 without the settings, which are local to
   ParseTrackEntry; lacing as a number *)
Record p_tinfo := mkTI {
  ti_type : Z; ti_number : Z; ti_uid : Z; ti_default_duration : Z; ti_codec_delay : Z; ti_seek_pre_roll : Z;
  ti_name : option (list Z); ti_language : option (list Z); ti_codec_id : option (list Z); ti_codec_name : option (list Z);
  ti_codec_private : option (list Z); ti_lacing : Z
}.
(* mkvparser.cc:4520-4531, 5784-5787, 5801 *)
Definition ti_init : p_tinfo := mkTI 0 0 0 0 0 0 None None None None None 1.
(* the state of the loop: the information and the payloads of Video, Audio and
   ContentEncodings (start, size), mkvparser.cc:5789-5799 *)
Record tscan := mkTS { ts_info : p_tinfo; ts_v : Z * Z; ts_a : Z * Z; ts_e : Z * Z }.
Definition ts_init : tscan := mkTS ti_init (-1, -1) (-1, -1) (-1, -1).

(* the bytes of the UID: mkvparser.cc:5834-5846 *)
Fixpoint uid_loop (r : reader) (n : nat) (pos uid : Z) : Z + Z :=
  match n with
  | O => inr uid
  | S f =>
      match r_byte r pos with
      | inl status => inl status
      | inr b => uid_loop r f (pos + 1) (Z.lor (wrap64 (Z.shiftl uid 8)) b)
      end
  end.

(* mkvparser.cc:5816-5922 *)
Definition entry_element (r : reader) (id pos size : Z) (s : tscan) : outcome (step tscan) :=
  let '(mkTS (mkTI ty nu ui dd cd sp na la ci cn cp lc as i) v a e) := s in
  if id =? kMkvVideo then Val (Next (mkTS i (pos, size) a e))
  else if id =? kMkvAudio then Val (Next (mkTS i v (pos, size) e))
  else if id =? kMkvContentEncodings then Val (Next (mkTS i v a (pos, size)))
  else if id =? kMkvTrackUID then
    if size >? 8 then Val (Ret E_FILE_FORMAT_INVALID s)
    else
      match uid_loop r (Z.to_nat size) pos 0 with
      | inl status => if status =? 0 then UB else Val (Ret status s)
      | inr x => Val (Next (mkTS (mkTI ty nu x dd cd sp na la ci cn cp lc) v a e))
      end
  else if id =? kMkvTrackNumber then
    uint_field r pos size (fun x => (x <=? 0) || (x >? 127)) (fun x => mkTS (mkTI ty x ui dd cd sp na la ci cn cp lc) v a e)
  else if id =? kMkvTrackType then
    uint_field r pos size (fun x => (x <=? 0) || (x >? 254)) (fun x => mkTS (mkTI x nu ui dd cd sp na la ci cn cp lc) v a e)
  else if id =? kMkvName then
    string_field r pos size (fun x => mkTS (mkTI ty nu ui dd cd sp x la ci cn cp lc) v a e)
  else if id =? kMkvLanguage then
    string_field r pos size (fun x => mkTS (mkTI ty nu ui dd cd sp na x ci cn cp lc) v a e)
  else if id =? kMkvDefaultDuration then
    uint_field r pos size (fun x => x <? 0) (fun x => mkTS (mkTI ty nu ui x cd sp na la ci cn cp lc) v a e)
  else if id =? kMkvCodecID then
    string_field r pos size (fun x => mkTS (mkTI ty nu ui dd cd sp na la x cn cp lc) v a e)
  else if id =? kMkvFlagLacing then
    uint_field r pos size (fun x => (x <? 0) || (x >? 1)) (fun x => mkTS (mkTI ty nu ui dd cd sp na la ci cn cp x) v a e)
  else if id =? kMkvCodecPrivate then
    if size =? 0 then Val (Next (mkTS (mkTI ty nu ui dd cd sp na la ci cn None lc) v a e))
    else if alloc_fails size then Val (Ret (-1) s)
    else
      match r_read r pos size with
      | inl status => Val (Ret status s)
      | inr buf => Val (Next (mkTS (mkTI ty nu ui dd cd sp na la ci cn (Some buf) lc) v a e))
      end
  else if id =? kMkvCodecName then
    string_field r pos size (fun x => mkTS (mkTI ty nu ui dd cd sp na la ci x cp lc) v a e)
  else if id =? kMkvCodecDelay then
    unsigned_field r pos size any 0 (fun x => mkTS (mkTI ty nu ui dd x sp na la ci cn cp lc) v a e)
  else if id =? kMkvSeekPreRoll then
    unsigned_field r pos size any 0 (fun x => mkTS (mkTI ty nu ui dd cd x na la ci cn cp lc) v a e)
  else Val (Next s).

(* Track with the derived classes VideoTrack and AudioTrack: mkvparser.h:299-564;
   the position and size of the element are not recorded *)
Inductive p_kind := PPlain | PVideo (v : p_video) | PAudio (a : p_audio).
Record p_track := mkPT { pt_info : p_tinfo; pt_kind : p_kind; pt_encodings : list p_encoding }.

(* strlen/memcpy: the bytes before the first NUL, mkvparser.cc:4567-4575 *)
Fixpoint until_nul (l : list Z) : list Z :=
  match l with [] => [] | b :: r => if b =? 0 then [] else b :: until_nul r end.
(* Track::Info::CopyStr: mkvparser.cc:4553-4578 *)
Definition CopyStr (s : option (list Z)) : option (list Z) :=
  match s with None => None | Some b => Some (until_nul b) end.
(* Track::Info::Copy: mkvparser.cc:4580-4631 *)
Definition Info_Copy (i : p_tinfo) : p_tinfo :=
  let '(mkTI ty nu ui dd cd sp na la ci cn cp lc) := i in
  mkTI ty nu ui dd cd sp (CopyStr na) (CopyStr la) (CopyStr ci) (CopyStr cn) cp lc.

(* Tracks::GetTrackByNumber: mkvparser.cc:6029-6047 *)
Fixpoint GetTrackByNumber (l : list p_track) (tn : Z) : option p_track :=
  if tn <? 0 then None
  else
    match l with
    | [] => None
    | t :: r => if tn =? ti_number (pt_info t) then Some t else GetTrackByNumber r tn
    end.
(* Tracks::GetTrackByIndex: mkvparser.cc:6049-6056 *)
Definition GetTrackByIndex (l : list p_track) (idx : Z) : option p_track :=
  if idx >=? zlen l then None else nth_error l (Z.to_nat idx).

(* if (e.start >= 0) pResult->ParseContentEncodingsEntry(e.start, e.size):
   mkvparser.cc:5963-5964, 5985-5986.  The status is ignored. *)
Definition with_encodings (r : reader) (t : p_tinfo) (k : p_kind) (e : Z * Z) : outcome (Z * option p_track) :=
  if fst e >=? 0 then
    match Encodings_Parse r (fst e) (snd e) with
    | UB => UB
    | Val (_, l) => Val (0, Some (mkPT t k l))
    end
  else Val (0, Some (mkPT t k [])).

(* Tracks::ParseTrackEntry: mkvparser.cc:5771-6014; l: the tracks already there *)
Definition ParseTrackEntry (r : reader) (l : list p_track) (start size : Z) : outcome (Z * option p_track) :=
  match walk_payload r ZPass (entry_element r) start size ts_init with
  | UB => UB
  | Val (status, mkTS i v a e) =>
      if negb (status =? 0) then Val (status, None)
      else if ti_number i <=? 0 then Val (E_FILE_FORMAT_INVALID, None)
      else if (match GetTrackByNumber l (ti_number i) with Some _ => true | None => false end) then Val (E_FILE_FORMAT_INVALID, None)
      else if ti_type i <=? 0 then Val (E_FILE_FORMAT_INVALID, None)
      else if ti_type i =? 1 then
        if fst v <? 0 then Val (E_FILE_FORMAT_INVALID, None)
        else if fst a >=? 0 then Val (E_FILE_FORMAT_INVALID, None)
        else
          match Video_Parse r (fst v) (snd v) with
          | UB => UB
          | Val (status, x) => if negb (status =? 0) then Val (status, None) else with_encodings r (Info_Copy i) (PVideo x) e
          end
      else if ti_type i =? 2 then
        if fst a <? 0 then Val (E_FILE_FORMAT_INVALID, None)
        else if fst v >=? 0 then Val (E_FILE_FORMAT_INVALID, None)
        else
          match Audio_Parse r (fst a) (snd a) with
          | UB => UB
          | Val (status, x) => if negb (status =? 0) then Val (status, None) else with_encodings r (Info_Copy i) (PAudio x) e
          end
      else
        if fst a >=? 0 then Val (E_FILE_FORMAT_INVALID, None)
        else if fst v >=? 0 then Val (E_FILE_FORMAT_INVALID, None)
        else if (ti_type i =? 0x21) && (fst e >=? 0) then Val (E_FILE_FORMAT_INVALID, None)
        else Val (0, Some (mkPT (Info_Copy i) PPlain []))
  end.

(* mkvparser.cc:5740-5751 *)
Definition tracks_element (r : reader) (id pos size : Z) (l : list p_track) : outcome (step (list p_track)) :=
  if id =? kMkvTrackEntry then
    match ParseTrackEntry r l pos size with
    | UB => UB
    | Val (status, t) =>
        if negb (status =? 0) then Val (Ret status l)
        else Val (Next (match t with Some t => l ++ [t] | None => l end))
    end
  else Val (Next l).
(* Tracks::Parse: mkvparser.cc:5674-5762; returns the status and the tracks *)
Definition Tracks_Parse (r : reader) (start size : Z) : outcome (Z * list p_track) :=
  match walk_payload r ZSkip (count_element kMkvTrackEntry) start size 0 with
  | UB => UB
  | Val (status, n) =>
      if negb (status =? 0) then Val (status, [])
      else if n <=? 0 then Val (0, [])
      else walk_payload r ZSkip (tracks_element r) start size []
  end.
