(* What mkvparser must report for the tracks written by mkvmuxer: the objects of
   MMuxMeta on the writing side, those of MParTrack on the reading side. *)
From Coq Require Import Floats.SpecFloat.
From Verif Require Import Base Ids MFloat MMuxMeta MParUtil MParMeta MParTrack MetaSpec ReadBackSpec.

Definition read_encoding (c : content_encoding) : p_encoding :=
  mkPEd [] [mkPEnc (ce_enc_algo c) (ce_key_id c) None None 0 0 (ce_cipher_mode c)] (ce_order c) (ce_scope c) (ce_type c).

(* an absent luminance is FLT_MAX on both sides *)
Definition read_luminance (u : Z) : Z := if lum_present u then u else 0x7F7FFFFF.
Definition read_mastering (m : mastering) : p_mastering :=
  mkPM (read_luminance (mm_luminance_max m)) (read_luminance (mm_luminance_min m)) (mm_r m) (mm_g m) (mm_b m) (mm_white m).
(* an absent number is 2^64-1 for the muxer, 2^63-1 for the parser *)
Definition read_number (v : Z) : Z := if v =? 2 ^ 64 - 1 then 2 ^ 63 - 1 else v.
(* objects with no value set are not written *)
Definition read_colour (c : colour) : option p_colour :=
  match colour_kids c with
  | [] => None
  | _ =>
      Some (mkPC (read_number (co_matrix_coefficients c)) (read_number (co_bits_per_channel c))
        (read_number (co_chroma_subsampling_horz c)) (read_number (co_chroma_subsampling_vert c))
        (read_number (co_cb_subsampling_horz c)) (read_number (co_cb_subsampling_vert c))
        (read_number (co_chroma_siting_horz c)) (read_number (co_chroma_siting_vert c))
        (read_number (co_range c)) (read_number (co_transfer_characteristics c)) (read_number (co_primaries c))
        (read_number (co_max_cll c)) (read_number (co_max_fall c))
        (match co_mastering c with
         | None => None
         | Some m => match mastering_kids m with [] => None | _ => Some (read_mastering m) end
         end))
  end.
Definition read_projection (p : projection) : p_projection :=
  mkPP (pj_type p) (match pj_private p with [] => None | b => Some b end) (pj_yaw p) (pj_pitch p) (pj_roll p).

(* the rates as the nearest binary32 numbers *)
Definition read_rate (d : f64) : f64 := f64_of_bits32 (f32_of_f64 d).
Definition read_video (v : video) : p_video :=
  mkPV (if 0 <? vi_pixel_width v then vi_pixel_width v else vi_width v)
       (if 0 <? vi_pixel_height v then vi_pixel_height v else vi_height v)
       (vi_display_width v) (vi_display_height v) 0 (vi_stereo_mode v)
       (if f64_pos (vi_frame_rate v) then read_rate (vi_frame_rate v) else S754_zero false)
       (vi_colour_space v)
       (match vi_colour v with None => None | Some c => read_colour c end)
       (match vi_projection v with None => None | Some p => Some (read_projection p) end).
Definition read_audio (a : audio) : p_audio :=
  mkPAu (read_rate (au_sample_rate a)) (au_channels a) (au_bit_depth a).

(* Lacing is allowed, there is no codec name.  The encodings of a track that is
   neither video nor audio are not read. *)
Definition read_track (t : track) : p_track :=
  mkPT (mkTI (tk_type t) (tk_number t) (tk_uid t) (tk_default_duration t) (tk_codec_delay t) (tk_seek_pre_roll t)
             (tk_name t) (tk_language t) (tk_codec_id t) None (tk_codec_private t) 1)
       (match tk_kind t with KPlain => PPlain | KVideo v => PVideo (read_video v) | KAudio a => PAudio (read_audio a) end)
       (match tk_kind t with KPlain => [] | _ => map read_encoding (tk_encodings t) end).
Definition read_tracks (l : list track) : list p_track := map read_track l.

(* ---------- which tracks the parser accepts ---------- *)

(* encryption with algorithm 5 (AES) in mode 1 (CTR) and with a scope *)
Definition readable_encoding (c : content_encoding) : Prop :=
  ce_enc_algo c = 5 /\ ce_cipher_mode c = 1 /\ 1 <= ce_scope c /\
  match ce_key_id c with Some k => zlen k <= 2 ^ 31 | None => True end.

(* bit patterns: zero or a normal number, not negative *)
Definition plain_float (u : Z) : Prop := u = 0 \/ 0x00800000 <= u < 0x7F800000.
(* at most 1.0 *)
Definition readable_chroma (c : option chroma) : Prop :=
  match c with
  | None => True
  | Some (x, y) => plain_float x /\ x <= 0x3F800000 /\ plain_float y /\ y <= 0x3F800000
  end.
(* at most 9999.9893 and 999.9899 *)
Definition readable_mastering (m : mastering) : Prop :=
  (lum_present (mm_luminance_max m) = true -> plain_float (mm_luminance_max m) /\ mm_luminance_max m <= 0x461C3FF5) /\
  (lum_present (mm_luminance_min m) = true -> plain_float (mm_luminance_min m) /\ mm_luminance_min m <= 0x4479FF5C) /\
  readable_chroma (mm_r m) /\ readable_chroma (mm_g m) /\ readable_chroma (mm_b m) /\ readable_chroma (mm_white m).
Definition readable_number (v : Z) : Prop := v = 2 ^ 64 - 1 \/ v < 2 ^ 63.
Definition readable_colour (c : colour) : Prop :=
  readable_number (co_matrix_coefficients c) /\ readable_number (co_bits_per_channel c) /\
  readable_number (co_chroma_subsampling_horz c) /\ readable_number (co_chroma_subsampling_vert c) /\
  readable_number (co_cb_subsampling_horz c) /\ readable_number (co_cb_subsampling_vert c) /\
  readable_number (co_chroma_siting_horz c) /\ readable_number (co_chroma_siting_vert c) /\
  readable_number (co_range c) /\ readable_number (co_transfer_characteristics c) /\ readable_number (co_primaries c) /\
  readable_number (co_max_cll c) /\ readable_number (co_max_fall c) /\
  match co_mastering c with None => True | Some m => readable_mastering m end.
(* zero or a normal number of either sign *)
Definition readable_pose (u : Z) : Prop := 0 <= u < 2 ^ 32 /\ plain_float (u mod 2 ^ 31).
Definition readable_projection (p : projection) : Prop :=
  0 <= pj_type p <= 3 /\ zlen (pj_private p) <= 2 ^ 31 /\
  readable_pose (pj_yaw p) /\ readable_pose (pj_pitch p) /\ readable_pose (pj_roll p).

(* positive and finite as a binary32 number *)
Definition readable_rate (d : f64) : Prop := 0 < f32_of_f64 d < 0x7F800000.
Definition size_or_absent (v : Z) : Prop := 0 <= v < 2 ^ 63.
Definition readable_video (v : video) : Prop :=
  0 < pv_width (read_video v) < 2 ^ 63 /\ 0 < pv_height (read_video v) < 2 ^ 63 /\
  size_or_absent (vi_display_width v) /\ size_or_absent (vi_display_height v) /\ size_or_absent (vi_stereo_mode v) /\
  (f64_pos (vi_frame_rate v) = true -> readable_rate (vi_frame_rate v)) /\ short (vi_colour_space v) /\
  match vi_colour v with None => True | Some c => readable_colour c end /\
  match vi_projection v with None => True | Some p => readable_projection p end.
Definition readable_audio (a : audio) : Prop :=
  readable_rate (au_sample_rate a) /\ 0 < au_channels a < 2 ^ 63 /\ 0 <= au_bit_depth a < 2 ^ 63.

(* a string without NUL bytes *)
Definition plain_string (s : option (list Z)) : Prop :=
  match s with None => True | Some b => zlen b <= 20000000 /\ ~ In 0 b end.
(* Track numbers of one byte; the type is 1 for video and 2 for audio tracks only. *)
Definition readable_track (t : track) : Prop :=
  1 <= tk_number t <= 127 /\ 1 <= tk_type t <= 254 /\ tk_default_duration t < 2 ^ 63 /\
  plain_string (tk_codec_id t) /\ plain_string (tk_language t) /\ plain_string (tk_name t) /\
  match tk_codec_private t with Some b => zlen b <= 2 ^ 31 | None => True end /\
  Forall readable_encoding (tk_encodings t) /\ zlen (tk_encodings t) < 2 ^ 31 /\
  match tk_kind t with
  | KPlain => tk_type t <> 1 /\ tk_type t <> 2 /\ (tk_type t = 0x21 -> tk_encodings t = [])
  | KVideo v => tk_type t = 1 /\ readable_video v
  | KAudio a => tk_type t = 2 /\ readable_audio a
  end.
Definition readable_tracks (l : list track) : Prop := Forall readable_track l /\ NoDup (map tk_number l).

(* ---------- tracks reported for any file ---------- *)

(* numbers of one byte, the type decides about the settings, sizes are not negative *)
Definition sound_track (t : p_track) : Prop :=
  1 <= ti_number (pt_info t) <= 127 /\ 1 <= ti_type (pt_info t) <= 254 /\
  0 <= ti_lacing (pt_info t) <= 1 /\ 0 <= ti_default_duration (pt_info t) /\
  match pt_kind t with
  | PPlain => ti_type (pt_info t) <> 1 /\ ti_type (pt_info t) <> 2 /\ pt_encodings t = []
  | PVideo v => ti_type (pt_info t) = 1 /\ 0 <= pv_width v /\ 0 <= pv_height v /\ 0 <= pv_display_width v /\
      0 <= pv_display_height v /\ 0 <= pv_display_unit v /\ 0 <= pv_stereo_mode v
  | PAudio a => ti_type (pt_info t) = 2 /\ 1 <= pau_channels a /\ 0 <= pau_bit_depth a
  end.
(* ... and no number occurs twice *)
Definition sound_tracks (l : list p_track) : Prop :=
  Forall sound_track l /\ NoDup (map (fun t => ti_number (pt_info t)) l).
