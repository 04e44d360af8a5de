(* Copying colour information from the parser's objects to the muxer's:
   CopyMasteringMetadata and CopyColour of common/hdr_util.cc, and the setters of
   mkvmuxer they use.  Allocations do not fail. *)
From Verif Require Import Base MMuxMeta MParUtil MParTrack.

(* MasteringMetadata(): mkvmuxer.h:390-396 *)
Definition new_mastering : mastering := mkMM kLuminanceNotPresent kLuminanceNotPresent None None None None.
(* Colour(): mkvmuxer.h:506-520 *)
Definition new_colour : colour :=
  mkColour kValueNotPresent kValueNotPresent kValueNotPresent kValueNotPresent kValueNotPresent kValueNotPresent
    kValueNotPresent kValueNotPresent kValueNotPresent kValueNotPresent kValueNotPresent kValueNotPresent kValueNotPresent None.

(* MasteringMetadata::SetChromaticity: mkvmuxer.cc:1056-1085; with CopyChromaticity,
   mkvmuxer.cc:74-84, a missing argument removes the value *)
Definition SetChromaticity (r g b white : option chroma) (m : mastering) : mastering :=
  mkMM (mm_luminance_max m) (mm_luminance_min m) r g b white.
(* set_luminance_max, set_luminance_min: mkvmuxer.h:420-426 *)
Definition set_luminance_max (v : Z) (m : mastering) : mastering := mkMM v (mm_luminance_min m) (mm_r m) (mm_g m) (mm_b m) (mm_white m).
Definition set_luminance_min (v : Z) (m : mastering) : mastering := mkMM (mm_luminance_max m) v (mm_r m) (mm_g m) (mm_b m) (mm_white m).
(* Colour::SetMasteringMetadata: mkvmuxer.cc:1239-1257 *)
Definition SetMasteringMetadata (m : mastering) (c : colour) : colour :=
  let mm := SetChromaticity (mm_r m) (mm_g m) (mm_b m) (mm_white m)
              (set_luminance_min (mm_luminance_min m) (set_luminance_max (mm_luminance_max m) new_mastering)) in
  let '(mkColour mc bpc csh csv cbh cbv sih siv rg tc pr cll fall _) := c in
  mkColour mc bpc csh csv cbh cbv sih siv rg tc pr cll fall (Some mm).
(* VideoTrack::SetColour: mkvmuxer.cc:1566-1592; the colour the track then has *)
Definition SetColour (c : colour) : colour :=
  let base := match co_mastering c with Some m => SetMasteringMetadata m new_colour | None => new_colour end in
  mkColour (co_matrix_coefficients c) (co_bits_per_channel c) (co_chroma_subsampling_horz c) (co_chroma_subsampling_vert c)
    (co_cb_subsampling_horz c) (co_cb_subsampling_vert c) (co_chroma_siting_horz c) (co_chroma_siting_vert c)
    (co_range c) (co_transfer_characteristics c) (co_primaries c) (co_max_cll c) (co_max_fall c) (co_mastering base).

(* MasteringMetadataValuePresent: hdr_util.cc:28-30; FLT_MAX, mkvparser.cc:27 *)
Definition MasteringMetadataValuePresent (v : Z) : bool := negb (f32_eq v 0x7F7FFFFF).
(* CopyMasteringMetadata: hdr_util.cc:32-67, with CopyPrimaryChromaticity, hdr_util.cc:19-26 *)
Definition CopyMasteringMetadata (p : p_mastering) (m : mastering) : mastering :=
  let m := if MasteringMetadataValuePresent (pm_max p) then set_luminance_max (pm_max p) m else m in
  let m := if MasteringMetadataValuePresent (pm_min p) then set_luminance_min (pm_min p) m else m in
  SetChromaticity (pm_r p) (pm_g p) (pm_b p) (pm_white p) m.

(* ColourValuePresent: hdr_util.cc:69-71; LLONG_MAX, mkvparser.cc:28 *)
Definition ColourValuePresent (v : Z) : bool := negb (v =? LLONG_MAX).
(* if (ColourValuePresent(v)) set_x(v): e.g. hdr_util.cc:78-79; long long to uint64_t *)
Definition copy_number (v old : Z) : Z := if ColourValuePresent v then wrap64 v else old.
(* CopyColour: hdr_util.cc:73-119, with a muxer colour that is not null *)
Definition CopyColour (p : p_colour) (c : colour) : colour :=
  let c := mkColour
    (copy_number (pc_matrix_coefficients p) (co_matrix_coefficients c))
    (copy_number (pc_bits_per_channel p) (co_bits_per_channel c))
    (copy_number (pc_chroma_subsampling_horz p) (co_chroma_subsampling_horz c))
    (copy_number (pc_chroma_subsampling_vert p) (co_chroma_subsampling_vert c))
    (copy_number (pc_cb_subsampling_horz p) (co_cb_subsampling_horz c))
    (copy_number (pc_cb_subsampling_vert p) (co_cb_subsampling_vert c))
    (copy_number (pc_chroma_siting_horz p) (co_chroma_siting_horz c))
    (copy_number (pc_chroma_siting_vert p) (co_chroma_siting_vert c))
    (copy_number (pc_range p) (co_range c))
    (copy_number (pc_transfer_characteristics p) (co_transfer_characteristics c))
    (copy_number (pc_primaries p) (co_primaries c))
    (copy_number (pc_max_cll p) (co_max_cll c))
    (copy_number (pc_max_fall p) (co_max_fall c))
    (co_mastering c) in
  match pc_mastering p with
  | None => c
  | Some pm => SetMasteringMetadata (CopyMasteringMetadata pm new_mastering) c
  end.
(* the two steps by which a program copies the colour of a track:
   mkvmuxer_sample.cc:463-469 *)
Definition copied (p : p_colour) : colour := SetColour (CopyColour p new_colour).
