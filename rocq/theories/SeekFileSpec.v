(* What seeking in a track of a muxed file must show. *)
From Verif Require Import Base MMuxBlock MMuxSegment SegmentSpec MuxFileSpec MParUtil MParBlock MParMeta MParTrack WalkSpec WalkFileSpec.

(* the time of a frame as the file has it: in whole timecode units *)
Definition stored_time (scale : Z) (f : frame) : Z := fr_timestamp f / scale * scale.
(* what is left of a list from the last element on that is ok *)
Fixpoint from_last {A : Type} (ok : A -> bool) (l : list A) : list A :=
  match l with
  | [] => []
  | a :: l' => match from_last ok l' with [] => if ok a then l else [] | r => r end
  end.

(* The frames of the track from the one that is sought on: if the time is not after the
   first frame where the track can be entered, from that frame on; otherwise in a video
   track from the last key frame on that is not later, in other tracks from the start of
   the last cluster on that has a frame of the track and is not later. *)
Definition seek_frames (t : p_track) (scale time : Z) (l : layout) : list frame :=
  let fs := filter (frame_of t) (lo_frames l) in
  match since (enters t) fs with
  | [] => []
  | f :: _ =>
      if time <=? stored_time scale f then since (enters t) fs
      else match pt_kind t with
           | PVideo _ => from_last (fun g => enters t g && (stored_time scale g <=? time)) fs
           | _ => filter (frame_of t) (concat (map mc_frames
                    (from_last (fun c => existsb (frame_of t) (mc_frames c) && (mc_tc c * scale <=? time)) (lo_clusters l))))
           end
  end.
