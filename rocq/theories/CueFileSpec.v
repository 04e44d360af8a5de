(* What going to a cue point of a muxed file must show. *)
From Verif Require Import Base MMuxBlock MMuxMeta MMuxSegment SegmentSpec MuxFileSpec.

(* as MuxFileSpec.locates: f is the frame of the cue point; behind: the frames that
   follow it in the file *)
Definition cue_frame (scale : Z) (l : layout) (q : cue_point) (f : frame) (behind : list frame) : Prop :=
  exists before c after fs1 fs2, lo_clusters l = before ++ c :: after /\
    cue_cluster_pos q = zlen (lo_front l) + zlen (concat (map mc_bytes before)) /\
    mc_frames c = fs1 ++ f :: fs2 /\ cue_block_number q = zlen fs1 + 1 /\
    fr_track f = cue_track q /\ cue_time q = fr_timestamp f / scale /\
    behind = fs2 ++ concat (map mc_frames after).
(* the number of the block is in the file, or is 1, which stands for no number *)
Definition number_known (q : cue_point) : Prop := cue_output_block_number q = true \/ cue_block_number q = 1.
