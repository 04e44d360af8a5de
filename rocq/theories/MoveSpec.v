(* A muxed file with the cues in front of the clusters (RFC 9559, section 5.1 and
   22: same elements as in MuxFileSpec.v, another order). *)
From Verif Require Import Base EbmlSpec MWriter WriterSpec MMuxUtil Ids LacingSpec MFloat MMuxBlock BlockSpec MMuxMeta MetaSpec
  MMuxSegment SegmentSpec MuxFileSpec.

(* the content of the Segment in the new order *)
Definition moved_body (l : layout) : list Z := lo_front l ++ lo_cues l ++ concat (map mc_bytes (lo_clusters l)).

(* the file: EBML header and one Segment of known size; as is_muxed otherwise *)
Definition is_moved (s : segment) (doc_type : list Z) (d : f64) (qs : list cue_point) (file : list Z) (l : layout) : Prop :=
  exists seg,
    file = lo_ebml l ++ seg /\ encodes (ebml_header_tree 4 doc_type) (lo_ebml l) /\
    is_element kMkvSegment (moved_body l) seg /\
    encodes (info_tree (si_set_duration d (sg_info s))) (lo_info l) /\
    encodes (tracks_tree (sg_tracks s)) (lo_tracks l) /\
    opt_element (sg_chapters s) (chapters_tree (sg_chapters s)) (lo_chapters l) /\
    opt_element (sg_tags s) (tags_tree (sg_tags s)) (lo_tags l) /\
    Forall (is_cluster true (si_timecode_scale (sg_info s))) (lo_clusters l) /\
    encodes (cues_tree qs) (lo_cues l).

(* only the seek head and the cues differ *)
Definition same_but_cues (l l' : layout) : Prop :=
  lo_ebml l' = lo_ebml l /\ lo_info l' = lo_info l /\ lo_tracks l' = lo_tracks l /\ lo_chapters l' = lo_chapters l /\
  lo_tags l' = lo_tags l /\ lo_clusters l' = lo_clusters l.

(* the cluster at the cue point's position of the new content has, as its n-th
   block, a block of that track and that time *)
Definition locates_moved (scale : Z) (l : layout) (q : cue_point) (f : frame) : Prop :=
  exists before c after, lo_clusters l = before ++ c :: after /\
    cue_cluster_pos q = zlen (lo_front l) + zlen (lo_cues l) + zlen (concat (map mc_bytes before)) /\
    1 <= cue_block_number q /\ nth_error (mc_frames c) (Z.to_nat (cue_block_number q - 1)) = Some f /\
    fr_track f = cue_track q /\ cue_time q = fr_timestamp f / scale.
(* the same without the number of the block *)
Definition locates_cluster_moved (scale : Z) (l : layout) (q : cue_point) (f : frame) : Prop :=
  exists before c after, lo_clusters l = before ++ c :: after /\
    cue_cluster_pos q = zlen (lo_front l) + zlen (lo_cues l) + zlen (concat (map mc_bytes before)) /\
    In f (mc_frames c) /\ fr_track f = cue_track q /\ cue_time q = fr_timestamp f / scale.

(* cue points that differ in the position only *)
Definition same_but_position (q q' : cue_point) : Prop :=
  cue_time q' = cue_time q /\ cue_track q' = cue_track q /\ cue_block_number q' = cue_block_number q /\
  cue_output_block_number q' = cue_output_block_number q.
