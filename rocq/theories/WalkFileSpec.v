(* What going through the blocks of a track must show of a muxed file, and the states
   a caller can reach who loads and walks. *)
From Verif Require Import Base MMuxBlock BlockSpec MMuxMeta MMuxSegment SegmentSpec MuxFileSpec MParUtil MParBlock MParMeta MParTrack MParCluster ClusterSpec
  ClusterSafeSpec MParSegment SegSafeSpec MParCues MParWalk MParCueSeek WalkSpec.

(* a segment after any calls for parsing and loading it, then of GetFirst, GetNext and
   Seek on any tracks, for entries that the clusters have, of LoadCluster, and of
   GetBlock for any loaded cue point *)
Inductive walk_state (r : reader) : pseg -> Prop :=
| ws_loaded : forall s, seg_state r s -> walk_state r s
| ws_cluster : forall s st s', walk_state r s -> LoadCluster r s = Val (st, s') -> walk_state r s'
| ws_first : forall s t st w s', walk_state r s -> Track_GetFirst r s t = Val (st, w, s') -> walk_state r s'
| ws_next : forall s t ci ei c e st w s', walk_state r s ->
    cluster_at s ci = Some c -> 0 <= ei -> entry_at c ei = Some e -> of_this_track t (ci, ei, e) = true ->
    Track_GetNext r s t ci ei = Val (st, w, s') -> walk_state r s'
| ws_seek : forall s t time st w s', walk_state r s -> Track_Seek r s t time = Val (st, w, s') -> walk_state r s'
| ws_block : forall s cp tp x s', walk_state r s -> pg_tracks s <> None -> 0 <= cp_timecode cp -> pg_start s + tp_pos tp <= LLONG_MAX ->
    Segment_GetBlock r s cp tp = Val (x, s') -> walk_state r s'.

(* the frames of the track in the file, for video from the first key frame on *)
Definition frame_of (t : p_track) : frame -> bool := of_track (ti_number (pt_info t)).
Definition enters (t : p_track) (f : frame) : bool := match pt_kind t with PVideo _ => fr_is_key f | _ => true end.
Definition frames_of_track (t : p_track) (l : layout) : list frame := since (enters t) (filter (frame_of t) (lo_frames l)).
(* the entry is a block of a cluster of the file and carries the frame *)
Definition shows_frame (r : reader) (scale : Z) (l : layout) (f : frame) (p : Z * Z * bentry) : Prop :=
  exists c, In c (lo_clusters l) /\ In f (mc_frames c) /\ entry_carries r (mc_tc c) scale f (snd p).
