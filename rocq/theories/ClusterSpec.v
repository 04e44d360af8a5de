(* Specification of the cluster layout (RFC 9559, 5.1.3) and of what a reader of a
   muxed cluster must see. *)
From Verif Require Import Base EbmlSpec LacingSpec ReaderSpec MMuxBlock BlockSpec MParUtil MParBlock MParCluster Ids.

(* the element a frame is written as: see BlockSpec.v *)
Definition written_as (f : frame) (rel scale : Z) (bs : list Z) : Prop :=
  if CanBeSimpleBlock f then is_simple_block f rel bs else is_block_group f rel scale bs.

(* what follows a cluster of unknown size: another Cluster, the Cues, or nothing *)
Definition follows_unknown (r : reader) (pos : Z) : Prop :=
  r_total r = pos \/ serves r pos (be_bytes 4 kMkvCluster) \/ serves r pos (be_bytes 4 kMkvCues).

(* The reader holds, at start, a cluster with this timecode and these frames; its
   size field is known, or unknown (all ones) and then the end must be recognisable.
   stop is the position behind the cluster. *)
Definition holds_cluster (r : reader) (start tc scale : Z) (fs : list frame) (stop : Z) : Prop :=
  exists w size tcp tce blocks,
    serves r start (be_bytes 4 kMkvCluster ++ vint w size ++ tce ++ concat blocks) /\
    uint_payload tc tcp /\ is_element kMkvTimecode tcp tce /\
    Forall2 (fun f b => written_as f (frame_rel f tc scale) scale b) fs blocks /\
    stop = start + 4 + w + zlen (tce ++ concat blocks) /\
    1 <= w <= 8 /\
    (size = zlen (tce ++ concat blocks) /\ vint_fits w size \/
     size = 2 ^ (7 * w) - 1 /\ follows_unknown r stop).

(* the duration of a block group in timecode units; -1: none *)
Definition frame_duration (f : frame) (scale : Z) : Z :=
  if 0 <? fr_duration f / scale then fr_duration f / scale else -1.

(* The entry shows exactly the frame: one unlaced visible frame of that track, time,
   key-frame status, content, padding and duration. *)
Definition entry_carries (r : reader) (tc scale : Z) (f : frame) (e : bentry) : Prop :=
  bl_track (en_block e) = fr_track f /\
  bl_timecode (en_block e) = frame_rel f tc scale /\
  Block_IsKey (en_block e) = fr_is_key f /\
  Block_IsInvisible (en_block e) = false /\
  map (Frame_Read r) (bl_frames (en_block e)) = [inr (fr_data f)] /\
  en_discard e = fr_discard f /\
  en_group e = negb (CanBeSimpleBlock f) /\
  en_duration e = frame_duration f scale.

(* the entries GetNext returns one after the other behind the entry with index i *)
Inductive next_entries (r : reader) : cluster -> Z -> list bentry -> cluster -> Prop :=
| ne_end : forall c i c', Cluster_GetNext r c i = Some (Val (0, None, c')) ->
    next_entries r c i [] c'
| ne_cons : forall c i e es c1 c', Cluster_GetNext r c i = Some (Val (0, Some e, c1)) ->
    next_entries r c1 (i + 1) es c' -> next_entries r c i (e :: es) c'.

(* the length a reader reports is not less than what it makes available *)
Definition total_ok (r : reader) : Prop := r_total r = -1 \/ r_avail r <= r_total r.
