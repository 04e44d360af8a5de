(* What mkvparser must show for a whole file written by mkvmuxer: the layout of
   MuxFileSpec on the writing side, the segment of MParSegment on the reading side. *)
From Verif Require Import Base EbmlSpec Ids MFloat MMuxBlock BlockSpec MMuxMeta MetaSpec MMuxSegment MuxFileSpec
  MParUtil MParMeta MParTrack MParCues MParCluster MParSegment ClusterSpec CueReadSpec ReadBackSpec ReadTrackSpec.

(* a cluster of the file, each frame written as in BlockSpec *)
Definition stored_cluster (sized : bool) (scale : Z) (c : mcluster) : Prop :=
  0 <= mc_tc c < 2 ^ 63 /\ Forall frame_ok (mc_frames c) /\
  exists tcp t blocks,
    uint_payload (mc_tc c) tcp /\ is_element kMkvTimecode tcp t /\
    Forall2 (fun f b => written_as f (frame_rel f (mc_tc c) scale) scale b) (mc_frames c) blocks /\
    is_sized_element sized kMkvCluster (t ++ concat blocks) (mc_bytes c).

(* The cluster has that timecode, and going through its entries from GetFirst on with
   GetNext shows exactly the frames. *)
Definition shows (r : reader) (scale : Z) (c : mcluster) (pc : MParCluster.cluster) : Prop :=
  (exists c', Cluster_GetTimeCode r pc = Some (Val (mc_tc c, c'))) /\
  exists c1 e es c2,
    Cluster_GetFirst r pc = Some (Val (0, Some e, c1)) /\ next_entries r c1 0 es c2 /\
    Forall2 (entry_carries r (mc_tc c) scale) (mc_frames c) (e :: es).

(* the clusters from this position on; those without a frame are left out *)
Fixpoint shows_clusters (r : reader) (scale pos : Z) (cs : list mcluster) (pcs : list MParCluster.cluster) : Prop :=
  match cs with
  | [] => pcs = []
  | c :: cs =>
      match mc_frames c, pcs with
      | [], _ => shows_clusters r scale (pos + zlen (mc_bytes c)) cs pcs
      | _ :: _, pc :: pcs =>
          MParCluster.cl_start pc = pos /\ shows r scale c pc /\ shows_clusters r scale (pos + zlen (mc_bytes c)) cs pcs
      | _ :: _, [] => False
      end
  end.

(* The file does not end in a cluster of unknown size that has no frame. *)
Definition ends_well (sized : bool) (cues : option (list cue_point)) (cs : list mcluster) : Prop :=
  sized = false -> cues = None -> forall before c, cs = before ++ [c] -> mc_frames c <> [].

(* Each call of LoadCuePoint loads the next of these cue points; after that none is
   left.  An empty Cues element may be ignored. *)
Definition shows_cues (r : reader) (cues : option (list cue_point)) (pc : option p_cues) : Prop :=
  match cues, pc with
  | None, None => True
  | Some qs, None => qs = []
  | Some qs, Some c0 =>
      exists c, loads r (length qs) c0 c /\ LoadCuePoint r c = Val (false, c) /\ cu_count c = zlen qs /\ length (cu_points c) = length qs /\
        forall i q, nth_error qs i = Some q -> exists p, nth_error (cu_points c) i = Some p /\ reads_cue (Z.of_nat i) q p
  | None, Some _ => False
  end.

(* the entries of the seek head, if there is one *)
Definition shows_seek (entries : option (list (Z * Z))) (h : option p_seek) : Prop :=
  match entries, h with
  | None, None => True
  | Some es, Some h => map (fun e => (se_id e, se_pos e)) (psh_entries h) = es
  | _, _ => False
  end.

(* what is reported for an object that is written only if it is not empty *)
Definition written_if {A B : Type} (l : list A) (x : B) : option B := match l with [] => None | _ => Some x end.

(* Everything the segment s1 shows of the file of the configured segment s. *)
Record shows_file (r : reader) (s : segment) (d : f64) (cues : option (list cue_point)) (entries : option (list (Z * Z)))
       (l : layout) (s1 : pseg) : Prop := mkShows {
  sh_info : pg_info s1 = Some (read_info (si_set_duration d (sg_info s)));
  sh_tracks : pg_tracks s1 = Some (read_tracks (sg_tracks s));
  sh_chapters : pg_chapters s1 = written_if (sg_chapters s) (read_chapters (sg_chapters s));
  sh_tags : pg_tags s1 = written_if (sg_tags s) (read_tags (sg_tags s));
  sh_seek : shows_seek entries (pg_seek s1);
  sh_clusters : shows_clusters r (si_timecode_scale (sg_info s)) (pg_start s1 + zlen (lo_front l)) (lo_clusters l) (pg_clusters s1);
  sh_cues : shows_cues r cues (pg_cues s1)
}.

(* values the parser accepts *)
Definition readable_segment (s : segment) : Prop :=
  readable_tracks (sg_tracks s) /\ Forall readable_chapter (sg_chapters s) /\ Forall readable_tag (sg_tags s).
