(* What a finished muxed file must look like (RFC 8794, RFC 9559): the EBML
   header and one Segment with seek head, metadata, clusters and cues, and what
   the seek head and the cues must point to. *)
From Coq Require Import Sorted.
From Verif Require Import Base EbmlSpec MWriter WriterSpec MMuxUtil Ids LacingSpec MFloat MMuxBlock BlockSpec MMuxMeta MetaSpec
  MMuxSegment SegmentSpec.

(* ---------- clusters ---------- *)

(* f as a block of a cluster with timecode tc: the stored relative timecode plus
   the cluster's timecode is the frame's time in timecode units *)
Definition is_block (scale tc : Z) (f : frame) (bs : list Z) : Prop :=
  exists rel, 0 <= rel <= 32767 /\ tc + rel = fr_timestamp f / scale /\
    (is_simple_block f rel bs /\ fr_additional f = None /\ fr_discard f = 0 /\ fr_duration f = 0
     \/ is_block_group f rel scale bs).

(* an element, or one whose size field holds the reserved value "unknown" *)
Definition is_open_element (id : Z) (payload bs : list Z) : Prop :=
  exists ib, is_id_bytes id ib /\ bs = ib ++ [1; 255; 255; 255; 255; 255; 255; 255] ++ payload.
Definition is_sized_element (sized : bool) (id : Z) (payload bs : list Z) : Prop :=
  if sized then is_element id payload bs else is_open_element id payload bs.

(* a cluster of a muxed file: timecode, frames, bytes *)
Record mcluster := mkMC { mc_tc : Z; mc_frames : list frame; mc_bytes : list Z }.
Definition is_cluster (sized : bool) (scale : Z) (c : mcluster) : Prop :=
  exists tcp t blocks,
    uint_payload (mc_tc c) tcp /\ is_element kMkvTimecode tcp t /\
    Forall2 (is_block scale (mc_tc c)) (mc_frames c) blocks /\
    is_sized_element sized kMkvCluster (t ++ concat blocks) (mc_bytes c).

(* ---------- the file ---------- *)

(* an optional element, left out when the list is empty *)
Definition opt_element {A} (l : list A) (t : tree) (bs : list Z) : Prop :=
  match l with [] => bs = [] | _ => encodes t bs end.
Definition seek_tree (e : Z * Z) : tree :=
  Master kMkvSeek [uint kMkvSeekID (fst e); uint kMkvSeekPosition (snd e)].
Definition seek_head_tree (l : list (Z * Z)) : tree := Master kMkvSeekHead (map seek_tree l).

(* the content of the Segment: what precedes the clusters, the clusters, the cues *)
Record layout := mkLayout {
  lo_ebml : list Z; lo_seek : list Z; lo_info : list Z; lo_tracks : list Z; lo_chapters : list Z; lo_tags : list Z;
  lo_clusters : list mcluster; lo_cues : list Z
}.
Definition lo_front (l : layout) : list Z :=
  lo_seek l ++ lo_info l ++ lo_tracks l ++ lo_chapters l ++ lo_tags l.
Definition lo_body (l : layout) : list Z := lo_front l ++ concat (map mc_bytes (lo_clusters l)) ++ lo_cues l.

(* the element with this ID starts at this offset of the Segment's content *)
Definition starts_at (body : list Z) (id pos : Z) : Prop :=
  exists a payload el b, body = a ++ el ++ b /\ zlen a = pos /\ is_element id payload el.

(* The file of a segment s (as configured before the first frame): sizes of the
   Segment and the clusters known or not, Duration d, cue points cues if any. *)
Definition is_muxed (sized : bool) (s : segment) (doc_type : list Z) (d : f64) (cues : option (list cue_point))
           (file : list Z) (l : layout) : Prop :=
  exists seg,
    file = lo_ebml l ++ seg /\ encodes (ebml_header_tree 4 doc_type) (lo_ebml l) /\
    is_sized_element sized kMkvSegment (lo_body l) seg /\
    encodes (info_tree (si_set_duration d (sg_info s))) (lo_info l) /\
    encodes (tracks_tree (sg_tracks s)) (lo_tracks l) /\
    opt_element (sg_chapters s) (chapters_tree (sg_chapters s)) (lo_chapters l) /\
    opt_element (sg_tags s) (tags_tree (sg_tags s)) (lo_tags l) /\
    Forall (is_cluster sized (si_timecode_scale (sg_info s))) (lo_clusters l) /\
    match cues with None => lo_cues l = [] | Some qs => encodes (cues_tree qs) (lo_cues l) end.

(* the seek head: at the start of the Segment, padded by a Void element, filled
   with zeros, to the 110 bytes reserved for it; every entry is right *)
Definition is_seek_head (l : layout) (entries : list (Z * Z)) : Prop :=
  exists sh vp void, lo_seek l = sh ++ void /\ zlen (lo_seek l) = 110 /\
    encodes (seek_head_tree entries) sh /\ is_element kMkvVoid (repeat 0 vp) void.

(* a cue point: the cluster at that position of the Segment's content has, as its
   n-th block, a block of that track and that time *)
Definition locates (scale : Z) (l : layout) (q : cue_point) (f : frame) : Prop :=
  exists before c after, lo_clusters l = before ++ c :: after /\
    cue_cluster_pos q = zlen (lo_front l) + zlen (concat (map mc_bytes before)) /\
    1 <= cue_block_number q /\ nth_error (mc_frames c) (Z.to_nat (cue_block_number q - 1)) = Some f /\
    fr_track f = cue_track q /\ cue_time q = fr_timestamp f / scale.
(* the same without the number of the block *)
Definition locates_cluster (scale : Z) (l : layout) (q : cue_point) (f : frame) : Prop :=
  exists before c after, lo_clusters l = before ++ c :: after /\
    cue_cluster_pos q = zlen (lo_front l) + zlen (concat (map mc_bytes before)) /\
    In f (mc_frames c) /\ fr_track f = cue_track q /\ cue_time q = fr_timestamp f / scale.

(* all the frames of the file, in file order *)
Definition lo_frames (l : layout) : list frame := concat (map mc_frames (lo_clusters l)).

(* ---------- using the muxer ---------- *)

(* A configured segment to which no frame has been added yet: what Init, AddTrack
   (C20), the metadata and option setters lead to. *)
Record ready (s : segment) : Prop := mkReady {
  r_header : sg_header_written s = false;
  r_clusters : sg_clusters s = [];
  r_cues : sg_cues s = [];
  r_frames : sg_frames s = [];
  r_seek : sg_seek s = new_seek_head;
  r_last : sg_last_ts s = 0;
  r_arr1 : zlen (sg_track_ts s) = 126;
  r_arr2 : zlen (sg_track_frames s) = 126;
  r_dtv : sg_dtv s = 4;
  r_tracks : sg_tracks s <> [] /\ Forall (fun t => 1 <= tk_number t <= 126) (sg_tracks s) /\
             NoDup (map tk_number (sg_tracks s)) /\ forallb track_valid (sg_tracks s) = true /\
             values_ok (tracks_tree (sg_tracks s));
  r_info : 1 <= si_timecode_scale (sg_info s) /\ info_valid (sg_info s) = true /\ values_ok (info_tree (sg_info s));
  r_chapters : forallb chapter_valid (sg_chapters s) = true /\ values_ok (chapters_tree (sg_chapters s));
  r_tags : forallb tag_valid (sg_tags s) = true /\ values_ok (tags_tree (sg_tags s))
}.

(* values of a frame that fit the C++ types; sizes below 2 GiB *)
Definition frame_args (f : frame) : Prop :=
  bytes (fr_data f) /\ zlen (fr_data f) <= INT_MAX - 4 /\
  match fr_additional f with None => True | Some a => bytes a /\ 1 <= zlen a < 2 ^ 32 end /\
  is_u64 (fr_add_id f) /\ is_u64 (fr_duration f) /\ 0 <= fr_timestamp f < 2 ^ 63 /\
  is_s64 (fr_discard f) /\ is_s64 (fr_ref f).

(* calls on the segment between configuration and Finalize *)
Inductive call : Type :=
| AddF (f : frame)               (* AddGenericFrame and the functions built on it *)
| ForceNewCluster                (* ForceNewClusterOnNextFrame *)
| SetOutputCues (b : bool)       (* OutputCues *)
| SetCuesTrack (n : Z)           (* CuesTrack *)
| SetMaxDuration (n : Z)         (* set_max_cluster_duration *)
| SetMaxSize (n : Z).            (* set_max_cluster_size *)

(* what is observed: the frames given and whether each was accepted.
   mkvmuxer.cc:3598, 3692; mkvmuxer.h:1683-1690 *)
Fixpoint run_calls (cs : list call) (s : segment) : W (list (frame * bool) * segment) :=
  match cs with
  | [] => ret ([], s)
  | AddF f :: r =>
      x <- AddGenericFrame s f;;
      y <- run_calls r (snd x);;
      ret ((f, fst x) :: fst y, snd y)
  | ForceNewCluster :: r => run_calls r (sg_set_force true s)
  | SetOutputCues b :: r => run_calls r (sg_set_output_cues b s)
  | SetCuesTrack n :: r => run_calls r (snd (CuesTrack s n))
  | SetMaxDuration n :: r => run_calls r (sg_set_max_dur n s)
  | SetMaxSize n :: r => run_calls r (sg_set_max_size n s)
  end.
Definition given (cs : list call) : list frame := flat_map (fun c => match c with AddF f => [f] | _ => [] end) cs.
Definition accepted (h : list (frame * bool)) : list frame := map fst (filter snd h).

(* an upper bound for the size of the file, so that it stays below 2^55 bytes *)
Definition frame_room (f : frame) : Z :=
  400 + zlen (fr_data f) + match fr_additional f with None => 0 | Some a => zlen a end.
Definition room (s : segment) (fs : list frame) : Z :=
  2000 + weight_all [info_tree (sg_info s); tracks_tree (sg_tracks s); chapters_tree (sg_chapters s); tags_tree (sg_tags s)]
  + fold_right (fun f n => frame_room f + n) 0 fs.
Definition fits_file (s : segment) (fs : list frame) : Prop := room s fs < 2 ^ 55 /\ zlen fs < INT_MAX.

(* a new file: a writer at its start, no call of which fails *)
Definition new_file (seekable : bool) (w : wstate) : Prop :=
  w_file w = [] /\ w_pos w = 0 /\ no_fail w /\ w_seekable w = seekable.

(* audio frames are held back when the segment has a video track *)
Definition held_back (s : segment) (f : frame) : bool :=
  sg_has_video s &&
  match find (fun t => tk_number t =? fr_track f) (sg_tracks s) with Some t => tk_type t =? kAudioType | None => false end.

(* the frame can be written: its track exists, it has data and, if it is held
   back, it is complete (a missing reference is supplied for the others) *)
Definition can_write (s : segment) (f : frame) : Prop :=
  existsb (fun t => tk_number t =? fr_track f) (sg_tracks s) = true /\ fr_data f <> [] /\
  (held_back s f = true -> IsValid f = true).
(* Frames in order of time with gaps of at most 32767 timecode units, the largest
   relative timecode of a block.  As long as only held-back frames were given,
   the gap counts from the first of them. *)
Definition steady (s : segment) (fs : list frame) : Prop :=
  let tc f := fr_timestamp f / si_timecode_scale (sg_info s) in
  sorted_ts fs /\
  (forall before a f after, fs = before ++ a :: f :: after -> tc f - tc a <= 32767) /\
  (forall a held f after, fs = (a :: held) ++ f :: after -> Forall (fun g => held_back s g = true) (a :: held) -> tc f - tc a <= 32767).

(* ---------- sessions ---------- *)

(* A session: a configured file-mode segment, a new file on a seekable or
   non-seekable writer, and calls that add at least one frame.  The caller passes
   only valid frames to tracks whose frames are held back (the muxer does not
   look at those when it accepts them). *)
Record session (s : segment) (seekable : bool) (cs : list call) (w : wstate) : Prop := mkSession {
  ses_ready : ready s;
  ses_file : sg_live s = false;
  ses_new : new_file seekable w;
  ses_some : given cs <> [];
  ses_args : Forall frame_args (given cs);
  ses_held : Forall (fun f => held_back s f = true -> IsValid f = true) (given cs);
  ses_fits : fits_file s (given cs)
}.

(* running it: the answers h to the frames given, the segment s1 before
   Finalize, the answer of Finalize and the file *)
Definition muxes (s : segment) (cs : list call) (w : wstate) (h : list (frame * bool)) (s1 : segment)
           (finalized : bool) (file : list Z) : Prop :=
  exists w1 s2 w2, run_calls cs s w = Val ((h, s1), w1) /\
    Segment_Finalize s1 w1 = Val ((finalized, s2), w2) /\ file = w_file w2.

(* well-behaved input *)
Definition orderly (s : segment) (cs : list call) : Prop :=
  steady s (given cs) /\ Forall (can_write s) (given cs).

Definition doc_type_of (dt : list Z) : Prop := dt = kDocTypeWebm \/ dt = kDocTypeMatroska.

(* the IDs a seek head lists *)
Definition seek_ids (s : segment) (cues : bool) : list Z :=
  [kMkvInfo; kMkvTracks] ++ match sg_chapters s with [] => [] | _ => [kMkvChapters] end ++
  match sg_tags s with [] => [] | _ => [kMkvTags] end ++ [kMkvCluster] ++ (if cues then [kMkvCues] else []).
