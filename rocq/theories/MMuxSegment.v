(* Model of the muxer's Tracks, Cluster, SeekHead and Segment classes:
   mkvmuxer/mkvmuxer.cc:1749-1844, 2453-2886, 3047-4211.

   Simplifications: allocation never fails; one writer is used for headers,
   clusters and cues (chunking, SetChunking, is not modelled); the 32-bit list
   sizes and capacities do not overflow.  The out-of-fuel branch of the loops is
   undefined behaviour, so that a theorem that shows a result also shows that
   the loop ended. *)
From Coq Require Import Floats.SpecFloat.
From Verif Require Import Base MWriter MFloat MMuxUtil Ids MMuxBlock MMuxMeta.

(* a computation without output among the writes; no code of its own (cf. mkvmuxer.h:46-75) *)
Definition lift {A} (o : outcome A) : W A := fun w => match o with Val a => Val (a, w) | UB => UB end.
(* unsigned division; division by zero is undefined: e.g. mkvmuxer.cc:3405, 3523, 3792 *)
Definition udiv (a b : Z) : outcome Z := if b =? 0 then UB else Val (a / b).
(* reading and writing one of the arrays indexed by track number - 1; an index
   outside the array is undefined: e.g. mkvmuxer.cc:3261-3268, 3548 *)
Definition arr_get (l : list Z) (i : Z) : outcome Z :=
  if (0 <=? i) && (i <? zlen l) then Val (nth (Z.to_nat i) l 0) else UB.
Definition arr_set (l : list Z) (i v : Z) : outcome (list Z) :=
  if (0 <=? i) && (i <? zlen l)
  then Val (firstn (Z.to_nat i) l ++ v :: skipn (S (Z.to_nat i)) l) else UB.

(* std::map with integer keys (mkvmuxer.h:1325, 1381, 1385): association list in
   increasing key order *)
Definition zmap (A : Type) : Type := list (Z * A).
Fixpoint zm_find {A} (k : Z) (m : zmap A) : option A :=
  match m with
  | [] => None
  | (k', v) :: m' => if k =? k' then Some v else zm_find k m'
  end.
Fixpoint zm_set {A} (k : Z) (v : A) (m : zmap A) : zmap A :=
  match m with
  | [] => [(k, v)]
  | (k', v') :: m' =>
      if k <? k' then (k, v) :: m
      else if k =? k' then (k, v) :: m'
      else (k', v') :: zm_set k v m'
  end.
Fixpoint zm_del {A} (k : Z) (m : zmap A) : zmap A :=
  match m with
  | [] => []
  | (k', v) :: m' => if k =? k' then m' else (k', v) :: zm_del k m'
  end.

(* ---------- Tracks ---------- *)

(* Tracks::kVideo, kAudio: mkvmuxer.h:873 *)
Definition kVideoType : Z := 1.   (* Tracks::kVideo: mkvmuxer.h:873 *)
Definition kAudioType : Z := 2.   (* Tracks::kAudio: mkvmuxer.h:873 *)

(* Track::set_number: mkvmuxer.h:692 *)
Definition tk_set_number (n : Z) (t : track) : track :=
  mkTrack (tk_kind t) (tk_codec_id t) (tk_codec_private t) (tk_language t) (tk_name t)
          (tk_max_block_additional_id t) n (tk_type t) (tk_uid t) (tk_codec_delay t)
          (tk_seek_pre_roll t) (tk_default_duration t) (tk_encodings t).

(* some track already has the number: mkvmuxer.cc:1766-1769, 1791-1797 *)
Definition number_used (l : list track) (n : Z) : bool := existsb (fun t => tk_number t =? n) l.

(* the do-while search of mkvmuxer.cc:1788-1798 (uint32 counter); None: out of fuel *)
Fixpoint next_number (fuel : nat) (l : list track) (n : Z) : option Z :=
  match fuel with
  | O => None
  | S fuel' => if number_used l n then next_number fuel' l (wrap32 (n + 1)) else Some n
  end.

(* Tracks::AddTrack: mkvmuxer.cc:1749-1806 *)
Definition Tracks_AddTrack (l : list track) (wrote_tracks : bool) (t : track) (number : Z)
  : outcome (bool * list track) :=
  if (number <? 0) || wrote_tracks then Val (false, l)
  else if number >? 126 then Val (false, l)
  else if (number >? 0) && number_used l number then Val (false, l)
  else
    match (if number =? 0 then next_number (S (length l)) l (wrap32 (zlen l + 1)) else Some number) with
    | None => UB
    | Some n => Val (true, l ++ [tk_set_number n t])
    end.

(* Tracks::GetTrackByNumber: mkvmuxer.cc:1818-1826 *)
Definition GetTrackByNumber (l : list track) (n : Z) : option track :=
  find (fun t => tk_number t =? n) l.
(* Tracks::TrackIsAudio, TrackIsVideo: mkvmuxer.cc:1828-1844; a missing track is
   a null pointer dereference *)
Definition TrackIsAudio (l : list track) (n : Z) : outcome bool :=
  match GetTrackByNumber l n with None => UB | Some t => Val (tk_type t =? kAudioType) end.
Definition TrackIsVideo (l : list track) (n : Z) : outcome bool :=
  match GetTrackByNumber l n with None => UB | Some t => Val (tk_type t =? kVideoType) end.

(* ---------- Cluster ---------- *)

(* mkvmuxer.h:1346-1388 *)
Record cluster := mkCl {
  cl_blocks : Z;   (* blocks_added_ : int32 *)
  cl_finalized : bool;
  cl_fixed : bool;   (* fixed_size_timecode_ *)
  cl_header : bool;   (* header_written_ *)
  cl_payload : Z;   (* payload_size_ : uint64 *)
  cl_cues_pos : Z;   (* position_for_cues_ *)
  cl_size_pos : Z;   (* size_position_ *)
  cl_tc : Z;   (* timecode_ *)
  cl_scale : Z;   (* timecode_scale_ *)
  cl_write_last : bool;   (* write_last_frame_with_duration_ *)
  cl_stored : zmap (list (option frame));   (* stored_frames_; None = a deleted frame *)
  cl_last_ts : zmap Z   (* last_block_timestamp_ *)
}.
(* assignments to the fields of a Cluster (mkvmuxer.h:1201-1391) *)
Definition cl_set_blocks (v : Z) (x : cluster) : cluster :=
  mkCl v (cl_finalized x) (cl_fixed x) (cl_header x) (cl_payload x) (cl_cues_pos x) (cl_size_pos x) (cl_tc x) (cl_scale x) (cl_write_last x) (cl_stored x) (cl_last_ts x).
Definition cl_set_finalized (v : bool) (x : cluster) : cluster :=
  mkCl (cl_blocks x) v (cl_fixed x) (cl_header x) (cl_payload x) (cl_cues_pos x) (cl_size_pos x) (cl_tc x) (cl_scale x) (cl_write_last x) (cl_stored x) (cl_last_ts x).
Definition cl_set_header (v : bool) (x : cluster) : cluster :=
  mkCl (cl_blocks x) (cl_finalized x) (cl_fixed x) v (cl_payload x) (cl_cues_pos x) (cl_size_pos x) (cl_tc x) (cl_scale x) (cl_write_last x) (cl_stored x) (cl_last_ts x).
Definition cl_set_payload (v : Z) (x : cluster) : cluster :=
  mkCl (cl_blocks x) (cl_finalized x) (cl_fixed x) (cl_header x) v (cl_cues_pos x) (cl_size_pos x) (cl_tc x) (cl_scale x) (cl_write_last x) (cl_stored x) (cl_last_ts x).
Definition cl_set_size_pos (v : Z) (x : cluster) : cluster :=
  mkCl (cl_blocks x) (cl_finalized x) (cl_fixed x) (cl_header x) (cl_payload x) (cl_cues_pos x) v (cl_tc x) (cl_scale x) (cl_write_last x) (cl_stored x) (cl_last_ts x).
Definition cl_set_stored (v : zmap (list (option frame))) (x : cluster) : cluster :=
  mkCl (cl_blocks x) (cl_finalized x) (cl_fixed x) (cl_header x) (cl_payload x) (cl_cues_pos x) (cl_size_pos x) (cl_tc x) (cl_scale x) (cl_write_last x) v (cl_last_ts x).
Definition cl_set_last_ts (v : zmap Z) (x : cluster) : cluster :=
  mkCl (cl_blocks x) (cl_finalized x) (cl_fixed x) (cl_header x) (cl_payload x) (cl_cues_pos x) (cl_size_pos x) (cl_tc x) (cl_scale x) (cl_write_last x) (cl_stored x) v.

(* Cluster::Cluster and Init: mkvmuxer.cc:2453-2465, 2479-2485 *)
Definition new_cluster (timecode cues_pos timecode_scale : Z) (write_last fixed : bool) : cluster :=
  mkCl 0 false fixed false 0 cues_pos (-1) timecode timecode_scale write_last [] [].

(* mkvmuxerutil.h:28 *)
Definition kEbmlUnknownValue : Z := 0x01FFFFFFFFFFFFFF.   (* mkvmuxerutil.h:28 *)

(* Cluster::WriteClusterHeader: mkvmuxer.cc:2727-2751 *)
Definition WriteClusterHeader (c : cluster) : W (bool * cluster) :=
  if cl_finalized c then ret (false, c) else
  check_status (WriteID kMkvCluster) (false, c) (
  pos <- w_position;;
  let c := cl_set_size_pos pos c in
  check_status (SerializeInt kEbmlUnknownValue 8) (false, c) (
  let width := if cl_fixed c then 8 else 0 in
  check_true (WriteEbmlElementUIntFixed kMkvTimecode (cl_tc c) width) (false, c) (
  ret (true, cl_set_header true
               (cl_set_payload (wrap64 (cl_payload c + EbmlElementSizeUIntFixed kMkvTimecode (cl_tc c) width)) c))))).

(* Cluster::PreWriteBlock: mkvmuxer.cc:2625-2635 *)
Definition PreWriteBlock (c : cluster) : W (bool * cluster) :=
  if cl_finalized c then ret (false, c)
  else if negb (cl_header c) then WriteClusterHeader c
  else ret (true, c).

(* Cluster::DoWriteFrame with PostWriteBlock: mkvmuxer.cc:2637-2640, 2653-2667;
   incrementing the int32 blocks_added_ beyond its range is undefined *)
Definition DoWriteFrame (c : cluster) (f : frame) : W (bool * cluster) :=
  if negb (IsValid f) then ret (false, c) else
  r <- PreWriteBlock c;;
  let '(ok, c) := r in
  if negb ok then ret (false, c) else
  element_size <- WriteFrame f (cl_tc c) (cl_scale c);;
  if element_size =? 0 then ret (false, c) else
  if cl_blocks c >=? INT_MAX then wub else
  ret (true, cl_set_last_ts (zm_set (fr_track f) (fr_timestamp f) (cl_last_ts c))
               (cl_set_blocks (cl_blocks c + 1)
                  (cl_set_payload (wrap64 (cl_payload c + element_size)) c))).

(* timestamp of the first stored frame of a track: mkvmuxer.cc:2563, 2569, 2703.
   front() of an empty list and a deleted frame are undefined. *)
Definition front (l : list (option frame)) : outcome frame :=
  match l with Some f :: _ => Val f | _ => UB end.

(* mkvmuxer.cc:2697-2708: no other track holds back an earlier frame *)
Fixpoint okay_to_write (others : zmap (list (option frame))) (f : frame) : outcome bool :=
  match others with
  | [] => Val true
  | (_, l) :: r =>
      match front l with
      | UB => UB
      | Val g => if fr_timestamp g <? fr_timestamp f then Val false else okay_to_write r f
      end
  end.

(* mkvmuxer.cc:2691-2723: write the frames of one track except the last, as long
   as that is okay; result: success, number of frames deleted *)
Fixpoint flush_track (c : cluster) (others : zmap (list (option frame))) (l : list (option frame))
         (done : nat) : W (bool * nat * cluster) :=
  match l with
  | [] => wub
  | [_] => ret (true, done, c)
  | None :: _ => wub
  | Some f :: l' =>
      match okay_to_write others f with
      | UB => wub
      | Val false => ret (true, done, c)
      | Val true =>
          r <- DoWriteFrame c f;;
          let '(ok, c) := r in
          if negb ok then ret (false, S done, c) else flush_track c others l' (S done)
      end
  end.

(* Cluster::QueueOrWriteFrame: mkvmuxer.cc:2669-2725.  When writing fails the
   deleted frames stay in the list. *)
Definition QueueOrWriteFrame (c : cluster) (f : frame) : W (bool * cluster) :=
  if negb (IsValid f) then ret (false, c)
  else if negb (cl_write_last c) then DoWriteFrame c f
  else
    let n := fr_track f in
    let l := match zm_find n (cl_stored c) with Some l => l | None => [] end ++ [Some (CopyFrom f)] in
    let c := cl_set_stored (zm_set n l (cl_stored c)) c in
    r <- flush_track c (zm_del n (cl_stored c)) l 0;;
    let '(ok, done, c) := r in
    if negb ok then ret (false, cl_set_stored (zm_set n (repeat None done ++ skipn done l) (cl_stored c)) c)
    else ret (true, cl_set_stored (zm_set n (skipn done l) (cl_stored c)) c).

(* mkvmuxer.cc:2563-2572: the stored frame with the least timestamp, the first
   track winning ties *)
Fixpoint pick_min (cur : frame) (rest : zmap (list (option frame))) : outcome frame :=
  match rest with
  | [] => Val cur
  | (_, l) :: r =>
      match front l with
      | UB => UB
      | Val g => pick_min (if fr_timestamp g <? fr_timestamp cur then g else cur) r
      end
  end.

(* mkvmuxer.cc:2574-2583: duration - timestamp is unsigned *)
Definition last_frame_duration (c : cluster) (set_last : bool) (duration : Z) (l : list (option frame))
           (f : frame) : frame :=
  if set_last && (zlen l =? 1) && negb (fr_duration_set f) then
    let f := set_duration f (wrap64 (duration - fr_timestamp f)) in
    if negb (fr_is_key f) && negb (fr_ref_set f) then
      set_reference_block_timestamp f (match zm_find (fr_track f) (cl_last_ts c) with Some t => t | None => 0 end)
    else f
  else f.

(* mkvmuxer.cc:2559-2595: write the stored frames in timestamp order *)
Fixpoint merge_stored (fuel : nat) (c : cluster) (set_last : bool) (duration : Z) : W (bool * cluster) :=
  match cl_stored c with
  | [] => ret (true, c)
  | (_, l0) :: rest =>
      match fuel with
      | O => wub
      | S fuel' =>
          match front l0 with
          | UB => wub
          | Val f0 =>
              match pick_min f0 rest with
              | UB => wub
              | Val f =>
                  let n := fr_track f in
                  let l := match zm_find n (cl_stored c) with Some l => l | None => [] end in
                  r <- DoWriteFrame c (last_frame_duration c set_last duration l f);;
                  let '(wrote, c) := r in
                  let l' := tl l in
                  let c := cl_set_stored (match l' with
                                          | [] => zm_del n (cl_stored c)
                                          | _ => zm_set n l' (cl_stored c)
                                          end) c in
                  if negb wrote then ret (false, c) else merge_stored fuel' c set_last duration
              end
          end
      end
  end.

(* the number of frames in stored_frames_ (mkvmuxer.h:1381), the bound of the loop mkvmuxer.cc:2562-2591 *)
Definition stored_count (c : cluster) : nat := list_sum (map (fun p => length (snd p)) (cl_stored c)).

(* Cluster::Finalize(bool, uint64_t): mkvmuxer.cc:2555-2616 *)
Definition Cluster_Finalize (c : cluster) (set_last : bool) (duration : Z) : W (bool * cluster) :=
  if cl_finalized c then ret (false, c) else
  r <- (if cl_write_last c then merge_stored (S (stored_count c)) c set_last duration else ret (true, c));;
  let '(ok, c) := r in
  if negb ok then ret (false, c) else
  if cl_size_pos c =? -1 then ret (false, c) else
  seekable <- w_is_seekable;;
  if seekable then
    pos <- w_position;;
    check_status (w_seek (cl_size_pos c)) (false, c) (
    check_status (WriteUIntSize (cl_payload c) 8) (false, c) (
    check_status (w_seek pos) (false, c) (
    ret (true, cl_set_finalized true c))))
  else ret (true, cl_set_finalized true c).

(* ---------- SeekHead ---------- *)

(* mkvmuxer.h:1395-1444; always kSeekEntryCount = 5 entries (ID, position) *)
Record seek_head := mkSH { sh_entries : list (Z * Z); sh_start : Z }.
(* SeekHead::SeekHead: mkvmuxer.cc:2757-2762 *)
Definition new_seek_head : seek_head := mkSH (repeat (0, 0) 5) 0.

(* SeekHead::MaxEntrySize: mkvmuxer.cc:2875-2886 *)
Definition MaxEntrySize : Z :=
  let payload := EbmlElementSizeUInt kMkvSeekID 0xffffffff
                 + EbmlElementSizeUInt kMkvSeekPosition 0xffffffffffffffff in
  EbmlMasterElementSize kMkvSeek payload + payload.

(* SeekHead::AddSeekEntry: mkvmuxer.cc:2844-2853 *)
Fixpoint add_entry (l : list (Z * Z)) (id pos : Z) : option (list (Z * Z)) :=
  match l with
  | [] => None
  | (i, p) :: r =>
      if i =? 0 then Some ((id, pos) :: r)
      else match add_entry r id pos with None => None | Some r' => Some ((i, p) :: r') end
  end.
Definition AddSeekEntry (h : seek_head) (id pos : Z) : bool * seek_head :=
  match add_entry (sh_entries h) id (wrap64 pos) with
  | None => (false, h)
  | Some l => (true, mkSH l (sh_start h))
  end.

(* SeekHead::GetId, GetPosition, SetSeekEntry: mkvmuxer.cc:2855-2873 *)
Definition sh_index (i : Z) : bool := (0 <=? i) && (i <? 5).
Definition GetId (h : seek_head) (i : Z) : Z :=
  if sh_index i then fst (nth (Z.to_nat i) (sh_entries h) (0, 0)) else 0xffffffff.
Definition GetPosition (h : seek_head) (i : Z) : Z :=
  if sh_index i then snd (nth (Z.to_nat i) (sh_entries h) (0, 0)) else 0xffffffffffffffff.
Definition SetSeekEntry (h : seek_head) (i id pos : Z) : seek_head :=
  if sh_index i
  then mkSH (firstn (Z.to_nat i) (sh_entries h) ++ (id, pos) :: skipn (S (Z.to_nat i)) (sh_entries h)) (sh_start h)
  else h.

(* mkvmuxer.cc:2771-2785: size of the content of one Seek element, and the sum of
   the Seek elements of the used entries *)
Definition seek_entry_size (e : Z * Z) : Z :=
  EbmlElementSizeUInt kMkvSeekID (fst e) + EbmlElementSizeUInt kMkvSeekPosition (snd e).
Definition seek_used (h : seek_head) : list (Z * Z) := filter (fun e => negb (fst e =? 0)) (sh_entries h).
Definition seek_payload (h : seek_head) : Z :=
  size_sum (map (fun e => EbmlMasterElementSize kMkvSeek (seek_entry_size e) + seek_entry_size e) (seek_used h)).

(* mkvmuxer.cc:2798-2811 *)
Definition write_seek (e : Z * Z) : W bool :=
  write_seq [WriteEbmlMasterElement kMkvSeek (seek_entry_size e);
             WriteEbmlElementUInt kMkvSeekID (fst e);
             WriteEbmlElementUInt kMkvSeekPosition (snd e)].

(* bytes reserved for the seek head: mkvmuxer.cc:2813-2816, 2831-2833 *)
Definition seek_total_size : Z :=
  let total_entry_size := 5 * MaxEntrySize in
  EbmlMasterElementSize kMkvSeekHead total_entry_size + total_entry_size.

(* SeekHead::Finalize: mkvmuxer.cc:2766-2828 *)
Definition SeekHead_Finalize (h : seek_head) : W bool :=
  seekable <- w_is_seekable;;
  if negb seekable then ret true else
  if sh_start h =? -1 then ret false else
  if seek_payload h =? 0 then ret true else
  pos <- w_position;;
  check_status (w_seek (sh_start h)) false (
  check_true (WriteEbmlMasterElement kMkvSeekHead (seek_payload h)) false (
  check_true (write_seq (map write_seek (seek_used h))) false (
  here <- w_position;;
  let size_left := wrap64 (seek_total_size - (here - sh_start h)) in
  bytes_written <- WriteVoidElement size_left;;
  if bytes_written =? 0 then ret false else
  check_status (w_seek pos) false (ret true)))).

(* SeekHead::Write: mkvmuxer.cc:2830-2842 *)
Definition SeekHead_Write (h : seek_head) : W (bool * seek_head) :=
  pos <- w_position;;
  let h := mkSH (sh_entries h) pos in
  bytes_written <- WriteVoidElement seek_total_size;;
  ret (negb (bytes_written =? 0), h).

(* ---------- Segment ---------- *)

(* mkvmuxer.h:1776-1917 *)
Record segment := mkSeg {
  sg_tracks : list track;   (* tracks_ *)
  sg_wrote_tracks : bool;   (* tracks_.wrote_tracks_ *)
  sg_info : segment_info;
  sg_seek : seek_head;
  sg_chapters : list chapter;
  sg_tags : list tag;
  sg_cues : list cue_point;   (* cues_ *)
  sg_cues_out_block : bool;   (* cues_.output_block_number_ *)
  sg_clusters : list cluster;   (* cluster_list_, most recent first *)
  sg_cluster_end : Z;   (* cluster_end_offset_ *)
  sg_cues_track : Z;
  sg_force : bool;   (* force_new_cluster_ *)
  sg_frames : list (option frame);   (* frames_[0..frames_size_-1]; None = a deleted frame *)
  sg_frames_alloc : bool;   (* frames_ != NULL *)
  sg_has_video : bool;
  sg_header_written : bool;
  sg_last_dur : Z;   (* last_block_duration_ *)
  sg_last_ts : Z;   (* last_timestamp_ *)
  sg_track_ts : list Z;   (* last_track_timestamp_ *)
  sg_track_frames : list Z;   (* track_frames_written_ *)
  sg_max_dur : Z;   (* max_cluster_duration_ *)
  sg_max_size : Z;   (* max_cluster_size_ *)
  sg_live : bool;   (* mode_ == kLive *)
  sg_new_cue : bool;   (* new_cuepoint_ *)
  sg_output_cues : bool;
  sg_accurate : bool;   (* accurate_cluster_duration_ *)
  sg_fixed : bool;   (* fixed_size_cluster_timecode_ *)
  sg_estimate : bool;   (* estimate_file_duration_ *)
  sg_ebml_size : Z;   (* ebml_header_size_ *)
  sg_payload_pos : Z;   (* payload_pos_ *)
  sg_size_pos : Z;   (* size_position_ *)
  sg_dtv : Z;   (* doc_type_version_ *)
  sg_dtv_written : Z;   (* doc_type_version_written_ *)
  sg_duration : f64   (* duration_ *)
}.
Definition sg_set_tracks (v : list track) (x : segment) : segment :=
  mkSeg v (sg_wrote_tracks x) (sg_info x) (sg_seek x) (sg_chapters x) (sg_tags x) (sg_cues x) (sg_cues_out_block x) (sg_clusters x) (sg_cluster_end x) (sg_cues_track x) (sg_force x) (sg_frames x) (sg_frames_alloc x) (sg_has_video x) (sg_header_written x) (sg_last_dur x) (sg_last_ts x) (sg_track_ts x) (sg_track_frames x) (sg_max_dur x) (sg_max_size x) (sg_live x) (sg_new_cue x) (sg_output_cues x) (sg_accurate x) (sg_fixed x) (sg_estimate x) (sg_ebml_size x) (sg_payload_pos x) (sg_size_pos x) (sg_dtv x) (sg_dtv_written x) (sg_duration x).
Definition sg_set_wrote_tracks (v : bool) (x : segment) : segment :=
  mkSeg (sg_tracks x) v (sg_info x) (sg_seek x) (sg_chapters x) (sg_tags x) (sg_cues x) (sg_cues_out_block x) (sg_clusters x) (sg_cluster_end x) (sg_cues_track x) (sg_force x) (sg_frames x) (sg_frames_alloc x) (sg_has_video x) (sg_header_written x) (sg_last_dur x) (sg_last_ts x) (sg_track_ts x) (sg_track_frames x) (sg_max_dur x) (sg_max_size x) (sg_live x) (sg_new_cue x) (sg_output_cues x) (sg_accurate x) (sg_fixed x) (sg_estimate x) (sg_ebml_size x) (sg_payload_pos x) (sg_size_pos x) (sg_dtv x) (sg_dtv_written x) (sg_duration x).
Definition sg_set_info (v : segment_info) (x : segment) : segment :=
  mkSeg (sg_tracks x) (sg_wrote_tracks x) v (sg_seek x) (sg_chapters x) (sg_tags x) (sg_cues x) (sg_cues_out_block x) (sg_clusters x) (sg_cluster_end x) (sg_cues_track x) (sg_force x) (sg_frames x) (sg_frames_alloc x) (sg_has_video x) (sg_header_written x) (sg_last_dur x) (sg_last_ts x) (sg_track_ts x) (sg_track_frames x) (sg_max_dur x) (sg_max_size x) (sg_live x) (sg_new_cue x) (sg_output_cues x) (sg_accurate x) (sg_fixed x) (sg_estimate x) (sg_ebml_size x) (sg_payload_pos x) (sg_size_pos x) (sg_dtv x) (sg_dtv_written x) (sg_duration x).
Definition sg_set_seek (v : seek_head) (x : segment) : segment :=
  mkSeg (sg_tracks x) (sg_wrote_tracks x) (sg_info x) v (sg_chapters x) (sg_tags x) (sg_cues x) (sg_cues_out_block x) (sg_clusters x) (sg_cluster_end x) (sg_cues_track x) (sg_force x) (sg_frames x) (sg_frames_alloc x) (sg_has_video x) (sg_header_written x) (sg_last_dur x) (sg_last_ts x) (sg_track_ts x) (sg_track_frames x) (sg_max_dur x) (sg_max_size x) (sg_live x) (sg_new_cue x) (sg_output_cues x) (sg_accurate x) (sg_fixed x) (sg_estimate x) (sg_ebml_size x) (sg_payload_pos x) (sg_size_pos x) (sg_dtv x) (sg_dtv_written x) (sg_duration x).
Definition sg_set_cues (v : list cue_point) (x : segment) : segment :=
  mkSeg (sg_tracks x) (sg_wrote_tracks x) (sg_info x) (sg_seek x) (sg_chapters x) (sg_tags x) v (sg_cues_out_block x) (sg_clusters x) (sg_cluster_end x) (sg_cues_track x) (sg_force x) (sg_frames x) (sg_frames_alloc x) (sg_has_video x) (sg_header_written x) (sg_last_dur x) (sg_last_ts x) (sg_track_ts x) (sg_track_frames x) (sg_max_dur x) (sg_max_size x) (sg_live x) (sg_new_cue x) (sg_output_cues x) (sg_accurate x) (sg_fixed x) (sg_estimate x) (sg_ebml_size x) (sg_payload_pos x) (sg_size_pos x) (sg_dtv x) (sg_dtv_written x) (sg_duration x).
Definition sg_set_clusters (v : list cluster) (x : segment) : segment :=
  mkSeg (sg_tracks x) (sg_wrote_tracks x) (sg_info x) (sg_seek x) (sg_chapters x) (sg_tags x) (sg_cues x) (sg_cues_out_block x) v (sg_cluster_end x) (sg_cues_track x) (sg_force x) (sg_frames x) (sg_frames_alloc x) (sg_has_video x) (sg_header_written x) (sg_last_dur x) (sg_last_ts x) (sg_track_ts x) (sg_track_frames x) (sg_max_dur x) (sg_max_size x) (sg_live x) (sg_new_cue x) (sg_output_cues x) (sg_accurate x) (sg_fixed x) (sg_estimate x) (sg_ebml_size x) (sg_payload_pos x) (sg_size_pos x) (sg_dtv x) (sg_dtv_written x) (sg_duration x).
Definition sg_set_cluster_end (v : Z) (x : segment) : segment :=
  mkSeg (sg_tracks x) (sg_wrote_tracks x) (sg_info x) (sg_seek x) (sg_chapters x) (sg_tags x) (sg_cues x) (sg_cues_out_block x) (sg_clusters x) v (sg_cues_track x) (sg_force x) (sg_frames x) (sg_frames_alloc x) (sg_has_video x) (sg_header_written x) (sg_last_dur x) (sg_last_ts x) (sg_track_ts x) (sg_track_frames x) (sg_max_dur x) (sg_max_size x) (sg_live x) (sg_new_cue x) (sg_output_cues x) (sg_accurate x) (sg_fixed x) (sg_estimate x) (sg_ebml_size x) (sg_payload_pos x) (sg_size_pos x) (sg_dtv x) (sg_dtv_written x) (sg_duration x).
Definition sg_set_cues_track (v : Z) (x : segment) : segment :=
  mkSeg (sg_tracks x) (sg_wrote_tracks x) (sg_info x) (sg_seek x) (sg_chapters x) (sg_tags x) (sg_cues x) (sg_cues_out_block x) (sg_clusters x) (sg_cluster_end x) v (sg_force x) (sg_frames x) (sg_frames_alloc x) (sg_has_video x) (sg_header_written x) (sg_last_dur x) (sg_last_ts x) (sg_track_ts x) (sg_track_frames x) (sg_max_dur x) (sg_max_size x) (sg_live x) (sg_new_cue x) (sg_output_cues x) (sg_accurate x) (sg_fixed x) (sg_estimate x) (sg_ebml_size x) (sg_payload_pos x) (sg_size_pos x) (sg_dtv x) (sg_dtv_written x) (sg_duration x).
Definition sg_set_force (v : bool) (x : segment) : segment :=
  mkSeg (sg_tracks x) (sg_wrote_tracks x) (sg_info x) (sg_seek x) (sg_chapters x) (sg_tags x) (sg_cues x) (sg_cues_out_block x) (sg_clusters x) (sg_cluster_end x) (sg_cues_track x) v (sg_frames x) (sg_frames_alloc x) (sg_has_video x) (sg_header_written x) (sg_last_dur x) (sg_last_ts x) (sg_track_ts x) (sg_track_frames x) (sg_max_dur x) (sg_max_size x) (sg_live x) (sg_new_cue x) (sg_output_cues x) (sg_accurate x) (sg_fixed x) (sg_estimate x) (sg_ebml_size x) (sg_payload_pos x) (sg_size_pos x) (sg_dtv x) (sg_dtv_written x) (sg_duration x).
Definition sg_set_frames (v : list (option frame)) (x : segment) : segment :=
  mkSeg (sg_tracks x) (sg_wrote_tracks x) (sg_info x) (sg_seek x) (sg_chapters x) (sg_tags x) (sg_cues x) (sg_cues_out_block x) (sg_clusters x) (sg_cluster_end x) (sg_cues_track x) (sg_force x) v (sg_frames_alloc x) (sg_has_video x) (sg_header_written x) (sg_last_dur x) (sg_last_ts x) (sg_track_ts x) (sg_track_frames x) (sg_max_dur x) (sg_max_size x) (sg_live x) (sg_new_cue x) (sg_output_cues x) (sg_accurate x) (sg_fixed x) (sg_estimate x) (sg_ebml_size x) (sg_payload_pos x) (sg_size_pos x) (sg_dtv x) (sg_dtv_written x) (sg_duration x).
Definition sg_set_frames_alloc (v : bool) (x : segment) : segment :=
  mkSeg (sg_tracks x) (sg_wrote_tracks x) (sg_info x) (sg_seek x) (sg_chapters x) (sg_tags x) (sg_cues x) (sg_cues_out_block x) (sg_clusters x) (sg_cluster_end x) (sg_cues_track x) (sg_force x) (sg_frames x) v (sg_has_video x) (sg_header_written x) (sg_last_dur x) (sg_last_ts x) (sg_track_ts x) (sg_track_frames x) (sg_max_dur x) (sg_max_size x) (sg_live x) (sg_new_cue x) (sg_output_cues x) (sg_accurate x) (sg_fixed x) (sg_estimate x) (sg_ebml_size x) (sg_payload_pos x) (sg_size_pos x) (sg_dtv x) (sg_dtv_written x) (sg_duration x).
Definition sg_set_has_video (v : bool) (x : segment) : segment :=
  mkSeg (sg_tracks x) (sg_wrote_tracks x) (sg_info x) (sg_seek x) (sg_chapters x) (sg_tags x) (sg_cues x) (sg_cues_out_block x) (sg_clusters x) (sg_cluster_end x) (sg_cues_track x) (sg_force x) (sg_frames x) (sg_frames_alloc x) v (sg_header_written x) (sg_last_dur x) (sg_last_ts x) (sg_track_ts x) (sg_track_frames x) (sg_max_dur x) (sg_max_size x) (sg_live x) (sg_new_cue x) (sg_output_cues x) (sg_accurate x) (sg_fixed x) (sg_estimate x) (sg_ebml_size x) (sg_payload_pos x) (sg_size_pos x) (sg_dtv x) (sg_dtv_written x) (sg_duration x).
Definition sg_set_header_written (v : bool) (x : segment) : segment :=
  mkSeg (sg_tracks x) (sg_wrote_tracks x) (sg_info x) (sg_seek x) (sg_chapters x) (sg_tags x) (sg_cues x) (sg_cues_out_block x) (sg_clusters x) (sg_cluster_end x) (sg_cues_track x) (sg_force x) (sg_frames x) (sg_frames_alloc x) (sg_has_video x) v (sg_last_dur x) (sg_last_ts x) (sg_track_ts x) (sg_track_frames x) (sg_max_dur x) (sg_max_size x) (sg_live x) (sg_new_cue x) (sg_output_cues x) (sg_accurate x) (sg_fixed x) (sg_estimate x) (sg_ebml_size x) (sg_payload_pos x) (sg_size_pos x) (sg_dtv x) (sg_dtv_written x) (sg_duration x).
Definition sg_set_last_dur (v : Z) (x : segment) : segment :=
  mkSeg (sg_tracks x) (sg_wrote_tracks x) (sg_info x) (sg_seek x) (sg_chapters x) (sg_tags x) (sg_cues x) (sg_cues_out_block x) (sg_clusters x) (sg_cluster_end x) (sg_cues_track x) (sg_force x) (sg_frames x) (sg_frames_alloc x) (sg_has_video x) (sg_header_written x) v (sg_last_ts x) (sg_track_ts x) (sg_track_frames x) (sg_max_dur x) (sg_max_size x) (sg_live x) (sg_new_cue x) (sg_output_cues x) (sg_accurate x) (sg_fixed x) (sg_estimate x) (sg_ebml_size x) (sg_payload_pos x) (sg_size_pos x) (sg_dtv x) (sg_dtv_written x) (sg_duration x).
Definition sg_set_last_ts (v : Z) (x : segment) : segment :=
  mkSeg (sg_tracks x) (sg_wrote_tracks x) (sg_info x) (sg_seek x) (sg_chapters x) (sg_tags x) (sg_cues x) (sg_cues_out_block x) (sg_clusters x) (sg_cluster_end x) (sg_cues_track x) (sg_force x) (sg_frames x) (sg_frames_alloc x) (sg_has_video x) (sg_header_written x) (sg_last_dur x) v (sg_track_ts x) (sg_track_frames x) (sg_max_dur x) (sg_max_size x) (sg_live x) (sg_new_cue x) (sg_output_cues x) (sg_accurate x) (sg_fixed x) (sg_estimate x) (sg_ebml_size x) (sg_payload_pos x) (sg_size_pos x) (sg_dtv x) (sg_dtv_written x) (sg_duration x).
Definition sg_set_track_ts (v : list Z) (x : segment) : segment :=
  mkSeg (sg_tracks x) (sg_wrote_tracks x) (sg_info x) (sg_seek x) (sg_chapters x) (sg_tags x) (sg_cues x) (sg_cues_out_block x) (sg_clusters x) (sg_cluster_end x) (sg_cues_track x) (sg_force x) (sg_frames x) (sg_frames_alloc x) (sg_has_video x) (sg_header_written x) (sg_last_dur x) (sg_last_ts x) v (sg_track_frames x) (sg_max_dur x) (sg_max_size x) (sg_live x) (sg_new_cue x) (sg_output_cues x) (sg_accurate x) (sg_fixed x) (sg_estimate x) (sg_ebml_size x) (sg_payload_pos x) (sg_size_pos x) (sg_dtv x) (sg_dtv_written x) (sg_duration x).
Definition sg_set_track_frames (v : list Z) (x : segment) : segment :=
  mkSeg (sg_tracks x) (sg_wrote_tracks x) (sg_info x) (sg_seek x) (sg_chapters x) (sg_tags x) (sg_cues x) (sg_cues_out_block x) (sg_clusters x) (sg_cluster_end x) (sg_cues_track x) (sg_force x) (sg_frames x) (sg_frames_alloc x) (sg_has_video x) (sg_header_written x) (sg_last_dur x) (sg_last_ts x) (sg_track_ts x) v (sg_max_dur x) (sg_max_size x) (sg_live x) (sg_new_cue x) (sg_output_cues x) (sg_accurate x) (sg_fixed x) (sg_estimate x) (sg_ebml_size x) (sg_payload_pos x) (sg_size_pos x) (sg_dtv x) (sg_dtv_written x) (sg_duration x).
Definition sg_set_max_dur (v : Z) (x : segment) : segment :=
  mkSeg (sg_tracks x) (sg_wrote_tracks x) (sg_info x) (sg_seek x) (sg_chapters x) (sg_tags x) (sg_cues x) (sg_cues_out_block x) (sg_clusters x) (sg_cluster_end x) (sg_cues_track x) (sg_force x) (sg_frames x) (sg_frames_alloc x) (sg_has_video x) (sg_header_written x) (sg_last_dur x) (sg_last_ts x) (sg_track_ts x) (sg_track_frames x) v (sg_max_size x) (sg_live x) (sg_new_cue x) (sg_output_cues x) (sg_accurate x) (sg_fixed x) (sg_estimate x) (sg_ebml_size x) (sg_payload_pos x) (sg_size_pos x) (sg_dtv x) (sg_dtv_written x) (sg_duration x).
Definition sg_set_max_size (v : Z) (x : segment) : segment :=
  mkSeg (sg_tracks x) (sg_wrote_tracks x) (sg_info x) (sg_seek x) (sg_chapters x) (sg_tags x) (sg_cues x) (sg_cues_out_block x) (sg_clusters x) (sg_cluster_end x) (sg_cues_track x) (sg_force x) (sg_frames x) (sg_frames_alloc x) (sg_has_video x) (sg_header_written x) (sg_last_dur x) (sg_last_ts x) (sg_track_ts x) (sg_track_frames x) (sg_max_dur x) v (sg_live x) (sg_new_cue x) (sg_output_cues x) (sg_accurate x) (sg_fixed x) (sg_estimate x) (sg_ebml_size x) (sg_payload_pos x) (sg_size_pos x) (sg_dtv x) (sg_dtv_written x) (sg_duration x).
Definition sg_set_new_cue (v : bool) (x : segment) : segment :=
  mkSeg (sg_tracks x) (sg_wrote_tracks x) (sg_info x) (sg_seek x) (sg_chapters x) (sg_tags x) (sg_cues x) (sg_cues_out_block x) (sg_clusters x) (sg_cluster_end x) (sg_cues_track x) (sg_force x) (sg_frames x) (sg_frames_alloc x) (sg_has_video x) (sg_header_written x) (sg_last_dur x) (sg_last_ts x) (sg_track_ts x) (sg_track_frames x) (sg_max_dur x) (sg_max_size x) (sg_live x) v (sg_output_cues x) (sg_accurate x) (sg_fixed x) (sg_estimate x) (sg_ebml_size x) (sg_payload_pos x) (sg_size_pos x) (sg_dtv x) (sg_dtv_written x) (sg_duration x).
Definition sg_set_output_cues (v : bool) (x : segment) : segment :=
  mkSeg (sg_tracks x) (sg_wrote_tracks x) (sg_info x) (sg_seek x) (sg_chapters x) (sg_tags x) (sg_cues x) (sg_cues_out_block x) (sg_clusters x) (sg_cluster_end x) (sg_cues_track x) (sg_force x) (sg_frames x) (sg_frames_alloc x) (sg_has_video x) (sg_header_written x) (sg_last_dur x) (sg_last_ts x) (sg_track_ts x) (sg_track_frames x) (sg_max_dur x) (sg_max_size x) (sg_live x) (sg_new_cue x) v (sg_accurate x) (sg_fixed x) (sg_estimate x) (sg_ebml_size x) (sg_payload_pos x) (sg_size_pos x) (sg_dtv x) (sg_dtv_written x) (sg_duration x).
Definition sg_set_ebml_size (v : Z) (x : segment) : segment :=
  mkSeg (sg_tracks x) (sg_wrote_tracks x) (sg_info x) (sg_seek x) (sg_chapters x) (sg_tags x) (sg_cues x) (sg_cues_out_block x) (sg_clusters x) (sg_cluster_end x) (sg_cues_track x) (sg_force x) (sg_frames x) (sg_frames_alloc x) (sg_has_video x) (sg_header_written x) (sg_last_dur x) (sg_last_ts x) (sg_track_ts x) (sg_track_frames x) (sg_max_dur x) (sg_max_size x) (sg_live x) (sg_new_cue x) (sg_output_cues x) (sg_accurate x) (sg_fixed x) (sg_estimate x) v (sg_payload_pos x) (sg_size_pos x) (sg_dtv x) (sg_dtv_written x) (sg_duration x).
Definition sg_set_payload_pos (v : Z) (x : segment) : segment :=
  mkSeg (sg_tracks x) (sg_wrote_tracks x) (sg_info x) (sg_seek x) (sg_chapters x) (sg_tags x) (sg_cues x) (sg_cues_out_block x) (sg_clusters x) (sg_cluster_end x) (sg_cues_track x) (sg_force x) (sg_frames x) (sg_frames_alloc x) (sg_has_video x) (sg_header_written x) (sg_last_dur x) (sg_last_ts x) (sg_track_ts x) (sg_track_frames x) (sg_max_dur x) (sg_max_size x) (sg_live x) (sg_new_cue x) (sg_output_cues x) (sg_accurate x) (sg_fixed x) (sg_estimate x) (sg_ebml_size x) v (sg_size_pos x) (sg_dtv x) (sg_dtv_written x) (sg_duration x).
Definition sg_set_size_pos (v : Z) (x : segment) : segment :=
  mkSeg (sg_tracks x) (sg_wrote_tracks x) (sg_info x) (sg_seek x) (sg_chapters x) (sg_tags x) (sg_cues x) (sg_cues_out_block x) (sg_clusters x) (sg_cluster_end x) (sg_cues_track x) (sg_force x) (sg_frames x) (sg_frames_alloc x) (sg_has_video x) (sg_header_written x) (sg_last_dur x) (sg_last_ts x) (sg_track_ts x) (sg_track_frames x) (sg_max_dur x) (sg_max_size x) (sg_live x) (sg_new_cue x) (sg_output_cues x) (sg_accurate x) (sg_fixed x) (sg_estimate x) (sg_ebml_size x) (sg_payload_pos x) v (sg_dtv x) (sg_dtv_written x) (sg_duration x).
Definition sg_set_dtv (v : Z) (x : segment) : segment :=
  mkSeg (sg_tracks x) (sg_wrote_tracks x) (sg_info x) (sg_seek x) (sg_chapters x) (sg_tags x) (sg_cues x) (sg_cues_out_block x) (sg_clusters x) (sg_cluster_end x) (sg_cues_track x) (sg_force x) (sg_frames x) (sg_frames_alloc x) (sg_has_video x) (sg_header_written x) (sg_last_dur x) (sg_last_ts x) (sg_track_ts x) (sg_track_frames x) (sg_max_dur x) (sg_max_size x) (sg_live x) (sg_new_cue x) (sg_output_cues x) (sg_accurate x) (sg_fixed x) (sg_estimate x) (sg_ebml_size x) (sg_payload_pos x) (sg_size_pos x) v (sg_dtv_written x) (sg_duration x).
Definition sg_set_dtv_written (v : Z) (x : segment) : segment :=
  mkSeg (sg_tracks x) (sg_wrote_tracks x) (sg_info x) (sg_seek x) (sg_chapters x) (sg_tags x) (sg_cues x) (sg_cues_out_block x) (sg_clusters x) (sg_cluster_end x) (sg_cues_track x) (sg_force x) (sg_frames x) (sg_frames_alloc x) (sg_has_video x) (sg_header_written x) (sg_last_dur x) (sg_last_ts x) (sg_track_ts x) (sg_track_frames x) (sg_max_dur x) (sg_max_size x) (sg_live x) (sg_new_cue x) (sg_output_cues x) (sg_accurate x) (sg_fixed x) (sg_estimate x) (sg_ebml_size x) (sg_payload_pos x) (sg_size_pos x) (sg_dtv x) v (sg_duration x).

(* Segment::Segment and Init: mkvmuxer.cc:3047-3090, 3179-3191 (the version
   string of the library is an argument) *)
Definition new_segment (app : list Z) : segment :=
  mkSeg [] false (mkSI (f64_of_Z (-1)) (Some app) 1000000 (Some app) INT64_MIN (-1)) new_seek_head [] [] []
        true [] 0 0 false [] false false false 0 0 (repeat 0 126) (repeat 0 126)
        30000000000 0 false false true false false false 0 0 0 4 0 (f64_of_Z 0).

(* Segment::UpdateDocTypeVersion: mkvmuxer.cc:3986-3997 *)
Definition UpdateDocTypeVersion (s : segment) : segment :=
  if existsb (fun t => nz (tk_codec_delay t) || nz (tk_seek_pre_roll t)) (sg_tracks s) && (sg_dtv s <? 4)
  then sg_set_dtv 4 s else s.

(* codec IDs: mkvmuxer.cc:1726-1734 *)
Definition kWebmCodecIds : list (list Z) :=
  [ (* A_OPUS *) [65; 95; 79; 80; 85; 83];
    (* A_VORBIS *) [65; 95; 86; 79; 82; 66; 73; 83];
    (* V_AV1 *) [86; 95; 65; 86; 49];
    (* V_VP8 *) [86; 95; 86; 80; 56];
    (* V_VP9 *) [86; 95; 86; 80; 57];
    (* D_WEBVTT/CAPTIONS *) [68; 95; 87; 69; 66; 86; 84; 84; 47; 67; 65; 80; 84; 73; 79; 78; 83];
    (* D_WEBVTT/DESCRIPTIONS *)
    [68; 95; 87; 69; 66; 86; 84; 84; 47; 68; 69; 83; 67; 82; 73; 80; 84; 73; 79; 78; 83];
    (* D_WEBVTT/METADATA *) [68; 95; 87; 69; 66; 86; 84; 84; 47; 77; 69; 84; 65; 68; 65; 84; 65];
    (* D_WEBVTT/SUBTITLES *) [68; 95; 87; 69; 66; 86; 84; 84; 47; 83; 85; 66; 84; 73; 84; 76; 69; 83]].

(* Segment::DocTypeIsWebm: mkvmuxer.cc:4182-4211; a track without codec id
   constructs a string from a null pointer *)
Fixpoint DocTypeIsWebm (l : list track) : outcome bool :=
  match l with
  | [] => Val true
  | t :: r =>
      match tk_codec_id t with
      | None => UB
      | Some c => if existsb (fun k => if list_eq_dec Z.eq_dec c k then true else false) kWebmCodecIds
                  then DocTypeIsWebm r else Val false
      end
  end.
(* mkvmuxer.cc:3700-3702, 3322-3323 *)
Definition doc_type (s : segment) : W (list Z) :=
  is_webm <- lift (DocTypeIsWebm (sg_tracks s));;
  ret (if is_webm then kDocTypeWebm else kDocTypeMatroska).

(* Segment::MaxOffset: mkvmuxer.cc:4027-4044 *)
Definition MaxOffset (s : segment) : W Z := pos <- w_position;; ret (pos - sg_payload_pos s).

(* seek_head_.AddSeekEntry(id, MaxOffset()): mkvmuxer.cc:3281, 3734-3752 *)
Definition seek_entry_here (s : segment) (id : Z) : W (bool * segment) :=
  off <- MaxOffset s;;
  let '(ok, h) := AddSeekEntry (sg_seek s) id off in
  ret (ok, sg_set_seek h s).

(* segment_info_.set_duration: mkvmuxer.h:1463 *)
Definition si_set_duration (d : f64) (i : segment_info) : segment_info :=
  mkSI d (si_muxing_app i) (si_timecode_scale i) (si_writing_app i) (si_date_utc i) (si_duration_pos i).
Definition si_set_duration_pos (p : Z) (i : segment_info) : segment_info :=
  mkSI (si_duration i) (si_muxing_app i) (si_timecode_scale i) (si_writing_app i) (si_date_utc i) p.

(* Segment::WriteSegmentHeader: mkvmuxer.cc:3698-3768 *)
Definition WriteSegmentHeader (s : segment) : W (bool * segment) :=
  let s := UpdateDocTypeVersion s in
  dt <- doc_type s;;
  check_true (WriteEbmlHeader (sg_dtv s) dt) (false, s) (
  pos <- w_position;;
  let s := sg_set_ebml_size (sint32 pos) (sg_set_dtv_written (sg_dtv s) s) in
  check_status (WriteID kMkvSegment) (false, s) (
  pos <- w_position;;
  let s := sg_set_size_pos pos s in
  check_status (SerializeInt kEbmlUnknownValue 8) (false, s) (
  pos <- w_position;;
  let s := sg_set_payload_pos pos s in
  seekable <- w_is_seekable;;
  r <- (if negb (sg_live s) && seekable then
          let s := sg_set_info (si_set_duration (f64_of_Z 1) (sg_info s)) s in
          r <- SeekHead_Write (sg_seek s);;
          let '(ok, h) := r in ret (ok, sg_set_seek h s)
        else ret (true, s));;
  let '(ok, s) := r in
  if negb ok then ret (false, s) else
  r <- seek_entry_here s kMkvInfo;;
  let '(ok, s) := r in
  if negb ok then ret (false, s) else
  r <- SegmentInfo_Write (sg_info s);;
  let '(ok, dpos) := r in
  let s := sg_set_info (si_set_duration_pos dpos (sg_info s)) s in
  if negb ok then ret (false, s) else
  r <- seek_entry_here s kMkvTracks;;
  let '(ok, s) := r in
  if negb ok then ret (false, s) else
  ok <- Tracks_Write (sg_tracks s);;
  let s := sg_set_wrote_tracks (ok || sg_wrote_tracks s) s in
  if negb ok then ret (false, s) else
  r <- (if zlen (sg_chapters s) >? 0 then
          r <- seek_entry_here s kMkvChapters;;
          let '(ok, s) := r in
          if negb ok then ret (false, s) else
          ok <- Chapters_Write (sg_chapters s);; ret (ok, s)
        else ret (true, s));;
  let '(ok, s) := r in
  if negb ok then ret (false, s) else
  r <- (if zlen (sg_tags s) >? 0 then
          r <- seek_entry_here s kMkvTags;;
          let '(ok, s) := r in
          if negb ok then ret (false, s) else
          ok <- Tags_Write (sg_tags s);; ret (ok, s)
        else ret (true, s));;
  let '(ok, s) := r in
  if negb ok then ret (false, s) else
  ret (true, sg_set_header_written true s)))).

(* the first video track: mkvmuxer.cc:3962-3970 *)
Definition first_video (l : list track) : option track :=
  find (fun t => match TrackIsVideo l (tk_number t) with Val b => b | UB => false end) l.

(* Segment::CheckHeaderInfo: mkvmuxer.cc:3952-3984 *)
Definition CheckHeaderInfo (s : segment) : W (bool * segment) :=
  if sg_header_written s then ret (true, s) else
  r <- WriteSegmentHeader s;;
  let '(ok, s) := r in
  if negb ok then ret (false, s) else
  r <- seek_entry_here s kMkvCluster;;
  let '(ok, s) := r in
  if negb ok then ret (false, s) else
  if sg_output_cues s && (sg_cues_track s =? 0) then
    match first_video (sg_tracks s) with
    | Some t =>
        if negb (tk_number t =? 0) then ret (true, sg_set_cues_track (tk_number t) s)
        else match sg_tracks s with
             | t0 :: _ => ret (true, sg_set_cues_track (tk_number t0) s)
             | [] => ret (false, s)
             end
    | None =>
        match sg_tracks s with
        | t0 :: _ => ret (true, sg_set_cues_track (tk_number t0) s)
        | [] => ret (false, s)
        end
    end
  else ret (true, s).

(* Segment::AddCuePoint and Cues::AddCue: mkvmuxer.cc:3393-3416, 397-427 *)
Definition AddCuePoint (s : segment) (timestamp track : Z) : outcome (bool * segment) :=
  match sg_clusters s with
  | [] => Val (false, s)
  | c :: _ =>
      match udiv timestamp (si_timecode_scale (sg_info s)) with
      | UB => UB
      | Val time =>
          let cue := mkCue time track (wrap64 (cl_cues_pos c)) (wrap64 (cl_blocks c)) (sg_cues_out_block s) in
          Val (true, sg_set_new_cue false (sg_set_cues (sg_cues s ++ [cue]) s))
      end
  end.

(* replace the current cluster, cluster_list_[cluster_list_size_ - 1]: mkvmuxer.cc:3560 *)
Definition set_cluster (c : cluster) (s : segment) : segment := sg_set_clusters (c :: tl (sg_clusters s)) s.

(* the part common to the two loops that write queued frames
   (mkvmuxer.cc:4086-4108, 4144-4162): doc type version, AddFrame, cue point, last
   timestamps; the boolean tells whether the end of the loop body is reached *)
Definition write_queued (s : segment) (f : frame) : W (bool * segment) :=
  let s := if negb (fr_discard f =? 0) then sg_set_dtv 4 s else s in
  match sg_clusters s with
  | [] => wub
  | c :: _ =>
      r <- QueueOrWriteFrame c f;;
      let '(ok, c) := r in
      let s := set_cluster c s in
      if negb ok then ret (false, s) else
      r <- (if sg_new_cue s && (sg_cues_track s =? fr_track f)
            then lift (AddCuePoint s (fr_timestamp f) (sg_cues_track s)) else ret (true, s));;
      let '(ok, s) := r in
      if negb ok then ret (false, s) else
      if fr_timestamp f >? sg_last_ts s then
        a <- lift (arr_set (sg_track_ts s) (fr_track f - 1) (fr_timestamp f));;
        ret (true, sg_set_track_ts a (sg_set_last_ts (fr_timestamp f) s))
      else ret (true, s)
  end.

(* Segment::WriteFramesAll: mkvmuxer.cc:4074-4117.  Failures to add a frame are
   ignored. *)
Fixpoint write_all_loop (s : segment) (fs : list (option frame)) : W segment :=
  match fs with
  | [] => ret s
  | None :: _ => wub
  | Some f :: r => x <- write_queued s f;; write_all_loop (snd x) r
  end.
Definition WriteFramesAll (s : segment) : W (Z * segment) :=
  if negb (sg_frames_alloc s) then ret (0, s)
  else match sg_clusters s with
       | [] => ret (-1, s)
       | _ =>
           let n := zlen (sg_frames s) in
           s <- write_all_loop s (sg_frames s);;
           ret (n, sg_set_frames [] s)
       end.

(* Segment::WriteFramesLessThan: mkvmuxer.cc:4119-4180.  The loop returns the
   number of deleted frames and the number shift_left of those that are removed
   from the array; the others stay in the array although they were deleted. *)
Fixpoint write_less_loop (s : segment) (prev : option frame) (rest : list (option frame)) (timestamp : Z)
         (deleted shift : nat) : W (segment * nat * nat) :=
  match rest with
  | [] => ret (s, deleted, shift)
  | None :: _ => wub
  | Some cur :: rest' =>
      if fr_timestamp cur >? timestamp then ret (s, deleted, shift)
      else match prev with
           | None => wub
           | Some p =>
               x <- write_queued s p;;
               let '(ok, s) := x in
               write_less_loop s (Some cur) rest' timestamp (S deleted) (if (ok : bool) then S shift else shift)
           end
  end.
Definition WriteFramesLessThan (s : segment) (timestamp : Z) : W (bool * segment) :=
  match sg_frames s, sg_clusters s with
  | f0 :: rest, _ :: _ =>
      x <- write_less_loop s f0 rest timestamp 0 0;;
      let '(s, deleted, shift) := x in
      ret (true, sg_set_frames (skipn shift (repeat None deleted ++ skipn deleted (f0 :: rest))) s)
  | _, _ => ret (true, s)
  end.

(* Segment::TestFrame: mkvmuxer.cc:3773-3843 *)
Definition TestFrame (s : segment) (track timestamp : Z) (is_key : bool) : outcome Z :=
  if sg_force s then Val 1 else
  match sg_clusters s with
  | [] => Val 1
  | last :: _ =>
      let scale := si_timecode_scale (sg_info s) in
      match udiv timestamp scale with
      | UB => UB
      | Val frame_timecode =>
          if frame_timecode <? cl_tc last then Val (-1) else
          let delta_timecode := sint64 (frame_timecode - cl_tc last) in
          if delta_timecode >? kMaxBlockTimecode then Val 2 else
          match (if is_key then TrackIsVideo (sg_tracks s) track else Val false) with
          | UB => UB
          | Val true => Val 1
          | Val false =>
              let delta_ns := wrap64 (delta_timecode * scale) in
              if (sg_max_dur s >? 0) && (delta_ns >=? sg_max_dur s) then Val 1
              else if (sg_max_size s >? 0) && (cl_payload last >=? sg_max_size s) then Val 1
              else Val 0
          end
      end
  end.

(* Segment::MakeNewCluster: mkvmuxer.cc:3845-3918 *)
Definition MakeNewCluster (s : segment) (timestamp : Z) : W (bool * segment) :=
  r <- WriteFramesLessThan s timestamp;;
  let '(ok, s) := r in
  if negb ok then ret (false, s) else
  r <- match sg_clusters s with
       | [] => ret (true, s)
       | c :: _ => r <- Cluster_Finalize c true timestamp;;
                   let '(ok, c) := r in ret (ok, set_cluster c s)
       end;;
  let '(ok, s) := r in
  if negb ok then ret (false, s) else
  let s := if sg_output_cues s then sg_set_new_cue true s else s in
  let scale := si_timecode_scale (sg_info s) in
  frame_timecode <- lift (udiv timestamp scale);;
  cluster_timecode <-
    match sg_frames s with
    | [] => ret frame_timecode
    | None :: _ => wub
    | Some f :: _ => tc <- lift (udiv (fr_timestamp f) scale);;
                     ret (if tc <? frame_timecode then tc else frame_timecode)
    end;;
  offset <- MaxOffset s;;
  ret (true, sg_set_clusters (new_cluster cluster_timecode offset scale (sg_accurate s) (sg_fixed s)
                              :: sg_clusters s) s).

(* Segment::DoNewClusterProcessing: mkvmuxer.cc:3920-3950 *)
Fixpoint DoNewClusterProcessing (fuel : nat) (s : segment) (track timestamp : Z) (is_key : bool)
  : W (bool * segment) :=
  match fuel with
  | O => wub
  | S fuel' =>
      result <- lift (TestFrame s track timestamp is_key);;
      if result <? 0 then ret (false, s) else
      let s := sg_set_force false s in
      r <- (if result >? 0 then MakeNewCluster s timestamp else ret (true, s));;
      let '(ok, s) := r in
      if negb ok then ret (false, s) else
      r <- WriteFramesAll s;;
      let '(n, s) := r in
      if n <? 0 then ret (false, s) else
      if result <=? 1 then ret (true, s) else DoNewClusterProcessing fuel' s track timestamp is_key
  end.

(* track_frames_written_[track - 1]++: mkvmuxer.cc:3548, 3591 *)
Definition count_frame (s : segment) (track : Z) : W segment :=
  n <- lift (arr_get (sg_track_frames s) (track - 1));;
  a <- lift (arr_set (sg_track_frames s) (track - 1) (wrap64 (n + 1)));;
  ret (sg_set_track_frames a s).

(* Segment::AddGenericFrame: mkvmuxer.cc:3503-3596, with QueueFrame 4046-4072 *)
Definition AddGenericFrame (s : segment) (f : frame) : W (bool * segment) :=
  r <- CheckHeaderInfo s;;
  let '(ok, s) := r in
  if negb ok then ret (false, s) else
  if fr_timestamp f <? sg_last_ts s then ret (false, s) else
  if negb (present (GetTrackByNumber (sg_tracks s) (fr_track f))) then ret (false, s) else
  let s := if negb (fr_discard f =? 0) then sg_set_dtv 4 s else s in
  s <- match sg_clusters s with
       | [] => ret s
       | last :: _ =>
           frame_timecode <- lift (udiv (fr_timestamp f) (si_timecode_scale (sg_info s)));;
           ret (if wrap64 (frame_timecode - cl_tc last) >? kMaxBlockTimecode then sg_set_force true s else s)
       end;;
  is_audio <- lift (if sg_has_video s then TrackIsAudio (sg_tracks s) (fr_track f) else Val false);;
  if is_audio && negb (sg_force s) then
    s <- count_frame (sg_set_frames_alloc true (sg_set_frames (sg_frames s ++ [Some (CopyFrom f)]) s)) (fr_track f);;
    ret (true, s)
  else
    r <- DoNewClusterProcessing 4 s (fr_track f) (fr_timestamp f) (fr_is_key f);;
    let '(ok, s) := r in
    if negb ok then ret (false, s) else
    match sg_clusters s with
    | [] => ret (false, s)
    | c :: _ =>
        f <- (if negb (CanBeSimpleBlock f) && negb (fr_is_key f) && negb (fr_ref_set f) then
                t <- lift (arr_get (sg_track_ts s) (fr_track f - 1));;
                ret (set_reference_block_timestamp (CopyFrom f) t)
              else ret f);;
        r <- QueueOrWriteFrame c f;;
        let '(ok, c) := r in
        let s := set_cluster c s in
        if negb ok then ret (false, s) else
        r <- (if sg_new_cue s && (sg_cues_track s =? fr_track f)
              then lift (AddCuePoint s (fr_timestamp f) (sg_cues_track s)) else ret (true, s));;
        let '(ok, s) := r in
        if negb ok then ret (false, s) else
        a <- lift (arr_set (sg_track_ts s) (fr_track f - 1) (fr_timestamp f));;
        let s := sg_set_last_dur (fr_duration f) (sg_set_track_ts a (sg_set_last_ts (fr_timestamp f) s)) in
        s <- count_frame s (fr_track f);;
        ret (true, s)
    end.

(* Segment::AddFrame, AddFrameWithAdditional, AddFrameWithDiscardPadding,
   AddMetadata: mkvmuxer.cc:3437-3501 (the data pointers are not null) *)
Definition AddFrame (s : segment) (data : list Z) (track timestamp : Z) (is_key : bool) : W (bool * segment) :=
  AddGenericFrame s (mkFrame data None 0 0 false is_key track timestamp 0 0 false).
Definition AddFrameWithAdditional (s : segment) (data additional : list Z) (add_id track timestamp : Z)
           (is_key : bool) : W (bool * segment) :=
  AddGenericFrame s (mkFrame data (Some additional) add_id 0 false is_key track timestamp 0 0 false).
Definition AddFrameWithDiscardPadding (s : segment) (data : list Z) (discard track timestamp : Z)
           (is_key : bool) : W (bool * segment) :=
  AddGenericFrame s (mkFrame data None 0 0 false is_key track timestamp discard 0 false).
Definition AddMetadata (s : segment) (data : list Z) (track timestamp duration : Z) : W (bool * segment) :=
  AddGenericFrame s (mkFrame data None 0 duration true true track timestamp 0 0 false).

(* Segment::CuesTrack: mkvmuxer.cc:3683-3690 *)
Definition CuesTrack (s : segment) (n : Z) : bool * segment :=
  if present (GetTrackByNumber (sg_tracks s) n) then (true, sg_set_cues_track n s) else (false, s).

(* mkvmuxer.cc:3258-3274: estimate from the tracks with at least two frames *)
Fixpoint estimate_duration (s : segment) (fuel : nat) (i : Z) (duration : f64) : outcome f64 :=
  match fuel with
  | O => Val duration
  | S fuel' =>
      obind (arr_get (sg_track_frames s) i) (fun n =>
      if n <? 2 then estimate_duration s fuel' (i + 1) duration
      else
        obind (arr_get (sg_track_ts s) i) (fun t =>
        let nano_per_frame := f64_div (f64_of_Z t) (f64_of_Z (n - 1)) in
        let track_duration := f64_div (f64_add (f64_of_Z t) nano_per_frame)
                                      (f64_of_Z (si_timecode_scale (sg_info s))) in
        estimate_duration s fuel' (i + 1) (if SFltb duration track_duration then track_duration else duration)))
  end.
(* mkvmuxer.cc:3252-3276 *)
Definition segment_duration (s : segment) : outcome f64 :=
  let duration := f64_div (f64_add (f64_of_Z (sg_last_ts s)) (f64_of_Z (sg_last_dur s)))
                          (f64_of_Z (si_timecode_scale (sg_info s))) in
  if f64_pos (sg_duration s) then Val (sg_duration s)
  else if (sg_last_dur s =? 0) && sg_estimate s
       then estimate_duration s (length (sg_tracks s)) 0 duration
       else Val duration.

(* Segment::Finalize: mkvmuxer.cc:3229-3354 *)
Definition Segment_Finalize (s : segment) : W (bool * segment) :=
  r <- WriteFramesAll s;;
  let '(n, s) := r in
  if n <? 0 then ret (false, s) else
  r <- (if negb (sg_live s) || sg_accurate s then
          match sg_clusters s with
          | [] => ret (true, s)
          | c :: _ => r <- Cluster_Finalize c false 0;;
                      let '(ok, c) := r in ret (ok, set_cluster c s)
          end
        else ret (true, s));;
  let '(ok, s) := r in
  if negb ok then ret (false, s) else
  if sg_live s then ret (true, s) else
  duration <- lift (segment_duration s);;
  let s := sg_set_info (si_set_duration duration (sg_info s)) s in
  check_true (SegmentInfo_Finalize (sg_info s)) (false, s) (
  r <- (if sg_output_cues s then seek_entry_here s kMkvCues else ret (true, s));;
  let '(ok, s) := r in
  if negb ok then ret (false, s) else
  pos <- w_position;;
  let s := sg_set_cluster_end pos s in
  check_true (if sg_output_cues s then Cues_Write (sg_cues s) else ret true) (false, s) (
  check_true (SeekHead_Finalize (sg_seek s)) (false, s) (
  seekable <- w_is_seekable;;
  if negb seekable then ret (true, s) else
  if sg_size_pos s =? -1 then ret (false, s) else
  segment_size <- MaxOffset s;;
  if segment_size <? 1 then ret (false, s) else
  pos <- w_position;;
  let s := UpdateDocTypeVersion s in
  r <- (if negb (sg_dtv s =? sg_dtv_written s) then
          check_status (w_seek 0) (false, s) (
          dt <- doc_type s;;
          check_true (WriteEbmlHeader (sg_dtv s) dt) (false, s) (
          here <- w_position;;
          if negb (here =? sg_ebml_size s) then ret (false, s)
          else ret (true, sg_set_dtv_written (sg_dtv s) s)))
        else ret (true, s));;
  let '(ok, s) := r in
  if negb ok then ret (false, s) else
  check_status (w_seek (sg_size_pos s)) (false, s) (
  check_status (WriteUIntSize segment_size 8) (false, s) (
  check_status (w_seek pos) (false, s) (
  ret (true, s))))))).
