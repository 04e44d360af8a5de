(* Model of moving the cues in front of the clusters of a finished file:
   Segment::CopyAndMoveCuesBeforeClusters (mkvmuxer/mkvmuxer.cc) and the
   functions it uses. *)
From Verif Require Import Base MWriter MMuxUtil Ids MMuxMeta MMuxSegment MParUtil.

(* CuePoint::set_cluster_pos: mkvmuxer.h:198 *)
Definition set_cluster_pos (p : Z) (q : cue_point) : cue_point :=
  mkCue (cue_time q) (cue_track q) p (cue_block_number q) (cue_output_block_number q).

(* Cues::GetCueByIndex: mkvmuxer.cc:429-437 *)
Definition GetCueByIndex (qs : list cue_point) (i : nat) : option cue_point := nth_error qs i.

(* the cue points with the one of index i replaced (the C++ code writes through
   the pointer of GetCueByIndex): mkvmuxer.cc:3128-3137 *)
Fixpoint replace_cue (i : nat) (q : cue_point) (qs : list cue_point) : list cue_point :=
  match qs, i with
  | [], _ => []
  | _ :: r, O => q :: r
  | x :: r, S i => x :: replace_cue i q r
  end.

(* the loops over all indices: mkvmuxer.cc:3149-3151, 3160-3161 *)
Fixpoint move_each (helper : nat -> list cue_point -> Z -> outcome (list cue_point * Z)) (is : list nat)
         (qs : list cue_point) (cues_size : Z) : outcome (list cue_point * Z) :=
  match is with
  | [] => Val (qs, cues_size)
  | i :: r => obind (helper i qs cues_size) (fun x => move_each helper r (fst x) (snd x))
  end.

(* Segment::MoveCuesBeforeClustersHelper: mkvmuxer.cc:3126-3153.  The result is
   the cue points and *cues_size afterwards.  fuel bounds the depth of the
   recursion, which the C++ code does not do: recursing deeper (a stack overflow)
   is UB. *)
Fixpoint move_helper (fuel : nat) (diff : Z) (index : nat) (qs : list cue_point) (cues_size : Z)
  : outcome (list cue_point * Z) :=
  match fuel with
  | O => UB
  | S fuel =>
      match GetCueByIndex qs index with
      | None => Val (qs, cues_size)
      | Some q =>
          let q' := set_cluster_pos (wrap64 (cue_cluster_pos q + diff)) q in
          let qs' := replace_cue index q' qs in
          let cue_point_size_diff := wrap64 (CuePoint_Size q' - CuePoint_Size q) in
          let cue_size_diff :=
            wrap64 (GetCodedUIntSize (wrap64 (cues_size + cue_point_size_diff)) - GetCodedUIntSize cues_size) in
          let cues_size := wrap64 (cues_size + cue_point_size_diff) in
          let diff := wrap64 (cue_size_diff + cue_point_size_diff) in
          if diff >? 0 then move_each (move_helper fuel diff) (seq 0 (length qs')) qs' cues_size
          else Val (qs', cues_size)
      end
  end.

(* the seek entry with this ID, the last one if there are several, index 0 if
   there is none: mkvmuxer.cc:3163-3172 *)
Definition seek_index (h : seek_head) (id : Z) : Z :=
  fold_left (fun found i => if GetId h i =? id then i else found) [0; 1; 2; 3; 4] 0.

(* Segment::MoveCuesBeforeClusters: mkvmuxer.cc:3155-3177 *)
Definition MoveCuesBeforeClusters (fuel : nat) (s : segment) : outcome segment :=
  let qs := sg_cues s in
  let current_cue_size := Cues_Size qs in
  let cue_size := cues_payload_size qs in
  obind (move_each (move_helper fuel current_cue_size) (seq 0 (length qs)) qs cue_size) (fun x =>
  let qs := fst x in
  let cluster_index := seek_index (sg_seek s) kMkvCluster in
  let cues_index := seek_index (sg_seek s) kMkvCues in
  let h := SetSeekEntry (sg_seek s) cues_index kMkvCues (GetPosition (sg_seek s) cluster_index) in
  let h := SetSeekEntry h cluster_index kMkvCluster (wrap64 (Cues_Size qs + GetPosition h cues_index)) in
  Val (sg_set_seek h (sg_set_cues qs s))).

(* ChunkedCopy: mkvmuxer.cc:151-172.  The status of dst->Write is not looked at.
   fuel bounds the number of chunks. *)
Fixpoint chunked_loop (fuel : nat) (source : reader) (offset size : Z) : W bool :=
  if size <=? 0 then ret true else
  match fuel with
  | O => wub
  | S fuel =>
      let read_len := if size >? 2048 then 2048 else size in
      match r_read source offset read_len with
      | inl _ => ret false
      | inr buf =>
          status <- w_write buf;;
          chunked_loop fuel source (offset + read_len) (size - read_len)
      end
  end.
Definition ChunkedCopy (source : reader) (start size : Z) : W bool :=
  chunked_loop (Z.to_nat (size / 2048 + 1)) source start size.

(* Segment::CopyAndMoveCuesBeforeClusters: mkvmuxer.cc:3193-3227, without
   chunking.  A segment without clusters has cluster_list_ == NULL, so that
   cluster_list_[0] is UB. *)
Definition CopyAndMoveCuesBeforeClusters (fuel : nat) (source : reader) (s : segment) : W (bool * segment) :=
  seekable <- w_is_seekable;;
  if negb seekable then ret (false, s) else
  match rev (sg_clusters s) with
  | [] => wub
  | c :: _ =>
      let cluster_offset := cl_size_pos c - GetUIntSize kMkvCluster in
      check_true (ChunkedCopy source 0 cluster_offset) (false, s) (
      s <- lift (MoveCuesBeforeClusters fuel s);;
      check_true (Cues_Write (sg_cues s)) (false, s) (
      check_true (SeekHead_Finalize (sg_seek s)) (false, s) (
      check_true (ChunkedCopy source cluster_offset (sg_cluster_end s - cluster_offset)) (false, s) (
      pos <- w_position;;
      let segment_size := pos - sg_payload_pos s in
      check_status (w_seek (sg_size_pos s)) (false, s) (
      check_status (WriteUIntSize segment_size 8) (false, s) (
      check_status (w_seek pos) (false, s) (
      ret (true, s))))))))
  end.
