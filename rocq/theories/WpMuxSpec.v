(* What a user of the callback parser (webm_parser) is to be told about a file
   written by the muxer: the layout of MuxFileSpec on the writing side, the
   notifications of WpSpec on the reading side. *)
From Verif Require Import Base EbmlSpec Ids MFloat MMuxBlock MMuxMeta MetaSpec MMuxSegment MuxFileSpec WpSpec WpDocSpec.

(* ---------- values ---------- *)

(* zeros at the end of a string are padding *)
Fixpoint trimmed (l : list Z) : list Z :=
  match l with
  | [] => []
  | x :: r => match trimmed r with [] => if x =? 0 then [] else [x] | t => x :: t end
  end.
(* the value of an element with this content; an empty string is the default *)
Definition leaf_value (ty : sty) (l : leaf) : value :=
  match l with
  | LUint v | LDate v => VInt v
  | LFloat u => VFloat 4 (u mod 2 ^ 32)
  | LBytes bs =>
      match ty, bs with
      | TString dflt, [] => VBytes dflt
      | TString _, _ => VBytes (trimmed bs)
      | _, _ => VBytes bs
      end
  end.
Definition tree_id (t : tree) : Z := match t with Leaf id _ | Master id _ => id end.
(* the value of a written element found in parent, none if it is not known there *)
Fixpoint tree_value (parent : Z) (t : tree) : option value :=
  match t with
  | Leaf id l => match type_in parent id with Some (TScalar ty) => Some (leaf_value ty l) | _ => None end
  | Master id kids =>
      match type_in parent id with
      | Some TMaster =>
          Some (VRec (concat (map (fun k => match tree_value id k with Some v => [(tree_id k, v)] | None => [] end) kids)))
      | _ => None
      end
  end.

(* ---------- the metadata ---------- *)

(* what is reported as complete objects, in this order *)
Definition reports (events : list event) : list (rkind * value) :=
  concat (map (fun e => match e with EReport k _ v => [(k, v)] | _ => [] end) events).
Definition report (k : rkind) (parent : Z) (t : tree) : list (rkind * value) :=
  match tree_value parent t with Some v => [(k, v)] | None => [] end.
Definition reports_of (k : rkind) (parent : Z) (ts : list tree) : list (rkind * value) :=
  concat (map (report k parent) ts).

(* what precedes the clusters, and the cue points *)
Definition head_reports (s : segment) (dt : list Z) (d : f64) (entries : list (Z * Z)) : list (rkind * value) :=
  report KEbml 0 (ebml_header_tree 4 dt) ++
  reports_of KSeek kMkvSeekHead (map seek_tree entries) ++
  report KInfo Segment (info_tree (si_set_duration d (sg_info s))) ++
  reports_of KTrackEntry kMkvTracks (map track_tree (sg_tracks s)) ++
  match sg_chapters s with
  | [] => []
  | l => report KEdition kMkvChapters (Master kMkvEditionEntry (map chapter_tree l))
  end ++
  reports_of KTag kMkvTags (map tag_tree (sg_tags s)).
Definition cue_reports (cues : option (list cue_point)) : list (rkind * value) :=
  match cues with None => [] | Some qs => reports_of KCuePoint kMkvCues (map cue_tree qs) end.

(* ---------- the frames ---------- *)

(* A callback that collects the frames: track, time in timecode units, data, key
   frame flag of a SimpleBlock, contents of a BlockGroup. *)
Record told := mk_told { to_track : Z; to_time : Z; to_data : list Z; to_key : option bool; to_group : list (Z * value) }.
Definition cluster_time (values : list (Z * value)) : Z :=
  match assoc 0xE7 values with Some (VInt t) => t | _ => 0 end.
Fixpoint collect (tc : Z) (cur : option (blockv * list Z)) (events : list event) : list told :=
  match events with
  | [] => []
  | e :: rest =>
      match e, cur with
      | EBegin KCluster _ (VRec vs), _ => collect (cluster_time vs) cur rest
      | EBegin KSimpleBlock _ (VBlock b), _ | EBegin KBlock _ (VBlock b), _ => collect tc (Some (b, [])) rest
      | EData (DFrame _ _ _) x, Some (b, bs) => collect tc (Some (b, bs ++ [x])) rest
      | EEnd KSimpleBlock _ _, Some (b, bs) =>
          mk_told (bv_track b) (tc + bv_time b) bs (Some (bv_key b)) [] :: collect tc None rest
      | EEnd KBlockGroup _ (VRec vs), Some (b, bs) =>
          mk_told (bv_track b) (tc + bv_time b) bs None vs :: collect tc None rest
      | _, _ => collect tc cur rest
      end
  end.
Definition frames_told (events : list event) : list told := collect 0 None events.

(* x is the frame f: as a SimpleBlock, or as a BlockGroup with the additional data,
   the discard padding if any, a reference if f is not a key frame and the duration
   if it is at least one timecode unit *)
Definition tells (scale : Z) (f : frame) (x : told) : Prop :=
  to_track x = fr_track f /\ to_time x = fr_timestamp f / scale /\ to_data x = fr_data f /\
  (to_key x = Some (fr_is_key f) /\ to_group x = [] /\ fr_additional f = None /\ fr_discard f = 0 /\ fr_duration f = 0
   \/ to_key x = None /\ exists b ref,
        to_group x =
          (0xA1, VBlock b) ::
          match fr_additional f with
          | None => []
          | Some a => [(0x75A1, VRec [(0xA6, VRec [(0xEE, VInt (fr_add_id f)); (0xA5, VBytes a)])])]
          end ++
          (if fr_discard f =? 0 then [] else [(0x75A2, VInt (fr_discard f))]) ++
          (if fr_is_key f then [] else [(0xFB, VInt ref)]) ++
          (if 0 <? fr_duration f / scale then [(0x9B, VInt (fr_duration f / scale))] else [])).

(* The file does not end in a cluster of unknown size followed by an empty Cues
   element. *)
Definition cues_end_well (sized : bool) (cues : option (list cue_point)) (cs : list mcluster) : Prop :=
  sized = false -> cs <> [] -> cues <> Some [].
