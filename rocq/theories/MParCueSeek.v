(* Model of going to the block of a cue point: mkvparser's Cues::GetBlock,
   Segment::GetBlock and Cluster::GetEntry for a cue point (mkvparser/mkvparser.cc).
   A failing assert is undefined behaviour.  The clusters of the segment are those
   that were loaded.  A cluster that GetBlock has to create is given back instead of
   being put behind them by PreloadCluster (which MParTable models). *)
From Verif Require Import Base MParUtil MParBlock MParTrack MParCues MParCluster MParSegment MParWalk.

(* what is returned: an entry of a loaded cluster, an entry of a cluster created for
   it, or NULL (with the created cluster, if there was one): mkvparser.cc:2180-2199 *)
Inductive cue_entry :=
| CE_entry (ci ei : Z) (e : bentry)
| CE_new (c : cluster) (ei : Z) (e : bentry)
| CE_null (c : option cluster).

(* the first loop: mkvparser.cc:7511-7524; true: the entry is there *)
Fixpoint parse_to (fuel : nat) (r : reader) (index : Z) (c : cluster) : outcome (bool * cluster) :=
  if index >=? entry_count c then
    match fuel with
    | O => UB
    | S f =>
        match Cluster_Parse r c with
        | None => UB
        | Some UB => UB
        | Some (Val (status, c)) =>
            if status <? 0 then Val (false, c)
            else if status >? 0 then Val (false, c)
            else parse_to f r index c
        end
    end
  else Val (true, c).

(* pBlock->GetTimeCode(this) with its assert, mkvparser.cc:8031-8032 *)
Definition entry_time (c : cluster) (e : bentry) : outcome Z :=
  if cl_timecode c <? 0 then UB else Val (Block_GetTimeCode (en_block e) (cl_timecode c)).

(* the second loop: mkvparser.cc:7540-7602 *)
Fixpoint find_cued (fuel : nat) (r : reader) (s : pseg) (tc : Z) (tp : track_pos) (c : cluster) (index : Z)
  : outcome (option (Z * bentry) * cluster) :=
  match fuel with
  | O => UB
  | S f =>
      match (if index >=? entry_count c then
               match Cluster_Parse r c with
               | None => UB
               | Some UB => UB
               | Some (Val (status, c)) =>
                   if status <? 0 then Val (false, c)
                   else if status >? 0 then Val (false, c)
                   else if index >=? entry_count c then UB                 (* assert *)
                   else Val (true, c)
               end
             else Val (true, c)) with
      | UB => UB
      | Val (false, c) => Val (None, c)
      | Val (true, c) =>
          match entry_at c index with
          | None => UB
          | Some e =>
              if negb (bl_track (en_block e) =? tp_track tp) then find_cued f r s tc tp c (index + 1)
              else
                match entry_time c e with
                | UB => UB
                | Val tc' =>
                    if tc' <? tc then find_cued f r s tc tp c (index + 1)
                    else if tc' >? tc then Val (None, c)
                    else
                      match pg_tracks s with
                      | None => UB                                         (* assert *)
                      | Some l =>
                          match GetTrackByNumber l (tp_track tp) with
                          | None => Val (None, c)
                          | Some t =>
                              let type := ti_type (pt_info t) in
                              if type =? 2 then Val (Some (index, e), c)
                              else if negb (type =? 1) then Val (None, c)
                              else if negb (Block_IsKey (en_block e)) then Val (None, c)
                              else Val (Some (index, e), c)
                          end
                      end
                end
          end
      end
  end.

(* Cluster::GetEntry(cp, tp): mkvparser.cc:7502-7604; tc is the cue point's timecode;
   None: NULL *)
Definition GetEntry_cue (r : reader) (s : pseg) (tc : Z) (tp : track_pos) (c : cluster) : outcome (option (Z * bentry) * cluster) :=
  if tp_block tp >? 0 then
    let index := tp_block tp - 1 in
    match parse_to (scan_fuel r c) r index c with
    | UB => UB
    | Val (false, c) => Val (None, c)
    | Val (true, c) =>
        match entry_at c index with
        | None => UB
        | Some e =>
            if bl_track (en_block e) =? tp_track tp then
              match entry_time c e with
              | UB => UB
              | Val tc' => if tc' =? tc then Val (Some (index, e), c) else find_cued (scan_fuel r c) r s tc tp c 0
              end
            else find_cued (scan_fuel r c) r s tc tp c 0
        end
    end
  else find_cued (scan_fuel r c) r s tc tp c 0.

(* the binary search for the position: mkvparser.cc:2154-2178; inl: found there;
   inr: where it belongs.  Cluster::GetPosition with its assert: 6873-6878 *)
Fixpoint find_pos (fuel : nat) (s : pseg) (pos i j : Z) : outcome (Z + Z) :=
  match fuel with
  | O => UB
  | S f =>
      if i <? j then
        let k := i + (j - i) / 2 in
        match cluster_at s k with
        | None => UB
        | Some c =>
            let p := cl_start c - pg_start s in
            if p <? 0 then UB                                              (* assert *)
            else if p <? pos then find_pos f s pos (k + 1) j
            else if p >? pos then find_pos f s pos i k
            else Val (inl k)
        end
      else Val (inr i)
  end.

(* Segment::GetBlock, and Cues::GetBlock with arguments that are not NULL:
   mkvparser.cc:2136-2199, with Cluster::Create (6813-6823, a sum of signed numbers).
   The new cluster can be refused by PreloadCluster only where the position belongs
   in front of a loaded cluster (mkvparser.cc:1401-1402). *)
Definition Segment_GetBlock (r : reader) (s : pseg) (cp : p_cue) (tp : track_pos) : outcome (cue_entry * pseg) :=
  match find_pos (S (length (pg_clusters s))) s (tp_pos tp) 0 (zlen (pg_clusters s)) with
  | UB => UB
  | Val (inl k) =>
      match cluster_at s k with
      | None => UB
      | Some c =>
          match GetEntry_cue r s (cp_timecode cp) tp c with
          | UB => UB
          | Val (o, c) =>
              Val (match o with Some (ei, e) => CE_entry k ei e | None => CE_null None end, set_cluster s k c)
          end
      end
  | Val (inr i) =>
      if tp_pos tp <? 0 then Val (CE_null None, s)
      else if pg_start s + tp_pos tp >? LLONG_MAX then UB
      else if i <? zlen (pg_clusters s) then Val (CE_null None, s)
      else
        match GetEntry_cue r s (cp_timecode cp) tp (new_cluster (pg_start s + tp_pos tp)) with
        | UB => UB
        | Val (o, c) => Val (match o with Some (ei, e) => CE_new c ei e | None => CE_null (Some c) end, s)
        end
  end.
