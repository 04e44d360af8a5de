(* Model of mkvparser's Segment: opening it, parsing the headers, loading the
   clusters one by one, the seek head and locating the cues
   (mkvparser/mkvparser.cc:703-1335, 1450-1825, 6882-7083).
   Positions are unbounded integers, as in MParCluster.v.
   Not modelled: the out parameters pos and len that tell the caller which bytes
   to fetch, a failing Length(), allocation failure, and clusters preloaded by the
   cues (the cluster table with preloaded clusters is modelled in MParTable.v).
   UB also stands for running out of fuel (this never happens, see PSegSafe.v). *)
From Verif Require Import Base Ids MMuxUtil MParUtil MParMeta MParBlock MParTrack MParCues MParCluster.

(* ---------- the seek head ---------- *)

(* SeekHead::Entry and SeekHead::VoidElement: mkvparser.h:848-871 *)
Record seek_entry := mkSE { se_id : Z; se_pos : Z; se_start : Z; se_size : Z }.
Record seek_void := mkSV { sv_start : Z; sv_size : Z }.
(* SeekHead: mkvparser.h:830-886 *)
Record p_seek := mkPSH { psh_entries : list seek_entry; psh_voids : list seek_void }.

(* SeekHead::ParseEntry: mkvparser.cc:1746-1825.  The (id, pos) of the entry. *)
Definition ParseEntry (r : reader) (start size : Z) : outcome (option (Z * Z)) :=
  if size <=? 0 then Val None
  else
    let stop := start + size in
    let pos := start in
    let '(id, len) := ReadID r pos in
    if id <? 0 then Val None
    else if negb (id =? kMkvSeekID) then Val None
    else if pos + len >? stop then Val None
    else
      let pos := pos + len in
      let '(idsize, len) := ReadUInt r pos in
      if idsize <=? 0 then Val None
      else if pos + len >? stop then Val None
      else
        let pos := pos + len in
        if pos + idsize >? stop then Val None
        else
          let '(eid, len) := ReadID r pos in
          if eid <=? 0 then Val None
          else if negb (len =? idsize) then Val None
          else
            let pos := pos + idsize in
            let '(id, len) := ReadID r pos in
            if negb (id =? kMkvSeekPosition) then Val None
            else if pos + len >? stop then Val None
            else
              let pos := pos + len in
              let '(possize, len) := ReadUInt r pos in
              if possize <=? 0 then Val None
              else if pos + len >? stop then Val None
              else
                let pos := pos + len in
                if pos + possize >? stop then Val None
                else
                  match UnserializeUInt r pos possize with
                  | UB => UB
                  | Val v =>
                      if v <? 0 then Val None
                      else if negb (pos + possize =? stop) then Val None
                      else Val (Some (eid, v))
                  end.

(* the first pass, counting: mkvparser.cc:1504-1535 *)
Definition seek_count (id pos size : Z) (n : Z * Z) : outcome (step (Z * Z)) :=
  if id =? kMkvSeek then
    if fst n + 1 >? INT_MAX then Val (Ret E_PARSE_FAILED n) else Val (Next (fst n + 1, snd n))
  else if id =? kMkvVoid then
    if snd n + 1 >? INT_MAX then Val (Ret E_PARSE_FAILED n) else Val (Next (fst n, snd n + 1))
  else Val (Next n).
(* the second pass: mkvparser.cc:1557-1594.  An entry that cannot be parsed is left
   out.  The walk does not give the position idpos of the element's ID: the length
   of the header is taken from the position stored by the previous turn. *)
Definition seek_element (r : reader) (id pos size : Z) (s : Z * p_seek) : outcome (step (Z * p_seek)) :=
  let '(idpos, h) := s in
  let next := pos + size in
  if id =? kMkvSeek then
    match ParseEntry r pos size with
    | UB => UB
    | Val None => Val (Next (next, h))
    | Val (Some (eid, epos)) =>
        Val (Next (next, mkPSH (psh_entries h ++ [mkSE eid epos idpos (next - idpos)]) (psh_voids h)))
    end
  else if id =? kMkvVoid then Val (Next (next, mkPSH (psh_entries h) (psh_voids h ++ [mkSV idpos (next - idpos)])))
  else Val (Next (next, h)).
(* SeekHead::Parse: mkvparser.cc:1499-1604.  The tests entry_count > 0 and
   void_element_count > 0 of the second pass hold whenever they are made, since both
   passes see the same elements. *)
Definition SeekHead_Parse (r : reader) (start size : Z) : outcome (Z * p_seek) :=
  match walk_payload r ZPass seek_count start size (0, 0) with
  | UB => UB
  | Val (status, _) =>
      if negb (status =? 0) then Val (status, mkPSH [] [])
      else
        match walk_payload r ZPass (seek_element r) start size (start, mkPSH [] []) with
        | UB => UB
        | Val (status, (_, h)) => Val (status, if status =? 0 then h else mkPSH [] [])
        end
  end.

(* SeekHead::GetEntry: mkvparser.cc:1608-1616 *)
Definition SeekHead_GetEntry (h : p_seek) (idx : Z) : option seek_entry :=
  if idx <? 0 then None else if idx >=? zlen (psh_entries h) then None else nth_error (psh_entries h) (Z.to_nat idx).

(* ---------- the segment ---------- *)

(* Segment: mkvparser.h:1050-1136.  pg_unknown: m_pUnknownSize is set; it then is the
   cluster appended last. *)
Record pseg := mkPG {
  pg_start : Z;                      (* m_start, of the payload *)
  pg_size : Z;                       (* m_size, -1: unknown *)
  pg_pos : Z;                        (* m_pos *)
  pg_info : option seg_info;
  pg_tracks : option (list p_track);
  pg_cues : option p_cues;
  pg_seek : option p_seek;
  pg_chapters : option (list (list p_atom));
  pg_tags : option (list (list p_simple_tag));
  pg_clusters : list cluster;
  pg_unknown : bool
}.

(* Segment::Segment: mkvparser.cc:661-681 *)
Definition new_pseg (start size : Z) : pseg := mkPG start size start None None None None None None [] false.

(* assignments to the members of mkvparser.h:1109-1122 *)
Definition pg_set_pos (p : Z) (s : pseg) : pseg :=
  mkPG (pg_start s) (pg_size s) p (pg_info s) (pg_tracks s) (pg_cues s) (pg_seek s) (pg_chapters s) (pg_tags s) (pg_clusters s) (pg_unknown s).
Definition pg_set_info (x : seg_info) (s : pseg) : pseg :=
  mkPG (pg_start s) (pg_size s) (pg_pos s) (Some x) (pg_tracks s) (pg_cues s) (pg_seek s) (pg_chapters s) (pg_tags s) (pg_clusters s) (pg_unknown s).
Definition pg_set_tracks (x : list p_track) (s : pseg) : pseg :=
  mkPG (pg_start s) (pg_size s) (pg_pos s) (pg_info s) (Some x) (pg_cues s) (pg_seek s) (pg_chapters s) (pg_tags s) (pg_clusters s) (pg_unknown s).
Definition pg_set_cues (x : p_cues) (s : pseg) : pseg :=
  mkPG (pg_start s) (pg_size s) (pg_pos s) (pg_info s) (pg_tracks s) (Some x) (pg_seek s) (pg_chapters s) (pg_tags s) (pg_clusters s) (pg_unknown s).
Definition pg_set_seek (x : p_seek) (s : pseg) : pseg :=
  mkPG (pg_start s) (pg_size s) (pg_pos s) (pg_info s) (pg_tracks s) (pg_cues s) (Some x) (pg_chapters s) (pg_tags s) (pg_clusters s) (pg_unknown s).
Definition pg_set_chapters (x : list (list p_atom)) (s : pseg) : pseg :=
  mkPG (pg_start s) (pg_size s) (pg_pos s) (pg_info s) (pg_tracks s) (pg_cues s) (pg_seek s) (Some x) (pg_tags s) (pg_clusters s) (pg_unknown s).
Definition pg_set_tags (x : list (list p_simple_tag)) (s : pseg) : pseg :=
  mkPG (pg_start s) (pg_size s) (pg_pos s) (pg_info s) (pg_tracks s) (pg_cues s) (pg_seek s) (pg_chapters s) (Some x) (pg_clusters s) (pg_unknown s).
Definition pg_set_clusters (l : list cluster) (u : bool) (s : pseg) : pseg :=
  mkPG (pg_start s) (pg_size s) (pg_pos s) (pg_info s) (pg_tracks s) (pg_cues s) (pg_seek s) (pg_chapters s) (pg_tags s) l u.

(* Segment::CreateInstance, the loop: mkvparser.cc:740-816.  (status, segment). *)
Fixpoint create_loop (fuel : nat) (r : reader) (pos : Z) : outcome (Z * option pseg) :=
  match fuel with
  | O => UB
  | S f =>
      let total := r_total r in
      if (total >=? 0) && (pos >=? total) then Val (E_FILE_FORMAT_INVALID, None)
      else
        let '(result, len) := GetUIntLength r pos in
        if negb (result =? 0) then Val (result, None)
        else if (total >=? 0) && (pos + len >? total) then Val (E_FILE_FORMAT_INVALID, None)
        else if pos + len >? r_avail r then Val (pos + len, None)
        else
          let '(id, len) := ReadID r pos in
          if id <? 0 then Val (E_FILE_FORMAT_INVALID, None)
          else
            let pos := pos + len in
            let '(result, len) := GetUIntLength r pos in
            if negb (result =? 0) then Val (result, None)
            else if (total >=? 0) && (pos + len >? total) then Val (E_FILE_FORMAT_INVALID, None)
            else if pos + len >? r_avail r then Val (pos + len, None)
            else
              let '(size, len) := ReadUInt r pos in
              if size <? 0 then Val (size, None)
              else
                let pos := pos + len in
                if id =? kMkvSegment then
                  let size := if size =? unknown_size len then -1
                              else if total <? 0 then -1
                              else if pos + size >? total then -1 else size in
                  Val (0, Some (new_pseg pos size))
                else if size =? unknown_size len then Val (E_FILE_FORMAT_INVALID, None)
                else if (total >=? 0) && (pos + size >? total) then Val (E_FILE_FORMAT_INVALID, None)
                else if pos + size >? r_avail r then Val (pos + size, None)
                else create_loop f r (pos + size)
  end.
(* Segment::CreateInstance: mkvparser.cc:703-817 *)
Definition CreateInstance (r : reader) (pos : Z) : outcome (Z * option pseg) :=
  if pos <? 0 then Val (E_PARSE_FAILED, None)
  else if r_avail r <? 0 then Val (-1, None)
  else if (r_total r >=? 0) && (r_avail r >? r_total r) then Val (-1, None)
  else create_loop (loop_fuel r pos) r pos.

(* what precedes a read in ParseHeaders: mkvparser.cc:856-875, 888-907; a positive
   status says how many bytes of the file are needed *)
Definition head_len (r : reader) (pos stop : Z) : Z + Z :=
  if pos + 1 >? r_avail r then inl (pos + 1)
  else
    let '(result, len) := GetUIntLength r pos in
    if result <? 0 then inl result
    else if result >? 0 then inl (pos + 1)
    else if (stop >=? 0) && (pos + len >? stop) then inl E_FILE_FORMAT_INVALID
    else if pos + len >? r_avail r then inl (pos + len)
    else inr len.

(* if (status) return status, after storing the parsed object: mkvparser.cc:934-1009 *)
Definition keep {A : Type} (x : outcome (Z * A)) (set : A -> pseg) : outcome (Z * pseg) :=
  match x with
  | UB => UB
  | Val (status, a) => Val (status, set a)
  end.
(* a level-1 element: mkvparser.cc:934-1009 *)
Definition level1_element (r : reader) (id pos size : Z) (s : pseg) : outcome (Z * pseg) :=
  if id =? kMkvInfo then
    match pg_info s with
    | Some _ => Val (E_FILE_FORMAT_INVALID, s)
    | None => keep (SegmentInfo_Parse r pos size) (fun x => pg_set_info x s)
    end
  else if id =? kMkvTracks then
    match pg_tracks s with
    | Some _ => Val (E_FILE_FORMAT_INVALID, s)
    | None => keep (Tracks_Parse r pos size) (fun x => pg_set_tracks x s)
    end
  else if id =? kMkvCues then
    match pg_cues s with Some _ => Val (0, s) | None => Val (0, pg_set_cues (cues_new pos size) s) end
  else if id =? kMkvSeekHead then
    match pg_seek s with
    | Some _ => Val (0, s)
    | None => keep (SeekHead_Parse r pos size) (fun x => pg_set_seek x s)
    end
  else if id =? kMkvChapters then
    match pg_chapters s with
    | Some _ => Val (0, s)
    | None => keep (Chapters_Parse r pos size) (fun x => pg_set_chapters x s)
    end
  else if id =? kMkvTags then
    match pg_tags s with
    | Some _ => Val (0, s)
    | None => keep (Tags_Parse r pos size) (fun x => pg_set_tags x s)
    end
  else Val (0, s).

(* segment_stop: mkvparser.cc:834 and others *)
Definition pg_stop (s : pseg) : Z := if pg_size s <? 0 then -1 else pg_start s + pg_size s.

(* Segment::ParseHeaders, the loop: mkvparser.cc:841-1012; inl: the status is
   returned, inr: break *)
Fixpoint headers_loop (fuel : nat) (r : reader) (s : pseg) : outcome (Z * pseg + pseg) :=
  match fuel with
  | O => UB
  | S f =>
      let total := r_total r in
      let stop := pg_stop s in
      let pos := pg_pos s in
      if (total >=? 0) && (pos >=? total) then Val (inr s)
      else if (stop >=? 0) && (pos >=? stop) then Val (inr s)
      else if pos + 1 >? LLONG_MAX then Val (inl (E_FILE_FORMAT_INVALID, s))
      else
        match head_len r pos stop with
        | inl st => Val (inl (st, s))
        | inr _ =>
            let '(id, len) := ReadID r pos in
            if id <? 0 then Val (inl (E_FILE_FORMAT_INVALID, s))
            else if id =? kMkvCluster then Val (inr s)
            else
              let pos := pos + len in
              match head_len r pos stop with
              | inl st => Val (inl (st, s))
              | inr _ =>
                  let '(size, len) := ReadUInt r pos in
                  if (size <? 0) || (len <? 1) || (len >? 8) then Val (inl (size, s))
                  else
                    let pos := pos + len in
                    if pos + size >? LLONG_MAX then Val (inl (E_FILE_FORMAT_INVALID, s))
                    else if (stop >=? 0) && (pos + size >? stop) then Val (inl (E_FILE_FORMAT_INVALID, s))
                    else if pos + size >? r_avail r then Val (inl (pos + size, s))
                    else
                      match level1_element r id pos size s with
                      | UB => UB
                      | Val (status, s) =>
                          if negb (status =? 0) then Val (inl (status, s))
                          else headers_loop f r (pg_set_pos (pos + size) s)
                      end
              end
        end
  end.
(* Segment::ParseHeaders: mkvparser.cc:820-1024 *)
Definition ParseHeaders (r : reader) (s : pseg) : outcome (Z * pseg) :=
  let stop := pg_stop s in
  let total := r_total r in
  if (total >? 0) && (r_avail r >? total) then Val (E_FILE_FORMAT_INVALID, s)
  else if ((stop >=? 0) && (total >=? 0) && (stop >? total)) || ((stop >=? 0) && (pg_pos s >? stop))
  then Val (E_FILE_FORMAT_INVALID, s)
  else
    match headers_loop (loop_fuel r (pg_pos s)) r s with
    | UB => UB
    | Val (inl x) => Val x
    | Val (inr s) =>
        if (stop >=? 0) && (pg_pos s >? stop) then Val (E_FILE_FORMAT_INVALID, s)
        else match pg_info s, pg_tracks s with
             | Some _, Some _ => Val (0, s)
             | _, _ => Val (E_FILE_FORMAT_INVALID, s)
             end
    end.

(* ---------- clusters ---------- *)

(* the reads of the cluster's header in HasBlockEntries: mkvparser.cc:6911-6932,
   6945-6966; inl: return *)
Definition entries_len (r : reader) (pos stop : Z) : Z + Z :=
  if pos + 1 >? r_avail r then inl E_BUFFER_NOT_FULL
  else
    let '(result, len) := GetUIntLength r pos in
    if result <? 0 then inl result
    else if result >? 0 then inl E_BUFFER_NOT_FULL
    else if (stop >=? 0) && (pos + len >? stop) then inl E_FILE_FORMAT_INVALID
    else if (r_total r >=? 0) && (pos + len >? r_total r) then inl 0
    else if pos + len >? r_avail r then inl E_BUFFER_NOT_FULL
    else inr len.

(* Cluster::HasBlockEntries, the loop: mkvparser.cc:6994-7082 *)
Fixpoint entries_loop (fuel : nat) (r : reader) (stop pos : Z) : outcome Z :=
  match fuel with
  | O => UB
  | S f =>
      if (stop >=? 0) && (pos >=? stop) then Val 0
      else
        match read_id_field r pos stop with
        | inl st => Val st
        | inr (id, len) =>
            if (id =? kMkvCluster) || (id =? kMkvCues) then Val 0
            else
              let pos := pos + len in
              if (stop >=? 0) && (pos >=? stop) then Val E_FILE_FORMAT_INVALID
              else
                match read_uint_field r pos stop with
                | inl st => Val st
                | inr (size, len) =>
                    let pos := pos + len in
                    if (stop >=? 0) && (pos >? stop) then Val E_FILE_FORMAT_INVALID
                    else if size =? 0 then entries_loop f r stop pos
                    else if size =? unknown_size len then Val E_FILE_FORMAT_INVALID
                    else if (stop >=? 0) && (pos + size >? stop) then Val E_FILE_FORMAT_INVALID
                    else if (id =? kMkvBlockGroup) || (id =? kMkvSimpleBlock) then Val 1
                    else entries_loop f r stop (pos + size)
                end
        end
  end.

(* Cluster::HasBlockEntries: mkvparser.cc:6882-7083.  1: the cluster has a block;
   0: it has none; negative: error *)
Definition HasBlockEntries (r : reader) (s : pseg) (off : Z) : outcome Z :=
  if off <? 0 then UB                                              (* assert *)
  else if (r_total r >=? 0) && (r_avail r >? r_total r) then UB    (* assert *)
  else
    let total := r_total r in
    let pos := pg_start s + off in
    let seg_stop := pg_stop s in
    if (total >=? 0) && (pos >=? total) then Val 0
    else
      match entries_len r pos seg_stop with
      | inl st => Val st
      | inr _ =>
          let '(id, len) := ReadID r pos in
          if id <? 0 then Val id
          else if negb (id =? kMkvCluster) then Val E_PARSE_FAILED
          else
            let pos := pos + len in
            match entries_len r pos seg_stop with
            | inl st => Val st
            | inr _ =>
                let '(size, len) := ReadUInt r pos in
                if size <? 0 then Val size
                else if size =? 0 then Val 0
                else
                  let pos := pos + len in
                  if size =? unknown_size len then entries_loop (loop_fuel r pos) r (-1) pos
                  else
                    let stop := pos + size in
                    if (seg_stop >=? 0) && (stop >? seg_stop) then Val E_FILE_FORMAT_INVALID
                    else if (total >=? 0) && (stop >? total) then Val 0
                    else entries_loop (loop_fuel r pos) r stop pos
            end
      end.

(* what the loop of DoLoadCluster finds: mkvparser.cc:1065-1196 *)
Inductive load_next :=
| LN_status (st : Z) (s : pseg)                 (* return *)
| LN_cluster (s : pseg) (idpos pos size : Z).   (* a cluster: its start, its payload and size, -1: unknown *)

(* Segment::DoLoadCluster, the loop: mkvparser.cc:1054-1172 *)
Fixpoint next_cluster (fuel : nat) (r : reader) (s : pseg) : outcome load_next :=
  match fuel with
  | O => UB
  | S f =>
      let total := r_total r in
      let stop := pg_stop s in
      let pos := pg_pos s in
      if (total >=? 0) && (pos >=? total) then Val (LN_status 1 s)
      else if (stop >=? 0) && (pos >=? stop) then Val (LN_status 1 s)
      else
        match field_len r pos stop with
        | inl st => Val (LN_status st s)
        | inr _ =>
            let idpos := pos in
            let '(id, len) := ReadID r pos in
            if id <? 0 then Val (LN_status E_FILE_FORMAT_INVALID s)
            else
              let pos := pos + len in
              match read_uint_field r pos stop with
              | inl st => Val (LN_status st s)
              | inr (size, len) =>
                  let pos := pos + len in
                  if size =? 0 then next_cluster f r (pg_set_pos pos s)
                  else if (stop >=? 0) && negb (size =? unknown_size len) && (pos + size >? stop)
                  then Val (LN_status E_FILE_FORMAT_INVALID s)
                  else if id =? kMkvCues then
                    if size =? unknown_size len then Val (LN_status E_FILE_FORMAT_INVALID s)
                    else
                      let s := match pg_cues s with
                               | Some _ => s
                               | None => pg_set_cues (cues_new pos size) s
                               end in
                      next_cluster f r (pg_set_pos (pos + size) s)
                  else if negb (id =? kMkvCluster) then
                    if size =? unknown_size len then Val (LN_status E_FILE_FORMAT_INVALID s)
                    else next_cluster f r (pg_set_pos (pos + size) s)
                  else Val (LN_cluster s idpos pos (if size =? unknown_size len then -1 else size))
              end
        end
  end.

(* the cluster m_pUnknownSize points to, and its replacement: mkvparser.cc:1311-1335 *)
Fixpoint set_last {A : Type} (l : list A) (x : A) : list A :=
  match l with
  | [] => []
  | [_] => [x]
  | a :: l' => a :: set_last l' x
  end.

(* Segment::DoLoadClusterUnknownSize: mkvparser.cc:1311-1335 *)
Definition DoLoadClusterUnknownSize (r : reader) (s : pseg) : outcome (Z * pseg) :=
  if (pg_pos s >=? 0) || negb (pg_unknown s) then Val (E_PARSE_FAILED, s)
  else
    match rev (pg_clusters s) with
    | [] => Val (E_PARSE_FAILED, s)
    | c :: _ =>
        match Cluster_Parse r c with
        | None => UB
        | Some UB => UB
        | Some (Val (status, c')) =>
            let s := pg_set_clusters (set_last (pg_clusters s) c') true s in
            if status <? 0 then Val (status, s)
            else if status =? 0 then Val (2, s)
            else if cl_esize c' <? 0 then Val (E_FILE_FORMAT_INVALID, s)
            else Val (2, pg_set_pos (cl_start c' + cl_esize c') (pg_set_clusters (pg_clusters s) false s))
        end
    end.

(* Segment::DoLoadCluster: mkvparser.cc:1035-1309.  cluster_off < 0 does not occur
   after the loop; a segment without preloaded clusters. *)
Definition DoLoadCluster (r : reader) (s : pseg) : outcome (Z * pseg) :=
  if pg_pos s <? 0 then DoLoadClusterUnknownSize r s
  else if (r_total r >=? 0) && (r_avail r >? r_total r) then Val (E_FILE_FORMAT_INVALID, s)
  else
    match next_cluster (loop_fuel r (pg_pos s)) r s with
    | UB => UB
    | Val (LN_status st s) => Val (st, s)
    | Val (LN_cluster s idpos pos size) =>
        match HasBlockEntries r s (idpos - pg_start s) with
        | UB => UB
        | Val status =>
            if status <? 0 then Val (status, s)
            else
              let stop := pg_stop s in
              if status =? 0 then
                let pos := if size >=? 0 then pos + size else pos in
                if (r_total r >=? 0) && (pos >=? r_total r) then Val (1, pg_set_pos (r_total r) s)
                else if (stop >=? 0) && (pos >=? stop) then Val (1, pg_set_pos stop s)
                else Val (2, pg_set_pos pos s)
              else
                let s := pg_set_clusters (pg_clusters s ++ [new_cluster idpos]) (pg_unknown s) s in
                if size >=? 0 then
                  let s := pg_set_pos (pos + size) s in
                  if (stop >? 0) && (pg_pos s >? stop) then Val (E_FILE_FORMAT_INVALID, s)
                  else Val (0, s)
                else Val (0, pg_set_pos (- pos) (pg_set_clusters (pg_clusters s) true s))
        end
    end.

(* Segment::LoadCluster: mkvparser.cc:1026-1033 *)
Fixpoint load_cluster (fuel : nat) (r : reader) (s : pseg) : outcome (Z * pseg) :=
  match fuel with
  | O => UB
  | S f =>
      match DoLoadCluster r s with
      | UB => UB
      | Val (result, s) => if result <=? 1 then Val (result, s) else load_cluster f r s
      end
  end.
(* every two turns consume a byte; Segment::LoadCluster: mkvparser.cc:1026-1033 *)
Definition load_fuel (r : reader) : nat := S (Z.to_nat (2 * r_avail r + 4)).
Definition LoadCluster (r : reader) (s : pseg) : outcome (Z * pseg) := load_cluster (load_fuel r) r s.

(* Segment::Load: mkvparser.cc:1450-1480 *)
Fixpoint load_all (fuel : nat) (r : reader) (s : pseg) : outcome (Z * pseg) :=
  match fuel with
  | O => UB
  | S f =>
      match LoadCluster r s with
      | UB => UB
      | Val (status, s) =>
          if status <? 0 then Val (status, s)
          else if status >=? 1 then Val (0, s)
          else load_all f r s
      end
  end.
Definition Segment_Load (r : reader) (s : pseg) : outcome (Z * pseg) :=
  match pg_clusters s with
  | _ :: _ => Val (E_PARSE_FAILED, s)
  | [] =>
      match ParseHeaders r s with
      | UB => UB
      | Val (status, s) =>
          if status <? 0 then Val (status, s)
          else if status >? 0 then Val (E_BUFFER_NOT_FULL, s)
          else
            match pg_info s, pg_tracks s with
            | Some _, Some _ => load_all (load_fuel r) r s
            | _, _ => Val (E_FILE_FORMAT_INVALID, s)
            end
      end
  end.

(* Segment::ParseCues: mkvparser.cc:1630-1744 *)
Definition ParseCues (r : reader) (s : pseg) (off : Z) : outcome (Z * pseg) :=
  match pg_cues s with
  | Some _ => Val (0, s)
  | None =>
      if off <? 0 then Val (-1, s)
      else if (r_total r >=? 0) && (r_avail r >? r_total r) then UB    (* assert *)
      else if pg_start s + off >? LLONG_MAX then UB                    (* overflow, line 1646 *)
      else
        let total := r_total r in
        let pos := pg_start s + off in
        if (total <? 0) || (pos >=? total) then Val (1, s)
        else
          let stop := pg_stop s in
          match field_len r pos stop with
          | inl st => Val (st, s)
          | inr _ =>
              let '(id, len) := ReadID r pos in
              if negb (id =? kMkvCues) then Val (E_FILE_FORMAT_INVALID, s)
              else
                let pos := pos + len in
                if (stop >=? 0) && (pos >? stop) then UB               (* assert *)
                else
                  match read_uint_field r pos stop with
                  | inl st => Val (st, s)
                  | inr (size, len) =>
                      if size =? 0 then Val (1, s)
                      else
                        let pos := pos + len in
                        if (stop >=? 0) && (pos >? stop) then UB       (* assert *)
                        else if (stop >=? 0) && (pos + size >? stop) then Val (E_FILE_FORMAT_INVALID, s)
                        else if pos + size >? total then Val (1, s)
                        else if pos + size >? r_avail r then Val (E_BUFFER_NOT_FULL, s)
                        else Val (0, pg_set_cues (cues_new pos size) s)
                  end
          end
  end.

(* Cluster::GetTimeCode: mkvparser.cc:7093-7103 *)
Definition Cluster_GetTimeCode (r : reader) (c : cluster) : option (outcome (Z * cluster)) :=
  match Cluster_Load r c with
  | None => None
  | Some UB => Some UB
  | Some (Val (status, c)) => if status <? 0 then Some (Val (status, c)) else Some (Val (cl_timecode c, c))
  end.
