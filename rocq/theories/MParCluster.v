(* Model of mkvparser's Cluster (mkvparser/mkvparser.cc:6058-7639): loading a
   cluster, parsing its blocks one at a time and iterating over them.
   The target is LP64.  Positions are unbounded integers: the signed additions
   do not overflow as long as the available bytes end below 2^62.
   Not modelled: the out parameters pos and len that tell the caller which bytes
   to fetch before trying again, a null pReader or segment, a failing Length()
   and allocation failure.  An assert that fails is undefined behaviour. *)
From Verif Require Import Base MParUtil MParBlock Ids.

(* BlockEntry with its Block: mkvparser.h:144-208, mkvparser.cc:7602-7649.  For a
   SimpleBlock prev, next and duration keep the values of a group without such
   children. *)
Record bentry := mkEntry {
  en_group : bool;
  en_block : block;
  en_start : Z;           (* Block::m_start *)
  en_size : Z;            (* Block::m_size *)
  en_discard : Z;
  en_prev : Z;
  en_next : Z;
  en_duration : Z
}.

(* Cluster: mkvparser.h:807-889.  cl_entries = None: m_entries_count is -1. *)
Record cluster := mkCluster {
  cl_start : Z;           (* m_element_start *)
  cl_pos : Z;             (* m_pos *)
  cl_esize : Z;           (* m_element_size, -1: unknown *)
  cl_timecode : Z;        (* -1: not loaded *)
  cl_entries : option (list bentry)
}.

(* Cluster::Cluster: mkvparser.cc:6837-6848 *)
Definition new_cluster (element_start : Z) : cluster :=
  mkCluster element_start element_start (-1) (-1) None.

(* assignments to m_pos, m_element_size and m_entries, e.g. mkvparser.cc:6268-6279 *)
Definition set_pos (c : cluster) (p : Z) : cluster :=
  mkCluster (cl_start c) p (cl_esize c) (cl_timecode c) (cl_entries c).
Definition set_esize (c : cluster) (n : Z) : cluster :=
  mkCluster (cl_start c) (cl_pos c) n (cl_timecode c) (cl_entries c).
Definition set_entries (c : cluster) (es : list bentry) : cluster :=
  mkCluster (cl_start c) (cl_pos c) (cl_esize c) (cl_timecode c) (Some es).

(* The sequence that precedes every ReadID and ReadUInt here, e.g.
   mkvparser.cc:6154-6171; stop < 0 means no limit.  Status or length. *)
Definition field_len (r : reader) (pos stop : Z) : Z + Z :=
  if pos + 1 >? r_avail r then inl E_BUFFER_NOT_FULL
  else
    let '(result, len) := GetUIntLength r pos in
    if result <? 0 then inl result
    else if result >? 0 then inl E_BUFFER_NOT_FULL
    else if (stop >=? 0) && (pos + len >? stop) then inl E_FILE_FORMAT_INVALID
    else if pos + len >? r_avail r then inl E_BUFFER_NOT_FULL
    else inr len.

(* ... followed by the read itself: status or (value, length): mkvparser.cc:6152-6179,
   6193-6230 *)
Definition read_id_field (r : reader) (pos stop : Z) : Z + (Z * Z) :=
  match field_len r pos stop with
  | inl st => inl st
  | inr _ => let '(id, len) := ReadID r pos in if id <? 0 then inl id else inr (id, len)
  end.
Definition read_uint_field (r : reader) (pos stop : Z) : Z + (Z * Z) :=
  match field_len r pos stop with
  | inl st => inl st
  | inr _ => let '(v, len) := ReadUInt r pos in if v <? 0 then inl v else inr (v, len)
  end.

(* the reserved size of len bytes, e.g. mkvparser.cc:788 *)
Definition unknown_size (len : Z) : Z := Z.shiftl 1 (7 * len) - 1.

(* A loop that ran out of fuel gives None (this never happens, see
   PParCluster.v); otherwise a status, 0 or positive meaning success, and a result.
   The statuses: mkvparser.h:15-17 *)
Definition res (A : Type) : Type := option (outcome (Z + A)).

(* The fuel of the loops below: every iteration consumes at least two bytes that
   are available.  No code of its own; bounds the loops of mkvparser.cc:6148-6263,
   6398-6575 and others. *)
Definition loop_fuel (r : reader) (pos : Z) : nat := S (Z.to_nat (r_avail r - pos)).

(* Cluster::Load, the loop: mkvparser.cc:6148-6263.  Returns
   (pos, timecode, new_pos, bBlock) when the loop ends by break. *)
Fixpoint Load_loop (fuel : nat) (r : reader) (stop pos timecode new_pos : Z)
  : res (Z * Z * Z * bool) :=
  match fuel with
  | O => None
  | S fuel' =>
      if (stop >=? 0) && (pos >=? stop) then Some (Val (inr (pos, timecode, new_pos, false)))
      else
        match read_id_field r pos stop with
        | inl st => Some (Val (inl st))
        | inr (id, len) =>
            if id =? 0 then Some (Val (inl E_FILE_FORMAT_INVALID))
            else if (id =? kMkvCluster) || (id =? kMkvCues)
            then Some (Val (inr (pos, timecode, new_pos, false)))
            else
              let pos := pos + len in
              match read_uint_field r pos stop with
              | inl st => Some (Val (inl st))
              | inr (size, len) =>
                  if size =? unknown_size len then Some (Val (inl E_FILE_FORMAT_INVALID))
                  else
                    let pos := pos + len in
                    if (stop >=? 0) && (pos >? stop) then Some (Val (inl E_FILE_FORMAT_INVALID))
                    else if size =? 0 then Load_loop fuel' r stop pos timecode new_pos
                    else if (stop >=? 0) && (pos + size >? stop)
                    then Some (Val (inl E_FILE_FORMAT_INVALID))
                    else if id =? kMkvTimecode then
                      if pos + size >? r_avail r then Some (Val (inl E_BUFFER_NOT_FULL))
                      else
                        match UnserializeUInt r pos size with
                        | UB => Some UB
                        | Val tc =>
                            if tc <? 0 then Some (Val (inl tc))
                            else Load_loop fuel' r stop (pos + size) tc (pos + size)
                        end
                    else if (id =? kMkvBlockGroup) || (id =? kMkvSimpleBlock)
                    then Some (Val (inr (pos, timecode, new_pos, true)))
                    else Load_loop fuel' r stop (pos + size) timecode new_pos
              end
        end
  end.

(* Cluster::Load: mkvparser.cc:6058-6281.  Returns (status, cluster).  In the loop
   `if (bBlock) break` after the timecode is never taken because the loop ends at
   the first block: a cluster whose timecode follows a block is refused. *)
Definition Cluster_Load (r : reader) (c : cluster) : option (outcome (Z * cluster)) :=
  if cl_timecode c >=? 0 then Some (Val (0, c))
  else if negb (cl_pos c =? cl_start c) || (cl_esize c >=? 0) then Some (Val (E_PARSE_FAILED, c))
  else if (r_total r >=? 0) && ((r_avail r >? r_total r) || (cl_pos c >? r_total r))
  then Some (Val (E_FILE_FORMAT_INVALID, c))
  else
    let pos := cl_pos c in
    match read_id_field r pos (-1) with
    | inl st => Some (Val (st, c))
    | inr (id, len) =>
        if negb (id =? kMkvCluster) then Some (Val (E_FILE_FORMAT_INVALID, c))
        else
          let pos := pos + len in
          match field_len r pos (-1) with
          | inl st => Some (Val (st, c))
          | inr _ =>
              let '(size, len) := ReadUInt r pos in
              if size <? 0 then Some (Val (-1, c))
              else if size =? 0 then Some (Val (E_FILE_FORMAT_INVALID, c))
              else
                let pos := pos + len in
                let cluster_size := if negb (size =? unknown_size len) then size else -1 in
                let stop := if cluster_size <? 0 then -1 else pos + cluster_size in
                match Load_loop (loop_fuel r pos) r stop pos (-1) (-1) with
                | None => None
                | Some UB => Some UB
                | Some (Val (inl st)) => Some (Val (st, c))
                | Some (Val (inr (pos, timecode, new_pos, bBlock))) =>
                    if (stop >=? 0) && (pos >? stop) then Some (Val (E_FILE_FORMAT_INVALID, c))
                    else if timecode <? 0 then Some (Val (E_FILE_FORMAT_INVALID, c))
                    else if negb bBlock then Some (Val (E_FILE_FORMAT_INVALID, c))
                    else
                      Some (Val (0,
                        mkCluster (cl_start c) new_pos
                          (if cluster_size >=? 0 then stop - cl_start c else cl_esize c)
                          timecode (cl_entries c)))
                end
          end
    end.

(* Cluster::CreateSimpleBlock with SimpleBlock::Parse: mkvparser.cc:7312-7341,
   7607-7611, after CreateBlock has made room (7156-7203).  Block::Parse fails
   with E_FILE_FORMAT_INVALID only.  A failing call leaves the entries. *)
Definition CreateSimpleBlock (r : reader) (c : cluster) (st sz : Z) : outcome (Z * cluster) :=
  let es := match cl_entries c with None => [] | Some es => es end in
  match Block_Parse r st sz with
  | UB => UB
  | Val None => Val (E_FILE_FORMAT_INVALID, set_entries c es)
  | Val (Some b) => Val (0, set_entries c (es ++ [mkEntry false b st sz 0 1 0 (-1)]))
  end.

(* Cluster::CreateBlockGroup, the loop: mkvparser.cc:7230-7278.  Returns
   (pos, prev, next, duration, bpos, bsize). *)
Fixpoint CreateBlockGroup_loop (fuel : nat) (r : reader) (pos stop prev next duration bpos bsize : Z)
  : res (Z * Z * Z * Z * Z * Z) :=
  match fuel with
  | O => None
  | S fuel' =>
      if pos >=? stop then Some (Val (inr (pos, prev, next, duration, bpos, bsize)))
      else
        let '(id, len) := ReadID r pos in
        if (id <? 0) || (pos + len >? stop) then Some (Val (inl E_FILE_FORMAT_INVALID))
        else
          let pos := pos + len in
          let '(size, len) := ReadUInt r pos in
          if (size <? 0) || (pos + len >? stop) then Some UB            (* asserts *)
          else
            let pos := pos + len in
            let continue prev next duration bpos bsize :=
              if pos + size >? stop then Some (Val (inl E_FILE_FORMAT_INVALID))
              else CreateBlockGroup_loop fuel' r (pos + size) stop prev next duration bpos bsize in
            if id =? kMkvBlock then
              if bpos <? 0 then continue prev next duration pos size
              else continue prev next duration bpos bsize
            else if id =? kMkvBlockDuration then
              if size >? 8 then Some (Val (inl E_FILE_FORMAT_INVALID))
              else
                match UnserializeUInt r pos size with
                | UB => Some UB
                | Val d => if d <? 0 then Some (Val (inl E_FILE_FORMAT_INVALID))
                           else continue prev next d bpos bsize
                end
            else if id =? kMkvReferenceBlock then
              if (size >? 8) || (size <=? 0) then Some (Val (inl E_FILE_FORMAT_INVALID))
              else
                match UnserializeInt r pos size with
                | UB => Some UB
                | Val (status, time) =>
                    if negb (status =? 0) then Some UB                  (* assert *)
                    else if time <=? 0 then continue time next duration bpos bsize
                    else continue prev time duration bpos bsize
                end
            else continue prev next duration bpos bsize
  end.

(* Cluster::CreateBlockGroup with BlockGroup::Parse: mkvparser.cc:7205-7310,
   7615-7633 *)
Definition CreateBlockGroup (r : reader) (c : cluster) (start_offset size discard_padding : Z)
  : option (outcome (Z * cluster)) :=
  let es := match cl_entries c with None => [] | Some es => es end in
  let c := set_entries c es in
  let stop := start_offset + size in
  match CreateBlockGroup_loop (loop_fuel r start_offset) r start_offset stop 1 0 (-1) (-1) (-1) with
  | None => None
  | Some UB => Some UB
  | Some (Val (inl st)) => Some (Val (st, c))
  | Some (Val (inr (pos, prev, next, duration, bpos, bsize))) =>
      if bpos <? 0 then Some (Val (E_FILE_FORMAT_INVALID, c))
      else if negb (pos =? stop) then Some (Val (E_FILE_FORMAT_INVALID, c))
      else
        match Block_Parse r bpos bsize with
        | UB => Some UB
        | Val None => Some (Val (E_FILE_FORMAT_INVALID, c))
        | Val (Some b) =>
            let b := Block_SetKey b ((prev >? 0) && (next <=? 0)) in
            Some (Val (0, set_entries c
              (es ++ [mkEntry true b bpos bsize discard_padding prev next duration])))
        end
  end.

(* The checks ParseSimpleBlock and ParseBlockGroup make on a block before it is
   created: mkvparser.cc:6489-6558 and 6691-6760.  0 or the status to return. *)
Definition check_block (r : reader) (pos block_stop : Z) : Z :=
  match read_uint_field r pos block_stop with
  | inl st => st
  | inr (track, len) =>
      if track =? 0 then E_FILE_FORMAT_INVALID
      else
        let pos := pos + len in
        if pos + 2 >? block_stop then E_FILE_FORMAT_INVALID
        else if pos + 2 >? r_avail r then E_BUFFER_NOT_FULL
        else
          let pos := pos + 2 in
          if pos + 1 >? block_stop then E_FILE_FORMAT_INVALID
          else if pos + 1 >? r_avail r then E_BUFFER_NOT_FULL
          else
            match r_byte r pos with
            | inl status => if status <? 0 then status else 1          (* see below *)
            | inr flags =>
                let pos := pos + 1 in
                if pos >=? block_stop then E_FILE_FORMAT_INVALID
                else
                  let lacing := Z.shiftr (Z.land flags 6) 1 in
                  if negb (lacing =? 0) && (block_stop >? r_avail r) then E_BUFFER_NOT_FULL
                  else 0
            end
  end.
(* (With a positive status of that Read the flags byte would be used
   uninitialised; check_block returns 1 and the callers turn it into undefined
   behaviour.) *)

(* Cluster::ParseSimpleBlock: mkvparser.cc:6473-6569 *)
Definition ParseSimpleBlock (r : reader) (c : cluster) (pos block_size : Z)
  : outcome (Z * cluster) :=
  if (r_total r >=? 0) && (r_avail r >? r_total r) then UB             (* assert *)
  else
    let status := check_block r pos (pos + block_size) in
    if status >? 0 then UB
    else if status <? 0 then Val (status, c)
    else
      match CreateSimpleBlock r c pos block_size with
      | UB => UB
      | Val (status, c) =>
          if negb (status =? 0) then Val (status, c)
          else Val (0, set_pos c (pos + block_size))
      end.

(* Cluster::ParseBlockGroup, the loop: mkvparser.cc:6597-6765.  Returns
   (pos, discard_padding). *)
Fixpoint ParseBlockGroup_loop (fuel : nat) (r : reader) (pos payload_stop discard_padding : Z)
  : res (Z * Z) :=
  match fuel with
  | O => None
  | S fuel' =>
      if pos >=? payload_stop then Some (Val (inr (pos, discard_padding)))
      else
        match read_id_field r pos payload_stop with
        | inl st => Some (Val (inl st))
        | inr (id, len) =>
            if id =? 0 then Some (Val (inl E_FILE_FORMAT_INVALID))
            else
              let pos := pos + len in
              match read_uint_field r pos payload_stop with
              | inl st => Some (Val (inl st))
              | inr (size, len) =>
                  let pos := pos + len in
                  if pos >? payload_stop then Some (Val (inl E_FILE_FORMAT_INVALID))
                  else if size =? 0
                  then ParseBlockGroup_loop fuel' r pos payload_stop discard_padding
                  else if size =? unknown_size len then Some (Val (inl E_FILE_FORMAT_INVALID))
                  else if id =? kMkvBlock then
                    let block_stop := pos + size in
                    if block_stop >? payload_stop then Some (Val (inl E_FILE_FORMAT_INVALID))
                    else
                      let status := check_block r pos block_stop in
                      if status >? 0 then Some UB
                      else if status <? 0 then Some (Val (inl status))
                      else ParseBlockGroup_loop fuel' r block_stop payload_stop discard_padding
                  else
                    let next discard_padding :=
                      if pos + size >? payload_stop then Some (Val (inl E_FILE_FORMAT_INVALID))
                      else ParseBlockGroup_loop fuel' r (pos + size) payload_stop discard_padding in
                    if id =? kMkvDiscardPadding then
                      match UnserializeInt r pos size with
                      | UB => Some UB
                      | Val (status, v) =>
                          if status <? 0 then Some (Val (inl status)) else next v
                      end
                    else next discard_padding
              end
        end
  end.

(* Cluster::ParseBlockGroup: mkvparser.cc:6571-6778 *)
Definition ParseBlockGroup (r : reader) (c : cluster) (pos payload_size : Z)
  : option (outcome (Z * cluster)) :=
  let payload_stop := pos + payload_size in
  if (r_total r >=? 0) && (r_avail r >? r_total r) then Some UB        (* assert *)
  else if (r_total r >=? 0) && (payload_stop >? r_total r)
  then Some (Val (E_FILE_FORMAT_INVALID, c))
  else if payload_stop >? r_avail r then Some (Val (E_BUFFER_NOT_FULL, c))
  else
    match ParseBlockGroup_loop (loop_fuel r pos) r pos payload_stop 0 with
    | None => None
    | Some UB => Some UB
    | Some (Val (inl st)) => Some (Val (st, c))
    | Some (Val (inr (pos', discard_padding))) =>
        if negb (pos' =? payload_stop) then Some (Val (E_FILE_FORMAT_INVALID, c))
        else
          match CreateBlockGroup r c pos payload_size discard_padding with
          | None => None
          | Some UB => Some UB
          | Some (Val (status, c)) =>
              if negb (status =? 0) then Some (Val (status, c))
              else Some (Val (0, set_pos c payload_stop))
          end
    end.

(* What ends the loop of Cluster::Parse: mkvparser.cc:6398-6575 *)
Inductive parse_next :=
| PN_status (st : Z)                  (* return *)
| PN_done (pos esize : Z)             (* break with this pos and m_element_size *)
| PN_block (group : bool) (pos size : Z).   (* a block to be parsed *)

(* Cluster::Parse, the loop: mkvparser.cc:6312-6435 *)
Fixpoint Parse_loop (fuel : nat) (r : reader) (start esize stop pos : Z) : option parse_next :=
  match fuel with
  | O => None
  | S fuel' =>
      if (stop >=? 0) && (pos >=? stop) then Some (PN_done pos esize)
      else if (r_total r >=? 0) && (pos >=? r_total r)
      then Some (PN_done pos (if esize <? 0 then pos - start else esize))
      else
        match read_id_field r pos stop with
        | inl st => Some (PN_status
            (match field_len r pos stop with inl st => st | inr _ => E_FILE_FORMAT_INVALID end))
        | inr (id, len) =>
            if (id =? kMkvCluster) || (id =? kMkvCues)
            then Some (PN_done pos (if esize <? 0 then pos - start else esize))
            else
              let pos := pos + len in
              match read_uint_field r pos stop with
              | inl st => Some (PN_status st)
              | inr (size, len) =>
                  if size =? unknown_size len then Some (PN_status E_FILE_FORMAT_INVALID)
                  else
                    let pos := pos + len in
                    if (stop >=? 0) && (pos >? stop) then Some (PN_status E_FILE_FORMAT_INVALID)
                    else if size =? 0 then Parse_loop fuel' r start esize stop pos
                    else
                      let block_stop := pos + size in
                      let is_block := (id =? kMkvBlockGroup) || (id =? kMkvSimpleBlock) in
                      if (stop >=? 0) && (block_stop >? stop) then
                        if is_block then Some (PN_status E_FILE_FORMAT_INVALID)
                        else Some (PN_done stop esize)
                      else if (stop <? 0) && (r_total r >=? 0) && (block_stop >? r_total r)
                      then Some (PN_done (r_total r) (r_total r - start))
                      else if (stop <? 0) && (block_stop >? r_avail r)
                      then Some (PN_status E_BUFFER_NOT_FULL)
                      else if id =? kMkvBlockGroup then Some (PN_block true pos size)
                      else if id =? kMkvSimpleBlock then Some (PN_block false pos size)
                      else Parse_loop fuel' r start esize stop (pos + size)
              end
        end
  end.

(* Cluster::Parse: mkvparser.cc:6283-6471.  Returns (status, cluster): 0 a block
   was added, 1 no more blocks, negative: error. *)
Definition Cluster_Parse (r : reader) (c : cluster) : option (outcome (Z * cluster)) :=
  match Cluster_Load r c with
  | None => None
  | Some UB => Some UB
  | Some (Val (status, c)) =>
      if status <? 0 then Some (Val (status, c))
      else if (cl_pos c <? cl_start c) || (cl_timecode c <? 0) then Some (Val (E_PARSE_FAILED, c))
      else
        let stop := if cl_esize c <? 0 then -1 else cl_start c + cl_esize c in
        if (stop >=? 0) && (cl_pos c >=? stop) then Some (Val (1, c))
        else if (r_total r >=? 0) && (r_avail r >? r_total r)
        then Some (Val (E_FILE_FORMAT_INVALID, c))
        else
          match Parse_loop (loop_fuel r (cl_pos c)) r (cl_start c) (cl_esize c) stop (cl_pos c) with
          | None => None
          | Some (PN_status st) => Some (Val (st, c))
          | Some (PN_block true pos size) => ParseBlockGroup r c pos size
          | Some (PN_block false pos size) => Some (ParseSimpleBlock r c pos size)
          | Some (PN_done pos esize) =>
              let c := set_esize c esize in
              if esize <? 1 then Some (Val (E_FILE_FORMAT_INVALID, c))
              else
                let c := set_pos c pos in
                if (stop >=? 0) && (pos >? stop) then Some (Val (E_FILE_FORMAT_INVALID, c))
                else
                  match rev (match cl_entries c with None => [] | Some es => es end) with
                  | [] => Some (Val (1, c))
                  | e :: _ =>
                      if (r_total r >=? 0) && (en_start e >? r_total r)
                      then Some (Val (E_PARSE_FAILED, c))
                      else if (stop >=? 0) && (en_start e + en_size e >? stop)
                      then Some (Val (E_FILE_FORMAT_INVALID, c))
                      else if (r_total r >=? 0) && (en_start e + en_size e >? r_total r)
                      then Some (Val (E_PARSE_FAILED, c))
                      else Some (Val (1, c))
                  end
          end
  end.

(* Cluster::GetEntryCount, m_entries_count: mkvparser.cc:7438 *)
Definition entry_count (c : cluster) : Z :=
  match cl_entries c with None => -1 | Some es => zlen es end.
Definition entry_at (c : cluster) (i : Z) : option bentry :=
  match cl_entries c with None => None | Some es => nth_error es (Z.to_nat i) end.

(* Cluster::GetFirst: mkvparser.cc:7343-7367.  Returns (status, entry, cluster). *)
Definition Cluster_GetFirst (r : reader) (c : cluster)
  : option (outcome (Z * option bentry * cluster)) :=
  if entry_count c <=? 0 then
    match Cluster_Parse r c with
    | None => None
    | Some UB => Some UB
    | Some (Val (status, c)) =>
        if status <? 0 then Some (Val (status, None, c))
        else if entry_count c <=? 0 then Some (Val (0, None, c))
        else Some (Val (0, entry_at c 0, c))
    end
  else Some (Val (0, entry_at c 0, c)).

(* Cluster::GetNext: mkvparser.cc:7400-7436; the current entry is given by its
   index *)
Definition Cluster_GetNext (r : reader) (c : cluster) (curr : Z)
  : option (outcome (Z * option bentry * cluster)) :=
  if (curr <? 0) || (curr >=? entry_count c) then Some UB               (* asserts *)
  else
    let idx := curr + 1 in
    if idx >=? entry_count c then
      match Cluster_Parse r c with
      | None => None
      | Some UB => Some UB
      | Some (Val (status, c)) =>
          if status <? 0 then Some (Val (status, None, c))
          else if status >? 0 then Some (Val (0, None, c))
          else if idx >=? entry_count c then Some UB                    (* assert *)
          else Some (Val (0, entry_at c idx, c))
      end
    else Some (Val (0, entry_at c idx, c)).
