(* Model of mkvparser's Cues: finding, loading and searching cue points
   (mkvparser/mkvparser.cc).  Failing memory allocation is not modelled; asserts are
   left out. *)
From Verif Require Import Base Ids MParUtil.

(* CuePoint::TrackPosition: mkvparser.h:907-916 *)
Record track_pos := mkTP { tp_track : Z; tp_pos : Z; tp_block : Z }.
(* CuePoint: mkvparser.h:889-925.  The timecode is minus the position until the cue
   point is loaded.  cp_tps: m_track_positions[0 .. m_track_positions_count). *)
Record p_cue := mkPC {
  cp_start : Z; cp_size : Z; cp_index : Z; cp_timecode : Z; cp_tps : list track_pos
}.
(* CuePoint::CuePoint: mkvparser.cc:2260-2268 *)
Definition cue_new (idx pos : Z) : p_cue := mkPC 0 0 idx (- pos) [].

(* id, size and the checks before the payload, the same in all four loops:
   mkvparser.cc:1886-1903, 1964-1978, 2312-2329, 2408-2425.  None: the caller
   returns false.  pos + size is a sum of signed numbers. *)
Definition cue_header (r : reader) (pos stop : Z) : outcome (option (Z * Z * Z)) :=
  let '(id, len) := ReadID r pos in
  if (id <? 0) || (pos + len >? stop) then Val None
  else
    let pos := pos + len in
    let '(size, len) := ReadUInt r pos in
    if (size <? 0) || (pos + len >? stop) then Val None
    else
      let pos := pos + len in
      if pos + size >? LLONG_MAX then UB
      else if pos + size >? stop then Val None
      else Val (Some (id, pos, size)).

(* The loop with these checks, mkvparser.cc:1883-1913, 2311-2395.  h gets the position of the id, the id, the payload
   and its size.  inl: return; inr: go on.  The loop's result: inl as returned by h;
   inr (b, s): left with b = false on a failed check, with b = true at the end.  UB
   also stands for running out of fuel (PParCues.scan_returns). *)
Fixpoint scan {S R : Type} (fuel : nat) (r : reader) (h : Z -> Z -> Z -> Z -> S -> outcome (R + S))
    (pos stop : Z) (s : S) : outcome (R + bool * S) :=
  if stop <=? pos then Val (inr (true, s))
  else
    match fuel with
    | O => UB
    | Datatypes.S f =>
        match cue_header r pos stop with
        | UB => UB
        | Val None => Val (inr (false, s))
        | Val (Some (id, payload, size)) =>
            match h pos id payload size s with
            | UB => UB
            | Val (inl x) => Val (inl x)
            | Val (inr s) => scan f r h (payload + size) stop s
            end
        end
    end.

(* the body of the loop: mkvparser.cc:2427-2432 *)
Definition tp_element (r : reader) (_ id pos size : Z) (t : track_pos) : outcome (unit + track_pos) :=
  let '(mkTP track cpos block) := t in
  if id =? kMkvCueTrack then
    match UnserializeUInt r pos size with UB => UB | Val v => Val (inr (mkTP v cpos block)) end
  else if id =? kMkvCueClusterPosition then
    match UnserializeUInt r pos size with UB => UB | Val v => Val (inr (mkTP track v block)) end
  else if id =? kMkvCueBlockNumber then
    match UnserializeUInt r pos size with UB => UB | Val v => Val (inr (mkTP track cpos v)) end
  else Val (inr t).
(* CuePoint::TrackPosition::Parse: mkvparser.cc:2398-2442; None: false.  m_block
   cannot exceed LONG_MAX where long has 64 bits. *)
Definition TrackPosition_Parse (r : reader) (start size : Z) : outcome (option track_pos) :=
  if start + size >? LLONG_MAX then UB
  else
    match scan (Z.to_nat size) r (tp_element r) start (start + size) (mkTP (-1) (-1) 1) with
    | UB => UB
    | Val (inl _) => Val None
    | Val (inr (ok, t)) =>
        if negb ok || (tp_pos t <? 0) || (tp_track t <=? 0) || (tp_block t <? 0) then Val None
        else Val (Some t)
    end.

(* the body of the first loop of CuePoint::Load: mkvparser.cc:2331-2338.  State:
   m_timecode and track_positions_count.  With more than UINT_MAX track positions
   the function returns E_PARSE_FAILED, converted to true. *)
Definition count_element (r : reader) (_ id pos size : Z) (s : Z * Z) : outcome (Z + Z * Z) :=
  let '(timecode, count) := s in
  if id =? kMkvCueTime then
    match UnserializeUInt r pos size with UB => UB | Val v => Val (inr (v, count)) end
  else if id =? kMkvCueTrackPositions then
    if count + 1 >? 4294967295 then Val (inl timecode) else Val (inr (timecode, count + 1))
  else Val (inr s).
(* the second loop: mkvparser.cc:2362-2388.  Only the id is checked again.  Writing
   behind the end of the array is UB. *)
Fixpoint load_positions (fuel : nat) (r : reader) (count pos stop : Z) (l : list track_pos) : outcome (option (list track_pos)) :=
  if stop <=? pos then Val (Some l)
  else
    match fuel with
    | O => UB
    | S f =>
        let '(id, len) := ReadID r pos in
        if (id <? 0) || (pos + len >? stop) then Val None
        else
          let pos := pos + len in
          let '(size, len) := ReadUInt r pos in
          let pos := pos + len in
          if pos + size >? LLONG_MAX then UB
          else
            let next l := if pos + size >? stop then Val None else load_positions f r count (pos + size) stop l in
            if id =? kMkvCueTrackPositions then
              if count <=? zlen l then UB
              else match TrackPosition_Parse r pos size with
                   | UB => UB
                   | Val None => Val None
                   | Val (Some t) => next (l ++ [t])
                   end
            else next l
    end.
(* CuePoint::Load: mkvparser.cc:2272-2396.  When it fails the track positions are
   not modelled (an unloaded cue point is not visible). *)
Definition CuePoint_Load (r : reader) (c : p_cue) : outcome (bool * p_cue) :=
  if cp_timecode c >=? 0 then Val (true, c)
  else
    let element_start := - cp_timecode c in
    let '(id, len) := ReadID r element_start in
    if negb (id =? kMkvCuePoint) then Val (false, c)
    else
      let pos := element_start + len in
      let '(size, len) := ReadUInt r pos in
      let pos := pos + len in
      if pos + size >? LLONG_MAX then UB
      else
        let stop := pos + size in
        match scan (Z.to_nat size) r (count_element r) pos stop (cp_timecode c, 0) with
        | UB => UB
        | Val (inl timecode) => Val (true, mkPC (cp_start c) (cp_size c) (cp_index c) timecode (cp_tps c))
        | Val (inr (false, (timecode, _))) => Val (false, mkPC (cp_start c) (cp_size c) (cp_index c) timecode (cp_tps c))
        | Val (inr (true, (timecode, count))) =>
            let failed := mkPC (cp_start c) (cp_size c) (cp_index c) timecode (cp_tps c) in
            if (timecode <? 0) || (count <=? 0) then Val (false, failed)
            else
              match load_positions (Z.to_nat size) r count pos stop [] with
              | UB => UB
              | Val None => Val (false, failed)
              | Val (Some l) => Val (true, mkPC element_start (stop - element_start) (cp_index c) timecode l)
              end
        end.

(* CuePoint::Find: mkvparser.cc:2444-2462; n is the track's number; None: NULL *)
Definition CuePoint_Find (c : p_cue) (n : Z) : option track_pos := find (fun t => tp_track t =? n) (cp_tps c).

(* Cues: mkvparser.h:927-968.  cu_points: m_cue_points[0 .. m_count + m_preload_count),
   empty while the pointer is NULL (the array's growth in PreloadCuePoint, by
   doubling, is not modelled). *)
Record p_cues := mkPCs {
  cu_start : Z; cu_size : Z; cu_pos : Z; cu_points : list p_cue; cu_count : Z; cu_preload : Z
}.
(* Cues::Cues: mkvparser.cc:1829-1839 *)
Definition cues_new (start size : Z) : p_cues := mkPCs start size start [] 0 0.

(* Cues::PreloadCuePoint: mkvparser.cc:1915-1946, as the body of the loop of
   Cues::Init (1905-1908); m_count is 0 there *)
Definition init_element (idpos id _ _ : Z) (l : list p_cue) : outcome (unit + list p_cue) :=
  if id =? kMkvCuePoint then Val (inr (l ++ [cue_new (zlen l) idpos])) else Val (inr l).
(* Cues::Init: mkvparser.cc:1869-1913 *)
Definition Cues_Init (r : reader) (c : p_cues) : outcome (bool * p_cues) :=
  let '(mkPCs start size pos points count preload) := c in
  if negb (zlen points =? 0) then Val (true, c)
  else if negb (count =? 0) || negb (preload =? 0) then Val (false, c)
  else
    match scan (Z.to_nat size) r init_element start (start + size) [] with
    | UB => UB
    | Val (inl _) => Val (false, c)
    | Val (inr (ok, l)) => Val (ok, mkPCs start size pos l 0 (zlen l))
    end.

(* The loop of Cues::LoadCuePoint: mkvparser.cc:1961-2007.  The position is that of
   the reached check when the loop is left. *)
Fixpoint load_loop (fuel : nat) (r : reader) (stop : Z) (c : p_cues) : outcome (bool * p_cues) :=
  let '(mkPCs start csize pos points count preload) := c in
  let at_pos p := mkPCs start csize p points count preload in
  if stop <=? pos then Val (false, c)
  else
    match fuel with
    | O => UB
    | S f =>
        let idpos := pos in
        let '(id, len) := ReadID r pos in
        if (id <? 0) || (pos + len >? stop) then Val (false, c)
        else
          let pos := pos + len in
          let '(size, len) := ReadUInt r pos in
          if (size <? 0) || (pos + len >? stop) then Val (false, at_pos pos)
          else
            let pos := pos + len in
            if pos + size >? LLONG_MAX then UB
            else if pos + size >? stop then Val (false, at_pos pos)
            else if negb (id =? kMkvCuePoint) then load_loop f r stop (at_pos (pos + size))
            else if preload <? 1 then Val (false, at_pos pos)
            else
              match nth_error points (Z.to_nat count) with
              | None => UB
              | Some p =>
                  if (cp_timecode p <? 0) && negb (- cp_timecode p =? idpos) then Val (false, at_pos pos)
                  else
                    let store p := firstn (Z.to_nat count) points ++ p :: skipn (S (Z.to_nat count)) points in
                    match CuePoint_Load r p with
                    | UB => UB
                    | Val (false, p) => Val (false, mkPCs start csize stop (store p) count preload)
                    | Val (true, p) => Val (true, mkPCs start csize (pos + size) (store p) (count + 1) (preload - 1))
                    end
              end
    end.
(* Cues::LoadCuePoint: mkvparser.cc:1948-2010 *)
Definition LoadCuePoint (r : reader) (c : p_cues) : outcome (bool * p_cues) :=
  let stop := cu_start c + cu_size c in
  if cu_pos c >=? stop then Val (false, c)
  else
    match Cues_Init r c with
    | UB => UB
    | Val (false, c) => Val (false, mkPCs (cu_start c) (cu_size c) stop (cu_points c) (cu_count c) (cu_preload c))
    | Val (true, c) => load_loop (Z.to_nat (cu_size c)) r stop c
    end.

(* CuePoint::GetTime: mkvparser.cc:2466-2479; a product of signed numbers *)
Definition CuePoint_GetTime (scale : Z) (c : p_cue) : outcome Z :=
  let t := scale * cp_timecode c in
  if (t >? LLONG_MAX) || (t <? - LLONG_MAX - 1) then UB else Val t.

(* the binary search: mkvparser.cc:2032-2055, as indexes into m_cue_points; None: the
   function returns false *)
Fixpoint cues_search (fuel : nat) (points : list p_cue) (scale count i j time_ns : Z) : outcome (option (Z * Z)) :=
  match fuel with
  | O => UB
  | S f =>
      if i <? j then
        let k := i + (j - i) / 2 in
        if k >=? count then Val None
        else match nth_error points (Z.to_nat k) with
             | None => UB
             | Some c =>
                 match CuePoint_GetTime scale c with
                 | UB => UB
                 | Val t =>
                     let '(i, j) := if t <=? time_ns then (k + 1, j) else (i, k) in
                     if i >? j then Val None else cues_search f points scale count i j time_ns
                 end
             end
      else Val (Some (i, j))
  end.
(* Cues::Find: mkvparser.cc:2012-2075; track is pTrack's number (pTrack not NULL).
   Result: None: false with pCP not set to a cue point of interest; Some (k, pTP):
   pCP is the k-th cue point, true when pTP is not NULL. *)
Definition Cues_Find (c : p_cues) (scale time_ns track : Z) : outcome (option (Z * option track_pos)) :=
  let points := cu_points c in
  if (time_ns <? 0) || (zlen points =? 0) || (cu_count c =? 0) then Val None
  else
    match nth_error points 0 with
    | None => UB
    | Some c0 =>
        match CuePoint_GetTime scale c0 with
        | UB => UB
        | Val t0 =>
            if time_ns <=? t0 then Val (Some (0, CuePoint_Find c0 track))
            else
              match cues_search (S (Z.to_nat (cu_count c))) points scale (cu_count c) 0 (cu_count c) time_ns with
              | UB => UB
              | Val None => Val None
              | Val (Some (i, j)) =>
                  if negb (i =? j) || (i >? cu_count c) || (i <=? 0) then Val None
                  else
                    match nth_error points (Z.to_nat (i - 1)) with
                    | None => UB
                    | Some p =>
                        match CuePoint_GetTime scale p with
                        | UB => UB
                        | Val t => if t >? time_ns then Val None else Val (Some (i - 1, CuePoint_Find p track))
                        end
                    end
              end
        end
    end.

(* Cues::GetFirst, GetLast, GetNext: mkvparser.cc:2077-2135.  The argument of
   GetNext is given by its index. *)
Definition visible (c : p_cues) (k : Z) : option p_cue :=
  match nth_error (cu_points c) (Z.to_nat k) with
  | Some p => if cp_timecode p <? 0 then None else Some p
  | None => None
  end.
Definition Cues_GetFirst (c : p_cues) : option p_cue := if (zlen (cu_points c) =? 0) || (cu_count c =? 0) then None else visible c 0.
Definition Cues_GetLast (c : p_cues) : option p_cue := if (zlen (cu_points c) =? 0) || (cu_count c <=? 0) then None else visible c (cu_count c - 1).
Definition Cues_GetNext (c : p_cues) (p : p_cue) : option p_cue :=
  if (cp_timecode p <? 0) || (zlen (cu_points c) =? 0) || (cu_count c <? 1) then None
  else if cp_index p >=? cu_count c then None
  else if cp_index p + 1 >=? cu_count c then None
  else visible c (cp_index p + 1).
