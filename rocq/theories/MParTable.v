(* Model of the cluster table of mkvparser's Segment: the array of loaded clusters
   followed by preloaded ones (mkvparser/mkvparser.cc).  Allocation failure is not
   modelled; asserts are left out, following an uninitialised or out-of-range
   pointer is UB. *)
From Verif Require Import Base.

Section Table.
Context {A : Type}.

(* what the table needs of a Cluster object: m_index (-1: preloaded) and
   GetPosition() (mkvparser.cc:6873-6878); ce_obj is the rest of the object *)
Record centry := mkEnt { ce_index : Z; ce_pos : Z; ce_obj : A }.

(* m_clusters, m_clusterSize, m_clusterCount, m_clusterPreloadCount:
   mkvparser.h:1119-1122.  t_arr has one cell per allocated element (None:
   uninitialised); it is empty while m_clusters is NULL. *)
Record table := mkTable { t_arr : list (option centry); t_size : Z; t_count : Z; t_preload : Z }.
(* Segment::Segment: mkvparser.cc:661-680 *)
Definition table_new : table := mkTable [] 0 0 0.

(* reading array[i] and following the pointer found there, e.g. mkvparser.cc:1226, 2505 *)
Definition cell (arr : list (option centry)) (i : Z) : outcome centry :=
  if i <? 0 then UB
  else match nth_error arr (Z.to_nat i) with Some (Some c) => Val c | _ => UB end.
(* array[i] = c: mkvparser.cc:1391, 1445 *)
Definition set_cell (arr : list (option centry)) (i : Z) (c : centry) : outcome (list (option centry)) :=
  if (i <? 0) || (Z.of_nat (length arr) <=? i) then UB
  else Val (firstn (Z.to_nat i) arr ++ Some c :: skipn (S (Z.to_nat i)) arr).

(* mkvparser.cc:1349-1367 and 1406-1424: make room; the first count cells are copied *)
Definition grow (t : table) (count : Z) : outcome table :=
  if count >=? t_size t then
    let n := if t_size t <=? 0 then 2048 else 2 * t_size t in
    if (count <? 0) || (Z.of_nat (length (t_arr t)) <? count) || (n <? count) then UB
    else Val (mkTable (firstn (Z.to_nat count) (t_arr t) ++ repeat None (Z.to_nat (n - count))) n (t_count t) (t_preload t))
  else Val t.

(* mkvparser.cc:1378-1388 and 1435-1443: move the cells [q - n, q) up by one, the
   last one first; false when a cell holds a loaded cluster (the cells moved so far
   stay moved) *)
Fixpoint shift_up (n : nat) (arr : list (option centry)) (q : Z) : outcome (bool * list (option centry)) :=
  match n with
  | O => Val (true, arr)
  | S n' =>
      match cell arr (q - 1) with
      | UB => UB
      | Val c =>
          if ce_index c >=? 0 then Val (false, arr)
          else match set_cell arr q c with
               | UB => UB
               | Val arr' => shift_up n' arr' (q - 1)
               end
      end
  end.

(* Segment::AppendCluster: mkvparser.cc:1337-1394.  pCluster is not NULL. *)
Definition AppendCluster (t : table) (c : centry) : outcome (bool * table) :=
  if ce_index c <? 0 then Val (false, t)
  else
    let count := t_count t + t_preload t in
    let idx := ce_index c in
    if (t_size t <? count) || negb (idx =? t_count t) then Val (false, t)
    else
      match grow t count with
      | UB => UB
      | Val t =>
          let finish arr :=
            match set_cell arr idx c with
            | UB => UB
            | Val arr => Val (true, mkTable arr (t_size t) (t_count t + 1) (t_preload t))
            end in
          if t_preload t >? 0 then
            match cell (t_arr t) (t_count t) with
            | UB => UB
            | Val p =>
                if ce_index p >=? 0 then Val (false, t)
                else if t_count t + t_preload t >=? t_size t then Val (false, t)
                else match shift_up (Z.to_nat (t_preload t)) (t_arr t) (t_count t + t_preload t) with
                     | UB => UB
                     | Val (false, arr) => Val (false, mkTable arr (t_size t) (t_count t) (t_preload t))
                     | Val (true, arr) => finish arr
                     end
            end
          else finish (t_arr t)
      end.

(* Segment::PreloadCluster: mkvparser.cc:1396-1448.  pCluster is not NULL; the array
   cannot be NULL after [grow]. *)
Definition PreloadCluster (t : table) (c : centry) (idx : Z) : outcome (bool * table) :=
  if (ce_index c >=? 0) || (idx <? t_count t) then Val (false, t)
  else
    let count := t_count t + t_preload t in
    if t_size t <? count then Val (false, t)
    else
      match grow t count with
      | UB => UB
      | Val t =>
          if (count <? idx) || (count >=? t_size t) then Val (false, t)
          else
            match shift_up (Z.to_nat (count - idx)) (t_arr t) count with
            | UB => UB
            | Val (false, arr) => Val (false, mkTable arr (t_size t) (t_count t) (t_preload t))
            | Val (true, arr) =>
                match set_cell arr idx c with
                | UB => UB
                | Val arr => Val (true, mkTable arr (t_size t) (t_count t) (t_preload t + 1))
                end
            end
      end.

(* the binary search by position: mkvparser.cc:2213-2237, 2154-2178, 2652-2674,
   2999-3021.  inl: found at that index; inr: where it belongs *)
Fixpoint search_pos (fuel : nat) (arr : list (option centry)) (i j pos : Z) : outcome (Z + Z) :=
  match fuel with
  | O => UB
  | S f =>
      if i <? j then
        let k := i + (j - i) / 2 in
        match cell arr k with
        | UB => UB
        | Val c =>
            if ce_pos c <? pos then search_pos f arr (k + 1) j pos
            else if ce_pos c >? pos then search_pos f arr i k pos
            else Val (inl k)
        end
      else Val (inr i)
  end.

(* Segment::FindOrPreloadCluster: mkvparser.cc:2201-2258, and the search in
   Segment::GetBlock: 2144-2195.  obj is the rest of a new Cluster object.  The
   result is the index of the returned cluster (None: NULL). *)
Definition FindOrPreloadCluster (t : table) (requested_pos : Z) (obj : A) : outcome (option Z * table) :=
  if requested_pos <? 0 then Val (None, t)
  else
    let count := t_count t + t_preload t in
    match search_pos (S (Z.to_nat count)) (t_arr t) 0 count requested_pos with
    | UB => UB
    | Val (inl k) => Val (Some k, t)
    | Val (inr i) =>
        match PreloadCluster t (mkEnt (-1) requested_pos obj) i with
        | UB => UB
        | Val (false, t) => Val (None, t)
        | Val (true, t) => Val (Some i, t)
        end
    end.

(* The end of Segment::GetNext (mkvparser.cc:2645-2696) and of DoParseNext
   (2989-3057): off_next is the position of the next cluster with blocks; only the
   preloaded clusters are searched. *)
Definition preload_next (t : table) (off_next : Z) (obj : A) : outcome (option Z * table) :=
  match search_pos (S (Z.to_nat (t_preload t))) (t_arr t) (t_count t) (t_count t + t_preload t) off_next with
  | UB => UB
  | Val (inl k) => Val (Some k, t)
  | Val (inr i) =>
      match PreloadCluster t (mkEnt (-1) off_next obj) i with
      | UB => UB
      | Val (false, t) => Val (None, t)
      | Val (true, t) => Val (Some i, t)
      end
  end.

(* The end of Segment::DoLoadCluster (mkvparser.cc:1220-1304): sequential loading
   found a cluster at cluster_off; has_blocks is the result of HasBlockEntries.
   Result: Some true: the cluster is now loaded; Some false: skipped for lack of
   blocks; None: the file is refused.  What happens to the segment's position is
   not part of the table. *)
Definition load_found (t : table) (cluster_off : Z) (has_blocks : bool) (obj : A) : outcome (option bool * table) :=
  let idx := t_count t in
  let append t :=
    if has_blocks then
      match AppendCluster t (mkEnt idx cluster_off obj) with
      | UB => UB
      | Val (false, t) => Val (None, t)
      | Val (true, t) => Val (Some true, t)
      end
    else Val (Some false, t) in
  if t_preload t >? 0 then
    if idx >=? t_size t then Val (None, t)
    else
      match cell (t_arr t) idx with
      | UB => UB
      | Val p =>
          if ce_index p >=? 0 then Val (None, t)
          else if ce_pos p <? 0 then Val (None, t)
          else if ce_pos p =? cluster_off then
            if negb has_blocks then Val (None, t)
            else match set_cell (t_arr t) idx (mkEnt idx (ce_pos p) (ce_obj p)) with
                 | UB => UB
                 | Val arr => Val (Some true, mkTable arr (t_size t) (t_count t + 1) (t_preload t - 1))
                 end
          else append t
      end
  else append t.

(* Segment::FindCluster: mkvparser.cc:3167-3221.  time is Cluster::GetTime
   (7105-7120), which loads the cluster's header when needed and then keeps it: a
   function of the cluster.  None: the end-of-stream cluster. *)
Fixpoint search_time (fuel : nat) (arr : list (option centry)) (time : centry -> outcome Z) (i j time_ns : Z) : outcome Z :=
  match fuel with
  | O => UB
  | S f =>
      if i <? j then
        let k := i + (j - i) / 2 in
        match cell arr k with
        | UB => UB
        | Val c =>
            match time c with
            | UB => UB
            | Val t => if t <=? time_ns then search_time f arr time (k + 1) j time_ns
                       else search_time f arr time i k time_ns
            end
        end
      else Val i
  end.
Definition FindCluster (t : table) (time : centry -> outcome Z) (time_ns : Z) : outcome (option Z) :=
  if t_count t <=? 0 then Val None
  else
    match cell (t_arr t) 0 with
    | UB => UB
    | Val c =>
        match time c with
        | UB => UB
        | Val t0 =>
            if time_ns <=? t0 then Val (Some 0)
            else
              match search_time (S (Z.to_nat (t_count t))) (t_arr t) time 0 (t_count t) time_ns with
              | UB => UB
              | Val i => match cell (t_arr t) (i - 1) with UB => UB | Val _ => Val (Some (i - 1)) end
              end
        end
    end.

End Table.
Arguments centry : clear implicits.
Arguments table : clear implicits.
