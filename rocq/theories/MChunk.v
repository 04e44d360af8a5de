(* Writing in chunks: SetChunking, UpdateChunkName and the parts of MakeNewCluster,
   WriteSegmentHeader and Finalize of mkvmuxer's Segment that open and close files.
   What is written is given from outside (event); the other parts of these functions
   are in MMuxSegment.v.  Allocations do not fail; buffering by the C library is not
   visible; a file is opened by this program only. *)
From Verif Require Import Base MWriter MFile ChunkSpec.

(* strcmp(a, b) == 0: mkvmuxer.cc:3617 *)
Definition same_name (a b : list Z) : bool := if list_eq_dec Z.eq_dec a b then true else false.
(* The files that have been opened, the last one first.  Opening truncates: an
   earlier file of the same name is hidden by the new one.  No code of its own
   (cf. mkvwriter.cc:40-56) *)
Definition disk : Type := list (list Z * list Z).
Fixpoint look (n : list Z) (d : disk) : option (list Z) :=
  match d with [] => None | (m, f) :: d => if same_name m n then Some f else look n d end.
Fixpoint store (n f : list Z) (d : disk) : disk :=
  match d with
  | [] => []
  | (m, g) :: d => if same_name m n then (m, f) :: d else (m, g) :: store n f d
  end.

(* file_ of an MkvWriter: name and position, None for NULL: mkvwriter.h:43-44 *)
Definition chunk_writer : Type := option (list Z * Z).
(* MkvWriter::Open: mkvwriter.cc:40-55; ok: what fopen answers *)
Definition Open (ok : bool) (n : list Z) (w : chunk_writer) (d : disk) : bool * chunk_writer * disk :=
  match w with
  | Some _ => (false, w, d)
  | None => if ok then (true, Some (n, 0), (n, []) :: d) else (false, None, d)
  end.
(* MkvWriter::Write and Position: mkvwriter.cc:25-38, 75-92, for calls that store all
   they are given; the statuses are not kept *)
Definition call (c : wcall) (w : chunk_writer) (d : disk) : chunk_writer * disk :=
  match w with
  | None => (None, d)
  | Some (n, off) =>
      match c with
      | WCWrite bs =>
          if zlen bs =? 0 then (w, d)
          else (Some (n, off + zlen bs), store n (write_at (match look n d with Some f => f | None => [] end) off bs) d)
      | WCSeek p => if p <? 0 then (w, d) else (Some (n, p), d)
      end
  end.

(* the members of Segment: mkvmuxer.h:1787-1810; ck_in_use: writer_cluster_,
   writer_cues_ and writer_header_ are the chunk writers; ck_size: cluster_list_size_ *)
Record chunks := mkCk {
  ck_on : bool; ck_base : list Z; ck_count : Z; ck_size : Z; ck_in_use : bool;
  ck_cluster : chunk_writer; ck_cues : chunk_writer; ck_header : chunk_writer; ck_disk : disk
}.
(* Segment::Segment: mkvmuxer.cc:3047-3084 *)
Definition ck_init : chunks := mkCk false [] 0 0 false None None None [].

(* the digits of n >= 0; ten are enough for an int; printf's %d, mkvmuxer.cc:4007 *)
Fixpoint digits (fuel : nat) (n : Z) : list Z :=
  match fuel with
  | O => []
  | S f => if n <? 10 then [48 + n] else digits f (n / 10) ++ [48 + n mod 10]
  end.
(* printf's %06d: mkvmuxer.cc:4007 *)
Definition padded (width : nat) (n : Z) : list Z := let ds := digits 10 n in repeat 48 (width - length ds) ++ ds.
Definition d06 (n : Z) : list Z := if n <? 0 then 45 :: padded 5 (- n) else padded 6 n.
(* UpdateChunkName: mkvmuxer.cc:3999-4025; the buffer of 64 bytes is long enough for
   the two extensions *)
Definition chunk_file (base ext : list Z) (count : Z) : list Z := base ++ [95] ++ d06 count ++ [46] ++ ext.
Definition header_file (base : list Z) : list Z := base ++ 46 :: ext_hdr.   (* mkvmuxer.cc:3656-3664 *)

(* SetChunking: mkvmuxer.cc:3608-3681, with a filename that is not null *)
Definition SetChunking (on : bool) (filename : list Z) (cluster_ok header_ok : bool) (s : chunks) : bool * chunks :=
  if ck_count s >? 0 then (false, s)
  else if negb on then (true, mkCk false (ck_base s) (ck_count s) (ck_size s) (ck_in_use s) (ck_cluster s) (ck_cues s) (ck_header s) (ck_disk s))
  else if ck_on s && same_name filename (ck_base s) then (true, s)
  else
    let '(ok1, cl, d1) := Open cluster_ok (chunk_file filename ext_chk (ck_count s)) (ck_cluster s) (ck_disk s) in
    if negb ok1 then (false, mkCk (ck_on s) filename (ck_count s) (ck_size s) (ck_in_use s) cl (ck_cues s) (ck_header s) d1)
    else
      let '(ok2, hd, d2) := Open header_ok (header_file filename) (ck_header s) d1 in
      if negb ok2 then (false, mkCk (ck_on s) filename (ck_count s) (ck_size s) (ck_in_use s) cl (ck_cues s) hd d2)
      else (true, mkCk true filename (ck_count s) (ck_size s) true cl (ck_cues s) hd d2).

(* MakeNewCluster: mkvmuxer.cc:3881-3889, 3916; the false of a file that cannot be opened
   leaves the list of clusters as it is *)
Definition MakeNewCluster_files (ok : bool) (s : chunks) : bool * chunks :=
  if ck_on s && (ck_size s >? 0) then
    let count := sint32 (ck_count s + 1) in
    let '(opened, cl, d) := Open ok (chunk_file (ck_base s) ext_chk count) None (ck_disk s) in
    (opened, mkCk (ck_on s) (ck_base s) count (if opened then ck_size s + 1 else ck_size s) (ck_in_use s) cl (ck_cues s) (ck_header s) d)
  else (true, mkCk (ck_on s) (ck_base s) (ck_count s) (ck_size s + 1) (ck_in_use s) (ck_cluster s) (ck_cues s) (ck_header s) (ck_disk s)).

(* the end of WriteSegmentHeader: mkvmuxer.cc:3758-3763; the files can seek *)
Definition header_done (live : bool) (s : chunks) : chunks :=
  if ck_on s && live then mkCk (ck_on s) (ck_base s) (ck_count s) (ck_size s) (ck_in_use s) (ck_cluster s) (ck_cues s) None (ck_disk s) else s.

(* Finalize in file mode: mkvmuxer.cc:3247-3250 and 3284-3296; between them it can
   end early (info_ok is false) *)
Definition Finalize_files (info_ok ok : bool) (s : chunks) : bool * chunks :=
  if ck_on s then
    let count := sint32 (ck_count s + 1) in
    if negb info_ok then (false, mkCk (ck_on s) (ck_base s) count (ck_size s) (ck_in_use s) None (ck_cues s) (ck_header s) (ck_disk s))
    else
      let '(opened, cu, d) := Open ok (chunk_file (ck_base s) ext_cues count) (ck_cues s) (ck_disk s) in
      (opened, mkCk (ck_on s) (ck_base s) count (ck_size s) (ck_in_use s) None cu (ck_header s) d)
  else (info_ok, s).
(* mkvmuxer.cc:3342-3350 *)
Definition finalized (s : chunks) : chunks :=
  if ck_on s then mkCk (ck_on s) (ck_base s) (ck_count s) (ck_size s) (ck_in_use s) (ck_cluster s) None None (ck_disk s) else s.

(* One event.  Calls of writers that are not the chunk writers go to the writer given
   to Init and touch none of these files.  No code of its own (cf. mkvmuxer.cc:3183-3185,
   3671-3673) *)
Definition step (s : chunks) (e : event) : chunks :=
  match e with
  | Inits => mkCk (ck_on s) (ck_base s) (ck_count s) (ck_size s) false (ck_cluster s) (ck_cues s) (ck_header s) (ck_disk s)
  | SetsChunking on n a b => snd (SetChunking on n a b s)
  | MakesCluster ok => snd (MakeNewCluster_files ok s)
  | OnCluster c => if ck_in_use s then let '(w, d) := call c (ck_cluster s) (ck_disk s) in
      mkCk (ck_on s) (ck_base s) (ck_count s) (ck_size s) (ck_in_use s) w (ck_cues s) (ck_header s) d else s
  | OnHeader c => if ck_in_use s then let '(w, d) := call c (ck_header s) (ck_disk s) in
      mkCk (ck_on s) (ck_base s) (ck_count s) (ck_size s) (ck_in_use s) (ck_cluster s) (ck_cues s) w d else s
  | OnCues c => if ck_in_use s then let '(w, d) := call c (ck_cues s) (ck_disk s) in
      mkCk (ck_on s) (ck_base s) (ck_count s) (ck_size s) (ck_in_use s) (ck_cluster s) w (ck_header s) d else s
  | HeaderDone live => header_done live s
  | Finalizes i ok => snd (Finalize_files i ok s)
  | Finalized => finalized s
  end.
Definition run (evs : list event) (s : chunks) : chunks := fold_left step evs s.
