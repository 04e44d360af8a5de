(* Model of WriteFiles of vttdemux.cc: what goes into which of the open files.  Not
   modelled: walking the clusters (their blocks are given in order), failures of the
   output files, the messages. *)
From Verif Require Import Base MVtt VttMuxSpec MVttMux MParMeta MVttChap VttNameSpec MVttName VttFileSpec.

(* the open files by key, with what they hold: vttdemux.cc:32-39 *)
Definition files := list (Z * list Z).
(* m.find(n) != m.end(): vttdemux.cc:579, 779 *)
Definition has_key (n : Z) (fs : files) : bool := existsb (fun f => fst f =? n) fs.
(* output to the file of key n; fputc, fputs, fprintf: vttdemux.cc:796-952 *)
Definition append (n : Z) (t : list Z) (fs : files) : files := map (fun f => if fst f =? n then (fst f, snd f ++ t) else f) fs.
(* InitializeFiles: vttdemux.cc:556-575 *)
Definition InitializeFiles (fs : files) : files := map (fun f => (fst f, snd f ++ kWebvttId ++ [10])) fs.
(* ProcessBlockEntry: vttdemux.cc:770-794; when it fails, part of the cue may have been
   written, which is left out *)
Definition ProcessBlockEntry (scale : Z) (b : block_entry) (fs : files) : outcome (bool * files) :=
  if negb (has_key (be_track b) fs) then Val (true, fs)
  else if negb (be_group b) then Val (false, fs)
  else olet x := WriteCue scale (be_block b) in
       match x with None => Val (false, fs) | Some t => Val (true, append (be_track b) t fs) end.
(* ProcessCluster and the loop over the clusters: vttdemux.cc:544-551, 743-768 *)
Fixpoint process_blocks (scale : Z) (bs : list block_entry) (fs : files) : outcome (bool * files) :=
  match bs with
  | [] => Val (true, fs)
  | b :: r =>
      olet x := ProcessBlockEntry scale b fs in
      let '(ok, fs) := x in
      if ok then process_blocks scale r fs else Val (false, fs)
  end.
(* WriteFiles: vttdemux.cc:533-554, with WriteChaptersFile: vttdemux.cc:577-586; editions:
   those of the segment's chapters, if it has any; when a chapter fails, what was written
   of the chapters is left out *)
Definition WriteFiles (scale : Z) (editions : option (list (list p_atom))) (bs : list block_entry) (fs : files) : outcome (bool * files) :=
  let fs := InitializeFiles fs in
  olet x := (if has_key 0 fs then match editions with None => Val (Some []) | Some es => WriteChaptersFile scale es end else Val (Some [])) in
  match x with
  | None => Val (false, fs)
  | Some t => process_blocks scale bs (append 0 t fs)
  end.
(* main, once the segment is parsed: vttdemux.cc:982-1003.  The exit status, true for
   EXIT_SUCCESS, and the output files: their names and what they hold at the end. *)
Definition demux_main (can_open : list Z -> bool) (scale : Z) (editions : option (list (list p_atom))) (ts : list track_info) (filename : list Z)
    (bs : list block_entry) : outcome (bool * list (list Z * list Z)) :=
  let m := BuildMap (match editions with None => false | Some _ => true end) ts in
  match m with
  | [] => Val (false, [])
  | _ =>
      let '(ok, opened) := OpenFiles can_open m filename in
      if negb ok then Val (false, map (fun f => (snd f, [])) opened)
      else olet x := WriteFiles scale editions bs (map (fun f => (fst f, [])) opened) in
           Val (fst x, combine (map snd opened) (map snd (snd x)))
  end.
