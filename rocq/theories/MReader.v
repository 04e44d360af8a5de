(* Model of the readers that come with the callback parser: BufferReader, FileReader
   and IstreamReader (webm_parser/src).
   long, off_t and streamsize have 64 bits.  Constructors from
   other readers, moving and closing are not modelled. *)
From Verif Require Import Base WpSpec MWp SourceSpec.

(* ---------- the C library's file, as the readers see it ---------- *)
(* what fseek and seekg do: nothing but fail (a pipe); stay inside the data (a string
   stream); also go beyond the end (a file): file_reader.cc 19-31, istream_reader.cc 92 *)
Inductive seek_kind := no_seek | seek_inside | seek_anywhere.
(* f_sched answers the future calls of fread: at most that many bytes; after the
   schedule all that is there: file_reader.cc 61-62 *)
Record file := mkF { f_data : list Z; f_off : Z; f_seek : seek_kind; f_sched : list Z }.

(* fread(buffer, 1, n, file): file_reader.cc 61-62, mkvreader.cc:133 *)
Definition fread (n : Z) (f : file) : list Z * file :=
  let rest := skipn (Z.to_nat (f_off f)) (f_data f) in
  let there := Z.min n (zlen rest) in
  let '(k, s) := match f_sched f with
                 | [] => (there, [])
                 | c :: s => (Z.min there (Z.max 0 c), s)
                 end in
  (firstn (Z.to_nat k) rest, mkF (f_data f) (f_off f + k) (f_seek f) s).

(* fseek to an offset; true: done.  file_reader.cc 19-31 *)
Definition fseek_set (p : Z) (f : file) : bool * file :=
  let ok := (0 <=? p) && (p <=? LLONG_MAX) &&
            match f_seek f with
            | no_seek => false
            | seek_inside => p <=? zlen (f_data f)
            | seek_anywhere => true
            end in
  (ok, if ok then mkF (f_data f) p (f_seek f) (f_sched f) else f).
(* relative to the current offset: file_reader.cc 93 *)
Definition fseek_cur (d : Z) (f : file) : bool * file := fseek_set (f_off f + d) f.

(* ---------- BufferReader ---------- *)
(* webm_parser/include/webm/buffer_reader.h 126-129 *)
Record buffer_reader := mkBR { br_data : list Z; br_pos : Z }.

(* buffer_reader.cc 52-79 *)
Definition BufferReader_Read (n : Z) (r : buffer_reader) : answer * buffer_reader :=
  let remaining := zlen (br_data r) - br_pos r in
  if remaining =? 0 then (ARead kEndOfFile [], r)
  else
    let k := if n >? remaining then remaining else n in
    (ARead (if negb (k =? n) then kOkPartial else kOkCompleted)
           (firstn (Z.to_nat k) (skipn (Z.to_nat (br_pos r)) (br_data r))),
     mkBR (br_data r) (br_pos r + k)).

(* buffer_reader.cc 81-106 *)
Definition BufferReader_Skip (n : Z) (r : buffer_reader) : answer * buffer_reader :=
  let remaining := zlen (br_data r) - br_pos r in
  if remaining =? 0 then (ASkip kEndOfFile 0, r)
  else
    let k := if n >? remaining then remaining else n in
    (ASkip (if negb (k =? n) then kOkPartial else kOkCompleted) k, mkBR (br_data r) (br_pos r + k)).

(* one call: buffer_reader.cc 52-106; there is no Seek *)
Definition buffer_call (c : call) (r : buffer_reader) : outcome (answer * buffer_reader) :=
  match c with
  | CRead n => Val (BufferReader_Read n r)
  | CSkip n => Val (BufferReader_Skip n r)
  | CSeek _ => UB
  end.

(* ---------- FileReader ---------- *)
(* webm_parser/include/webm/file_reader.h 84-98; fr_file is None in a reader that has no
   file, or whose file was moved away *)
Record file_rd := mkFR { fr_file : option file; fr_pos : Z }.

(* file_reader.cc 50-75 *)
Definition FileReader_Read (n : Z) (r : file_rd) : answer * file_rd :=
  match fr_file r with
  | None => (ARead kEndOfFile [], r)
  | Some f =>
      let '(bs, f1) := fread n f in
      let r1 := mkFR (Some f1) (wrap64 (fr_pos r + zlen bs)) in
      if zlen bs =? 0 then (ARead kEndOfFile bs, r1)
      else if zlen bs =? n then (ARead kOkCompleted bs, r1)
      else (ARead kOkPartial bs, r1)
  end.

(* file_reader.cc 77-130.  The loop at 106-119 tests the outer variable `actual`, which
   stays 0 because the body declares its own: the body runs once. *)
Definition FileReader_Skip (n : Z) (r : file_rd) : answer * file_rd :=
  match fr_file r with
  | None => (ASkip kEndOfFile 0, r)
  | Some f =>
      let d := if n <? LLONG_MAX then n else LLONG_MAX in
      let '(ok, f1) := fseek_cur d f in
      if ok then
        (ASkip (if d =? n then kOkCompleted else kOkPartial) d, mkFR (Some f1) (wrap64 (fr_pos r + d)))
      else
        let want := if n <? 1024 then n else 1024 in
        let '(bs, f2) := fread want f1 in
        let r2 := mkFR (Some f2) (wrap64 (fr_pos r + zlen bs)) in
        if zlen bs =? 0 then (ASkip kEndOfFile (zlen bs), r2)
        else if n - zlen bs =? 0 then (ASkip kOkCompleted (zlen bs), r2)
        else (ASkip kOkPartial (zlen bs), r2)
  end.

(* webm_parser/include/webm/status.h 62 *)
Definition kSeekFailed : Z := -4.

(* file_reader.cc 132-138; the position is converted to off_t; without a file the call
   is undefined *)
Definition FileReader_Seek (p : Z) (r : file_rd) : outcome (answer * file_rd) :=
  match fr_file r with
  | None => UB
  | Some f =>
      let '(ok, f1) := fseek_set (sint64 p) f in
      if negb ok then Val (ASeek kSeekFailed, mkFR (Some f1) (fr_pos r))
      else Val (ASeek kOkCompleted, mkFR (Some f1) p)
  end.

(* one call: file_reader.cc 50-138 *)
Definition file_call (c : call) (r : file_rd) : outcome (answer * file_rd) :=
  match c with
  | CRead n => Val (FileReader_Read n r)
  | CSkip n => Val (FileReader_Skip n r)
  | CSeek p => FileReader_Seek p r
  end.

(* ---------- IstreamReader ---------- *)
(* webm_parser/include/webm/istream_reader.h 93-94; the stream is its data with the state
   bits eofbit and failbit *)
Record istream := mkIs { is_file : file; is_eof : bool; is_fail : bool }.
Record istream_rd := mkIR { ir_stream : option istream; ir_pos : Z }.

(* std::istream::read and gcount: istream_reader.cc 56-57 *)
Definition istream_read (n : Z) (s : istream) : list Z * istream :=
  if is_eof s || is_fail s then ([], mkIs (is_file s) (is_eof s) true)
  else
    let '(bs, f) := fread n (is_file s) in
    let short := negb (zlen bs =? n) in
    (bs, mkIs f short short).

(* std::istream::seekg(d, cur), then operator bool: istream_reader.cc 92 *)
Definition istream_seekg (d : Z) (s : istream) : bool * istream :=
  if is_fail s then (false, mkIs (is_file s) false true)
  else let '(ok, f) := fseek_cur d (is_file s) in (ok, mkIs f false (negb ok)).

(* istream_reader.cc 35-70 *)
Definition IstreamReader_Read (n : Z) (r : istream_rd) : answer * istream_rd :=
  match ir_stream r with
  | None => (ARead kEndOfFile [], r)
  | Some s =>
      let limited := if n >? LLONG_MAX then LLONG_MAX else n in
      let '(bs, s1) := istream_read limited s in
      let r1 := mkIR (Some s1) (wrap64 (ir_pos r + zlen bs)) in
      if zlen bs =? 0 then (ARead kEndOfFile bs, r1)
      else if zlen bs =? n then (ARead kOkCompleted bs, r1)
      else (ARead kOkPartial bs, r1)
  end.

(* istream_reader.cc 72-129; the loop at 105-118 runs once, as in file_reader.cc *)
Definition IstreamReader_Skip (n : Z) (r : istream_rd) : answer * istream_rd :=
  match ir_stream r with
  | None => (ASkip kEndOfFile 0, r)
  | Some s =>
      if is_eof s || is_fail s then (ASkip kEndOfFile 0, r)
      else
        let d := if n >? LLONG_MAX then LLONG_MAX else n in
        let '(ok, s1) := istream_seekg d s in
        if ok then
          (ASkip (if d =? n then kOkCompleted else kOkPartial) d, mkIR (Some s1) (wrap64 (ir_pos r + d)))
        else
          let want := if n <? 1024 then n else 1024 in
          let '(bs, s2) := istream_read want (mkIs (is_file s1) false false) in
          let r2 := mkIR (Some s2) (wrap64 (ir_pos r + zlen bs)) in
          if zlen bs =? 0 then (ASkip kEndOfFile (zlen bs), r2)
          else if n - zlen bs =? 0 then (ASkip kOkCompleted (zlen bs), r2)
          else (ASkip kOkPartial (zlen bs), r2)
  end.

(* one call: istream_reader.cc 35-129; there is no Seek *)
Definition istream_call (c : call) (r : istream_rd) : outcome (answer * istream_rd) :=
  match c with
  | CRead n => Val (IstreamReader_Read n r)
  | CSkip n => Val (IstreamReader_Skip n r)
  | CSeek _ => UB
  end.

(* a history of calls with their answers; no code of its own (cf. reader.h 35-86) *)
Fixpoint history {R} (step : call -> R -> outcome (answer * R)) (cs : list call) (r : R)
  : outcome (list (call * answer) * R) :=
  match cs with
  | [] => Val ([], r)
  | c :: cs =>
      match step c r with
      | UB => UB
      | Val (a, r1) =>
          match history step cs r1 with
          | UB => UB
          | Val (l, r2) => Val ((c, a) :: l, r2)
          end
      end
  end.

(* the data source that the callback parser's model reads from (MWp.v) answers a call:
   reader.h 56-57, 75-76 *)
Definition source_call (c : call) (w : world) : outcome (answer * world) :=
  match c with
  | CRead n => let '(st, bs, w1) := rd_take n w in Val (ARead st bs, w1)
  | CSkip n => let '(st, bs, w1) := rd_take n w in Val (ASkip st (zlen bs), w1)
  | CSeek _ => UB
  end.
