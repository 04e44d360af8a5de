(* Model of the VP9 helpers: common/vp9_header_parser.{h,cc},
   common/vp9_level_stats.{h,cc} and ParseVpxCodecPrivate of common/hdr_util.cc.
   Simplification: the messages on stderr are left out; the null checks of
   SetFrame and ParseVpxCodecPrivate cannot be violated; the counter of frames
   (int) and the total size times 8 (int64) are assumed not to overflow. *)
From Coq Require Import Floats.SpecFloat.
From Verif Require Import Base MFloat MVtt.

(* ---------- the header parser ---------- *)

(* frame_[i]: vp9_header_parser.cc:122 *)
Definition frame_at (frame : list Z) (i : Z) : outcome Z :=
  if (0 <=? i) && (i <? zlen frame) then Val (nth (Z.to_nat i) frame 0) else UB.

(* a step of the parser: takes and returns bit_offset_ (vp9_header_parser.h:104,
   vp9_header_parser.cc:117-128) *)
Definition B (A : Type) : Type := Z -> outcome (A * Z).
Definition bret {A} (a : A) : B A := fun off => Val (a, off).
Definition bbind {A C} (m : B A) (k : A -> B C) : B C := fun off => olet x := m off in k (fst x) (snd x).
Notation "'blet' x := m 'in' k" := (bbind m (fun x => k)) (at level 200, x pattern, m at level 100, k at level 200).

(* Vp9HeaderParser::ReadBit: vp9_header_parser.cc:117-128 *)
Definition ReadBit (frame : list Z) : B Z := fun off =>
  let byte_offset := off / 8 in
  let bit_shift := 7 - off mod 8 in
  if byte_offset <? zlen frame then
    olet b := frame_at frame byte_offset in
    Val (Z.land (Z.shiftr b bit_shift) 1, off + 1)
  else Val (0, off).

(* Vp9HeaderParser::VpxReadLiteral: vp9_header_parser.cc:130-135 *)
Fixpoint literal_loop (frame : list Z) (bits : nat) (value : Z) : B Z :=
  match bits with
  | O => bret value
  | S bit => blet b := ReadBit frame in literal_loop frame bit (Z.lor value (Z.shiftl b (Z.of_nat bit)))
  end.
Definition VpxReadLiteral (frame : list Z) (bits : nat) : B Z := literal_loop frame bits 0.

(* Vp9HeaderParser::ValidateVp9SyncCode: vp9_header_parser.cc:137-142 *)
Definition ValidateVp9SyncCode (frame : list Z) : B bool :=
  blet a := VpxReadLiteral frame 8 in
  blet b := VpxReadLiteral frame 8 in
  blet c := VpxReadLiteral frame 8 in
  bret ((a =? 0x49) && (b =? 0x83) && (c =? 0x42)).

(* the members of Vp9HeaderParser that outlive a call: vp9_header_parser.h:102-124
   (show_existing_frame_, intra_only_, reset_frame_context_, color_range_,
   subsampling_x_ and subsampling_y_ have no accessor and are not kept) *)
Record header := mkHd {
  hd_frame_size : Z; hd_profile : Z; hd_key : Z; hd_altref : Z; hd_error_resilient : Z;
  hd_bit_depth : Z; hd_color_space : Z; hd_refresh : Z;
  hd_width : Z; hd_height : Z; hd_display_width : Z; hd_display_height : Z;
  hd_row_tiles : Z; hd_column_tiles : Z; hd_parallel : Z }.

(* Vp9HeaderParser::Vp9HeaderParser: vp9_header_parser.h:31-52; display_width_ and
   display_height_ are left uninitialized: any numbers *)
Definition new_header (display_width display_height : Z) : header :=
  mkHd 0 (-1) 0 0 0 0 0 0 0 0 display_width display_height 0 0 0.

(* Vp9HeaderParser::ParseColorSpace: vp9_header_parser.cc:144-167; bit depth and
   color space *)
Definition ParseColorSpace (frame : list Z) (profile : Z) : B (Z * Z) :=
  blet bit_depth := (if profile >=? 2 then blet b := ReadBit frame in bret (if b =? 0 then 10 else 12) else bret 8) in
  blet color_space := VpxReadLiteral frame 3 in
  if negb (color_space =? 7) then
    blet color_range := ReadBit frame in
    if (profile =? 1) || (profile =? 3) then
      blet sx := ReadBit frame in
      blet sy := ReadBit frame in
      blet r := ReadBit frame in
      bret (bit_depth, color_space)
    else bret (bit_depth, color_space)
  else if (profile =? 1) || (profile =? 3) then
    blet r := ReadBit frame in
    bret (bit_depth, color_space)
  else bret (bit_depth, color_space).

(* Vp9HeaderParser::ParseFrameResolution: vp9_header_parser.cc:169-179 *)
Definition ParseFrameResolution (frame : list Z) : B (Z * Z * Z * Z) :=
  blet w := VpxReadLiteral frame 16 in
  blet h := VpxReadLiteral frame 16 in
  blet d := ReadBit frame in
  if negb (d =? 0) then
    blet dw := VpxReadLiteral frame 16 in
    blet dh := VpxReadLiteral frame 16 in
    bret (w + 1, h + 1, dw + 1, dh + 1)
  else bret (w + 1, h + 1, w + 1, h + 1).

(* Vp9HeaderParser::ParseFrameParallelMode: vp9_header_parser.cc:181-188 *)
Definition ParseFrameParallelMode (frame : list Z) (error_resilient : Z) : B Z :=
  if error_resilient =? 0 then blet r := ReadBit frame in ReadBit frame else bret 1.

(* Vp9HeaderParser::SkipDeltaQ: vp9_header_parser.cc:260-263 *)
Definition SkipDeltaQ (frame : list Z) : B unit :=
  blet b := ReadBit frame in
  if negb (b =? 0) then blet v := VpxReadLiteral frame 4 in bret tt else bret tt.

(* vp9_header_parser.cc:202-211: n times a flag and perhaps seven bits *)
Fixpoint skip_deltas (frame : list Z) (n : nat) : B unit :=
  match n with
  | O => bret tt
  | S n' =>
      blet b := ReadBit frame in
      blet v := (if negb (b =? 0) then VpxReadLiteral frame 7 else bret 0) in
      skip_deltas frame n'
  end.

(* Vp9HeaderParser::AlignPowerOfTwo: vp9_header_parser.cc:265-267 *)
Definition AlignPowerOfTwo (value n : Z) : Z :=
  Z.land (value + (Z.shiftl 1 n - 1)) (Z.lnot (Z.shiftl 1 n - 1)).

(* vp9_header_parser.cc:230-233; the fuel 32 covers every int *)
Fixpoint max_log2 (fuel : nat) (sb_cols k : Z) : outcome Z :=
  match fuel with
  | O => UB
  | S fuel' => if Z.shiftr sb_cols k >=? 4 then max_log2 fuel' sb_cols (k + 1) else Val k
  end.
(* vp9_header_parser.cc:238-240 *)
Fixpoint min_log2 (fuel : nat) (sb_cols k : Z) : outcome Z :=
  match fuel with
  | O => UB
  | S fuel' => if Z.shiftl 64 k <? sb_cols then min_log2 fuel' sb_cols (k + 1) else Val k
  end.
(* while (max_ones-- && ReadBit()): vp9_header_parser.cc:247-248; a negative
   max_ones would run on until a zero bit: the fuel of 32 then gives UB *)
Fixpoint tile_ones (fuel : nat) (frame : list Z) (max_ones k : Z) : B Z :=
  match fuel with
  | O => fun _ => UB
  | S fuel' =>
      if max_ones =? 0 then bret k
      else blet b := ReadBit frame in
           if b =? 0 then bret k else tile_ones fuel' frame (max_ones - 1) (k + 1)
  end.

(* Vp9HeaderParser::ParseTileInfo: vp9_header_parser.cc:190-258; the new numbers of
   rows and columns, or None when segmentation is enabled *)
Definition ParseTileInfo (frame : list Z) (width : Z) : B (option (Z * Z)) :=
  blet v1 := VpxReadLiteral frame 2 in
  blet v2 := VpxReadLiteral frame 6 in
  blet v3 := VpxReadLiteral frame 3 in
  blet enabled := ReadBit frame in
  blet v4 := (if negb (enabled =? 0) then
                blet update := ReadBit frame in
                if negb (update =? 0) then blet u := skip_deltas frame 4 in skip_deltas frame 2 else bret tt
              else bret tt) in
  blet v5 := VpxReadLiteral frame 8 in
  blet v6 := SkipDeltaQ frame in
  blet v7 := SkipDeltaQ frame in
  blet v8 := SkipDeltaQ frame in
  blet segmentation_enabled := ReadBit frame in
  if negb (segmentation_enabled =? 0) then bret None else
  let mi_cols := Z.shiftr (AlignPowerOfTwo width 3) 3 in
  let sb_cols := Z.shiftr (AlignPowerOfTwo mi_cols 3) 3 in
  fun off =>
  olet mx := max_log2 32 sb_cols 0 in
  let mx := if mx - 1 <? 0 then 0 else mx - 1 in
  olet mn := min_log2 32 sb_cols 0 in
  (blet log2_tile_cols := tile_ones 32 frame (mx - mn) mn in
   blet r1 := ReadBit frame in
   blet log2_tile_rows := (if negb (r1 =? 0) then blet r2 := ReadBit frame in bret (r1 + r2) else bret r1) in
   bret (Some (Z.shiftl 1 log2_tile_rows, Z.shiftl 1 log2_tile_cols))) off.

(* vp9_header_parser.cc:95-98 *)
Fixpoint skip_refs (frame : list Z) (n : nat) : B unit :=
  match n with
  | O => bret tt
  | S n' => blet r := VpxReadLiteral frame 3 in blet s := ReadBit frame in skip_refs frame n'
  end.
(* vp9_header_parser.cc:100-108 *)
Fixpoint found_ref (frame : list Z) (n : nat) : B bool :=
  match n with
  | O => bret false
  | S n' => blet b := ReadBit frame in if negb (b =? 0) then bret true else found_ref frame n'
  end.

(* !ReadBit(), e.g. vp9_header_parser.cc:56-57 *)
Definition not_ (b : Z) : Z := if b =? 0 then 1 else 0.

(* Vp9HeaderParser::SetFrame: vp9_header_parser.cc:14-34 *)
Definition SetFrame (h : header) (frame : list Z) : header :=
  mkHd (zlen frame) (-1) 0 0 0 (hd_bit_depth h) 0 0 (hd_width h) (hd_height h) (hd_display_width h) (hd_display_height h)
    (hd_row_tiles h) (hd_column_tiles h) (hd_parallel h).

(* the rest of the header of a key frame: vp9_header_parser.cc:59-68; h holds the
   fields read so far *)
Definition key_frame (frame : list Z) (h : header) : B (bool * header) :=
  blet ok := ValidateVp9SyncCode frame in
  if negb ok then bret (false, h) else
  blet cs := ParseColorSpace frame (hd_profile h) in
  blet fr := ParseFrameResolution frame in
  let '(w, hh, dw, dh) := fr in
  blet par := ParseFrameParallelMode frame (hd_error_resilient h) in
  blet tiles := ParseTileInfo frame w in
  bret (true, mkHd (hd_frame_size h) (hd_profile h) (hd_key h) (hd_altref h) (hd_error_resilient h) (fst cs) (snd cs) (hd_refresh h)
                w hh dw dh (match tiles with Some t => fst t | None => hd_row_tiles h end)
                (match tiles with Some t => snd t | None => hd_column_tiles h end) par).

(* the rest of the header of any other frame: vp9_header_parser.cc:69-113 *)
Definition inter_frame (frame : list Z) (h : header) : B (bool * header) :=
  blet intra_only := (if negb (hd_altref h =? 0) then ReadBit frame else bret 0) in
  blet reset := (if negb (hd_error_resilient h =? 0) then bret 0 else VpxReadLiteral frame 2) in
  if negb (intra_only =? 0) then
    blet ok := ValidateVp9SyncCode frame in
    if negb ok then bret (false, h) else
    blet cs := (if hd_profile h >? 0 then ParseColorSpace frame (hd_profile h) else bret (8, 1)) in
    blet flags := VpxReadLiteral frame 8 in
    blet fr := ParseFrameResolution frame in
    let '(w, hh, dw, dh) := fr in
    bret (true, mkHd (hd_frame_size h) (hd_profile h) (hd_key h) (hd_altref h) (hd_error_resilient h) (fst cs) (snd cs) flags
                  w hh dw dh (hd_row_tiles h) (hd_column_tiles h) (hd_parallel h))
  else
    blet flags := VpxReadLiteral frame 8 in
    blet u := skip_refs frame 3 in
    blet found := found_ref frame 3 in
    blet fr := (if (found : bool) then bret (hd_width h, hd_height h, hd_display_width h, hd_display_height h) else ParseFrameResolution frame) in
    let '(w, hh, dw, dh) := fr in
    bret (true, mkHd (hd_frame_size h) (hd_profile h) (hd_key h) (hd_altref h) (hd_error_resilient h) (hd_bit_depth h) (hd_color_space h) flags
                  w hh dw dh (hd_row_tiles h) (hd_column_tiles h) (hd_parallel h)).

(* the header after the frame marker: vp9_header_parser.cc:46-114 *)
Definition after_marker (frame : list Z) (h : header) : B (bool * header) :=
  blet p0 := ReadBit frame in
  blet p1 := ReadBit frame in
  let p := Z.lor p0 (Z.shiftl p1 1) in
  blet profile := (if p >? 2 then blet r := ReadBit frame in bret (p + r) else bret p) in
  blet show_existing := ReadBit frame in
  if negb (show_existing =? 0) then
    bret (true, mkHd (hd_frame_size h) profile (hd_key h) (hd_altref h) (hd_error_resilient h) (hd_bit_depth h) (hd_color_space h) (hd_refresh h)
                  (hd_width h) (hd_height h) (hd_display_width h) (hd_display_height h) (hd_row_tiles h) (hd_column_tiles h) (hd_parallel h))
  else
    blet k := ReadBit frame in
    blet s := ReadBit frame in
    blet er := ReadBit frame in
    let h := mkHd (hd_frame_size h) profile (not_ k) (not_ s) er (hd_bit_depth h) (hd_color_space h) (hd_refresh h)
               (hd_width h) (hd_height h) (hd_display_width h) (hd_display_height h) (hd_row_tiles h) (hd_column_tiles h) (hd_parallel h) in
    if negb (not_ k =? 0) then key_frame frame h else inter_frame frame h.

(* Vp9HeaderParser::ParseUncompressedHeader: vp9_header_parser.cc:36-115; h holds
   the members before the call *)
Definition ParseUncompressedHeader (frame : list Z) (h : header) : outcome (bool * header) :=
  match frame with
  | [] => Val (false, h)
  | _ =>
      let h := SetFrame h frame in
      olet x := (blet marker := VpxReadLiteral frame 2 in
                 if negb (marker =? 2) then bret (false, h) else after_marker frame h) 0 in
      Val (fst x)
  end.

(* ---------- level statistics ---------- *)

(* struct Vp9LevelRow: vp9_level_stats.h:42-53; the doubles are whole numbers *)
Record row := mkRow { r_level : Z; r_rate : Z; r_size : Z; r_breadth : Z; r_bitrate : Z; r_cpb : Z; r_ratio : Z; r_tiles : Z; r_altref : Z; r_refs : Z }.
(* Vp9LevelStats::Vp9LevelTable: vp9_level_stats.cc:19-34; levels: vp9_level_stats.h:24-40 *)
Definition Vp9LevelTable : list row :=
  [mkRow 10 829440 36864 512 200 400 2 1 4 8;
   mkRow 11 2764800 73728 768 800 1000 2 1 4 8;
   mkRow 20 4608000 122880 960 1800 1500 2 1 4 8;
   mkRow 21 9216000 245760 1344 3600 2800 2 2 4 8;
   mkRow 30 20736000 552960 2048 7200 6000 2 4 4 8;
   mkRow 31 36864000 983040 2752 12000 10000 2 4 4 8;
   mkRow 40 83558400 2228224 4160 18000 16000 4 4 4 8;
   mkRow 41 160432128 2228224 4160 30000 18000 4 4 5 6;
   mkRow 50 311951360 8912896 8384 60000 36000 6 8 6 4;
   mkRow 51 588251136 8912896 8384 120000 46000 8 8 10 4;
   mkRow 52 1176502272 8912896 8384 180000 0 8 8 10 4;
   mkRow 60 1176502272 35651584 16832 180000 0 8 16 10 4;
   mkRow 61 2353004544 35651584 16832 240000 0 8 16 10 4;
   mkRow 62 4706009088 35651584 16832 480000 0 8 16 10 4].

(* Vp9LevelStats: vp9_level_stats.h:154-203, without the members nobody reads
   (frames, max_luma_end_ns_, min_altref_end_ns, max_cpb_window_size_,
   max_cpb_window_end_ns_, max_cpb_start_ns_, max_cpb_end_ns_).  Queues have their
   front first. *)
Record stats := mkSt {
  s_displayed : Z; s_start : Z; s_end : Z; s_duration : Z;
  s_max_size : Z; s_max_breadth : Z;
  s_luma_window : list (Z * Z); s_luma : Z; s_max_luma : Z; s_grace : f64;
  s_first_altref : bool; s_since_altref : Z; s_min_altref : Z;
  s_cpb_window : list (Z * Z); s_cpb : Z; s_max_cpb : Z;
  s_compressed : Z; s_uncompressed : Z; s_refreshed : Z; s_max_refreshed : Z; s_max_tiles : Z;
  s_estimate : bool }.

(* Vp9LevelStats::Vp9LevelStats: vp9_level_stats.h:60-87; 1.5 = 3/2 *)
Definition new_stats : stats :=
  mkSt 0 (-1) (-1) (-1) 0 0 [] 0 0 (f64_div (f64_of_Z 3) (f64_of_Z 2)) true 0 INT_MAX [] 0 0 0 0 0 0 0 true.

(* vp9_level_stats.cc:53-58 *)
Fixpoint luma_drop (w : list (Z * Z)) (cur limit : Z) : outcome (list (Z * Z) * Z) :=
  match w with
  | [] => Val ([], cur)
  | (t, v) :: r => if t <? limit then olet cur := s64 (cur - v) in luma_drop r cur limit else Val (w, cur)
  end.
(* vp9_level_stats.cc:68-71 *)
Fixpoint cpb_drop (w : list (Z * Z)) (cur : Z) : outcome (list (Z * Z) * Z) :=
  match w with
  | [] => Val ([], cur)
  | (t, v) :: r => if zlen w >? 3 then olet cur := s64 (cur - v) in cpb_drop r cur else Val (w, cur)
  end.

(* vp9_level_stats.cc:111-114 *)
Fixpoint ref_count (n : nat) (flags : Z) : Z :=
  match n with
  | O => 0
  | S n' => ref_count n' flags + Z.land (Z.shiftr flags (Z.of_nat n')) 1
  end.

(* Vp9LevelStats::AddFrame: vp9_level_stats.cc:36-124.  frame_size() is a size_t
   below 2^63. *)
Definition AddFrame (s : stats) (p : header) (time_ns : Z) : outcome stats :=
  let start := if s_start s =? -1 then time_ns else s_start s in
  olet size := s32 (hd_width p * hd_height p) in
  let breadth := if hd_width p >? hd_height p then hd_width p else hd_height p in
  let max_size := if size >? s_max_size s then size else s_max_size s in
  let max_breadth := if breadth >? s_max_breadth s then breadth else s_max_breadth s in
  olet compressed := s64 (s_compressed s + hd_frame_size p) in
  olet limit := s64 (time_ns - 999999999) in
  olet x := luma_drop (s_luma_window s) (s_luma s) limit in
  let '(window, cur) := x in
  olet cur := s64 (cur + size) in
  let max_luma := if cur >? s_max_luma s then cur else s_max_luma s in
  olet x := cpb_drop (s_cpb_window s) (s_cpb s) in
  let '(cwindow, cpb) := x in
  olet cpb := s64 (cpb + hd_frame_size p) in
  let max_cpb := if cpb >? s_max_cpb s then cpb else s_max_cpb s in
  olet y := (if negb (hd_altref p =? 0) then
               Val (s_displayed s, 0,
                    (if s_first_altref s then s_min_altref s else if s_since_altref s <? s_min_altref s then s_since_altref s else s_min_altref s),
                    s_uncompressed s)
             else
               olet since := s32 (s_since_altref s + 1) in
               olet shown := s32 (s_displayed s + 1) in
               olet bits1 := s64 (size * hd_bit_depth p) in
               olet bits := s64 (bits1 * 3) in
               olet un := s64 (s_uncompressed s + Z.quot bits 2) in
               Val (shown, since, s_min_altref s, un)) in
  let '(displayed, since, min_altref, un) := y in
  let refreshed := if hd_key p =? 1 then 0 else Z.lor (s_refreshed s) (hd_refresh p) in
  let max_refreshed := if hd_key p =? 1 then s_max_refreshed s
                       else if ref_count 8 refreshed >? s_max_refreshed s then ref_count 8 refreshed else s_max_refreshed s in
  let max_tiles := if hd_column_tiles p >? s_max_tiles s then hd_column_tiles p else s_max_tiles s in
  Val (mkSt displayed start time_ns (s_duration s) max_size max_breadth (window ++ [(time_ns, size)]) cur max_luma (s_grace s)
         (if negb (hd_altref p =? 0) then false else s_first_altref s) since min_altref
         (cwindow ++ [(time_ns, hd_frame_size p)]) cpb max_cpb compressed un refreshed max_refreshed max_tiles (s_estimate s)).

(* Vp9LevelStats::GetAverageBitRate: vp9_level_stats.cc:233-247 *)
Definition GetAverageBitRate (s : stats) : f64 :=
  let frame_duration := s_end s - s_start s in
  let billion := f64_of_Z 1000000000 in
  let seconds := f64_div (f64_of_Z (if s_duration s =? -1 then frame_duration else s_duration s)) billion in
  let seconds := if s_estimate s && ((s_duration s =? -1) || (s_duration s <=? frame_duration)) then
                   f64_add seconds (f64_div (f64_div (f64_of_Z frame_duration) billion) (f64_of_Z (s_displayed s - 1)))
                 else seconds in
  f64_div (f64_div (f64_of_Z (s_compressed s)) seconds) (f64_of_Z 125).
(* GetMaxCpbSize, GetCompressionRatio, GetMinimumAltrefDistance:
   vp9_level_stats.cc:249-263 *)
Definition GetMaxCpbSize (s : stats) : f64 := f64_div (f64_of_Z (s_max_cpb s)) (f64_of_Z 125).
Definition GetCompressionRatio (s : stats) : f64 := f64_div (f64_of_Z (s_uncompressed s)) (f64_of_Z (s_compressed s * 8)).
Definition GetMinimumAltrefDistance (s : stats) : Z := if s_min_altref s =? INT_MAX then -1 else s_min_altref s.

(* one of the loops of GetLevel, e.g. vp9_level_stats.cc:141-150: the first row
   that fits raises the level *)
Fixpoint level_loop (fits : row -> bool) (t : list row) (i : nat) (st : Z * nat) : Z * nat :=
  match t with
  | [] => st
  | r :: t' => if fits r then (if fst st <? r_level r then (r_level r, i) else st) else level_loop fits t' (S i) st
  end.
(* the seven conditions: vp9_level_stats.cc:142-143, 152, 161, 170, 180-181, 190, 200 *)
Definition fits_rate (s : stats) (r : row) : bool :=
  SFleb (f64_of_Z (s_max_luma s)) (f64_mul (f64_of_Z (r_rate r)) (f64_add (f64_div (s_grace s) (f64_of_Z 100)) (f64_of_Z 1))).
Definition fits_size (s : stats) (r : row) : bool := s_max_size s <=? r_size r.
Definition fits_breadth (s : stats) (r : row) : bool := s_max_breadth s <=? r_breadth r.
Definition fits_bitrate (s : stats) (r : row) : bool := SFleb (GetAverageBitRate s) (f64_of_Z (r_bitrate r)).
Definition fits_cpb (s : stats) (r : row) : bool := (r_cpb r >? 0) && SFleb (GetMaxCpbSize s) (f64_of_Z (r_cpb r)).
Definition fits_tiles (s : stats) (r : row) : bool := s_max_tiles s <=? r_tiles r.
Definition fits_refs (s : stats) (r : row) : bool := s_max_refreshed s <=? r_refs r.

(* Vp9LevelStats::GetLevel: vp9_level_stats.cc:126-221 *)
Definition GetLevel (s : stats) : Z :=
  let t := Vp9LevelTable in
  let st := level_loop (fits_rate s) t 0 (0, 0%nat) in
  let st := level_loop (fits_size s) t 0 st in
  let st := level_loop (fits_breadth s) t 0 st in
  let st := level_loop (fits_bitrate s) t 0 st in
  let st := level_loop (fits_cpb s) t 0 st in
  let st := level_loop (fits_tiles s) t 0 st in
  let st := level_loop (fits_refs s) t 0 st in
  match nth_error t (snd st) with
  | None => 0   (* level_index is below kNumVp9Levels *)
  | Some r =>
      let level := if GetMinimumAltrefDistance s <? r_altref r then 0 else fst st in
      if SFltb (GetCompressionRatio s) (f64_of_Z (r_ratio r)) then 0 else level
  end.

(* ---------- the CodecPrivate of VP9 ---------- *)

(* struct Vp9CodecFeatures: hdr_util.h:34-48; kValueNotPresent = INT_MAX: hdr_util.cc:17 *)
Record features := mkF { f_profile : Z; f_level : Z; f_depth : Z; f_chroma : Z }.
Definition no_features : features := mkF INT_MAX INT_MAX INT_MAX INT_MAX.
Definition levels : list Z := [10; 11; 20; 21; 30; 31; 40; 41; 50; 51; 52; 60; 61; 62].   (* hdr_util.cc:179-180 *)

(* features->x != kValueNotPresent && features->x != v: e.g. hdr_util.cc:170-171 *)
Definition conflict (old v : Z) : bool := negb (old =? INT_MAX) && negb (old =? v).

(* one feature: hdr_util.cc:164-216; None: refused *)
Definition one_feature (id len v : Z) (f : features) : bool * features :=
  if negb (len =? 1) then (false, f)
  else if id =? 1 then
    if (v <? 0) || (v >? 3) then (false, f)
    else if conflict (f_profile f) v then (false, f)
    else (true, mkF v (f_level f) (f_depth f) (f_chroma f))
  else if id =? 2 then
    if existsb (fun l => v =? l) levels then
      if conflict (f_level f) v then (false, f) else (true, mkF (f_profile f) v (f_depth f) (f_chroma f))
    else if f_level f =? INT_MAX then (false, f) else (true, f)
  else if id =? 3 then
    if negb (v =? 8) && negb (v =? 10) && negb (v =? 12) then (false, f)
    else if conflict (f_depth f) v then (false, f)
    else (true, mkF (f_profile f) (f_level f) v (f_chroma f))
  else if id =? 4 then
    if negb (v =? 0) && negb (v =? 1) && negb (v =? 2) && negb (v =? 3) then (false, f)
    else if conflict (f_chroma f) v then (false, f)
    else (true, mkF (f_profile f) (f_level f) (f_depth f) v)
  else (false, f).

(* the loop of ParseVpxCodecPrivate: hdr_util.cc:161-217.  The third byte is read
   here before the checks of the first two; all three are inside the buffer
   whenever the first is (C40_private_safe_and_sound). *)
Fixpoint private_loop (fuel : nat) (data : list Z) (offset : Z) (f : features) : outcome (bool * features) :=
  match fuel with
  | O => UB
  | S fuel' =>
      olet id := frame_at data offset in
      olet len := frame_at data (offset + 1) in
      olet v := frame_at data (offset + 2) in
      let '(ok, f) := one_feature id len v f in
      if negb ok then Val (false, f) else
      olet next := s32 (offset + 3 + 3) in
      if next <=? zlen data then private_loop fuel' data (offset + 3) f else Val (true, f)
  end.
(* ParseVpxCodecPrivate: hdr_util.cc:143-220; length is the size of the buffer, f
   the value of *features before the call *)
Definition ParseVpxCodecPrivate (data : list Z) (f : features) : outcome (bool * features) :=
  if zlen data <? 3 then Val (false, f) else private_loop (S (length data)) data 0 no_features.
