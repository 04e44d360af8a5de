(* VP9 frame headers as bit strings, following the VP9 bitstream specification
   (uncompressed_header), level statistics of a stream, and VP9 CodecPrivate
   features.  Independent of the parser model except for the result records. *)
From Verif Require Import Base MVp9.

(* ---------- bits ---------- *)

(* the n bits of v, most significant first *)
Fixpoint bits (n : nat) (v : Z) : list Z :=
  match n with O => [] | S n' => v / 2 ^ Z.of_nat n' mod 2 :: bits n' v end.
Definition bits_of_frame (frame : list Z) : list Z := flat_map (bits 8) frame.
Definition field (n : nat) (v : Z) : Prop := 0 <= v < 2 ^ Z.of_nat n.

(* ---------- frame headers ---------- *)

Definition flag (b : bool) : list Z := [if b then 1 else 0].
(* profile 0..3; profile 3 is followed by a reserved zero bit *)
Definition profile_bits (p : Z) : list Z := [p mod 2; p / 2] ++ (if p =? 3 then [0] else []).
Definition sync_bits : list Z := bits 24 0x498342.

(* color_config: bit depth, color space, and the bits in between *)
Inductive color_bits (p : Z) : Z -> Z -> list Z -> Prop :=
| cb : forall depth space dbits tail,
    (p < 2 /\ depth = 8 /\ dbits = [] \/ 2 <= p /\ depth = 10 /\ dbits = [0] \/ 2 <= p /\ depth = 12 /\ dbits = [1]) ->
    field 3 space ->
    (space <> 7 /\ p mod 2 = 0 /\ (exists range, tail = flag range) \/
     space <> 7 /\ p mod 2 = 1 /\ (exists range x y, tail = flag range ++ flag x ++ flag y ++ [0]) \/
     space = 7 /\ p mod 2 = 1 /\ tail = [0]) ->
    color_bits p depth space (dbits ++ bits 3 space ++ tail).

(* frame_size and render_size *)
Inductive size_bits : Z -> Z -> Z -> Z -> list Z -> Prop :=
| sb_same : forall w h, field 16 (w - 1) -> field 16 (h - 1) -> size_bits w h w h (bits 16 (w - 1) ++ bits 16 (h - 1) ++ [0])
| sb_render : forall w h rw rh, field 16 (w - 1) -> field 16 (h - 1) -> field 16 (rw - 1) -> field 16 (rh - 1) ->
    size_bits w h rw rh (bits 16 (w - 1) ++ bits 16 (h - 1) ++ [1] ++ bits 16 (rw - 1) ++ bits 16 (rh - 1)).

(* n loop filter deltas: a flag and, when set, six bits and a sign *)
Inductive delta_bits : nat -> list Z -> Prop :=
| de_end : delta_bits 0 []
| de_none : forall n r, delta_bits n r -> delta_bits (S n) ([0] ++ r)
| de_some : forall n v r, field 7 v -> delta_bits n r -> delta_bits (S n) ([1] ++ bits 7 v ++ r).
Inductive loop_filter_bits : list Z -> Prop :=
| lf_off : forall level sharp, field 6 level -> field 3 sharp -> loop_filter_bits (bits 6 level ++ bits 3 sharp ++ [0])
| lf_on : forall level sharp, field 6 level -> field 3 sharp -> loop_filter_bits (bits 6 level ++ bits 3 sharp ++ [1] ++ [0])
| lf_update : forall level sharp d, field 6 level -> field 3 sharp -> delta_bits 6 d ->
    loop_filter_bits (bits 6 level ++ bits 3 sharp ++ [1] ++ [1] ++ d).

(* a quantizer delta: a flag and, when set, four bits and a sign *)
Inductive quant_delta : bool -> list Z -> Prop :=
| qd_none : quant_delta false [0]
| qd_some : forall v, field 5 v -> quant_delta true ([1] ++ bits 5 v).
(* quantization_params; coded: some delta is coded *)
Inductive quant_bits : bool -> list Z -> Prop :=
| qb : forall base a b c x y z, field 8 base -> quant_delta a x -> quant_delta b y -> quant_delta c z ->
    quant_bits (a || b || c) (bits 8 base ++ x ++ y ++ z).

(* the limits for the number of tile columns: each between 4 and 64 superblocks of
   64 pixels wide (a single one may be narrower) *)
Definition superblocks (w : Z) : Z := (w + 63) / 64.
Definition least_tiles (w m : Z) : Prop := 0 <= m /\ superblocks w <= 64 * 2 ^ m /\ (m = 0 \/ 64 * 2 ^ (m - 1) < superblocks w).
Definition most_tiles (w m : Z) : Prop := 0 <= m /\ superblocks w < 4 * 2 ^ (m + 1) /\ (m = 0 \/ 4 * 2 ^ m <= superblocks w).
(* tile_info: log2 of the number of columns and rows *)
Inductive tile_bits (w : Z) : Z -> Z -> list Z -> Prop :=
| tb : forall least most cols rows rbits, least_tiles w least -> most_tiles w most -> least <= cols <= most ->
    (rows = 0 /\ rbits = [0] \/ rows = 1 /\ rbits = [1; 0] \/ rows = 2 /\ rbits = [1; 1]) ->
    tile_bits w cols rows (repeat 1 (Z.to_nat (cols - least)) ++ (if cols <? most then [0] else []) ++ rbits).

(* the parallel decoding mode *)
Inductive parallel_bits (err : bool) : Z -> list Z -> Prop :=
| pb_on : err = true -> parallel_bits err 1 []
| pb_off : forall refresh par, err = false -> parallel_bits err (if par : bool then 1 else 0) (flag refresh ++ flag par).

(* the header of a key frame without segmentation *)
Inductive key_header : header -> bool -> list Z -> Prop :=
| kh : forall n p (show err : bool) depth space w h rw rh par cols rows ctx c s l q t pb coded,
    0 <= p <= 3 -> color_bits p depth space c -> size_bits w h rw rh s -> parallel_bits err par pb -> field 2 ctx ->
    loop_filter_bits l -> quant_bits coded q -> tile_bits w cols rows t ->
    key_header (mkHd n p 1 (if show then 0 else 1) (if err then 1 else 0) depth space 0 w h rw rh (2 ^ rows) (2 ^ cols) par) coded
      (bits 2 2 ++ profile_bits p ++ [0] ++ [0] ++ flag show ++ flag err ++ sync_bits ++ c ++ s ++ pb ++ bits 2 ctx ++ l ++ q ++ [0] ++ t).

(* the header of an intra-only frame (never shown at once) *)
Inductive intra_header : Z -> bool -> Z -> Z -> Z -> Z -> Z -> Z -> Z -> list Z -> Prop :=
| ih : forall p (err : bool) depth space flags w h rw rh reset c s rb,
    0 <= p <= 3 -> (if err then rb = [] else rb = bits 2 reset) -> field 2 reset ->
    (p = 0 /\ depth = 8 /\ space = 1 /\ c = [] \/ 1 <= p /\ color_bits p depth space c) -> field 8 flags -> size_bits w h rw rh s ->
    intra_header p err depth space flags w h rw rh
      (bits 2 2 ++ profile_bits p ++ [0] ++ [1] ++ [0] ++ flag err ++ [1] ++ rb ++ sync_bits ++ c ++ bits 8 flags ++ s).

(* the header of an inter frame; size None: the size of a reference *)
Inductive ref_bits : nat -> list Z -> Prop :=
| rf_end : ref_bits 0 []
| rf_one : forall n i (sign : bool) r, field 3 i -> ref_bits n r -> ref_bits (S n) (bits 3 i ++ flag sign ++ r).
Inductive ref_size : option (Z * Z * Z * Z) -> list Z -> Prop :=
| rs_first : ref_size None [1]
| rs_second : ref_size None [0; 1]
| rs_third : ref_size None [0; 0; 1]
| rs_new : forall w h rw rh s, size_bits w h rw rh s -> ref_size (Some (w, h, rw, rh)) ([0; 0; 0] ++ s).
Inductive inter_header : Z -> bool -> bool -> Z -> option (Z * Z * Z * Z) -> list Z -> Prop :=
| nh : forall p (show err : bool) flags reset size rb r s,
    0 <= p <= 3 -> (if err then rb = [] else rb = bits 2 reset) -> field 2 reset -> field 8 flags -> ref_bits 3 r -> ref_size size s ->
    inter_header p show err flags size
      (bits 2 2 ++ profile_bits p ++ [0] ++ [1] ++ flag show ++ flag err ++ (if show then [] else [0]) ++ rb ++ bits 8 flags ++ r ++ s).

(* ---------- statistics of a stream ---------- *)

(* a frame: header and time *)
Notation frame := (header * Z)%type (only parsing).
Definition area (f : frame) : Z := hd_width (fst f) * hd_height (fst f).
Definition bytes_of (f : frame) : Z := hd_frame_size (fst f).
Definition breadth_of (f : frame) : Z := Z.max (hd_width (fst f)) (hd_height (fst f)).
Definition columns_of (f : frame) : Z := hd_column_tiles (fst f).
Definition maximum (l : list Z) : Z := fold_right Z.max 0 l.
Definition total (l : list Z) : Z := fold_right Z.add 0 l.
(* the nonempty beginnings of a list, each reversed: the last frame comes first *)
Fixpoint beginnings {A} (done : list A) (l : list A) : list (list A) :=
  match l with [] => [] | x :: r => (x :: done) :: beginnings (x :: done) r end.
(* samples decoded in the second that ends with the newest frame *)
Definition second_of (back : list frame) : Z :=
  match back with
  | [] => 0
  | f :: _ => total (map area (filter (fun g => snd f - 999999999 <=? snd g) back))
  end.
(* bytes of the newest four frames *)
Definition four_of (back : list frame) : Z := total (map bytes_of (firstn 4 back)).
(* frames stored since the last key frame *)
Fixpoint stored (back : list frame) : Z :=
  match back with
  | [] => 0
  | f :: r => if hd_key (fst f) =? 1 then 0 else Z.lor (stored r) (hd_refresh (fst f))
  end.
Definition count_bits (v : Z) : Z := total (bits 8 v).
(* numbers of shown frames between successive hidden ones *)
Fixpoint gaps (open : option Z) (l : list frame) : list Z :=
  match l with
  | [] => []
  | f :: r =>
      if hd_altref (fst f) =? 0 then gaps (option_map Z.succ open) r
      else match open with None => gaps (Some 0) r | Some g => g :: gaps (Some 0) r end
  end.
Definition minimum (l : list Z) : Z := fold_right Z.min INT_MAX l.

(* a frame and a time a stream may contain *)
Definition fair_frame (f : frame) : Prop :=
  1 <= hd_width (fst f) <= 65536 /\ 1 <= hd_height (fst f) <= 65536 /\ area f < 2 ^ 31 /\
  0 <= hd_frame_size (fst f) < 2 ^ 30 /\ 0 <= snd f < 2 ^ 62 /\ 0 <= hd_bit_depth (fst f) <= 12 /\ field 8 (hd_refresh (fst f)) /\
  0 <= hd_column_tiles (fst f).
Definition fair_stream (l : list frame) : Prop :=
  Forall fair_frame l /\ (forall i j f g, (i <= j)%nat -> nth_error l i = Some f -> nth_error l j = Some g -> snd f <= snd g) /\
  zlen l < 2 ^ 24.

Fixpoint add_frames (s : stats) (l : list frame) : outcome stats :=
  match l with [] => Val s | f :: r => match AddFrame s (fst f) (snd f) with Val s' => add_frames s' r | UB => UB end end.

(* ---------- levels ---------- *)

(* The published VP9 levels (www.webmproject.org/vp9/levels): level times ten, luma
   samples per second, luma picture size, luma picture breadth, bitrate in kbps, CPB
   size in kbits (0: not yet defined), compression ratio, tile columns, distance of
   hidden frames, reference frames. *)
Definition vp9_levels : list row :=
  [mkRow 10 829440 36864 512 200 400 2 1 4 8;
   mkRow 11 2764800 73728 768 800 1000 2 1 4 8;
   mkRow 20 4608000 122880 960 1800 1500 2 1 4 8;
   mkRow 21 9216000 245760 1344 3600 2800 2 2 4 8;
   mkRow 30 20736000 552960 2048 7200 6000 2 4 4 8;
   mkRow 31 36864000 983040 2752 12000 10000 2 4 4 8;
   mkRow 40 83558400 2228224 4160 18000 16000 4 4 4 8;
   mkRow 41 160432128 2228224 4160 30000 18000 4 4 5 6;
   mkRow 50 311951360 8912896 8384 60000 36000 6 8 6 4;
   mkRow 51 588251136 8912896 8384 120000 46000 8 8 10 4;
   mkRow 52 1176502272 8912896 8384 180000 0 8 8 10 4;
   mkRow 60 1176502272 35651584 16832 180000 0 8 16 10 4;
   mkRow 61 2353004544 35651584 16832 240000 0 8 16 10 4;
   mkRow 62 4706009088 35651584 16832 480000 0 8 16 10 4].

(* the lowest row that fits, if any *)
Definition lowest (fits : row -> bool) (r : row) : Prop :=
  exists a b, vp9_levels = a ++ r :: b /\ fits r = true /\ Forall (fun x => fits x = false) a.

(* ---------- CodecPrivate ---------- *)

(* the legal values of a feature *)
Definition legal (id v : Z) : Prop :=
  id = 1 /\ 0 <= v <= 3 \/ id = 2 /\ In v [10; 11; 20; 21; 30; 31; 40; 41; 50; 51; 52; 60; 61; 62] \/
  id = 3 /\ In v [8; 10; 12] \/ id = 4 /\ 0 <= v <= 3.
(* features as they are written: id, length 1, value *)
Definition private_bytes (l : list (Z * Z)) : list Z := flat_map (fun x => [fst x; 1; snd x]) l.
Definition feature (f : features) (id : Z) : Z :=
  if id =? 1 then f_profile f else if id =? 2 then f_level f else if id =? 3 then f_depth f else f_chroma f.
(* f holds exactly the features in l *)
Definition holds (l : list (Z * Z)) (f : features) : Prop :=
  forall id, 1 <= id <= 4 ->
    (forall v, In (id, v) l -> feature f id = v) /\
    ((forall v, ~ In (id, v) l) -> feature f id = INT_MAX).

(* parsing frame after frame with one parser *)
Fixpoint parse_all (l : list (list Z)) (h : header) : outcome header :=
  match l with
  | [] => Val h
  | f :: r => match ParseUncompressedHeader f h with Val x => parse_all r (snd x) | UB => UB end
  end.
