(* Model of the callback parser's reader interface and primitive incremental
   parsers (webm_parser/src).  Every parser is an explicit state plus a Feed
   function that may stop with kWouldBlock and be called again.
   Byte counters (num_bytes_read and the like) are not wrapped: they count bytes
   actually obtained from the reader.  asserts are not modelled. *)
From Verif Require Import Base WpSpec.

(* ---------- the reader ---------- *)
(* webm_parser/include/webm/reader.h 35-86, webm_parser/src/buffer_reader.cc 52-108.
   A data source with remaining bytes, a position, and a schedule: each entry
   answers one future Read or Skip call; an entry <= 0 makes the call would-block,
   an entry k > 0 gives at most k bytes.  After the schedule everything is
   available at once, as in BufferReader.  The trace of notifications delivered
   so far (most recent first) is kept here too. *)
Record world := mk_world { w_data : list Z; w_pos : Z; w_sched : list Z; w_trace : list entry }.

(* position and remaining bytes after reading n bytes: buffer_reader.cc 52-79; recording one notification *)
Definition w_got (n : Z) (s : list Z) (w : world) : world :=
  mk_world (skipn (Z.to_nat n) (w_data w)) (w_pos w + n) s (w_trace w).
Definition w_log (e : entry) (w : world) : world :=
  mk_world (w_data w) (w_pos w) (w_sched w) (e :: w_trace w).

(* buffer_reader.cc 52-79 (Read) and 81-106 (Skip): up to cap bytes of the n wanted *)
Definition rd_give (n cap : Z) (s : list Z) (w : world) : Z * list Z * world :=
  match w_data w with
  | [] => (kEndOfFile, [], mk_world [] (w_pos w) s (w_trace w))
  | _ => let k := Z.min (Z.min n cap) (zlen (w_data w)) in
         (if k =? n then kOkCompleted else kOkPartial,
          firstn (Z.to_nat k) (w_data w), w_got k s w)
  end.

(* reader.h 56-57, 75-76: one Read or Skip call *)
Definition rd_take (n : Z) (w : world) : Z * list Z * world :=
  match w_sched w with
  | [] => rd_give n n [] w
  | k :: s => if k <=? 0
              then (kWouldBlock, [], mk_world (w_data w) (w_pos w) s (w_trace w))
              else rd_give n k s w
  end.

(* the loop `do { Read/Skip } while (status == kOkPartial)`:
   webm_parser/src/byte_parser.h 94-106, skip_parser.cc 44-54, callback.cc 145-150 *)
Fixpoint take_loop (fuel : nat) (n : Z) (acc : list Z) (w : world) : Z * list Z * world :=
  match fuel with
  | O => (kWouldBlock, acc, w)
  | S f => let '(c, bs, w1) := rd_take n w in
           if c =? kOkPartial then take_loop f (n - zlen bs) (acc ++ bs) w1
           else (c, acc ++ bs, w1)
  end.
(* the reads of parser_utils.cc 18-32 and others; every partial answer uses up a
   schedule entry or all of the data *)
Definition take_all (n : Z) (w : world) : Z * list Z * world :=
  take_loop (S (S (length (w_sched w)))) n [] w.

(* parser_utils.cc 18-32: ReadByte *)
Definition ReadByte (w : world) : Z * Z * world :=
  let '(c, bs, w1) := rd_take 1 w in (c, hd 0 bs, w1).

(* parser_utils.h 56: the integer, of type T, is shifted left by 8 and or-ed with the byte *)
Definition acc_step (sg : bool) (bits v b : Z) : Z :=
  let u := wrapu bits (wrapu bits v * 256 + b) in if sg then wraps bits u else u.

(* parser_utils.h 27-60: AccumulateIntegerBytes; the size check of line 45 cannot
   fail for the callers modelled *)
Fixpoint Accumulate (sg : bool) (bits : Z) (num : nat) (v nr : Z) (w : world)
  : Z * Z * Z * world :=
  match num with
  | O => (kOkCompleted, nr, v, w)
  | S k => let '(c, b, w1) := ReadByte w in
           if c =? kOkCompleted then Accumulate sg bits k (acc_step sg bits v b) (nr + 1) w1
           else (c, nr, v, w1)
  end.

(* bit_utils.cc 14-24 *)
Fixpoint clz_loop (n : nat) (value count : Z) : Z :=
  match n with
  | O => count
  | S k => if Z.land value (Z.shiftr 128 count) =? 0 then clz_loop k value (count + 1) else count
  end.
Definition CountLeadingZeros (value : Z) : Z := if value =? 0 then 8 else clz_loop 8 value 0.

(* ---------- IdParser ---------- *)
(* id_parser.h 39-40: num_bytes_remaining_ and id_ *)
Record idst := mk_idst { ip_rem : Z; ip_id : Z }.
Definition id_new : idst := mk_idst (-1) 0.
(* id_parser.cc 61-67 *)
Definition id_rest (st : idst) (nr : Z) (w : world) : Z * Z * idst * world :=
  let '(c, k, v, w1) := Accumulate false 32 (Z.to_nat (ip_rem st)) (ip_id st) 0 w in
  (c, nr + k, mk_idst (ip_rem st - k) v, w1).
(* id_parser.cc 21-68 *)
Definition IdParser_Feed (st : idst) (w : world) : Z * Z * idst * world :=
  if ip_rem st =? -1 then
    let '(c, b, w1) := ReadByte w in
    if negb (c =? kOkCompleted) then (c, 0, st, w1)
    else if Z.land b 240 =? 0 then (kInvalidElementId, 1, st, w1)
    else id_rest (mk_idst (CountLeadingZeros b) b) 1 w1
  else id_rest st 0 w.

(* ---------- VarIntParser and SizeParser ---------- *)
(* var_int_parser.h 49-51 *)
Record vist := mk_vist { vi_rem : Z; vi_total : Z; vi_value : Z }.
Definition vi_new : vist := mk_vist (-1) 0 0.
(* var_int_parser.cc 53-68 *)
Definition vi_rest (st : vist) (nr : Z) (w : world) : Z * Z * vist * world :=
  let '(c, k, v, w1) := Accumulate false 64 (Z.to_nat (vi_rem st)) (vi_value st) 0 w in
  if negb (c =? kOkCompleted) then (c, nr + k, mk_vist (vi_rem st - k) (vi_total st) v, w1)
  else (kOkCompleted, nr + k,
        mk_vist (vi_rem st - k) (vi_total st)
                (Z.land v (Z.shiftr 18446744073709551615 (57 - 7 * vi_total st))), w1).
(* var_int_parser.cc 24-69 *)
Definition VarIntParser_Feed (st : vist) (w : world) : Z * Z * vist * world :=
  if vi_rem st =? -1 then
    let '(c, b, w1) := ReadByte w in
    if negb (c =? kOkCompleted) then (c, 0, st, w1)
    else if b =? 0 then (kInvalidElementValue, 1, st, w1)
    else let t := CountLeadingZeros b in vi_rest (mk_vist t t b) 1 w1
  else vi_rest st 0 w.
(* var_int_parser.h 43-46 *)
Definition encoded_length (st : vist) : Z := vi_total st + 1.

(* size_parser.cc 25-42 *)
Definition SizeParser_Feed (st : vist) (w : world) : Z * Z * vist * world :=
  let '(c, n, st1, w1) := VarIntParser_Feed st w in
  (if c =? kInvalidElementValue then kInvalidElementSize else c, n, st1, w1).
(* size_parser.cc 44-54 *)
Definition size_value (st : vist) : Z :=
  if vi_value st =? Z.shiftr 18446744073709551615 (57 - 7 * (encoded_length st - 1))
  then kUnknownElementSize else vi_value st.

(* ---------- number parsers ---------- *)
(* int_parser.h 110-113; also date_parser.cc 27-70 (64-bit signed, no sign
   extension needed) and id_element_parser.cc 22-47 (32-bit unsigned) *)
Record nst := mk_nst { n_rem : Z; n_size : Z; n_value : Z }.

(* int_parser.h 83-90 *)
Definition sign_extend (size v : Z) : Z :=
  let sign_bits := wrap64 (18446744073709551615 * 2 ^ (8 * size - 1)) in
  if Z.land (wrap64 v) sign_bits =? 0 then v else sint64 (Z.lor (wrap64 v) sign_bits).
(* int_parser.h 50-68 *)
Definition IntParser_Init (dflt : Z) (m : meta) : Z * nst :=
  if 8 <? me_size m then (kInvalidElementSize, mk_nst (-1) 0 0)
  else (kOkCompleted, mk_nst (me_size m) (me_size m) (if me_size m =? 0 then dflt else 0)).
(* int_parser.h 70-93 *)
Definition IntParser_Feed (sg : bool) (st : nst) (w : world) : Z * Z * nst * world :=
  let '(c, k, v, w1) := Accumulate sg 64 (Z.to_nat (n_rem st)) (n_value st) 0 w in
  let rem := n_rem st - k in
  (c, k, mk_nst rem (n_size st)
     (if sg && (rem =? 0) && (0 <? n_size st) then sign_extend (n_size st) v else v), w1).
(* date_parser.cc 27-57 *)
Definition DateParser_Init (m : meta) : Z * nst :=
  if negb (me_size m =? 0) && negb (me_size m =? 8) then (kInvalidElementSize, mk_nst (-1) 0 0)
  else (kOkCompleted, mk_nst (me_size m) (me_size m) 0).
(* date_parser.cc 59-70 *)
Definition DateParser_Feed (st : nst) (w : world) : Z * Z * nst * world :=
  let '(c, k, v, w1) := Accumulate true 64 (Z.to_nat (n_rem st)) (n_value st) 0 w in
  (c, k, mk_nst (n_rem st - k) (n_size st) v, w1).
(* id_element_parser.cc 22-34 *)
Definition IdElementParser_Init (m : meta) : Z * nst :=
  if (me_size m =? 0) || (4 <? me_size m) then (kInvalidElementSize, mk_nst (-1) 0 0)
  else (kOkCompleted, mk_nst (me_size m) (me_size m) 0).
(* id_element_parser.cc 36-47 *)
Definition IdElementParser_Feed (st : nst) (w : world) : Z * Z * nst * world :=
  let '(c, k, v, w1) := Accumulate false 32 (Z.to_nat (n_rem st)) (n_value st) 0 w in
  (c, k, mk_nst (n_rem st - k) (n_size st) v, w1).
(* float_parser.cc 25-41; n_value is uint64_value_.  The value is kept as its size
   and bit pattern: the conversion float -> double is not modelled; size 0 means
   the default, of which n_value is the number *)
Definition FloatParser_Init (dflt : Z) (m : meta) : Z * nst :=
  if (me_size m =? 0) || (me_size m =? 4) || (me_size m =? 8)
  then (kOkCompleted, mk_nst (me_size m) (me_size m) (if me_size m =? 0 then dflt else 0))
  else (kInvalidElementSize, mk_nst (-1) 0 0).
(* float_parser.cc 43-75; *num_bytes_read is not written when nothing remains, but
   every caller (ChildParser::Feed, master_value_parser.h 442) has zeroed it *)
Definition FloatParser_Feed (st : nst) (w : world) : Z * Z * nst * world :=
  if n_rem st =? 0 then (kOkCompleted, 0, st, w)
  else let '(c, k, v, w1) := Accumulate false 64 (Z.to_nat (n_rem st)) (n_value st) 0 w in
       (c, k, mk_nst (n_rem st - k) (n_size st) v, w1).

(* bool_parser.h 87-90 *)
Record boolst := mk_boolst { bo_rem : Z; bo_size : Z; bo_value : bool }.
(* bool_parser.h 33-47 *)
Definition BoolParser_Init (dflt : bool) (m : meta) : Z * boolst :=
  if 8 <? me_size m then (kInvalidElementSize, mk_boolst (-1) 0 false)
  else (kOkCompleted, mk_boolst (me_size m) (me_size m) dflt).
(* bool_parser.h 49-70 *)
Definition BoolParser_Feed (st : boolst) (w : world) : Z * Z * boolst * world :=
  let '(c, k, v, w1) := Accumulate false 64 (Z.to_nat (bo_rem st)) 0 0 w in
  let rem := bo_rem st - k in
  if (negb (rem =? 0) && negb (v =? 0)) || (1 <? v)
  then (kInvalidElementValue, k, mk_boolst rem (bo_size st) (bo_value st), w1)
  else (c, k, mk_boolst rem (bo_size st)
          (if 0 <? bo_size st then v =? 1 else bo_value st), w1).

(* ---------- byte strings ---------- *)
(* byte_parser.h 134-136; by_got is the part of value_ filled so far and by_want the
   number of bytes still wanted *)
Record byst := mk_byst { by_want : Z; by_got : list Z }.
(* byte_parser.h 110-114 *)
Fixpoint drop_zeros (l : list Z) : list Z :=
  match l with 0 :: l' => drop_zeros l' | _ => l end.
Definition strip_zeros (l : list Z) : list Z := rev (drop_zeros (rev l)).
(* vector::max_size() of a byte vector: 2^63 - 1; string::max_size() is smaller but
   both exceed every size an element header can carry *)
Definition kMaxBytes : Z := 9223372036854775807.
(* byte_parser.h 48-80; the fuzzer limit (61-69) is not compiled in *)
Definition ByteParser_Init (dflt : list Z) (m : meta) : Z * byst :=
  if me_size m =? kUnknownElementSize then (kInvalidElementSize, mk_byst 0 [])
  else if kMaxBytes <? me_size m then (kNotEnoughMemory, mk_byst 0 [])
  else (kOkCompleted, mk_byst (me_size m) (if me_size m =? 0 then dflt else [])).
(* byte_parser.h 82-117 *)
Definition ByteParser_Feed (str : bool) (st : byst) (w : world) : Z * Z * byst * world :=
  if by_want st =? 0 then (kOkCompleted, 0, st, w)
  else let '(c, bs, w1) := take_all (by_want st) w in
       let got := by_got st ++ bs in
       (c, zlen bs,
        mk_byst (by_want st - zlen bs)
                (if str && (c =? kOkCompleted) then strip_zeros got else got), w1).

(* ---------- skipping ---------- *)
(* skip_parser.cc 19-30 *)
Definition SkipParser_Init (m : meta) : Z * Z :=
  if me_size m =? kUnknownElementSize then (kInvalidElementSize, 0) else (kOkCompleted, me_size m).
(* skip_parser.cc 32-57 *)
Definition SkipParser_Feed (rem : Z) (w : world) : Z * Z * Z * world :=
  if rem =? 0 then (kOkCompleted, 0, rem, w)
  else let '(c, bs, w1) := take_all rem w in (c, zlen bs, rem - zlen bs, w1).

(* ---------- the callback ---------- *)
(* Delivers a notification.  sk says the parser is using its SkipCallback
   (skip_callback.h 21-59), which answers "completed, skip" and which the user does
   not see. *)
Definition notify (cb : callback) (sk : bool) (e : event) (w : world) : Z * bool * world :=
  if sk then (kOkCompleted, true, w)
  else let r := cb (w_trace w) e in (fst r, snd r, w_log (e, r) w).

(* bytes handed to the callback: callback.cc 138-153 *)
Definition log_bytes (d : dsrc) (bs : list Z) (w : world) : world :=
  fold_left (fun w' b => w_log (EData d b, (0, false)) w') bs w.

(* OnFrame, OnVoid and OnUnknownElement: the callback reads all remaining bytes as
   they become available (as Callback::Skip does, callback.cc 138-153) and then
   completes, or stops with a code of its own.  SkipCallback inherits Callback's
   versions (callback.cc 21-27, 34-39, 102-107). *)
Definition on_data (cb : callback) (sk : bool) (d : dsrc) (rem : Z) (w : world) : Z * Z * world :=
  let '(c, bs, w1) := if rem =? 0 then (kOkCompleted, [], w) else take_all rem w in
  let w2 := if sk then w1 else log_bytes d bs w1 in
  let rem1 := rem - zlen bs in
  if negb (c =? kOkCompleted) then (c, rem1, w2)
  else if sk then (kOkCompleted, rem1, w2)
  else let '(c3, _, w3) := notify cb sk (EDataEnd d) w2 in (c3, rem1, w3).
