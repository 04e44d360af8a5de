(* Model of the callback parser's block parsers: webm_parser/src/block_header_parser.cc,
   virtual_block_parser.cc, block_parser.cc.  The states form a chain, so each
   `case` is a function that goes on with the next one. *)
From Verif Require Import Base WpSpec MWp.

(* ---------- BlockHeaderParser ---------- *)
(* block_header_parser.h 52-60 *)
Inductive hstate := HTrack | HTime | HFlags | HDone.
(* block_header_parser.h 46-60 *)
Record hst := mk_hst {
  h_state : hstate; h_uint : vist; h_rem : Z; h_track : Z; h_time : Z; h_flags : Z }.
Definition h_new : hst := mk_hst HTrack vi_new 2 0 0 0.

(* block_header_parser.cc 58-71 *)
Definition h_flags_step (st : hst) (nr : Z) (w : world) : Z * Z * hst * world :=
  let '(c, b, w1) := ReadByte w in
  if negb (c =? kOkCompleted)
  then (c, nr, mk_hst HFlags (h_uint st) (h_rem st) (h_track st) (h_time st) (h_flags st), w1)
  else (kOkCompleted, nr + 1, mk_hst HDone (h_uint st) (h_rem st) (h_track st) (h_time st) b, w1).
(* block_header_parser.cc 45-56 *)
Definition h_time_step (st : hst) (nr : Z) (w : world) : Z * Z * hst * world :=
  let '(c, k, v, w1) := Accumulate true 16 (Z.to_nat (h_rem st)) (h_time st) 0 w in
  let st1 := mk_hst HTime (h_uint st) (h_rem st - k) (h_track st) v (h_flags st) in
  if negb (c =? kOkCompleted) then (c, nr + k, st1, w1)
  else h_flags_step st1 (nr + k) w1.
(* block_header_parser.cc 34-43 *)
Definition h_track_step (st : hst) (w : world) : Z * Z * hst * world :=
  let '(c, k, u, w1) := VarIntParser_Feed (h_uint st) w in
  if negb (c =? kOkCompleted)
  then (c, k, mk_hst HTrack u (h_rem st) (h_track st) (h_time st) (h_flags st), w1)
  else h_time_step (mk_hst HTime u (h_rem st) (vi_value u) (h_time st) (h_flags st)) k w1.
(* block_header_parser.cc 21-74 *)
Definition BlockHeaderParser_Feed (st : hst) (w : world) : Z * Z * hst * world :=
  match h_state st with
  | HTrack => h_track_step st w
  | HTime => h_time_step st 0 w
  | HFlags => h_flags_step st 0 w
  | HDone => (kOkCompleted, 0, st, w)
  end.

(* ---------- VirtualBlockParser ---------- *)
(* virtual_block_parser.h 57-64 *)
Inductive vbstate := VBHeader | VBValidate | VBDone.
(* virtual_block_parser.h 50-64 *)
Record vbst := mk_vbst { vb_state : vbstate; vb_size : Z; vb_total : Z; vb_hp : hst }.
(* virtual_block_parser.cc 17-29 *)
Definition VirtualBlockParser_Init (m : meta) : Z * vbst :=
  if (me_size m =? kUnknownElementSize) || (me_size m <? 4)
  then (kInvalidElementSize, mk_vbst VBDone 0 0 h_new)
  else (kOkCompleted, mk_vbst VBHeader (me_size m) 0 h_new).
(* virtual_block_parser.cc 57-63 *)
Definition vb_validate (st : vbst) (nr : Z) (w : world) : Z * Z * vbst * world :=
  if vb_size st <? vb_total st then (kInvalidElementValue, nr, st, w)
  else (kOkCompleted, nr, mk_vbst VBDone (vb_size st) (vb_total st) (vb_hp st), w).
(* virtual_block_parser.cc 31-70 *)
Definition VirtualBlockParser_Feed (st : vbst) (w : world) : Z * Z * vbst * world :=
  match vb_state st with
  | VBHeader =>
      let '(c, k, h, w1) := BlockHeaderParser_Feed (vb_hp st) w in
      if negb (c =? kOkCompleted)
      then (c, k, mk_vbst VBHeader (vb_size st) (vb_total st + k) h, w1)
      else vb_validate (mk_vbst VBValidate (vb_size st) (vb_total st + k) h) k w1
  | VBValidate => vb_validate st 0 w
  | VBDone => (kOkCompleted, 0, st, w)
  end.

(* ---------- BasicBlockParser ---------- *)
(* block_parser.h 92-115 *)
Inductive bstate :=
| BHeader | BLaceCount | BAction | BXiph | BEbmlFirst | BEbml | BFixed | BValidate | BSkipping
| BFrames | BDone.
(* block_parser.h 67-115; b_fpos and b_fsize are frame_metadata_.position and .size *)
Record bst := mk_bst {
  b_state : bstate; b_hread : Z; b_val : blockv; b_meta : meta; b_fpos : Z; b_fsize : Z;
  b_hp : hst; b_up : vist; b_xiph : Z; b_laces : list Z; b_cur : Z }.

(* assignments to the members of BasicBlockParser (block_parser.h 67-115) *)
Definition b_set_state (s : bstate) (b : bst) : bst :=
  mk_bst s (b_hread b) (b_val b) (b_meta b) (b_fpos b) (b_fsize b) (b_hp b) (b_up b) (b_xiph b) (b_laces b) (b_cur b).
Definition b_add_hread (n : Z) (b : bst) : bst :=
  mk_bst (b_state b) (b_hread b + n) (b_val b) (b_meta b) (b_fpos b) (b_fsize b) (b_hp b) (b_up b) (b_xiph b) (b_laces b) (b_cur b).
Definition b_set_val (v : blockv) (b : bst) : bst :=
  mk_bst (b_state b) (b_hread b) v (b_meta b) (b_fpos b) (b_fsize b) (b_hp b) (b_up b) (b_xiph b) (b_laces b) (b_cur b).
Definition b_set_hp (h : hst) (b : bst) : bst :=
  mk_bst (b_state b) (b_hread b) (b_val b) (b_meta b) (b_fpos b) (b_fsize b) h (b_up b) (b_xiph b) (b_laces b) (b_cur b).
Definition b_set_up (u : vist) (b : bst) : bst :=
  mk_bst (b_state b) (b_hread b) (b_val b) (b_meta b) (b_fpos b) (b_fsize b) (b_hp b) u (b_xiph b) (b_laces b) (b_cur b).
Definition b_set_xiph (x : Z) (b : bst) : bst :=
  mk_bst (b_state b) (b_hread b) (b_val b) (b_meta b) (b_fpos b) (b_fsize b) (b_hp b) (b_up b) x (b_laces b) (b_cur b).
Definition b_set_laces (l : list Z) (b : bst) : bst :=
  mk_bst (b_state b) (b_hread b) (b_val b) (b_meta b) (b_fpos b) (b_fsize b) (b_hp b) (b_up b) (b_xiph b) l (b_cur b).
Definition b_set_cur (n : Z) (b : bst) : bst :=
  mk_bst (b_state b) (b_hread b) (b_val b) (b_meta b) (b_fpos b) (b_fsize b) (b_hp b) (b_up b) (b_xiph b) (b_laces b) n.
Definition b_set_frame (pos size : Z) (b : bst) : bst :=
  mk_bst (b_state b) (b_hread b) (b_val b) (b_meta b) pos size (b_hp b) (b_up b) (b_xiph b) (b_laces b) (b_cur b).

(* block_parser.cc 62-75; *this = {} *)
Definition blockv0 : blockv := mk_blockv 0 0 false 0 0 false false.
Definition BlockParser_Init (m : meta) : Z * bst :=
  if (me_size m =? kUnknownElementSize) || (me_size m <? 5)
  then (kInvalidElementSize, mk_bst BDone 0 blockv0 m 0 0 h_new vi_new 0 [] 0)
  else (kOkCompleted, mk_bst BHeader 0 blockv0 m 0 0 h_new vi_new 0 [] 0).

(* vector element assignment, block_parser.cc 255-257 *)
Fixpoint set_nth (n : nat) (x : Z) (l : list Z) : list Z :=
  match l, n with
  | [], _ => []
  | _ :: l', O => x :: l'
  | y :: l', S k => y :: set_nth k x l'
  end.

Section block.
Variable cb : callback.
Variable simple : bool.    (* SimpleBlock (true) or Block *)
Variable sk : bool.        (* the current callback is a SkipCallback *)

(* block_parser.cc 50-58, 271-272 *)
Definition b_kind : bkind := if simple then KSimpleBlock else KBlock.
Definition b_done (st : bst) (nr : Z) (w : world) : Z * Z * bst * world :=
  let '(c, _, w1) := notify cb sk (EEnd b_kind (b_meta st) (VBlock (b_val st))) w in
  (c, nr, st, w1).

(* block_parser.cc 251-269; k counts the frames left *)
Fixpoint b_frames (k : nat) (st : bst) (nr : Z) (w : world) : Z * Z * bst * world :=
  match k with
  | O => b_done (b_set_state BDone st) nr w
  | S k' =>
      let i := Z.to_nat (b_cur st) in
      let rem := nth i (b_laces st) 0 in
      let '(c, rem1, w1) := on_data cb sk (DFrame (b_meta st) (b_fpos st) (b_fsize st)) rem w in
      let st1 := b_set_laces (set_nth i rem1 (b_laces st)) st in
      if negb (c =? kOkCompleted) then (c, nr + (rem - rem1), st1, w1)
      else
        let st2 := if b_cur st1 + 1 <? zlen (b_laces st1)
                   then b_set_frame (wrap64 (b_fpos st1 + b_fsize st1)) (nth (S i) (b_laces st1) 0) st1
                   else st1 in
        b_frames k' (b_set_cur (b_cur st2 + 1) st2) (nr + (rem - rem1)) w1
  end.
Definition b_frames_step (st : bst) (nr : Z) (w : world) : Z * Z * bst * world :=
  b_frames (length (b_laces st) - Z.to_nat (b_cur st)) (b_set_state BFrames st) nr w.

(* block_parser.cc 225-238 *)
Definition b_validate (st : bst) (nr : Z) (w : world) : Z * Z * bst * world :=
  let sum := wrap64 (fold_left Z.add (b_laces st) (b_hread st)) in
  if me_size (b_meta st) <=? sum then (kInvalidElementValue, nr, b_set_state BValidate st, w)
  else
    let laces := b_laces st ++ [me_size (b_meta st) - sum] in
    b_frames_step
      (b_set_frame (wrap64 (me_pos (b_meta st) + me_hsize (b_meta st) + b_hread st)) (nth 0 laces 0)
         (b_set_laces laces st)) nr w.

(* block_parser.cc 205-223 *)
Definition b_fixed (st : bst) (nr : Z) (w : world) : Z * Z * bst * world :=
  let size := me_size (b_meta st) in
  if size <=? b_hread st then (kInvalidElementValue, nr, b_set_state BFixed st, w)
  else
    let laced := size - b_hread st in
    let n := bv_frames (b_val st) in
    let fsize := laced / n in
    if negb (laced mod n =? 0) then (kInvalidElementValue, nr, b_set_state BFixed st, w)
    else b_frames_step
           (b_set_frame (wrap64 (me_pos (b_meta st) + b_hread st)) fsize
              (b_set_laces (repeat fsize (Z.to_nat n)) st)) nr w.

(* block_parser.cc 185-203; k counts the sizes left *)
Fixpoint b_ebml (k : nat) (st : bst) (nr : Z) (w : world) : Z * Z * bst * world :=
  match k with
  | O => b_validate st nr w
  | S k' =>
      let '(c, n, u, w1) := VarIntParser_Feed (b_up st) w in
      let st1 := b_set_up u (b_add_hread n st) in
      if negb (c =? kOkCompleted) then (c, nr + n, b_set_state BEbml st1, w1)
      else
        let offset := 2 ^ (encoded_length u * 7 - 1) - 1 in
        let size := wrap64 (last (b_laces st) 0 + vi_value u - offset) in
        b_ebml k' (b_set_up vi_new (b_set_laces (b_laces st ++ [size]) st1)) (nr + n) w1
  end.
Definition b_ebml_step (st : bst) (nr : Z) (w : world) : Z * Z * bst * world :=
  b_ebml (Z.to_nat (bv_frames (b_val st) - 1) - length (b_laces st)) st nr w.

(* block_parser.cc 171-183 *)
Definition b_ebml_first (st : bst) (nr : Z) (w : world) : Z * Z * bst * world :=
  let '(c, n, u, w1) := VarIntParser_Feed (b_up st) w in
  let st1 := b_set_up u (b_add_hread n st) in
  if negb (c =? kOkCompleted) then (c, nr + n, b_set_state BEbmlFirst st1, w1)
  else b_ebml_step (b_set_up vi_new (b_set_laces (b_laces st ++ [vi_value u]) st1)) (nr + n) w1.

(* block_parser.cc 154-166: the sizes (outer loop) and their bytes (inner loop) in one;
   every turn but the last reads a byte, so fuel is the amount of data *)
Fixpoint b_xiph_loop (fuel : nat) (st : bst) (nr : Z) (w : world) : Z * Z * bst * world :=
  if bv_frames (b_val st) - 1 <=? zlen (b_laces st) then b_validate st nr w
  else
    match fuel with
    | O => (kWouldBlock, nr, b_set_state BXiph st, w)
    | S f =>
        let '(c, b, w1) := ReadByte w in
        if negb (c =? kOkCompleted) then (c, nr, b_set_state BXiph st, w1)
        else
          let x := wrap64 (b_xiph st + b) in
          let st1 := b_add_hread 1 st in
          if b =? 255 then b_xiph_loop f (b_set_xiph x st1) (nr + 1) w1
          else b_xiph_loop f (b_set_xiph 0 (b_set_laces (b_laces st ++ [x]) st1)) (nr + 1) w1
    end.
Definition b_xiph_step (st : bst) (nr : Z) (w : world) : Z * Z * bst * world :=
  b_xiph_loop (S (length (w_data w))) st nr w.

(* block_parser.cc 240-249 *)
Definition b_skipping (st : bst) (nr : Z) (w : world) : Z * Z * bst * world :=
  let '(c, bs, w1) := take_all (wrap64 (me_size (b_meta st) - b_hread st)) w in
  (c, nr + zlen bs, b_set_state BSkipping (b_add_hread (zlen bs) st), w1).

(* block_parser.cc 37-46, 130-149 *)
Definition b_action (st : bst) (nr : Z) (w : world) : Z * Z * bst * world :=
  let '(c, skip, w1) := notify cb sk (EBegin b_kind (b_meta st) (VBlock (b_val st))) w in
  let v := b_val st in
  if negb (c =? kOkCompleted) then (c, nr, b_set_state BAction st, w1)
  else if skip then b_skipping st nr w1
  else if (bv_lacing v =? 0) || (bv_frames v =? 1) then b_validate st nr w1
  else if bv_lacing v =? 2 then b_xiph_step st nr w1
  else if bv_lacing v =? 6 then b_ebml_first st nr w1
  else b_fixed st nr w1.

(* block_parser.cc 115-128 *)
Definition b_lace_count (st : bst) (nr : Z) (w : world) : Z * Z * bst * world :=
  let '(c, b, w1) := ReadByte w in
  if negb (c =? kOkCompleted) then (c, nr, b_set_state BLaceCount st, w1)
  else
    let v := b_val st in
    b_action
      (b_set_val (mk_blockv (bv_track v) (bv_time v) (bv_visible v) (bv_lacing v) (b + 1) (bv_key v)
                            (bv_discardable v)) (b_add_hread 1 st)) (nr + 1) w1.

(* block_parser.cc 25-32, 91-113 *)
Definition b_header (st : bst) (w : world) : Z * Z * bst * world :=
  let '(c, n, h, w1) := BlockHeaderParser_Feed (b_hp st) w in
  let st1 := b_set_hp h (b_add_hread n st) in
  if negb (c =? kOkCompleted) then (c, n, b_set_state BHeader st1, w1)
  else
    let flags := h_flags h in
    let lac := Z.land flags 6 in
    let v := mk_blockv (h_track h) (h_time h) (Z.land 8 flags =? 0) lac (if lac =? 0 then 1 else 0)
                       (simple && negb (Z.land 128 flags =? 0))
                       (simple && negb (Z.land 1 flags =? 0)) in
    if lac =? 0 then b_action (b_set_val v st1) n w1
    else b_lace_count (b_set_val v st1) n w1.

(* block_parser.cc 77-275 *)
Definition BlockParser_Feed (st : bst) (w : world) : Z * Z * bst * world :=
  match b_state st with
  | BHeader => b_header st w
  | BLaceCount => b_lace_count st 0 w
  | BAction => b_action st 0 w
  | BXiph => b_xiph_step st 0 w
  | BEbmlFirst => b_ebml_first st 0 w
  | BEbml => b_ebml_step st 0 w
  | BFixed => b_fixed st 0 w
  | BValidate => b_validate st 0 w
  | BSkipping => b_skipping st 0 w
  | BFrames => b_frames_step st 0 w
  | BDone => b_done st 0 w
  end.
End block.
