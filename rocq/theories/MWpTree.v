(* Model of the callback parser's element tree: which parser handles which child
   (webm_parser/src/*_parser.h), MasterParser, MasterValueParser, RecursiveParser,
   SegmentParser, DocumentParser and WebmParser.
   Not modelled: the filling-in of absent display sizes and output frequencies (video_parser.h 104-116,
   audio_parser.h 71-77), Swap and the constructors' allocation. *)
From Verif Require Import Base WpSpec MWp MWpBlock.

(* ---------- element IDs: webm_parser/include/webm/id.h 43-1076 ---------- *)
Definition idEbml := 0x1A45DFA3.
Definition idVoid := 0xEC.
Definition idSegment := 0x18538067.
Definition idCluster := 0x1F43B675.
Definition idBlockGroup := 0xA0.
Definition idSimpleBlock := 0xA3.
Definition idSimpleTag := 0x67C8.
Definition idChapterAtom := 0xB6.

(* ---------- the parsers of the tree ---------- *)
(* value structures: one class derived from MasterValueParser (master_value_parser.h 63)
   each *)
Inductive vname :=
| VEbml | VSeek | VInfo | VCluster | VBlockGroup | VBlockAdditions | VBlockMore | VSlices
| VTimeSlice | VTrackEntry | VVideo | VColour | VMastering | VProjection | VAudio | VEncodings
| VEncoding | VEncryption | VAes | VCuePoint | VCueTrackPositions | VEdition | VDisplay | VTag
| VTargets
| VAtom (d : nat)          (* ChapterAtomParser(max_recursive_depth) *)
| VSimpleTag (d : nat).    (* SimpleTagParser(max_recursive_depth) *)

(* the parser classes: webm_parser/src/int_parser.h 31, float_parser.h 23, date_parser.h 24, bool_parser.h 28, id_element_parser.h 20, byte_parser.h 139-140,
   void_parser.h 24, unknown_parser.h 21, skip_parser.h 22, block_parser.h 121-122, virtual_block_parser.h 28, segment_parser.h 26, recursive_parser.h 28 and the master parsers *)
Inductive node :=
| NUint (dflt : Z) | NSint (dflt : Z) | NFloat (dflt : Z) | NDate | NBool (dflt : bool) | NIdEl
| NStr (dflt : list Z) | NBin
| NVoid | NUnknown | NSkip
| NBlock (simple : bool) | NVirtual
| NSegment | NChapters | NCues | NSeekHead | NTags | NTracks
| NVal (v : vname)
| NRecAtom (d : nat)       (* RecursiveParser<ChapterAtomParser>(d) *)
| NRecTag (d : nat).       (* RecursiveParser<SimpleTagParser>(d) *)

(* ASCII: dom_types.h 355, 1471, 1693 *)
Definition s_eng : list Z := [101; 110; 103].
Definition s_und : list Z := [117; 110; 100].
Definition s_matroska : list Z := [109; 97; 116; 114; 111; 115; 107; 97].

(* the MakeChild lists of the parser classes, with the default values of
   webm_parser/include/webm/dom_types.h:36-1781 (for enumerations, their number) *)
Definition val_children (v : vname) : list (Z * node) :=
  match v with
  | VEbml => (* ebml_parser.h 25-38 *)
      [(0x4286, NUint 1); (0x42F7, NUint 1); (0x42F2, NUint 4); (0x42F3, NUint 8);
       (0x4282, NStr s_matroska); (0x4287, NUint 1); (0x4285, NUint 1)]
  | VSeek => (* seek_parser.h 24-27 *)
      [(0x53AB, NIdEl); (0x53AC, NUint 0)]
  | VInfo => (* info_parser.h 26-34 *)
      [(0x2AD7B1, NUint 1000000); (0x4489, NFloat 0); (0x4461, NDate); (0x7BA9, NStr []);
       (0x4D80, NStr []); (0x5741, NStr [])]
  | VCluster => (* cluster_parser.h 25-34 *)
      [(0xE7, NUint 0); (0xAB, NUint 0); (idSimpleBlock, NBlock true);
       (idBlockGroup, NVal VBlockGroup)]
  | VBlockGroup => (* block_group_parser.h 27-40 *)
      [(0xA1, NBlock false); (0xA2, NVirtual); (0x75A1, NVal VBlockAdditions); (0x9B, NUint 0);
       (0xFB, NSint 0); (0x75A2, NSint 0); (0x8E, NVal VSlices)]
  | VBlockAdditions => (* block_additions_parser.h 23-25 *)
      [(0xA6, NVal VBlockMore)]
  | VBlockMore => (* block_more_parser.h 24-27 *)
      [(0xEE, NUint 1); (0xA5, NBin)]
  | VSlices => (* slices_parser.h 23-25 *)
      [(0xE8, NVal VTimeSlice)]
  | VTimeSlice => (* time_slice_parser.h 23-25 *)
      [(0xCC, NUint 0)]
  | VTrackEntry => (* track_entry_parser.h 29-55 *)
      [(0xD7, NUint 0); (0x73C5, NUint 0); (0x83, NUint 0); (0xB9, NBool true); (0x88, NBool true);
       (0x55AA, NBool false); (0x9C, NBool true); (0x23E383, NUint 0); (0x536E, NStr []);
       (0x22B59C, NStr s_eng); (0x86, NStr []); (0x63A2, NBin); (0x258688, NStr []);
       (0x56AA, NUint 0); (0x56BB, NUint 0); (0xE0, NVal VVideo); (0xE1, NVal VAudio);
       (0x6D80, NVal VEncodings)]
  | VVideo => (* video_parser.h 33-63 *)
      [(0x9A, NUint 0); (0x53B8, NUint 0); (0x53C0, NUint 0); (0xB0, NUint 0); (0xBA, NUint 0);
       (0x54AA, NUint 0); (0x54BB, NUint 0); (0x54CC, NUint 0); (0x54DD, NUint 0); (0x54B0, NUint 0);
       (0x54BA, NUint 0); (0x54B2, NUint 0); (0x54B3, NUint 0); (0x2383E3, NFloat 0);
       (0x55B0, NVal VColour); (0x7670, NVal VProjection)]
  | VColour => (* colour_parser.h 24-50 *)
      [(0x55B1, NUint 2); (0x55B2, NUint 0); (0x55B3, NUint 0); (0x55B4, NUint 0); (0x55B5, NUint 0);
       (0x55B6, NUint 0); (0x55B7, NUint 0); (0x55B8, NUint 0); (0x55B9, NUint 0); (0x55BA, NUint 2);
       (0x55BB, NUint 2); (0x55BC, NUint 0); (0x55BD, NUint 0); (0x55D0, NVal VMastering)]
  | VMastering => (* mastering_metadata_parser.h 23-52 *)
      [(0x55D1, NFloat 0); (0x55D2, NFloat 0); (0x55D3, NFloat 0); (0x55D4, NFloat 0);
       (0x55D5, NFloat 0); (0x55D6, NFloat 0); (0x55D7, NFloat 0); (0x55D8, NFloat 0);
       (0x55D9, NFloat 0); (0x55DA, NFloat 0)]
  | VProjection => (* projection_parser.h 24-35 *)
      [(0x7671, NUint 0); (0x7672, NBin); (0x7673, NFloat 0); (0x7674, NFloat 0); (0x7675, NFloat 0)]
  | VAudio => (* audio_parser.h 30-38 *)
      [(0xB5, NFloat 8000); (0x78B5, NFloat 8000); (0x9F, NUint 1); (0x6264, NUint 0)]
  | VEncodings => (* content_encodings_parser.h 23-25 *)
      [(0x6240, NVal VEncoding)]
  | VEncoding => (* content_encoding_parser.h 24-33 *)
      [(0x5031, NUint 0); (0x5032, NUint 1); (0x5033, NUint 0); (0x5035, NVal VEncryption)]
  | VEncryption => (* content_encryption_parser.h 24-31 *)
      [(0x47E1, NUint 0); (0x47E2, NBin); (0x47E7, NVal VAes)]
  | VAes => (* content_enc_aes_settings_parser.h 23-27 *)
      [(0x47E8, NUint 1)]
  | VCuePoint => (* cue_point_parser.h 24-28 *)
      [(0xB3, NUint 0); (0xB7, NVal VCueTrackPositions)]
  | VCueTrackPositions => (* cue_track_positions_parser.h 23-34 *)
      [(0xF7, NUint 0); (0xF1, NUint 0); (0xF0, NUint 0); (0xB2, NUint 0); (0x5378, NUint 1)]
  | VEdition => (* edition_entry_parser.h 23-25; the default depth is 25, chapter_atom_parser.h 25 *)
      [(idChapterAtom, NVal (VAtom 25))]
  | VDisplay => (* chapter_display_parser.h 23-29 *)
      [(0x85, NStr []); (0x437C, NStr s_eng); (0x437E, NStr [])]
  | VTag => (* tag_parser.h 24-27; the default depth is 25, simple_tag_parser.h 24 *)
      [(0x63C0, NVal VTargets); (idSimpleTag, NVal (VSimpleTag 25))]
  | VTargets => (* targets_parser.h 24-30 *)
      [(0x68CA, NUint 50); (0x63CA, NStr []); (0x63C5, NUint 0)]
  | VAtom d => (* chapter_atom_parser.h 25-37 *)
      [(0x73C4, NUint 0); (0x5654, NStr []); (0x91, NUint 0); (0x92, NUint 0); (0x80, NVal VDisplay);
       (idChapterAtom, NRecAtom d)]
  | VSimpleTag d => (* simple_tag_parser.h 24-32 *)
      [(0x45A3, NStr []); (0x447A, NStr s_und); (0x4484, NBool true); (0x4487, NStr []);
       (0x4485, NBin); (idSimpleTag, NRecTag d)]
  end.

(* segment_parser.cc 22-29, chapters_parser.h 22-23, cues_parser.h 22, seek_head_parser.h 22,
   tags_parser.h 22, tracks_parser.h 22 *)
Definition own_children (n : node) : list (Z * node) :=
  match n with
  | NSegment => [(0x1043A770, NChapters); (idCluster, NVal VCluster); (0x1C53BB6B, NCues);
                 (0x1549A966, NVal VInfo); (0x114D9B74, NSeekHead); (0x1254C367, NTags);
                 (0x1654AE6B, NTracks)]
  | NChapters => [(0x45B9, NVal VEdition)]
  | NCues => [(0xBB, NVal VCuePoint)]
  | NSeekHead => [(0x4DBB, NVal VSeek)]
  | NTags => [(0x7373, NVal VTag)]
  | NTracks => [(0xAE, NVal VTrackEntry)]
  | NVal v => val_children v
  | _ => []
  end.
(* master_parser.h 59-79: every master also knows Void *)
Definition children (n : node) : list (Z * node) := own_children n ++ [(idVoid, NVoid)].

(* parsers_.find: master_parser.cc 174-187 *)
Fixpoint lookup (id : Z) (l : list (Z * node)) : option node :=
  match l with [] => None | (i, n) :: l' => if i =? id then Some n else lookup id l' end.

(* ---------- parser states ---------- *)
(* master_parser.h 130-166 *)
Inductive mstate :=
| MFirst | MFinishing | MSize | MValidate | MAction | MInit | MBody | MParsed | MEnd.
(* master_parser.h 168-209 without child_parser_ and the child parsers *)
Record mst := mk_mst {
  m_state : mstate; m_idp : idst; m_szp : vist; m_cm : meta; m_skip : bool;
  m_hsize : Z; m_size : Z; m_pos : Z; m_max : Z; m_total : Z; m_cached : bool }.

(* master_value_parser.h 395-398; for the segment, segment_parser.h 42-48 (v_started is
   begin_done_, v_complete is parse_completed_) *)
Record vst := mk_vst { v_val : list (Z * value); v_skip : bool; v_complete : bool; v_started : bool }.

(* A parser object in use.  Parser objects of the code live as long as their parent
   and are re-initialised for every element; Init overwrites every field that Feed
   reads, so a fresh state per element says the same: master_parser.cc:26-45, 279-298. *)
Inductive pstate :=
| PInt (sg : bool) (s : nst)
| PFloat (s : nst)
| PDate (s : nst)
| PIdEl (s : nst)
| PBool (s : boolst)
| PBytes (str : bool) (s : byst)
| PVoid (m : meta) (rem : Z)
| PUnknown (m : meta) (rem : Z)
| PSkip (rem : Z)
| PBlock (simple : bool) (s : bst)
| PVirtual (s : vbst)
| PMaster (n : node) (m : mst) (c : child) (v : vst)
| PRec (p : pstate)
with child :=
| CNone               (* child_parser_ == nullptr *)
| CSel (n : node)     (* child_parser_ chosen, not initialised yet *)
| CAct (p : pstate).  (* child_parser_ at work *)

(* assignments to the members of MasterParser (master_parser.h 168-209) *)
Definition m_set_state (s : mstate) (m : mst) : mst :=
  mk_mst s (m_idp m) (m_szp m) (m_cm m) (m_skip m) (m_hsize m) (m_size m) (m_pos m) (m_max m) (m_total m) (m_cached m).
Definition m_set_idp (i : idst) (m : mst) : mst :=
  mk_mst (m_state m) i (m_szp m) (m_cm m) (m_skip m) (m_hsize m) (m_size m) (m_pos m) (m_max m) (m_total m) (m_cached m).
Definition m_set_szp (z : vist) (m : mst) : mst :=
  mk_mst (m_state m) (m_idp m) z (m_cm m) (m_skip m) (m_hsize m) (m_size m) (m_pos m) (m_max m) (m_total m) (m_cached m).
Definition m_set_cm (x : meta) (m : mst) : mst :=
  mk_mst (m_state m) (m_idp m) (m_szp m) x (m_skip m) (m_hsize m) (m_size m) (m_pos m) (m_max m) (m_total m) (m_cached m).
Definition m_set_skip (b : bool) (m : mst) : mst :=
  mk_mst (m_state m) (m_idp m) (m_szp m) (m_cm m) b (m_hsize m) (m_size m) (m_pos m) (m_max m) (m_total m) (m_cached m).
Definition m_add_total (k : Z) (m : mst) : mst :=
  mk_mst (m_state m) (m_idp m) (m_szp m) (m_cm m) (m_skip m) (m_hsize m) (m_size m) (m_pos m) (m_max m) (m_total m + k) (m_cached m).
Definition m_set_cached (b : bool) (m : mst) : mst :=
  mk_mst (m_state m) (m_idp m) (m_szp m) (m_cm m) (m_skip m) (m_hsize m) (m_size m) (m_pos m) (m_max m) (m_total m) b.

(* header_size += local_num_bytes_read: master_parser.cc:72-130 *)
Definition cm_add_hsize (k : Z) (x : meta) : meta :=
  mk_meta (me_id x) (me_hsize x + k) (me_size x) (me_pos x).

(* master_parser.cc 290-296 *)
Definition PrepareForNextChild (m : mst) : mst :=
  mk_mst (m_state m) id_new vi_new (m_cm m) false (m_hsize m) (m_size m) (m_pos m) (m_max m) (m_total m) (m_cached m).

(* master_parser.cc 26-45, 279-288 *)
Definition meta0 : meta := mk_meta 0 0 0 0.
Definition MasterParser_Init (x : meta) (max : Z) : mst :=
  mk_mst (if me_size x =? 0 then MEnd else MFirst) id_new vi_new meta0 false
         (me_hsize x) (me_size x) (me_pos x)
         (if me_size x =? kUnknownElementSize then max else me_size x) 0 false.
(* master_value_parser.h 65-77, 523-528; segment_parser.cc 31-38 *)
Definition v_new : vst := mk_vst [] false false false.

(* the classes derived from MasterParser (master_parser.h 47) and, below, from MasterValueParser (master_value_parser.h 63) *)
Definition is_master (n : node) : bool :=
  match n with
  | NSegment | NChapters | NCues | NSeekHead | NTags | NTracks | NVal _ => true
  | _ => false
  end.
Definition is_value (n : node) : bool := match n with NVal _ => true | _ => false end.

(* the Init functions, e.g. master_parser.cc:26-45, int_parser.h:50-65; the second result is meaningful when the first is kOkCompleted *)
Definition parser_Init (n : node) (x : meta) (max : Z) : Z * pstate :=
  match n with
  | NUint d => let r := IntParser_Init d x in (fst r, PInt false (snd r))
  | NSint d => let r := IntParser_Init d x in (fst r, PInt true (snd r))
  | NFloat d => let r := FloatParser_Init d x in (fst r, PFloat (snd r))
  | NDate => let r := DateParser_Init x in (fst r, PDate (snd r))
  | NIdEl => let r := IdElementParser_Init x in (fst r, PIdEl (snd r))
  | NBool d => let r := BoolParser_Init d x in (fst r, PBool (snd r))
  | NStr d => let r := ByteParser_Init d x in (fst r, PBytes true (snd r))
  | NBin => let r := ByteParser_Init [] x in (fst r, PBytes false (snd r))
  | NVoid => (* void_parser.cc 21-33 *)
      (if me_size x =? kUnknownElementSize then kInvalidElementSize else kOkCompleted,
       PVoid x (me_size x))
  | NUnknown => (* unknown_parser.cc 19-31 *)
      (if me_size x =? kUnknownElementSize then kIndefiniteUnknownElement else kOkCompleted,
       PUnknown x (me_size x))
  | NSkip => let r := SkipParser_Init x in (fst r, PSkip (snd r))
  | NBlock s => let r := BlockParser_Init x in (fst r, PBlock s (snd r))
  | NVirtual => let r := VirtualBlockParser_Init x in (fst r, PVirtual (snd r))
  | NSegment | NChapters | NCues | NSeekHead | NTags | NTracks | NVal _ =>
      (kOkCompleted, PMaster n (MasterParser_Init x max) CNone v_new)
  | NRecAtom d => (* recursive_parser.h 39-52 *)
      match d with
      | O => (kExceededRecursionDepthLimit, PSkip 0)
      | S d' => (kOkCompleted, PRec (PMaster (NVal (VAtom d')) (MasterParser_Init x max) CNone v_new))
      end
  | NRecTag d =>
      match d with
      | O => (kExceededRecursionDepthLimit, PSkip 0)
      | S d' => (kOkCompleted, PRec (PMaster (NVal (VSimpleTag d')) (MasterParser_Init x max) CNone v_new))
      end
  end.

(* GetCachedMetadata: element_parser.h 85-89 (false), master_parser.cc 270-277,
   master_value_parser.h 134-136.  RecursiveParser does not override it. *)
Definition cached (p : pstate) : option meta :=
  match p with
  | PMaster _ m _ _ => if m_cached m then Some (m_cm m) else None
  | _ => None
  end.
(* WasSkipped: element_parser.h 97, block_parser.cc 277-280, master_value_parser.h 138,
   segment_parser.cc 84 *)
Definition was_skipped (p : pstate) : bool :=
  match p with
  | PBlock _ s => match b_state s with BSkipping => true | _ => false end
  | PMaster n _ _ v => match n with NVal _ | NSegment => v_skip v | _ => false end
  | _ => false
  end.
(* value(): what the parent's ChildParser lambda stores (master_value_parser.h 174-176,
   218-223, 265-270) *)
Fixpoint p_value (p : pstate) : value :=
  match p with
  | PInt _ s | PDate s | PIdEl s => VInt (n_value s)
  | PFloat s => VFloat (n_size s) (n_value s)
  | PBool s => VBool (bo_value s)
  | PBytes _ s => VBytes (by_got s)
  | PBlock _ s => VBlock (b_val s)
  | PVirtual s => VVirtual (h_track (vb_hp s)) (h_time (vb_hp s))
  | PMaster _ _ _ v => VRec (v_val v)
  | PRec q => p_value q
  | PVoid _ _ | PUnknown _ _ | PSkip _ => VInt 0
  end.

(* master_value_parser.h 342-345 *)
Definition own_meta (id : Z) (m : mst) : meta := mk_meta id (m_hsize m) (m_size m) (m_pos m).

(* OnParseStarted: cluster_parser.h 37-39, block_group_parser.h 60-62,
   master_value_parser.h 355-360 (read, no notification) *)
Definition on_started (cb : callback) (n : node) (sk : bool) (m : mst) (v : vst) (w : world)
  : Z * bool * world :=
  match n with
  | NVal VCluster => notify cb sk (EBegin KCluster (own_meta idCluster m) (VRec (v_val v))) w
  | NVal VBlockGroup => notify cb sk (EBegin KBlockGroup (own_meta idBlockGroup m) (VRec [])) w
  | _ => (kOkCompleted, false, w)
  end.

(* OnParseCompleted: cluster_parser.h 41-43, block_group_parser.h 64-66, ebml_parser.h 41-43,
   seek_parser.h 30-32, info_parser.h 37-39, track_entry_parser.h 58-60, cue_point_parser.h 31-33,
   edition_entry_parser.h 28-30, tag_parser.h 30-32, master_value_parser.h 369-372 *)
Definition on_completed (cb : callback) (n : node) (sk : bool) (m : mst) (v : vst) (w : world)
  : Z * world :=
  let tell e := let '(c, _, w1) := notify cb sk e w in (c, w1) in
  let value := VRec (v_val v) in
  match n with
  | NVal VCluster => tell (EEnd KCluster (own_meta idCluster m) value)
  | NVal VBlockGroup => tell (EEnd KBlockGroup (own_meta idBlockGroup m) value)
  | NVal VEbml => tell (EReport KEbml (own_meta idEbml m) value)
  | NVal VSeek => tell (EReport KSeek (own_meta 0x4DBB m) value)
  | NVal VInfo => tell (EReport KInfo (own_meta 0x1549A966 m) value)
  | NVal VTrackEntry => tell (EReport KTrackEntry (own_meta 0xAE m) value)
  | NVal VCuePoint => tell (EReport KCuePoint (own_meta 0xBB m) value)
  | NVal VEdition => tell (EReport KEdition (own_meta 0x45B9 m) value)
  | NVal VTag => tell (EReport KTag (own_meta 0x7373 m) value)
  | _ => (kOkCompleted, w)
  end.

(* ChildParser (master_value_parser.h 424-483) wraps the children made by the value
   parsers, not Void, unknown and skipped elements *)
Definition wrapped (n : node) (p : pstate) : bool :=
  is_value n && match p with PVoid _ _ | PUnknown _ _ | PSkip _ => false | _ => true end.
(* .UseAsStartEvent(): cluster_parser.h 30-34 *)
Definition is_start (n : node) (p : pstate) : bool :=
  match n with
  | NVal VCluster =>
      match p with PBlock true _ | PMaster (NVal VBlockGroup) _ _ _ => true | _ => false end
  | _ => false
  end.

(* the bound on the size of a child: master_parser.cc 164-168, 240-244 *)
Definition byte_cap (m : mst) : Z :=
  if m_size m =? kUnknownElementSize then m_max m else m_size m.

Notation mres := (Z * Z * (mst * child * vst) * world)%type (only parsing).

Section tree.
Variable cb : callback.

(* Feed of every element parser, and the loop of MasterParser::Feed,
   master_parser.cc:72-277.  fuel bounds the
   number of nested calls and loop turns; None means it ran out.
   In mloop: osk, sk say whether original_callback and callback are SkipCallbacks; nr is
   *num_bytes_read. *)
Fixpoint feed (fuel : nat) (sk : bool) (p : pstate) (w : world) {struct fuel}
  : option (Z * Z * pstate * world) :=
  match fuel with
  | O => None
  | S f =>
      match p with
      | PInt sg s => let '(c, k, s1, w1) := IntParser_Feed sg s w in Some (c, k, PInt sg s1, w1)
      | PFloat s => let '(c, k, s1, w1) := FloatParser_Feed s w in Some (c, k, PFloat s1, w1)
      | PDate s => let '(c, k, s1, w1) := DateParser_Feed s w in Some (c, k, PDate s1, w1)
      | PIdEl s => let '(c, k, s1, w1) := IdElementParser_Feed s w in Some (c, k, PIdEl s1, w1)
      | PBool s => let '(c, k, s1, w1) := BoolParser_Feed s w in Some (c, k, PBool s1, w1)
      | PBytes str s => let '(c, k, s1, w1) := ByteParser_Feed str s w in Some (c, k, PBytes str s1, w1)
      | PVoid x rem => (* void_parser.cc 35-47 *)
          let '(c, rem1, w1) := on_data cb sk (DVoid x) rem w in Some (c, rem - rem1, PVoid x rem1, w1)
      | PUnknown x rem => (* unknown_parser.cc 33-47 *)
          let '(c, rem1, w1) := on_data cb sk (DUnknown x) rem w in
          Some (c, rem - rem1, PUnknown x rem1, w1)
      | PSkip rem => let '(c, k, rem1, w1) := SkipParser_Feed rem w in Some (c, k, PSkip rem1, w1)
      | PBlock simple s =>
          let '(c, k, s1, w1) := BlockParser_Feed cb simple sk s w in Some (c, k, PBlock simple s1, w1)
      | PVirtual s => let '(c, k, s1, w1) := VirtualBlockParser_Feed s w in Some (c, k, PVirtual s1, w1)
      | PRec q => (* recursive_parser.h 64-72 *)
          match feed f sk q w with
          | None => None
          | Some (c, k, q1, w1) => Some (c, k, PRec q1, w1)
          end
      | PMaster n m c v =>
          match n with
          | NSegment => (* segment_parser.cc 49-82 *)
              let '(c0, v0, w0) :=
                if v_started v then (kOkCompleted, v, w)
                else let '(c1, skip, w1) := notify cb sk (EBegin KSegment (own_meta idSegment m) (VRec [])) w in
                     if negb (c1 =? kOkCompleted)
                     then (c1, mk_vst (v_val v) skip (v_complete v) false, w1)
                     else (c1, mk_vst (v_val v) skip (v_complete v) true, w1) in
              if negb (c0 =? kOkCompleted) then Some (c0, 0, PMaster n m c v0, w0)
              else
                let sk0 := sk || v_skip v0 in
                match (if v_complete v0 then Some (kOkCompleted, 0, (m, c, v0), w0)
                       else mloop f n sk0 (sk0 || m_skip m) m c v0 0 w0) with
                | None => None
                | Some (c2, k, (m2, ch2, v2), w2) =>
                    if negb (c2 =? kOkCompleted) then Some (c2, k, PMaster n m2 ch2 v2, w2)
                    else
                      let '(c3, _, w3) := notify cb sk0 (EEnd KSegment (own_meta idSegment m2) (VRec [])) w2 in
                      Some (c3, k, PMaster n m2 ch2 (mk_vst (v_val v2) (v_skip v2) true (v_started v2)), w3)
                end
          | NVal _ =>
              (* block_group_parser.h 42-57: the start event comes first *)
              let '(c0, v0, w0) :=
                match n with
                | NVal VBlockGroup =>
                    if v_started v then (kOkCompleted, v, w)
                    else let '(c1, skip, w1) := on_started cb n sk m v w in
                         if negb (c1 =? kOkCompleted) then (c1, v, w1)
                         else (c1, mk_vst (v_val v) skip (v_complete v) true, w1)
                | _ => (kOkCompleted, v, w)
                end in
              if negb (c0 =? kOkCompleted) then Some (c0, 0, PMaster n m c v0, w0)
              else
                (* master_value_parser.h 94-117 *)
                match
                  (if v_complete v0 then Some (kOkCompleted, 0, (m, c, v0), w0)
                   else
                     let sk0 := sk || v_skip v0 in
                     match mloop f n sk0 (sk0 || m_skip m) m c v0 0 w0 with
                     | None => None
                     | Some (c1, k1, (m1, ch1, v1), w1) =>
                         if c1 =? kSwitchToSkip then
                           match mloop f n true true m1 ch1 v1 0 w1 with
                           | None => None
                           | Some (c2, k2, r2, w2) => Some (c2, k1 + k2, r2, w2)
                           end
                         else Some (c1, k1, (m1, ch1, v1), w1)
                     end) with
                | None => None
                | Some (c2, k, (m2, ch2, v2), w2) =>
                    if negb (c2 =? kOkCompleted) then Some (c2, k, PMaster n m2 ch2 v2, w2)
                    else
                      (* master_value_parser.h 119-131.  When the start event is still due here,
                         action_ is not kSkip on entry, so callback is the caller's. *)
                      let v2' := mk_vst (v_val v2) (v_skip v2) true (v_started v2) in
                      let '(c3, v3, w3) :=
                        if v_started v2' then (kOkCompleted, v2', w2)
                        else let '(c4, skip, w4) := on_started cb n sk m2 v2' w2 in
                             (c4, mk_vst (v_val v2') skip true (c4 =? kOkCompleted), w4) in
                      if negb (c3 =? kOkCompleted) then Some (c3, k, PMaster n m2 ch2 v3, w3)
                      else if v_skip v3 then Some (kOkCompleted, k, PMaster n m2 ch2 v3, w3)
                      else let '(c5, w5) := on_completed cb n sk m2 v3 w3 in
                           Some (c5, k, PMaster n m2 ch2 v3, w5)
                end
          | _ =>
              match mloop f n sk (sk || m_skip m) m c v 0 w with
              | None => None
              | Some (c1, k, (m1, ch1, v1), w1) => Some (c1, k, PMaster n m1 ch1 v1, w1)
              end
          end
      end
  end

(* master_parser.cc 72-268 *)
with mloop (fuel : nat) (n : node) (osk sk : bool) (m : mst) (c : child) (v : vst) (nr : Z)
           (w : world) {struct fuel} : option mres :=
  match fuel with
  | O => None
  | S f =>
      match m_state m with
      | MFirst => (* 91-122 *)
          let cm0 := mk_meta (me_id (m_cm m)) 0 (me_size (m_cm m)) (w_pos w) in
          let '(s, k, i, w1) := IdParser_Feed (m_idp m) w in
          let m1 := m_set_idp i (m_add_total k (m_set_cm (cm_add_hsize k cm0) m)) in
          if (s =? kEndOfFile) && (m_size m =? kUnknownElementSize) && (k =? 0)
          then mloop f n osk sk (m_set_state MEnd m1) c v (nr + k) w1
          else if negb ((s =? kOkCompleted) || (s =? kOkPartial))
          then Some (s, nr + k, (if 0 <? k then m_set_state MFinishing m1 else m1, c, v), w1)
          else if s =? kOkCompleted
          then mloop f n osk sk (m_set_state MSize m1) c v (nr + k) w1
          else mloop f n osk sk (m_set_state MFinishing m1) c v (nr + k) w1
      | MFinishing => (* 124-137 *)
          let '(s, k, i, w1) := IdParser_Feed (m_idp m) w in
          let m1 := m_set_idp i (m_add_total k (m_set_cm (cm_add_hsize k (m_cm m)) m)) in
          if negb (s =? kOkCompleted) then Some (s, nr + k, (m1, c, v), w1)
          else mloop f n osk sk (m_set_state MSize m1) c v (nr + k) w1
      | MSize => (* 139-154 *)
          let '(s, k, z, w1) := SizeParser_Feed (m_szp m) w in
          let m1 := m_set_szp z (m_add_total k (m_set_cm (cm_add_hsize k (m_cm m)) m)) in
          if negb (s =? kOkCompleted) then Some (s, nr + k, (m1, c, v), w1)
          else
            let cm := mk_meta (ip_id (m_idp m)) (me_hsize (m_cm m1)) (size_value z) (me_pos (m_cm m1)) in
            mloop f n osk sk (m_set_state MValidate (m_set_cm cm m1)) c v (nr + k) w1
      | MValidate => (* 156-196 *)
          let sz := me_size (m_cm m) in
          let count := if sz =? kUnknownElementSize then m_total m else wrap64 (m_total m + sz) in
          if byte_cap m <? count then Some (kElementOverflow, nr, (m, c, v), w)
          else
            match lookup (me_id (m_cm m)) (children n) with
            | None =>
                if m_size m =? kUnknownElementSize
                then mloop f n osk sk (m_set_state MEnd (m_set_cached true m)) c v nr w
                else if sz =? kUnknownElementSize
                then Some (kIndefiniteUnknownElement, nr, (m, c, v), w)
                else mloop f n osk sk (m_set_state MAction m) (CSel NUnknown) v nr w
            | Some cn => mloop f n osk sk (m_set_state MAction m) (CSel cn) v nr w
            end
      | MAction => (* 198-213 *)
          let '(s, skip, w1) := notify cb sk (EElement (m_cm m)) w in
          let m1 := m_set_skip skip m in
          if negb (s =? kOkCompleted) then Some (s, nr, (m1, c, v), w1)
          else if skip
          then mloop f n osk true (m_set_state MInit m1)
                 (if me_size (m_cm m) =? kUnknownElementSize then c else CSel NSkip) v nr w1
          else mloop f n osk sk (m_set_state MInit m1) c v nr w1
      | MInit => (* 215-224 *)
          match c with
          | CSel cn =>
              let '(s, p) := parser_Init cn (m_cm m) (m_max m - m_total m) in
              if negb (s =? kOkCompleted) then Some (s, nr, (m, c, v), w)
              else mloop f n osk sk (m_set_state MBody m) (CAct p) v nr w
          | _ => None
          end
      | MBody => (* 226-236, with ChildParser::Feed (master_value_parser.h 440-477) *)
          match c with
          | CAct p =>
              let wr := wrapped n p in
              let '(s0, v0, w0) :=
                if wr && is_start n p && negb (v_started v) then
                  let '(s1, skip, w1) := on_started cb n sk m v w in
                  let v1 := mk_vst (v_val v) skip (v_complete v) (s1 =? kOkCompleted) in
                  (if negb (s1 =? kOkCompleted) then s1
                   else if skip then kSwitchToSkip else kOkCompleted, v1, w1)
                else (kOkCompleted, v, w) in
              if negb (s0 =? kOkCompleted) then Some (s0, nr, (m, c, v0), w0)
              else
                match feed f sk p w0 with
                | None => None
                | Some (s2, k, p2, w2) =>
                    let m2 := m_add_total k m in
                    let v2 := if wr && (s2 =? kOkCompleted) && negb (v_skip v0) && negb (was_skipped p2)
                              then mk_vst (v_val v0 ++ [(me_id (m_cm m), p_value p2)]) (v_skip v0)
                                          (v_complete v0) (v_started v0)
                              else v0 in
                    if negb (s2 =? kOkCompleted) then Some (s2, nr + k, (m2, CAct p2, v2), w2)
                    else mloop f n osk sk (m_set_state MParsed m2) (CAct p2) v2 (nr + k) w2
                end
          | _ => None
          end
      | MParsed => (* 238-261 *)
          if byte_cap m <? m_total m then Some (kElementOverflow, nr, (m, c, v), w)
          else if m_total m =? byte_cap m then mloop f n osk sk (m_set_state MEnd m) c v nr w
          else
            match c with
            | CAct p =>
                match cached p with
                | Some x => mloop f n osk osk (PrepareForNextChild (m_set_state MValidate (m_set_cm x m))) CNone v nr w
                | None => mloop f n osk osk (PrepareForNextChild (m_set_state MFirst m)) CNone v nr w
                end
            | _ => None
            end
      | MEnd => Some (kOkCompleted, nr, (m, c, v), w) (* 263-265 *)
      end
  end.
End tree.

(* ---------- resuming after a seek ---------- *)
(* Ancestory::ById, ancestory.cc 116-330: the elements above the one with an ID, the
   outermost first; None when it cannot be told.  (For Ebml and Segment the function
   answers with an empty list; DocumentParser does not ask about them.) *)
Definition ancestories : list (list Z * list Z) :=
  [(* 117-124: kEbmlVersion, kEbmlReadVersion, kEbmlMaxIdLength, kEbmlMaxSizeLength, kDocType,
    kDocTypeVersion, kDocTypeReadVersion *)
   ([0x4286; 0x42F7; 0x42F2; 0x42F3; 0x4282; 0x4287; 0x4285],
    [0x1A45DFA3 (* Ebml *)]);
   (* 127-134: kSeekHead, kInfo, kCluster, kTracks, kCues, kChapters, kTags *)
   ([0x114D9B74; 0x1549A966; 0x1F43B675; 0x1654AE6B; 0x1C53BB6B; 0x1043A770; 0x1254C367],
    [0x18538067 (* Segment *)]);
   (* 137-138: kSeek *)
   ([0x4DBB],
    [0x18538067 (* Segment *); 0x114D9B74 (* SeekHead *)]);
   (* 141-143: kSeekId, kSeekPosition *)
   ([0x53AB; 0x53AC],
    [0x18538067 (* Segment *); 0x114D9B74 (* SeekHead *); 0x4DBB (* Seek *)]);
   (* 146-152: kTimecodeScale, kDuration, kDateUtc, kTitle, kMuxingApp, kWritingApp *)
   ([0x2AD7B1; 0x4489; 0x4461; 0x7BA9; 0x4D80; 0x5741],
    [0x18538067 (* Segment *); 0x1549A966 (* Info *)]);
   (* 155-159: kTimecode, kPrevSize, kSimpleBlock, kBlockGroup *)
   ([0xE7; 0xAB; 0xA3; 0xA0],
    [0x18538067 (* Segment *); 0x1F43B675 (* Cluster *)]);
   (* 162-169: kBlock, kBlockVirtual, kBlockAdditions, kBlockDuration, kReferenceBlock, kDiscardPadding,
    kSlices *)
   ([0xA1; 0xA2; 0x75A1; 0x9B; 0xFB; 0x75A2; 0x8E],
    [0x18538067 (* Segment *); 0x1F43B675 (* Cluster *); 0xA0 (* BlockGroup *)]);
   (* 172-173: kBlockMore *)
   ([0xA6],
    [0x18538067 (* Segment *); 0x1F43B675 (* Cluster *); 0xA0 (* BlockGroup *); 0x75A1 (* BlockAdditions *)]);
   (* 176-178: kBlockAddId, kBlockAdditional *)
   ([0xEE; 0xA5],
    [0x18538067 (* Segment *); 0x1F43B675 (* Cluster *); 0xA0 (* BlockGroup *); 0x75A1 (* BlockAdditions *);
     0xA6 (* BlockMore *)]);
   (* 181-182: kTimeSlice *)
   ([0xE8],
    [0x18538067 (* Segment *); 0x1F43B675 (* Cluster *); 0xA0 (* BlockGroup *); 0x8E (* Slices *)]);
   (* 185-186: kLaceNumber *)
   ([0xCC],
    [0x18538067 (* Segment *); 0x1F43B675 (* Cluster *); 0xA0 (* BlockGroup *); 0x8E (* Slices *);
     0xE8 (* TimeSlice *)]);
   (* 189-190: kTrackEntry *)
   ([0xAE],
    [0x18538067 (* Segment *); 0x1654AE6B (* Tracks *)]);
   (* 193-211: kTrackNumber, kTrackUid, kTrackType, kFlagEnabled, kFlagDefault, kFlagForced, kFlagLacing,
    kDefaultDuration, kName, kLanguage, kCodecId, kCodecPrivate, kCodecName, kCodecDelay, kSeekPreRoll,
    kVideo, kAudio, kContentEncodings *)
   ([0xD7; 0x73C5; 0x83; 0xB9; 0x88; 0x55AA; 0x9C; 0x23E383; 0x536E; 0x22B59C; 0x86; 0x63A2; 0x258688;
    0x56AA; 0x56BB; 0xE0; 0xE1; 0x6D80],
    [0x18538067 (* Segment *); 0x1654AE6B (* Tracks *); 0xAE (* TrackEntry *)]);
   (* 214-228: kFlagInterlaced, kStereoMode, kAlphaMode, kPixelWidth, kPixelHeight, kPixelCropBottom,
    kPixelCropTop, kPixelCropLeft, kPixelCropRight, kDisplayWidth, kDisplayHeight, kDisplayUnit,
    kAspectRatioType, kFrameRate *)
   ([0x9A; 0x53B8; 0x53C0; 0xB0; 0xBA; 0x54AA; 0x54BB; 0x54CC; 0x54DD; 0x54B0; 0x54BA; 0x54B2; 0x54B3;
    0x2383E3],
    [0x18538067 (* Segment *); 0x1654AE6B (* Tracks *); 0xAE (* TrackEntry *); 0xE0 (* Video *)]);
   (* 231-235: kSamplingFrequency, kOutputSamplingFrequency, kChannels, kBitDepth *)
   ([0xB5; 0x78B5; 0x9F; 0x6264],
    [0x18538067 (* Segment *); 0x1654AE6B (* Tracks *); 0xAE (* TrackEntry *); 0xE1 (* Audio *)]);
   (* 238-239: kContentEncoding *)
   ([0x6240],
    [0x18538067 (* Segment *); 0x1654AE6B (* Tracks *); 0xAE (* TrackEntry *); 0x6D80 (* ContentEncodings *)]);
   (* 242-246: kContentEncodingOrder, kContentEncodingScope, kContentEncodingType, kContentEncryption *)
   ([0x5031; 0x5032; 0x5033; 0x5035],
    [0x18538067 (* Segment *); 0x1654AE6B (* Tracks *); 0xAE (* TrackEntry *); 0x6D80 (* ContentEncodings
     *); 0x6240 (* ContentEncoding *)]);
   (* 249-252: kContentEncAlgo, kContentEncKeyId, kContentEncAesSettings *)
   ([0x47E1; 0x47E2; 0x47E7],
    [0x18538067 (* Segment *); 0x1654AE6B (* Tracks *); 0xAE (* TrackEntry *); 0x6D80 (* ContentEncodings
     *); 0x6240 (* ContentEncoding *); 0x5035 (* ContentEncryption *)]);
   (* 255-256: kAesSettingsCipherMode *)
   ([0x47E8],
    [0x18538067 (* Segment *); 0x1654AE6B (* Tracks *); 0xAE (* TrackEntry *); 0x6D80 (* ContentEncodings
     *); 0x6240 (* ContentEncoding *); 0x5035 (* ContentEncryption *); 0x47E7 (* ContentEncAesSettings *)]);
   (* 259-260: kCuePoint *)
   ([0xBB],
    [0x18538067 (* Segment *); 0x1C53BB6B (* Cues *)]);
   (* 263-265: kCueTime, kCueTrackPositions *)
   ([0xB3; 0xB7],
    [0x18538067 (* Segment *); 0x1C53BB6B (* Cues *); 0xBB (* CuePoint *)]);
   (* 268-273: kCueTrack, kCueClusterPosition, kCueRelativePosition, kCueDuration, kCueBlockNumber *)
   ([0xF7; 0xF1; 0xF0; 0xB2; 0x5378],
    [0x18538067 (* Segment *); 0x1C53BB6B (* Cues *); 0xBB (* CuePoint *); 0xB7 (* CueTrackPositions *)]);
   (* 276-277: kEditionEntry *)
   ([0x45B9],
    [0x18538067 (* Segment *); 0x1043A770 (* Chapters *)]);
   (* 280-281: kChapterAtom *)
   ([0xB6],
    [0x18538067 (* Segment *); 0x1043A770 (* Chapters *); 0x45B9 (* EditionEntry *)]);
   (* 284-289: kChapterUid, kChapterStringUid, kChapterTimeStart, kChapterTimeEnd, kChapterDisplay *)
   ([0x73C4; 0x5654; 0x91; 0x92; 0x80],
    [0x18538067 (* Segment *); 0x1043A770 (* Chapters *); 0x45B9 (* EditionEntry *); 0xB6 (* ChapterAtom *)]);
   (* 292-295: kChapString, kChapLanguage, kChapCountry *)
   ([0x85; 0x437C; 0x437E],
    [0x18538067 (* Segment *); 0x1043A770 (* Chapters *); 0x45B9 (* EditionEntry *); 0xB6 (* ChapterAtom *);
     0x80 (* ChapterDisplay *)]);
   (* 298-299: kTag *)
   ([0x7373],
    [0x18538067 (* Segment *); 0x1254C367 (* Tags *)]);
   (* 302-304: kTargets, kSimpleTag *)
   ([0x63C0; 0x67C8],
    [0x18538067 (* Segment *); 0x1254C367 (* Tags *); 0x7373 (* Tag *)]);
   (* 307-310: kTargetTypeValue, kTargetType, kTagTrackUid *)
   ([0x68CA; 0x63CA; 0x63C5],
    [0x18538067 (* Segment *); 0x1254C367 (* Tags *); 0x7373 (* Tag *); 0x63C0 (* Targets *)]);
   (* 313-318: kTagName, kTagLanguage, kTagDefault, kTagString, kTagBinary *)
   ([0x45A3; 0x447A; 0x4484; 0x4487; 0x4485],
    [0x18538067 (* Segment *); 0x1254C367 (* Tags *); 0x7373 (* Tag *); 0x67C8 (* SimpleTag *)])].
Definition ById (id : Z) : option (list Z) :=
  match find (fun e => existsb (Z.eqb id) (fst e)) ancestories with
  | Some e => Some (snd e)
  | None => None
  end.

(* element.h 181-200; the element that is not seen after a seek *)
Definition kUnknownHeaderSize : Z := 4294967295.
Definition kUnknownElementPosition : Z := 18446744073709551615.
Definition unseen (id : Z) : meta := mk_meta id kUnknownHeaderSize kUnknownElementSize kUnknownElementPosition.
(* MasterParser::InitAfterSeek, master_parser.cc 47-70, 279-288, with what
   MasterValueParser (master_value_parser.h 79-84) and SegmentParser (segment_parser.cc
   40-47) add: the begin counts as reported.  None stands for the assertions that the
   children exist and for element_parser.h 74-78; no list of ancestors leads through a
   RecursiveParser (recursive_parser.h 54-62). *)
Definition sought (s : mstate) (cm : meta) : mst :=
  mk_mst s id_new vi_new cm false kUnknownHeaderSize kUnknownElementSize kUnknownElementPosition
         18446744073709551615 0 false.
Fixpoint InitAfterSeek (n : node) (ancestory : list Z) (cm : meta) : option pstate :=
  match ancestory with
  | [] =>
      match lookup (me_id cm) (children n) with
      | Some cn => Some (PMaster n (sought MAction cm) (CSel cn) (mk_vst [] false false true))
      | None => None
      end
  | a :: rest =>
      match lookup a (children n) with
      | Some cn =>
          match InitAfterSeek cn rest cm with
          | Some p => Some (PMaster n (sought MBody (unseen a)) (CAct p) (mk_vst [] false false true))
          | None => None
          end
      | None => None
      end
  end.

(* ---------- DocumentParser and WebmParser ---------- *)
(* webm_parser.cc 187-201 *)
Inductive dstate := DBegin | DId | DSize | DValidate | DAction | DInit | DBody | DEnd.
(* webm_parser.cc 203-240 *)
Record dst := mk_dst {
  d_state : dstate; d_idp : idst; d_szp : vist; d_cm : meta; d_skip : bool; d_child : child;
  d_seek : bool (* did_seek_ *) }.
Definition d_new : dst := mk_dst DBegin id_new vi_new meta0 false CNone false.
Definition d_set_state (s : dstate) (d : dst) : dst :=
  mk_dst s (d_idp d) (d_szp d) (d_cm d) (d_skip d) (d_child d) (d_seek d).
Definition d_set_child (c : child) (d : dst) : dst :=
  mk_dst (d_state d) (d_idp d) (d_szp d) (d_cm d) (d_skip d) c (d_seek d).
Definition d_set_seek (b : bool) (d : dst) : dst :=
  mk_dst (d_state d) (d_idp d) (d_szp d) (d_cm d) (d_skip d) (d_child d) b.

Section document.
Variable cb : callback.

(* webm_parser.cc 34-183; sk says whether callback is the SkipCallback (the original
   callback is the user's). *)
Fixpoint dloop (fuel : nat) (sk : bool) (d : dst) (w : world) {struct fuel}
  : option (Z * dst * world) :=
  match fuel with
  | O => None
  | S f =>
      match d_state d with
      | DBegin => (* 47-52 *)
          let cm := mk_meta (me_id (d_cm d)) 0 (me_size (d_cm d)) (w_pos w) in
          dloop f sk (mk_dst DId (d_idp d) (d_szp d) cm (d_skip d) (d_child d) (d_seek d)) w
      | DId => (* 54-68 *)
          let '(s, k, i, w1) := IdParser_Feed (d_idp d) w in
          let d1 := mk_dst DId i (d_szp d) (cm_add_hsize k (d_cm d)) (d_skip d) (d_child d) (d_seek d) in
          if negb (s =? kOkCompleted) then
            if (s =? kEndOfFile) && (w_pos w1 =? me_pos (d_cm d))
            then dloop f sk (d_set_state DEnd d1) w1
            else Some (s, d1, w1)
          else dloop f sk (d_set_state DSize d1) w1
      | DSize => (* 70-81 *)
          let '(s, k, z, w1) := SizeParser_Feed (d_szp d) w in
          let cm1 := cm_add_hsize k (d_cm d) in
          if negb (s =? kOkCompleted)
          then Some (s, mk_dst DSize (d_idp d) z cm1 (d_skip d) (d_child d) (d_seek d), w1)
          else
            let cm := mk_meta (ip_id (d_idp d)) (me_hsize cm1) (size_value z) (me_pos cm1) in
            dloop f sk (mk_dst DValidate (d_idp d) z cm (d_skip d) (d_child d) (d_seek d)) w1
      | DValidate => (* 83-131 *)
          let id := me_id (d_cm d) in
          if id =? idSegment
          then dloop f sk (d_set_state DAction (d_set_child (CSel NSegment) (d_set_seek false d))) w
          else if id =? idEbml
          then dloop f sk (d_set_state DAction (d_set_child (CSel (NVal VEbml)) (d_set_seek false d))) w
          else match (if d_seek d then ById id else None) with
          | Some anc => (* 98-119; action_ is kRead before line 116 already *)
              let top := hd 0 anc in
              match InitAfterSeek (if top =? idSegment then NSegment else NVal VEbml) (tl anc) (d_cm d) with
              | Some p => dloop f sk (mk_dst DBody (d_idp d) (d_szp d) (unseen top) (d_skip d) (CAct p) false) w
              | None => None
              end
          | None =>
          if id =? idVoid then dloop f sk (d_set_state DAction (d_set_child (CSel NVoid) d)) w
          else if me_size (d_cm d) =? kUnknownElementSize then Some (kIndefiniteUnknownElement, d, w)
          else dloop f sk (d_set_state DAction (d_set_child (CSel NUnknown) d)) w
          end
      | DAction => (* 133-148 *)
          let '(s, skip, w1) := notify cb sk (EElement (d_cm d)) w in
          let d1 := mk_dst DAction (d_idp d) (d_szp d) (d_cm d) skip (d_child d) (d_seek d) in
          if negb (s =? kOkCompleted) then Some (s, d1, w1)
          else if skip
          then dloop f true
                 (d_set_state DInit
                    (if me_size (d_cm d) =? kUnknownElementSize then d1 else d_set_child (CSel NSkip) d1)) w1
          else dloop f sk (d_set_state DInit d1) w1
      | DInit => (* 150-158 *)
          match d_child d with
          | CSel cn =>
              let '(s, p) := parser_Init cn (d_cm d) (me_size (d_cm d)) in
              if negb (s =? kOkCompleted) then Some (s, d, w)
              else dloop f sk (d_set_state DBody (d_set_child (CAct p) d)) w
          | _ => None
          end
      | DBody => (* 160-176 *)
          match d_child d with
          | CAct p =>
              match feed cb f sk p w with
              | None => None
              | Some (s, _, p1, w1) =>
                  if negb (s =? kOkCompleted) then Some (s, d_set_child (CAct p1) d, w1)
                  else
                    let cm := match cached p1 with
                              | Some x => x
                              | None => mk_meta (me_id (d_cm d)) 0 (me_size (d_cm d)) (me_pos (d_cm d))
                              end in
                    let st := match cached p1 with Some _ => DValidate | None => DId end in
                    (* PrepareForNextChild, 243-248; position, 174 *)
                    dloop f false
                      (mk_dst st id_new vi_new (mk_meta (me_id cm) (me_hsize cm) (me_size cm) (w_pos w1))
                              false CNone (d_seek d)) w1
              end
          | _ => None
          end
      | DEnd => Some (kOkCompleted, d, w) (* 178-180 *)
      end
  end.

(* webm_parser.h:106-113: parsing_status_ and the document parser *)
Record wparser := mk_wparser { wp_status : Z; wp_doc : dst }.
(* webm_parser.cc 256; parsing_status_ starts as kOkPartial *)
Definition wp_new : wparser := mk_wparser kOkPartial d_new.
(* webm_parser.cc 263-272 *)
Definition WebmParser_Feed (fuel : nat) (p : wparser) (w : world) : option (Z * wparser * world) :=
  if is_parsing_error (wp_status p) then Some (wp_status p, p, w)
  else
    match dloop fuel (d_skip (wp_doc p)) (wp_doc p) w with
    | None => None
    | Some (s, d, w1) => Some (s, mk_wparser s d, w1)
    end.
End document.
(* webm_parser.cc 23-28, 258-261 *)
Definition WebmParser_DidSeek (p : wparser) : wparser :=
  mk_wparser kOkPartial (mk_dst DBegin id_new vi_new (d_cm (wp_doc p)) false CNone true).
