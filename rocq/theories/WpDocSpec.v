(* What a Matroska/WebM document contains and what a user of the callback parser
   is to be told about it, written down from RFC 8794 and RFC 9559 (with the
   default values of webm_parser/include/webm/dom_types.h) without reference to how
   the parser works. *)
From Verif Require Import Base EbmlSpec LacingSpec WpSpec.

(* ---------- element types ---------- *)
(* the number or list is the value of an element with an empty payload *)
Inductive sty :=
| TUint (dflt : Z) | TInt (dflt : Z) | TFloat (dflt : Z) | TDate | TBool (dflt : bool) | TId
| TString (dflt : list Z) | TBinary.
Inductive ety := TScalar (s : sty) | TBlock (simple : bool) | TVirtual | TMaster.

Definition Void : Z := 0xEC.
Definition Ebml : Z := 0x1A45DFA3.
Definition Segment : Z := 0x18538067.
Definition Cluster : Z := 0x1F43B675.
Definition SimpleBlock : Z := 0xA3.
Definition BlockGroup : Z := 0xA0.
Definition Info : Z := 0x1549A966.
Definition Seek : Z := 0x4DBB.
Definition TrackEntry : Z := 0xAE.
Definition CuePoint : Z := 0xBB.
Definition EditionEntry : Z := 0x45B9.
Definition Tag : Z := 0x7373.
Definition ChapterAtom : Z := 0xB6.
Definition SimpleTag : Z := 0x67C8.
(* "eng", "und" and "matroska" *)
Definition eng : list Z := [101; 110; 103].
Definition und : list Z := [117; 110; 100].
Definition matroska : list Z := [109; 97; 116; 114; 111; 115; 107; 97].

(* the elements of each master element; parent 0 is the document *)
Definition schema : list (Z * list (Z * ety)) :=
  let uint := TScalar (TUint 0) in
  let str := TScalar (TString []) in
  let flt := TScalar (TFloat 0) in
  let bin := TScalar TBinary in
  [(0, [(Ebml, TMaster); (Segment, TMaster)]);
   (Ebml,
    [(0x4286, TScalar (TUint 1))          (* EBMLVersion *);
     (0x42F7, TScalar (TUint 1))          (* EBMLReadVersion *);
     (0x42F2, TScalar (TUint 4))          (* EBMLMaxIDLength *);
     (0x42F3, TScalar (TUint 8))          (* EBMLMaxSizeLength *);
     (0x4282, TScalar (TString matroska)) (* DocType *);
     (0x4287, TScalar (TUint 1))          (* DocTypeVersion *);
     (0x4285, TScalar (TUint 1))          (* DocTypeReadVersion *)]);
   (Segment,
    [(0x114D9B74, TMaster) (* SeekHead *); (Info, TMaster); (0x1654AE6B, TMaster) (* Tracks *);
     (Cluster, TMaster); (0x1C53BB6B, TMaster) (* Cues *); (0x1043A770, TMaster) (* Chapters *);
     (0x1254C367, TMaster) (* Tags *)]);
   (0x114D9B74 (* SeekHead *), [(Seek, TMaster)]);
   (Seek, [(0x53AB, TScalar TId) (* SeekID *); (0x53AC, uint) (* SeekPosition *)]);
   (Info,
    [(0x2AD7B1, TScalar (TUint 1000000)) (* TimestampScale *); (0x4489, flt) (* Duration *);
     (0x4461, TScalar TDate) (* DateUTC *); (0x7BA9, str) (* Title *); (0x4D80, str) (* MuxingApp *);
     (0x5741, str) (* WritingApp *)]);
   (Cluster,
    [(0xE7, uint) (* Timestamp *); (0xAB, uint) (* PrevSize *); (SimpleBlock, TBlock true);
     (BlockGroup, TMaster)]);
   (BlockGroup,
    [(0xA1, TBlock false) (* Block *); (0xA2, TVirtual) (* BlockVirtual *);
     (0x75A1, TMaster) (* BlockAdditions *); (0x9B, uint) (* BlockDuration *);
     (0xFB, TScalar (TInt 0)) (* ReferenceBlock *); (0x75A2, TScalar (TInt 0)) (* DiscardPadding *);
     (0x8E, TMaster) (* Slices *)]);
   (0x75A1 (* BlockAdditions *), [(0xA6, TMaster) (* BlockMore *)]);
   (0xA6 (* BlockMore *),
    [(0xEE, TScalar (TUint 1)) (* BlockAddID *); (0xA5, bin) (* BlockAdditional *)]);
   (0x8E (* Slices *), [(0xE8, TMaster) (* TimeSlice *)]);
   (0xE8 (* TimeSlice *), [(0xCC, uint) (* LaceNumber *)]);
   (0x1654AE6B (* Tracks *), [(TrackEntry, TMaster)]);
   (TrackEntry,
    [(0xD7, uint) (* TrackNumber *); (0x73C5, uint) (* TrackUID *); (0x83, uint) (* TrackType *);
     (0xB9, TScalar (TBool true)) (* FlagEnabled *); (0x88, TScalar (TBool true)) (* FlagDefault *);
     (0x55AA, TScalar (TBool false)) (* FlagForced *); (0x9C, TScalar (TBool true)) (* FlagLacing *);
     (0x23E383, uint) (* DefaultDuration *); (0x536E, str) (* Name *);
     (0x22B59C, TScalar (TString eng)) (* Language *); (0x86, str) (* CodecID *);
     (0x63A2, bin) (* CodecPrivate *); (0x258688, str) (* CodecName *); (0x56AA, uint) (* CodecDelay *);
     (0x56BB, uint) (* SeekPreRoll *); (0xE0, TMaster) (* Video *); (0xE1, TMaster) (* Audio *);
     (0x6D80, TMaster) (* ContentEncodings *)]);
   (0xE0 (* Video *),
    [(0x9A, uint) (* FlagInterlaced *); (0x53B8, uint) (* StereoMode *); (0x53C0, uint) (* AlphaMode *);
     (0xB0, uint) (* PixelWidth *); (0xBA, uint) (* PixelHeight *); (0x54AA, uint) (* PixelCropBottom *);
     (0x54BB, uint) (* PixelCropTop *); (0x54CC, uint) (* PixelCropLeft *);
     (0x54DD, uint) (* PixelCropRight *); (0x54B0, uint) (* DisplayWidth *);
     (0x54BA, uint) (* DisplayHeight *); (0x54B2, uint) (* DisplayUnit *);
     (0x54B3, uint) (* AspectRatioType *); (0x2383E3, flt) (* FrameRate *);
     (0x55B0, TMaster) (* Colour *); (0x7670, TMaster) (* Projection *)]);
   (0x55B0 (* Colour *),
    [(0x55B1, TScalar (TUint 2)) (* MatrixCoefficients *); (0x55B2, uint) (* BitsPerChannel *);
     (0x55B3, uint) (* ChromaSubsamplingHorz *); (0x55B4, uint) (* ChromaSubsamplingVert *);
     (0x55B5, uint) (* CbSubsamplingHorz *); (0x55B6, uint) (* CbSubsamplingVert *);
     (0x55B7, uint) (* ChromaSitingHorz *); (0x55B8, uint) (* ChromaSitingVert *);
     (0x55B9, uint) (* Range *); (0x55BA, TScalar (TUint 2)) (* TransferCharacteristics *);
     (0x55BB, TScalar (TUint 2)) (* Primaries *); (0x55BC, uint) (* MaxCLL *); (0x55BD, uint) (* MaxFALL *);
     (0x55D0, TMaster) (* MasteringMetadata *)]);
   (0x55D0 (* MasteringMetadata: chromaticities, then luminances *),
    [(0x55D1, flt); (0x55D2, flt); (0x55D3, flt); (0x55D4, flt); (0x55D5, flt); (0x55D6, flt);
     (0x55D7, flt); (0x55D8, flt); (0x55D9, flt); (0x55DA, flt)]);
   (0x7670 (* Projection *),
    [(0x7671, uint) (* ProjectionType *); (0x7672, bin) (* ProjectionPrivate *);
     (0x7673, flt) (* yaw *); (0x7674, flt) (* pitch *); (0x7675, flt) (* roll *)]);
   (0xE1 (* Audio *),
    [(0xB5, TScalar (TFloat 8000)) (* SamplingFrequency *);
     (0x78B5, TScalar (TFloat 8000)) (* OutputSamplingFrequency *);
     (0x9F, TScalar (TUint 1)) (* Channels *); (0x6264, uint) (* BitDepth *)]);
   (0x6D80 (* ContentEncodings *), [(0x6240, TMaster) (* ContentEncoding *)]);
   (0x6240 (* ContentEncoding *),
    [(0x5031, uint) (* Order *); (0x5032, TScalar (TUint 1)) (* Scope *); (0x5033, uint) (* Type *);
     (0x5035, TMaster) (* ContentEncryption *)]);
   (0x5035 (* ContentEncryption *),
    [(0x47E1, uint) (* ContentEncAlgo *); (0x47E2, bin) (* ContentEncKeyID *);
     (0x47E7, TMaster) (* ContentEncAESSettings *)]);
   (0x47E7 (* ContentEncAESSettings *), [(0x47E8, TScalar (TUint 1)) (* AESSettingsCipherMode *)]);
   (0x1C53BB6B (* Cues *), [(CuePoint, TMaster)]);
   (CuePoint, [(0xB3, uint) (* CueTime *); (0xB7, TMaster) (* CueTrackPositions *)]);
   (0xB7 (* CueTrackPositions *),
    [(0xF7, uint) (* CueTrack *); (0xF1, uint) (* CueClusterPosition *);
     (0xF0, uint) (* CueRelativePosition *); (0xB2, uint) (* CueDuration *);
     (0x5378, TScalar (TUint 1)) (* CueBlockNumber *)]);
   (0x1043A770 (* Chapters *), [(EditionEntry, TMaster)]);
   (EditionEntry, [(ChapterAtom, TMaster)]);
   (ChapterAtom,
    [(0x73C4, uint) (* ChapterUID *); (0x5654, str) (* ChapterStringUID *);
     (0x91, uint) (* ChapterTimeStart *); (0x92, uint) (* ChapterTimeEnd *);
     (0x80, TMaster) (* ChapterDisplay *); (ChapterAtom, TMaster)]);
   (0x80 (* ChapterDisplay *),
    [(0x85, str) (* ChapString *); (0x437C, TScalar (TString eng)) (* ChapLanguage *);
     (0x437E, str) (* ChapCountry *)]);
   (0x1254C367 (* Tags *), [(Tag, TMaster)]);
   (Tag, [(0x63C0, TMaster) (* Targets *); (SimpleTag, TMaster)]);
   (0x63C0 (* Targets *),
    [(0x68CA, TScalar (TUint 50)) (* TargetTypeValue *); (0x63CA, str) (* TargetType *);
     (0x63C5, uint) (* TagTrackUID *)]);
   (SimpleTag,
    [(0x45A3, str) (* TagName *); (0x447A, TScalar (TString und)) (* TagLanguage *);
     (0x4484, TScalar (TBool true)) (* TagDefault *); (0x4487, str) (* TagString *);
     (0x4485, bin) (* TagBinary *); (SimpleTag, TMaster)])].

Fixpoint assoc {A} (id : Z) (l : list (Z * A)) : option A :=
  match l with [] => None | (i, x) :: l' => if i =? id then Some x else assoc id l' end.
Definition type_in (parent id : Z) : option ety :=
  match assoc parent schema with Some l => assoc id l | None => None end.

(* ChapterAtom and SimpleTag may contain themselves, 25 levels deep: the levels left
   inside the element id found in parent, where d levels are left *)
Definition inner (d : nat) (parent id : Z) : option nat :=
  if (id =? ChapterAtom) || (id =? SimpleTag)
  then if parent =? id then match d with O => None | S d' => Some d' end else Some 25%nat
  else Some O.

(* ---------- values ---------- *)
Inductive scalar : sty -> list Z -> value -> Prop :=
| s_uint0 : forall d, scalar (TUint d) [] (VInt d)
| s_uint : forall d bs, bs <> [] -> zlen bs <= 8 -> scalar (TUint d) bs (VInt (be_val bs))
| s_int0 : forall d, scalar (TInt d) [] (VInt d)
| s_int : forall d bs, bs <> [] -> zlen bs <= 8 -> scalar (TInt d) bs (VInt (wraps (8 * zlen bs) (be_val bs)))
| s_float0 : forall d, scalar (TFloat d) [] (VFloat 0 d)
| s_float : forall d bs, zlen bs = 4 \/ zlen bs = 8 -> scalar (TFloat d) bs (VFloat (zlen bs) (be_val bs))
| s_date0 : scalar TDate [] (VInt 0)
| s_date : forall bs, zlen bs = 8 -> scalar TDate bs (VInt (wraps 64 (be_val bs)))
| s_bool0 : forall d, scalar (TBool d) [] (VBool d)
| s_bool : forall d bs b, bs <> [] -> zlen bs <= 8 -> be_val bs = (if b : bool then 1 else 0) ->
    scalar (TBool d) bs (VBool b)
| s_id : forall bs, 1 <= zlen bs <= 4 -> scalar TId bs (VInt (be_val bs))
| s_string0 : forall d, scalar (TString d) [] (VBytes d)
| s_string : forall d s k, s ++ repeat 0 k <> [] -> last s 1 <> 0 ->   (* zeros at the end are padding *)
    scalar (TString d) (s ++ repeat 0 k) (VBytes s)
| s_binary : forall bs, scalar TBinary bs (VBytes bs).

(* ---------- notifications ---------- *)
(* the bytes of d are handed over one after the other *)
Definition data_events (d : dsrc) (bs : list Z) : list event := map (EData d) bs ++ [EDataEnd d].
(* the frames of the block described by m, the first one at position pos *)
Fixpoint frame_events (m : meta) (pos : Z) (frames : list (list Z)) : list event :=
  match frames with
  | [] => []
  | f :: fs => data_events (DFrame m pos (zlen f)) f ++ frame_events m (pos + zlen f) fs
  end.
Definition block_value (simple : bool) (track time flags : Z) (lac : lacing) (frames : list (list Z)) : blockv :=
  mk_blockv track time (negb (Z.testbit flags 3)) (2 * lacing_bits lac) (zlen frames)
            (simple && Z.testbit flags 7) (simple && Z.testbit flags 0).

(* a child element: its description, the notifications about its content, its value
   (Void, unknown and skipped elements have none) *)
Record item := mk_item { i_meta : meta; i_events : list event; i_value : option value }.
Definition item_values (items : list item) : list (Z * value) :=
  concat (map (fun i => match i_value i with Some v => [(me_id (i_meta i), v)] | None => [] end) items).
Definition item_events (items : list item) : list event :=
  concat (map (fun i => EElement (i_meta i) :: i_events i) items).

(* a block that was not skipped *)
Definition starts (i : item) : bool :=
  match i_value i with
  | Some _ => (me_id (i_meta i) =? SimpleBlock) || (me_id (i_meta i) =? BlockGroup)
  | None => false
  end.
(* in a Cluster, the begin is reported with the first such block, or at the end *)
Fixpoint cluster_events (m : meta) (before : list item) (started : bool) (items : list item) : list event :=
  match items with
  | [] => (if started then [] else [EBegin KCluster m (VRec (item_values before))])
          ++ [EEnd KCluster m (VRec (item_values before))]
  | i :: rest =>
      EElement (i_meta i)
      :: (if starts i && negb started then [EBegin KCluster m (VRec (item_values before))] else [])
      ++ i_events i ++ cluster_events m (before ++ [i]) (started || starts i) rest
  end.

(* the notifications about the content of the master element m *)
Definition master_events (m : meta) (items : list item) : list event :=
  let id := me_id m in
  let values := VRec (item_values items) in
  if id =? Segment then EBegin KSegment m (VRec []) :: item_events items ++ [EEnd KSegment m (VRec [])]
  else if id =? Cluster then cluster_events m [] false items
  else if id =? BlockGroup then EBegin KBlockGroup m (VRec []) :: item_events items ++ [EEnd KBlockGroup m values]
  else if id =? Ebml then item_events items ++ [EReport KEbml m values]
  else if id =? Seek then item_events items ++ [EReport KSeek m values]
  else if id =? Info then item_events items ++ [EReport KInfo m values]
  else if id =? TrackEntry then item_events items ++ [EReport KTrackEntry m values]
  else if id =? CuePoint then item_events items ++ [EReport KCuePoint m values]
  else if id =? EditionEntry then item_events items ++ [EReport KEdition m values]
  else if id =? Tag then item_events items ++ [EReport KTag m values]
  else item_events items.

(* what may follow a Cluster of unknown size: nothing, or an element that is not one
   of a Cluster's and not an empty one at the very end *)
Definition ends_cluster (items : list item) : Prop :=
  match items with
  | [] => True
  | i :: more => type_in Cluster (me_id (i_meta i)) = None /\ me_id (i_meta i) <> Void /\
                 (me_size (i_meta i) <> 0 \/ more <> [])
  end.

(* The user asks to skip the elements selected by skip.
   [element_skip skip d parent closed m payload events value]: payload is the content
   of an element described by m and not skipped, found in parent (of known size if
   closed); the user is told events about it and it has that value.
   [elements_skip skip d parent closed pos bs items]: bs is a sequence of such
   elements and skipped ones, starting at position pos.  Whatever is inside a
   skipped element, it is announced, nothing else is told and it has no value.  (Here
   only elements of known size are skipped.) *)
Section document.
Variable skip : meta -> bool.
Inductive element_skip : nat -> Z -> bool -> meta -> list Z -> list event -> option value -> Prop :=
| e_scalar : forall d parent closed m bs ty v,
    type_in parent (me_id m) = Some (TScalar ty) -> scalar ty bs v -> me_size m = zlen bs ->
    element_skip d parent closed m bs [] (Some v)
| e_void : forall d parent closed m bs,
    me_id m = Void -> me_size m = zlen bs ->
    element_skip d parent closed m bs (data_events (DVoid m) bs) None
| e_unknown : forall d parent m bs,
    type_in parent (me_id m) = None -> me_id m <> Void -> me_size m = zlen bs ->
    element_skip d parent true m bs (data_events (DUnknown m) bs) None
| e_block : forall d parent closed m bs simple track time flags lac frames,
    type_in parent (me_id m) = Some (TBlock simple) -> me_size m = zlen bs ->
    block_content track time flags lac frames bs ->
    (lac = LFixed -> zlen frames = 1) ->     (* see C59_fixed_lacing_position_refuted *)
    element_skip d parent closed m bs
      (EBegin (if simple then KSimpleBlock else KBlock) m (VBlock (block_value simple track time flags lac frames))
       :: frame_events m (me_pos m + me_hsize m + (zlen bs - zlen (concat frames))) frames
       ++ [EEnd (if simple then KSimpleBlock else KBlock) m (VBlock (block_value simple track time flags lac frames))])
      (Some (VBlock (block_value simple track time flags lac frames)))
| e_virtual : forall d parent closed m w track time flags,
    type_in parent (me_id m) = Some TVirtual ->
    1 <= w <= 8 -> 0 <= track < 2 ^ (7 * w) -> -32768 <= time < 32768 -> is_byte flags ->
    me_size m = w + 3 ->
    element_skip d parent closed m (vint w track ++ be_bytes 2 time ++ [flags]) [] (Some (VVirtual track time))
| e_master : forall d d' parent closed m bs items,
    type_in parent (me_id m) = Some TMaster -> inner d parent (me_id m) = Some d' ->
    elements_skip d' (me_id m) (negb (me_size m =? kUnknownElementSize)) (me_pos m + me_hsize m) bs items ->
    element_skip d parent closed m bs (master_events m items) (Some (VRec (item_values items)))
with elements_skip : nat -> Z -> bool -> Z -> list Z -> list item -> Prop :=
| els_none : forall d parent closed pos, elements_skip d parent closed pos [] []
| els_sized : forall d parent closed pos id ib w payload rest events v items,
    is_id_bytes id ib -> vint_fits w (zlen payload) ->
    skip (mk_meta id (zlen ib + w) (zlen payload) pos) = false ->
    element_skip d parent closed (mk_meta id (zlen ib + w) (zlen payload) pos) payload events v ->
    elements_skip d parent closed (pos + zlen ib + w + zlen payload) rest items ->
    elements_skip d parent closed pos (ib ++ vint w (zlen payload) ++ payload ++ rest)
      (mk_item (mk_meta id (zlen ib + w) (zlen payload) pos) events v :: items)
| els_unsized : forall d parent closed pos id ib w payload rest events v items,
    is_id_bytes id ib -> 1 <= w <= 8 -> payload <> [] ->
    (id = Segment /\ items = []) \/ (id = Cluster /\ ends_cluster items) ->
    skip (mk_meta id (zlen ib + w) kUnknownElementSize pos) = false ->
    element_skip d parent closed (mk_meta id (zlen ib + w) kUnknownElementSize pos) payload events v ->
    elements_skip d parent closed (pos + zlen ib + w + zlen payload) rest items ->
    elements_skip d parent closed pos (ib ++ vint w (2 ^ (7 * w) - 1) ++ payload ++ rest)
      (mk_item (mk_meta id (zlen ib + w) kUnknownElementSize pos) events v :: items)
| els_skipped : forall d parent closed pos id ib w payload rest items,
    is_id_bytes id ib -> vint_fits w (zlen payload) ->
    skip (mk_meta id (zlen ib + w) (zlen payload) pos) = true ->
    closed = true \/ type_in parent id <> None \/ id = Void ->
    elements_skip d parent closed (pos + zlen ib + w + zlen payload) rest items ->
    elements_skip d parent closed pos (ib ++ vint w (zlen payload) ++ payload ++ rest)
      (mk_item (mk_meta id (zlen ib + w) (zlen payload) pos) [] None :: items).

(* bs is a document of which the user is told events *)
Definition document_skip (bs : list Z) (events : list event) : Prop :=
  exists items, elements_skip O 0 true 0 bs items /\ events = item_events items.
End document.
Arguments e_scalar {skip}.
Arguments e_void {skip}.
Arguments e_unknown {skip}.
Arguments e_block {skip}.
Arguments e_virtual {skip}.
Arguments e_master {skip}.
Arguments els_none {skip}.
Arguments els_sized {skip}.
Arguments els_unsized {skip}.
Arguments els_skipped {skip}.

(* nothing is skipped *)
Notation element := (element_skip nothing).
Notation elements := (elements_skip nothing).
Notation document := (document_skip nothing).
