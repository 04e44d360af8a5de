(* How webm_parser puts the objects of dom_types.h together: the lambdas of
   MasterValueParser and the overrides of VideoParser and AudioParser.  The parser
   itself (MWpTree.v) records for an object the children it was given, in order; here
   that record is turned into the object. *)
From Verif Require Import Base WpSpec WpDocSpec DomSpec MWpTree.

(* the structure filled by each class: the template argument of MasterValueParser,
   e.g. video_parser.h:31, with the identifier of its element *)
Definition struct_id (s : vname) : Z :=
  match s with
  | VEbml => 0x1A45DFA3 | VSeek => 0x4DBB | VInfo => 0x1549A966 | VCluster => 0x1F43B675 | VBlockGroup => 0xA0
  | VBlockAdditions => 0x75A1 | VBlockMore => 0xA6 | VSlices => 0x8E | VTimeSlice => 0xE8 | VTrackEntry => 0xAE
  | VVideo => 0xE0 | VColour => 0x55B0 | VMastering => 0x55D0 | VProjection => 0x7670 | VAudio => 0xE1
  | VEncodings => 0x6D80 | VEncoding => 0x6240 | VEncryption => 0x5035 | VAes => 0x47E7 | VCuePoint => 0xBB
  | VCueTrackPositions => 0xB7 | VEdition => 0x45B9 | VDisplay => 0x80 | VTag => 0x7373 | VTargets => 0x63C0
  | VAtom _ => 0xB6 | VSimpleTag _ => 0x67C8
  end.

(* the members declared as std::vector<Element<...>>: dom_types.h:92, 126, 271, 311, 316,
   1369, 1581, 1604, 1609, 1647, 1652, 1671, 1713, 1742, 1765 *)
Definition is_vector (s : vname) (id : Z) : bool :=
  match s with
  | VBlockAdditions => id =? 0xA6
  | VSlices => id =? 0xE8
  | VBlockGroup => id =? 0xFB
  | VCluster => (id =? 0xA3) || (id =? 0xA0)
  | VEncodings => id =? 0x6240
  | VCuePoint => id =? 0xB7
  | VDisplay => (id =? 0x437C) || (id =? 0x437E)
  | VAtom _ => (id =? 0x80) || (id =? 0xB6)
  | VEdition => id =? 0xB6
  | VSimpleTag _ => id =? 0x67C8
  | VTargets => id =? 0x63C5
  | VTag => id =? 0x67C8
  | _ => false
  end.
(* Element<T> member{default}: e.g. dom_types.h:70, 335; Element<T>(): value
   and presence of a value-initialised element: element.h:129-130.  The parsers are made
   with the same defaults: master_value_parser.h:500-519 *)
Definition member_value (n : node) : dom :=
  match n with
  | NUint d | NSint d => DVal (VInt d)
  | NFloat d => DVal (VFloat 0 d)
  | NBool b => DVal (VBool b)
  | NStr l => DVal (VBytes l)
  | NBin => DVal (VBytes [])
  | NBlock _ => DVal (VBlock (mk_blockv 0 0 false 0 0 false false))
  | NVirtual => DVal (VVirtual 0 0)
  | NVal v => DNew (struct_id v)
  | _ => DVal (VInt 0)
  end.
(* the initial members; languages{Element<std::string>{"eng"}}: dom_types.h:1604 *)
Definition member_init (s : vname) (id : Z) (n : node) : slot :=
  if is_vector s id
  then Many (match s with VDisplay => if id =? 0x437C then [(DVal (VBytes s_eng), false)] else [] | _ => [] end)
  else One (member_value n) false.

(* a MasterValueParser's value_ and the flags of its subclasses: master_value_parser.h:395,
   video_parser.h:104-105, audio_parser.h:72 *)
Record obj := mk_obj { o_fields : list (Z * slot); o_width : bool; o_height : bool; o_output : bool }.
(* PreInit, master_value_parser.h:523-528; Init of VideoParser, video_parser.h:65-71, and
   AudioParser, audio_parser.h:40-45 *)
Definition obj_init (s : vname) : obj :=
  mk_obj (map (fun c => (fst c, member_init s (fst c) (snd c))) (val_children s)) false false false.

(* assignment to the member for id: element.h:104-107, master_value_parser.h:175, 222 *)
Definition update (id : Z) (f : slot -> slot) (l : list (Z * slot)) : list (Z * slot) :=
  map (fun p => if fst p =? id then (fst p, f (snd p)) else p) l.
(* the lambdas: master_value_parser.h:174-176 (single), 218-223 and 265-270 (vectors) *)
Definition consume (d : dom) (s : slot) : slot :=
  match s with
  | One _ _ => One d true
  | Many l => Many ((match l with [(_, false)] => [] | _ => l end) ++ [(d, true)])
  end.
(* OnChildParsed: video_parser.h:92-101, audio_parser.h:65-69, called for the children
   with NotifyOnParseComplete, video_parser.h:51-56, audio_parser.h:34-36 *)
Definition OnChildParsed (s : vname) (id size : Z) (o : obj) : obj :=
  match s with
  | VVideo =>
      if id =? 0x54B0 then mk_obj (o_fields o) (size >? 0) (o_height o) (o_output o)
      else if id =? 0x54BA then mk_obj (o_fields o) (o_width o) (size >? 0) (o_output o)
      else o
  | VAudio => if id =? 0x78B5 then mk_obj (o_fields o) (o_width o) (o_height o) (size >? 0) else o
  | _ => o
  end.
(* ChildParser::Feed of a child that was parsed and not skipped: master_value_parser.h:449-456 *)
Definition child_done (s : vname) (o : obj) (k : kid) : obj :=
  let '(id, size, d) := k in
  OnChildParsed s id size (mk_obj (update id (consume d) (o_fields o)) (o_width o) (o_height o) (o_output o)).

(* *mutable_value()->a.mutable_value() = value().b.value(): video_parser.h:109-110 *)
Definition assign (a b : Z) (l : list (Z * slot)) : list (Z * slot) :=
  match assoc b l with
  | Some (One d _) => update a (fun s => match s with One _ p => One d p | m => m end) l
  | _ => l
  end.
(* FixMissingDisplaySize: video_parser.h:107-117; FixMissingOutputFrequency: audio_parser.h:74-79;
   run when the element is complete: video_parser.h:85-87, audio_parser.h:58-60 *)
Definition fix_missing (s : vname) (o : obj) : list (Z * slot) :=
  match s with
  | VVideo =>
      let l := if negb (o_width o) then assign 0x54B0 0xB0 (o_fields o) else o_fields o in
      if negb (o_height o) then assign 0x54BA 0xBA l else l
  | VAudio => if negb (o_output o) then assign 0x78B5 0xB5 (o_fields o) else o_fields o
  | _ => o_fields o
  end.
(* the object of an element whose children were read in this order: value(),
   master_value_parser.h:140 *)
Definition object (s : vname) (kids : list kid) : dom :=
  DObj (struct_id s) (fix_missing s (fold_left (child_done s) kids (obj_init s))).
