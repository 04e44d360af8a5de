(* The objects handed to the user of the callback parser (the structures of
   webm_parser/include/webm/dom_types.h), in terms of the elements of the file. *)
From Verif Require Import Base WpSpec WpDocSpec.

(* What an object shows: a value, an object of which no field has been set, or an
   object with fields named by the identifiers of the elements they come from.  A
   field holds one value or a list of values, each with is_present(). *)
Inductive dom :=
| DVal (v : value)
| DNew (id : Z)
| DObj (id : Z) (fields : list (Z * slot))
with slot :=
| One (d : dom) (present : bool)
| Many (l : list (dom * bool)).
Definition field (id : Z) (d : dom) : option slot :=
  match d with DObj _ l => assoc id l | _ => None end.

(* a child element that was read: identifier, payload size, value *)
Definition kid : Type := (Z * Z * dom)%type.
Definition kid_is (id : Z) (k : kid) : bool := fst (fst k) =? id.

(* the elements that may occur more than once in their parent, RFC 9559: parent, element *)
Definition may_repeat : list (Z * Z) :=
  [(Cluster, SimpleBlock); (Cluster, BlockGroup); (BlockGroup, 0xFB) (* ReferenceBlock *);
   (0x75A1, 0xA6) (* BlockMore *); (0x8E, 0xE8) (* TimeSlice *); (0x6D80, 0x6240) (* ContentEncoding *);
   (CuePoint, 0xB7) (* CueTrackPositions *); (EditionEntry, ChapterAtom); (ChapterAtom, ChapterAtom);
   (ChapterAtom, 0x80) (* ChapterDisplay *); (0x80, 0x437C) (* ChapLanguage *); (0x80, 0x437E) (* ChapCountry *);
   (Tag, SimpleTag); (SimpleTag, SimpleTag); (0x63C0, 0x63C5) (* TagTrackUID *)].
Definition repeats (parent id : Z) : bool :=
  existsb (fun p => (fst p =? parent) && (snd p =? id)) may_repeat.

(* the value of an element that is not in the file *)
Definition default_of (id : Z) (ty : ety) : dom :=
  match ty with
  | TScalar (TUint d) | TScalar (TInt d) => DVal (VInt d)
  | TScalar (TFloat d) => DVal (VFloat 0 d)
  | TScalar TDate | TScalar TId => DVal (VInt 0)
  | TScalar (TBool b) => DVal (VBool b)
  | TScalar (TString s) => DVal (VBytes s)
  | TScalar TBinary => DVal (VBytes [])
  | TBlock _ => DVal (VBlock (mk_blockv 0 0 false 0 0 false false))
  | TVirtual => DVal (VVirtual 0 0)
  | TMaster => DNew id
  end.
(* the languages of a chapter name start with "eng", all other lists are empty *)
Definition initially (parent id : Z) : list (dom * bool) :=
  if (parent =? 0x80) && (id =? 0x437C) then [(DVal (VBytes eng), false)] else [].

(* The last element of that name counts; of those that may repeat, all do. *)
Definition last_of (id : Z) (kids : list kid) : option kid := find (kid_is id) (rev kids).
Definition values_of (id : Z) (kids : list kid) : list (dom * bool) :=
  map (fun k => (snd k, true)) (filter (kid_is id) kids).
Definition plain_field (parent id : Z) (ty : ety) (kids : list kid) : slot :=
  if repeats parent id
  then Many (match values_of id kids with [] => initially parent id | l => l end)
  else match last_of id kids with Some k => One (snd k) true | None => One (default_of id ty) false end.

(* fields that take their value from another one when the file does not give it, or
   gives it with an empty payload: parent, field, the other *)
Definition borrows : list (Z * Z * Z) :=
  [(0xE0, 0x54B0, 0xB0) (* Video: DisplayWidth, PixelWidth *);
   (0xE0, 0x54BA, 0xBA) (* Video: DisplayHeight, PixelHeight *);
   (0xE1, 0x78B5, 0xB5) (* Audio: OutputSamplingFrequency, SamplingFrequency *)].
Definition lender (parent id : Z) : option Z :=
  match find (fun b => (fst (fst b) =? parent) && (snd (fst b) =? id)) borrows with
  | Some b => Some (snd b)
  | None => None
  end.
Definition given_with_content (id : Z) (kids : list kid) : bool :=
  match last_of id kids with Some k => 0 <? snd (fst k) | None => false end.
Definition single (s : slot) : dom := match s with One d _ => d | Many _ => DVal (VInt 0) end.

(* what the field id of the object for the element parent must show *)
Definition shows (parent id : Z) (kids : list kid) (s : slot) : Prop :=
  exists ty, type_in parent id = Some ty /\
    match lender parent id with
    | Some other =>
        if given_with_content id kids then s = plain_field parent id ty kids
        else exists ty', type_in parent other = Some ty' /\
               s = One (single (plain_field parent other ty' kids))
                       (match last_of id kids with Some _ => true | None => false end)
    | None => s = plain_field parent id ty kids
    end.
