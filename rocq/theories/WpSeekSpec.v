(* What a user of the callback parser is to be told after moving the data source to
   the start of an element somewhere inside a document. *)
From Verif Require Import Base EbmlSpec LacingSpec WpSpec WpDocSpec.

(* levels lead from parent to an element id: each is a possible child of the one before *)
Fixpoint path (parent : Z) (levels : list Z) (id : Z) : Prop :=
  match levels with
  | [] => type_in parent id <> None
  | a :: inside => type_in parent a = Some TMaster /\ path a inside id
  end.
(* ChapterAtom and SimpleTag, which may contain themselves *)
Definition room (a : Z) : nat := if (a =? ChapterAtom) || (a =? SimpleTag) then 25%nat else O.

(* [remains levels pos data parts]: data, from position pos to its end, begins with an
   element of the innermost of the levels (outermost first) and goes on with the
   remaining children of that level, then those of the next level and so on.  Since the
   sizes of the levels are not known, what follows a level shows that it has ended: it
   is not something the level may contain. *)
Inductive remains : list Z -> Z -> list Z -> list (list item) -> Prop :=
| rem_inner : forall a pos bs items, items <> [] ->
    elements (room a) a false pos bs items -> remains [a] pos bs [items]
| rem_outer : forall a inside pos bs1 bs2 items parts,
    remains inside pos bs1 parts ->
    elements (room a) a false (pos + zlen bs1) bs2 items ->
    (forall i, hd_error items = Some i -> me_id (i_meta i) <> Void /\
       forall b, In b inside -> type_in b (me_id (i_meta i)) = None) ->
    remains (a :: inside) pos (bs1 ++ bs2) (items :: parts).

(* the description of an element whose start was not seen *)
Definition not_seen (id : Z) : meta := mk_meta id (2 ^ 32 - 1) (2 ^ 64 - 1) (2 ^ 64 - 1).
(* the notifications at its end *)
Definition closing (id : Z) (values : list (Z * value)) : list event :=
  let m := not_seen id in
  if id =? Segment then [EEnd KSegment m (VRec [])]
  else if id =? Cluster then [EEnd KCluster m (VRec values)]
  else if id =? BlockGroup then [EEnd KBlockGroup m (VRec values)]
  else if id =? Ebml then [EReport KEbml m (VRec values)]
  else if id =? Seek then [EReport KSeek m (VRec values)]
  else if id =? Info then [EReport KInfo m (VRec values)]
  else if id =? TrackEntry then [EReport KTrackEntry m (VRec values)]
  else if id =? CuePoint then [EReport KCuePoint m (VRec values)]
  else if id =? EditionEntry then [EReport KEdition m (VRec values)]
  else if id =? Tag then [EReport KTag m (VRec values)]
  else [].
(* the values collected in the outermost level: what was seen of the level inside it,
   and the children after that *)
Fixpoint seen_values (levels : list Z) (parts : list (list item)) : list (Z * value) :=
  match levels, parts with
  | _ :: inside, items :: parts' =>
      match inside with
      | b :: _ => [(b, VRec (seen_values inside parts'))]
      | [] => []
      end ++ item_values items
  | _, _ => []
  end.
Fixpoint resume_events (levels : list Z) (parts : list (list item)) : list event :=
  match levels, parts with
  | a :: inside, items :: parts' =>
      resume_events inside parts' ++ item_events items ++ closing a (seen_values levels parts)
  | _, _ => []
  end.

(* the element the data begins with *)
Definition begins_with (parts : list (list item)) : option Z :=
  match last parts [] with i :: _ => Some (me_id (i_meta i)) | [] => None end.
(* the callback parser can tell where an element belongs, except for elements that
   contain themselves and for those in and below Colour and Projection of a video track
   (C61_colour_refuted) *)
Definition placed (levels : list Z) (id : Z) : Prop :=
  levels <> [] /\ path 0 levels id /\ NoDup (levels ++ [id]) /\
  forall a, In a (levels ++ [id]) -> a <> 0x55B0 /\ a <> 0x7670.
