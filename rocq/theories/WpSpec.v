(* What a user of the callback parser (webm_parser) sees: status codes, element
   descriptions and the notifications delivered to the callback object.  Nothing
   here refers to how the parser works. *)
From Verif Require Import Base.

(* ---------- statuses (webm_parser/include/webm/status.h 36-107) ---------- *)
Definition kOkCompleted : Z := 0.
Definition kOkPartial : Z := -1.
Definition kWouldBlock : Z := -2.
Definition kEndOfFile : Z := -3.
Definition kInvalidElementId : Z := -1025.
Definition kInvalidElementSize : Z := -1026.
Definition kIndefiniteUnknownElement : Z := -1027.
Definition kElementOverflow : Z := -1028.
Definition kNotEnoughMemory : Z := -1029.
Definition kInvalidElementValue : Z := -1030.
Definition kExceededRecursionDepthLimit : Z := -1031.
Definition kSwitchToSkip : Z := -2147483648.

(* malformed data: codes from -2048 to -1025 *)
Definition is_parsing_error (c : Z) : bool := (-2048 <=? c) && (c <=? -1025).

(* ---------- elements (webm_parser/include/webm/element.h 133-200) ---------- *)
Record meta := mk_meta { me_id : Z; me_hsize : Z; me_size : Z; me_pos : Z }.
Definition kUnknownElementSize : Z := 18446744073709551615.

(* block header fields (webm_parser/include/webm/dom_types.h, Block and SimpleBlock) *)
Record blockv := mk_blockv {
  bv_track : Z; bv_time : Z; bv_visible : bool; bv_lacing : Z; bv_frames : Z;
  bv_key : bool; bv_discardable : bool }.

(* element values; a structure is the list of its children read so far, in order *)
Inductive value :=
| VInt (z : Z)
| VBool (b : bool)
| VFloat (size bits : Z)
| VBytes (l : list Z)
| VBlock (b : blockv)
| VVirtual (track time : Z)
| VRec (l : list (Z * value)).

(* ---------- notifications (webm_parser/include/webm/callback.h) ---------- *)
(* elements with a begin and an end *)
Inductive bkind := KSegment | KCluster | KSimpleBlock | KBlockGroup | KBlock.
(* elements reported once, complete *)
Inductive rkind := KEbml | KSeek | KInfo | KTrackEntry | KCuePoint | KEdition | KTag.
(* data handed to the callback for reading *)
Inductive dsrc :=
| DVoid (m : meta)
| DUnknown (m : meta)
| DFrame (parent : meta) (pos size : Z).

Inductive event :=
| EElement (m : meta)                        (* OnElementBegin *)
| EBegin (k : bkind) (m : meta) (v : value)  (* OnSegmentBegin, OnClusterBegin, ... *)
| EEnd (k : bkind) (m : meta) (v : value)    (* OnSegmentEnd, OnClusterEnd, ... *)
| EReport (k : rkind) (m : meta) (v : value) (* OnEbml, OnInfo, ... *)
| EData (d : dsrc) (b : Z)                   (* one byte the callback read in OnFrame, OnVoid, ... *)
| EDataEnd (d : dsrc).                       (* the callback has read all of it *)

(* a notification together with the callback's answer: status code, and whether
   it asked to skip the element *)
Notation answer := (Z * bool)%type (only parsing).
Notation entry := (event * (Z * bool))%type (only parsing).

(* A user's callback decides from everything it has seen so far (most recent
   first) and the current notification. *)
Definition callback := list entry -> event -> answer.

(* callbacks report completion or an error code of their own (positive) *)
Definition proper (cb : callback) : Prop := forall t e, 0 <= fst (cb t e).
(* callbacks that never interrupt the parse *)
Definition patient (cb : callback) : Prop := forall t e, fst (cb t e) = 0.
(* the callback that asks to skip the elements selected by skip, on their
   announcement, and reads everything else *)
Definition skipping (skip : meta -> bool) : callback :=
  fun _ e => (0, match e with EElement m => skip m | _ => false end).
(* the callback that reads everything *)
Definition nothing : meta -> bool := fun _ => false.
Notation read_all := (skipping nothing).
