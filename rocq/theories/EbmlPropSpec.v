(* Vocabulary for the statements in PropEbml.v. *)
From Verif Require Import Base EbmlSpec MWriter WriterSpec MMuxUtil PMuxUtil.
From Verif Require Import MParUtil ReaderSpec.

(* The sizes WriteVoidElement refuses below 2^31: 0, 1 and the few sizes just
   above the point where the element's size field grows by a byte. *)
Definition void_gap (size : Z) : bool :=
  (size <? 2) ||
  ((128 <=? size) && (size <=? 129)) || ((16384 <=? size) && (size <=? 16386)) ||
  ((2097152 <=? size) && (size <=? 2097155)) || ((268435456 <=? size) && (size <=? 268435460)).

(* n successive successful header reads, each followed by skipping the content *)
Inductive walk (r : reader) (stop : Z) : Z -> nat -> Z -> Prop :=
| walk_0 : forall pos, walk r stop pos 0 pos
| walk_S : forall pos pos1 id size n pos2,
    ParseElementHeader r pos stop = (0, pos1, id, size) ->
    walk r stop (pos1 + size) n pos2 -> walk r stop pos (S n) pos2.

(* The leaf element writers of the public API (mkvmuxerutil.h). *)
Inductive elem_op :=
| OpUInt (id v fixed : Z)              (* WriteEbmlElement(w, id, uint64 [, fixed]) *)
| OpInt (id v : Z)                     (* WriteEbmlElement(w, id, int64) *)
| OpFloat (id u32 : Z)                 (* WriteEbmlElement(w, id, float) *)
| OpString (id : Z) (s : list Z)       (* WriteEbmlElement(w, id, const char* ) *)
| OpBuf (id : Z) (bs : list Z)         (* WriteEbmlElement(w, id, uint8*, size) *)
| OpDate (id v : Z).                   (* WriteEbmlDateElement *)

Definition op_id (op : elem_op) : Z :=
  match op with
  | OpUInt id _ _ | OpInt id _ | OpFloat id _ | OpString id _ | OpBuf id _ | OpDate id _ => id
  end.

Definition op_run (op : elem_op) : W bool :=
  match op with
  | OpUInt id v n => WriteEbmlElementUIntFixed id v n
  | OpInt id v => WriteEbmlElementInt id v
  | OpFloat id u => WriteEbmlElementFloat id u
  | OpString id s => WriteEbmlElementString id s
  | OpBuf id bs => WriteEbmlElementBuf id bs
  | OpDate id v => WriteEbmlDateElement id v
  end.

(* the size the library announces for the element *)
Definition op_size (op : elem_op) : Z :=
  match op with
  | OpUInt id v n => EbmlElementSizeUIntFixed id v n
  | OpInt id v => EbmlElementSizeInt id v
  | OpFloat id u => EbmlElementSizeFloat id
  | OpString id s => EbmlElementSizeString id s
  | OpBuf id bs => EbmlElementSizeBuf id bs
  | OpDate id v => EbmlDateElementSize id
  end.

(* arguments the call accepts *)
Definition op_valid (op : elem_op) : Prop :=
  valid_id (op_id op) /\
  match op with
  | OpUInt _ v n => is_u64 v /\ 0 <= n <= 8 /\ (n = 0 \/ v < 2 ^ (8 * n))
  | OpInt _ v => is_s64 v
  | OpFloat _ u => 0 <= u < 2 ^ 32
  | OpString _ s => bytes s /\ zlen s < 2 ^ 32
  | OpBuf _ bs => bytes bs /\ 1 <= zlen bs < 2 ^ 32
  | OpDate _ v => is_s64 v
  end.

(* the content bytes *)
Definition op_payload (op : elem_op) : list Z :=
  match op with
  | OpUInt _ v n => be_bytes (Z.to_nat (if n =? 0 then GetUIntSize v else n)) v
  | OpInt _ v => be_bytes (Z.to_nat (GetIntSize v)) v
  | OpFloat _ u => be_bytes 4 u
  | OpString _ s => s
  | OpBuf _ bs => bs
  | OpDate _ v => be_bytes 8 v
  end.

(* what the content must be *)
Definition op_payload_ok (op : elem_op) : Prop :=
  let p := op_payload op in
  match op with
  | OpUInt _ v n =>
      uint_payload v p /\ (0 < n -> zlen p = n) /\
      (n = 0 -> forall p', uint_payload v p' -> zlen p <= zlen p')
  | OpInt _ v => sint_payload v p /\ forall p', sint_payload v p' -> zlen p <= zlen p'
  | OpFloat _ u => bytes p /\ zlen p = 4 /\ be_val p = u
  | OpString _ s => p = s
  | OpBuf _ bs => p = bs
  | OpDate _ v => zlen p = 8 /\ sint_payload v p
  end.

(* the bytes of the whole element: ID, shortest size, content *)
Definition op_bytes (op : elem_op) : list Z :=
  id_bytes (op_id op) ++ vint (GetCodedUIntSize (zlen (op_payload op))) (zlen (op_payload op))
  ++ op_payload op.

(* a writer at the end of file f none of whose calls fails *)
Definition fresh_writer (f : list Z) : wstate := mkW f (zlen f) true [].
