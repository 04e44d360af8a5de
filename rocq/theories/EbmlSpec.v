(* Independent specification of the EBML wire format (RFC 8794), used to state
   what the muxer writes and what the parsers accept.  Nothing here is taken
   from the implementation. *)
From Verif Require Import Base.

(* A variable-size integer of width w bytes (1..8): the marker bit 2^(7w)
   followed by 7w value bits, big-endian. *)
Definition vint (w v : Z) : list Z := be_bytes (Z.to_nat w) (2 ^ (7 * w) + v).

(* The value is representable in width w and is not the reserved all-ones
   pattern ("unknown size"). *)
Definition vint_fits (w v : Z) : Prop := 1 <= w <= 8 /\ 0 <= v <= 2 ^ (7 * w) - 2.

(* The shortest width that can hold v. *)
Definition vint_shortest (w v : Z) : Prop :=
  vint_fits w v /\ forall w', vint_fits w' v -> w <= w'.

(* An element ID of width w (1..4) includes its length marker. *)
Definition id_width (w id : Z) : Prop := 1 <= w <= 4 /\ 2 ^ (7 * w) <= id < 2 ^ (7 * w + 1).
Definition valid_id (id : Z) : Prop := exists w, id_width w id.

(* The bytes of an element ID: the number itself, without leading zeros. *)
Definition is_id_bytes (id : Z) (bs : list Z) : Prop :=
  exists w, id_width w id /\ bs = be_bytes (Z.to_nat w) id.

(* bs is one complete element with the given ID and content. *)
Definition is_element (id : Z) (payload bs : list Z) : Prop :=
  exists ib w, is_id_bytes id ib /\ vint_fits w (zlen payload) /\
               bs = ib ++ vint w (zlen payload) ++ payload.

(* bs is a sequence of complete elements with the given IDs and contents. *)
Inductive is_elements : list (Z * list Z) -> list Z -> Prop :=
| els_nil : is_elements [] []
| els_cons : forall id payload b rest bs,
    is_element id payload b -> is_elements rest bs ->
    is_elements ((id, payload) :: rest) (b ++ bs).

(* Integer payloads: big-endian, unsigned or two's complement. *)
Definition uint_payload (v : Z) (bs : list Z) : Prop :=
  bytes bs /\ 1 <= zlen bs <= 8 /\ be_val bs = v.

Definition sint_payload (v : Z) (bs : list Z) : Prop :=
  bytes bs /\ 1 <= zlen bs <= 8 /\ wraps (8 * zlen bs) (be_val bs) = v.
