(* What a muxed file must look like: clusters of blocks inside one Segment. *)
From Coq Require Import Sorted.
From Verif Require Import Base EbmlSpec Ids LacingSpec MMuxBlock BlockSpec MMuxMeta MetaSpec.

(* g carries the frame f: payload, additional data, key flag, track, time and
   discard padding are unchanged.  A duration the caller set is kept; without
   accurate cluster durations it is always kept.  A reference the caller set is
   kept. *)
Definition carries (accurate : bool) (f g : frame) : Prop :=
  fr_data g = fr_data f /\ fr_additional g = fr_additional f /\
  (fr_additional f <> None -> fr_add_id g = fr_add_id f) /\
  fr_is_key g = fr_is_key f /\ fr_track g = fr_track f /\ fr_timestamp g = fr_timestamp f /\
  fr_discard g = fr_discard f /\
  (accurate = false \/ fr_duration_set f = true -> fr_duration g = fr_duration f) /\
  (fr_ref_set f = true -> fr_ref_set g = true /\ fr_ref g = fr_ref f) /\
  (fr_duration_set f = true -> fr_duration_set g = true).

(* frames by time and by track *)
Definition sorted_ts (fs : list frame) : Prop := StronglySorted (fun a b => fr_timestamp a <= fr_timestamp b) fs.
Definition of_track (n : Z) (f : frame) : bool := fr_track f =? n.

(* the list L keeps the frames of A in the same order, except for some that are
   lost, all of which satisfy `lost` *)
Inductive retained (lost : frame -> Prop) : list frame -> list frame -> Prop :=
| ret_nil : retained lost [] []
| ret_keep : forall a l A L, carries false a l -> retained lost A L -> retained lost (a :: A) (l :: L)
| ret_drop : forall a A L, lost a -> retained lost A L -> retained lost (a :: A) L.
