(* What it means that a reader serves certain bytes. *)
From Verif Require Import Base MParUtil.

(* Every read inside [pos, pos + length bs) succeeds and returns the
   corresponding part of bs. *)
Definition serves (r : reader) (pos : Z) (bs : list Z) : Prop :=
  0 <= pos /\
  forall o l, 0 <= o -> 0 <= l -> o + l <= zlen bs ->
    r_read r (pos + o) l = inr (zslice bs o l).

(* A well-formed reader: it holds bytes, never claims more than it holds, and
   reports failure by a non-zero status. *)
Definition wf_reader (r : reader) : Prop :=
  bytes (r_data r) /\ 0 <= r_avail r <= zlen (r_data r) /\ zlen (r_data r) <= LLONG_MAX /\
  r_short r <> 0.
