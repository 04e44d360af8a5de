(* Sequences of track additions and what is expected of the numbers (C20). *)
From Verif Require Import Base MMuxMeta MMuxSegment.

(* the tracks after a sequence of additions *)
Fixpoint add_tracks (l : list track) (adds : list (track * Z)) : outcome (list bool * list track) :=
  match adds with
  | [] => Val ([], l)
  | (t, number) :: r =>
      obind (Tracks_AddTrack l false t number) (fun x =>
      obind (add_tracks (snd x) r) (fun y => Val (fst x :: fst y, snd y)))
  end.

(* pairwise different, not zero *)
Definition numbers_ok (l : list track) : Prop :=
  NoDup (map tk_number l) /\ Forall (fun t => 1 <= tk_number t) l.

(* a and b are the same track except for the number *)
Definition same_track (a b : track) : Prop := tk_set_number 0 a = tk_set_number 0 b.
