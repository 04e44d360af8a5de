(* What a reader can tell about a colour description, and what must be left of it
   when it is copied into another file. *)
From Verif Require Import Base MParUtil MParTrack.

(* no value is given *)
Definition pm_blank (m : p_mastering) : bool :=
  match m with
  | mkPM mx mn None None None None => (mx =? 0x7F7FFFFF) && (mn =? 0x7F7FFFFF)
  | _ => false
  end.
(* the same description without a mastering element that says nothing *)
Definition said (c : p_colour) : p_colour :=
  let '(mkPC mc bpc csh csv cbh cbv sih siv rg tc pr cll fall mm) := c in
  mkPC mc bpc csh csv cbh cbv sih siv rg tc pr cll fall
    (match mm with Some m => if pm_blank m then None else Some m | None => None end).
(* What is to be seen of c after copying: everything that is said; no colour
   element at all exactly if nothing is. *)
Definition copy_shows (c : p_colour) (shown : option p_colour) : Prop :=
  match shown with
  | None => said c = pc_init
  | Some c' => c' = said c /\ said c <> pc_init
  end.
