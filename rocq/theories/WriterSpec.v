(* What a client of the writing functions relies on, stated for an arbitrary
   schedule of writer failures. *)
From Verif Require Import Base MWriter.

(* Failing calls return a negative status (MkvWriter returns -1). *)
Definition neg_fail (w : wres) : Prop := match w with WOk => True | WFail st _ => st < 0 end.
Definition is_ok (w : wres) : Prop := w = WOk.

(* A usable writer: position inside the file or at its end, contract-abiding
   failure statuses. *)
Definition good (s : wstate) : Prop :=
  0 <= w_pos s <= zlen (w_file s) /\ Forall neg_fail (w_sched s).
(* None of the future calls fails. *)
Definition no_fail (s : wstate) : Prop := Forall is_ok (w_sched s).

(* s' is s after exactly the bytes bs were stored at the current position. *)
Definition advanced (s : wstate) (bs : list Z) (s' : wstate) : Prop :=
  w_file s' = write_at (w_file s) (w_pos s) bs /\
  w_pos s' = w_pos s + zlen bs /\
  w_seekable s' = w_seekable s /\
  exists used, w_sched s = used ++ w_sched s'.

(* m stores exactly bs and returns a G-result, or the writer failed, only a
   prefix of bs was stored and m returned a B-result. *)
Definition emits {A} (G B : A -> Prop) (m : W A) (bs : list Z) : Prop :=
  forall s, good s ->
  exists r s' p q, m s = Val (r, s') /\ bs = p ++ q /\ advanced s p s' /\
    ((G r /\ q = []) \/ (B r /\ ~ no_fail s)).

Definition st_ok (r : Z) : Prop := r = 0.
Definition st_bad (r : Z) : Prop := r <> 0.
Definition b_ok (r : bool) : Prop := r = true.
Definition b_bad (r : bool) : Prop := r = false.
Definition sz_ok (n : Z) (r : Z) : Prop := r = n.
Definition sz_bad (r : Z) : Prop := r = 0.

Definition emits_st := emits st_ok st_bad.
Definition emits_b := emits b_ok b_bad.
Definition emits_sz (m : W Z) (bs : list Z) := emits (sz_ok (zlen bs)) sz_bad m bs.
