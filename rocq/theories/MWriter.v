(* Model of the output side: mkvmuxer::IMkvWriter (mkvmuxer/mkvmuxer.h:37-65)
   and its file implementation MkvWriter (mkvmuxer/mkvwriter.cc:25-94). *)
From Verif Require Import Base.

(* What the next call on the underlying writer does: mkvwriter.cc:25-38, 75-92. *)
Inductive wres : Type :=
| WOk                            (* the call succeeds *)
| WFail (status : Z) (n : nat).  (* the call returns this status after having
                                    stored the first n bytes (short write) *)

(* the file behind a writer: mkvwriter.h:20-47 *)
Record wstate := mkW {
  w_file : list Z;       (* file contents *)
  w_pos : Z;             (* current position *)
  w_seekable : bool;     (* IMkvWriter::Seekable() *)
  w_sched : list wres    (* behaviour of the future calls; [] = all succeed *)
}.

(* File contents after storing bs at offset pos; a gap reads as zero, as after
   fseek beyond the end (mkvwriter.cc:25-38, 75-92). *)
Definition write_at (f : list Z) (pos : Z) (bs : list Z) : list Z :=
  let p := Z.to_nat pos in
  firstn p (f ++ repeat 0 (p - length f)) ++ bs ++ skipn (p + length bs) f.

(* Computations that may write, and may exhibit undefined behaviour; no code of its own
   (cf. mkvmuxer.h:37-65). *)
Definition W (A : Type) : Type := wstate -> outcome (A * wstate).

(* sequencing of calls; no code of its own (cf. mkvmuxer.h:37-65) *)
Definition ret {A} (a : A) : W A := fun s => Val (a, s).
Definition wub {A} : W A := fun _ => UB.
Definition bind {A B} (m : W A) (k : A -> W B) : W B :=
  fun s => match m s with Val (a, s') => k a s' | UB => UB end.

Declare Scope wm_scope.
Notation "x <- m ;; k" := (bind m (fun x => k))
  (at level 61, m at next level, right associativity) : wm_scope.
Open Scope wm_scope.

(* fwrite at the current position: mkvwriter.cc:25-38 *)
Definition store (bs : list Z) (sched : list wres) (s : wstate) : wstate :=
  mkW (write_at (w_file s) (w_pos s) bs) (w_pos s + zlen bs) (w_seekable s) sched.

(* IMkvWriter::Write (mkvwriter.cc:25-38: fwrite of length bytes, 0 on success,
   -1 on a short write).  Other implementations may return other statuses. *)
Definition w_write (bs : list Z) : W Z := fun s =>
  match w_sched s with
  | [] => Val (0, store bs [] s)
  | WOk :: r => Val (0, store bs r s)
  | WFail st n :: r => Val (st, store (firstn n bs) r s)
  end.

(* Write(buffer, static_cast<uint32>(length)): only length mod 2^32 bytes are
   passed on (mkvmuxerutil.cc:110,175,511,528). *)
Definition w_write_u32 (bs : list Z) : W Z :=
  w_write (firstn (Z.to_nat (wrap32 (zlen bs))) bs).

(* IMkvWriter::Position() const (mkvwriter.cc:64-73).  Simplification: never
   fails. *)
Definition w_position : W Z := fun s => Val (w_pos s, s).

(* IMkvWriter::Position(int64) (mkvwriter.cc:75-92): seek; 0 on success. *)
Definition w_seek (pos : Z) : W Z := fun s =>
  match w_sched s with
  | [] => Val (0, mkW (w_file s) pos (w_seekable s) [])
  | WOk :: r => Val (0, mkW (w_file s) pos (w_seekable s) r)
  | WFail st _ :: r => Val (st, mkW (w_file s) (w_pos s) (w_seekable s) r)
  end.

(* IMkvWriter::Seekable() (mkvwriter.cc:94) *)
Definition w_is_seekable : W bool := fun s => Val (w_seekable s, s).
