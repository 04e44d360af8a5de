(* What a user of webm::Reader (webm_parser/include/webm/reader.h) may rely on: the
   documented contract of Read, Skip and Position, over whole histories of calls.
   Nothing here refers to how a reader works. *)
From Verif Require Import Base WpSpec.

(* ---------- calls and answers ---------- *)
Inductive call :=
| CRead (n : Z)        (* Read(n, buffer, &count) *)
| CSkip (n : Z)        (* Skip(n, &count) *)
| CSeek (p : Z).       (* FileReader::Seek(p) *)

Inductive answer :=
| ARead (status : Z) (bytes : list Z)    (* count is the number of bytes *)
| ASkip (status count : Z)
| ASeek (status : Z).

(* a call the interface allows: a positive number that fits its type *)
Definition allowed (c : call) : Prop :=
  match c with
  | CRead n | CSkip n => 0 < n < 18446744073709551616
  | CSeek p => is_u64 p
  end.
Definition moves (c : call) : bool := match c with CSeek _ => true | _ => false end.

(* ---------- the contract ---------- *)
(* reader.h 47-52 and 68-73: what the status says about k of n bytes *)
Definition status_ok (n k status : Z) : Prop :=
  0 <= k <= n /\
  (k = n -> status = kOkCompleted) /\
  (0 < k < n -> status = kOkPartial) /\
  (k = 0 -> status <> kOkCompleted /\ status <> kOkPartial).

(* A log of calls and their answers is right for a source when every answer has the
   right status, the bytes delivered are those of the source at the reader's position,
   and the position moves by what was delivered.
   beyond: skipping may go beyond the end of the source;
   prompt: an answer without bytes means end of file, at the end of the source. *)
Inductive right (beyond prompt : bool) (src : list Z) : Z -> list (call * answer) -> Z -> Prop :=
| right_none pos : right beyond prompt src pos [] pos
| right_read pos n status bs l pos' :
    status_ok n (zlen bs) status ->
    bs = firstn (length bs) (skipn (Z.to_nat pos) src) ->
    (prompt = true -> bs = [] -> status = kEndOfFile /\ zlen src <= pos) ->
    right beyond prompt src (pos + zlen bs) l pos' ->
    right beyond prompt src pos ((CRead n, ARead status bs) :: l) pos'
| right_skip pos n status k l pos' :
    status_ok n k status ->
    (beyond = false -> 0 < k -> pos + k <= zlen src) ->
    (prompt = true -> k = 0 -> status = kEndOfFile /\ zlen src <= pos) ->
    right beyond prompt src (pos + k) l pos' ->
    right beyond prompt src pos ((CSkip n, ASkip status k) :: l) pos'
| right_seek pos p status l pos' :
    right beyond prompt src (if status =? kOkCompleted then p else pos) l pos' ->
    right beyond prompt src pos ((CSeek p, ASeek status) :: l) pos'.
