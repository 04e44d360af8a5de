(* What is to be found in which file when the muxer writes its output in chunks. *)
From Verif Require Import Base MWriter MFile.

(* What happens to a Segment that concerns its files, in any order.  The flags tell
   whether fopen succeeds for the files that are to be opened. *)
Inductive event :=
| Inits                                (* Init with a writer of the program's own *)
| SetsChunking (on : bool) (filename : list Z) (cluster_ok header_ok : bool)
| MakesCluster (ok : bool)             (* a new cluster is begun *)
| OnCluster (c : wcall)                (* the writer for clusters is called *)
| OnHeader (c : wcall)                 (* the writer for the headers is called *)
| OnCues (c : wcall)                   (* the writer for the cues is called *)
| HeaderDone (live : bool)             (* the headers have been written *)
| Finalizes (info_ok ok : bool)        (* Finalize in file mode, up to the cues; info_ok: the duration could be written *)
| Finalized.                           (* the end of a successful Finalize *)

(* ---------- names ---------- *)

Definition ext_chk : list Z := [99; 104; 107].         (* chk *)
Definition ext_cues : list Z := [99; 117; 101; 115].   (* cues *)
Definition ext_hdr : list Z := [104; 100; 114].        (* hdr *)
Definition is_digit (d : Z) : Prop := 48 <= d <= 57.
Definition number (ds : list Z) : Z := fold_left (fun a d => 10 * a + (d - 48)) ds 0.
(* base_XXXXXX.ext, the number k in decimal with at least six digits *)
Definition numbered (base ext : list Z) (k : Z) (n : list Z) : Prop :=
  exists ds, n = base ++ [95] ++ ds ++ [46] ++ ext /\ Forall is_digit ds /\ number ds = k /\
    (length ds = 6%nat \/ (6 < length ds)%nat /\ hd 0 ds <> 48).

(* ---------- contents ---------- *)

(* a file and the position in it after calls of its writer *)
Definition play_one (f : list Z * Z) (c : wcall) : list Z * Z :=
  match c with
  | WCWrite bs => if zlen bs =? 0 then f else (write_at (fst f) (snd f) bs, snd f + zlen bs)
  | WCSeek p => if p <? 0 then f else (fst f, p)
  end.
Definition play (cs : list wcall) : list Z := fst (fold_left play_one cs ([], 0)).

(* the calls for the k-th cluster, from 0, when n clusters have been begun; what
   comes before the first cluster counts as part of it *)
Fixpoint for_cluster (n k : nat) (evs : list event) : list wcall :=
  match evs with
  | [] => []
  | MakesCluster _ :: evs => for_cluster (S n) k evs
  | OnCluster c :: evs => if Nat.eqb (Nat.pred n) k then c :: for_cluster n k evs else for_cluster n k evs
  | _ :: evs => for_cluster n k evs
  end.
Fixpoint clusters (evs : list event) : nat :=
  match evs with
  | [] => O
  | MakesCluster _ :: evs => S (clusters evs)
  | _ :: evs => clusters evs
  end.
(* in live mode nothing is to be written once the headers are done *)
Fixpoint for_header (evs : list event) : list wcall :=
  match evs with
  | [] => []
  | OnHeader c :: evs => c :: for_header evs
  | HeaderDone true :: _ => []
  | _ :: evs => for_header evs
  end.
Fixpoint for_cues (evs : list event) : list wcall :=
  match evs with
  | [] => []
  | OnCues c :: evs => c :: for_cues evs
  | _ :: evs => for_cues evs
  end.

(* muxing in which every file can be opened *)
Definition muxing (e : event) : Prop :=
  match e with MakesCluster ok => ok = true | OnCluster _ | OnHeader _ | HeaderDone _ => True | _ => False end.
(* what Finalize writes when the last cluster has been closed *)
Definition closing (e : event) : Prop := match e with OnHeader _ | OnCues _ => True | _ => False end.
