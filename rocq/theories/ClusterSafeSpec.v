(* What walking an arbitrary, possibly corrupt cluster must guarantee. *)
From Verif Require Import Base ReaderSpec MParUtil MParBlock MParCluster ClusterSpec LacingSpec.

(* A reader over arbitrary bytes whose reads succeed exactly within the available
   bytes and fail with a negative status otherwise (as mkvreader.cc does). *)
Definition intact (r : reader) : Prop :=
  wf_reader r /\ total_ok r /\ r_short r < 0 /\ forall p l, r_err r p l = 0.

(* the clusters a caller can hold: a new one, or what a call of Load or Parse left *)
Inductive reachable (r : reader) : cluster -> Prop :=
| re_new : forall start, 0 <= start -> reachable r (new_cluster start)
| re_load : forall c st c', reachable r c -> Cluster_Load r c = Some (Val (st, c')) -> reachable r c'
| re_parse : forall c st c', reachable r c -> Cluster_Parse r c = Some (Val (st, c')) -> reachable r c'.

(* entries one behind the other in [lo, hi]; the frames of each fill the end of its block *)
Fixpoint entries_within (lo hi : Z) (es : list bentry) : Prop :=
  match es with
  | [] => lo <= hi
  | e :: es' =>
      lo <= en_start e /\
      (exists p, en_start e + 4 <= p /\
         tiles p (en_start e + en_size e) (map (fun f => (bf_pos f, bf_len f)) (bl_frames (en_block e)))) /\
      1 <= bl_track (en_block e) /\
      entries_within (en_start e + en_size e) hi es'
  end.

Definition entries (c : cluster) : list bentry :=
  match cl_entries c with None => [] | Some es => es end.
