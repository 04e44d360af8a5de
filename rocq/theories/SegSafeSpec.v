(* What loading an arbitrary file must guarantee: the states of a segment a caller
   can reach, and what is true of its clusters. *)
From Coq Require Import Sorted.
From Verif Require Import Base MParUtil MParCluster ClusterSafeSpec MParSegment.

(* a segment after any calls of its functions for parsing and loading *)
Inductive seg_state (r : reader) : pseg -> Prop :=
| ss_created : forall pos s, CreateInstance r pos = Val (0, Some s) -> seg_state r s
| ss_headers : forall s st s', seg_state r s -> ParseHeaders r s = Val (st, s') -> seg_state r s'
| ss_cluster : forall s st s', seg_state r s -> LoadCluster r s = Val (st, s') -> seg_state r s'
| ss_load : forall s st s', seg_state r s -> Segment_Load r s = Val (st, s') -> seg_state r s'
| ss_cues : forall s off st s', seg_state r s -> ParseCues r s off = Val (st, s') -> seg_state r s'.

(* the clusters are in the order of their positions, none occurs twice, and each is
   one that Cluster's own functions handle *)
Definition clusters_sound (r : reader) (s : pseg) : Prop :=
  Forall (fun c => reachable r c /\ pg_start s <= cl_start c < r_avail r) (pg_clusters s) /\
  StronglySorted (fun a b => cl_start a < cl_start b) (pg_clusters s).
