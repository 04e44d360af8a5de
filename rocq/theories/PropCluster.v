(* Properties C09, C47: muxed clusters parse back; arbitrary clusters are walked safely. *)
From Verif Require Import Base EbmlSpec LacingSpec MWriter WriterSpec MMuxUtil MMuxBlock Ids BlockSpec PMuxBlock MParUtil ReaderSpec PParUtil MParBlock MParCluster ClusterSpec PParCluster ClusterSafeSpec PClusterSafe PropMuxBlock.

(* ---- C09 ---- *)

(* A cluster that holds, for a list of frames, what the muxer writes for them (C10)
   is iterated as exactly these frames in order, and then ends where it ends. *)
Theorem C09_cluster_roundtrip : forall r start tc scale fs stop,
  total_ok r -> 0 <= tc < 2 ^ 63 -> 1 <= scale -> fs <> [] ->
  Forall (fun f => frame_ok f /\ fr_duration f / scale < 2 ^ 63) fs ->
  holds_cluster r start tc scale fs stop ->
  exists c1 e es c2,
    Cluster_GetFirst r (new_cluster start) = Some (Val (0, Some e, c1)) /\
    next_entries r c1 0 es c2 /\
    Forall2 (entry_carries r tc scale) fs (e :: es) /\
    cl_timecode c2 = tc /\ cl_start c2 + cl_esize c2 = stop /\ cl_entries c2 = Some (e :: es).
Proof. exact cluster_roundtrip. Qed.
Print Assumptions C09_cluster_roundtrip.

(* two frames (a key frame in a SimpleBlock and the frame of C10_ex in a BlockGroup)
   in a cluster of unknown size that is followed by the Cues *)
Definition ex_key : frame := mkFrame [4; 5] None 0 0 false true 1 101000000 0 0 false.
Definition ex_bytes (f : frame) : list Z := frame_bytes f (frame_rel f 100 1000000) 1000000.
Definition ex_tce : list Z := [0xE7; 0x81; 100].
Definition ex_file : list Z :=
  [7; 7] ++ (be_bytes 4 kMkvCluster ++ vint 8 (2 ^ 56 - 1) ++ ex_tce ++ concat [ex_bytes ex_key; ex_bytes ex_frame]) ++
  be_bytes 4 kMkvCues.
Example C09_ex : holds_cluster (file_reader ex_file) 2 100 1000000 [ex_key; ex_frame] 58 /\
  Forall (fun f => frame_ok f /\ fr_duration f / 1000000 < 2 ^ 63) [ex_key; ex_frame].
Proof.
  assert (HK : frame_ok ex_key).
  { unfold frame_ok, ex_key, bytes, is_byte, is_u64, is_s64, zlen, INT_MAX; cbn [fr_data fr_additional fr_add_id fr_duration fr_track fr_timestamp fr_discard fr_ref].
    repeat split; try (repeat constructor; lia); cbn; lia. }
  assert (HF : frame_ok ex_frame) by apply C10_ex.
  split.
  - exists 8, (2 ^ 56 - 1), [100], ex_tce, [ex_bytes ex_key; ex_bytes ex_frame].
    split; [apply (serves_file [7; 7])|]. split; [unfold uint_payload, bytes, is_byte; repeat split; try (repeat constructor; lia); unfold zlen; cbn; lia|].
    split. { exists (be_bytes 1 kMkvTimecode), 1. split; [exists 1; split; [unfold id_width; vm_compute; intuition congruence|reflexivity]|]. split; [unfold vint_fits; vm_compute; intuition congruence|vm_compute; reflexivity]. }
    split; [repeat constructor|].
    + apply (frame_bytes_spec ex_key); [exact HK|vm_compute; intuition congruence|lia].
    + apply (frame_bytes_spec ex_frame); [exact HF|vm_compute; intuition congruence|lia].
    + split; [vm_compute; reflexivity|]. split; [lia|]. right. split; [reflexivity|]. right. right.
      pose proof (serves_file ([7; 7] ++ (be_bytes 4 kMkvCluster ++ vint 8 (2 ^ 56 - 1) ++ ex_tce ++ concat [ex_bytes ex_key; ex_bytes ex_frame])) (be_bytes 4 kMkvCues) []) as H.
      rewrite app_nil_r, <- app_assoc in H. exact H.
  - constructor; [split; [exact HK|vm_compute; reflexivity]|]. constructor; [split; [exact HF|vm_compute; reflexivity]|constructor].
Qed.

(* The claim fails for a duration of 2^63 timecode units and more: the muxer writes
   the frame but the parser refuses the whole cluster. *)
Definition huge_frame : frame := mkFrame [4; 5] None 0 (2 ^ 63) true true 1 100 0 0 false.
Theorem C09_huge_duration_refuted : exists s c,
  frame_ok huge_frame /\ IsValid huge_frame = true /\
  WriteFrame huge_frame 100 1 (mkW [] 0 true []) = Val (zlen (w_file s), s) /\ w_file s <> [] /\
  Cluster_GetFirst (file_reader (be_bytes 4 kMkvCluster ++ vint 8 (3 + zlen (w_file s)) ++ ex_tce ++ w_file s)) (new_cluster 0) =
    Some (Val (E_FILE_FORMAT_INVALID, None, c)).
Proof.
  exists (mkW [160; 146; 161; 134; 129; 0; 0; 0; 4; 5; 155; 136; 128; 0; 0; 0; 0; 0; 0; 0] 20 true []).
  eexists. split; [|split; [vm_compute; reflexivity|split; [vm_compute; reflexivity|split; [discriminate|vm_compute; reflexivity]]]].
  unfold frame_ok, huge_frame, bytes, is_byte, is_u64, is_s64, zlen, INT_MAX; cbn [fr_data fr_additional fr_add_id fr_duration fr_track fr_timestamp fr_discard fr_ref].
  repeat split; try (repeat constructor; lia); cbn; lia.
Qed.
Print Assumptions C09_huge_duration_refuted.

(* ---- C47 ---- *)

(* Whatever the bytes are, parsing the next block of a cluster returns a status:
   0 with exactly one more entry, or another one with the entries unchanged. *)
Theorem C47_parse_returns : forall r c, intact r -> reachable r c ->
  exists st c', Cluster_Parse r c = Some (Val (st, c')) /\ st <= 1 /\
    (st = 0 -> exists e, entries c' = entries c ++ [e]) /\ (st <> 0 -> entries c' = entries c).
Proof. exact parse_safe. Qed.
Print Assumptions C47_parse_returns.

(* The entries lie one behind the other inside the cluster. *)
Theorem C47_entries_inside : forall r c, intact r -> reachable r c ->
  entries_within (cl_start c) (cl_pos c) (entries c) /\
  (cl_esize c = -1 \/ cl_pos c <= cl_start c + cl_esize c).
Proof. exact reachable_entries. Qed.
Print Assumptions C47_entries_inside.

(* There are no more entries than available bytes behind the start of the cluster,
   so a walk over the cluster ends. *)
Theorem C47_walk_ends : forall r c, intact r -> reachable r c ->
  zlen (entries c) <= Z.max 0 (r_avail r - cl_start c + 1).
Proof. exact reachable_count. Qed.
Print Assumptions C47_walk_ends.

(* the cluster of C09_ex after two calls, cut off in the middle of the second block *)
Definition ex_cut : reader := file_reader (firstn 50 ex_file).
Example C47_ex : intact ex_cut /\ exists c1 c2, reachable ex_cut c2 /\ zlen (entries c2) = 1 /\
  Cluster_Parse ex_cut (new_cluster 2) = Some (Val (0, c1)) /\ Cluster_Parse ex_cut c1 = Some (Val (1, c2)).
Proof.
  split.
  - split; [|split; [right; apply Z.le_refl|split; [reflexivity|reflexivity]]].
    unfold wf_reader. split; [vm_compute; repeat constructor; discriminate|].
    split; [split; [apply zlen_nonneg|apply Z.le_refl]|]. split; [unfold LLONG_MAX; vm_compute; discriminate|discriminate].
  - eexists _, _. split; [|split; [|split; [vm_compute; reflexivity|vm_compute; reflexivity]]].
    + eapply re_parse; [eapply re_parse; [apply (re_new ex_cut 2); lia|vm_compute; reflexivity]|vm_compute; reflexivity].
    + reflexivity.
Qed.
