(* C18: the file with the cues moved in front of the clusters. *)
From Coq Require Import ZifyBool ZifyNat Sorted.
From Verif Require Import Base EbmlSpec MWriter WriterSpec MMuxUtil Ids LacingSpec MMuxBlock BlockSpec MFloat MMuxMeta MetaSpec
  MMuxSegment SegmentSpec MuxFileSpec MParUtil MMuxMove MoveSpec PSegLayout PMove2 PropMux.

(* C18: Let a session on a seekable writer be finished with cues and at least one
   cluster.  Then CopyAndMoveCuesBeforeClusters, reading the finished file and
   writing to a new file, succeeds: its recursion ends (a depth of 7 n + 8 is
   enough for n cue points), and the new file has the same metadata and clusters,
   in the order front, cues, clusters.  Every cue point gives the position of the
   cluster in the new file that has its block, and every seek entry gives the
   position in the new file of the element with its ID. *)
Theorem C18_moved_cues_right : forall s cs w h s1 w1 s2 w2 fuel w3,
  session s true cs w -> plain_or_orderly s cs ->
  run_calls cs s w = Val ((h, s1), w1) -> Segment_Finalize s1 w1 = Val ((true, s2), w2) ->
  sg_output_cues s1 = true -> sg_clusters s2 <> [] ->
  7 * zlen (sg_cues s2) + 7 < Z.of_nat fuel -> new_file true w3 ->
  exists s3 w4 dt d qs l qs' l' entries,
    CopyAndMoveCuesBeforeClusters fuel (file_reader (w_file w2)) s2 w3 = Val ((true, s3), w4) /\
    doc_type_of dt /\ is_muxed true s dt d (Some qs) (w_file w2) l /\ is_moved s dt d qs' (w_file w4) l' /\ same_but_cues l l' /\
    Forall2 same_but_position qs qs' /\
    Forall (fun q => exists f, if sg_accurate s then locates_cluster_moved (si_timecode_scale (sg_info s)) l' q f
                               else locates_moved (si_timecode_scale (sg_info s)) l' q f) qs' /\
    is_seek_head l' entries /\ map fst entries = seek_ids s true /\
    Forall (fun e => starts_at (moved_body l') (fst e) (snd e)) entries.
Proof.
  intros s cs w h s1 w1 s2 w2 fuel w3 HS HP E1 E2 HO HC HF HW.
  destruct (session_run_state s true (sg_accurate s) cs w HS (fun H => H) HP) as (h' & s1' & w1' & b & s2' & w2' & E1' & E2' & _ & _ & _ & R4).
  rewrite E1 in E1'. injection E1' as <- <- <-. rewrite E2 in E2'. injection E2' as <- <- <-.
  destruct (R4 eq_refl) as (dt & d & cues & l & (D & M & Q & K & _) & F & _). specialize (F eq_refl). rewrite HO in Q.
  destruct cues as [qs|]; [|discriminate Q]. destruct Q as [_ Q]. destruct F as (pre & F & FK). pose proof (fi_cues _ _ _ _ _ F) as EQ. rewrite EQ in HF.
  assert (HQ : Forall (fun q => exists f, locates_cluster (si_timecode_scale (sg_info s)) l q f) qs).
  { eapply Forall_impl; [|exact Q]. cbn beta. intros q Hq. destruct (sg_accurate s); [exact Hq|]. destruct Hq as (f & Hf). exists f. apply locates_weak. exact Hf. }
  destruct (moved_file s dt d s2 (w_file w2) l qs pre fuel w3 F M HC HQ HF HW) as (s3 & w4 & qs' & l' & entries & R1 & R2 & R3 & R5 & R6 & R7 & R8 & R9 & _).
  exists s3, w4, dt, d, qs, l, qs', l', entries. split; [exact R1|]. split; [exact D|]. split; [exact M|]. split; [exact R2|]. split; [exact R3|].
  split; [clear - R5; induction R5 as [|q q' a b [H _] R5 IH]; constructor; assumption|].
  split.
  { clear - R5 R3 R6 Q. induction R5 as [|q q' qs qs' [H1 H2] H IH]; [constructor|]. inversion Q as [|? ? Q1 Q2]; subst. constructor; [|exact (IH Q2)].
    destruct (sg_accurate s); destruct Q1 as (f & Q1); exists f; apply (locates_goes _ l l' q q' f R3 R6 H1 H2); exact Q1. }
  split; [exact R7|]. split; [|exact R9].
  rewrite R8. exact FK.
Qed.
Print Assumptions C18_moved_cues_right.

(* ---------- concrete copies ---------- *)

(* finishing a session and copying the file with the given writer: whether the
   segment has clusters, the finished file, and the answer and the new file *)
Definition finish (s : segment) (cs : list call) : option (bool * segment * segment * list Z) :=
  match run_calls cs s (w0 true) with
  | Val ((_, s1), w1) => match Segment_Finalize s1 w1 with Val ((b, s2), w2) => Some (b, s1, s2, w_file w2) | UB => None end
  | UB => None
  end.
Definition copy (s2 : segment) (file : list Z) (w : wstate) : option (bool * segment * list Z) :=
  match CopyAndMoveCuesBeforeClusters 100 (file_reader file) s2 w with
  | Val ((b, s3), w4) => Some (b, s3, w_file w4)
  | UB => None
  end.

(* three clusters and three cue points; moving the cues makes a position need
   another byte, so that the cues grow by one byte and all positions by 50 *)
Definition ex_fin : segment * segment * list Z :=
  match finish seg2 ex_calls with Some (_, s1, s2, file) => (s1, s2, file) | None => (seg2, seg2, []) end.
Example C18_case : finish seg2 ex_calls = Some (true, fst (fst ex_fin), snd (fst ex_fin), snd ex_fin) /\ plain_or_orderly seg2 ex_calls /\
  sg_output_cues (fst (fst ex_fin)) = true /\ length (sg_clusters (snd (fst ex_fin))) = 3%nat /\ new_file true (w0 true) /\
  7 * zlen (sg_cues (snd (fst ex_fin))) + 7 < Z.of_nat 100.
Proof.
  split; [vm_compute; reflexivity|]. split; [intros _; exact ex_orderly|]. split; [vm_compute; reflexivity|]. split; [vm_compute; reflexivity|].
  split; [|vm_compute; reflexivity]. split; [reflexivity|]. split; [reflexivity|]. split; [constructor|reflexivity].
Qed.
Example C18_case_run :
  match copy (snd (fst ex_fin)) (snd ex_fin) (w0 true) with
  | Some (b, s3, file) => (b, zlen file, map cue_cluster_pos (sg_cues (snd (fst ex_fin))), map cue_cluster_pos (sg_cues s3))
  | None => (false, 0, [], [])
  end = (true, 383, [202; 225; 263], [252; 275; 313]).
Proof. vm_compute. reflexivity. Qed.

Lemma finish_runs : forall s cs b s1 s2 file, finish s cs = Some (b, s1, s2, file) ->
  exists h w1 w2, run_calls cs s (w0 true) = Val ((h, s1), w1) /\ Segment_Finalize s1 w1 = Val ((b, s2), w2) /\ file = w_file w2.
Proof.
  intros s cs b s1 s2 file H. unfold finish in H. destruct (run_calls cs s (w0 true)) as [[[h s1'] w1]|] eqn:E1; [|discriminate H].
  destruct (Segment_Finalize s1' w1) as [[[b' s2'] w2]|] eqn:E2; [|discriminate H]. injection H as <- <- <- <-. exists h, w1, w2. auto.
Qed.
Lemma copy_runs : forall s2 file w b s3 file', copy s2 file w = Some (b, s3, file') ->
  exists w4, CopyAndMoveCuesBeforeClusters 100 (file_reader file) s2 w = Val ((b, s3), w4) /\ file' = w_file w4.
Proof.
  intros s2 file w b s3 file' H. unfold copy in H. destruct (CopyAndMoveCuesBeforeClusters 100 (file_reader file) s2 w) as [[[b' s3'] w4]|]; [|discriminate H]. injection H as <- <- <-. exists w4. auto.
Qed.
Ltac session_of := constructor; [exact (seg2_ready true)|reflexivity|split; [reflexivity|split; [reflexivity|split; [constructor|reflexivity]]]|discriminate| | |split; vm_compute; reflexivity];
  [cbn; repeat constructor; unfold is_byte, is_u64, is_s64; cbn; lia|cbn; repeat constructor].

(* ---------- what does not hold ---------- *)

(* C18 needs the output of cues: without it there is no seek entry for the cues,
   and the entry of the Info element, the first one, is taken for it.  The copy
   is reported to be successful; the finished file has a Seek element with the ID
   of Info, the copy has none. *)
Definition no_cues_calls : list call := SetOutputCues false :: ex_calls.
Definition info_seek : list Z := [0x53; 0xAB; 0x84; 0x15; 0x49; 0xA9; 0x66].
Theorem C18_without_cues_refuted : exists s cs h s1 w1 s2 w2 s3 w4,
  session s true cs (w0 true) /\ orderly s cs /\ run_calls cs s (w0 true) = Val ((h, s1), w1) /\ Segment_Finalize s1 w1 = Val ((true, s2), w2) /\
  sg_clusters s2 <> [] /\ CopyAndMoveCuesBeforeClusters 100 (file_reader (w_file w2)) s2 (w0 true) = Val ((true, s3), w4) /\
  occurs info_seek (w_file w2) = true /\ occurs info_seek (w_file w4) = false.
Proof.
  destruct (finish seg2 no_cues_calls) as [[[[b s1] s2] file]|] eqn:E; [|vm_compute in E; discriminate E].
  assert (X : (b, length (sg_clusters s2), occurs info_seek file, match copy s2 file (w0 true) with Some (b', _, file') => (b', occurs info_seek file') | None => (false, true) end)
    = (true, 3%nat, true, (true, false))) by (vm_compute in E; injection E as <- <- <- <-; vm_compute; reflexivity).
  destruct (copy s2 file (w0 true)) as [[[b' s3] file']|] eqn:E'; [|discriminate X]. injection X as -> X1 X2 -> X3.
  destruct (finish_runs _ _ _ _ _ _ E) as (h & w1 & w2 & F1 & F2 & F3). destruct (copy_runs _ _ _ _ _ _ E') as (w4 & G1 & G2). subst file file'.
  exists seg2, no_cues_calls, h, s1, w1, s2, w2, s3, w4. split; [session_of|]. split; [exact ex_orderly|]. split; [exact F1|]. split; [exact F2|].
  split; [intros HX; rewrite HX in X1; discriminate X1|]. auto.
Qed.
Print Assumptions C18_without_cues_refuted.

(* C18 needs a cluster: a finished segment without one has undefined behaviour. *)
Definition no_cluster_calls : list call := [AddF (fr 3 0 true [1])].
Theorem C18_without_cluster_refuted : exists s cs h s1 w1 s2 w2,
  session s true cs (w0 true) /\ run_calls cs s (w0 true) = Val ((h, s1), w1) /\ Segment_Finalize s1 w1 = Val ((true, s2), w2) /\
  sg_output_cues s1 = true /\ CopyAndMoveCuesBeforeClusters 100 (file_reader (w_file w2)) s2 (w0 true) = UB.
Proof.
  destruct (finish seg2 no_cluster_calls) as [[[[b s1] s2] file]|] eqn:E; [|vm_compute in E; discriminate E].
  assert (X : (b, sg_output_cues s1, sg_clusters s2) = (true, true, [])) by (vm_compute in E; injection E as <- <- <- <-; vm_compute; reflexivity). injection X as -> X1 X2.
  destruct (finish_runs _ _ _ _ _ _ E) as (h & w1 & w2 & F1 & F2 & F3). exists seg2, no_cluster_calls, h, s1, w1, s2, w2.
  split; [session_of|]. split; [exact F1|]. split; [exact F2|]. split; [exact X1|].
  unfold CopyAndMoveCuesBeforeClusters. rewrite X2. reflexivity.
Qed.
Print Assumptions C18_without_cluster_refuted.

(* C18 needs a writer that does not fail: when the write of the front fails, the
   copy is still reported to be successful; the new file does not even begin with
   the first byte of the finished file. *)
Theorem C18_failing_write_refuted : exists s cs h s1 w1 s2 w2 w3 s3 w4,
  session s true cs (w0 true) /\ orderly s cs /\ run_calls cs s (w0 true) = Val ((h, s1), w1) /\ Segment_Finalize s1 w1 = Val ((true, s2), w2) /\
  sg_output_cues s1 = true /\ sg_clusters s2 <> [] /\ w_file w3 = [] /\ w_pos w3 = 0 /\ w_seekable w3 = true /\ w_sched w3 = [WFail (-1) 0] /\
  CopyAndMoveCuesBeforeClusters 100 (file_reader (w_file w2)) s2 w3 = Val ((true, s3), w4) /\
  hd 0 (w_file w4) <> hd 0 (w_file w2).
Proof.
  set (w3 := mkW [] 0 true [WFail (-1) 0]).
  destruct (finish seg2 ex_calls) as [[[[b s1] s2] file]|] eqn:E; [|vm_compute in E; discriminate E].
  assert (X : (b, sg_output_cues s1, length (sg_clusters s2), hd 0 file, match copy s2 file w3 with Some (b', _, file') => (b', hd 0 file') | None => (false, 0) end)
    = (true, true, 3%nat, 0x1A, (true, 0x1C))) by (vm_compute in E; injection E as <- <- <- <-; vm_compute; reflexivity).
  destruct (copy s2 file w3) as [[[b' s3] file']|] eqn:E'; [|discriminate X]. injection X as -> X1 X2 X3 -> X4.
  destruct (finish_runs _ _ _ _ _ _ E) as (h & w1 & w2 & F1 & F2 & F3). destruct (copy_runs _ _ _ _ _ _ E') as (w4 & G1 & G2). subst file file'.
  exists seg2, ex_calls, h, s1, w1, s2, w2, w3, s3, w4. split; [session_of|]. split; [exact ex_orderly|]. split; [exact F1|]. split; [exact F2|]. split; [exact X1|].
  split; [intros HX; rewrite HX in X2; discriminate X2|]. do 4 (split; [reflexivity|]). split; [exact G1|]. rewrite X3, X4. discriminate.
Qed.
Print Assumptions C18_failing_write_refuted.
