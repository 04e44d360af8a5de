(* C60: a file that the muxer finished, given to the callback parser. *)
From Coq Require Import ZifyBool ZifyNat.
From Verif Require Import Base EbmlSpec LacingSpec WpSpec WpDocSpec MWp MWpBlock MWpTree PWpDoc3 PropWp PropWpDoc.
From Verif Require Import MWriter Ids MFloat MMuxBlock BlockSpec MMuxMeta MetaSpec MMuxSegment SegmentSpec MuxFileSpec SegReadSpec
  MParUtil MMuxMove MoveSpec WpMuxSpec PSegLayout PMove2 PWpMux4 PropMux PropMove PropParSegment.

(* Whatever frames are added to a configured segment, with the writer seekable or
   not: if Finalize reports success, the bytes in the file have the layout l of
   MuxFileSpec, whose frames are the accepted ones, and a callback that reads
   everything is told, however the file arrives, exactly the segment's settings
   (as reports, in file order) and exactly those frames; and the parse completes. *)
Theorem C60_muxed_file_told : forall s seekable strict cs w,
  MuxFileSpec.session s seekable cs w -> (sg_accurate s = true -> strict = true) -> (strict = true -> orderly s cs) ->
  exists h s1 b file, muxes s cs w h s1 b file /\
    (b = true -> exists dt d cues entries l,
       doc_type_of dt /\ is_muxed seekable s dt d cues file l /\
       (cues = None <-> sg_output_cues s1 = false) /\
       (sg_accurate s = false -> retained (fun f => held_back s f = true) (accepted h) (lo_frames l)) /\
       (strict = true -> forall n, Forall2 (carries (sg_accurate s)) (filter (of_track n) (given cs)) (filter (of_track n) (lo_frames l))) /\
       (if seekable then map fst entries = seek_ids s (sg_output_cues s1) /\
          (lo_clusters l <> [] -> Forall (fun e => starts_at (lo_body l) (fst e) (snd e)) entries) else entries = []) /\
       (cues_end_well seekable cues (lo_clusters l) ->
        forall sched,
          (exists st w', parse read_all wp_new (source file sched) st w') /\
          forall st w', parse read_all wp_new (source file sched) st w' ->
            st = kOkCompleted /\
            reports (notifications w') = head_reports s dt d entries ++ cue_reports cues /\
            Forall2 (tells (si_timecode_scale (sg_info s))) (lo_frames l) (frames_told (notifications w')))).
Proof.
  intros s seekable strict cs w HS H1 H2.
  destruct (session_run_state s seekable strict cs w HS H1 H2) as (h & s1 & w1 & b & s2 & w2 & E1 & E2 & R1 & R2 & R3 & R4).
  exists h, s1, b, (w_file w2). split; [exists w1, s2, w2; auto|]. intros Hb.
  destruct (R4 Hb) as (dt & d & cues & l & (D & M & Q & _ & K1 & K2) & _ & (P1 & P2 & P3 & P4 & P5 & P6)).
  assert (HEN : exists entries, seek_part l entries /\ (if seekable then map fst entries = seek_ids s (sg_output_cues s1) /\
          (lo_clusters l <> [] -> Forall (fun e => starts_at (lo_body l) (fst e) (snd e)) entries) else entries = [])).
  { destruct seekable.
    - destruct P2 as (es & X1 & X2 & X3 & X4 & X5). exists es. split; [right; split; [assumption|]|split; assumption].
      eapply Forall_impl; [|exact X2]. intros e [He1 He2]. split; [apply valid_small; exact He1|exact He2].
    - exists []. split; [left; split; [exact P2|reflexivity]|reflexivity]. }
  destruct HEN as (entries & HE1 & HE2).
  exists dt, d, cues, entries, l. split; [exact D|]. split; [exact M|].
  split; [destruct cues; [destruct Q as [Q _]; rewrite Q; split; discriminate|rewrite Q; split; reflexivity]|].
  split; [exact K1|]. split; [intros HX; rewrite <- (proj1 (R3 HX)); apply (K2 HX)|]. split; [exact HE2|].
  intros HW sched. destruct (muxed_told seekable s dt d cues entries (w_file w2) l M HE1 HW) as (events & T1 & T2 & T3).
  assert (HB : bytes (w_file w2)).
  { apply (muxed_bytes seekable s dt d cues entries (w_file w2) l M D HE1).
    - destruct HS as [Hr _ _ _ _ _ _]. exact Hr.
    - eapply Forall_impl; [|exact P1]. intros c (_ & HF & _). exact HF.
    - destruct cues as [qs|]; [|exact Logic.I]. destruct P3 as ((V & _) & _). inversion V; subst; assumption. }
  destruct (C59_document_reported (w_file w2) events sched T1 HB P6) as [G1 G2]. split; [exact G1|].
  intros st w' HP. destruct (G2 st w' HP) as [-> ->]. auto.
Qed.
Print Assumptions C60_muxed_file_told.

(* The same for the file that CopyAndMoveCuesBeforeClusters makes of a finished one:
   same settings and frames, the cue points before the frames. *)
Theorem C60_moved_file_told : forall s cs w h s1 w1 s2 w2 fuel w3,
  MuxFileSpec.session s true cs w -> plain_or_orderly s cs ->
  run_calls cs s w = Val ((h, s1), w1) -> Segment_Finalize s1 w1 = Val ((true, s2), w2) ->
  sg_output_cues s1 = true -> sg_clusters s2 <> [] ->
  7 * zlen (sg_cues s2) + 7 < Z.of_nat fuel -> new_file true w3 ->
  exists s3 w4 dt d qs l qs' l' entries,
    CopyAndMoveCuesBeforeClusters fuel (file_reader (w_file w2)) s2 w3 = Val ((true, s3), w4) /\
    doc_type_of dt /\ is_muxed true s dt d (Some qs) (w_file w2) l /\ is_moved s dt d qs' (w_file w4) l' /\
    Forall2 same_but_position qs qs' /\ map fst entries = seek_ids s true /\
    Forall (fun e => starts_at (moved_body l') (fst e) (snd e)) entries /\
    forall sched,
      (exists st w', parse read_all wp_new (source (w_file w4) sched) st w') /\
      forall st w', parse read_all wp_new (source (w_file w4) sched) st w' ->
        st = kOkCompleted /\
        reports (notifications w') = head_reports s dt d entries ++ cue_reports (Some qs') /\
        Forall2 (tells (si_timecode_scale (sg_info s))) (lo_frames l) (frames_told (notifications w')).
Proof.
  intros s cs w h s1 w1 s2 w2 fuel w3 HS HP E1 E2 HO HC HF HW.
  destruct (session_run_state s true (sg_accurate s) cs w HS (fun H => H) HP) as (h' & s1' & w1' & b & s2' & w2' & E1' & E2' & _ & _ & _ & R4).
  rewrite E1 in E1'. injection E1' as <- <- <-. rewrite E2 in E2'. injection E2' as <- <- <-.
  destruct (R4 eq_refl) as (dt & d & cues & l & (D & M & Q & K & _) & F & (P1 & _)). specialize (F eq_refl). rewrite HO in Q.
  destruct cues as [qs|]; [|discriminate Q]. destruct Q as [_ Q]. destruct F as (pre & F & FK). pose proof (fi_cues _ _ _ _ _ F) as EQ. rewrite EQ in HF.
  assert (HQ : Forall (fun q => exists f, locates_cluster (si_timecode_scale (sg_info s)) l q f) qs).
  { eapply Forall_impl; [|exact Q]. cbn beta. intros q Hq. destruct (sg_accurate s); [exact Hq|]. destruct Hq as (f & Hf). exists f. apply locates_weak. exact Hf. }
  destruct (moved_file s dt d s2 (w_file w2) l qs pre fuel w3 F M HC HQ HF HW) as (s3 & w4 & qs' & l' & entries & R1 & R2 & R3 & R5 & R6 & R7 & R8 & R9 & V1 & V2 & V3).
  exists s3, w4, dt, d, qs, l, qs', l', entries. split; [exact R1|]. split; [exact D|]. split; [exact M|]. split; [exact R2|].
  split; [clear - R5; induction R5 as [|q q' a b [H _] R5 IH]; constructor; assumption|]. split; [rewrite R8; exact FK|]. split; [exact R9|].
  intros sched. assert (HSk : seek_part l' entries).
  { right. split; [exact R7|]. destruct V2 as [_ V2]. eapply Forall_impl; [|exact V2]. intros e [[He1 He2] [He3 He4]]. change (2 ^ 63) with 9223372036854775808. change (2 ^ 56) with 72057594037927936 in He4. lia. }
  destruct (moved_told s dt d qs' entries (w_file w4) l' R2 HSk) as (events & T1 & T2 & T3).
  destruct R3 as (_ & _ & _ & _ & _ & EC).
  destruct (moved_bytes s dt d qs' entries (w_file w4) l' R2 D HSk) as [HB HL].
  - destruct HS as [Hr _ _ _ _ _ _]. exact Hr.
  - rewrite EC. eapply Forall_impl; [|exact P1]. intros c (_ & HFr & _). exact HFr.
  - destruct V1 as [V1 _]. inversion V1; subst; assumption.
  - assert (HL2 : zlen (w_file w4) < 2 ^ 62).
    { change (2 ^ 62) with 4611686018427387904. change (2 ^ 56) with 72057594037927936 in V3. change (2 ^ 20) with 1048576 in HL. lia. }
    destruct (C59_document_reported (w_file w4) events sched T1 HB HL2) as [G1 G2]. split; [exact G1|].
    intros st w' HPa. destruct (G2 st w' HPa) as [-> ->]. split; [reflexivity|]. split; [exact T2|]. unfold lo_frames in *. rewrite EC in T3. exact T3.
Qed.
Print Assumptions C60_moved_file_told.

(* ---------- concrete files ---------- *)

Definition tell (seekable : bool) (s : segment) (cs : list call) (sched : list Z) : option (bool * Z * list rkind * list told) :=
  match run_on seekable s cs with
  | Some (b, _, file) =>
      match PropWp.session read_all 100 wp_new (source file sched) with
      | Some (st, w) => Some (b, st, map fst (reports (notifications w)), frames_told (notifications w))
      | None => None
      end
  | None => None
  end.
(* Frames with additional data, a duration and discard padding are told as block
   groups.  The hypotheses are met with either writer. *)
Definition group_calls : list call :=
  [AddF (fr 1 0 true [1; 2]); AddF (mkFrame [9; 9] (Some [5]) 4 20000000 true false 1 3000000 (-6) 0 true); ForceNewCluster; AddF (fr 2 20 true [5; 6; 7]); AddF (fr 1 33 false [4])].
Definition group_told : list told :=
  [mk_told 1 0 [1; 2] (Some true) [];
   mk_told 1 3 [9; 9] None
     [(0xA1, VBlock (mk_blockv 1 3 true 0 1 false false)); (0x75A1, VRec [(0xA6, VRec [(0xEE, VInt 4); (0xA5, VBytes [5])])]);
      (0x75A2, VInt (-6)); (0xFB, VInt 0); (0x9B, VInt 20)];
   mk_told 2 20 [5; 6; 7] (Some true) []; mk_told 1 33 [4] (Some false) []].
Lemma group_session : forall seekable, MuxFileSpec.session seg2 seekable group_calls (w0 seekable).
Proof.
  intros k. constructor; [exact (seg2_ready true)|reflexivity|repeat split; constructor|discriminate| | |split; vm_compute; reflexivity].
  - cbn. repeat constructor; unfold is_byte, is_u64, is_s64; cbn; lia.
  - cbn. repeat constructor.
Qed.
Lemma group_orderly : orderly seg2 group_calls.
Proof.
  split.
  - apply steady_close; [cbn; repeat constructor; cbn; lia|]. intros a b Ha Hb. cbn in Ha, Hb.
    decompose [or] Ha; decompose [or] Hb; subst; try contradiction; vm_compute; congruence.
  - cbn. repeat constructor; try discriminate; intros _; reflexivity.
Qed.
Example C60_case_seekable : MuxFileSpec.session seg2 true group_calls (w0 true) /\ orderly seg2 group_calls /\
  tell true seg2 group_calls choppy =
  Some (true, kOkCompleted, [KEbml; KSeek; KSeek; KSeek; KSeek; KInfo; KTrackEntry; KTrackEntry; KCuePoint; KCuePoint], group_told).
Proof. split; [apply group_session|]. split; [exact group_orderly|vm_compute; reflexivity]. Qed.
Example C60_case_live : MuxFileSpec.session seg2 false group_calls (w0 false) /\ orderly seg2 group_calls /\
  tell false seg2 group_calls choppy =
  Some (true, kOkCompleted, [KEbml; KInfo; KTrackEntry; KTrackEntry; KCuePoint; KCuePoint], group_told).
Proof. split; [apply group_session|]. split; [exact group_orderly|vm_compute; reflexivity]. Qed.

(* the moved file of C18_case, which meets the hypotheses of the second theorem *)
Definition tell_moved (sched : list Z) : option (Z * list rkind * list told) :=
  match copy (snd (fst ex_fin)) (snd ex_fin) (w0 true) with
  | Some (_, _, file) =>
      match PropWp.session read_all 100 wp_new (source file sched) with
      | Some (st, w) => Some (st, map fst (reports (notifications w)), frames_told (notifications w))
      | None => None
      end
  | None => None
  end.
Example C60_case_moved : MuxFileSpec.session seg2 true ex_calls (w0 true) /\ plain_or_orderly seg2 ex_calls /\
  tell_moved choppy =
  Some (kOkCompleted,
        [KEbml; KSeek; KSeek; KSeek; KSeek; KInfo; KTrackEntry; KTrackEntry; KCuePoint; KCuePoint; KCuePoint],
        [mk_told 1 0 [1; 2] (Some true) []; mk_told 2 3 [3] (Some true) []; mk_told 2 20 [5; 6; 7] (Some true) [];
         mk_told 1 33 [4] (Some false) []; mk_told 1 33 [8] (Some true) []]).
Proof. split; [apply ex_session|]. split; [intros _; exact ex_orderly|vm_compute; reflexivity]. Qed.
