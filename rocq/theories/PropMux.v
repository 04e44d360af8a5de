(* C12-C17, C19: the files the segment muxer produces. *)
From Coq Require Import ZifyBool ZifyNat Sorted.
From Verif Require Import Base EbmlSpec MWriter WriterSpec MMuxUtil Ids LacingSpec MMuxBlock BlockSpec MFloat MMuxMeta MetaSpec
  MMuxSegment SegmentSpec MuxFileSpec PSegAcc PSegLayout.

(* The input is orderly, or the segment does not use accurate cluster durations. *)
Definition plain_or_orderly (s : segment) (cs : list call) : Prop := sg_accurate s = true -> orderly s cs.

Lemma session_any : forall s seekable cs w, session s seekable cs w -> plain_or_orderly s cs ->
  exists h s1 b file, muxes s cs w h s1 b file /\ map fst h = given cs /\
    ForallOrdPairs (fun a b => held_back s a = true \/ fr_timestamp a <= fr_timestamp b) (accepted h) /\
    (b = true -> good_outcome s seekable (sg_accurate s) (sg_output_cues s1) (accepted h) file).
Proof.
  intros s k cs w HS HP. destruct (session_run s k (sg_accurate s) cs w HS (fun H => H) HP) as (h & s1 & b & file & H1 & H2 & H3 & _ & H4).
  exists h, s1, b, file. auto.
Qed.

(* C12: adding frames and finalizing never has undefined behaviour, and a file
   that Finalize reports finished consists of well-formed clusters whose blocks
   have a relative timecode between 0 and 32767 that, added to the cluster's
   timecode, gives the frame's time (is_block in is_cluster in is_muxed). *)
Theorem C12_block_timecodes_fit : forall s seekable cs w, session s seekable cs w -> plain_or_orderly s cs ->
  exists h s1 b file, muxes s cs w h s1 b file /\
    (b = true -> exists dt d cues l, doc_type_of dt /\ is_muxed seekable s dt d cues file l).
Proof.
  intros s k cs w HS HP. destruct (session_any s k cs w HS HP) as (h & s1 & b & file & H1 & H2 & H3 & H4).
  exists h, s1, b, file. split; [exact H1|]. intros Hb. destruct (H4 Hb) as (dt & d & cues & l & D & M & _). exists dt, d, cues, l. auto.
Qed.
Print Assumptions C12_block_timecodes_fit.

(* what C12 says about a block, spelled out *)
Theorem C12_every_block : forall s seekable cs w, session s seekable cs w -> plain_or_orderly s cs ->
  exists h s1 b file, muxes s cs w h s1 b file /\
    (b = true -> exists ls : list (Z * list (frame * Z * list Z)),
       Forall (fun c => Forall (fun x => let '(f, rel, bytes) := x in
          0 <= rel <= 32767 /\ fst c + rel = fr_timestamp f / si_timecode_scale (sg_info s) /\
          (is_simple_block f rel bytes \/ is_block_group f rel (si_timecode_scale (sg_info s)) bytes)) (snd c)) ls /\
       exists before after : list Z, exists heads : list (list Z), length heads = length ls /\
         file = before ++ concat (map (fun p => fst p ++ concat (map (fun x => snd x) (snd (snd p)))) (combine heads ls)) ++ after).
Proof.
  intros s k cs w HS HP. destruct (C12_block_timecodes_fit s k cs w HS HP) as (h & s1 & b & file & H1 & H2).
  exists h, s1, b, file. split; [exact H1|]. intros Hb. destruct (H2 Hb) as (dt & d & cues & l & _ & seg & EF & _ & HSeg & _ & _ & _ & _ & HC & _).
  assert (HCl : exists heads ls, length heads = length ls /\
     concat (map mc_bytes (lo_clusters l)) = concat (map (fun p => fst p ++ concat (map (fun x => snd x) (snd (snd p)))) (combine heads ls)) /\
     Forall (fun c : Z * list (frame * Z * list Z) => Forall (fun x => let '(f, rel, bytes) := x in
          0 <= rel <= 32767 /\ fst c + rel = fr_timestamp f / si_timecode_scale (sg_info s) /\
          (is_simple_block f rel bytes \/ is_block_group f rel (si_timecode_scale (sg_info s)) bytes)) (snd c)) ls).
  { clear EF HSeg. induction HC as [|c cl Hc HC IH]; [exists [], []; repeat split; constructor|].
    destruct IH as (heads & ls & HL & HE & HF). destruct Hc as (tcp & t & blocks & _ & _ & HB & HEl).
    assert (Hbl : exists bl : list (frame * Z * list Z), concat blocks = concat (map (fun x => snd x) bl) /\
      Forall (fun x => let '(f, rel, bytes) := x in 0 <= rel <= 32767 /\ mc_tc c + rel = fr_timestamp f / si_timecode_scale (sg_info s) /\
          (is_simple_block f rel bytes \/ is_block_group f rel (si_timecode_scale (sg_info s)) bytes)) bl).
    { clear HEl. induction HB as [|f bs fs bls Hbk HB IHb]; [exists []; split; constructor|].
      destruct IHb as (bl & E & F). destruct Hbk as (rel & R1 & R2 & R3). exists ((f, rel, bs) :: bl). split; [cbn [map concat snd]; rewrite E; reflexivity|].
      constructor; [|exact F]. split; [exact R1|]. split; [exact R2|]. destruct R3 as [(R3 & _)|R3]; [left; exact R3|right; exact R3]. }
    destruct Hbl as (bl & E & F).
    assert (Hh : exists hd, mc_bytes c = hd ++ concat blocks).
    { unfold is_sized_element in HEl. destruct k.
      - destruct HEl as (ib & wd & _ & _ & ->). exists (ib ++ vint wd (zlen (t ++ concat blocks)) ++ t). rewrite <- !app_assoc. reflexivity.
      - destruct HEl as (ib & _ & ->). exists (ib ++ [1; 255; 255; 255; 255; 255; 255; 255] ++ t). rewrite <- !app_assoc. reflexivity. }
    destruct Hh as (hd & Ehd). exists (hd :: heads), ((mc_tc c, bl) :: ls). split; [cbn [length]; congruence|].
    split; [cbn [map concat combine fst snd]; rewrite Ehd, E, HE; reflexivity|]. constructor; [exact F|exact HF]. }
  destruct HCl as (heads & ls & HL & HE & HF). exists ls. split; [exact HF|].
  assert (Hs : exists hd, seg = hd ++ lo_body l).
  { unfold is_sized_element in HSeg. destruct k.
    - destruct HSeg as (ib & wd & _ & _ & ->). exists (ib ++ vint wd (zlen (lo_body l))). rewrite <- !app_assoc. reflexivity.
    - destruct HSeg as (ib & _ & ->). exists (ib ++ [1; 255; 255; 255; 255; 255; 255; 255]). rewrite <- !app_assoc. reflexivity. }
  destruct Hs as (hd & ->). exists (lo_ebml l ++ hd ++ lo_front l), (lo_cues l), heads. split; [exact HL|]. rewrite EF. unfold lo_body. rewrite HE, <- !app_assoc. reflexivity.
Qed.
Print Assumptions C12_every_block.

(* C16: on a seekable writer the Segment and every Cluster are complete elements:
   their size fields count exactly the bytes of their content. *)
Theorem C16_sizes_match : forall s cs w, session s true cs w -> plain_or_orderly s cs ->
  exists h s1 b file, muxes s cs w h s1 b file /\
    (b = true -> exists l seg, file = lo_ebml l ++ seg /\ is_element kMkvSegment (lo_body l) seg /\
       Forall (fun c => exists payload, is_element kMkvCluster payload (mc_bytes c)) (lo_clusters l) /\
       Forall (is_cluster true (si_timecode_scale (sg_info s))) (lo_clusters l)).
Proof.
  intros s cs w HS HP. destruct (C12_block_timecodes_fit s true cs w HS HP) as (h & s1 & b & file & H1 & H2).
  exists h, s1, b, file. split; [exact H1|]. intros Hb. destruct (H2 Hb) as (dt & d & cues & l & _ & seg & EF & _ & HSeg & _ & _ & _ & _ & HC & _).
  exists l, seg. split; [exact EF|]. split; [exact HSeg|]. split; [|exact HC]. eapply Forall_impl; [|exact HC].
  intros c (tcp & t & bl & _ & _ & _ & HE). exists (t ++ concat bl). exact HE.
Qed.
Print Assumptions C16_sizes_match.

(* C13, order in the file: if the frames given are in order of time, so are the
   frames in the file. *)
Lemma retained_sorted : forall P A L, retained P A L -> sorted_ts A -> sorted_ts L /\ (forall b, Forall (fun a => b <= fr_timestamp a) A -> Forall (fun a => b <= fr_timestamp a) L).
Proof.
  intros P A L H. induction H as [|a l A L Hc H IH|a A L Hl H IH]; intros HS.
  - split; [constructor|auto].
  - inversion HS as [|? ? HS1 HS2]; subst. destruct (IH HS1) as [I1 I2]. assert (ET : fr_timestamp l = fr_timestamp a) by apply Hc. split.
    + constructor; [exact I1|]. apply I2 in HS2. eapply Forall_impl; [|exact HS2]. intros x Hx. rewrite ET. exact Hx.
    + intros b HF. inversion HF; subst. constructor; [rewrite ET; assumption|auto].
  - inversion HS as [|? ? HS1 HS2]; subst. destruct (IH HS1) as [I1 I2]. split; [exact I1|]. intros b HF. inversion HF; subst. auto.
Qed.
Lemma accepted_sorted : forall h, sorted_ts (map fst h) -> sorted_ts (accepted h).
Proof.
  induction h as [|[f b] h IH]; intros HS; [constructor|]. cbn [map fst] in HS. inversion HS as [|? ? HS1 HS2]; subst. unfold accepted in *. cbn [filter snd].
  destruct b; [|exact (IH HS1)]. cbn [map fst]. constructor; [exact (IH HS1)|]. rewrite Forall_forall in *. intros x Hx. apply HS2. apply in_map_iff in Hx as (y & <- & Hy).
  apply filter_In in Hy as [Hy _]. apply in_map. exact Hy.
Qed.
Theorem C13_file_in_order : forall s seekable cs w, session s seekable cs w -> plain_or_orderly s cs -> sorted_ts (given cs) ->
  exists h s1 b file, muxes s cs w h s1 b file /\
    (b = true -> exists dt d cues l, is_muxed seekable s dt d cues file l /\ sorted_ts (lo_frames l)).
Proof.
  intros s k cs w HS HP HO. destruct (session_any s k cs w HS HP) as (h & s1 & b & file & H1 & H2 & H3 & H4).
  exists h, s1, b, file. split; [exact H1|]. intros Hb. destruct (H4 Hb) as (dt & d & cues & l & _ & M & _ & _ & R & ST). exists dt, d, cues, l. split; [exact M|].
  destruct (sg_accurate s) eqn:Ea; [apply ST; reflexivity|]. eapply retained_sorted; [apply R; reflexivity|]. apply accepted_sorted. rewrite H2. exact HO.
Qed.
Print Assumptions C13_file_in_order.

(* C13, clusters: with orderly input the timecodes of the clusters never decrease, and
   no cluster is empty. *)
Theorem C13_clusters_in_order : forall s seekable cs w, session s seekable cs w -> orderly s cs ->
  exists h s1 b file, muxes s cs w h s1 b file /\
    (b = true -> exists dt d cues l, is_muxed seekable s dt d cues file l /\ StronglySorted Z.le (map mc_tc (lo_clusters l)) /\
       Forall (fun c => mc_frames c <> []) (lo_clusters l)).
Proof.
  intros s k cs w HS HO. destruct (session_run_state s k true cs w HS ltac:(auto) ltac:(auto)) as (h & s1 & w1 & b & s2 & w2 & E1 & E2 & _ & _ & _ & R4).
  exists h, s1, b, (w_file w2). split; [exists w1, s2, w2; auto|]. intros Hb. destruct (R4 Hb) as (dt & d & cues & l & (_ & M & _ & _ & _ & K2) & _).
  exists dt, d, cues, l. split; [exact M|]. destruct (K2 eq_refl) as (_ & _ & _ & _ & Y). exact Y.
Qed.
Print Assumptions C13_clusters_in_order.

(* C13, late frames are refused: an accepted frame is never earlier than a frame
   accepted before it, unless that one was held back. *)
Theorem C13_late_frames_refused : forall s seekable cs w, session s seekable cs w -> plain_or_orderly s cs ->
  exists h s1 b file, muxes s cs w h s1 b file /\ map fst h = given cs /\
    ForallOrdPairs (fun f g => held_back s f = true \/ fr_timestamp f <= fr_timestamp g) (accepted h).
Proof.
  intros s k cs w HS HP. destruct (session_any s k cs w HS HP) as (h & s1 & b & file & H1 & H2 & H3 & H4). exists h, s1, b, file. auto.
Qed.
Print Assumptions C13_late_frames_refused.

(* C14: with orderly input, the frames of each track in the file are exactly the
   accepted ones, in order, each once; without accurate cluster durations the
   order is kept across tracks too. *)
Theorem C14_no_frame_lost : forall s seekable cs w, session s seekable cs w -> orderly s cs ->
  exists h s1 b file, muxes s cs w h s1 b file /\
    (b = true -> exists dt d cues l, is_muxed seekable s dt d cues file l /\
       (forall n, Forall2 (carries (sg_accurate s)) (filter (of_track n) (accepted h)) (filter (of_track n) (lo_frames l))) /\
       (sg_accurate s = false -> Forall2 (carries false) (accepted h) (lo_frames l))).
Proof.
  intros s k cs w HS HO. destruct (session_run s k true cs w HS (fun _ => eq_refl) (fun _ => HO)) as (h & s1 & b & file & H1 & H2 & H3 & H4 & H5).
  exists h, s1, b, file. split; [exact H1|]. intros Hb. destruct (H5 Hb) as (dt & d & cues & l & _ & M & _ & _ & _ & ST).
  destruct (ST eq_refl) as (_ & S2 & S3 & _). exists dt, d, cues, l. auto.
Qed.
Print Assumptions C14_no_frame_lost.

(* C14 for every history: frames are never duplicated, altered or reordered, and
   only held-back frames can be missing. *)
Theorem C14_only_held_back_frames_lost : forall s seekable cs w, session s seekable cs w -> sg_accurate s = false ->
  exists h s1 b file, muxes s cs w h s1 b file /\
    (b = true -> exists dt d cues l, is_muxed seekable s dt d cues file l /\
       retained (fun f => held_back s f = true) (accepted h) (lo_frames l)).
Proof.
  intros s k cs w HS HA. assert (HP : plain_or_orderly s cs) by (intros H; congruence).
  destruct (session_any s k cs w HS HP) as (h & s1 & b & file & H1 & H2 & H3 & H4).
  exists h, s1, b, file. split; [exact H1|]. intros Hb. destruct (H4 Hb) as (dt & d & cues & l & _ & M & _ & _ & R & ST). exists dt, d, cues, l. auto.
Qed.
Print Assumptions C14_only_held_back_frames_lost.

(* C15: orderly frames are all accepted, and Finalize succeeds if some frame was
   not held back (there is a cluster) and the seek head has room for the cues. *)
Theorem C15_orderly_frames_accepted : forall s seekable cs w, session s seekable cs w -> orderly s cs ->
  exists h s1 b file, muxes s cs w h s1 b file /\ h = map (fun f => (f, true)) (given cs) /\
    (existsb (fun f => negb (held_back s f)) (given cs) = true ->
     sg_output_cues s1 = false \/ sg_chapters s = [] \/ sg_tags s = [] -> b = true).
Proof.
  intros s k cs w HS HO. destruct (session_run s k true cs w HS (fun _ => eq_refl) (fun _ => HO)) as (h & s1 & b & file & H1 & H2 & H3 & H4 & H5).
  destruct (H4 eq_refl) as [HA HB]. exists h, s1, b, file. split; [exact H1|]. split; [|exact HB]. clear - H2 HA.
  assert (HL : length (accepted h) = length h). { rewrite HA, <- H2. apply map_length. }
  rewrite <- H2. clear H2 HA. unfold accepted in HL. rewrite map_length in HL.
  assert (Hle : forall l : list (frame * bool), (length (filter snd l) <= length l)%nat) by (induction l as [|x l IH]; cbn [filter]; [lia|destruct (snd x); cbn [length]; lia]).
  induction h as [|[f c] h IH]; [reflexivity|]. cbn [map fst]. destruct c; cbn [filter snd length] in HL; [|specialize (Hle h); lia]. f_equal. apply IH. lia.
Qed.
Print Assumptions C15_orderly_frames_accepted.

(* C17: every cue point gives the position of a cluster that has, as the block
   with that number, a block of that track and that time. *)
Theorem C17_cues_locate_blocks : forall s seekable cs w, session s seekable cs w -> sg_accurate s = false ->
  exists h s1 b file, muxes s cs w h s1 b file /\
    (b = true -> exists dt d cues l, is_muxed seekable s dt d cues file l /\
       match cues with
       | None => sg_output_cues s1 = false
       | Some qs => sg_output_cues s1 = true /\ Forall (fun q => exists f, locates (si_timecode_scale (sg_info s)) l q f) qs
       end).
Proof.
  intros s k cs w HS HA. assert (HP : plain_or_orderly s cs) by (intros H; congruence).
  destruct (session_any s k cs w HS HP) as (h & s1 & b & file & H1 & H2 & H3 & H4).
  exists h, s1, b, file. split; [exact H1|]. intros Hb. destruct (H4 Hb) as (dt & d & cues & l & _ & M & Q & _). rewrite HA in Q. exists dt, d, cues, l. auto.
Qed.
Print Assumptions C17_cues_locate_blocks.

(* With accurate cluster durations the block number is that of an earlier state of
   the queue and can be wrong, but the cluster, the track and the time are right. *)
Theorem C17_cues_locate_clusters_accurate : forall s seekable cs w, session s seekable cs w -> sg_accurate s = true -> orderly s cs ->
  exists h s1 b file, muxes s cs w h s1 b file /\
    (b = true -> exists dt d cues l, is_muxed seekable s dt d cues file l /\
       match cues with
       | None => sg_output_cues s1 = false
       | Some qs => sg_output_cues s1 = true /\ Forall (fun q => exists f, locates_cluster (si_timecode_scale (sg_info s)) l q f) qs
       end).
Proof.
  intros s k cs w HS HA HO. destruct (session_any s k cs w HS (fun _ => HO)) as (h & s1 & b & file & H1 & H2 & H3 & H4).
  exists h, s1, b, file. split; [exact H1|]. intros Hb. destruct (H4 Hb) as (dt & d & cues & l & _ & M & Q & _). rewrite HA in Q. exists dt, d, cues, l. auto.
Qed.
Print Assumptions C17_cues_locate_clusters_accurate.

(* C19: the finished seek head and the Void element after it take exactly the 110
   reserved bytes, every top-level element is listed once, and every entry gives
   the position of the element with that ID. *)
Theorem C19_seek_head_right : forall s cs w, session s true cs w -> plain_or_orderly s cs ->
  exists h s1 b file, muxes s cs w h s1 b file /\
    (b = true -> exists dt d cues l entries, is_muxed true s dt d cues file l /\ is_seek_head l entries /\
       map fst entries = seek_ids s (sg_output_cues s1) /\
       (lo_clusters l <> [] -> Forall (fun e => starts_at (lo_body l) (fst e) (snd e)) entries)).
Proof.
  intros s cs w HS HP. destruct (session_any s true cs w HS HP) as (h & s1 & b & file & H1 & H2 & H3 & H4).
  exists h, s1, b, file. split; [exact H1|]. intros Hb. destruct (H4 Hb) as (dt & d & cues & l & _ & M & _ & K & _).
  destruct (K eq_refl) as (entries & K1 & K2 & K3). exists dt, d, cues, l, entries. auto.
Qed.
Print Assumptions C19_seek_head_right.

(* ---------- concrete sessions ---------- *)

Definition vid : track := mkTrack (KVideo (mkVideo 0 0 0 0 0 0 0 0 (f64_of_Z 0) 480 0 0 640 None None None))
    (Some [86; 95; 86; 80; 56]) None None None 0 1 1 7 0 0 0 [].
Definition aud : track := mkTrack (KAudio (mkAudio 0 2 (f64_of_Z 48000))) (Some [65; 95; 79; 80; 85; 83]) None None None 0 2 2 8 0 0 0 [].
Definition seg2 : segment := sg_set_has_video true (sg_set_tracks [vid; aud] (new_segment [109])).
Definition fr (tr ms : Z) (key : bool) (data : list Z) : frame := mkFrame data None 0 0 false key tr (ms * 1000000) 0 0 false.
Definition w0 (seekable : bool) : wstate := mkW [] 0 seekable [].
Definition run (s : segment) (cs : list call) : option (list (frame * bool) * bool * list Z) :=
  match run_calls cs s (w0 true) with
  | Val ((h, s1), w1) => match Segment_Finalize s1 w1 with Val ((b, s2), w2) => Some (h, b, w_file w2) | UB => None end
  | UB => None
  end.
Lemma run_muxes : forall s cs h b file, run s cs = Some (h, b, file) -> exists s1, muxes s cs (w0 true) h s1 b file.
Proof.
  intros s cs h b file H. unfold run in H. destruct (run_calls cs s (w0 true)) as [[[h' s1] w1]|] eqn:E1; [|discriminate].
  destruct (Segment_Finalize s1 w1) as [[[b' s2] w2]|] eqn:E2; [|discriminate]. injection H as <- <- <-. exists s1, w1, s2, w2. auto.
Qed.

Ltac vids := first [exists 1; split; [lia|vm_compute; split; congruence] | exists 2; split; [lia|vm_compute; split; congruence]
                   | exists 3; split; [lia|vm_compute; split; congruence] | exists 4; split; [lia|vm_compute; split; congruence]].
Ltac leafs := unfold leaf_ok, is_u64, is_s64, bytes, is_byte; repeat match goal with |- Forall _ _ => constructor | |- _ /\ _ => split end; try exact I; try (cbn; lia); try (vm_compute; congruence).
Lemma seg2_ready : forall out, ready (sg_set_output_cues out seg2).
Proof.
  intros out. constructor; try reflexivity.
  - split; [discriminate|]. split; [repeat constructor; cbn; lia|]. split; [repeat constructor; cbn; intuition lia|]. split; [reflexivity|].
    cbn. repeat (split; [first [vids|leafs]|]); repeat split; first [vids|leafs].
  - split; [cbn; lia|]. split; [reflexivity|]. cbn. repeat split; first [vids|leafs].
  - split; [reflexivity|]. cbn. repeat split; vids.
  - split; [reflexivity|]. cbn. repeat split; vids.
Qed.

Definition ex_calls : list call :=
  [AddF (fr 1 0 true [1; 2]); AddF (fr 2 3 true [3]); ForceNewCluster; AddF (fr 2 20 true [5; 6; 7]); AddF (fr 1 33 false [4]); AddF (fr 1 33 true [8])].
Lemma ex_session : forall seekable, session seg2 seekable ex_calls (w0 seekable).
Proof.
  intros k. constructor.
  - exact (seg2_ready true).
  - reflexivity.
  - repeat split. constructor.
  - discriminate.
  - cbn. repeat constructor; unfold is_byte, is_u64, is_s64; cbn; lia.
  - cbn. repeat constructor.
  - split; vm_compute; reflexivity.
Qed.
Lemma steady_close : forall s fs, sorted_ts fs ->
  (forall a b, In a fs -> In b fs -> fr_timestamp b / si_timecode_scale (sg_info s) - fr_timestamp a / si_timecode_scale (sg_info s) <= 32767) -> steady s fs.
Proof.
  intros s fs HS HG. split; [exact HS|]. split.
  - intros before a f after E. apply HG; rewrite E; apply in_or_app; right; [left|right; left]; reflexivity.
  - intros a hd f after E _. apply HG; rewrite E; apply in_or_app; [left; left|right; left]; reflexivity.
Qed.
Lemma ex_orderly : orderly seg2 ex_calls.
Proof.
  split.
  - apply steady_close; [cbn; repeat constructor; cbn; lia|]. intros a b Ha Hb. cbn in Ha, Hb.
    decompose [or] Ha; decompose [or] Hb; subst; try contradiction; vm_compute; congruence.
  - cbn. repeat constructor; try discriminate; intros _; reflexivity.
Qed.
(* all accepted, a file of 382 bytes is finished *)
Example ex_run : match run seg2 ex_calls with Some (h, b, file) => (map snd h, b, zlen file) | None => ([], false, 0) end
  = ([true; true; true; true; true], true, 382).
Proof. vm_compute. reflexivity. Qed.

(* ---------- what does not hold ---------- *)

(* C15 needs the bound on the gaps: a valid frame in order, for a registered
   track, is refused because a held-back frame before it determines the timecode
   of the new cluster. *)
Definition gap_calls : list call := [AddF (fr 1 0 true [1; 2]); AddF (fr 2 1 true [3]); AddF (fr 1 60000 true [4])].
Theorem C15_without_gap_bound_refuted : exists s cs h s1 file,
  session s true cs (w0 true) /\ sorted_ts (given cs) /\ Forall (fun f => IsValid f = true) (given cs) /\ Forall (can_write s) (given cs) /\
  muxes s cs (w0 true) h s1 true file /\ map snd h = [true; true; false].
Proof.
  destruct (run seg2 gap_calls) as [[[h b] file]|] eqn:E; [|vm_compute in E; discriminate].
  assert (Hb : b = true) by (vm_compute in E; injection E as _ <- _; reflexivity). assert (Hh : map snd h = [true; true; false]) by (vm_compute in E; injection E as <- _ _; reflexivity).
  destruct (run_muxes _ _ _ _ _ E) as (s1 & HM). subst b. exists seg2, gap_calls, h, s1, file. split.
  { constructor; [exact (seg2_ready true)|reflexivity|repeat split; constructor|discriminate| | |split; vm_compute; reflexivity].
    - cbn. repeat constructor; unfold is_byte, is_u64, is_s64; cbn; lia.
    - cbn. repeat constructor. }
  split; [cbn; repeat constructor; cbn; lia|]. split; [cbn; repeat constructor|]. split; [cbn; repeat constructor; try discriminate; intros _; reflexivity|]. auto.
Qed.
Print Assumptions C15_without_gap_bound_refuted.

(* C15 needs frames with data: after one refused empty frame, valid frames in
   order are refused too and Finalize fails. *)
Definition empty_calls : list call := [AddF (fr 1 0 true [1; 2]); AddF (fr 1 31000 true []); AddF (fr 1 31000 true [3]); AddF (fr 1 31001 true [4])].
Theorem C15_after_empty_frame_refuted : exists s cs h s1 file,
  session s true cs (w0 true) /\ steady s (given cs) /\ muxes s cs (w0 true) h s1 false file /\
  map snd h = [true; false; false; false] /\ map (fun x => IsValid (fst x)) h = [true; false; true; true].
Proof.
  destruct (run seg2 empty_calls) as [[[h b] file]|] eqn:E; [|vm_compute in E; discriminate].
  assert (Hb : b = false) by (vm_compute in E; injection E as _ <- _; reflexivity).
  assert (Hh : map snd h = [true; false; false; false] /\ map (fun x => IsValid (fst x)) h = [true; false; true; true]) by (vm_compute in E; injection E as <- _ _; split; reflexivity).
  destruct (run_muxes _ _ _ _ _ E) as (s1 & HM). subst b. exists seg2, empty_calls, h, s1, file. split.
  { constructor; [exact (seg2_ready true)|reflexivity|repeat split; constructor|discriminate| | |split; vm_compute; reflexivity].
    - cbn. repeat constructor; unfold is_byte, is_u64, is_s64; cbn; lia.
    - cbn. repeat constructor; intros HH; first [reflexivity|vm_compute in HH; discriminate HH]. }
  split; [|split; [exact HM|exact Hh]]. apply steady_close; [cbn; repeat constructor; cbn; lia|]. intros a c Ha Hc. cbn in Ha, Hc.
  decompose [or] Ha; decompose [or] Hc; subst; try contradiction; vm_compute; congruence.
Qed.
Print Assumptions C15_after_empty_frame_refuted.

(* C14 needs the bound on the gaps: an accepted frame is missing from the file
   although Finalize succeeds.  Its data appears nowhere in the file. *)
Fixpoint starts (p l : list Z) : bool :=
  match p, l with [], _ => true | x :: p', y :: l' => (x =? y) && starts p' l' | _, _ => false end.
Fixpoint occurs (p l : list Z) : bool := starts p l || match l with [] => false | _ :: l' => occurs p l' end.
Lemma starts_app : forall p l, starts p (p ++ l) = true.
Proof. induction p as [|x p IH]; intros l; cbn [starts app]; [reflexivity|]. rewrite Z.eqb_refl, IH. reflexivity. Qed.
Lemma occurs_mid : forall p a b, occurs p (a ++ p ++ b) = true.
Proof.
  intros p a b. induction a as [|x a IH]; cbn [app].
  - destruct (p ++ b) eqn:E; cbn [occurs]; rewrite <- E, starts_app; reflexivity.
  - cbn [occurs]. rewrite IH, orb_true_r. reflexivity.
Qed.
Definition lost_calls : list call := [AddF (fr 2 0 true [77; 78]); AddF (fr 2 40000 true [79; 80; 81]); AddF (fr 1 40000 true [4; 5])].
Theorem C14_without_gap_bound_refuted : exists s cs h s1 file f,
  session s true cs (w0 true) /\ sorted_ts (given cs) /\ Forall (fun f => IsValid f = true) (given cs) /\
  muxes s cs (w0 true) h s1 true file /\ In f (accepted h) /\ ~ exists a b, file = a ++ fr_data f ++ b.
Proof.
  destruct (run seg2 lost_calls) as [[[h b] file]|] eqn:E; [|vm_compute in E; discriminate].
  assert (Hb : b = true) by (vm_compute in E; injection E as _ <- _; reflexivity).
  assert (Hh : In (fr 2 40000 true [79; 80; 81]) (accepted h)) by (vm_compute in E; injection E as <- _ _; right; left; reflexivity).
  assert (Ho : occurs [79; 80; 81] file = false) by (vm_compute in E; injection E as _ _ <-; vm_compute; reflexivity).
  destruct (run_muxes _ _ _ _ _ E) as (s1 & HM). subst b. exists seg2, lost_calls, h, s1, file, (fr 2 40000 true [79; 80; 81]). split.
  { constructor; [exact (seg2_ready true)|reflexivity|repeat split; constructor|discriminate| | |split; vm_compute; reflexivity].
    - cbn. repeat constructor; unfold is_byte, is_u64, is_s64; cbn; lia.
    - cbn. repeat constructor. }
  split; [cbn; repeat constructor; cbn; lia|]. split; [cbn; repeat constructor|]. split; [exact HM|]. split; [exact Hh|].
  intros (a & c & EF). rewrite EF in Ho. change (fr_data (fr 2 40000 true [79; 80; 81])) with [79; 80; 81] in Ho. rewrite occurs_mid in Ho. discriminate.
Qed.
Print Assumptions C14_without_gap_bound_refuted.

(* C19: with a chapter, a tag and cues there are six elements to list and five
   slots, so Finalize fails although every frame was accepted. *)
Definition seg3 : segment :=
  mkSeg [vid; aud] false (mkSI (f64_of_Z (-1)) (Some [109]) 1000000 (Some [109]) INT64_MIN (-1)) new_seek_head
        [mkChapter (Some [99]) 0 5 1 []] [[mkSTag (Some [110]) (Some [118])]] []
        true [] 0 0 false [] false true false 0 0 (repeat 0 126) (repeat 0 126)
        30000000000 0 false false true false false false 0 0 0 4 0 (f64_of_Z 0).
Theorem C19_six_entries_refuted : exists s cs h s1 file,
  session s true cs (w0 true) /\ orderly s cs /\ existsb (fun f => negb (held_back s f)) (given cs) = true /\
  muxes s cs (w0 true) h s1 false file /\ h = map (fun f => (f, true)) (given cs).
Proof.
  destruct (run seg3 ex_calls) as [[[h b] file]|] eqn:E; [|vm_compute in E; discriminate].
  assert (Hb : b = false) by (vm_compute in E; injection E as _ <- _; reflexivity).
  assert (Hh : h = map (fun f => (f, true)) (given ex_calls)) by (vm_compute in E; injection E as <- _ _; reflexivity).
  destruct (run_muxes _ _ _ _ _ E) as (s1 & HM). subst b. exists seg3, ex_calls, h, s1, file. split.
  { constructor; [|reflexivity|repeat split; constructor|discriminate| | |split; vm_compute; reflexivity].
    - constructor; try reflexivity.
      + split; [discriminate|]. split; [repeat constructor; cbn; lia|]. split; [repeat constructor; cbn; intuition lia|]. split; [reflexivity|].
        cbn. repeat (split; [first [vids|leafs]|]); repeat split; first [vids|leafs].
      + split; [cbn; lia|]. split; [reflexivity|]. cbn. repeat split; first [vids|leafs].
      + split; [reflexivity|]. cbn. repeat split; first [vids|leafs].
      + split; [reflexivity|]. cbn. repeat split; first [vids|leafs].
    - cbn. repeat constructor; unfold is_byte, is_u64, is_s64; cbn; lia.
    - cbn. repeat constructor. }
  split; [exact ex_orderly|]. auto.
Qed.
Print Assumptions C19_six_entries_refuted.
