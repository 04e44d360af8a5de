(* C62: going through the blocks of a track shows each of its blocks once, in order. *)
From Coq Require Import ZifyBool ZifyNat.
From Verif Require Import Base EbmlSpec ReaderSpec MWriter Ids MFloat MMuxBlock BlockSpec MMuxMeta MetaSpec MMuxSegment SegmentSpec MuxFileSpec
  MParUtil MParBlock MParMeta MParTrack MParCues MParCluster ClusterSpec ClusterSafeSpec CueReadSpec ReadBackSpec ReadTrackSpec
  MParSegment SegReadSpec SegSafeSpec PSegSafe MParWalk WalkSpec WalkFileSpec PParWalk4 PParWalk5 PParWalk6 PSegLayout PropMux PropParSegment PropSegSafe.
From Verif Require PWpMux4.

(* In a segment that is parsed to its end, whose clusters show the entries css when
   each is gone through by itself, GetFirst and then GetNext return exactly the blocks
   of the track, each once and in the order of the file, for video from the first key
   frame on, and then the end-of-stream entry; and this can be repeated, with any
   track.  Hypothesis on the file: not too many clusters in a row without a block of
   the track. *)
Theorem C62_walk_shows_track : forall r, intact r -> r_avail r <= 2 ^ 62 -> forall s t css,
  walk_state r s -> Forall2 (lists r) (pg_clusters s) css -> DoneParsing r s = true -> close_together t css ->
  exists s', walk r t s (blocks_of_track t css) s' /\ walk_state r s' /\ Forall2 (lists r) (pg_clusters s') css /\ DoneParsing r s' = true.
Proof. intros r HI HA s t css. exact (walk_shows r HI HA s t css). Qed.
Print Assumptions C62_walk_shows_track.

(* A segment that Load has loaded with success is parsed to its end. *)
Theorem C62_loaded_is_done : forall r pos s s1, intact r -> r_avail r <= 2 ^ 62 ->
  CreateInstance r pos = Val (0, Some s) -> Segment_Load r s = Val (0, s1) -> walk_state r s1 /\ DoneParsing r s1 = true.
Proof.
  intros r pos s s1 HI HA E1 E2. assert (HS : seg_state r s) by (eapply ss_created; exact E1). split; [apply ws_loaded; eapply ss_load; eassumption|].
  apply (Load_done r s s1); [|exact E2]. apply (si_start r s (seg_state_inv r HI HA s HS)).
Qed.
Print Assumptions C62_loaded_is_done.

(* a muxed file consists of bytes *)
Lemma muxed_intact : forall s seekable strict cs w h s1 file,
  session s seekable cs w -> (sg_accurate s = true -> strict = true) -> (strict = true -> orderly s cs) ->
  muxes s cs w h s1 true file -> intact (file_reader file) /\ zlen file <= 2 ^ 62.
Proof.
  intros s seekable strict cs w h s1 file HS H1 H2 (w1 & s2 & w2 & E1 & E2 & ->).
  destruct (session_run_state s seekable strict cs w HS H1 H2) as (h' & s1' & w1' & b & s2' & w2' & E1' & E2' & _ & _ & _ & R4).
  rewrite E1 in E1'. injection E1' as <- <- <-. rewrite E2 in E2'. injection E2' as <- <- <-.
  destruct (R4 eq_refl) as (dt & d & cues & l & (D & M & _) & _ & (P1 & P2 & P3 & P4 & P5 & P6)).
  assert (HB : bytes (w_file w2)).
  { assert (HE : exists entries, PWpMux4.seek_part l entries).
    { destruct seekable.
      - destruct P2 as (es & X1 & X2 & _). exists es. right. split; [exact X1|]. eapply Forall_impl; [|exact X2]. intros e [He1 He2]. split; [apply PWpMux4.valid_small; exact He1|exact He2].
      - exists []. left. split; [exact P2|reflexivity]. }
    destruct HE as (entries & HE). apply (PWpMux4.muxed_bytes seekable s dt d cues entries (w_file w2) l M D HE).
    - destruct HS as [Hr _ _ _ _ _ _]. exact Hr.
    - eapply Forall_impl; [|exact P1]. intros c (_ & HF & _). exact HF.
    - destruct cues as [qs|]; [|exact Logic.I]. destruct P3 as ((V & _) & _). inversion V; subst; assumption. }
  pose proof (zlen_nonneg _ (w_file w2)). assert (HL : zlen (w_file w2) <= 2 ^ 62) by (clear - P6; change (2 ^ 62) with 4611686018427387904; lia).
  split; [|exact HL]. split; [split; [exact HB|]|split; [|split]].
  - cbn [file_reader r_avail r_data r_short]. unfold LLONG_MAX. change (2 ^ 62) with 4611686018427387904 in HL. lia.
  - right. cbn [file_reader r_avail r_total]. lia.
  - reflexivity.
  - reflexivity.
Qed.

(* From the frames given to the muxer to the blocks that GetFirst and GetNext of a
   track return after loading the file: these are the track's frames in the file, for
   video from the first key frame on, each with its time, key-frame status, content,
   padding and duration. *)
Theorem C62_muxed_track_walk : forall s seekable strict cs w,
  session s seekable cs w -> (sg_accurate s = true -> strict = true) -> (strict = true -> orderly s cs) ->
  exists h s1 b file, muxes s cs w h s1 b file /\
    (b = true -> exists dt d cues entries l,
       is_muxed seekable s dt d cues file l /\
       (strict = true -> forall n, Forall2 (carries (sg_accurate s)) (filter (of_track n) (given cs)) (filter (of_track n) (lo_frames l))) /\
       (strict = true -> ends_well seekable cues (lo_clusters l)) /\
       (readable_info (si_set_duration d (sg_info s)) -> readable_segment s ->
        Forall (fun f => fr_duration f / si_timecode_scale (sg_info s) < 2 ^ 63) (lo_frames l) ->
        ends_well seekable cues (lo_clusters l) ->
        exists s2 s3,
          EBMLHeader_Parse (file_reader file) = Val (0, zlen (lo_ebml l), read_header 4 dt) /\
          CreateInstance (file_reader file) (zlen (lo_ebml l)) = Val (0, Some s2) /\
          Segment_Load (file_reader file) s2 = Val (0, s3) /\
          shows_file (file_reader file) s d cues entries l s3 /\
          forall t, In t (read_tracks (sg_tracks s)) -> spaced (frame_of t) (enters t) (map mc_frames (lo_clusters l)) ->
            exists es s4, walk (file_reader file) t s3 es s4 /\
              Forall2 (shows_frame (file_reader file) (si_timecode_scale (sg_info s)) l) (frames_of_track t l) es)).
Proof.
  intros s seekable strict cs w HS H1 H2. destruct (C57_muxed_file_loads s seekable strict cs w HS H1 H2) as (h & s1 & b & file & M & HB).
  exists h, s1, b, file. split; [exact M|]. intros Hb. destruct (HB Hb) as (dt & d & cues & entries & l & _ & X1 & _ & _ & X2 & XE & _ & X3).
  exists dt, d, cues, entries, l. split; [exact X1|]. split; [exact X2|]. split; [exact XE|]. intros R1 R2 R3 R4. subst b. destruct (muxed_intact s seekable strict cs w h s1 file HS H1 H2 M) as [HI HZ]. destruct (X3 R1 R2 R3 R4) as (s2 & s3 & E1 & E2 & E3 & Sh).
  exists s2, s3. split; [exact E1|]. split; [exact E2|]. split; [exact E3|]. split; [exact Sh|]. intros t _ HG.
  destruct (C62_loaded_is_done _ _ _ _ HI HZ E2 E3) as [HW HD]. exact (muxed_walk _ HI HZ l s3 t _ _ HW HD (sh_clusters _ _ _ _ _ _ _ Sh) HG).
Qed.
Print Assumptions C62_muxed_track_walk.

(* Whatever bytes the source delivers: in every state that loading and walking can lead
   to, GetFirst of any track returns, and so does GetNext for every entry of the track
   that a cluster has; they return an entry of the track with success, the
   end-of-stream entry, or an error. *)
Theorem C62_walk_returns : forall r, intact r -> r_avail r <= 2 ^ 62 -> forall s t, walk_state r s ->
  clusters_sound r s /\
  (exists st w s', Track_GetFirst r s t = Val (st, w, s') /\ returned t s' st w) /\
  (forall ci ei c e, cluster_at s ci = Some c -> 0 <= ei -> entry_at c ei = Some e -> of_this_track t (ci, ei, e) = true ->
     exists st w s', Track_GetNext r s t ci ei = Val (st, w, s') /\ returned t s' st w).
Proof.
  intros r HI HA s t HS. pose proof (walk_state_inv r s HI HA HS) as Hi. split; [split; [exact (si_clusters r s Hi)|exact (si_sorted r s Hi)]|]. split.
  - destruct (GetFirst_any r HI s t Hi) as (st & w & s' & E & _ & G). eauto.
  - intros ci ei c e Hc Hei He Ht. destruct (GetNext_any r HI s t ci ei c e Hi Hc Hei He Ht) as (st & w & s' & E & _ & G). eauto.
Qed.
Print Assumptions C62_walk_returns.

(* ---------- concrete cases ---------- *)

(* a computable form of lists *)
Fixpoint nexts (fuel : nat) (r : reader) (c : MParCluster.cluster) (i : Z) : option (list bentry) :=
  match fuel with
  | O => None
  | S f => match Cluster_GetNext r c i with
           | Some (Val (st, o, c1)) => if negb (st =? 0) then None else
               match o with None => Some [] | Some e => match nexts f r c1 (i + 1) with Some es => Some (e :: es) | None => None end end
           | _ => None
           end
  end.
Definition listing (r : reader) (c : MParCluster.cluster) : option (list bentry) :=
  match Cluster_GetFirst r c with
  | Some (Val (st, o, c1)) => if negb (st =? 0) then None else
      match o with None => Some [] | Some e => match nexts 1000 r c1 0 with Some es => Some (e :: es) | None => None end end
  | _ => None
  end.
Lemma nexts_sound : forall r fuel c i es, nexts fuel r c i = Some es -> exists c2, next_entries r c i es c2.
Proof.
  intros r. induction fuel as [|fuel IH]; intros c i es H; [discriminate H|]. cbn [nexts] in H. destruct (Cluster_GetNext r c i) as [[[[st o] c1]|]|] eqn:E; try discriminate H.
  destruct (Z.eqb_spec st 0); [subst st|discriminate H]. cbn [negb] in H. destruct o as [e|]; [|injection H as <-; exists c1; constructor; exact E].
  destruct (nexts fuel r c1 (i + 1)) as [es'|] eqn:E2; [|discriminate H]. injection H as <-. destruct (IH _ _ _ E2) as (c2 & N). exists c2. econstructor; eassumption.
Qed.
Lemma listing_sound : forall r c es, listing r c = Some es -> lists r c es.
Proof.
  intros r c es H. unfold listing in H. destruct (Cluster_GetFirst r c) as [[[[st o] c1]|]|] eqn:E; try discriminate H.
  destruct (Z.eqb_spec st 0); [subst st|discriminate H]. cbn [negb] in H. destruct o as [e|]; [|injection H as <-; exists c1; exact E].
  destruct (nexts 1000 r c1 0) as [es'|] eqn:E2; [|discriminate H]. injection H as <-. destruct (nexts_sound _ _ _ _ _ E2) as (c2 & N). exists c1, c2. auto.
Qed.
Fixpoint listings (r : reader) (cs : list MParCluster.cluster) : option (list (list bentry)) :=
  match cs with
  | [] => Some []
  | c :: cs => match listing r c, listings r cs with Some es, Some css => Some (es :: css) | _, _ => None end
  end.
Lemma listings_sound : forall r cs css, listings r cs = Some css -> Forall2 (lists r) cs css.
Proof.
  intros r. induction cs as [|c cs IH]; intros css H; cbn [listings] in H; [injection H as <-; constructor|]. destruct (listing r c) eqn:E; [|discriminate H]. destruct (listings r cs) eqn:E2; [|discriminate H].
  injection H as <-. constructor; [apply listing_sound; exact E|apply IH; reflexivity].
Qed.
(* few clusters are always close enough *)
Lemma few_spaced : forall A (on en : A -> bool) css, (length css <= 99)%nat -> spaced on en css.
Proof.
  assert (X : forall A (ok : A -> bool) css n, (length css <= S n)%nat -> no_gap_over n ok css).
  { intros A ok css n H mid es b -> _ _. rewrite app_length in H. cbn [length] in H.
    assert (length (filter not_empty mid) <= length mid)%nat by (clear; induction mid as [|x mid IH]; [constructor|]; cbn [filter]; destruct (not_empty x); cbn [length]; lia). lia. }
  intros A on en css H. split; [apply X; lia|]. intros a es b -> _. apply X. rewrite app_length in H. cbn [length] in H. lia.
Qed.

(* the whole file of PropSegSafe, whose track has three blocks in two clusters *)
Definition first_track (s : pseg) : option p_track := match pg_tracks s with Some (t :: _) => Some t | _ => None end.
Example C62_ex : exists s t css, intact ex_whole /\ r_avail ex_whole <= 2 ^ 62 /\ walk_state ex_whole s /\ first_track s = Some t /\
  Forall2 (lists ex_whole) (pg_clusters s) css /\ DoneParsing ex_whole s = true /\ close_together t css /\
  map fst (blocks_of_track t css) = [(0, 0); (0, 1); (1, 0)].
Proof.
  destruct (after_load ex_whole) as [[st s]|] eqn:E; [|exfalso; revert E; vm_compute; discriminate].
  assert (X : match after_load ex_whole with Some (_, s) =>
      match first_track s, listings ex_whole (pg_clusters s) with
      | Some t, Some css => DoneParsing ex_whole s = true /\ (length css <= 99)%nat /\ map fst (blocks_of_track t css) = [(0, 0); (0, 1); (1, 0)]
      | _, _ => False end | None => False end) by (vm_compute; split; [reflexivity|split; [lia|reflexivity]]).
  rewrite E in X. cbn iota in X. destruct (first_track s) as [t|] eqn:E1; [|destruct X]. destruct (listings ex_whole (pg_clusters s)) as [css|] eqn:E2; [|destruct X]. destruct X as (X1 & X2 & X3).
  destruct C58_ex as (_ & I1 & _ & I2 & _). exists s, t, css. split; [exact I1|]. split; [exact I2|]. split; [apply ws_loaded; exact (after_load_state _ _ _ E)|]. split; [exact E1|].
  split; [apply listings_sound; exact E2|]. split; [exact X1|]. split; [apply few_spaced; exact X2|exact X3].
Qed.

(* Without the hypothesis on the clusters in between, GetNext reports the end of the
   stream although a later cluster has a block of the track: behind 99 clusters with
   blocks of other tracks it gives up. *)
Definition ex_cluster (n : Z) : list Z := [0x1F; 0x43; 0xB6; 0x75; 0xFF; 0xE7; 0x81; 0; 0xA3; 0x85; 0x80 + n; 0; 0; 0x80; 0xAA].
Definition ex_gap : reader := file_reader (ex_head ++ ex_cluster 1 ++ concat (repeat (ex_cluster 2) 99) ++ ex_cluster 1).
Theorem C62_walk_gap_refuted : exists r s t s1 e s2 c e2, intact r /\ r_avail r <= 2 ^ 62 /\ walk_state r s /\ DoneParsing r s = true /\
  Track_GetFirst r s t = Val (0, WE_entry 0 0 e, s1) /\ Track_GetNext r s1 t 0 0 = Val (1, WE_eos, s2) /\
  cluster_at s2 100 = Some c /\ entry_at c 0 = Some e2 /\ of_this_track t (100, 0, e2) = true.
Proof.
  destruct (after_load ex_gap) as [[st s]|] eqn:E; [|exfalso; revert E; vm_compute; discriminate].
  assert (X : match after_load ex_gap with Some (_, s) =>
      match first_track s with Some t =>
        match Track_GetFirst ex_gap s t with Val (st, WE_entry ci ei e, s1) =>
          match Track_GetNext ex_gap s1 t 0 0 with Val (st2, w2, s2) =>
            match cluster_at s2 100 with Some c => match entry_at c 0 with Some e2 =>
              DoneParsing ex_gap s = true /\ st = 0 /\ ci = 0 /\ ei = 0 /\ st2 = 1 /\ w2 = WE_eos /\ of_this_track t (100, 0, e2) = true
            | None => False end | None => False end
          | _ => False end
        | _ => False end
      | None => False end | None => False end) by (vm_compute; repeat split).
  rewrite E in X. cbn iota in X. destruct (first_track s) as [t|]; [|destruct X]. destruct (Track_GetFirst ex_gap s t) as [[[st1 [ci ei e| |]] s1]|] eqn:E1; try contradiction.
  destruct (Track_GetNext ex_gap s1 t 0 0) as [[[st2 w2] s2]|] eqn:E2; [|destruct X]. destruct (cluster_at s2 100) as [c|] eqn:E3; [|destruct X]. destruct (entry_at c 0) as [e2|] eqn:E4; [|destruct X].
  destruct X as (X1 & -> & -> & -> & -> & -> & X2). exists ex_gap, s, t, s1, e, s2, c, e2.
  split; [apply file_intact; [vm_compute; reflexivity|vm_compute; discriminate]|]. split; [vm_compute; discriminate|]. split; [apply ws_loaded; exact (after_load_state _ _ _ E)|]. auto 10.
Qed.
Print Assumptions C62_walk_gap_refuted.

(* the muxed files of PropParSegment, whose three clusters are close enough: the blocks
   of the video and of the audio track, cluster and index *)
Fixpoint walked (fuel : nat) (r : reader) (t : p_track) (s : pseg) (ci ei : Z) : option (list (Z * Z)) :=
  match fuel with
  | O => None
  | S f => match Track_GetNext r s t ci ei with
           | Val (_, WE_entry ci' ei' _, s') => match walked f r t s' ci' ei' with Some l => Some ((ci', ei') :: l) | None => None end
           | Val (1, WE_eos, _) => Some []
           | _ => None
           end
  end.
Definition walk_file (file : list Z) : option (list (option (list (Z * Z)))) :=
  let r := file_reader file in
  match EBMLHeader_Parse r with
  | Val (_, pos, _) => match CreateInstance r pos with
    | Val (_, Some s) => match Segment_Load r s with
      | Val (0, s1) => match pg_tracks s1 with
        | Some ts => Some (map (fun t => match Track_GetFirst r s1 t with
             | Val (0, WE_entry ci ei _, s2) => match walked 100 r t s2 ci ei with Some l => Some ((ci, ei) :: l) | None => None end
             | _ => None end) ts)
        | None => None end
      | _ => None end
    | _ => None end
  | UB => None
  end.
Example C62_ex_muxed : forall seekable, session seg2 seekable ex_calls (w0 seekable) /\ orderly seg2 ex_calls /\ readable_segment seg2 /\
  match run_on seekable seg2 ex_calls with
  | Some (b, _, file) => b = true /\ walk_file file = Some [Some [(0, 0); (1, 2); (2, 0)]; Some [(1, 0); (1, 1)]]
  | None => False end.
Proof.
  intros k. split; [apply ex_session|]. split; [exact ex_orderly|]. split; [exact seg2_readable|]. destruct k; vm_compute; split; reflexivity.
Qed.
