(* C63: seeking in a track finds the right block, and walking goes on from there. *)
From Coq Require Import ZifyBool ZifyNat Sorted.
From Verif Require Import Base ReaderSpec Ids MMuxBlock BlockSpec MMuxMeta MetaSpec MMuxSegment SegmentSpec MuxFileSpec ReadBackSpec ReadTrackSpec SegReadSpec MParUtil MParBlock MParMeta MParTrack MParCluster ClusterSpec ClusterSafeSpec PClusterSafe
  MParSegment SegSafeSpec PSegSafe MParWalk WalkSpec WalkFileSpec TrackSeekSpec PParWalk PParWalk2 PParWalk3 PParWalk4 PParWalk6 PTrackSeek PTrackSeek2 PTrackSeek3 PTrackSeek4 PTrackSeek5 SeekFileSpec PropSegSafe PropMux PropParSegment PropWalk.

Lemma shows_seg_holds : forall r l cs, intact r -> Forall (cl_inv r) l -> Forall2 (shows_times r) l cs -> Forall2 (fun c p => holds r (fst p) (snd p) c) l cs.
Proof.
  intros r l cs HI HC H. induction H as [|c [tc es] l cs Hc H IH]; [constructor|]. inversion HC; subst. constructor; [|exact (IH H3)]. destruct Hc as [(c' & E) HL]. cbn [fst snd] in *.
  destruct (lists_holds r c es HI H2 HL) as (tc' & Ho). destruct (ho_tc _ _ _ _ Ho) as (c2 & E2). assert (tc = tc') by congruence. subst tc'. exact Ho.
Qed.
Lemma holds_shows : forall r l cs, intact r -> Forall2 (fun c p => holds r (fst p) (snd p) c) l cs -> Forall2 (shows_times r) l cs.
Proof.
  intros r l cs HI H. induction H as [|c [tc es] l cs Hc H IH]; [constructor|]. constructor; [|exact IH]. cbn [fst snd] in Hc. split; [exact (ho_tc _ _ _ _ Hc)|exact (holds_lists r tc es c HI Hc)].
Qed.

(* In a segment that is parsed to its end, whose clusters show these timecodes and
   entries and are in order, Seek finds for every time the block that it should; the
   segment is then as before, so that one can seek and walk on; and GetNext shows
   from there each following block of the track, up to the end. *)
Theorem C63_seek_finds : forall r, intact r -> r_avail r <= 2 ^ 62 -> forall s t cs i time,
  walk_state r s -> Forall2 (shows_times r) (pg_clusters s) cs -> DoneParsing r s = true ->
  pg_info s = Some i -> 1 <= p_scale i -> close_together t (map snd cs) -> in_order t (p_scale i) cs ->
  exists s', Track_Seek r s t time = Val (0, seek_answer (sought t (p_scale i) time cs), s') /\
    walk_state r s' /\ Forall2 (shows_times r) (pg_clusters s') cs /\ DoneParsing r s' = true /\ pg_info s' = Some i /\
    forall A p B, sought t (p_scale i) time cs = Some p -> places 0 (map snd cs) = A ++ p :: B ->
      exists s'', walk_from r t s' (fst (fst p)) (snd (fst p)) (filter (of_this_track t) B) s'' /\ walk_state r s''.
Proof.
  intros r HI HA s t cs i time HW HL HD Hinf Hsc [HT1 HT2] HO.
  assert (Hs : scaled (p_scale i) s) by (unfold scaled, scale_of; rewrite Hinf; replace (p_scale i <? 1) with false by lia; reflexivity).
  pose proof (shows_seg_holds r _ _ HI (state_clusters r HI HA s HW) HL) as Hh.
  destruct (seek_run r t cs (p_scale i) s time HI Hsc Hs Hh HD HT1 HO) as (s' & E & H' & G & R). assert (HW' : walk_state r s') by (eapply ws_seek; eassumption).
  exists s'. split; [exact E|]. split; [exact HW'|]. split; [exact (holds_shows r _ _ HI H')|]. assert (HD' : DoneParsing r s' = true) by (rewrite (grows_done r s s' G); exact HD). split; [exact HD'|].
  split; [rewrite (gr_info _ _ G); exact Hinf|]. intros A [[ci ei] e] B Hp HB. rewrite Hp in R. cbn [fst snd].
  assert (Ho : of_this_track t (ci, ei, e) = true).
  { clear - Hp. unfold sought in Hp. destruct (entrances t (p_scale i) cs) as [|[p first] l] eqn:EE; [discriminate|].
    assert (X : forall q x, In (q, x) (entrances t (p_scale i) cs) -> of_this_track t q = true). { intros q x Hq. unfold entrances in Hq. apply filter_In in Hq as [_ Hq]. apply andb_true_iff in Hq as [Hq _]. exact Hq. }
    rewrite EE in X. destruct (time <=? first); [injection Hp as ->; apply (X _ first); left; reflexivity|].
    assert (Y : forall q x, In (q, x) (heads t (p_scale i) 0 cs) -> of_this_track t q = true).
    { clear. generalize 0 at 1 as k. induction cs as [|[tc es] cs IH]; intros k q x H; [destruct H|]. cbn [heads] in H. apply in_app_or in H as [H|H]; [|exact (IH _ _ _ H)].
      destruct (filter (of_this_track t) (number k 0 es)) as [|p l] eqn:E; [destruct H|]. destruct H as [H|[]]. injection H as -> _. assert (In q (filter (of_this_track t) (number k 0 es))) as Z by (rewrite E; left; reflexivity). apply filter_In in Z as [_ Z]. exact Z. }
    destruct (pt_kind t); destruct (last_until_in _ _ _ Hp) as (x & Hx & _); [exact (Y _ _ Hx)|exact (X _ _ Hx)|exact (Y _ _ Hx)]. }
  destruct (walk_from_run r t cs HI (filter (of_this_track t) B) s' A ci ei e B eq_refl H' HD' HB Ho R HT2) as (s'' & W & H'' & _). exists s''. split; [exact W|].
  apply (walk_from_state r HI HA _ _ _ _ _ _ W HW'). destruct R as (c & _ & Hei). lia.
Qed.
Print Assumptions C63_seek_finds.

(* Whatever bytes the source delivers: where Seek returns, the segment is as sound as
   before, and the entry it returns is one of the segment. *)
Theorem C63_seek_sound : forall r, intact r -> r_avail r <= 2 ^ 62 -> forall s t time st w s', walk_state r s -> Track_Seek r s t time = Val (st, w, s') ->
  clusters_sound r s' /\ match w with WE_entry ci ei e => 0 <= ei /\ exists c, cluster_at s' ci = Some c /\ entry_at c ei = Some e | _ => True end.
Proof.
  intros r HI HA s t time st w s' HW E. destruct (Seek_any r HI s t time st w s' (walk_state_inv r s HI HA HW) E) as [Hi L]. split; [split; [exact (si_clusters r s' Hi)|exact (si_sorted r s' Hi)]|exact L].
Qed.
Print Assumptions C63_seek_sound.

(* From the frames given to the muxer in order to what Seek finds in the loaded file:
   the frame that is sought, or the end of the stream if the track has none, and GetNext
   shows from there each following frame of the track. *)
Theorem C63_muxed_seek : forall s seekable cs w, session s seekable cs w -> orderly s cs ->
  exists h s1 b file, muxes s cs w h s1 b file /\
    (b = true -> exists dt d cues entries l,
       is_muxed seekable s dt d cues file l /\
       (forall n, Forall2 (carries (sg_accurate s)) (filter (of_track n) (given cs)) (filter (of_track n) (lo_frames l))) /\
       (readable_info (si_set_duration d (sg_info s)) -> readable_segment s ->
        Forall (fun f => fr_duration f / si_timecode_scale (sg_info s) < 2 ^ 63) (lo_frames l) ->
        exists s2 s3,
          EBMLHeader_Parse (file_reader file) = Val (0, zlen (lo_ebml l), read_header 4 dt) /\
          CreateInstance (file_reader file) (zlen (lo_ebml l)) = Val (0, Some s2) /\
          Segment_Load (file_reader file) s2 = Val (0, s3) /\
          shows_file (file_reader file) s d cues entries l s3 /\
          forall t time, In t (read_tracks (sg_tracks s)) -> spaced (frame_of t) (enters t) (map mc_frames (lo_clusters l)) ->
            exists s4,
              match seek_frames t (si_timecode_scale (sg_info s)) time l with
              | [] => Track_Seek (file_reader file) s3 t time = Val (0, WE_eos, s4)
              | f :: fs => exists ci ei e es s5,
                  Track_Seek (file_reader file) s3 t time = Val (0, WE_entry ci ei e, s4) /\
                  shows_frame (file_reader file) (si_timecode_scale (sg_info s)) l f (ci, ei, e) /\
                  walk_from (file_reader file) t s4 ci ei es s5 /\
                  Forall2 (shows_frame (file_reader file) (si_timecode_scale (sg_info s)) l) fs es
              end)).
Proof.
  intros s seekable cs w HS HO. destruct (muxed_file_loads s seekable true cs w HS ltac:(auto) ltac:(auto)) as (h & s1 & b & file & M & HB).
  exists h, s1, b, file. split; [exact M|]. intros Hb. destruct (HB Hb) as (dt & d & cues & entries & l & _ & X1 & _ & _ & _ & X2 & X3 & X4 & _ & X5).
  exists dt, d, cues, entries, l. split; [exact X1|]. split; [exact (X2 eq_refl)|]. intros R1 R2 R3. subst b.
  destruct (X3 eq_refl) as (Hts & Hord & Hfull). destruct (muxed_intact s seekable true cs w h s1 file HS ltac:(auto) ltac:(auto) M) as [HI HZ].
  destruct (X5 R1 R2 R3 (full_ends _ _ _ Hfull)) as (s2 & s3 & E1 & E2 & E3 & Sh). exists s2, s3. split; [exact E1|]. split; [exact E2|]. split; [exact E3|]. split; [exact Sh|].
  intros t time _ HG. destruct (C62_loaded_is_done _ _ _ _ HI HZ E2 E3) as [HW HD]. set (scale := si_timecode_scale (sg_info s)) in *.
  assert (Hsc : 1 <= scale) by (destruct HS as [Hr _ _ _ _ _ _]; apply (r_info s Hr)).
  assert (Hst : Forall (stored_cluster false scale) (lo_clusters l) \/ Forall (stored_cluster true scale) (lo_clusters l)) by (destruct seekable; auto).
  assert (Hrel : Forall (fun c => Forall (fun f => mc_tc c <= fr_timestamp f / scale) (mc_frames c)) (lo_clusters l)).
  { destruct X1 as (seg & _ & _ & _ & _ & _ & _ & _ & Hcl & _). eapply Forall_impl; [|exact Hcl]. intros c (tcp & tb & blocks & _ & _ & HF & _). clear - HF.
    induction HF as [|f bl fs bls Hf HF IH]; constructor; [|exact IH]. destruct Hf as (rel & Hr & E & _). fold scale in E. lia. }
  destruct (shows_reads (file_reader file) scale _ _ _ Hfull (sh_clusters _ _ _ _ _ _ _ Sh)) as (cs' & Y1 & Y2).
  destruct (C63_seek_finds (file_reader file) HI HZ s3 t cs' _ time HW Y1 HD (sh_info _ _ _ _ _ _ _ Sh) Hsc (reads_spaced _ scale l t Hfull cs' Y2 HG)
              (muxed_in_order _ scale l t Hsc Hst Hrel Hfull Hord Hts cs' Y2)) as (s4 & K1 & _ & _ & _ & _ & K2). change (p_scale (read_info (si_set_duration d (sg_info s)))) with scale in *.
  exists s4. pose proof (seek_match (file_reader file) scale l t cs' time Y2) as HM. destruct (sought t scale time cs') as [[[ci ei] e]|]; cbn [seek_answer] in K1; [|rewrite HM; exact K1].
  destruct HM as (A & B & f & B' & Z1 & Z2 & Z3 & Z4). rewrite Z2. destruct (K2 A (ci, ei, e) B eq_refl Z1) as (s5 & W & _). exists ci, ei, e, (filter (of_this_track t) B), s5.
  split; [exact K1|]. split; [exact Z3|]. split; [exact W|]. apply F2_filter; [|exact Z4]. intros a p Hp. exact (SH_on _ _ _ _ _ _ Hp).
Qed.
Print Assumptions C63_muxed_seek.

(* ---------- concrete cases ---------- *)

Fixpoint timings (r : reader) (cs : list cluster) : option (list (Z * list bentry)) :=
  match cs with
  | [] => Some []
  | c :: cs => match Cluster_GetTimeCode r c, listing r c, timings r cs with Some (Val (tc, _)), Some es, Some l => Some ((tc, es) :: l) | _, _, _ => None end
  end.
Lemma timings_sound : forall r cs l, timings r cs = Some l -> Forall2 (shows_times r) cs l.
Proof.
  intros r. induction cs as [|c cs IH]; intros l H; cbn [timings] in H; [injection H as <-; constructor|]. destruct (Cluster_GetTimeCode r c) as [[[tc c']|]|] eqn:E1; try discriminate H.
  destruct (listing r c) as [es|] eqn:E2; [|discriminate H]. destruct (timings r cs) as [l'|] eqn:E3; [|discriminate H]. injection H as <-. constructor; [|apply IH; reflexivity].
  split; [exists c'; exact E1|apply listing_sound; exact E2].
Qed.

(* a computable form of in_order *)
Fixpoint sorted_b {A : Type} (le : A -> A -> bool) (l : list A) : bool :=
  match l with [] => true | x :: l => forallb (le x) l && sorted_b le l end.
Lemma sorted_b_sound : forall A (le : A -> A -> bool) (R : A -> A -> Prop) l, (forall a b, le a b = true -> R a b) -> sorted_b le l = true -> StronglySorted R l.
Proof.
  intros A le R l H. induction l as [|x l IH]; intros E; [constructor|]. cbn [sorted_b] in E. apply andb_true_iff in E as [E1 E2]. constructor; [exact (IH E2)|].
  rewrite forallb_forall in E1. apply Forall_forall. intros y Hy. apply H. exact (E1 y Hy).
Qed.
Definition in_order_b (t : p_track) (scale : Z) (cs : list (Z * list bentry)) : bool :=
  sorted_b (fun a b => fst a <=? fst b) cs &&
  forallb (fun c => (0 <=? fst c) && (fst c * scale <=? LLONG_MAX) &&
    forallb (fun e => (0 <=? bl_timecode (en_block e)) && (block_time scale (fst c) e <=? LLONG_MAX)) (snd c)) cs &&
  sorted_b (fun a b => snd a <=? snd b) (filter (fun x => of_this_track t (fst x)) (timed scale 0 cs)).
Lemma in_order_b_sound : forall t scale cs, in_order_b t scale cs = true -> in_order t scale cs.
Proof.
  intros t scale cs H. unfold in_order_b in H. apply andb_true_iff in H as [H H3]. apply andb_true_iff in H as [H1 H2]. constructor.
  - apply (sorted_b_sound _ _ _ _ (fun a b E => proj1 (Z.leb_le _ _) E) H1).
  - rewrite forallb_forall in H2. apply Forall_forall. intros c Hc. specialize (H2 c Hc). apply andb_true_iff in H2 as [H2 H4]. split; [lia|]. split; [lia|].
    rewrite forallb_forall in H4. apply Forall_forall. intros e He. specialize (H4 e He). lia.
  - destruct (pt_kind t); try exact I. apply (sorted_b_sound _ _ _ _ (fun a b E => proj1 (Z.leb_le _ _) E) H3).
Qed.

(* one video track and clusters at 0, 10 and 20 ms; a key frame at 1, a frame at 4, a
   key frame at 6 | frames at 11, 13 | a frame at 20, a key frame at 22, a frame at 25 *)
Definition ex_video_head : list Z :=
  [0x18; 0x53; 0x80; 0x67; 0x01; 0xFF; 0xFF; 0xFF; 0xFF; 0xFF; 0xFF; 0xFF;
   0x15; 0x49; 0xA9; 0x66; 0x87; 0x2A; 0xD7; 0xB1; 0x83; 0x0F; 0x42; 0x40;
   0x16; 0x54; 0xAE; 0x6B; 0x90; 0xAE; 0x8E; 0xD7; 0x81; 1; 0x83; 0x81; 1; 0xE0; 0x86; 0xB0; 0x81; 64; 0xBA; 0x81; 48].
Definition ex_block (rel flags : Z) : list Z := [0xA3; 0x85; 0x81; 0; rel; flags; 0xAA].
Definition ex_video : reader := file_reader (ex_video_head ++
  [0x1F; 0x43; 0xB6; 0x75; 0xFF; 0xE7; 0x81; 0] ++ ex_block 1 0x80 ++ ex_block 4 0 ++ ex_block 6 0x80 ++
  [0x1F; 0x43; 0xB6; 0x75; 0xFF; 0xE7; 0x81; 10] ++ ex_block 1 0 ++ ex_block 3 0 ++
  [0x1F; 0x43; 0xB6; 0x75; 0xFF; 0xE7; 0x81; 20] ++ ex_block 0 0 ++ ex_block 2 0x80 ++ ex_block 5 0).
Definition found_at (x : option (Z * Z * bentry)) : option (Z * Z) := option_map fst x.
Example C63_ex : exists s t cs i, intact ex_video /\ r_avail ex_video <= 2 ^ 62 /\ walk_state ex_video s /\ first_track s = Some t /\ Forall2 (shows_times ex_video) (pg_clusters s) cs /\
  DoneParsing ex_video s = true /\ pg_info s = Some i /\ 1 <= p_scale i /\ close_together t (map snd cs) /\ in_order t (p_scale i) cs /\
  map (fun ms => found_at (sought t (p_scale i) (ms * 1000000) cs)) [-3; 0; 5; 6; 15; 21; 22; 99] =
    [Some (0, 0); Some (0, 0); Some (0, 0); Some (0, 2); Some (0, 2); Some (0, 2); Some (2, 1); Some (2, 1)].
Proof.
  destruct (after_load ex_video) as [[st s]|] eqn:E; [|exfalso; revert E; vm_compute; discriminate].
  assert (X : match after_load ex_video with Some (_, s) =>
      match first_track s, timings ex_video (pg_clusters s), pg_info s with
      | Some t, Some cs, Some i => DoneParsing ex_video s = true /\ Nat.leb (length (map snd cs)) 99 = true /\ (1 <=? p_scale i) = true /\ in_order_b t (p_scale i) cs = true /\
          map (fun ms => found_at (sought t (p_scale i) (ms * 1000000) cs)) [-3; 0; 5; 6; 15; 21; 22; 99] =
            [Some (0, 0); Some (0, 0); Some (0, 0); Some (0, 2); Some (0, 2); Some (0, 2); Some (2, 1); Some (2, 1)]
      | _, _, _ => False end | None => False end).
  { vm_compute. repeat (split; [reflexivity|]). reflexivity. }
  rewrite E in X. cbn iota in X. destruct (first_track s) as [t|] eqn:E1; [|destruct X]. destruct (timings ex_video (pg_clusters s)) as [cs|] eqn:E2; [|destruct X]. destruct (pg_info s) as [i|] eqn:E3; [|destruct X].
  destruct X as (X1 & X2 & X3 & X4 & X5). exists s, t, cs, i. split; [apply file_intact; [vm_compute; reflexivity|vm_compute; discriminate]|]. split; [vm_compute; discriminate|].
  split; [apply ws_loaded; exact (after_load_state _ _ _ E)|]. split; [exact E1|]. split; [apply timings_sound; exact E2|]. split; [exact X1|]. split; [exact E3|]. split; [lia|]. split; [apply few_spaced; apply Nat.leb_le; exact X2|]. split; [apply in_order_b_sound; exact X4|exact X5].
Qed.

(* A block may lie before the start of its cluster.  Seeking to a time between the
   two violates an assertion: the first block is at 5 ms, its cluster at 10 ms, and
   Seek is asked for 7 ms. *)
Definition ex_early : reader := file_reader (ex_head ++ [0x1F; 0x43; 0xB6; 0x75; 0xFF; 0xE7; 0x81; 10; 0xA3; 0x85; 0x81; 0xFF; 0xFB; 0x80; 0xAA]).
Theorem C63_seek_early_refuted : exists r s t, intact r /\ r_avail r <= 2 ^ 62 /\ walk_state r s /\ DoneParsing r s = true /\ first_track s = Some t /\
  Track_Seek r s t 7000000 = UB.
Proof.
  destruct (after_load ex_early) as [[st s]|] eqn:E; [|exfalso; revert E; vm_compute; discriminate].
  assert (X : match after_load ex_early with Some (_, s) => match first_track s with Some t => DoneParsing ex_early s = true /\ Track_Seek ex_early s t 7000000 = UB | None => False end | None => False end) by (vm_compute; split; reflexivity).
  rewrite E in X. cbn iota in X. destruct (first_track s) as [t|] eqn:E1; [|destruct X]. destruct X as [X1 X2]. exists ex_early, s, t.
  split; [apply file_intact; [vm_compute; reflexivity|vm_compute; discriminate]|]. split; [vm_compute; discriminate|]. split; [apply ws_loaded; exact (after_load_state _ _ _ E)|]. auto.
Qed.
Print Assumptions C63_seek_early_refuted.

(* The session of PropMux is orderly and is finished with success; what Seek finds in
   its file: the cluster, the place in it, and the bytes of the first frame there. *)
Definition seek_on (file : list Z) (n time : Z) : option (Z * Z * list (Z + list Z)) :=
  match EBMLHeader_Parse (file_reader file) with
  | Val (_, pos, _) =>
      match CreateInstance (file_reader file) pos with
      | Val (_, Some s) =>
          match Segment_Load (file_reader file) s with
          | Val (_, s1) =>
              match find (fun t => ti_number (pt_info t) =? n) (match pg_tracks s1 with Some l => l | None => [] end) with
              | Some t => match Track_Seek (file_reader file) s1 t time with
                          | Val (_, WE_entry ci ei e, _) => Some (ci, ei, map (Frame_Read (file_reader file)) (bl_frames (en_block e)))
                          | _ => None
                          end
              | None => None
              end
          | UB => None
          end
      | _ => None
      end
  | UB => None
  end.
Example C63_muxed_ex : session seg2 true ex_calls (w0 true) /\ orderly seg2 ex_calls /\
  match run_on true seg2 ex_calls with
  | Some (b, _, file) => b = true /\ map (fun ms => seek_on file 1 (ms * 1000000)) [0; 20; 33] = [Some (0, 0, [inr [1; 2]]); Some (0, 0, [inr [1; 2]]); Some (2, 0, [inr [8]])] /\
      map (fun ms => seek_on file 2 (ms * 1000000)) [0; 10; 25] = [Some (1, 0, [inr [3]]); Some (1, 0, [inr [3]]); Some (1, 0, [inr [3]])]
  | None => False
  end.
Proof. split; [apply ex_session|]. split; [exact ex_orderly|]. vm_compute. repeat split. Qed.
