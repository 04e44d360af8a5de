(* C64: going to a cue point finds its block. *)
From Coq Require Import ZifyBool ZifyNat Sorted.
From Verif Require Import Base ReaderSpec Ids MWriter MMuxBlock BlockSpec MMuxMeta MetaSpec MMuxSegment SegmentSpec MuxFileSpec ReadBackSpec ReadTrackSpec CueReadSpec SegReadSpec MParUtil MParBlock MParMeta MParTrack MParCues MParCluster ClusterSpec ClusterSafeSpec PClusterSafe
  MParSegment SegSafeSpec PSegSafe MParWalk MParCueSeek CueSeekSpec CueFileSpec WalkSpec WalkFileSpec TrackSeekSpec PParWalk PParWalk2 PParWalk3 PParWalk4 PParWalk6 PTrackSeek PTrackSeek2 PTrackSeek3 PTrackSeek4 PTrackSeek5 PCueSeek PropSegSafe PropMux PropParSegment PropWalk PropTrackSeek.

(* In a segment with a loaded cluster at the position of a cue point, GetBlock returns
   the entry that the cue point announces, as CueSeekSpec says; the segment then shows
   the same as before; and GetNext shows from there each following block of the track. *)
Theorem C64_cue_block_found : forall r, intact r -> r_avail r <= 2 ^ 62 -> forall s tracks cp tp k c tc es,
  walk_state r s -> pg_tracks s = Some tracks -> 0 <= cp_timecode cp -> 0 <= tp_track tp ->
  cluster_at s k = Some c -> cl_start c = pg_start s + tp_pos tp ->
  shows_times r c (tc, es) -> Forall (fun e => entry_tc tc e <= LLONG_MAX) es ->
  exists s', Segment_GetBlock r s cp tp = Val (cue_answer k (cued tracks (cp_timecode cp) tp tc es), s') /\
    walk_state r s' /\
    forall cs, Forall2 (shows_times r) (pg_clusters s) cs ->
      Forall2 (shows_times r) (pg_clusters s') cs /\
      forall t ei e A B, DoneParsing r s = true -> close_together t (map snd cs) ->
        cued tracks (cp_timecode cp) tp tc es = Some (ei, e) -> of_this_track t (k, ei, e) = true -> places 0 (map snd cs) = A ++ (k, ei, e) :: B ->
        exists s'', walk_from r t s' k ei (filter (of_this_track t) B) s''.
Proof.
  intros r HI HA s tracks cp tp k c tc es HW HT Hct Htp Ec Hst [(c0 & Etc) HL] HB. pose proof (walk_state_inv r s HI HA HW) as HS.
  assert (Hin : cl_inv r c) by (apply (reachable_inv r c HI); exact (at_reachable r s k c HS Ec)).
  destruct (lists_holds r c es HI Hin HL) as (tc' & Hc). cbn [fst snd] in *. destruct (ho_tc _ _ _ _ Hc) as (c2 & E2). assert (tc' = tc) by congruence. subst tc'.
  destruct (GetBlock_run r s tracks cp tp k c tc es HI HS HT Htp Ec Hst Hc HB) as (c' & E & Hc' & G & IB).
  exists (set_cluster s k c'). split; [exact E|]. split.
  { eapply ws_block; [exact HW|congruence|exact Hct| |exact E]. pose proof (si_clusters r s HS) as HF. rewrite Forall_forall in HF. unfold cluster_at in Ec. destruct (k <? 0); [discriminate|]. apply nth_error_In in Ec. destruct (HF c Ec) as [_ X]. change LLONG_MAX with 9223372036854775807. change (2 ^ 62) with 4611686018427387904 in HA. lia. }
  intros cs Hcs. pose proof (shows_seg_holds r _ _ HI (state_clusters r HI HA s HW) Hcs) as Hh. pose proof (cluster_at_range _ _ _ Ec) as Hr.
  assert (Hn : exists es', nth_error cs (Z.to_nat k) = Some (tc, es') /\ es' = es).
  { destruct (nth_error cs (Z.to_nat k)) as [[tc' es']|] eqn:En; [|exfalso; apply nth_error_None in En; apply Forall2_length in Hcs; unfold zlen in Hr; lia].
    destruct (holds_at r cs s k tc' es' Hh ltac:(lia) En) as (c3 & E3 & H3). assert (c3 = c) by congruence. subst c3. destruct (ho_tc _ _ _ _ H3) as (c4 & E4). assert (tc' = tc) by congruence. subst tc'. exists es'. split; [reflexivity|].
    destruct H3 as [_ _ _ (r3 & -> & P3)]. destruct Hc as [_ _ _ (r1 & -> & P1)]. f_equal. exact (plays_fun r c r3 r1 P3 P1). }
  destruct Hn as (es' & Hn & ->). pose proof (set_holds r cs s k c' tc es Hh ltac:(lia) Hn Hc') as Hh'. split; [exact (holds_shows r _ _ HI Hh')|].
  intros t ei e A B HD [_ HT2] Hcu Ho HP. rewrite Hcu in IB. cbn [in_bounds] in IB.
  assert (HP' : parsed (set_cluster s k c') k ei) by (exists c'; split; [exact (set_at s k c c' Ec)|exact IB]).
  pose proof (set_grows s k c c' Ec G) as GR. assert (HD' : DoneParsing r (set_cluster s k c') = true) by (rewrite (grows_done r _ _ GR); exact HD).
  destruct (walk_from_run r t cs HI (filter (of_this_track t) B) _ A k ei e B eq_refl Hh' HD' HP Ho HP' HT2) as (s'' & W & _). exists s''. exact W.
Qed.
Print Assumptions C64_cue_block_found.

(* Whatever bytes the source delivers: for a loaded cue point GetBlock returns, the
   segment stays sound, and what is returned is nothing, or an entry of a cluster at the
   position in the cue point, with its track and time. *)
Theorem C64_cue_block_sound : forall r, intact r -> r_avail r <= 2 ^ 62 -> forall s cp tp,
  walk_state r s -> pg_tracks s <> None -> 0 <= cp_timecode cp -> pg_start s + tp_pos tp <= LLONG_MAX ->
  exists x s', Segment_GetBlock r s cp tp = Val (x, s') /\ clusters_sound r s' /\ answers r s' (cp_timecode cp) tp x.
Proof.
  intros r HI HA s cp tp HW HT Hct Hp. destruct (GetBlock_any r HI s cp tp (walk_state_inv r s HI HA HW) HT Hct Hp) as (x & s' & E & HS & X & _).
  exists x, s'. split; [exact E|]. split; [split; [exact (si_clusters r s' HS)|exact (si_sorted r s' HS)]|exact X].
Qed.
Print Assumptions C64_cue_block_sound.

(* ---------- muxed files ---------- *)

(* the cluster at the position that a cue point names *)
Lemma shows_at : forall r scale before c after pos pcs, shows_clusters r scale pos (before ++ c :: after) pcs -> mc_frames c <> [] ->
  exists k pc, nth_error pcs k = Some pc /\ cl_start pc = pos + zlen (concat (map mc_bytes before)) /\ shows r scale c pc /\ (Forall (fun c => mc_frames c <> []) before -> k = length before).
Proof.
  intros r scale. induction before as [|b before IH]; intros c after pos pcs H Hf; cbn [app shows_clusters] in H.
  - destruct (mc_frames c) as [|f fs]; [congruence|]. destruct pcs as [|pc pcs]; [contradiction|]. destruct H as (H1 & H2 & _). exists 0%nat, pc. split; [reflexivity|]. cbn [map concat]. split; [rewrite H1; change (zlen (@nil Z)) with 0; lia|]. split; [exact H2|reflexivity].
  - cbn [map concat]. rewrite zlen_app. destruct (mc_frames b) as [|f fs] eqn:Eb.
    + destruct (IH c after _ _ H Hf) as (k & pc & X1 & X2 & X3 & X4). exists k, pc. split; [exact X1|]. split; [lia|]. split; [exact X3|]. intros HF. pose proof (Forall_inv HF) as Hb. cbv beta in Hb. congruence.
    + destruct pcs as [|pc0 pcs]; [contradiction|]. destruct H as (_ & _ & H). destruct (IH c after _ _ H Hf) as (k & pc & X1 & X2 & X3 & X4). exists (S k), pc. split; [exact X1|]. split; [lia|]. split; [exact X3|].
      intros HF. cbn [length]. f_equal. apply X4. exact (Forall_inv_tail HF).
Qed.
Lemma next_fun : forall r c i a c1, next_entries r c i a c1 -> forall b c2, next_entries r c i b c2 -> a = b.
Proof.
  intros r c i a c1 H. induction H as [c i c' E|c i e es c1 c' E H IH]; intros b c2 Hb; inversion Hb as [x1 x2 x3 E1|x1 x2 e1 es1 c3 x3 E1 H1]; subst; try reflexivity; try (rewrite E in E1; discriminate E1).
  assert (c3 = c1 /\ e1 = e) as [-> ->] by (split; congruence). f_equal. exact (IH _ _ H1).
Qed.
Lemma lists_fun : forall r c a b, lists r c a -> lists r c b -> a = b.
Proof.
  intros r c [|e a] [|e' b] H1 H2; cbn [lists] in *; try reflexivity.
  - destruct H1 as (c1 & E1), H2 as (c2 & c3 & E2 & _). congruence.
  - destruct H2 as (c1 & E1), H1 as (c2 & c3 & E2 & _). congruence.
  - destruct H1 as (c1 & c2 & E1 & N1), H2 as (c3 & c4 & E2 & N2). assert (c3 = c1 /\ e' = e) as [-> ->] by (split; congruence). f_equal. exact (next_fun _ _ _ _ _ N1 _ _ N2).
Qed.
Lemma number_app : forall ci a b ei, number ci ei (a ++ b) = number ci ei a ++ number ci (ei + zlen a) b.
Proof. intros ci. induction a as [|x a IH]; intros b ei; cbn [app number]; [replace (ei + zlen (@nil bentry)) with ei by (unfold zlen; cbn [length]; lia); reflexivity|]. rewrite IH, zlen_cons. replace (ei + 1 + zlen a) with (ei + (1 + zlen a)) by lia. reflexivity. Qed.
Lemma places_app : forall a b ci, places ci (a ++ b) = places ci a ++ places (ci + zlen a) b.
Proof. induction a as [|x a IH]; intros b ci; cbn [app places]; [replace (ci + zlen (@nil (list bentry))) with ci by (unfold zlen; cbn [length]; lia); reflexivity|]. rewrite IH, zlen_cons, <- app_assoc. replace (ci + 1 + zlen a) with (ci + (1 + zlen a)) by lia. reflexivity. Qed.
Lemma F2_split : forall A B (R : A -> B -> Prop) l1 a l2 m, Forall2 R (l1 ++ a :: l2) m -> exists m1 b m2, m = m1 ++ b :: m2 /\ length m1 = length l1 /\ Forall2 R l1 m1 /\ R a b /\ Forall2 R l2 m2.
Proof.
  intros A B R. induction l1 as [|x l1 IH]; intros a l2 m H; cbn [app] in H; inversion H as [|? y ? m' H1 H2]; subst.
  - exists [], y, m'. repeat split; try assumption. constructor.
  - destruct (IH _ _ _ H2) as (m1 & b & m2 & -> & L & X1 & X2 & X3). exists (y :: m1), b, m2. split; [reflexivity|]. split; [cbn [length]; lia|]. split; [constructor; assumption|]. split; assumption.
Qed.

(* Muxing without accurate cluster durations: for each cue point of the file, going to it
   finds the frame for which it was made.  If the frames were in order and the track's
   frames are not too far apart, GetNext then shows each following frame of the track. *)
Theorem C64_muxed_cues : forall s seekable strict cs w, session s seekable cs w -> sg_accurate s = false -> (strict = true -> orderly s cs) ->
  exists h s1 b file, muxes s cs w h s1 b file /\
    (b = true -> exists dt d cues entries l,
       is_muxed seekable s dt d cues file l /\
       (cues = None <-> sg_output_cues s1 = false) /\
       (readable_info (si_set_duration d (sg_info s)) -> readable_segment s ->
        Forall (fun f => fr_duration f / si_timecode_scale (sg_info s) < 2 ^ 63) (lo_frames l) ->
        ends_well seekable cues (lo_clusters l) ->
        exists s2 s3,
          CreateInstance (file_reader file) (zlen (lo_ebml l)) = Val (0, Some s2) /\
          Segment_Load (file_reader file) s2 = Val (0, s3) /\
          shows_file (file_reader file) s d cues entries l s3 /\
          forall qs i q p, cues = Some qs -> nth_error qs i = Some q -> number_known q -> reads_cue (Z.of_nat i) q p ->
            exists f behind tp ci ei e s4,
              cue_frame (si_timecode_scale (sg_info s)) l q f behind /\ cp_tps p = [tp] /\
              Segment_GetBlock (file_reader file) s3 p tp = Val (CE_entry ci ei e, s4) /\
              shows_frame (file_reader file) (si_timecode_scale (sg_info s)) l f (ci, ei, e) /\
              forall t, strict = true -> frame_of t f = true -> spaced (frame_of t) (enters t) (map mc_frames (lo_clusters l)) ->
                exists es s5, walk_from (file_reader file) t s4 ci ei es s5 /\
                  Forall2 (shows_frame (file_reader file) (si_timecode_scale (sg_info s)) l) (filter (frame_of t) behind) es)).
Proof.
  intros s seekable strict cs w HS HA HO. destruct (muxed_file_loads s seekable strict cs w HS ltac:(congruence) HO) as (h & s1 & b & file & M & HB).
  exists h, s1, b, file. split; [exact M|]. intros Hb. destruct (HB Hb) as (dt & d & cues & entries & l & _ & X1 & XN & XQ & _ & X2 & X3 & X4 & _ & X5).
  exists dt, d, cues, entries, l. split; [exact X1|]. split; [exact XN|]. intros R1 R2 R3 R4. subst b.
  destruct (muxed_intact s seekable strict cs w h s1 file HS ltac:(congruence) HO M) as [HI HZ].
  destruct (X5 R1 R2 R3 R4) as (s2 & s3 & E1 & E2 & E3 & Sh). exists s2, s3. split; [exact E2|]. split; [exact E3|]. split; [exact Sh|].
  destruct (C62_loaded_is_done _ _ _ _ HI HZ E2 E3) as [HW HD]. set (scale := si_timecode_scale (sg_info s)) in *. set (r := file_reader file) in *.
  assert (Hsc : 1 <= scale) by (destruct HS as [Hr _ _ _ _ _ _]; apply (r_info s Hr)).
  intros qs i q p -> Hq HN (_ & Hp1 & Hp2). rewrite HA in XQ. rewrite Forall_forall in XQ. destruct (XQ q (nth_error_In _ _ Hq)) as (f & before & c & after & L1 & L2 & L3 & L4 & L5 & L6).
  destruct (nth_error_split _ _ L4) as (fs1 & fs2 & F1 & F2). set (tp := mkTP _ _ _) in Hp2.
  assert (Htp : tp_block tp = cue_block_number q) by (unfold tp; cbn [tp_block]; destruct HN as [-> | ->]; [cbn [andb]; destruct (1 <? cue_block_number q) eqn:E; lia|rewrite andb_false_r; reflexivity]).
  assert (Hne : mc_frames c <> []) by (rewrite F1; destruct fs1; discriminate).
  pose proof (sh_clusters _ _ _ _ _ _ _ Sh) as SC. fold scale in SC. rewrite L1 in SC. destruct (shows_at _ _ _ _ _ _ _ SC Hne) as (k & pc & K1 & K2 & K3 & K4).
  assert (Hcl : In c (lo_clusters l)) by (rewrite L1; apply in_or_app; right; left; reflexivity).
  rewrite Forall_forall in X4. destruct (X4 c Hcl) as (T1 & T2 & _).
  destruct K3 as (KT & c1 & e0 & es0 & c2 & G1 & G2 & G3). set (es := e0 :: es0) in *.
  assert (HL : shows_times r pc (mc_tc c, es)) by (split; [exact KT|exists c1, c2; auto]).
  assert (HT : Forall (fun e => entry_tc (mc_tc c) e <= LLONG_MAX) es).
  { clear - G3 T2 Hsc. induction G3 as [|g e fs es Hg G3 IH]; constructor; [|exact (IH (Forall_inv_tail T2))]. destruct (Forall_inv T2) as (_ & _ & _ & _ & _ & _ & Hts & _). destruct Hg as (_ & Y & _).
    unfold entry_tc. rewrite Y. unfold frame_rel. pose proof (Z.mul_div_le (fr_timestamp g) scale ltac:(lia)). pose proof (Z.div_pos (fr_timestamp g) scale ltac:(lia) ltac:(lia)). unfold LLONG_MAX. change (2 ^ 63) with 9223372036854775808 in Hts. nia. }
  pose proof G3 as G3'. rewrite F1 in G3'. destruct (F2_split _ _ _ _ _ _ _ G3') as (es1 & e & es2 & F3 & F4 & G4 & G5 & G6).
  rewrite Forall_forall in T2. assert (Hfin : In f (mc_frames c)) by (rewrite F1; apply in_or_app; right; left; reflexivity). pose proof (T2 f Hfin) as Hfok.
  assert (Hct : 0 <= cp_timecode p) by (rewrite Hp1, L6; destruct Hfok as (_ & _ & _ & _ & _ & _ & Hts & _); apply Z.div_pos; lia).
  assert (Htt : 0 <= tp_track tp) by (unfold tp; cbn [tp_track]; rewrite <- L5; destruct Hfok; lia).
  assert (Hat : cluster_at s3 (Z.of_nat k) = Some pc) by (unfold cluster_at; replace (Z.of_nat k <? 0) with false by lia; rewrite Nat2Z.id; exact K1).
  assert (Hcu : cued (read_tracks (sg_tracks s)) (cp_timecode p) tp (mc_tc c) es = Some (zlen fs1, e)).
  { unfold cued. rewrite Htp. replace (cue_block_number q <=? 0) with false by lia. rewrite F3. rewrite nth_error_app2 by lia. rewrite F4, F2, Nat.sub_diag. cbn [nth_error]. destruct G5 as (Y1 & Y2 & _).
    unfold is_cued, entry_tc. rewrite Y1, Y2, Hp1, L6. unfold tp. cbn [tp_track]. rewrite L5, Z.eqb_refl. unfold frame_rel. replace (mc_tc c + (fr_timestamp f / scale - mc_tc c) =? fr_timestamp f / scale) with true by lia. cbn [andb]. f_equal. f_equal. unfold zlen. lia. }
  destruct (C64_cue_block_found r HI HZ s3 _ p tp (Z.of_nat k) pc (mc_tc c) es HW (sh_tracks _ _ _ _ _ _ _ Sh) Hct Htt Hat) as (s4 & B1 & B2 & B3); [unfold tp; cbn [tp_pos]; rewrite L2, K2; lia|exact HL|exact HT|].
  rewrite Hcu in B1, B3. cbn [cue_answer] in B1.
  exists f, (fs2 ++ concat (map mc_frames after)), tp, (Z.of_nat k), (zlen fs1), e, s4.
  split; [exists before, c, after, fs1, fs2; split; [exact L1|]; split; [exact L2|]; split; [exact F1|]; split; [unfold zlen; lia|]; split; [exact L5|]; split; [exact L6|reflexivity]|].
  split; [exact Hp2|]. split; [exact B1|]. split; [exists c; split; [exact Hcl|split; [exact Hfin|exact G5]]|].
  intros t Hst Hof HSP. destruct (X3 Hst) as (_ & _ & Hfull).
  destruct (shows_reads r scale _ _ _ Hfull (sh_clusters _ _ _ _ _ _ _ Sh)) as (cs' & Y1 & Y2).
  destruct (B3 cs' Y1) as (_ & B4). pose proof Y2 as Y3. rewrite L1 in Y3. destruct (F2_split _ _ _ _ _ _ _ Y3) as (cb & [tc' es'] & ca & V1 & V2 & V3 & [V4 V4'] & V5). cbn [fst snd] in V4, V4'. subst tc'.
  rewrite L1 in Hfull. pose proof (proj1 (proj1 (Forall_app _ _ _) Hfull)) as Hfb. specialize (K4 Hfb).
  assert (Ees : es' = es).
  { rewrite V1 in Y1. assert (HNn : nth_error (cb ++ (mc_tc c, es') :: ca) k = Some (mc_tc c, es')) by (rewrite nth_error_app2 by lia; rewrite V2, K4, Nat.sub_diag; reflexivity).
    assert (HP : shows_times r pc (mc_tc c, es')).
    { clear - Y1 HNn K1. revert Y1 HNn K1. generalize (cb ++ (mc_tc c, es') :: ca) as L. generalize (pg_clusters s3) as P. intros P L H. revert k. induction H as [|a x P L Hax H IH]; intros [|k] E1 E2; try discriminate; [injection E1 as <-; injection E2 as <-; exact Hax|exact (IH k E1 E2)]. }
    exact (lists_fun r pc es' es (proj2 HP) (proj2 HL)). }
  subst es'.
  destruct (B4 t (zlen fs1) e (places 0 (map snd cb) ++ number (Z.of_nat k) 0 es1) (number (Z.of_nat k) (zlen fs1 + 1) es2 ++ places (Z.of_nat k + 1) (map snd ca)) HD) as (s5 & W).
  - apply (reads_spaced r scale l t); [rewrite L1; exact Hfull|exact Y2|exact HSP].
  - reflexivity.
  - destruct G5 as (Y & _). unfold of_this_track. cbn [snd]. rewrite Y. exact Hof.
  - rewrite V1, map_app, places_app. cbn [map snd places]. rewrite F3, number_app. cbn [number]. replace (0 + zlen (map snd cb)) with (Z.of_nat k) by (unfold zlen; rewrite map_length; lia). replace (0 + zlen es1) with (zlen fs1) by (unfold zlen; lia).
    rewrite <- !app_assoc. reflexivity.
  - eexists. exists s5. split; [exact W|]. apply F2_filter; [intros a x Hx; exact (SH_on _ _ _ _ _ _ Hx)|]. apply Forall2_app.
    + assert (HN2 : Forall2 (ST r scale l) fs2 (at_times scale (mc_tc c) (number (Z.of_nat k) (zlen fs1 + 1) es2))) by (apply number_ST with (c := c); [exact Hcl|reflexivity|intros x Hx; rewrite F1; apply in_or_app; right; right; exact Hx|exact G6]).
      apply ST_places in HN2. unfold at_times in HN2. rewrite map_map in HN2. cbn [fst] in HN2. rewrite map_id in HN2. exact HN2.
    + rewrite <- (timed_places scale). apply ST_places. apply timed_ST; [|exact V5]. intros x Hx. rewrite L1. apply in_or_app. right. right. exact Hx.
Qed.
Print Assumptions C64_muxed_cues.

(* ---------- concrete cases ---------- *)

(* In the video of PropTrackSeek, the cluster at 20 ms has a key frame at 22 ms as its
   second entry.  The cue point may have its number, no number or a wrong one; a number
   behind the last entry, the time of a frame that is no key frame without its number, and
   a time without a frame find nothing. *)
Definition ex_tp (p : Z) (b : Z) : track_pos := mkTP 1 p b.
Example C64_ex : exists s tracks c tc es, intact ex_video /\ r_avail ex_video <= 2 ^ 62 /\ walk_state ex_video s /\ pg_tracks s = Some tracks /\
  cluster_at s 2 = Some c /\ cl_start c = pg_start s + (cl_start c - pg_start s) /\ shows_times ex_video c (tc, es) /\ Forall (fun e => entry_tc tc e <= LLONG_MAX) es /\
  map (fun q => option_map fst (cued tracks (fst q) (ex_tp (cl_start c - pg_start s) (snd q)) tc es)) [(22, 2); (22, 0); (22, 1); (22, 4); (25, 3); (25, 0); (21, 1)] =
    [Some 1; Some 1; Some 1; None; Some 2; None; None].
Proof.
  destruct (after_load ex_video) as [[st s]|] eqn:E; [|exfalso; revert E; vm_compute; discriminate].
  assert (X : match after_load ex_video with Some (_, s) =>
      match pg_tracks s, timings ex_video (pg_clusters s), cluster_at s 2 with
      | Some l, Some [x1; x2; x3], Some c => forallb (fun e => entry_tc (fst x3) e <=? LLONG_MAX) (snd x3) = true /\
          map (fun q => option_map fst (cued l (fst q) (ex_tp (cl_start c - pg_start s) (snd q)) (fst x3) (snd x3))) [(22, 2); (22, 0); (22, 1); (22, 4); (25, 3); (25, 0); (21, 1)] =
            [Some 1; Some 1; Some 1; None; Some 2; None; None]
      | _, _, _ => False end | None => False end).
  { vm_compute. split; reflexivity. }
  rewrite E in X. cbn iota in X. destruct (pg_tracks s) as [l|] eqn:E1; [|destruct X]. destruct (timings ex_video (pg_clusters s)) as [[|x1 [|x2 [|[tc es] [|]]]]|] eqn:E2; try destruct X. destruct (cluster_at s 2) as [c|] eqn:E3; [|contradiction].
  cbn [fst snd] in *. exists s, l, c, tc, es. split; [apply file_intact; [vm_compute; reflexivity|vm_compute; discriminate]|]. split; [vm_compute; discriminate|].
  split; [apply ws_loaded; exact (after_load_state _ _ _ E)|]. split; [exact E1|]. split; [exact E3|]. split; [lia|].
  match goal with |- _ /\ _ /\ ?B => assert (XB : B) by (destruct X as [_ X]; exact X); assert (XA : forallb (fun e => entry_tc tc e <=? LLONG_MAX) es = true) by (destruct X as [X _]; exact X) end.
  split; [|split; [|exact XB]].
  - pose proof (timings_sound _ _ _ E2) as H. inversion H as [|a1 b1 ? ? _ H1 Q1]; subst. inversion H1 as [|a2 b2 ? ? _ H2 Q2]; subst. inversion H2 as [|a3 b3 ? ? H3 _ Q3]; subst. unfold cluster_at in E3. rewrite <- Q1 in E3. injection E3 as <-. exact H3.
  - clear - XA. rewrite forallb_forall in XA. apply Forall_forall. intros e He. specialize (XA e He). lia.
Qed.

(* A file may name any position in a cue point.  For the largest ones, going to the cue
   point overflows a signed sum. *)
Definition ex_far : reader := file_reader (ex_video_head ++
  [0x1C; 0x53; 0xBB; 0x6B; 0x94; 0xBB; 0x92; 0xB3; 0x81; 5; 0xB7; 0x8D; 0xF7; 0x81; 1; 0xF1; 0x88; 0x7F; 0xFF; 0xFF; 0xFF; 0xFF; 0xFF; 0xFF; 0xFF] ++
  [0x1F; 0x43; 0xB6; 0x75; 0x8A; 0xE7; 0x81; 0] ++ ex_block 1 0x80).
Theorem C64_far_position_refuted : exists r s q q' p tp, intact r /\ r_avail r <= 2 ^ 62 /\ walk_state r s /\
  pg_cues s = Some q /\ LoadCuePoint r q = Val (true, q') /\ cu_points q' = [p] /\ 0 <= cp_timecode p /\ cp_tps p = [tp] /\
  Segment_GetBlock r s p tp = UB.
Proof.
  destruct (after_load ex_far) as [[st s]|] eqn:E; [|exfalso; revert E; vm_compute; discriminate].
  assert (X : match after_load ex_far with Some (_, s) => match pg_cues s with
      | Some q => match LoadCuePoint ex_far q with Val (true, q') => match cu_points q' with [p] => match cp_tps p with [tp] => (0 <=? cp_timecode p) = true /\ Segment_GetBlock ex_far s p tp = UB | _ => False end | _ => False end | _ => False end
      | None => False end | None => False end) by (vm_compute; split; reflexivity).
  rewrite E in X. cbn iota in X. destruct (pg_cues s) as [q|] eqn:E1; [|destruct X]. destruct (LoadCuePoint ex_far q) as [[[|] q']|] eqn:E2; try contradiction.
  destruct (cu_points q') as [|p [|]] eqn:E3; try contradiction. destruct (cp_tps p) as [|tp [|]] eqn:E4; try contradiction. destruct X as [X1 X2].
  exists ex_far, s, q, q', p, tp. split; [apply file_intact; [vm_compute; reflexivity|vm_compute; discriminate]|]. split; [vm_compute; discriminate|]. split; [apply ws_loaded; exact (after_load_state _ _ _ E)|].
  split; [exact E1|]. split; [exact E2|]. split; [exact E3|]. split; [lia|]. split; [exact E4|exact X2].
Qed.
Print Assumptions C64_far_position_refuted.

(* The session of PropMux: its cue points, and what going to each of them finds: the
   cluster, the place in it, and the bytes of the frame there. *)
Fixpoint load_all (n : nat) (r : reader) (c : p_cues) : p_cues :=
  match n with O => c | S n => match LoadCuePoint r c with Val (true, c') => load_all n r c' | _ => c end end.
Definition cues_on (file : list Z) : option (list (Z * option (Z * Z * list (Z + list Z)))) :=
  match EBMLHeader_Parse (file_reader file) with
  | Val (_, pos, _) =>
      match CreateInstance (file_reader file) pos with
      | Val (_, Some s) =>
          match Segment_Load (file_reader file) s with
          | Val (_, s1) =>
              match pg_cues s1 with
              | Some q => Some (map (fun p => (cp_timecode p,
                  match cp_tps p with
                  | [tp] => match Segment_GetBlock (file_reader file) s1 p tp with
                            | Val (CE_entry ci ei e, _) => Some (ci, ei, map (Frame_Read (file_reader file)) (bl_frames (en_block e)))
                            | _ => None
                            end
                  | _ => None
                  end)) (cu_points (load_all 9 (file_reader file) q)))
              | None => None
              end
          | UB => None
          end
      | _ => None
      end
  | UB => None
  end.
Example C64_muxed_ex : session seg2 true ex_calls (w0 true) /\ orderly seg2 ex_calls /\ sg_accurate seg2 = false /\
  match run_on true seg2 ex_calls with
  | Some (b, s1, file) => b = true /\ forallb (fun q => cue_output_block_number q) (sg_cues s1) = true /\ cues_on file = Some [(0, Some (0, 0, [inr [1; 2]])); (33, Some (1, 2, [inr [4]])); (33, Some (2, 0, [inr [8]]))]
  | None => False
  end.
Proof. split; [apply ex_session|]. split; [exact ex_orderly|]. split; [reflexivity|]. vm_compute. repeat split. Qed.
