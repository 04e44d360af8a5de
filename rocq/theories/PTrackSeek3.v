(* Proofs about seeking in a track: Track::Seek and VideoTrack::Seek. *)
From Coq Require Import ZifyBool ZifyNat Sorted.
From Verif Require Import Base ReaderSpec Ids MParUtil MParBlock MParMeta MParTrack MParCluster ClusterSpec ClusterSafeSpec PClusterSafe MParSegment MParWalk WalkSpec TrackSeekSpec
  PParWalk PParWalk2 PParWalk3 PTrackSeek PTrackSeek2.

Lemma entrance_hd : forall t scale cs, hd_error (blocks_of_track t (map snd cs)) = option_map fst (hd_error (entrances t scale cs)).
Proof.
  intros t scale cs. unfold blocks_of_track. rewrite since_filter, <- (timed_places scale cs 0), <- (filter_fst _ _ (fun p => of_this_track t p && entry_point t p)). unfold entrances. destruct (filter _ (timed scale 0 cs)); reflexivity.
Qed.

Lemma entrance_split : forall t scale cs ci p first l, filter (fun x => of_this_track t (fst x) && entry_point t (fst x)) (timed scale ci cs) = (p, first) :: l ->
  exists pre tc es suf, cs = pre ++ (tc, es) :: suf /\ filter (fun x => of_this_track t (fst x) && entry_point t (fst x)) (timed scale ci pre) = [] /\
    fst (fst p) = ci + zlen pre /\ In (snd p) es /\ first = block_time scale tc (snd p).
Proof.
  intros t scale. induction cs as [|[tc es] cs IH]; intros ci p first l H; [discriminate|]. cbn [timed] in H. rewrite filter_app in H. destruct (filter _ (at_times scale tc (number ci 0 es))) as [|x l'] eqn:E.
  - cbn [app] in H. destruct (IH _ _ _ _ H) as (pre & tc' & es' & suf & -> & H1 & H2 & H3 & H4). exists ((tc, es) :: pre), tc', es', suf. split; [reflexivity|]. cbn [timed]. rewrite filter_app, E, H1. split; [reflexivity|].
    rewrite zlen_cons. split; [lia|]. auto.
  - cbn [app] in H. injection H as -> _. exists [], tc, es, cs. split; [reflexivity|]. split; [reflexivity|]. rewrite zlen_nil, Z.add_0_r.
    assert (X : In (p, first) (at_times scale tc (number ci 0 es))). { assert (In (p, first) ((p, first) :: l')) as Y by (left; reflexivity). rewrite <- E in Y. apply filter_In in Y as [Y _]. exact Y. }
    unfold at_times in X. apply in_map_iff in X as (q & Eq & X). injection Eq as <- <-. destruct (number_in _ _ _ _ X) as (H1 & _ & H3). auto.
Qed.

Theorem seek_run : forall r t cs scale s time, intact r -> 1 <= scale -> scaled scale s -> seg_holds r cs s -> DoneParsing r s = true ->
  no_gap_over 99 (fun e => of_this_track t (0, 0, e) && entry_point t (0, 0, e)) (map snd cs) -> in_order t scale cs ->
  exists s', Track_Seek r s t time = Val (0, seek_answer (sought t scale time cs), s') /\ seg_holds r cs s' /\ grows s s' /\ ready s' (sought t scale time cs).
Proof.
  intros r t cs scale s time HI HS Hs H HD HG HO. destruct (first_run r t cs HI s H HD HG) as (s1 & E1 & H1 & G1 & R1). unfold Track_Seek. rewrite E1. rewrite (entrance_hd t scale cs) in *. unfold sought.
  destruct (entrances t scale cs) as [|[[[ci ei] e] first] l] eqn:EE; cbn [hd_error option_map answer fst] in *.
  - change (1 <? 0) with false. cbv iota. exists s1. split; [reflexivity|]. split; [exact H1|]. split; [exact G1|exact I].
  - change (0 <? 0) with false. cbv iota. destruct R1 as (c & Ec & Hc). rewrite (scaled_grows _ _ _ G1 Hs), Ec.
    destruct (entrance_split t scale cs 0 _ _ _ EE) as (pre & tc & es & suf & Ecs & Hpre & Hci & Hin & Hfirst). cbn [fst snd] in Hci, Hin, Hfirst. rewrite Z.add_0_l in Hci.
    pose proof (zlen_nonneg _ pre) as Hp0.
    assert (En : nth_error cs (Z.to_nat ci) = Some (tc, es)) by (rewrite Hci, Ecs; apply nth_mid).
    destruct (nth_times _ _ _ HO _ _ _ En) as (T1 & T2 & T3).
    destruct (holds_at r cs s1 ci tc es H1 ltac:(lia) En) as (c0 & Ec0 & Hho). assert (c0 = c) by congruence. subst c0.
    rewrite (parsed_tc r tc es c Hho) by lia. replace (tc <? 0) with false by lia.
    assert (HE : 0 <= bl_timecode (en_block e) /\ block_time scale tc e <= LLONG_MAX) by (unfold usable_times in T3; rewrite Forall_forall in T3; exact (T3 e Hin)). destruct HE as [U1 U2].
    rewrite (block_get_time scale tc e HS T1 U1 U2), <- Hfirst. destruct (Z.leb_spec time first) as [HT|HT].
    { exists s1. split; [reflexivity|]. split; [exact H1|]. split; [exact G1|]. exists c. auto. }
    assert (HF : tc * scale <= first) by (rewrite Hfirst; unfold block_time; nia). assert (H0 : 0 <= tc * scale) by nia.
    destruct (time_at_run r cs scale HI s1 ci tc es H1 (scaled_grows _ _ _ G1 Hs) ltac:(lia) En T2) as (s2 & c2 & E2 & H2 & G2 & _). rewrite E2. replace (tc * scale >? time) with false by lia. cbv zeta.
    assert (HL : zlen (pg_clusters s2) = zlen cs) by (unfold zlen; rewrite (Forall2_length _ _ _ _ _ H2); reflexivity).
    assert (HLn : length (pg_clusters s2) = length cs) by (apply (Forall2_length _ _ _ _ _ H2)).
    assert (Hcl : zlen cs = zlen pre + 1 + zlen suf) by (rewrite Ecs, zlen_app, zlen_cons; lia). pose proof (zlen_nonneg _ suf) as Hs0.
    destruct (seek_search_run r t cs scale HI HS HO time (S (length (pg_clusters s2))) s2 ci (zlen (pg_clusters s2)) H2 (scaled_grows _ _ _ G2 (scaled_grows _ _ _ G1 Hs)) ltac:(lia) ltac:(lia)) as (k & s3 & E3 & Hk & H3 & G3 & L1 & L2).
    { rewrite HLn. unfold zlen in *. lia. }
    rewrite E3. assert (Hkc : ci < k). { destruct (Z.ltb_spec ci k); [assumption|]. specialize (L2 ci ltac:(lia)). unfold ctime in L2. rewrite En in L2. lia. }
    replace (k <=? ci) with false by lia. rewrite HL in Hk, L2.
    (* the clusters up to k and those behind *)
    set (rest := (tc, es) :: suf) in *. set (n := Z.to_nat (k - ci)).
    assert (Esp : cs = pre ++ firstn n rest ++ skipn n rest) by (rewrite firstn_skipn; exact Ecs).
    assert (HnL : zlen (firstn n rest) = k - ci). { unfold zlen. rewrite firstn_length. subst rest. cbn [length]. unfold n. unfold zlen in *. lia. }
    assert (Enth : forall j x, nth_error rest j = Some x -> nth_error cs (Z.to_nat (ci + Z.of_nat j)) = Some x).
    { intros j x Hj. rewrite Ecs, nth_error_app2 by (unfold zlen in *; lia). replace (Z.to_nat (ci + Z.of_nat j) - length pre)%nat with j by (unfold zlen in *; lia). exact Hj. }
    assert (HF1 : Forall (fun c => fst c * scale <= time) (firstn n rest)).
    { apply Forall_forall. intros [tc' es'] Hx. apply In_nth_error in Hx as (j & Hj). assert (Hjn : (j < n)%nat). { assert (nth_error (firstn n rest) j <> None) as X by congruence. apply nth_error_Some in X. rewrite firstn_length in X. lia. }
      assert (Hj' : nth_error rest j = Some (tc', es')). { rewrite <- (firstn_skipn n rest). rewrite nth_error_app1; [exact Hj|]. apply nth_error_Some. congruence. }
      specialize (L1 (ci + Z.of_nat j) ltac:(unfold n in Hjn; lia)). unfold ctime in L1. rewrite (Enth _ _ Hj') in L1. exact L1. }
    assert (HF2 : Forall (fun c => time < fst c * scale) (skipn n rest)).
    { apply Forall_forall. intros [tc' es'] Hx. apply In_nth_error in Hx as (j & Hj). rewrite nth_skipn in Hj. pose proof (Enth _ _ Hj) as Y.
      assert (Z.to_nat (ci + Z.of_nat (n + j)) < length cs)%nat by (apply nth_error_Some; congruence).
      specialize (L2 (ci + Z.of_nat (n + j)) ltac:(unfold n, zlen in *; lia)). unfold ctime in L2. rewrite Y in L2. exact L2. }
    destruct (seek_back_run r t cs scale HI HS HO time ltac:(lia) (firstn n rest) (skipn n rest) pre (S (length (pg_clusters s3))) s3 Esp) as (s4 & E4 & H4 & G4 & R4).
    { rewrite (Forall2_length _ _ _ _ _ H3), Esp, !app_length. lia. }
    { exact H3. } { exact (scaled_grows _ _ _ G3 (scaled_grows _ _ _ G2 (scaled_grows _ _ _ G1 Hs))). } { exact HF1. }
    rewrite HnL in E4. replace (zlen pre + (k - ci)) with k in E4 by lia. rewrite <- Hci in E4, R4.
    assert (EQ : last_until time (match pt_kind t with PVideo _ => (ci, ei, e, first) :: l | _ => heads t scale 0 cs end) = last_until time (cands t scale ci (firstn n rest))).
    { replace (match pt_kind t with PVideo _ => (ci, ei, e, first) :: l | _ => heads t scale 0 cs end) with (cands t scale 0 cs).
      2:{ destruct (pt_kind t) eqn:Ek; [apply cands_heads; congruence|rewrite (cands_video t scale _ Ek); exact EE|apply cands_heads; congruence]. }
      rewrite Esp at 1. rewrite !cands_app, !last_until_app, (no_cand t scale pre 0 Hpre), Z.add_0_l, <- Hci.
      rewrite (last_until_none time (cands t scale (ci + zlen (firstn n rest)) (skipn n rest))).
      - change (last_until time []) with (@None (Z * Z * bentry)). destruct (last_until time (cands t scale ci (firstn n rest))); reflexivity.
      - apply Forall_forall. intros [p x] Hx. cbn [snd]. destruct (cands_in _ _ _ _ _ _ Hx) as (tc' & es' & Hi1 & Hi2 & Hi3). rewrite Forall_forall in HF2. pose proof (HF2 _ Hi1) as Hlate. cbn [fst] in Hlate.
        destruct Hi3 as [Hi3|Hi3]; [lia|]. assert (Hcs : In (tc', es') cs) by (rewrite Esp; apply in_or_app; right; apply in_or_app; right; exact Hi1).
        pose proof (io_times _ _ _ HO) as F. rewrite Forall_forall in F. destruct (F _ Hcs) as (F1 & F2 & F3). cbn [fst snd] in F1, F2, F3. rewrite Forall_forall in F3. destruct (F3 _ Hi2) as [F4 _]. rewrite Hi3. unfold block_time. nia. }
    rewrite EQ. exists s4. unfold want in E4. split; [exact E4|]. split; [exact H4|]. split; [exact (grows_trans _ _ _ G1 (grows_trans _ _ _ G2 (grows_trans _ _ _ G3 G4)))|exact R4].
Qed.
