(* Proofs about seeking in a track: the block that is found. *)
From Coq Require Import ZifyBool ZifyNat Sorted.
From Verif Require Import Base ReaderSpec Ids MParUtil MParBlock MParMeta MParTrack MParCluster ClusterSpec ClusterSafeSpec PClusterSafe MParSegment MParWalk WalkSpec TrackSeekSpec
  PParWalk PParWalk2 PParWalk3 PTrackSeek.

(* ---------- lists ---------- *)

Lemma last_until_app : forall time a b, last_until time (a ++ b) = match last_until time b with Some p => Some p | None => last_until time a end.
Proof.
  intros time a b. unfold last_until. rewrite filter_app, rev_app_distr, hd_app. destruct (hd_error (rev (filter _ b))); reflexivity.
Qed.
Lemma last_until_none : forall time l, Forall (fun x => time < snd x) l -> last_until time l = None.
Proof.
  intros time l H. unfold last_until. replace (filter _ l) with (@nil (Z * Z * bentry * Z)); [reflexivity|]. symmetry. induction H as [|x l Hx H IH]; [reflexivity|]. cbn [filter]. replace (snd x <=? time) with false by lia. exact IH.
Qed.
Lemma last_until_cons : forall time x l, last_until time (x :: l) = match last_until time l with Some p => Some p | None => if snd x <=? time then Some (fst x) else None end.
Proof.
  intros time x l. change (x :: l) with ([x] ++ l). rewrite last_until_app. destruct (last_until time l); [reflexivity|]. unfold last_until. cbn [filter]. destruct (snd x <=? time); reflexivity.
Qed.
Lemma last_until_in : forall time l p, last_until time l = Some p -> exists x, In (p, x) l /\ x <= time.
Proof.
  intros time l p H. induction l as [|[q y] l IH]; [discriminate|]. rewrite last_until_cons in H. destruct (last_until time l) as [p'|].
  - destruct (IH H) as (x & H1 & H2). exists x. split; [right; exact H1|exact H2].
  - cbn [fst snd] in H. destruct (Z.leb_spec y time); [|discriminate]. injection H as ->. exists y. split; [left; reflexivity|exact H0].
Qed.
Lemma sorted_app : forall A (R : A -> A -> Prop) a b, StronglySorted R (a ++ b) -> StronglySorted R a /\ StronglySorted R b /\ Forall (fun x => Forall (R x) b) a.
Proof.
  induction a as [|x a IH]; intros b H; [split; [constructor|split; [exact H|constructor]]|]. cbn [app] in H. inversion H; subst. destruct (IH b H2) as (I1 & I2 & I3). apply Forall_app in H3 as [F1 F2].
  split; [constructor; assumption|]. split; [exact I2|]. constructor; assumption.
Qed.
Lemma timed_app : forall scale a b ci, timed scale ci (a ++ b) = timed scale ci a ++ timed scale (ci + zlen a) b.
Proof.
  induction a as [|[tc es] a IH]; intros b ci; [cbn [app timed]; rewrite zlen_nil, Z.add_0_r; reflexivity|]. cbn [app timed]. rewrite IH, zlen_cons, <- app_assoc. do 2 f_equal. f_equal. lia.
Qed.
Lemma timed_places : forall scale cs ci, map fst (timed scale ci cs) = places ci (map snd cs).
Proof.
  induction cs as [|[tc es] cs IH]; intros ci; [reflexivity|]. cbn [timed map snd places]. rewrite map_app, IH. f_equal. unfold at_times. rewrite map_map. cbn [fst]. apply map_id.
Qed.
Lemma filter_fst : forall A B (f : A -> bool) (l : list (A * B)), map fst (filter (fun x => f (fst x)) l) = filter f (map fst l).
Proof. intros A B f. induction l as [|[a b] l IH]; [reflexivity|]. cbn [filter map fst]. destruct (f a); cbn [map fst]; rewrite IH; reflexivity. Qed.
Lemma timed_in : forall scale cs ci p x, In (p, x) (timed scale ci cs) -> exists pre tc es suf, cs = pre ++ (tc, es) :: suf /\ In p (number (ci + zlen pre) 0 es) /\ x = block_time scale tc (snd p).
Proof.
  induction cs as [|[tc es] cs IH]; intros ci p x H; [destruct H|]. cbn [timed] in H. apply in_app_or in H as [H|H].
  - unfold at_times in H. apply in_map_iff in H as (q & E & H). injection E as <- <-. exists [], tc, es, cs. rewrite zlen_nil, Z.add_0_r. auto.
  - destruct (IH _ _ _ H) as (pre & tc' & es' & suf & -> & H1 & H2). exists ((tc, es) :: pre), tc', es', suf. rewrite zlen_cons. split; [reflexivity|]. split; [replace (ci + (1 + zlen pre)) with (ci + 1 + zlen pre) by lia; exact H1|exact H2].
Qed.
Lemma number_in : forall es ci k p, In p (number ci k es) -> fst (fst p) = ci /\ k <= snd (fst p) /\ In (snd p) es.
Proof.
  induction es as [|e es IH]; intros ci k p H; [destruct H|]. cbn [number] in H. destruct H as [<-|H]; [cbn; repeat split; auto; lia|]. destruct (IH _ _ _ H) as (H1 & H2 & H3). split; [exact H1|]. split; [lia|right; exact H3].
Qed.

Section Seek.
  Context (r : reader) (t : p_track) (cs : list (Z * list bentry)) (scale : Z).
  Context (HI : intact r) (HS : 1 <= scale).

  Let key (x : Z * Z * bentry * Z) : bool := of_this_track t (fst x) && entry_point t (fst x).
  Definition cand1 (ci tc : Z) (es : list bentry) : list (Z * Z * bentry * Z) :=
    match pt_kind t with
    | PVideo _ => filter key (at_times scale tc (number ci 0 es))
    | _ => match filter (of_this_track t) (number ci 0 es) with [] => [] | p :: _ => [(p, tc * scale)] end
    end.
  Fixpoint cands (ci : Z) (l : list (Z * list bentry)) : list (Z * Z * bentry * Z) :=
    match l with [] => [] | (tc, es) :: l => cand1 ci tc es ++ cands (ci + 1) l end.
  Lemma cands_app : forall a b ci, cands ci (a ++ b) = cands ci a ++ cands (ci + zlen a) b.
  Proof.
    induction a as [|[tc es] a IH]; intros b ci; [cbn [app cands]; rewrite zlen_nil, Z.add_0_r; reflexivity|]. cbn [app cands]. rewrite IH, zlen_cons, <- app_assoc. do 2 f_equal. f_equal. lia.
  Qed.
  Lemma cands_video : forall v, pt_kind t = PVideo v -> forall l ci, cands ci l = filter key (timed scale ci l).
  Proof. intros v Hv. induction l as [|[tc es] l IH]; intros ci; [reflexivity|]. cbn [cands timed]. rewrite filter_app, IH. f_equal. unfold cand1. rewrite Hv. reflexivity. Qed.
  Lemma cands_heads : (forall v, pt_kind t <> PVideo v) -> forall l ci, cands ci l = heads t scale ci l.
  Proof.
    intros Hv. induction l as [|[tc es] l IH]; intros ci; [reflexivity|]. cbn [cands heads]. rewrite IH. f_equal. unfold cand1. destruct (pt_kind t); try reflexivity. exfalso. eapply Hv. reflexivity.
  Qed.

  (* without an entrance there is no candidate *)
  Lemma no_cand : forall l ci, filter key (timed scale ci l) = [] -> cands ci l = [].
  Proof.
    induction l as [|[tc es] l IH]; intros ci H; [reflexivity|]. cbn [cands timed] in *. rewrite filter_app in H. apply app_eq_nil in H as [H1 H2]. rewrite (IH _ H2), app_nil_r.
    unfold cand1. destruct (pt_kind t) eqn:Ek; try exact H1.
    all: destruct (filter (of_this_track t) (number ci 0 es)) as [|p l'] eqn:E; [reflexivity|]; exfalso;
      assert (X : map fst (filter key (at_times scale tc (number ci 0 es))) = filter (fun p => of_this_track t p && entry_point t p) (number ci 0 es))
        by (unfold key; rewrite (filter_fst _ _ (fun p => of_this_track t p && entry_point t p)); unfold at_times; rewrite map_map; cbn [fst]; rewrite map_id; reflexivity);
      rewrite H1 in X; cbn [map] in X;
      assert (Y : filter (fun p => of_this_track t p && entry_point t p) (number ci 0 es) = filter (of_this_track t) (number ci 0 es))
        by (apply filter_ext; intros q; unfold entry_point; rewrite Ek, andb_true_r; reflexivity); congruence.
  Qed.

  (* ---------- the entry of one cluster ---------- *)

  Definition usable_times (tc : Z) (es : list bentry) : Prop := Forall (fun e => 0 <= bl_timecode (en_block e) /\ block_time scale tc e <= LLONG_MAX) es.
  Definition place_in (x : option (Z * Z * bentry)) : option (Z * bentry) := match x with Some (_, ei, e) => Some (ei, e) | None => None end.

  Lemma pick_video : forall v tc time ci, pt_kind t = PVideo v -> 0 <= tc -> 0 <= time -> forall es k result, usable_times tc es ->
    StronglySorted (fun a b => snd a <= snd b) (filter (fun x => of_this_track t (fst x)) (at_times scale tc (number ci k es))) ->
    pick t scale tc time k result es = match place_in (last_until time (filter key (at_times scale tc (number ci k es)))) with Some x => Some x | None => result end.
  Proof.
    intros v tc time ci Hv Htc Htime. induction es as [|e es IH]; intros k result HU HSo; [reflexivity|]. cbn [pick number]. unfold at_times in *. cbn [map number] in *. fold (at_times scale tc (number ci (k + 1) es)) in *.
    inversion HU as [|? ? [U1 U2] HU']; subst. cbv zeta. rewrite (block_get_time scale tc e HS Htc U1 U2). cbn [filter fst] in HSo. cbn [filter].
    unfold key at 1. cbn [fst]. change (of_this_track t (ci, k, e)) with (on_track t e) in *. destruct (on_track t e) eqn:Eo; cbn [negb andb].
    2:{ apply IH; assumption. }
    change (entry_point t (ci, k, e)) with (vets t e). inversion HSo as [|? ? S1 S2]; subst. cbn [snd] in S2.
    assert (LATE : time < block_time scale tc e -> last_until time (filter key (at_times scale tc (number ci (k + 1) es))) = None).
    { intros HL. apply last_until_none. apply Forall_forall. intros x Hx. apply filter_In in Hx as [H1 H2]. rewrite Forall_forall in S2. unfold key in H2. apply andb_true_iff in H2 as [H2 _].
      assert (block_time scale tc e <= snd x) by (apply S2; apply filter_In; auto). lia. }
    destruct (vets t e).
    - replace (time <? 0) with false by lia. rewrite last_until_cons. cbn [fst snd]. destruct (Z.gtb_spec (block_time scale tc e) time) as [HT|HT].
      + rewrite LATE by exact HT. replace (block_time scale tc e <=? time) with false by lia. reflexivity.
      + replace (block_time scale tc e <=? time) with true by lia. rewrite IH by assumption. destruct (last_until time _) as [[[a b] c]|]; reflexivity.
    - replace (time >=? 0) with true by lia. cbn [andb]. destruct (Z.gtb_spec (block_time scale tc e) time) as [HT|HT]; [rewrite LATE by exact HT; reflexivity|apply IH; assumption].
  Qed.
  Lemma pick_other : forall tc ci, (forall v, pt_kind t <> PVideo v) -> forall es k, pick t scale tc (-1) k None es = place_in (hd_error (filter (of_this_track t) (number ci k es))).
  Proof.
    intros tc ci Hv. induction es as [|e es IH]; intros k; [reflexivity|]. cbn [pick number filter]. change (of_this_track t (ci, k, e)) with (on_track t e). destruct (on_track t e); cbn [negb]; [|apply IH].
    unfold vets. destruct (pt_kind t) eqn:E; try reflexivity. exfalso. eapply Hv. reflexivity.
  Qed.

  Definition want (time : Z) : Z := match pt_kind t with PVideo _ => time | _ => -1 end.
  Lemma pick_cand : forall tc time ci es, 0 <= tc -> 0 <= time -> tc * scale <= time -> usable_times tc es ->
    match pt_kind t with PVideo _ => StronglySorted (fun a b => snd a <= snd b) (filter (fun x => of_this_track t (fst x)) (at_times scale tc (number ci 0 es))) | _ => True end ->
    pick t scale tc (want time) 0 None es = place_in (last_until time (cand1 ci tc es)).
  Proof.
    intros tc time ci es Htc Ht Hc HU HSo. unfold want, cand1. destruct (pt_kind t) eqn:Ek.
    all: try (rewrite (pick_video _ tc time ci Ek Htc Ht es 0 None HU HSo); destruct (place_in _); reflexivity).
    all: rewrite (pick_other tc ci) by congruence; destruct (filter (of_this_track t) (number ci 0 es)) as [|p l]; [reflexivity|]; cbn [hd_error]; rewrite last_until_cons;
      change (last_until time []) with (@None (Z * Z * bentry)); cbn [snd fst]; replace (tc * scale <=? time) with true by lia; reflexivity.
  Qed.
  Lemma cand1_in : forall ci tc es p x, In (p, x) (cand1 ci tc es) -> fst (fst p) = ci /\ In (snd p) es /\ (tc * scale <= x \/ x = block_time scale tc (snd p)).
  Proof.
    intros ci tc es p x H. unfold cand1 in H. destruct (pt_kind t).
    all: try (apply filter_In in H as [H _]; unfold at_times in H; apply in_map_iff in H as (q & E & H); injection E as <- <-; destruct (number_in _ _ _ _ H) as (H1 & H2 & H3); auto).
    all: destruct (filter (of_this_track t) (number ci 0 es)) as [|q l] eqn:E; [destruct H|]; destruct H as [H|[]]; injection H as <- <-;
      assert (Y : In q (filter (of_this_track t) (number ci 0 es))) by (rewrite E; left; reflexivity); apply filter_In in Y as [Y _];
      destruct (number_in _ _ _ _ Y) as (H1 & H2 & H3); split; [exact H1|]; split; [exact H3|left; lia].
  Qed.
  Lemma cands_in : forall l ci p x, In (p, x) (cands ci l) -> exists tc es, In (tc, es) l /\ In (snd p) es /\ (tc * scale <= x \/ x = block_time scale tc (snd p)).
  Proof.
    induction l as [|[tc es] l IH]; intros ci p x H; [destruct H|]. cbn [cands] in H. apply in_app_or in H as [H|H].
    - destruct (cand1_in _ _ _ _ _ H) as (H1 & H2 & H3). exists tc, es. split; [left; reflexivity|auto].
    - destruct (IH _ _ _ H) as (tc' & es' & H1 & H2 & H3). exists tc', es'. split; [right; exact H1|auto].
  Qed.

  (* ---------- the segment ---------- *)

  Definition scaled (s : pseg) : Prop := scale_of s = Val scale.
  Lemma scaled_grows : forall s s', grows s s' -> scaled s -> scaled s'.
  Proof. intros s s' G H. unfold scaled, scale_of in *. rewrite (gr_info _ _ G). exact H. Qed.

  Lemma time_at_run : forall s i tc es, seg_holds r cs s -> scaled s -> 0 <= i -> nth_error cs (Z.to_nat i) = Some (tc, es) -> tc * scale <= LLONG_MAX ->
    exists s' c, time_at r s i = Val (tc * scale, s') /\ seg_holds r cs s' /\ grows s s' /\ cluster_at s' i = Some c /\ holds r tc es c /\ cl_timecode c = tc.
  Proof.
    intros s i tc es H Hs Hi Hn HL. destruct (holds_at r cs s i tc es H Hi Hn) as (c & Ec & Hc). destruct (holds_time r tc es c HI Hc) as (c' & E & Hc' & He & Ht & _).
    unfold time_at. rewrite Hs, Ec. unfold Cluster_GetTime. rewrite E. pose proof (ho_pos _ _ _ _ Hc). replace (tc <? 0) with false by lia. replace (tc * scale >? LLONG_MAX) with false by lia.
    exists (set_cluster s i c'), c'. split; [reflexivity|]. split; [exact (set_holds r cs s i c' tc es H Hi Hn Hc')|]. split; [apply (set_grows s i c c' Ec); rewrite He; lia|].
    split; [|auto]. rewrite cluster_at_set by (exact (cluster_at_range _ _ _ Ec)). rewrite Z.eqb_refl. reflexivity.
  Qed.

  Definition ctime (i : Z) : Z := match nth_error cs (Z.to_nat i) with Some (tc, _) => tc * scale | None => 0 end.
  Lemma sorted_nth : forall l n m (a b : Z * list bentry), StronglySorted (fun a b => fst a <= fst b) l -> nth_error l n = Some a -> nth_error l m = Some b -> (n <= m)%nat -> fst a <= fst b.
  Proof.
    induction l as [|x l IH]; intros [|n] [|m] a b H Ha Hb Hn; cbn [nth_error] in *; try discriminate; try lia.
    - injection Ha as ->. injection Hb as ->. lia.
    - injection Ha as ->. inversion H; subst. rewrite Forall_forall in H3. apply H3. eapply nth_error_In; eassumption.
    - inversion H; subst. refine (IH n m a b H2 Ha Hb _). lia.
  Qed.

  Context (HO : in_order t scale cs).

  Lemma nth_times : forall n tc es, nth_error cs n = Some (tc, es) -> 0 <= tc /\ tc * scale <= LLONG_MAX /\ usable_times tc es.
  Proof. intros n tc es H. pose proof (io_times _ _ _ HO) as F. rewrite Forall_forall in F. exact (F _ (nth_error_In _ _ H)). Qed.

  Lemma ctime_mono : forall i j, 0 <= i <= j -> j < zlen cs -> ctime i <= ctime j.
  Proof.
    intros i j H1 H2. unfold ctime. destruct (nth_error cs (Z.to_nat i)) as [[a ea]|] eqn:Ea. 2:{ apply nth_error_None in Ea. unfold zlen in H2. lia. }
    destruct (nth_error cs (Z.to_nat j)) as [[b eb]|] eqn:Eb. 2:{ apply nth_error_None in Eb. unfold zlen in H2. lia. }
    pose proof (sorted_nth cs _ _ _ _ (io_clusters _ _ _ HO) Ea Eb ltac:(lia)) as X. cbn [fst] in X. nia.
  Qed.

  Lemma seek_search_run : forall time fuel s lo hi, seg_holds r cs s -> scaled s -> 0 <= lo <= hi -> hi <= zlen cs -> (Z.to_nat (hi - lo) < fuel)%nat ->
    exists k s', seek_search fuel r s time lo hi = Val (k, s') /\ lo <= k <= hi /\ seg_holds r cs s' /\ grows s s' /\
      (forall j, lo <= j < k -> ctime j <= time) /\ (forall j, k <= j < hi -> time < ctime j).
  Proof.
    intros time. induction fuel as [|fuel IH]; intros s lo hi H Hs H1 H2 Hf; [lia|]. cbn [seek_search]. destruct (Z.ltb_spec lo hi) as [HL|HL].
    2:{ exists lo, s. split; [reflexivity|]. split; [lia|]. split; [exact H|]. split; [apply grows_refl|]. split; intros j Hj; lia. }
    cbv zeta. set (mid := lo + (hi - lo) / 2). assert (Hm : lo <= mid < hi). { unfold mid. pose proof (Z.div_pos (hi - lo) 2 ltac:(lia) ltac:(lia)). assert ((hi - lo) / 2 < hi - lo) by (apply Z.div_lt; lia). lia. }
    destruct (nth_error cs (Z.to_nat mid)) as [[tc es]|] eqn:En. 2:{ apply nth_error_None in En. unfold zlen in H2. lia. }
    destruct (nth_times _ _ _ En) as (T1 & T2 & T3). destruct (time_at_run s mid tc es H Hs ltac:(lia) En T2) as (s1 & c & E & G1 & G2 & _). rewrite E.
    assert (HC : ctime mid = tc * scale) by (unfold ctime; rewrite En; reflexivity).
    destruct (Z.leb_spec (tc * scale) time) as [HT|HT].
    - destruct (IH s1 (mid + 1) hi G1 (scaled_grows _ _ G2 Hs) ltac:(lia) H2 ltac:(lia)) as (k & s' & E' & K & G1' & G2' & L1 & L2). exists k, s'. split; [exact E'|]. split; [lia|]. split; [exact G1'|]. split; [exact (grows_trans _ _ _ G2 G2')|].
      split; [|exact L2]. intros j Hj. destruct (Z.leb_spec j mid); [|apply L1; lia]. pose proof (ctime_mono j mid ltac:(lia) ltac:(lia)). lia.
    - destruct (IH s1 lo mid G1 (scaled_grows _ _ G2 Hs) ltac:(lia) ltac:(lia) ltac:(lia)) as (k & s' & E' & K & G1' & G2' & L1 & L2). exists k, s'. split; [exact E'|]. split; [lia|]. split; [exact G1'|]. split; [exact (grows_trans _ _ _ G2 G2')|].
      split; [exact L1|]. intros j Hj. destruct (Z.ltb_spec j mid); [apply L2; lia|]. pose proof (ctime_mono mid j ltac:(lia) ltac:(lia)). lia.
  Qed.

  Lemma cluster_sorted : forall pre tc es suf, cs = pre ++ (tc, es) :: suf ->
    match pt_kind t with PVideo _ => StronglySorted (fun a b => snd a <= snd b) (filter (fun x => of_this_track t (fst x)) (at_times scale tc (number (zlen pre) 0 es))) | _ => True end.
  Proof.
    intros pre tc es suf E. pose proof (io_blocks _ _ _ HO) as X. destruct (pt_kind t); try exact I. rewrite E, timed_app in X. cbn [timed] in X. rewrite !filter_app in X. rewrite Z.add_0_l in X.
    apply sorted_app in X as (_ & X & _). apply sorted_app in X as (X & _). exact X.
  Qed.

  Lemma seek_back_run : forall time, 0 <= time -> forall mid suf pre fuel s, cs = pre ++ mid ++ suf -> (length mid < fuel)%nat -> seg_holds r cs s -> scaled s ->
    Forall (fun c => fst c * scale <= time) mid ->
    exists s', seek_back fuel r s t time (want time) (zlen pre) (zlen pre + zlen mid) = Val (0, seek_answer (last_until time (cands (zlen pre) mid)), s') /\ seg_holds r cs s' /\ grows s s' /\
      ready s' (last_until time (cands (zlen pre) mid)).
  Proof.
    intros time Ht mid. induction mid as [|[tc es] mid IH] using rev_ind; intros suf pre fuel s Ec Hf H Hs HF; (destruct fuel as [|fuel]; [lia|]); cbn [seek_back].
    - rewrite zlen_nil, Z.add_0_r. replace (zlen pre >? zlen pre) with false by lia. exists s. split; [reflexivity|]. split; [exact H|]. split; [apply grows_refl|exact I].
    - rewrite (zlen_app _ mid). change (zlen [(tc, es)]) with 1. pose proof (zlen_nonneg _ mid). pose proof (zlen_nonneg _ pre). replace (zlen pre + (zlen mid + 1) >? zlen pre) with true by lia. cbv zeta.
      replace (zlen pre + (zlen mid + 1) - 1) with (zlen pre + zlen mid) by lia. rewrite <- app_assoc in Ec. cbn [app] in Ec.
      assert (En : nth_error cs (Z.to_nat (zlen pre + zlen mid)) = Some (tc, es)). { rewrite Ec, app_assoc, <- zlen_app. apply nth_mid. }
      destruct (nth_times _ _ _ En) as (T1 & T2 & T3). destruct (time_at_run s (zlen pre + zlen mid) tc es H Hs ltac:(lia) En T2) as (s1 & c & E & G1 & G2 & Hat & Hc & Hctc). rewrite E.
      apply Forall_app in HF as [HF HF2]. apply Forall_inv in HF2. rename HF2 into HT. cbn [fst] in HT. replace (tc * scale >? time) with false by lia.
      rewrite (scaled_grows _ _ G2 Hs), Hat. rename Hctc into Etc.
      assert (HFu : (length es < scan_fuel r c)%nat). { pose proof (holds_count r tc es c HI Hc). unfold scan_fuel. unfold zlen in H2. lia. }
      destruct (get_entry_run r scale t (want time) tc es HI es (scan_fuel r c) c [] None Hc Etc eq_refl (zlen_nonneg _ _) HFu I) as (c' & E' & Hc' & HL & HB). rewrite zlen_nil in E', HB. rewrite E'.
      assert (EP : pick t scale tc (want time) 0 None es = place_in (last_until time (cand1 (zlen pre + zlen mid) tc es))).
      { apply pick_cand; auto. rewrite app_assoc in Ec. rewrite <- zlen_app. exact (cluster_sorted (pre ++ mid) tc es suf Ec). }
      rewrite EP in *. rewrite cands_app. cbn [cands]. rewrite app_nil_r, last_until_app.
      assert (GS : grows s1 (set_cluster s1 (zlen pre + zlen mid) c')) by (exact (set_grows s1 _ c c' Hat HL)).
      assert (HS1 : seg_holds r cs (set_cluster s1 (zlen pre + zlen mid) c')) by (refine (set_holds r cs s1 _ c' tc es G1 _ En Hc'); lia).
      destruct (last_until time (cand1 (zlen pre + zlen mid) tc es)) as [[[ci ei] e]|] eqn:EL.
      + destruct (last_until_in _ _ _ EL) as (x & Hin & _). destruct (cand1_in _ _ _ _ _ Hin) as (Hci & _). cbn [fst] in Hci. subst ci. cbn [place_in seek_answer].
        eexists. split; [reflexivity|]. split; [exact HS1|]. split; [exact (grows_trans _ _ _ G2 GS)|]. cbn [ready]. exists c'. split; [|exact HB].
        rewrite cluster_at_set by (exact (cluster_at_range _ _ _ Hat)). rewrite Z.eqb_refl. reflexivity.
      + cbn [place_in].
        destruct (IH ((tc, es) :: suf) pre fuel (set_cluster s1 (zlen pre + zlen mid) c') Ec ltac:(rewrite app_length in Hf; cbn [length] in Hf; lia) HS1 (scaled_grows _ _ GS (scaled_grows _ _ G2 Hs)) HF) as (s' & E2 & H2 & G3 & R2).
        exists s'. split; [exact E2|]. split; [exact H2|]. split; [exact (grows_trans _ _ _ G2 (grows_trans _ _ _ GS G3))|exact R2].
  Qed.
End Seek.
