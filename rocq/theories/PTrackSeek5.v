(* Seeking in a muxed file: from the blocks of the clusters to the frames. *)
From Coq Require Import ZifyBool ZifyNat Sorted.
From Verif Require Import Base ReaderSpec MMuxBlock BlockSpec MMuxSegment SegmentSpec MuxFileSpec MParUtil MParBlock MParMeta MParTrack MParCluster ClusterSpec
  ClusterSafeSpec MParSegment SegReadSpec MParWalk WalkSpec WalkFileSpec TrackSeekSpec SeekFileSpec PParWalk6.

Lemma from_last_ok : forall A (ok : A -> bool) l b r, from_last ok l = b :: r -> ok b = true.
Proof.
  intros A ok. induction l as [|a l IH]; intros b r H; cbn [from_last] in H; [discriminate|]. destruct (from_last ok l) as [|x y] eqn:E.
  - destruct (ok a) eqn:Ea; [|discriminate]. injection H as <- _. exact Ea.
  - exact (IH b r H).
Qed.
Lemma from_last_filter : forall A (on ok : A -> bool) l, from_last ok (filter on l) = filter on (from_last (fun a => on a && ok a) l).
Proof.
  intros A on ok. induction l as [|a l IH]; [reflexivity|]. cbn [filter from_last].
  destruct (from_last (fun a => on a && ok a) l) as [|b r] eqn:E.
  - cbn [filter] in IH. destruct (on a) eqn:Ea; cbn [andb].
    + cbn [from_last]. rewrite IH. destruct (ok a); cbn [filter]; [rewrite Ea|]; reflexivity.
    + rewrite IH. reflexivity.
  - pose proof (from_last_ok _ _ _ _ _ E) as Hb. cbv beta in Hb. apply andb_true_iff in Hb as [Hb _].
    assert (X : exists y, filter on (b :: r) = b :: y) by (cbn [filter]; rewrite Hb; eauto). destruct X as [y Ey]. rewrite Ey in *.
    destruct (on a); [|exact IH]. cbn [from_last]. rewrite IH. reflexivity.
Qed.

Section Match.
  Context {A B : Type}.
  Variables (R : A -> B -> Prop) (on en : A -> bool) (on' en' : B -> bool).
  Hypothesis H1 : forall a b, R a b -> on a = on' b.
  Hypothesis H2 : forall a b, R a b -> en a = en' b.
  Lemma first_match : forall la lb, Forall2 R la lb ->
    match filter (fun b => on' b && en' b) lb with
    | [] => since en (filter on la) = []
    | b :: _ => exists p q a q', lb = p ++ b :: q /\ since en (filter on la) = a :: filter on q' /\ R a b /\ Forall2 R q' q
    end.
  Proof.
    intros la lb H. induction H as [|a b la lb Hab H IH]; [reflexivity|]. cbn [filter]. rewrite <- (H1 _ _ Hab), <- (H2 _ _ Hab).
    assert (X : match filter (fun b => on' b && en' b) lb with [] => since en (filter on la) = []
      | b0 :: _ => exists p q a0 q', b :: lb = p ++ b0 :: q /\ since en (filter on la) = a0 :: filter on q' /\ R a0 b0 /\ Forall2 R q' q end).
    { destruct (filter (fun b => on' b && en' b) lb) as [|b0 x]; [exact IH|]. destruct IH as (p & q & a0 & q' & -> & Y). exists (b :: p), q, a0, q'. split; [reflexivity|exact Y]. }
    destruct (on a); cbn [andb]; [|exact X]. cbn [since]. destruct (en a); [|exact X]. exists [], lb, a, la. auto.
  Qed.
  Lemma last_match : forall la lb, Forall2 R la lb ->
    match hd_error (rev (filter (fun b => on' b && en' b) lb)) with
    | None => from_last (fun a => on a && en a) la = []
    | Some b => exists p q a q', lb = p ++ b :: q /\ from_last (fun a => on a && en a) la = a :: q' /\ R a b /\ Forall2 R q' q
    end.
  Proof.
    intros la lb H. induction H as [|a b la lb Hab H IH]; [reflexivity|]. cbn [filter from_last]. rewrite (H1 _ _ Hab), (H2 _ _ Hab).
    destruct (rev (filter (fun b => on' b && en' b) lb)) as [|b0 x] eqn:E; cbn [hd_error] in IH.
    - rewrite IH. destruct (on' b && en' b); [|rewrite E; reflexivity]. cbn [rev]. rewrite E. cbn [app hd_error]. exists [], lb, a, la. auto.
    - destruct IH as (p & q & a0 & q' & -> & Ea & Y). rewrite Ea.
      assert (X : hd_error (rev (if on' b && en' b then b :: filter (fun b => on' b && en' b) (p ++ b0 :: q) else filter (fun b => on' b && en' b) (p ++ b0 :: q))) = Some b0).
      { destruct (on' b && en' b); cbn [rev]; rewrite E; reflexivity. }
      rewrite X. exists (b :: p), q, a0, q'. split; [reflexivity|auto].
  Qed.
End Match.

Section Muxed.
  Variables (r : reader) (scale : Z) (l : layout) (t : p_track).
  Hypothesis Hsc : 1 <= scale.

  (* a cluster of the file and what the parser shows of it *)
  Definition reads (c : mcluster) (x : Z * list bentry) : Prop :=
    fst x = mc_tc c /\ Forall2 (entry_carries r (mc_tc c) scale) (mc_frames c) (snd x).
  Definition SH := shows_frame r scale l.
  Definition ST (f : frame) (x : Z * Z * bentry * Z) : Prop := SH f (fst x) /\ snd x = stored_time scale f.

  Lemma number_ST : forall c tc es ci ei fs, In c (lo_clusters l) -> mc_tc c = tc -> incl fs (mc_frames c) -> Forall2 (entry_carries r tc scale) fs es ->
    Forall2 ST fs (at_times scale tc (number ci ei es)).
  Proof.
    intros c tc es ci ei fs Hc Htc Hi H. revert ei Hi. induction H as [|f e fs es Hfe H IH]; intros ei Hi; [constructor|]. cbn [number at_times map]. constructor.
    - split; [exists c; split; [exact Hc|split; [apply Hi; left; reflexivity|rewrite Htc; exact Hfe]]|]. cbn [snd]. unfold block_time, stored_time. destruct Hfe as (_ & -> & _). unfold frame_rel. f_equal. lia.
    - apply IH. intros x Hx. apply Hi. right. exact Hx.
  Qed.
  Lemma timed_ST : forall mcs cs ci, incl mcs (lo_clusters l) -> Forall2 reads mcs cs -> Forall2 ST (concat (map mc_frames mcs)) (timed scale ci cs).
  Proof.
    intros mcs cs ci Hi H. revert ci Hi. induction H as [|c [tc es] mcs cs [Hc1 Hc2] H IH]; intros ci Hi; [constructor|]. cbn [map concat timed fst snd] in *. apply Forall2_app.
    - subst tc. apply number_ST with (c := c); [apply Hi; left; reflexivity|reflexivity|intros x Hx; exact Hx|exact Hc2].
    - apply IH. intros x Hx. apply Hi. right. exact Hx.
  Qed.
  Lemma timed_places : forall cs ci, map fst (timed scale ci cs) = places ci (map snd cs).
  Proof. induction cs as [|[tc es] cs IH]; intros ci; [reflexivity|]. cbn [timed map snd places]. rewrite map_app, IH. unfold at_times. rewrite map_map. cbn [fst]. rewrite map_id. reflexivity. Qed.

  Lemma SH_on : forall f p, SH f p -> frame_of t f = of_this_track t p.
  Proof. intros f p (c & _ & _ & Y & _). unfold frame_of, of_track, of_this_track. rewrite Y. reflexivity. Qed.
  Lemma SH_en : forall f p, SH f p -> enters t f = entry_point t p.
  Proof. intros f p (c & _ & _ & _ & _ & Y & _). unfold enters, entry_point. rewrite Y. reflexivity. Qed.
  Lemma ST_places : forall fs L, Forall2 ST fs L -> Forall2 SH fs (map fst L).
  Proof. intros fs L H. induction H as [|f x fs L [Hf _] H IH]; constructor; assumption. Qed.

  (* what is found, and what follows it *)
  Definition found (fs : list frame) (places : list (Z * Z * bentry)) (p : Z * Z * bentry) : Prop :=
    exists A B f B', places = A ++ p :: B /\ fs = f :: filter (frame_of t) B' /\ SH f p /\ Forall2 SH B' B.

  Lemma heads_match : forall mcs cs ci time, incl mcs (lo_clusters l) -> Forall2 reads mcs cs ->
    let R := from_last (fun c => existsb (frame_of t) (mc_frames c) && (mc_tc c * scale <=? time)) mcs in
    match last_until time (heads t scale ci cs) with
    | None => R = []
    | Some p => found (filter (frame_of t) (concat (map mc_frames R))) (places ci (map snd cs)) p
    end.
  Proof.
    intros mcs cs ci time Hi H. revert ci Hi. induction H as [|c [tc es] mcs cs [Hc1 Hc2] H IH]; intros ci Hi; [reflexivity|].
    cbn [fst snd] in *. subst tc. assert (Hi' : incl mcs (lo_clusters l)) by (intros x Hx; apply Hi; right; exact Hx). specialize (IH (ci + 1) Hi').
    cbn [from_last heads map snd places]. cbv zeta in IH |- *. unfold last_until in *. rewrite filter_app, rev_app_distr.
    set (HS := rev (filter (fun x => snd x <=? time) (heads t scale (ci + 1) cs))) in *. set (R := from_last _ mcs) in *.
    destruct HS as [|h HS']; cbn [hd_error option_map app] in IH |- *.
    - rewrite IH. clear IH. pose proof (ST_places _ _ (number_ST c (mc_tc c) es ci 0 (mc_frames c) (Hi c (or_introl eq_refl)) eq_refl (incl_refl _) Hc2)) as HN.
      unfold at_times in HN. rewrite map_map in HN. cbn [fst] in HN. rewrite map_id in HN.
      pose proof (first_match SH (frame_of t) (fun _ => true) (of_this_track t) (fun _ => true) SH_on (fun _ _ _ => eq_refl) _ _ HN) as X.
      assert (EF : forall n, filter (fun b => of_this_track t b && true) n = filter (of_this_track t) n) by (intros n; apply filter_ext; intros a; apply andb_true_r). rewrite EF in X. clear EF.
      assert (ES : forall n : list frame, since (fun _ => true) n = n) by (intros [|? ?]; reflexivity). rewrite ES in X. clear ES.
      destruct (filter (of_this_track t) (number ci 0 es)) as [|p y] eqn:EN.
      + cbn [filter rev hd_error option_map]. replace (existsb (frame_of t) (mc_frames c)) with false; [reflexivity|]. symmetry. clear - X.
        induction (mc_frames c) as [|a fs IHf]; [reflexivity|]. cbn [filter existsb] in *. destruct (frame_of t a); [discriminate|]. exact (IHf X).
      + destruct X as (A & B & f & B' & X1 & X2 & X3 & X4).
        assert (EX : existsb (frame_of t) (mc_frames c) = true).
        { apply existsb_exists. assert (HIn : In f (filter (frame_of t) (mc_frames c))) by (rewrite X2; left; reflexivity). apply filter_In in HIn. exists f. exact HIn. }
        rewrite EX. cbn [filter snd andb]. destruct (mc_tc c * scale <=? time); cbn [rev hd_error option_map app fst]; [|reflexivity].
        pose proof (ST_places _ _ (timed_ST mcs cs (ci + 1) Hi' H)) as HT. rewrite timed_places in HT.
        exists A, (B ++ places (ci + 1) (map snd cs)), f, (B' ++ concat (map mc_frames mcs)). split; [rewrite X1, <- app_assoc; reflexivity|].
        split; [cbn [map concat]; rewrite !filter_app, X2; reflexivity|]. split; [exact X3|]. apply Forall2_app; assumption.
    - destruct IH as (A & B & f & B' & X1 & X2 & X3 & X4). destruct R as [|c0 R]; [discriminate X2|]. exists (number ci 0 es ++ A), B, f, B'.
      split; [rewrite X1, app_assoc; reflexivity|]. auto.
  Qed.

  Lemma seek_match : forall cs time, Forall2 reads (lo_clusters l) cs ->
    match sought t scale time cs with
    | None => seek_frames t scale time l = []
    | Some p => found (seek_frames t scale time l) (places 0 (map snd cs)) p
    end.
  Proof.
    intros cs time HR. pose proof (timed_ST _ _ 0 (incl_refl _) HR) as HT. fold (lo_frames l) in HT. unfold sought, seek_frames. cbv zeta.
    assert (S1 : forall a b, ST a b -> frame_of t a = of_this_track t (fst b)) by (intros a b [Hab _]; exact (SH_on _ _ Hab)).
    assert (S2 : forall a b, ST a b -> enters t a = entry_point t (fst b)) by (intros a b [Hab _]; exact (SH_en _ _ Hab)).
    pose proof (first_match ST (frame_of t) (enters t) (fun b => of_this_track t (fst b)) (fun b => entry_point t (fst b)) S1 S2 _ _ HT) as X. cbv beta in X. fold (entrances t scale cs) in X.
    destruct (entrances t scale cs) as [|[p first] es] eqn:EE.
    - rewrite X. reflexivity.
    - destruct X as (A & B & f & B' & X1 & X2 & [X3 X3'] & X4). cbn [fst snd] in *. rewrite X2. subst first. destruct (time <=? stored_time scale f).
      + exists (map fst A), (map fst B), f, B'. rewrite <- timed_places, X1, map_app. cbn [map fst]. split; [reflexivity|]. split; [reflexivity|]. split; [exact X3|exact (ST_places _ _ X4)].
      + assert (HV : match last_until time ((p, stored_time scale f) :: es) with
            | None => from_last (fun g => enters t g && (stored_time scale g <=? time)) (filter (frame_of t) (lo_frames l)) = []
            | Some q => found (from_last (fun g => enters t g && (stored_time scale g <=? time)) (filter (frame_of t) (lo_frames l))) (places 0 (map snd cs)) q
            end).
        { rewrite <- EE. rewrite from_last_filter.
          assert (S3 : forall a b, ST a b -> enters t a && (stored_time scale a <=? time) = entry_point t (fst b) && (snd b <=? time)).
          { intros a b Hab. rewrite (S2 a b Hab). destruct Hab as [_ ->]. reflexivity. }
          pose proof (last_match ST (frame_of t) _ (fun b => of_this_track t (fst b)) (fun b => entry_point t (fst b) && (snd b <=? time)) S1 S3 _ _ HT) as Y. cbv beta in Y. unfold last_until, entrances.
          assert (EF : filter (fun x => snd x <=? time) (filter (fun x => of_this_track t (fst x) && entry_point t (fst x)) (timed scale 0 cs)) =
            filter (fun b => of_this_track t (fst b) && (entry_point t (fst b) && (snd b <=? time))) (timed scale 0 cs)).
          { clear. induction (timed scale 0 cs) as [|x L IH]; [reflexivity|]. cbn [filter]. destruct (of_this_track t (fst x)), (entry_point t (fst x)); cbn [andb]; try exact IH. cbn [filter].
            destruct (snd x <=? time); [f_equal|]; exact IH. }
          rewrite EF. destruct (hd_error _) as [[q tq]|]; cbn [option_map fst] in *; [|rewrite Y; reflexivity].
          destruct Y as (A1 & B1 & f1 & B1' & Y1 & Y2 & [Y3 _] & Y4). exists (map fst A1), (map fst B1), f1, B1'. rewrite <- timed_places, Y1, map_app. cbn [map fst].
          split; [reflexivity|]. rewrite Y2. cbn [filter]. pose proof (from_last_ok _ _ _ _ _ Y2) as Z. cbv beta in Z. apply andb_true_iff in Z as [-> _].
          split; [reflexivity|]. split; [exact Y3|exact (ST_places _ _ Y4)]. }
        pose proof (heads_match _ _ 0 time (incl_refl _) HR) as HH. cbv zeta in HH.
        destruct (pt_kind t); [|exact HV|]; (destruct (last_until time (heads t scale 0 cs)); [exact HH|rewrite HH; reflexivity]).
  Qed.

  (* the order of the file is that of the blocks *)
  Hypothesis Hstored : Forall (stored_cluster false scale) (lo_clusters l) \/ Forall (stored_cluster true scale) (lo_clusters l).
  Hypothesis Hrel : Forall (fun c => Forall (fun f => mc_tc c <= fr_timestamp f / scale) (mc_frames c)) (lo_clusters l).
  Hypothesis Hfull : Forall (fun c => mc_frames c <> []) (lo_clusters l).
  Hypothesis Hord : StronglySorted Z.le (map mc_tc (lo_clusters l)).
  Hypothesis Hts : sorted_ts (lo_frames l).

  Lemma stored_mono : forall f g, fr_timestamp f <= fr_timestamp g -> stored_time scale f <= stored_time scale g.
  Proof. intros f g H. unfold stored_time. apply Z.mul_le_mono_nonneg_r; [lia|]. apply Z.div_le_mono; lia. Qed.
  Lemma muxed_in_order : forall cs, Forall2 reads (lo_clusters l) cs -> in_order t scale cs.
  Proof.
    intros cs HR.
    assert (HB : Forall (fun c => 0 <= mc_tc c /\ Forall (fun f => 0 <= fr_timestamp f < 2 ^ 63) (mc_frames c)) (lo_clusters l)).
    { destruct Hstored as [Hs|Hs]; (eapply Forall_impl; [|exact Hs]); intros c (X1 & X2 & _); (split; [lia|]); (eapply Forall_impl; [|exact X2]); intros f (_ & _ & _ & _ & _ & _ & Hf & _); exact Hf. }
    constructor.
    - clear - HR Hord. remember (map mc_tc (lo_clusters l)) as tl eqn:E. assert (EM : map fst cs = tl). { subst tl. clear - HR. induction HR as [|c x mcs cs [Hc _] HR IH]; [reflexivity|]. cbn [map]. rewrite Hc, IH. reflexivity. }
      clear E HR. revert cs EM. induction Hord as [|a tl Ht IH Ha]; intros cs EM; destruct cs as [|x cs]; try discriminate EM; [constructor|]. injection EM as E1 E2. constructor; [exact (IH Ht _ E2)|].
      rewrite <- E2 in Ha. rewrite Forall_map in Ha. eapply Forall_impl; [|exact Ha]. intros y Hy. cbv beta in *. lia.
    - clear - HR HB Hrel Hfull Hsc. revert HB Hrel Hfull. induction HR as [|c x mcs cs [Hc HE] HR IH]; intros HB Hrel Hfull; [constructor|].
      pose proof (Forall_inv HB) as [HB1 HB2]. pose proof (Forall_inv Hrel) as HR1. pose proof (Forall_inv Hfull) as HF1. cbv beta in *.
      constructor; [|apply IH; [exact (Forall_inv_tail HB)|exact (Forall_inv_tail Hrel)|exact (Forall_inv_tail Hfull)]]. rewrite Hc.
      assert (HS : forall f, In f (mc_frames c) -> stored_time scale f <= LLONG_MAX /\ mc_tc c * scale <= stored_time scale f).
      { intros f Hf. rewrite Forall_forall in HB2, HR1. specialize (HB2 f Hf). specialize (HR1 f Hf). unfold stored_time, LLONG_MAX.
        pose proof (Z.mul_div_le (fr_timestamp f) scale ltac:(lia)). change (2 ^ 63) with 9223372036854775808 in HB2. nia. }
      split; [exact HB1|]. split. { destruct (mc_frames c) as [|f fs]; [congruence|]. destruct (HS f (or_introl eq_refl)). lia. }
      clear - HE HS HR1. revert HS HR1. induction HE as [|f e fs es Hfe HE IH]; intros HS HR1; [constructor|]. constructor.
      + destruct (HS f (or_introl eq_refl)) as [X _]. pose proof (Forall_inv HR1) as Y. cbv beta in Y. destruct Hfe as (_ & Z & _). unfold block_time. rewrite Z. unfold frame_rel. split; [lia|].
        unfold stored_time in X. replace (mc_tc c + (fr_timestamp f / scale - mc_tc c)) with (fr_timestamp f / scale) by lia. exact X.
      + apply IH; [intros g Hg; apply HS; right; exact Hg|exact (Forall_inv_tail HR1)].
    - destruct (pt_kind t); try exact I. pose proof (timed_ST _ _ 0 (incl_refl _) HR) as HT. fold (lo_frames l) in HT. clear - HT Hts Hsc.
      assert (X : StronglySorted (fun a b : Z * Z * bentry * Z => snd a <= snd b) (timed scale 0 cs)).
      { revert Hts. induction HT as [|f x fs L Hfx HT IH]; intros Hts; [constructor|]. inversion Hts as [|? ? T1 T2]; subst. constructor; [exact (IH T1)|].
        clear - HT T2 Hfx Hsc. destruct Hfx as [_ Hx]. revert T2. induction HT as [|g y fs L Hgy HT IH]; intros T2; [constructor|]. inversion T2; subst. constructor; [|exact (IH H2)].
        destruct Hgy as [_ ->]. rewrite Hx. apply stored_mono. assumption. }
      clear - X. induction X as [|x L HL IH Hx]; [constructor|]. cbn [filter]. destruct (of_this_track t (fst x)); [|exact IH]. constructor; [exact IH|].
      rewrite Forall_forall in *. intros y Hy. apply filter_In in Hy as [Hy _]. exact (Hx y Hy).
  Qed.

  (* what the parser shows of the clusters *)
  Lemma shows_reads : forall mcs pos pcs, Forall (fun c => mc_frames c <> []) mcs -> shows_clusters r scale pos mcs pcs -> exists cs, Forall2 (shows_times r) pcs cs /\ Forall2 reads mcs cs.
  Proof.
    induction mcs as [|c mcs IH]; intros pos pcs HF H; cbn [shows_clusters] in H; [subst pcs; exists []; split; constructor|]. pose proof (Forall_inv HF) as Hc. cbv beta in Hc.
    destruct (mc_frames c) as [|f fs] eqn:Ef; [congruence|]. destruct pcs as [|pc pcs]; [contradiction|]. destruct H as (_ & H2 & H3). destruct (IH _ _ (Forall_inv_tail HF) H3) as (cs & X1 & X2).
    destruct H2 as (HT & c1 & e & es & c2 & G1 & G2 & G3). exists ((mc_tc c, e :: es) :: cs). split; (constructor; [|assumption]).
    - split; [exact HT|]. exists c1, c2. auto.
    - split; [reflexivity|exact G3].
  Qed.
  Lemma reads_pairs : forall mcs cs, incl mcs (lo_clusters l) -> Forall (fun c => mc_frames c <> []) mcs -> Forall2 reads mcs cs ->
    pairs (fun f e => SH f (0, 0, e)) (map mc_frames mcs) (map snd cs).
  Proof.
    intros mcs cs Hi HF H. revert Hi HF. induction H as [|c x mcs cs [_ Hx] H IH]; intros Hi HF; [reflexivity|]. pose proof (Forall_inv HF) as Hc. cbv beta in Hc. cbn [map pairs].
    assert (HX : Forall2 (fun f e => SH f (0, 0, e)) (mc_frames c) (snd x)).
    { clear - Hx Hi. pose proof (Hi c (or_introl eq_refl)) as Hc. assert (Hin : incl (mc_frames c) (mc_frames c)) by apply incl_refl. revert Hx Hin. generalize (mc_frames c) at 1 2 4 as fs. intros fs Hx. induction Hx as [|f e fs es Hfe Hx IH]; intros Hin; constructor.
      - exists c. split; [exact Hc|]. split; [apply Hin; left; reflexivity|exact Hfe].
      - apply IH. intros y Hy. apply Hin. right. exact Hy. }
    destruct (mc_frames c) as [|f fs]; [congruence|]. split; [exact HX|]. apply IH; [intros y Hy; apply Hi; right; exact Hy|exact (Forall_inv_tail HF)].
  Qed.
  Lemma reads_spaced : forall cs, Forall2 reads (lo_clusters l) cs -> spaced (frame_of t) (enters t) (map mc_frames (lo_clusters l)) -> close_together t (map snd cs).
  Proof.
    intros cs HR HS. refine (pairs_spaced (fun f e => SH f (0, 0, e)) _ _ _ _ _ _ _ _ (reads_pairs _ _ (incl_refl _) Hfull HR) HS).
    - intros f e Hf. exact (SH_on _ _ Hf). - intros f e Hf. exact (SH_en _ _ Hf).
  Qed.
End Muxed.
