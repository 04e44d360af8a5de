(* Proofs about seeking in a track: the parts. *)
From Coq Require Import ZifyBool ZifyNat Sorted.
From Verif Require Import Base ReaderSpec Ids MParUtil MParBlock MParMeta MParTrack MParCluster ClusterSpec ClusterSafeSpec PClusterSafe MParSegment MParWalk WalkSpec TrackSeekSpec
  PParWalk PParWalk2 PParWalk3.

(* ---------- one cluster ---------- *)

Lemma holds_time : forall r tc all c, intact r -> holds r tc all c ->
  exists c', Cluster_GetTimeCode r c = Some (Val (tc, c')) /\ holds r tc all c' /\ entries c' = entries c /\ cl_timecode c' = tc /\ cl_start c' = cl_start c.
Proof.
  intros r tc all c HI [Hc (c' & E) Ht (rest & Ea & Hp)]. destruct (Load_timecode r c tc c' HI Hc Ht E) as (L1 & L2 & L3 & L4 & L5 & L6). exists c'. split; [exact E|]. split; [|auto].
  constructor; auto.
  - unfold Cluster_GetTimeCode, Cluster_Load. replace (cl_timecode c' >=? 0) with true by lia. change (0 <? 0) with false. cbv iota. rewrite L2. eauto.
  - exists rest. split; [congruence|]. inversion Hp; subst; econstructor; try (rewrite <- L6; eassumption); congruence.
Qed.
Lemma holds_tc : forall r tc all c, holds r tc all c -> 0 <= cl_timecode c -> cl_timecode c = tc.
Proof.
  intros r tc all c [_ (c' & E) _ _] H. unfold Cluster_GetTimeCode, Cluster_Load in E. replace (cl_timecode c >=? 0) with true in E by lia. change (0 <? 0) with false in E. cbv iota in E. congruence.
Qed.
Lemma parsed_tc : forall r tc all c, holds r tc all c -> 1 <= zlen (entries c) -> cl_timecode c = tc.
Proof.
  intros r tc all c H HL. apply (holds_tc r tc all c H). destruct H as [(_ & Hi) _ _ _]. destruct (Z.ltb_spec (cl_timecode c) 0); [|lia]. destruct Hi as (_ & _ & _ & Hn). unfold entries in HL. rewrite Hn in HL. cbn in HL. lia.
Qed.

(* Cluster::GetEntry on the list of entries *)
Fixpoint pick (t : p_track) (scale tc time index : Z) (result : option (Z * bentry)) (es : list bentry) : option (Z * bentry) :=
  match es with
  | [] => result
  | e :: es =>
      let ns := Block_GetTime (en_block e) tc scale in
      if negb (on_track t e) then pick t scale tc time (index + 1) result es
      else if vets t e then
        if time <? 0 then Some (index, e)
        else if ns >? time then result
        else pick t scale tc time (index + 1) (Some (index, e)) es
      else if (time >=? 0) && (ns >? time) then result
      else pick t scale tc time (index + 1) result es
  end.
Definition in_bounds (c : cluster) (x : option (Z * bentry)) : Prop := match x with Some (k, _) => 0 <= k < zlen (entries c) | None => True end.
Lemma bounds_more : forall c c' x, zlen (entries c) <= zlen (entries c') -> in_bounds c x -> in_bounds c' x.
Proof. intros c c' [[k e]|] H1 H2; cbn [in_bounds] in *; [lia|exact I]. Qed.
Lemma get_entry_run : forall r scale t time tc all, intact r -> forall post fuel c pre result,
  holds r tc all c -> cl_timecode c = tc -> all = pre ++ post -> zlen pre <= zlen (entries c) -> (length post < fuel)%nat -> in_bounds c result ->
  exists c', get_entry fuel r scale t time c (zlen pre) result = Val (pick t scale tc time (zlen pre) result post, c') /\ holds r tc all c' /\ zlen (entries c) <= zlen (entries c') /\ in_bounds c' (pick t scale tc time (zlen pre) result post).
Proof.
  intros r scale t time tc all HI. induction post as [|e post IH]; intros fuel c pre result Hc Htc Ha Hpre Hf HB; (destruct fuel as [|fuel]; [lia|]); cbn [get_entry].
  - destruct (entry_count_entries c) as (N1 & N2 & N3). destruct (holds_prefix r tc all c Hc) as (rest & Hr).
    assert (HL : zlen (entries c) <= zlen pre). { rewrite app_nil_r in Ha. subst pre. rewrite Hr, zlen_app. pose proof (zlen_nonneg _ rest). lia. }
    assert (HG : (zlen pre >=? entry_count c) = true). { unfold entry_count in *. unfold entries in HL, Hpre. pose proof (zlen_nonneg _ pre). destruct (cl_entries c); lia. }
    rewrite HG. destruct (holds_run r tc all c HI Hc) as (st & c' & E & Hst). rewrite E. destruct (holds_parse r tc all c st c' HI Hc E Hst) as (Hc' & _ & _ & X0 & X1).
    destruct (Z.eq_dec st 0) as [->|Hs].
    { exfalso. destruct (X0 eq_refl) as (x & Ex). destruct (holds_prefix r tc all c' Hc') as (rest' & Hr'). rewrite app_nil_r in Ha. subst pre. rewrite Ex in Hr'.
      assert (Q : zlen all = zlen ((entries c ++ [x]) ++ rest')) by congruence. rewrite !zlen_app in Q. change (zlen [x]) with 1 in Q. pose proof (zlen_nonneg _ rest'). lia. }
    replace (st <? 0) with false by lia. replace (st >? 0) with true by lia. cbn [pick]. exists c'. split; [reflexivity|]. split; [exact Hc'|]. destruct (X1 Hs) as (_ & Y1 & Y2). assert (Y : zlen (entries c) <= zlen (entries c')) by (rewrite Y1, Y2; lia). split; [exact Y|exact (bounds_more c c' result Y HB)].
  - (* open: an entry is there *)
    assert (X : exists c1, (if zlen pre >=? entry_count c then
               match Cluster_Parse r c with
               | None => UB | Some UB => UB
               | Some (Val (status, c)) => if status <? 0 then UB else if status >? 0 then Val (true, c) else if zlen pre >=? entry_count c then UB else Val (false, c)
               end else Val (false, c)) = Val (false, c1) /\ holds r tc all c1 /\ cl_timecode c1 = tc /\ zlen pre + 1 <= zlen (entries c1) /\ zlen (entries c) <= zlen (entries c1)).
    { destruct (entry_count_entries c) as (N1 & N2 & N3). destruct (Z.geb_spec (zlen pre) (entry_count c)) as [HG|HG].
      - destruct (holds_run r tc all c HI Hc) as (st & c' & E & Hst). rewrite E. destruct (holds_parse r tc all c st c' HI Hc E Hst) as (Hc' & _ & T & X0 & X1).
        assert (HLc : zlen (entries c) <= zlen pre). { destruct (Z.leb_spec 1 (zlen (entries c))) as [Q|Q]; [rewrite N3 in HG by exact Q; lia|]. pose proof (zlen_nonneg _ pre). lia. }
        assert (HA : zlen all = zlen pre + 1 + zlen post) by (rewrite Ha, zlen_app, zlen_cons; lia). pose proof (zlen_nonneg _ post).
        destruct (Z.eq_dec st 0) as [->|Hs]; [|destruct (X1 Hs) as (_ & _ & Y2); rewrite Y2 in HLc; lia].
        destruct (X0 eq_refl) as (x & Ex). change (0 <? 0) with false. change (0 >? 0) with false. cbv iota.
        assert (HLc' : zlen (entries c') = zlen (entries c) + 1) by (rewrite Ex, zlen_app; reflexivity). pose proof (zlen_nonneg _ (entries c)).
        destruct (entry_count_entries c') as (M1 & M2 & M3). rewrite M3 by lia. replace (zlen pre >=? zlen (entries c')) with false by lia.
        exists c'. split; [reflexivity|]. split; [exact Hc'|]. split; [exact T|]. lia.
      - exists c. split; [reflexivity|]. split; [exact Hc|]. split; [exact Htc|]. rewrite N1 in HG by (pose proof (zlen_nonneg _ pre); lia). lia. }
    destruct X as (c1 & -> & Hc1 & Ht1 & HL1 & HL2). rewrite entry_at_entries. destruct (holds_prefix r tc all c1 Hc1) as (rest & Hr).
    assert (HE : nth_error (entries c1) (Z.to_nat (zlen pre)) = Some e).
    { assert (Q : nth_error all (Z.to_nat (zlen pre)) = Some e) by (rewrite Ha; apply nth_mid). rewrite Hr, nth_error_app1 in Q by (unfold zlen in *; lia). exact Q. }
    rewrite HE. cbv zeta. rewrite Ht1. cbn [pick]. cbv zeta.
    pose proof (bounds_more c c1 result HL2 HB) as HB1.
    assert (HB2 : in_bounds c1 (Some (zlen pre, e))) by (cbn [in_bounds]; pose proof (zlen_nonneg _ pre); lia).
    assert (GO : forall res, in_bounds c1 res -> exists c', get_entry fuel r scale t time c1 (zlen pre + 1) res = Val (pick t scale tc time (zlen pre + 1) res post, c') /\ holds r tc all c' /\ zlen (entries c) <= zlen (entries c') /\ in_bounds c' (pick t scale tc time (zlen pre + 1) res post)).
    { intros res HR. destruct (IH fuel c1 (pre ++ [e]) res Hc1 Ht1) as (c' & E & H1 & H2 & H3); [rewrite <- app_assoc; exact Ha|rewrite zlen_app; exact HL1|cbn [length] in Hf; lia|exact HR|].
      rewrite zlen_app in E, H3. change (zlen [e]) with 1 in E, H3. exists c'. split; [exact E|]. split; [exact H1|]. split; [lia|exact H3]. }
    assert (ST : forall res : option (Z * bentry), in_bounds c1 res -> exists c', Val (res, c1) = Val (res, c') /\ holds r tc all c' /\ zlen (entries c) <= zlen (entries c') /\ in_bounds c' res) by (intros res HR; exists c1; auto).
    destruct (negb (on_track t e)); [apply GO; assumption|]. destruct (vets t e).
    + destruct (time <? 0); [apply ST; assumption|]. destruct (_ >? time); [apply ST; assumption|apply GO; assumption].
    + destruct ((time >=? 0) && _); [apply ST; assumption|apply GO; assumption].
Qed.

Lemma block_get_time : forall scale tc e, 1 <= scale -> 0 <= tc -> 0 <= bl_timecode (en_block e) -> block_time scale tc e <= LLONG_MAX -> Block_GetTime (en_block e) tc scale = block_time scale tc e.
Proof.
  intros scale tc e Hs Ht Hr HB. unfold block_time in *. unfold Block_GetTime, Block_GetTimeCode. set (x := tc + bl_timecode (en_block e)) in *. assert (0 <= x) by lia. assert (x <= x * scale) by nia.
  replace ((tc <? 0) || (LLONG_MAX - tc <? bl_timecode (en_block e))) with false by lia. cbv zeta. fold x. destruct (Z.eqb_spec x 0) as [->|Hx]; [reflexivity|]. cbn [negb andb].
  rewrite Z.quot_div_nonneg by (unfold LLONG_MAX; lia). replace (scale >? LLONG_MAX / x) with false; [reflexivity|]. symmetry. assert (scale <= LLONG_MAX / x) by (apply Z.div_le_lower_bound; lia). lia.
Qed.
