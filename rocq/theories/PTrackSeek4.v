(* Proofs about seeking in a track: any data. *)
From Coq Require Import ZifyBool ZifyNat.
From Verif Require Import Base ReaderSpec Ids MParUtil MParBlock MParMeta MParTrack MParCluster ClusterSpec ClusterSafeSpec PClusterSafe MParSegment SegSafeSpec PSegSafe MParWalk WalkSpec
  PParWalk PParWalk2 PParWalk4.

Section Any.
  Context (r : reader) (HI : intact r).

  Lemma timecode_any : forall c tc c', reachable r c -> Cluster_GetTimeCode r c = Some (Val (tc, c')) -> parsed_on r c c'.
  Proof.
    intros c tc c' H E. unfold Cluster_GetTimeCode in E. destruct (Cluster_Load_total r c HI (reachable_inv r c HI H)) as (st & c1 & E1 & P1 & P2 & P3 & P4 & _). rewrite E1 in E.
    assert (c' = c1) by (destruct (st <? 0); congruence). subst c'. split; [eapply re_load; eassumption|]. split; [exact P3|]. exists []. rewrite app_nil_r. unfold entries. rewrite P4. reflexivity.
  Qed.
  Lemma time_at_any : forall s i t s', seg_inv r s -> time_at r s i = Val (t, s') -> seg_inv r s'.
  Proof.
    intros s i t s' H E. unfold time_at in E. destruct (scale_of s) as [scale|]; [|discriminate]. destruct (cluster_at s i) as [c|] eqn:Ec; [|discriminate]. unfold Cluster_GetTime in E.
    destruct (Cluster_GetTimeCode r c) as [[[tc c1]|]|] eqn:Et; try discriminate. pose proof (timecode_any c tc c1 (at_reachable r s i c H Ec) Et) as P.
    destruct (tc <? 0); [injection E as _ <-; exact (set_inv r s i c c1 H Ec P)|]. destruct (tc * scale >? LLONG_MAX); [discriminate|]. injection E as _ <-. exact (set_inv r s i c c1 H Ec P).
  Qed.
  Lemma seek_search_any : forall time fuel s lo hi k s', seg_inv r s -> seek_search fuel r s time lo hi = Val (k, s') -> seg_inv r s'.
  Proof.
    intros time. induction fuel as [|fuel IH]; intros s lo hi k s' H E; [discriminate|]. cbn [seek_search] in E. destruct (lo <? hi); [|injection E as _ <-; exact H]. cbv zeta in E.
    destruct (time_at r s (lo + (hi - lo) / 2)) as [[t s1]|] eqn:Et; [|discriminate]. pose proof (time_at_any _ _ _ _ H Et) as H1. destruct (t <=? time); exact (IH _ _ _ _ _ H1 E).
  Qed.
  Lemma get_entry_any : forall scale t time fuel c index result o c', reachable r c -> 0 <= index -> get_entry fuel r scale t time c index result = Val (o, c') ->
    match result with Some (k, e) => 0 <= k /\ nth_error (entries c) (Z.to_nat k) = Some e | None => True end ->
    parsed_on r c c' /\ match o with Some (k, e) => 0 <= k /\ nth_error (entries c') (Z.to_nat k) = Some e | None => True end.
  Proof.
    intros scale t time. induction fuel as [|fuel IH]; intros c index result o c' H Hi E HR; [discriminate|]. cbn [get_entry] in E.
    assert (KEEP : forall c2 (x : option (Z * bentry)), parsed_on r c c2 -> match x with Some (k, e) => 0 <= k /\ nth_error (entries c) (Z.to_nat k) = Some e | None => True end ->
      match x with Some (k, e) => 0 <= k /\ nth_error (entries c2) (Z.to_nat k) = Some e | None => True end).
    { intros c2 [[k e]|] (_ & _ & l & El) Hx; [|exact I]. destruct Hx as [X1 X2]. split; [exact X1|]. rewrite El, nth_error_app1; [exact X2|]. apply nth_error_Some. congruence. }
    assert (X : forall b c1, (if index >=? entry_count c then
               match Cluster_Parse r c with
               | None => UB | Some UB => UB
               | Some (Val (status, c)) => if status <? 0 then UB else if status >? 0 then Val (true, c) else if index >=? entry_count c then UB else Val (false, c)
               end else Val (false, c)) = Val (b, c1) -> parsed_on r c c1).
    { intros b c1 E1. destruct (index >=? entry_count c); [|injection E1 as _ <-; apply parsed_refl; exact H].
      destruct (parse_any r HI c H) as (st & c2 & E2 & P & _). rewrite E2 in E1. destruct (st <? 0); [discriminate|]. destruct (st >? 0); [injection E1 as _ <-; exact P|]. destruct (index >=? entry_count c2); [discriminate|]. injection E1 as _ <-. exact P. }
    destruct (if index >=? entry_count c then _ else _) as [[[|] c1]|] eqn:E1; [|  |discriminate E].
    - injection E as <- <-. pose proof (X _ _ eq_refl) as P. split; [exact P|exact (KEEP _ _ P HR)].
    - pose proof (X _ _ eq_refl) as P. destruct (entry_at c1 index) as [e|] eqn:Ee; [|discriminate E]. rewrite entry_at_entries in Ee. cbv zeta in E. pose proof (KEEP _ _ P HR) as HR1.
      assert (GO : forall res, get_entry fuel r scale t time c1 (index + 1) res = Val (o, c') -> match res with Some (k, e) => 0 <= k /\ nth_error (entries c1) (Z.to_nat k) = Some e | None => True end ->
        parsed_on r c c' /\ match o with Some (k, e) => 0 <= k /\ nth_error (entries c') (Z.to_nat k) = Some e | None => True end).
      { intros res E2 H2. destruct (IH c1 (index + 1) res o c' (proj1 P) ltac:(lia) E2 H2) as [Q1 Q2]. split; [exact (parsed_trans r _ _ _ P Q1)|exact Q2]. }
      destruct (negb (on_track t e)); [exact (GO _ E HR1)|]. destruct (vets t e).
      + destruct (time <? 0); [injection E as <- <-; split; [exact P|split; [lia|exact Ee]]|]. destruct (_ >? time); [injection E as <- <-; split; [exact P|exact HR1]|]. apply (GO _ E). split; [lia|exact Ee].
      + destruct ((time >=? 0) && _); [injection E as <- <-; split; [exact P|exact HR1]|]. exact (GO _ E HR1).
  Qed.
  Definition landed (s : pseg) (w : walk_entry) : Prop :=
    match w with WE_entry ci ei e => 0 <= ei /\ exists c, cluster_at s ci = Some c /\ entry_at c ei = Some e | _ => True end.
  Lemma seek_back_any : forall t time want i fuel s lo st w s', seg_inv r s -> seek_back fuel r s t time want i lo = Val (st, w, s') -> seg_inv r s' /\ landed s' w.
  Proof.
    intros t time want i. induction fuel as [|fuel IH]; intros s lo st w s' H E; [discriminate|]. cbn [seek_back] in E. destruct (lo >? i); [|injection E as <- <- <-; split; [exact H|exact I]]. cbv zeta in E.
    destruct (time_at r s (lo - 1)) as [[ct s1]|] eqn:Et; [|discriminate]. pose proof (time_at_any _ _ _ _ H Et) as H1. destruct (ct >? time); [discriminate|].
    destruct (scale_of s1) as [scale|]; [|discriminate]. destruct (cluster_at s1 (lo - 1)) as [c|] eqn:Ec; [|discriminate]. destruct (get_entry _ r scale t want c 0 None) as [[o c1]|] eqn:Eg; [|discriminate].
    destruct (get_entry_any _ _ _ _ _ _ _ _ _ (at_reachable r s1 _ c H1 Ec) (Z.le_refl 0) Eg I) as [P O]. pose proof (set_inv r s1 (lo - 1) c c1 H1 Ec P) as H2.
    destruct o as [[ei e]|]; [|exact (IH _ _ _ _ _ H2 E)]. injection E as <- <- <-. split; [exact H2|]. destruct O as [O1 O2]. split; [exact O1|]. exists c1. split; [exact (set_at s1 (lo - 1) c c1 Ec)|]. rewrite entry_at_entries. exact O2.
  Qed.
  Lemma Seek_any : forall s t time st w s', seg_inv r s -> Track_Seek r s t time = Val (st, w, s') -> seg_inv r s' /\ landed s' w.
  Proof.
    intros s t time st w s' H E. unfold Track_Seek in E. destruct (GetFirst_any r HI s t H) as (st1 & w1 & s1 & E1 & H1 & G). rewrite E1 in E.
    assert (L : landed s1 w1). { destruct w1 as [ci ei e| |]; try exact I. destruct G as (_ & _ & G1 & G2). split; [exact G1|exact G2]. }
    destruct (st1 <? 0); [injection E as <- <- <-; auto|]. destruct w1 as [ci ei e| |]; [|injection E as <- <- <-; split; [exact H1|exact I]|discriminate].
    destruct (scale_of s1) as [scale|]; [|discriminate]. destruct (cluster_at s1 ci) as [c|]; [|discriminate]. destruct (cl_timecode c <? 0); [discriminate|].
    destruct (time <=? _); [injection E as <- <- <-; auto|]. destruct (time_at r s1 ci) as [[ct s2]|] eqn:Et; [|discriminate]. pose proof (time_at_any _ _ _ _ H1 Et) as H2. destruct (ct >? time); [discriminate|]. cbv zeta in E.
    destruct (seek_search _ r s2 time ci _) as [[lo s3]|] eqn:Es; [|discriminate]. pose proof (seek_search_any _ _ _ _ _ _ _ H2 Es) as H3. destruct (lo <=? ci); [discriminate|]. exact (seek_back_any _ _ _ _ _ _ _ _ _ _ H3 E).
  Qed.
End Any.
