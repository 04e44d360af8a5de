(* Proofs about walking over the blocks of a track: muxed files. *)
From Coq Require Import ZifyBool ZifyNat Sorted.
From Verif Require Import Base ReaderSpec Ids MMuxBlock BlockSpec MMuxMeta MMuxSegment SegmentSpec MuxFileSpec MParUtil MParBlock MParMeta MParTrack MParCues MParCluster
  ClusterSpec ClusterSafeSpec PClusterSafe MParSegment SegReadSpec SegSafeSpec PSegSafe MParWalk WalkSpec WalkFileSpec PParWalk PParWalk2 PParWalk3 PParWalk4 PParWalk5 PTrackSeek4 MParCueSeek PCueSeek.

Lemma walk_state_inv : forall r s, intact r -> r_avail r <= 2 ^ 62 -> walk_state r s -> seg_inv r s.
Proof.
  intros r s HI HA H. induction H as [s H|s st s' H IH E|s t st w s' H IH E|s t ci ei c e st w s' H IH Hc Hei He Ht E|s t time st w s' H IH E|s cp tp x s' H IH X1 X2 X3 E].
  - exact (seg_state_inv r HI HA s H).
  - destruct (LoadCluster_ok r HI s IH) as (st1 & s1 & E1 & X & _). assert (s' = s1) by congruence. subst s'. exact X.
  - destruct (GetFirst_any r HI s t IH) as (st1 & w1 & s1 & E1 & X & _). assert (s' = s1) by congruence. subst s'. exact X.
  - destruct (GetNext_any r HI s t ci ei c e IH Hc Hei He Ht) as (st1 & w1 & s1 & E1 & X & _). assert (s' = s1) by congruence. subst s'. exact X.
  - exact (proj1 (Seek_any r HI s t time st w s' IH E)).
  - destruct (GetBlock_any r HI s cp tp IH X1 X2 X3) as (x1 & s1 & E1 & X & _). assert (s' = s1) by congruence. subst s'. exact X.
Qed.

Section Lists.
  Context {A B : Type} (R : A -> B -> Prop).
  Lemma F2_filter : forall oka okb, (forall a b, R a b -> oka a = okb b) -> forall la lb, Forall2 R la lb -> Forall2 R (filter oka la) (filter okb lb).
  Proof. intros oka okb H la lb HF. induction HF as [|a b la lb Hab HF IH]; [constructor|]. cbn [filter]. rewrite (H a b Hab). destruct (okb b); [constructor; assumption|exact IH]. Qed.
  Lemma F2_since : forall oka okb, (forall a b, R a b -> oka a = okb b) -> forall la lb, Forall2 R la lb -> Forall2 R (since oka la) (since okb lb).
  Proof. intros oka okb H la lb HF. induction HF as [|a b la lb Hab HF IH]; [constructor|]. cbn [since]. rewrite (H a b Hab). destruct (okb b); [constructor; assumption|exact IH]. Qed.
  Lemma F2_has : forall oka okb, (forall a b, R a b -> oka a = okb b) -> forall la lb, Forall2 R la lb -> has oka la = has okb lb.
  Proof. intros oka okb H la lb HF. induction HF as [|a b la lb Hab HF IH]; [reflexivity|]. unfold has in *. cbn [existsb]. rewrite (H a b Hab), IH. reflexivity. Qed.
  Lemma F2_empty : forall la lb, Forall2 R la lb -> not_empty la = not_empty lb.
  Proof. intros la lb HF. destruct HF; reflexivity. Qed.
  (* clusters of A without the empty ones, against clusters of B *)
  Fixpoint pairs (ca : list (list A)) (cb : list (list B)) : Prop :=
    match ca with
    | [] => cb = []
    | [] :: ca => pairs ca cb
    | la :: ca => match cb with lb :: cb => Forall2 R la lb /\ pairs ca cb | [] => False end
    end.
  Lemma pairs_split : forall ca cb a lb b, pairs ca cb -> cb = a ++ lb :: b -> exists a' la b', ca = a' ++ la :: b' /\ pairs a' a /\ Forall2 R la lb /\ pairs b' b.
  Proof.
    induction ca as [|la ca IH]; intros cb a lb b H E; [cbn [pairs] in H; rewrite H in E; destruct a; discriminate E|]. cbn [pairs] in H. destruct la as [|x la].
    - destruct (IH cb a lb b H E) as (a' & la' & b' & -> & X1 & X2 & X3). exists ([] :: a'), la', b'. auto.
    - destruct cb as [|lb0 cb]; [contradiction|]. destruct H as [H1 H2]. destruct a as [|y a]; cbn [app] in E; injection E as -> E.
      + subst cb. exists [], (x :: la), ca. split; [reflexivity|]. split; [reflexivity|]. auto.
      + destruct (IH cb a lb b H2 E) as (a' & la' & b' & -> & X1 & X2 & X3). exists ((x :: la) :: a'), la', b'. split; [reflexivity|]. split; [split; assumption|]. auto.
  Qed.
  Lemma pairs_none : forall oka okb, (forall a b, R a b -> oka a = okb b) -> forall ca cb, pairs ca cb -> Forall (fun x => has okb x = false) cb -> Forall (fun x => has oka x = false) ca.
  Proof.
    intros oka okb H. induction ca as [|la ca IH]; intros cb HP HF; [constructor|]. cbn [pairs] in HP. destruct la as [|x la]; [constructor; [reflexivity|exact (IH cb HP HF)]|].
    destruct cb as [|lb cb]; [contradiction|]. destruct HP as [H1 H2]. inversion HF; subst. constructor; [rewrite (F2_has oka okb H _ _ H1); assumption|exact (IH cb H2 ltac:(assumption))].
  Qed.
  Lemma pairs_length : forall ca cb, pairs ca cb -> length (filter not_empty ca) = length (filter not_empty cb).
  Proof.
    induction ca as [|la ca IH]; intros cb HP; [cbn [pairs] in HP; subst cb; reflexivity|]. cbn [pairs] in HP. destruct la as [|x la]; [exact (IH cb HP)|].
    destruct cb as [|lb cb]; [contradiction|]. destruct HP as [H1 H2]. cbn [filter]. rewrite <- (F2_empty _ _ H1). cbn [not_empty length]. rewrite (IH cb H2). reflexivity.
  Qed.
  Lemma pairs_gap : forall n oka okb, (forall a b, R a b -> oka a = okb b) -> forall ca cb, pairs ca cb -> no_gap_over n oka ca -> no_gap_over n okb cb.
  Proof.
    intros n oka okb H ca cb HP HG mid es b E Hm He. destruct (pairs_split ca cb mid es b HP E) as (mid' & es' & b' & E' & X1 & X2 & X3).
    rewrite <- (pairs_length _ _ X1). apply (HG mid' es' b' E'); [exact (pairs_none oka okb H _ _ X1 Hm)|rewrite (F2_has oka okb H _ _ X2); exact He].
  Qed.
  Lemma pairs_spaced : forall ona onb ena enb, (forall a b, R a b -> ona a = onb b) -> (forall a b, R a b -> ena a = enb b) ->
    forall ca cb, pairs ca cb -> spaced ona ena ca -> spaced onb enb cb.
  Proof.
    intros ona onb ena enb H1 H2 ca cb HP [G1 G2]. split.
    - refine (pairs_gap 99 _ _ _ ca cb HP G1). intros a b Hab. cbn beta. rewrite (H1 a b Hab), (H2 a b Hab). reflexivity.
    - intros a es b E He. destruct (pairs_split ca cb a es b HP E) as (a' & es' & b' & E' & X1 & X2 & X3). apply (pairs_gap 98 ona onb H1 _ _ X3). apply (G2 a' es' b' E').
      rewrite (F2_has ona onb H1 _ _ X2). exact He.
  Qed.
End Lists.

Lemma number_F2 : forall A (R : A -> bentry -> Prop) la es ci k, Forall2 R la es -> Forall2 (fun a p => R a (snd p)) la (number ci k es).
Proof. intros A R la es ci k H. revert k. induction H; intros k; [constructor|]. cbn [number]. constructor; auto. Qed.
Lemma places_F2 : forall A (R : A -> bentry -> Prop) ca css ci, pairs R ca css -> Forall2 (fun a p => R a (snd p)) (concat ca) (places ci css).
Proof.
  intros A R. induction ca as [|la ca IH]; intros css ci H; [cbn [pairs] in H; subst css; constructor|]. cbn [pairs] in H. destruct la as [|x la]; [exact (IH css ci H)|].
  destruct css as [|es css]; [contradiction|]. destruct H as [H1 H2]. cbn [concat places]. apply Forall2_app; [apply number_F2; exact H1|apply IH; exact H2].
Qed.

Section File.
  Context (r : reader) (scale : Z).
  Definition shown (l : list mcluster) (f : frame) (e : bentry) : Prop := exists c, In c l /\ In f (mc_frames c) /\ entry_carries r (mc_tc c) scale f e.
  Lemma pairs_weaken : forall A B (R1 R2 : A -> B -> Prop), (forall a b, R1 a b -> R2 a b) -> forall ca cb, pairs R1 ca cb -> pairs R2 ca cb.
  Proof.
    intros A B R1 R2 H. induction ca as [|la ca IH]; intros cb HP; [exact HP|]. cbn [pairs] in *. destruct la as [|x la]; [exact (IH cb HP)|].
    destruct cb as [|lb cb]; [contradiction|]. destruct HP as [H1 H2]. split; [|exact (IH cb H2)]. clear - H H1. induction H1; constructor; auto.
  Qed.
  Lemma shows_lists : forall mcs pos pcs, shows_clusters r scale pos mcs pcs -> exists css, Forall2 (lists r) pcs css /\ pairs (shown mcs) (map mc_frames mcs) css.
  Proof.
    induction mcs as [|c mcs IH]; intros pos pcs H; cbn [shows_clusters] in H; [subst pcs; exists []; split; [constructor|reflexivity]|].
    assert (W : forall f e, shown mcs f e -> shown (c :: mcs) f e) by (intros f e (x & X1 & X2); exists x; split; [right; exact X1|exact X2]).
    destruct (mc_frames c) as [|f fs] eqn:Ef.
    - destruct (IH _ _ H) as (css & X1 & X2). exists css. split; [exact X1|]. cbn [map pairs]. rewrite Ef. exact (pairs_weaken _ _ _ _ W _ _ X2).
    - destruct pcs as [|pc pcs]; [contradiction|]. destruct H as (H1 & H2 & H3). destruct (IH _ _ H3) as (css & X1 & X2). destruct H2 as (_ & c1 & e & es & c2 & G1 & G2 & G3).
      exists ((e :: es) :: css). split; [constructor; [exists c1, c2; auto|exact X1]|]. cbn [map pairs]. rewrite Ef. split; [|exact (pairs_weaken _ _ _ _ W _ _ X2)].
      rewrite Ef in G3. assert (HIn : forall x, In x (f :: fs) -> In x (mc_frames c)) by (rewrite Ef; auto). clear - G3 HIn. revert HIn. induction G3 as [|a b la lb Hab G IH]; intros HIn; constructor.
      + exists c. split; [left; reflexivity|]. split; [apply HIn; left; reflexivity|exact Hab].
      + apply IH. intros x Hx. apply HIn. right. exact Hx.
  Qed.

End File.

Lemma holds_lists : forall r tc all c, intact r -> holds r tc all c -> lists r c all.
Proof.
  intros r tc all c HI H. destruct (holds_first r tc all c HI H) as (c1 & E & H1 & _ & HL & _). destruct all as [|e es]; cbn [hd_error] in E; [exists c1; exact E|].
  specialize (HL ltac:(discriminate)).
  assert (X : forall rest c i pre, holds r tc (pre ++ rest) c -> zlen pre = i + 1 -> 0 <= i < zlen (entries c) -> exists c2, next_entries r c i rest c2).
  { induction rest as [|x rest IH]; intros c0 i pre H0 Hp Hi; destruct (holds_next r tc _ c0 i HI H0 Hi) as (c' & E' & H' & _ & G1 & G2).
    - rewrite app_nil_r in *. replace (nth_error pre (Z.to_nat (i + 1))) with (@None bentry) in E' by (symmetry; apply nth_error_None; unfold zlen in Hp; lia). exists c'. constructor. exact E'.
    - rewrite nth_error_app2 in E' by (unfold zlen in Hp; lia). replace (Z.to_nat (i + 1) - length pre)%nat with 0%nat in E' by (unfold zlen in Hp; lia). cbn [nth_error] in E'.
      specialize (G2 ltac:(rewrite zlen_app, zlen_cons; pose proof (zlen_nonneg _ rest); lia)).
      destruct (IH c' (i + 1) (pre ++ [x])) as (c2 & N); [rewrite <- app_assoc; exact H'|rewrite zlen_app; change (zlen [x]) with 1; lia|lia|]. exists c2. econstructor; eassumption. }
  destruct (X es c1 0 [e] H1 eq_refl ltac:(lia)) as (c2 & N). exists c1, c2. split; [exact E|exact N].
Qed.
Lemma seg_holds_lists : forall r cs s, intact r -> seg_holds r cs s -> Forall2 (lists r) (pg_clusters s) (map snd cs).
Proof. intros r cs s HI H. unfold seg_holds in H. induction H as [|c x l cs Hc H IH]; [constructor|]. cbn [map]. constructor; [exact (holds_lists r _ _ c HI Hc)|exact IH]. Qed.

Section Walked.
  Context (r : reader) (HI : intact r) (HA : r_avail r <= 2 ^ 62).
  Lemma walk_from_state : forall t s ci ei l s', walk_from r t s ci ei l s' -> walk_state r s -> 0 <= ei -> walk_state r s'.
  Proof.
    intros t s ci ei l s' H. induction H as [s ci ei s' E|s ci ei ci' ei' e s1 l s' E H IH]; intros HS Hei;
      (assert (X : exists c e, cluster_at s ci = Some c /\ entry_at c ei = Some e /\ on_track t e = true);
       [unfold Track_GetNext in E; destruct (cluster_at s ci) as [c|]; [|discriminate E]; destruct (entry_at c ei) as [x|] eqn:Ee; [|discriminate E]; destruct (on_track t x) eqn:Et; [|discriminate E]; eauto|];
       destruct X as (c & x & X1 & X2 & X3)).
    - eapply ws_next; eassumption.
    - assert (HS1 : walk_state r s1) by (eapply ws_next; eassumption). apply IH; [exact HS1|].
      destruct (GetNext_any r HI s t ci ei c x (walk_state_inv r s HI HA HS) X1 Hei X2 X3) as (st1 & w1 & s2 & E1 & _ & G). assert (w1 = WE_entry ci' ei' e) by congruence. subst w1. apply G.
  Qed.
  Lemma walk_walked : forall t s l s', walk r t s l s' -> walk_state r s -> walk_state r s'.
  Proof.
    intros t s l s' H HS. destruct l as [|[[ci ei] e] l]; cbn [walk] in H; [eapply ws_first; eassumption|]. destruct H as (s1 & E & H). assert (HS1 : walk_state r s1) by (eapply ws_first; eassumption).
    apply (walk_from_state _ _ _ _ _ _ H HS1). destruct (GetFirst_any r HI s t (walk_state_inv r s HI HA HS)) as (st1 & w1 & s2 & E1 & _ & G). assert (w1 = WE_entry ci ei e) by congruence. subst w1. apply G.
  Qed.
  Lemma state_clusters : forall s, walk_state r s -> Forall (cl_inv r) (pg_clusters s).
  Proof. intros s H. eapply Forall_impl; [|exact (si_clusters r s (walk_state_inv r s HI HA H))]. intros c [Hc _]. exact (reachable_inv r c HI Hc). Qed.
  Lemma walk_shows : forall s t css, walk_state r s -> Forall2 (lists r) (pg_clusters s) css -> DoneParsing r s = true -> close_together t css ->
    exists s', walk r t s (blocks_of_track t css) s' /\ walk_state r s' /\ Forall2 (lists r) (pg_clusters s') css /\ DoneParsing r s' = true.
  Proof.
    intros s t css HS HL HD HT. destruct (seg_lists r s css HI (state_clusters s HS) HL) as (cs & <- & Hh). destruct (walk_run r t cs HI s Hh HD HT) as (s' & W & Hh' & G).
    exists s'. split; [exact W|]. split; [exact (walk_walked _ _ _ _ W HS)|]. split; [exact (seg_holds_lists r cs s' HI Hh')|]. rewrite (grows_done r s s' G). exact HD.
  Qed.
  Lemma muxed_walk : forall l s t scale pos, walk_state r s -> DoneParsing r s = true -> shows_clusters r scale pos (lo_clusters l) (pg_clusters s) ->
    spaced (frame_of t) (enters t) (map mc_frames (lo_clusters l)) ->
    exists es s', walk r t s es s' /\ Forall2 (shows_frame r scale l) (frames_of_track t l) es.
  Proof.
    intros l s t scale pos HW HD HS HG. destruct (shows_lists r scale _ _ _ HS) as (css & X1 & X2).
    assert (R1 : forall f e, shown r scale (lo_clusters l) f e -> frame_of t f = of_this_track t (0, 0, e)).
    { intros f e (c & _ & _ & Y & _). unfold frame_of, of_track, of_this_track. cbn [snd]. rewrite Y. reflexivity. }
    assert (R2 : forall f e, shown r scale (lo_clusters l) f e -> enters t f = entry_point t (0, 0, e)).
    { intros f e (c & _ & _ & _ & _ & Y & _). unfold enters, entry_point. cbn [snd]. rewrite Y. reflexivity. }
    destruct (walk_shows s t css HW X1 HD (pairs_spaced _ _ _ _ _ R1 R2 _ _ X2 HG)) as (s' & W & _). exists (blocks_of_track t css), s'. split; [exact W|].
    unfold frames_of_track, blocks_of_track, lo_frames. apply F2_since; [intros f p Hp; destruct p as [[i j] e]; exact (R2 f e Hp)|].
    apply F2_filter; [intros f p Hp; destruct p as [[i j] e]; exact (R1 f e Hp)|]. exact (places_F2 _ _ _ css 0 X2).
  Qed.
End Walked.
