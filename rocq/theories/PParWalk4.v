(* Proofs about walking over the blocks of a track: any data. *)
From Coq Require Import ZifyBool ZifyNat Sorted.
From Verif Require Import Base ReaderSpec Ids MParUtil MParBlock MParMeta MParTrack MParCluster ClusterSpec ClusterSafeSpec PClusterSafe MParSegment SegSafeSpec PSegSafe MParWalk WalkSpec PParWalk PParWalk2.

Section Any.
  Context (r : reader) (HI : intact r).

  (* what a call leaves of a cluster *)
  Definition parsed_on (c c' : cluster) : Prop := reachable r c' /\ cl_start c' = cl_start c /\ exists l, entries c' = entries c ++ l.
  Lemma parsed_refl : forall c, reachable r c -> parsed_on c c.
  Proof. intros c H. split; [exact H|]. split; [reflexivity|]. exists []. rewrite app_nil_r. reflexivity. Qed.
  Lemma parsed_trans : forall a b c, parsed_on a b -> parsed_on b c -> parsed_on a c.
  Proof. intros a b c (A1 & A2 & l & A3) (B1 & B2 & l' & B3). split; [exact B1|]. split; [congruence|]. exists (l ++ l'). rewrite B3, A3, app_assoc. reflexivity. Qed.
  Lemma parse_any : forall c, reachable r c -> exists st c', Cluster_Parse r c = Some (Val (st, c')) /\ parsed_on c c' /\ st <= 1 /\
    (st = 0 -> exists e, entries c' = entries c ++ [e]) /\ (st <> 0 -> entries c' = entries c).
  Proof.
    intros c H. destruct (Cluster_Parse_total r c HI (reachable_inv r c HI H)) as (st & c' & E & P1 & P2 & P3 & P4 & P5). exists st, c'. split; [exact E|].
    assert (HR : reachable r c') by (eapply re_parse; eauto).
    assert (P4' : st = 0 -> exists e, entries c' = entries c ++ [e]) by (intros X; destruct (P4 X) as (e & Ee & _); eauto).
    split; [split; [exact HR|split; [exact P3|]]|auto]. destruct (Z.eq_dec st 0) as [X|X]; [destruct (P4' X) as (e & Ee); eauto|exists []; rewrite app_nil_r; auto].
  Qed.
  Lemma first_any : forall c, reachable r c -> exists st o c', Cluster_GetFirst r c = Some (Val (st, o, c')) /\ parsed_on c c' /\ st <= 0 /\
    match o with Some e => nth_error (entries c') 0 = Some e | None => True end.
  Proof.
    intros c H. unfold Cluster_GetFirst. destruct (entry_count_entries c) as (N1 & N2 & N3). destruct (Z.leb_spec (entry_count c) 0).
    - destruct (parse_any c H) as (st & c' & E & P & S1 & S2 & S3). rewrite E. destruct (Z.ltb_spec st 0); [exists st, None, c'; split; [reflexivity|]; auto with zarith|].
      destruct (Z.leb_spec (entry_count c') 0); [exists 0, None, c'; split; [reflexivity|]; auto with zarith|].
      exists 0, (entry_at c' 0), c'. split; [reflexivity|]. split; [exact P|]. split; [lia|]. rewrite entry_at_entries. change (Z.to_nat 0) with 0%nat. destruct (nth_error (entries c') 0); auto.
    - exists 0, (entry_at c 0), c. split; [reflexivity|]. split; [apply parsed_refl; exact H|]. split; [lia|]. rewrite entry_at_entries. change (Z.to_nat 0) with 0%nat. destruct (nth_error (entries c) 0); auto.
  Qed.
  Lemma next_any : forall c i, reachable r c -> 0 <= i < zlen (entries c) -> exists st o c', Cluster_GetNext r c i = Some (Val (st, o, c')) /\ parsed_on c c' /\ st <= 0 /\
    match o with Some e => nth_error (entries c') (Z.to_nat (i + 1)) = Some e | None => True end.
  Proof.
    intros c i H Hi. unfold Cluster_GetNext. destruct (entry_count_entries c) as (N1 & N2 & N3). rewrite N3 by lia. replace ((i <? 0) || (i >=? zlen (entries c))) with false by lia. cbv zeta.
    destruct (Z.geb_spec (i + 1) (zlen (entries c))) as [HC|HC].
    - destruct (parse_any c H) as (st & c' & E & P & S1 & S2 & S3). rewrite E. destruct (Z.ltb_spec st 0); [exists st, None, c'; split; [reflexivity|]; auto with zarith|].
      destruct (Z.gtb_spec st 0); [exists 0, None, c'; split; [reflexivity|]; auto with zarith|]. destruct (S2 ltac:(lia)) as (e & Ee). destruct (entry_count_entries c') as (M1 & M2 & M3).
      assert (HL : zlen (entries c') = zlen (entries c) + 1) by (rewrite Ee, zlen_app; reflexivity). rewrite M3 by lia. destruct (Z.geb_spec (i + 1) (zlen (entries c'))); [lia|].
      exists 0, (entry_at c' (i + 1)), c'. split; [reflexivity|]. split; [exact P|]. split; [lia|]. rewrite entry_at_entries. destruct (nth_error (entries c') _) eqn:X; auto.
    - exists 0, (entry_at c (i + 1)), c. split; [reflexivity|]. split; [apply parsed_refl; exact H|]. split; [lia|]. rewrite entry_at_entries. destruct (nth_error (entries c) _) eqn:X; auto.
  Qed.
  Lemma nth_zlen : forall A (l : list A) i x, 0 <= i -> nth_error l (Z.to_nat i) = Some x -> i < zlen l.
  Proof. intros A l i x Hi H. assert (nth_error l (Z.to_nat i) <> None) as X by congruence. apply nth_error_Some in X. unfold zlen. lia. Qed.

  Lemma scan_any : forall fuel ok c ei e, reachable r c -> 0 <= ei -> nth_error (entries c) (Z.to_nat ei) = Some e ->
    Z.max 0 (r_avail r - cl_start c + 1) - ei < Z.of_nat fuel ->
    exists st o c', scan fuel r ok c ei e = Val (st, o, c') /\ parsed_on c c' /\ st <= 0 /\
      match o with Some (k, x) => 0 <= k /\ nth_error (entries c') (Z.to_nat k) = Some x /\ ok x = true | None => True end.
  Proof.
    induction fuel as [|fuel IH]; intros ok c ei e H Hei He Hf; pose proof (nth_zlen _ _ _ _ Hei He) as HL; pose proof (reachable_count r c HI H) as HC; [lia|]. cbn [scan]. destruct (ok e) eqn:Eo.
    - exists 0, (Some (ei, e)), c. split; [reflexivity|]. split; [apply parsed_refl; exact H|]. split; [lia|]. auto.
    - destruct (next_any c ei H ltac:(lia)) as (st & o & c' & E & P & S & O). rewrite E. destruct (Z.ltb_spec st 0); [exists st, None, c'; auto with zarith|]. destruct o as [e2|]; [|exists 0, None, c'; auto with zarith].
      destruct P as (P1 & P2 & P3). destruct (IH ok c' (ei + 1) e2 P1 ltac:(lia) O ltac:(lia)) as (st2 & o2 & c2 & E2 & Q & S2 & O2). exists st2, o2, c2. split; [exact E2|].
      split; [apply (parsed_trans c c' c2); [split; auto|exact Q]|]. auto.
  Qed.

  (* the segment *)
  Lemma replace_sorted : forall (l : list cluster) n c c', nth_error l n = Some c -> cl_start c' = cl_start c ->
    forall (R : Z -> Z -> Prop), StronglySorted (fun a b => R (cl_start a) (cl_start b)) l -> StronglySorted (fun a b => R (cl_start a) (cl_start b)) (firstn n l ++ c' :: skipn (S n) l).
  Proof.
    induction l as [|a l IH]; intros [|n] c c' Hn Hs R H; cbn [nth_error] in Hn; try discriminate; inversion H; subst.
    - injection Hn as ->. cbn [firstn skipn app]. constructor; [assumption|]. eapply Forall_impl; [|eassumption]. cbn beta. intros x Hx. rewrite Hs. exact Hx.
    - cbn [firstn app]. change (skipn (S (S n)) (a :: l)) with (skipn (S n) l). constructor; [exact (IH n c c' Hn Hs R H2)|].
      rewrite Forall_forall in *. intros x Hx. apply in_app_or in Hx. destruct Hx as [Hx|[<-|Hx]].
      + apply H3. rewrite <- (firstn_skipn n l). apply in_or_app. auto.
      + rewrite Hs. apply H3. eapply nth_error_In; eauto.
      + apply H3. rewrite <- (firstn_skipn (S n) l). apply in_or_app. auto.
  Qed.
  Lemma replace_Forall : forall (P : cluster -> Prop) l n c', Forall P l -> P c' -> Forall P (firstn n l ++ c' :: skipn (S n) l).
  Proof.
    intros P l n c' H Hc. rewrite Forall_forall in *. intros x Hx. apply in_app_or in Hx. destruct Hx as [Hx|[<-|Hx]]; [|exact Hc|].
    - apply H. rewrite <- (firstn_skipn n l). apply in_or_app. auto.
    - apply H. rewrite <- (firstn_skipn (S n) l). apply in_or_app. auto.
  Qed.
  Lemma rev_replaced : forall (l : list cluster) n c c', nth_error l n = Some c -> cl_start c' = cl_start c ->
    match rev (firstn n l ++ c' :: skipn (S n) l) with x :: _ => cl_start x + 1 | [] => 0 end = match rev l with x :: _ => cl_start x + 1 | [] => 0 end.
  Proof.
    intros l n c c' Hn Hs. assert (El : l = firstn n l ++ c :: skipn (S n) l).
    { clear Hs. revert n Hn. induction l as [|a l IH]; intros [|n] Hn; cbn [nth_error] in Hn; try discriminate; [injection Hn as ->; reflexivity|]. cbn [firstn app]. f_equal. exact (IH n Hn). }
    transitivity (match rev (firstn n l ++ c :: skipn (S n) l) with x :: _ => cl_start x + 1 | [] => 0 end); [|rewrite <- El; reflexivity]. rewrite !rev_app_distr. cbn [rev]. destruct (rev (skipn (S n) l)); cbn [app]; [rewrite Hs; reflexivity|reflexivity].
  Qed.

  Lemma set_inv : forall s i c c', seg_inv r s -> cluster_at s i = Some c -> parsed_on c c' -> seg_inv r (set_cluster s i c').
  Proof.
    intros s i c c' [H1 H2 H3 H4 H5 H6 H7] Ec (P1 & P2 & P3). pose proof (cluster_at_range _ _ _ Ec) as Hr. unfold cluster_at in Ec. replace (i <? 0) with false in Ec by lia.
    assert (Hc : reachable r c /\ pg_start s <= cl_start c < r_avail r). { rewrite Forall_forall in H5. apply H5. eapply nth_error_In; eauto. }
    constructor; unfold set_cluster; cbn [pg_set_clusters pg_start pg_size pg_pos pg_unknown pg_clusters]; auto.
    - intros Hp. destruct (H4 Hp) as [A B]. split; [exact A|]. intros X. apply app_eq_nil in X. destruct X; discriminate.
    - apply replace_Forall; [exact H5|]. rewrite P2. split; [exact P1|apply Hc].
    - exact (replace_sorted _ _ c c' Ec P2 Z.lt H6).
    - assert (HF : front (set_cluster s i c') = front s).
      { unfold front, set_cluster. cbn [pg_set_clusters pg_pos pg_clusters]. destruct (pg_pos s <? 0); [|reflexivity]. exact (rev_replaced _ _ c c' Ec P2). }
      unfold set_cluster in HF. rewrite HF. apply replace_Forall; [exact H7|]. rewrite P2. rewrite Forall_forall in H7. apply H7. eapply nth_error_In; eauto.
  Qed.
  Lemma at_reachable : forall s i c, seg_inv r s -> cluster_at s i = Some c -> reachable r c.
  Proof. intros s i c H E. destruct H as [_ _ _ _ H5 _ _]. unfold cluster_at in E. destruct (i <? 0); [discriminate|]. rewrite Forall_forall in H5. apply (H5 c). eapply nth_error_In; eauto. Qed.

  Notation good := returned.
  Lemma at_end_good : forall t s, let '(st, w, s') := at_end r s in s' = s /\ good t s st w.
  Proof. intros t s. unfold at_end. destruct (DoneParsing r s); cbn; auto. unfold E_BUFFER_NOT_FULL. split; [reflexivity|lia]. Qed.
  Lemma set_at : forall s i c c', cluster_at s i = Some c -> cluster_at (set_cluster s i c') i = Some c'.
  Proof. intros s i c c' H. rewrite cluster_at_set by exact (cluster_at_range _ _ _ H). rewrite Z.eqb_refl. reflexivity. Qed.
  Lemma set_length : forall s i c c', cluster_at s i = Some c -> length (pg_clusters (set_cluster s i c')) = length (pg_clusters s).
  Proof. intros s i c c' H. pose proof (cluster_at_range _ _ _ H) as Hr. unfold set_cluster. cbn [pg_set_clusters pg_clusters]. apply replaced_length. unfold zlen in Hr. lia. Qed.

  Lemma scan_fuel_enough : forall c ei, 0 <= ei -> 0 <= ei -> Z.max 0 (r_avail r - cl_start c + 1) - ei < Z.of_nat (scan_fuel r c).
  Proof. intros c ei H _. unfold scan_fuel. lia. Qed.

  Lemma get_first_any : forall fuel s t ci i, seg_inv r s -> 0 <= ci <= Z.of_nat (length (pg_clusters s)) -> Z.of_nat (length (pg_clusters s)) - ci < Z.of_nat fuel ->
    exists st w s', get_first fuel r s t ci i = Val (st, w, s') /\ seg_inv r s' /\ good t s' st w.
  Proof.
    induction fuel as [|fuel IH]; intros s t ci i H Hci Hf.
    { exfalso. lia. }
    cbn [get_first]. destruct (cluster_at s ci) as [c|] eqn:Ec.
    2: { pose proof (at_end_good t s) as G. destruct (at_end r s) as [[st w] s']. destruct G as [-> G]. exists st, w, s. auto. }
    pose proof (cluster_at_range _ _ _ Ec) as Hr. pose proof (at_reachable s ci c H Ec) as Hc.
    destruct (first_any c Hc) as (st & o & c1 & E1 & P1 & S1 & O1). rewrite E1. cbv zeta. pose proof (set_inv s ci c c1 H Ec P1) as H1.
    pose proof (set_length s ci c c1 Ec) as L1. pose proof (set_at s ci c c1 Ec) as A1.
    destruct (Z.ltb_spec st 0); [exists st, WE_null, (set_cluster s ci c1); auto|]. destruct o as [e|].
    2: { apply IH; [exact H1| |]; rewrite L1; unfold zlen in Hr; lia. }
    destruct P1 as (Q1 & Q2 & Q3).
    destruct (scan_any (scan_fuel r c1) (fun e => on_track t e && vets t e) c1 0 e Q1 ltac:(lia) O1 (scan_fuel_enough c1 0 (Z.le_refl 0) (Z.le_refl 0))) as (st2 & o2 & c2 & E2 & P2 & S2 & O2).
    rewrite E2. cbv zeta. pose proof (set_inv (set_cluster s ci c1) ci c1 c2 H1 A1 P2) as H2. pose proof (set_at (set_cluster s ci c1) ci c1 c2 A1) as A2. pose proof (set_length (set_cluster s ci c1) ci c1 c2 A1) as L2.
    destruct (Z.ltb_spec st2 0); [exists st2, WE_null, (set_cluster (set_cluster s ci c1) ci c2); auto|]. destruct o2 as [[k x]|].
    - exists 0, (WE_entry ci k x), (set_cluster (set_cluster s ci c1) ci c2). split; [reflexivity|]. split; [exact H2|]. destruct O2 as (O3 & O4 & O5). apply andb_true_iff in O5 as [O5 _].
      split; [reflexivity|]. split; [exact O5|]. split; [exact O3|]. exists c2. split; [exact A2|]. rewrite entry_at_entries. exact O4.
    - destruct (Z.geb_spec (i + 1) 100); [exists 1, WE_eos, (set_cluster (set_cluster s ci c1) ci c2); cbn; auto|]. apply IH; [exact H2| |]; rewrite L2, L1; unfold zlen in Hr; lia.
  Qed.

  Definition nexts (s : pseg) (ci : Z) (o : option (Z * bentry)) : Prop :=
    exists c, cluster_at s ci = Some c /\ match o with Some (k, e) => 0 <= k /\ nth_error (entries c) (Z.to_nat k) = Some e | None => True end.
  Lemma get_next_any : forall fuel s t ci o i, seg_inv r s -> nexts s ci o -> Z.of_nat (length (pg_clusters s)) - ci <= Z.of_nat fuel ->
    exists st w s', get_next fuel r s t ci o i = Val (st, w, s') /\ seg_inv r s' /\ good t s' st w.
  Proof.
    induction fuel as [|fuel IH]; intros s t ci o i H (c & Ec & Ho) Hf; pose proof (cluster_at_range _ _ _ Ec) as Hr; [unfold zlen in Hr; lia|]. cbn [get_next]. rewrite Ec.
    pose proof (at_reachable s ci c H Ec) as Hc.
    assert (HS : exists st f c1, (match o with None => Val (0, None, c) | Some (ei, e) => scan (scan_fuel r c) r (on_track t) c ei e end) = Val (st, f, c1) /\ parsed_on c c1 /\ st <= 0 /\
       match f with Some (k, x) => 0 <= k /\ nth_error (entries c1) (Z.to_nat k) = Some x /\ on_track t x = true | None => True end).
    { destruct o as [[k e]|]; [|exists 0, None, c; split; [reflexivity|]; split; [apply parsed_refl; exact Hc|]; split; [lia|exact I]]. destruct Ho as [Hk He].
      exact (scan_any (scan_fuel r c) (on_track t) c k e Hc Hk He (scan_fuel_enough c k Hk Hk)). }
    destruct HS as (st & f & c1 & E1 & P1 & S1 & O1). rewrite E1. cbv zeta. pose proof (set_inv s ci c c1 H Ec P1) as H1. pose proof (set_length s ci c c1 Ec) as L1. pose proof (set_at s ci c c1 Ec) as A1.
    destruct (Z.ltb_spec st 0); [exists st, WE_null, (set_cluster s ci c1); auto|]. destruct f as [[k x]|].
    { exists 0, (WE_entry ci k x), (set_cluster s ci c1). split; [reflexivity|]. split; [exact H1|]. destruct O1 as (O3 & O4 & O5).
      split; [reflexivity|]. split; [exact O5|]. split; [exact O3|]. exists c1. split; [exact A1|]. rewrite entry_at_entries. exact O4. }
    destruct (cluster_at (set_cluster s ci c1) (ci + 1)) as [c2|] eqn:Ec2.
    2: { pose proof (at_end_good t (set_cluster s ci c1)) as G. destruct (at_end r (set_cluster s ci c1)) as [[st' w] s']. destruct G as [-> G]. exists st', w, (set_cluster s ci c1). auto. }
    pose proof (at_reachable _ _ _ H1 Ec2) as Hc2. destruct (first_any c2 Hc2) as (st2 & o2 & c3 & E2 & P2 & S2 & O2). rewrite E2. cbv zeta.
    pose proof (set_inv _ _ c2 c3 H1 Ec2 P2) as H2. pose proof (set_length _ _ c2 c3 Ec2) as L2. pose proof (set_at _ _ c2 c3 Ec2) as A2.
    destruct (Z.ltb_spec st2 0); [exists st2, WE_null, (set_cluster (set_cluster s ci c1) (ci + 1) c3); auto|]. destruct o2 as [e|].
    - destruct (Z.geb_spec (i + 1) 100); [exists 1, WE_eos, (set_cluster (set_cluster s ci c1) (ci + 1) c3); cbn; auto|]. apply IH; [exact H2| |rewrite L2, L1; lia].
      exists c3. split; [exact A2|]. split; [lia|exact O2].
    - apply IH; [exact H2| |rewrite L2, L1; lia]. exists c3. auto.
  Qed.

  Lemma GetFirst_any : forall s t, seg_inv r s -> exists st w s', Track_GetFirst r s t = Val (st, w, s') /\ seg_inv r s' /\ good t s' st w.
  Proof. intros s t H. unfold Track_GetFirst. apply get_first_any; [exact H|lia|lia]. Qed.
  Lemma GetNext_any : forall s t ci ei c e, seg_inv r s -> cluster_at s ci = Some c -> 0 <= ei -> entry_at c ei = Some e -> on_track t e = true ->
    exists st w s', Track_GetNext r s t ci ei = Val (st, w, s') /\ seg_inv r s' /\ good t s' st w.
  Proof.
    intros s t ci ei c e H Ec Hei Ee Ht. unfold Track_GetNext. rewrite Ec, Ee, Ht. cbn [negb]. rewrite entry_at_entries in Ee. pose proof (nth_zlen _ _ _ _ Hei Ee) as HL.
    destruct (next_any c ei (at_reachable s ci c H Ec) ltac:(lia)) as (st & o & c1 & E1 & P1 & S1 & O1). rewrite E1. cbv zeta. pose proof (set_inv s ci c c1 H Ec P1) as H1. pose proof (set_at s ci c c1 Ec) as A1.
    destruct (Z.ltb_spec st 0); [exists st, WE_null, (set_cluster s ci c1); auto|]. apply get_next_any; [exact H1| |pose proof (cluster_at_range _ _ _ Ec); lia].
    exists c1. split; [exact A1|]. destruct o as [x|]; [split; [lia|exact O1]|exact I].
  Qed.
End Any.
