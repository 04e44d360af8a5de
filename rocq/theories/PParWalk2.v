(* Proofs about walking over the blocks of a track: the whole segment. *)
From Coq Require Import ZifyBool ZifyNat.
From Verif Require Import Base ReaderSpec Ids MParUtil MParBlock MParMeta MParTrack MParCluster ClusterSpec ClusterSafeSpec PClusterSafe MParSegment MParWalk WalkSpec PParWalk.

Definition seg_holds (r : reader) (cs : list (Z * list bentry)) (s : pseg) : Prop :=
  Forall2 (fun c p => holds r (fst p) (snd p) c) (pg_clusters s) cs.

(* the same segment, with more entries parsed *)
Record grows (s s' : pseg) : Prop := mkGrows {
  gr_start : pg_start s' = pg_start s;
  gr_size : pg_size s' = pg_size s;
  gr_pos : pg_pos s' = pg_pos s;
  gr_info : pg_info s' = pg_info s;
  gr_len : length (pg_clusters s') = length (pg_clusters s);
  gr_more : forall i c, cluster_at s i = Some c -> exists c', cluster_at s' i = Some c' /\ zlen (entries c) <= zlen (entries c')
}.
Lemma grows_refl : forall s, grows s s.
Proof. intros s. constructor; auto. intros i c H. exists c. split; [exact H|lia]. Qed.
Lemma grows_trans : forall a b c, grows a b -> grows b c -> grows a c.
Proof.
  intros a b c [A1 A2 A3 A4 A5 A6] [B1 B2 B3 B4 B5 B6]. constructor; try congruence. intros i x H.
  destruct (A6 i x H) as (y & Y1 & Y2). destruct (B6 i y Y1) as (z & Z1 & Z2). exists z. split; [exact Z1|lia].
Qed.
Lemma grows_done : forall r s s', grows s s' -> DoneParsing r s' = DoneParsing r s.
Proof. intros r s s' [A1 A2 A3 A4 A5 A6]. unfold DoneParsing. rewrite A1, A2, A3. reflexivity. Qed.

Lemma replaced_length : forall A (l : list A) n x, (n < length l)%nat -> length (firstn n l ++ x :: skipn (S n) l) = length l.
Proof. intros A l n x H. rewrite app_length. cbn [length]. rewrite firstn_length, skipn_length. lia. Qed.
Lemma nth_skipn : forall A (l : list A) n k, nth_error (skipn n l) k = nth_error l (n + k).
Proof. induction l as [|a l IH]; intros [|n] k; cbn; auto. destruct k; reflexivity. Qed.
Lemma replaced_nth : forall A (l : list A) n x m, (n < length l)%nat ->
  nth_error (firstn n l ++ x :: skipn (S n) l) m = if Nat.eqb m n then Some x else nth_error l m.
Proof.
  intros A l n x m H. destruct (Nat.eqb_spec m n) as [->|Hn].
  - rewrite nth_error_app2 by (rewrite firstn_length; lia). rewrite firstn_length. replace (n - Nat.min n (length l))%nat with 0%nat by lia. reflexivity.
  - destruct (Nat.ltb_spec m n).
    + rewrite nth_error_app1 by (rewrite firstn_length; lia). revert n H Hn H0. revert m. induction l as [|a l IH]; intros [|m] [|n] H Hn H0; cbn in *; try lia; try reflexivity. apply IH; lia.
    + rewrite nth_error_app2 by (rewrite firstn_length; lia). rewrite firstn_length. replace (m - Nat.min n (length l))%nat with (S (m - n - 1)) by lia. cbn [nth_error].
      rewrite nth_skipn. f_equal. lia.
Qed.
Lemma Forall2_length : forall A B (P : A -> B -> Prop) l l', Forall2 P l l' -> length l = length l'.
Proof. intros A B P l l' H. induction H; cbn; auto. Qed.
Lemma Forall2_nth : forall A B (P : A -> B -> Prop) l l', length l = length l' -> (forall n a b, nth_error l n = Some a -> nth_error l' n = Some b -> P a b) -> Forall2 P l l'.
Proof.
  intros A B P. induction l as [|a l IH]; intros [|b l'] HL H; cbn in HL; try discriminate; constructor.
  - exact (H 0%nat a b eq_refl eq_refl).
  - apply IH; [lia|]. intros n x y Hx Hy. exact (H (S n) x y Hx Hy).
Qed.
Lemma nth_Forall2 : forall A B (P : A -> B -> Prop) l l', Forall2 P l l' -> forall n b, nth_error l' n = Some b -> exists a, nth_error l n = Some a /\ P a b.
Proof. intros A B P l l' H. induction H; intros [|n] b Hb; cbn in Hb; try discriminate; [injection Hb as <-; eexists; split; [reflexivity|assumption]|]. exact (IHForall2 n b Hb). Qed.

Lemma cluster_at_range : forall s i c, cluster_at s i = Some c -> 0 <= i < zlen (pg_clusters s).
Proof. intros s i c H. unfold cluster_at in H. destruct (Z.ltb_spec i 0); [discriminate|]. assert (nth_error (pg_clusters s) (Z.to_nat i) <> None) as X by congruence. apply nth_error_Some in X. unfold zlen. lia. Qed.
Lemma cluster_at_set : forall s i c j, 0 <= i < zlen (pg_clusters s) -> cluster_at (set_cluster s i c) j = if j =? i then Some c else cluster_at s j.
Proof.
  intros s i c j Hi. unfold cluster_at, set_cluster. cbn [pg_set_clusters pg_clusters]. destruct (Z.ltb_spec j 0).
  - replace (j =? i) with false by lia. reflexivity.
  - rewrite replaced_nth by (unfold zlen in Hi; lia). destruct (Z.eqb_spec j i) as [->|]; [rewrite Nat.eqb_refl; reflexivity|]. destruct (Nat.eqb_spec (Z.to_nat j) (Z.to_nat i)); [lia|reflexivity].
Qed.
Lemma set_grows : forall s i c c', cluster_at s i = Some c -> zlen (entries c) <= zlen (entries c') -> grows s (set_cluster s i c').
Proof.
  intros s i c c' H HL. pose proof (cluster_at_range _ _ _ H) as Hr. constructor; try reflexivity.
  - unfold set_cluster. cbn [pg_set_clusters pg_clusters]. apply replaced_length. unfold zlen in Hr. lia.
  - intros j x Hx. rewrite cluster_at_set by exact Hr. destruct (Z.eqb_spec j i) as [->|]; [exists c'; split; [reflexivity|congruence]|exists x; split; [exact Hx|lia]].
Qed.
Lemma set_holds : forall r cs s i c' tc es, seg_holds r cs s -> 0 <= i -> nth_error cs (Z.to_nat i) = Some (tc, es) -> holds r tc es c' -> seg_holds r cs (set_cluster s i c').
Proof.
  intros r cs s i c' tc es H Hi Hn Hc. unfold seg_holds in *. pose proof (Forall2_length _ _ _ _ _ H) as HL.
  assert (Hlt : (Z.to_nat i < length (pg_clusters s))%nat). { rewrite HL. apply nth_error_Some. congruence. }
  unfold set_cluster. cbn [pg_set_clusters pg_clusters]. apply Forall2_nth.
  - rewrite replaced_length by exact Hlt. exact HL.
  - intros n a b Ha Hb. rewrite replaced_nth in Ha by exact Hlt. destruct (Nat.eqb_spec n (Z.to_nat i)) as [->|].
    + injection Ha as <-. rewrite Hn in Hb. injection Hb as <-. exact Hc.
    + destruct (nth_Forall2 _ _ _ _ _ H n b Hb) as (a' & Ea & P). rewrite Ha in Ea. injection Ea as <-. exact P.
Qed.
Lemma holds_at : forall r cs s i tc es, seg_holds r cs s -> 0 <= i -> nth_error cs (Z.to_nat i) = Some (tc, es) -> exists c, cluster_at s i = Some c /\ holds r tc es c.
Proof.
  intros r cs s i tc es H Hi Hn. destruct (nth_Forall2 _ _ _ _ _ H _ _ Hn) as (c & Ec & P). exists c. split; [|exact P]. unfold cluster_at. replace (i <? 0) with false by lia. exact Ec.
Qed.
Lemma none_at : forall r cs s i, seg_holds r cs s -> zlen cs <= i -> cluster_at s i = None.
Proof. intros r cs s i H Hi. unfold cluster_at. destruct (i <? 0); [reflexivity|]. apply nth_error_None. rewrite (Forall2_length _ _ _ _ _ H). unfold zlen in Hi. lia. Qed.
Lemma nth_mid : forall A (pre : list A) x suf, nth_error (pre ++ x :: suf) (Z.to_nat (zlen pre)) = Some x.
Proof. intros A pre x suf. rewrite nth_error_app2 by (unfold zlen; lia). replace (Z.to_nat (zlen pre) - length pre)%nat with 0%nat by (unfold zlen; lia). reflexivity. Qed.

Definition parsed (s : pseg) (ci ei : Z) : Prop := exists c, cluster_at s ci = Some c /\ 0 <= ei < zlen (entries c).

(* ---------- what the functions return, on lists ---------- *)

Definition answer (x : option (Z * Z * bentry)) : Z * walk_entry :=
  match x with Some (ci, ei, e) => (0, WE_entry ci ei e) | None => (1, WE_eos) end.
Definition ready (s : pseg) (x : option (Z * Z * bentry)) : Prop :=
  match x with Some (ci, ei, _) => parsed s ci ei | None => True end.

Fixpoint pfirst (ok : bentry -> bool) (css : list (list bentry)) (ci i : Z) : option (Z * Z * bentry) :=
  match css with
  | [] => None
  | [] :: css => pfirst ok css (ci + 1) i
  | es :: css =>
      match find_at ok 0 es with
      | Some (k, e) => Some (ci, k, e)
      | None => if i + 1 >=? 100 then None else pfirst ok css (ci + 1) (i + 1)
      end
  end.
Fixpoint pnext (ok : bentry -> bool) (css : list (list bentry)) (ci i : Z) : option (Z * Z * bentry) :=
  match css with
  | [] => None
  | [] :: css => pnext ok css (ci + 1) i
  | es :: css =>
      if i + 1 >=? 100 then None
      else match find_at ok 0 es with
           | Some (k, e) => Some (ci, k, e)
           | None => pnext ok css (ci + 1) (i + 1)
           end
  end.

Section Walk.
  Context (r : reader) (t : p_track) (cs : list (Z * list bentry)).
  Context (HI : intact r).

  (* opening a cluster and scanning it *)
  Lemma open_cluster : forall s ci tc es, seg_holds r cs s -> 0 <= ci -> nth_error cs (Z.to_nat ci) = Some (tc, es) ->
    exists c c', cluster_at s ci = Some c /\ Cluster_GetFirst r c = Some (Val (0, hd_error es, c')) /\ holds r tc es c' /\ (es <> [] -> 1 <= zlen (entries c')) /\
      seg_holds r cs (set_cluster s ci c') /\ grows s (set_cluster s ci c').
  Proof.
    intros s ci tc es H Hci Hn. destruct (holds_at r cs s ci tc es H Hci Hn) as (c & Ec & Hc). destruct (holds_first r tc es c HI Hc) as (c' & E & Hc' & _ & HL & _).
    exists c, c'. split; [exact Ec|]. split; [exact E|]. split; [exact Hc'|]. split; [exact HL|]. split; [exact (set_holds r cs s ci c' tc es H Hci Hn Hc')|].
    apply (set_grows s ci c c' Ec). unfold Cluster_GetFirst in E. destruct (entry_count_entries c) as (N1 & N2 & N3).
    destruct (Z.leb_spec (entry_count c) 0); [rewrite N2 by assumption; apply zlen_nonneg|]. injection E as _ ->. lia.
  Qed.

  Lemma scan_cluster : forall s ci tc ok c pre e post, seg_holds r cs s -> 0 <= ci -> nth_error cs (Z.to_nat ci) = Some (tc, pre ++ e :: post) ->
    holds r tc (pre ++ e :: post) c -> zlen pre < zlen (entries c) -> forall s0, (s = set_cluster s0 ci c /\ cluster_at s0 ci <> None) \/ cluster_at s ci = Some c ->
    exists c', scan (scan_fuel r c) r ok c (zlen pre) e = Val (0, find_at ok (zlen pre) (e :: post), c') /\
      seg_holds r cs (set_cluster s ci c') /\ grows s (set_cluster s ci c') /\ ready (set_cluster s ci c') (option_map (fun p => (ci, fst p, snd p)) (find_at ok (zlen pre) (e :: post))).
  Proof.
    intros s ci tc ok c pre e post H Hci Hn Hc Hp s0 Hs.
    assert (Ec : cluster_at s ci = Some c). { destruct Hs as [[-> Hs]|Hs]; [|exact Hs]. destruct (cluster_at s0 ci) as [c0|] eqn:E0; [|congruence]. rewrite cluster_at_set by exact (cluster_at_range _ _ _ E0). rewrite Z.eqb_refl. reflexivity. }
    destruct (scan_run r tc _ ok HI post (scan_fuel r c) c pre e Hc eq_refl Hp (scan_enough r tc _ c pre e post HI Hc eq_refl)) as (c' & E & Hc' & _ & HL & HM).
    exists c'. split; [exact E|]. split; [exact (set_holds r cs s ci c' tc _ H Hci Hn Hc')|]. split; [exact (set_grows s ci c c' Ec HL)|].
    destruct (find_at ok (zlen pre) (e :: post)) as [[k x]|]; [|exact I]. cbn [option_map ready fst snd]. exists c'. split; [|lia].
    rewrite cluster_at_set by exact (cluster_at_range _ _ _ Ec). rewrite Z.eqb_refl. reflexivity.
  Qed.

  Lemma get_first_run : forall suf pre fuel s i, cs = pre ++ suf -> (length suf < fuel)%nat -> seg_holds r cs s -> DoneParsing r s = true ->
    exists s', get_first fuel r s t (zlen pre) i = Val (answer (pfirst (fun e => on_track t e && vets t e) (map snd suf) (zlen pre) i), s') /\
      seg_holds r cs s' /\ grows s s' /\ ready s' (pfirst (fun e => on_track t e && vets t e) (map snd suf) (zlen pre) i).
  Proof.
    induction suf as [|[tc es] suf IH]; intros pre fuel s i Hcs Hf H HD; (destruct fuel as [|fuel]; [cbn in Hf; lia|]); cbn [get_first map pfirst].
    - rewrite (none_at r cs s (zlen pre) H) by (rewrite Hcs, app_nil_r; lia). unfold at_end. rewrite HD. exists s. split; [reflexivity|]. split; [exact H|]. split; [apply grows_refl|exact I].
    - pose proof (zlen_nonneg _ pre) as Hz. assert (Hn : nth_error cs (Z.to_nat (zlen pre)) = Some (tc, es)) by (rewrite Hcs; apply nth_mid).
      destruct (open_cluster s (zlen pre) tc es H Hz Hn) as (c & c1 & Ec & E1 & Hc1 & HL & H1 & G1). rewrite Ec, E1. cbv zeta. change (0 <? 0) with false. cbv iota.
      assert (Hpre : cs = (pre ++ [(tc, es)]) ++ suf) by (rewrite <- app_assoc; exact Hcs).
      assert (HZ : zlen (pre ++ [(tc, es)]) = zlen pre + 1) by (rewrite zlen_app; reflexivity).
      destruct es as [|e es]; cbn [hd_error snd].
      + destruct (IH (pre ++ [(tc, [])]) fuel (set_cluster s (zlen pre) c1) i Hpre ltac:(cbn in Hf; lia) H1) as (s' & E & H' & G & R).
        { rewrite (grows_done r _ _ G1). exact HD. }
        rewrite HZ in E, R. exists s'. split; [exact E|]. split; [exact H'|]. split; [exact (grows_trans _ _ _ G1 G)|exact R].
      + specialize (HL ltac:(discriminate)). assert (Ene : cluster_at s (zlen pre) <> None) by (rewrite Ec; discriminate).
        destruct (scan_cluster (set_cluster s (zlen pre) c1) (zlen pre) tc (fun e => on_track t e && vets t e) c1 [] e es H1 Hz Hn Hc1 ltac:(rewrite zlen_nil; lia) s (or_introl (conj eq_refl Ene))) as (c2 & E2 & H2 & G2 & R2).
        rewrite zlen_nil in E2, R2. rewrite E2. cbv iota. cbv zeta. change (0 <? 0) with false. cbv iota.
        destruct (find_at _ 0 (e :: es)) as [[k x]|].
        * exists (set_cluster (set_cluster s (zlen pre) c1) (zlen pre) c2). split; [reflexivity|]. split; [exact H2|]. split; [exact (grows_trans _ _ _ G1 G2)|exact R2].
        * destruct (Z.geb_spec (i + 1) 100).
          { exists (set_cluster (set_cluster s (zlen pre) c1) (zlen pre) c2). split; [reflexivity|]. split; [exact H2|]. split; [exact (grows_trans _ _ _ G1 G2)|exact I]. }
          destruct (IH (pre ++ [(tc, e :: es)]) fuel (set_cluster (set_cluster s (zlen pre) c1) (zlen pre) c2) (i + 1) Hpre ltac:(cbn in Hf; lia) H2) as (s' & E & H' & G & R).
          { rewrite (grows_done r _ _ G2), (grows_done r _ _ G1). exact HD. }
          rewrite HZ in E, R. exists s'. split; [exact E|]. split; [exact H'|]. split; [exact (grows_trans _ _ _ G1 (grows_trans _ _ _ G2 G))|exact R].
  Qed.

  (* what GetNext's loop returns: in the rest of the cluster, or behind it *)
  Definition pnext' (o : option (Z * bentry * list bentry)) (css : list (list bentry)) (ci i : Z) : option (Z * Z * bentry) :=
    match (match o with None => None | Some (k, e, post) => find_at (on_track t) k (e :: post) end) with
    | Some (k, e) => Some (ci, k, e)
    | None => pnext (on_track t) css (ci + 1) i
    end.
  Definition in_cluster (s : pseg) (ci : Z) (all : list bentry) (o : option (Z * bentry * list bentry)) : Prop :=
    match o with None => True | Some (k, e, post) => exists p c, all = p ++ e :: post /\ k = zlen p /\ cluster_at s ci = Some c /\ k < zlen (entries c) end.
  Definition drop_rest (o : option (Z * bentry * list bentry)) : option (Z * bentry) := match o with None => None | Some (k, e, _) => Some (k, e) end.

  Lemma get_next_run : forall suf pre tc all fuel s o i, cs = pre ++ (tc, all) :: suf -> (length suf < fuel)%nat -> seg_holds r cs s -> DoneParsing r s = true ->
    in_cluster s (zlen pre) all o ->
    exists s', get_next fuel r s t (zlen pre) (drop_rest o) i = Val (answer (pnext' o (map snd suf) (zlen pre) i), s') /\
      seg_holds r cs s' /\ grows s s' /\ ready s' (pnext' o (map snd suf) (zlen pre) i).
  Proof.
    induction suf as [|[tc2 es] suf IH]; intros pre tc all fuel s o i Hcs Hf H HD Ho; (destruct fuel as [|fuel]; [cbn in Hf; lia|]); cbn [get_next]; unfold pnext'.
    all: pose proof (zlen_nonneg _ pre) as Hz; assert (Hn : nth_error cs (Z.to_nat (zlen pre)) = Some (tc, all)) by (rewrite Hcs; apply nth_mid).
    all: destruct (holds_at r cs s (zlen pre) tc all H Hz Hn) as (c & Ec & Hc); rewrite Ec.
    all: assert (HS : exists c1, (match drop_rest o with None => Val (0, None, c) | Some (ei, e) => scan (scan_fuel r c) r (on_track t) c ei e end) =
             Val (0, match o with None => None | Some (k, e, post) => find_at (on_track t) k (e :: post) end, c1) /\ seg_holds r cs (set_cluster s (zlen pre) c1) /\
             grows s (set_cluster s (zlen pre) c1) /\ ready (set_cluster s (zlen pre) c1) (option_map (fun p => (zlen pre, fst p, snd p)) (match o with None => None | Some (k, e, post) => find_at (on_track t) k (e :: post) end))).
    1, 3: (destruct o as [[[k e] post]|]; cbn [drop_rest];
      [destruct Ho as (p & c0 & -> & -> & Ec0 & Hk); rewrite Ec in Ec0; injection Ec0 as <-;
       exact (scan_cluster s (zlen pre) tc (on_track t) c p e post H Hz Hn Hc Hk s (or_intror Ec))
      |exists c; split; [reflexivity|]; split; [exact (set_holds r cs s _ c tc all H Hz Hn Hc)|]; split; [exact (set_grows s _ c c Ec ltac:(lia))|exact I]]).
    all: destruct HS as (c1 & E1 & H1 & G1 & R1); rewrite E1; cbv iota; cbv zeta; change (0 <? 0) with false; cbv iota.
    all: set (f := match o with None => None | Some (k, e, post) => find_at (on_track t) k (e :: post) end) in *.
    all: destruct f as [[k x]|]; [exists (set_cluster s (zlen pre) c1); split; [reflexivity|]; split; [exact H1|]; split; [exact G1|exact R1]|].
    - rewrite (none_at r cs _ (zlen pre + 1) H1) by (rewrite Hcs, zlen_app; change (zlen [(tc, all)]) with 1; lia). unfold at_end. rewrite (grows_done r _ _ G1), HD.
      exists (set_cluster s (zlen pre) c1). split; [reflexivity|]. split; [exact H1|]. split; [exact G1|exact I].
    - assert (Hpre : cs = (pre ++ [(tc, all)]) ++ (tc2, es) :: suf) by (rewrite <- app_assoc; exact Hcs).
      assert (HZ : zlen (pre ++ [(tc, all)]) = zlen pre + 1) by (rewrite zlen_app; reflexivity).
      assert (Hn2 : nth_error cs (Z.to_nat (zlen pre + 1)) = Some (tc2, es)) by (rewrite Hpre, <- HZ; apply nth_mid).
      destruct (open_cluster (set_cluster s (zlen pre) c1) (zlen pre + 1) tc2 es H1 ltac:(lia) Hn2) as (c2 & c3 & Ec2 & E2 & Hc3 & HL & H3 & G3). rewrite Ec2, E2. cbv zeta. change (0 <? 0) with false. cbv iota.
      set (s3 := set_cluster (set_cluster s (zlen pre) c1) (zlen pre + 1) c3) in *.
      assert (HD3 : DoneParsing r s3 = true) by (rewrite (grows_done r _ _ G3), (grows_done r _ _ G1); exact HD).
      destruct es as [|e es]; cbn [hd_error map snd pnext].
      + destruct (IH (pre ++ [(tc, all)]) tc2 [] fuel s3 None i Hpre ltac:(cbn in Hf; lia) H3 HD3 I) as (s' & E & H' & G & R).
        rewrite HZ in E, R. unfold pnext' in E, R. exists s'. split; [exact E|]. split; [exact H'|]. split; [exact (grows_trans _ _ _ G1 (grows_trans _ _ _ G3 G))|exact R].
      + destruct (Z.geb_spec (i + 1) 100).
        { exists s3. split; [reflexivity|]. split; [exact H3|]. split; [exact (grows_trans _ _ _ G1 G3)|exact I]. }
        destruct (IH (pre ++ [(tc, all)]) tc2 (e :: es) fuel s3 (Some (0, e, es)) (i + 1) Hpre ltac:(cbn in Hf; lia) H3 HD3) as (s' & E & H' & G & R).
        { exists [], c3. split; [reflexivity|]. split; [reflexivity|]. split; [|specialize (HL ltac:(discriminate)); lia].
          rewrite HZ. unfold s3. rewrite cluster_at_set by exact (cluster_at_range _ _ _ Ec2). rewrite Z.eqb_refl. reflexivity. }
        rewrite HZ in E, R. unfold pnext' in E, R. exists s'. split; [exact E|]. split; [exact H'|]. split; [exact (grows_trans _ _ _ G1 (grows_trans _ _ _ G3 G))|exact R].
  Qed.
End Walk.
