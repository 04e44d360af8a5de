(* Proofs about walking over the blocks of a track: what is shown is what the file has. *)
From Coq Require Import ZifyBool ZifyNat.
From Verif Require Import Base ReaderSpec Ids MParUtil MParBlock MParMeta MParTrack MParCluster ClusterSpec ClusterSafeSpec PClusterSafe MParSegment MParWalk WalkSpec PParWalk PParWalk2.

Section Lists.
  Context (ok : bentry -> bool).
  Let okp (p : Z * Z * bentry) : bool := ok (snd p).

  Lemma find_number : forall es ci k, hd_error (filter okp (number ci k es)) = option_map (fun p => (ci, fst p, snd p)) (find_at ok k es).
  Proof. induction es as [|e es IH]; intros ci k; [reflexivity|]. cbn [number filter find_at]. unfold okp at 1. cbn [snd]. destruct (ok e); [reflexivity|apply IH]. Qed.
  Lemma none_number : forall es ci k, has (fun e => okp (0, 0, e)) es = false -> filter okp (number ci k es) = [] /\ find_at ok k es = None.
  Proof.
    induction es as [|e es IH]; intros ci k H; [split; reflexivity|]. unfold has in *. cbn [existsb] in H. unfold okp at 1 in H. cbn [snd] in H. apply orb_false_iff in H as [H1 H2].
    destruct (IH ci (k + 1) H2) as [E1 E2]. cbn [number filter find_at]. unfold okp at 1. cbn [snd]. rewrite H1. auto.
  Qed.
  Lemma some_number : forall es k, has (fun e => okp (0, 0, e)) es = true -> exists p, find_at ok k es = Some p.
  Proof.
    induction es as [|e es IH]; intros k H; [discriminate|]. unfold has in *. cbn [existsb] in H. unfold okp at 1 in H. cbn [snd] in H. cbn [find_at]. destruct (ok e); [eauto|]. apply IH. exact H.
  Qed.
  Lemma hd_app : forall A (a b : list A), hd_error (a ++ b) = match hd_error a with Some x => Some x | None => hd_error b end.
  Proof. intros A [|x a] b; reflexivity. Qed.
  Lemma none_places : forall css ci, Forall (fun x => has (fun e => okp (0, 0, e)) x = false) css -> filter okp (places ci css) = [].
  Proof. induction css as [|es css IH]; intros ci H; [reflexivity|]. cbn [places]. inversion H; subst. rewrite filter_app, (proj1 (none_number es ci 0 H2)), IH by assumption. reflexivity. Qed.
  Lemma first_with : forall css, Forall (fun x => has (fun e => okp (0, 0, e)) x = false) css \/ exists mid es b, css = mid ++ es :: b /\ Forall (fun x => has (fun e => okp (0, 0, e)) x = false) mid /\ has (fun e => okp (0, 0, e)) es = true.
  Proof.
    induction css as [|es css IH]; [left; constructor|]. destruct (has (fun e => okp (0, 0, e)) es) eqn:E.
    - right. exists [], es, css. auto.
    - destruct IH as [IH|(mid & x & b & -> & H1 & H2)]; [left; constructor; auto|right]. exists (es :: mid), x, b. auto.
  Qed.

  (* at most n clusters are opened in vain, counting from i *)
  Definition reach (n i : Z) (css : list (list bentry)) : Prop := forall mid es b, css = mid ++ es :: b -> Forall (fun x => has (fun e => okp (0, 0, e)) x = false) mid -> has (fun e => okp (0, 0, e)) es = true ->
    i + Z.of_nat (length (filter not_empty mid)) <= n.
  Lemma reach_tail : forall n i es css, reach n i (es :: css) -> has (fun e => okp (0, 0, e)) es = false -> reach n (i + if not_empty es then 1 else 0) css.
  Proof.
    intros n i es css H He mid x b -> Hm Hx. specialize (H (es :: mid) x b eq_refl (Forall_cons _ He Hm) Hx). cbn [filter] in H. destruct (not_empty es); cbn [length] in H; lia.
  Qed.
  Lemma pfirst_spec : forall css ci i, reach 99 i css -> pfirst ok css ci i = hd_error (filter okp (places ci css)).
  Proof.
    induction css as [|es css IH]; intros ci i H; [reflexivity|]. cbn [places]. rewrite filter_app, hd_app, find_number. destruct es as [|e es].
    - cbn [pfirst find_at option_map]. apply IH. pose proof (reach_tail _ _ _ _ H eq_refl) as X. cbn [not_empty] in X. rewrite Z.add_0_r in X. exact X.
    - cbn [pfirst]. destruct (find_at ok 0 (e :: es)) as [[k x]|] eqn:E; [reflexivity|]. cbn [option_map].
      assert (HN : has (fun e => okp (0, 0, e)) (e :: es) = false). { destruct (has (fun e => okp (0, 0, e)) (e :: es)) eqn:X; [|reflexivity]. destruct (some_number _ 0 X) as (p & Y). congruence. }
      pose proof (reach_tail _ _ _ _ H HN) as X. cbn [not_empty] in X. destruct (Z.geb_spec (i + 1) 100); [|apply IH; exact X].
      destruct (first_with css) as [HA|(mid & y & b & Ec & Hm & Hy)]; [rewrite none_places by exact HA; reflexivity|]. specialize (X mid y b Ec Hm Hy). lia.
  Qed.
  Lemma pnext_spec : forall css ci i, reach 98 i css -> pnext ok css ci i = hd_error (filter okp (places ci css)).
  Proof.
    induction css as [|es css IH]; intros ci i H; [reflexivity|]. cbn [places]. rewrite filter_app, hd_app, find_number. destruct es as [|e es].
    - cbn [pnext find_at option_map]. apply IH. pose proof (reach_tail _ _ _ _ H eq_refl) as X. cbn [not_empty] in X. rewrite Z.add_0_r in X. exact X.
    - cbn [pnext]. destruct (has (fun e => okp (0, 0, e)) (e :: es)) eqn:HN.
      + pose proof (H [] (e :: es) css eq_refl (Forall_nil _) HN) as X. cbn [filter length] in X. destruct (Z.geb_spec (i + 1) 100); [lia|].
        destruct (some_number _ 0 HN) as ([k x] & Y). rewrite Y. reflexivity.
      + pose proof (reach_tail _ _ _ _ H HN) as X. cbn [not_empty] in X. rewrite (proj2 (none_number _ ci 0 HN)). cbn [option_map].
        destruct (Z.geb_spec (i + 1) 100); [|apply IH; exact X].
        destruct (first_with css) as [HA|(mid & y & b & Ec & Hm & Hy)]; [rewrite none_places by exact HA; reflexivity|]. specialize (X mid y b Ec Hm Hy). lia.
  Qed.
End Lists.

Lemma number_split : forall es ci k A x B, number ci k es = A ++ x :: B ->
  exists p e post, es = p ++ e :: post /\ x = (ci, k + zlen p, e) /\ B = number ci (k + zlen p + 1) post /\ A = number ci k p.
Proof.
  induction es as [|e es IH]; intros ci k A x B H; [destruct A; discriminate|]. cbn [number] in H. destruct A as [|a A]; cbn [app] in H; injection H as H1 H2.
  - exists [], e, es. subst. rewrite zlen_nil, Z.add_0_r. auto.
  - destruct (IH ci (k + 1) A x B H2) as (p & e' & post & -> & -> & -> & ->). exists (e :: p), e', post. rewrite zlen_cons. split; [reflexivity|].
    split; [f_equal; f_equal; lia|]. split; [f_equal; lia|]. subst a. reflexivity.
Qed.
Lemma places_split : forall css ci0 A x B, places ci0 css = A ++ x :: B ->
  exists pre all suf p e post, css = pre ++ all :: suf /\ all = p ++ e :: post /\ x = (ci0 + zlen pre, zlen p, e) /\
    B = number (ci0 + zlen pre) (zlen p + 1) post ++ places (ci0 + zlen pre + 1) suf.
Proof.
  induction css as [|es css IH]; intros ci0 A x B H; [destruct A; discriminate|]. cbn [places] in H.
  assert (HC : (exists B', number ci0 0 es = A ++ x :: B' /\ B = B' ++ places (ci0 + 1) css) \/ exists A', A = number ci0 0 es ++ A' /\ places (ci0 + 1) css = A' ++ x :: B).
  { revert H. generalize (places (ci0 + 1) css) as L. generalize (number ci0 0 es) as N. intros N L. revert N. induction A as [|a A IHA]; intros [|n N] H; cbn [app] in H.
    - right. exists []. auto.
    - injection H as <- H. left. exists N. auto.
    - right. exists (a :: A). auto.
    - injection H as <- H. destruct (IHA N H) as [(B' & X1 & X2)|(A' & X1 & X2)]; [left; exists B'; subst; auto|right; exists A'; subst; auto]. }
  destruct HC as [(B' & H1 & ->)|(A' & -> & H1)].
  - destruct (number_split _ _ _ _ _ _ H1) as (p & e & post & -> & -> & -> & _). exists [], (p ++ e :: post), css, p, e, post. rewrite zlen_nil, Z.add_0_r. auto.
  - destruct (IH _ _ _ _ H1) as (pre & all & suf & p & e & post & -> & -> & -> & ->). exists (es :: pre), (p ++ e :: post), suf, p, e, post. rewrite zlen_cons. split; [reflexivity|].
    split; [reflexivity|]. split; [f_equal; f_equal; lia|]. f_equal; f_equal; lia.
Qed.

Lemma filter_hd_split : forall A (f : A -> bool) l x l', filter f l = x :: l' -> exists a b, l = a ++ x :: b /\ filter f a = [] /\ filter f b = l' /\ f x = true.
Proof.
  intros A f. induction l as [|y l IH]; intros x l' H; [discriminate|]. cbn [filter] in H. destruct (f y) eqn:E.
  - injection H as -> H. exists [], l. auto.
  - destruct (IH x l' H) as (a & b & -> & H1 & H2 & H3). exists (y :: a), b. cbn [filter app]. rewrite E. auto.
Qed.
Lemma since_filter : forall A (f g : A -> bool) l, hd_error (since g (filter f l)) = hd_error (filter (fun x => f x && g x) l).
Proof. intros A f g. induction l as [|x l IH]; [reflexivity|]. cbn [filter]. destruct (f x) eqn:Ef; cbn [andb since]; [destruct (g x); [reflexivity|exact IH]|exact IH]. Qed.
Lemma since_split : forall A (f g : A -> bool) l x l', since g (filter f l) = x :: l' -> exists a b, l = a ++ x :: b /\ filter f b = l' /\ f x = true.
Proof.
  intros A f g. induction l as [|y l IH]; intros x l' H; [discriminate|]. cbn [filter] in H. destruct (f y) eqn:Ef; cbn [since] in H.
  - destruct (g y).
    + injection H as -> H. exists [], l. auto.
    + destruct (IH x l' H) as (a & b & -> & H1 & H2). exists (y :: a), b. auto.
  - destruct (IH x l' H) as (a & b & -> & H1 & H2). exists (y :: a), b. auto.
Qed.

Section WalkAll.
  Context (r : reader) (t : p_track) (cs : list (Z * list bentry)).
  Context (HI : intact r).
  Let css := map snd cs.

  Lemma first_run : forall s, seg_holds r cs s -> DoneParsing r s = true -> no_gap_over 99 (fun e => of_this_track t (0, 0, e) && entry_point t (0, 0, e)) css ->
    exists s', Track_GetFirst r s t = Val (answer (hd_error (blocks_of_track t css)), s') /\ seg_holds r cs s' /\ grows s s' /\ ready s' (hd_error (blocks_of_track t css)).
  Proof.
    intros s H HD HG. unfold Track_GetFirst. destruct (get_first_run r t cs HI cs [] (S (length (pg_clusters s))) s 0 eq_refl) as (s' & E & H' & G & R); auto.
    { rewrite (Forall2_length _ _ _ _ _ H). lia. }
    rewrite zlen_nil in E, R. rewrite pfirst_spec in E, R.
    - unfold blocks_of_track. rewrite since_filter. exists s'. auto.
    - intros mid es b Hc Hm He. pose proof (HG mid es b Hc Hm He). lia.
    - intros mid es b Hc Hm He. pose proof (HG mid es b Hc Hm He). lia.
  Qed.

  Lemma next_run : forall s A ci ei e B, seg_holds r cs s -> DoneParsing r s = true -> places 0 css = A ++ (ci, ei, e) :: B -> of_this_track t (ci, ei, e) = true -> parsed s ci ei ->
    (forall a es b, css = a ++ es :: b -> has (fun e => of_this_track t (0, 0, e)) es = true -> no_gap_over 98 (fun e => of_this_track t (0, 0, e)) b) ->
    exists s', Track_GetNext r s t ci ei = Val (answer (hd_error (filter (of_this_track t) B)), s') /\ seg_holds r cs s' /\ grows s s' /\ ready s' (hd_error (filter (of_this_track t) B)).
  Proof.
    intros s A ci ei e B H HD HP Hm (c0 & Ec0 & Hei) HG. destruct (places_split _ _ _ _ _ HP) as (pre & all & suf & p & e' & post & Hcss & Hall & Hx & HB).
    rewrite Z.add_0_l in Hx, HB. injection Hx as -> -> <-. 
    assert (HCS : exists pre' tc suf', cs = pre' ++ (tc, all) :: suf' /\ map snd pre' = pre /\ map snd suf' = suf).
    { unfold css in Hcss. clear - Hcss. revert pre Hcss. induction cs as [|[tc x] l IH]; intros [|y pre] Hc; cbn [map app] in Hc; try discriminate; injection Hc as H1 H2; cbn [snd] in H1; subst.
      - exists [], tc, l. auto.
      - destruct (IH pre H2) as (p' & tc' & s' & -> & <- & <-). exists ((tc, y) :: p'), tc', s'. auto. }
    destruct HCS as (pre' & tc & suf' & Hcs & Hpre & Hsuf). assert (HZ : zlen pre = zlen pre') by (unfold zlen; rewrite <- Hpre, map_length; reflexivity). rewrite HZ in *.
    pose proof (zlen_nonneg _ pre') as Hz. pose proof (zlen_nonneg _ p) as Hzp. assert (Hn : nth_error cs (Z.to_nat (zlen pre')) = Some (tc, all)) by (rewrite Hcs; apply nth_mid).
    destruct (holds_at r cs s (zlen pre') tc all H Hz Hn) as (c & Ec & Hc). rewrite Ec in Ec0. injection Ec0 as <-.
    unfold Track_GetNext. rewrite Ec, entry_at_entries. destruct (holds_prefix _ _ _ _ Hc) as (rest & Hrest).
    assert (EN : nth_error (entries c) (Z.to_nat (zlen p)) = Some e).
    { pose proof (nth_mid _ p e post) as X. rewrite <- Hall, Hrest, nth_error_app1 in X by (unfold zlen in *; lia). exact X. }
    rewrite EN. replace (on_track t e) with true by (symmetry; exact Hm). cbn [negb].
    destruct (holds_next r tc all c (zlen p) HI Hc Hei) as (c1 & E1 & Hc1 & _ & HL & HM). rewrite E1. cbv zeta. change (0 <? 0) with false. cbv iota.
    pose proof (set_holds r cs s (zlen pre') c1 tc all H Hz Hn Hc1) as H1. pose proof (set_grows s (zlen pre') c c1 Ec HL) as G1.
    set (o := match post with [] => None | e2 :: post2 => Some (zlen p + 1, e2, post2) end).
    assert (EO : match nth_error all (Z.to_nat (zlen p + 1)) with None => None | Some e => Some (zlen p + 1, e) end = drop_rest o).
    { rewrite Hall, nth_error_app2 by (unfold zlen; lia). replace (Z.to_nat (zlen p + 1) - length p)%nat with 1%nat by (unfold zlen; lia). cbn [nth_error]. unfold o. destruct post; reflexivity. }
    rewrite EO. destruct (get_next_run r t cs HI suf' pre' tc all (S (length (pg_clusters (set_cluster s (zlen pre') c1)))) (set_cluster s (zlen pre') c1) o 0 Hcs) as (s' & E & H' & G & R); auto.
    { rewrite (Forall2_length _ _ _ _ _ H1), Hcs, app_length. cbn [length]. lia. }
    { unfold o. destruct post as [|e2 post2]; [exact I|]. exists (p ++ [e]), c1. rewrite <- app_assoc. split; [exact Hall|]. split; [rewrite zlen_app; reflexivity|].
      split; [rewrite cluster_at_set by exact (cluster_at_range _ _ _ Ec); rewrite Z.eqb_refl; reflexivity|]. apply HM. rewrite Hall, zlen_app, !zlen_cons. pose proof (zlen_nonneg _ post2). lia. }
    assert (EA : pnext' t o (map snd suf') (zlen pre') 0 = hd_error (filter (of_this_track t) B)).
    { rewrite HB, filter_app, hd_app. change (of_this_track t) with (fun q : Z * Z * bentry => on_track t (snd q)). rewrite find_number. rewrite Hsuf. unfold pnext'.
      replace (match o with None => None | Some (k, e0, post0) => find_at (on_track t) k (e0 :: post0) end) with (find_at (on_track t) (zlen p + 1) post) by (unfold o; destruct post; reflexivity).
      destruct (find_at (on_track t) (zlen p + 1) post) as [[k x]|]; [reflexivity|]. cbn [option_map]. apply pnext_spec.
      intros mid es b Hb Hmid Hes. assert (HA : has (fun e => of_this_track t (0, 0, e)) all = true).
      { unfold has. rewrite Hall, existsb_app. cbn [existsb]. change (of_this_track t (0, 0, e)) with (of_this_track t (zlen pre', zlen p, e)). rewrite Hm. apply orb_true_r. }
      pose proof (HG pre all suf Hcss HA mid es b Hb Hmid Hes). lia. }
    rewrite EA in E, R. exists s'. split; [exact E|]. split; [exact H'|]. split; [exact (grows_trans _ _ _ G1 G)|exact R].
  Qed.

  Lemma walk_from_run : forall l s A ci ei e B, filter (of_this_track t) B = l -> seg_holds r cs s -> DoneParsing r s = true -> places 0 css = A ++ (ci, ei, e) :: B ->
    of_this_track t (ci, ei, e) = true -> parsed s ci ei ->
    (forall a es b, css = a ++ es :: b -> has (fun e => of_this_track t (0, 0, e)) es = true -> no_gap_over 98 (fun e => of_this_track t (0, 0, e)) b) ->
    exists s', walk_from r t s ci ei l s' /\ seg_holds r cs s' /\ grows s s'.
  Proof.
    induction l as [|[[ci2 ei2] e2] l IH]; intros s A ci ei e B Hl H HD HP Hm Hpa HG; destruct (next_run s A ci ei e B H HD HP Hm Hpa HG) as (s1 & E & H1 & G1 & R); rewrite Hl in E, R; cbn [hd_error answer ready] in E, R.
    - exists s1. split; [apply wf_end; exact E|]. auto.
    - destruct (filter_hd_split _ _ _ _ _ Hl) as (a & b & -> & F1 & F2 & F3).
      destruct (IH s1 (A ++ (ci, ei, e) :: a) ci2 ei2 e2 b F2 H1) as (s' & W & H' & G'); auto.
      + rewrite (grows_done r _ _ G1). exact HD.
      + rewrite <- app_assoc. exact HP.
      + exists s'. split; [eapply wf_more; [exact E|exact W]|]. split; [exact H'|exact (grows_trans _ _ _ G1 G')].
  Qed.

  Lemma walk_run : forall s, seg_holds r cs s -> DoneParsing r s = true -> close_together t css ->
    exists s', walk r t s (blocks_of_track t css) s' /\ seg_holds r cs s' /\ grows s s'.
  Proof.
    intros s H HD [HG1 HG2]. destruct (first_run s H HD HG1) as (s1 & E & H1 & G1 & R). unfold walk. destruct (blocks_of_track t css) as [|[[ci ei] e] l] eqn:EB; cbn [hd_error answer ready] in E, R.
    - exists s1. auto.
    - unfold blocks_of_track in EB. destruct (since_split _ _ _ _ _ _ EB) as (a & b & HP & F1 & F2).
      destruct (walk_from_run l s1 a ci ei e b F1 H1) as (s' & W & H' & G'); auto.
      + rewrite (grows_done r _ _ G1). exact HD.
      + exists s'. split; [exists s1; auto|]. split; [exact H'|exact (grows_trans _ _ _ G1 G')].
  Qed.
End WalkAll.

(* from what the clusters list *)
Lemma seg_lists : forall r s css, intact r -> Forall (cl_inv r) (pg_clusters s) -> Forall2 (lists r) (pg_clusters s) css -> exists cs, map snd cs = css /\ seg_holds r cs s.
Proof.
  intros r s css HI HC H. unfold seg_holds. revert HC. induction H as [|c es l css Hc H IH]; intros HC; [exists []; split; [reflexivity|constructor]|].
  inversion HC; subst. destruct (IH H3) as (cs & E & F). destruct (lists_holds r c es HI H2 Hc) as (tc & X). exists ((tc, es) :: cs). cbn [map snd]. rewrite E. split; [reflexivity|]. constructor; assumption.
Qed.
