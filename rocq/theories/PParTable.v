(* The cluster table: proofs. *)
From Coq Require Import ZifyBool ZifyNat.
From Verif Require Import Base MParTable TableSpec.

Section T.
Context {A : Type}.
Notation E := (centry A).

Lemma cell_in : forall (l : list E) rest i c, nth_error l i = Some c -> cell (map Some l ++ rest) (Z.of_nat i) = Val c.
Proof.
  intros l rest i c H. unfold cell. destruct (Z.ltb_spec (Z.of_nat i) 0); [lia|]. rewrite Nat2Z.id.
  rewrite nth_error_app1. { rewrite nth_error_map, H. reflexivity. }
  rewrite map_length. apply nth_error_Some. congruence.
Qed.
Lemma cell_mid : forall a (c : E) b, cell (a ++ Some c :: b) (Z.of_nat (length a)) = Val c.
Proof.
  intros a c b. unfold cell. destruct (Z.ltb_spec (Z.of_nat (length a)) 0); [lia|]. rewrite Nat2Z.id, nth_error_app2 by lia.
  rewrite Nat.sub_diag. reflexivity.
Qed.
Lemma set_mid : forall a x (b : list (option E)) c, set_cell (a ++ x :: b) (Z.of_nat (length a)) c = Val (a ++ Some c :: b).
Proof.
  intros a x b c. unfold set_cell. rewrite app_length. cbn [length].
  destruct (Z.ltb_spec (Z.of_nat (length a)) 0); [lia|]. destruct (Z.leb_spec (Z.of_nat (length a + S (length b))) (Z.of_nat (length a))); [lia|].
  cbn [orb]. rewrite Nat2Z.id. rewrite firstn_app, Nat.sub_diag, firstn_O, app_nil_r, firstn_all.
  do 3 f_equal. rewrite skipn_app. rewrite skipn_all2 by lia. replace (S (length a) - length a)%nat with 1%nat by lia. reflexivity.
Qed.

Lemma shift_mid : forall (b : list E) a x rest, Forall (fun c => ce_index c < 0) b ->
  exists y, shift_up (length b) (a ++ map Some b ++ x :: rest) (Z.of_nat (length a + length b)) = Val (true, a ++ y :: map Some b ++ rest).
Proof.
  induction b as [|c b IH] using rev_ind; intros a x rest Hb.
  - exists x. reflexivity.
  - apply Forall_app in Hb. destruct Hb as [Hb Hc]. apply Forall_inv in Hc.
    rewrite app_length, Nat.add_1_r. cbn [length shift_up]. rewrite map_app. cbn [map].
    replace (Z.of_nat (length a + S (length b)) - 1) with (Z.of_nat (length (a ++ map Some b))) by (rewrite app_length, map_length; lia).
    rewrite <- !app_assoc. cbn [app]. rewrite (app_assoc a (map Some b) (Some c :: x :: rest)). rewrite cell_mid.
    destruct (Z.geb_spec (ce_index c) 0); [lia|].
    replace (Z.of_nat (length a + S (length b))) with (Z.of_nat (length ((a ++ map Some b) ++ [Some c]))) by (rewrite !app_length, map_length; cbn [length]; lia).
    replace ((a ++ map Some b) ++ Some c :: x :: rest) with (((a ++ map Some b) ++ [Some c]) ++ x :: rest) by (rewrite <- !app_assoc; reflexivity).
    rewrite set_mid. rewrite <- !app_assoc. cbn [app].
    replace (Z.of_nat (length (a ++ map Some b))) with (Z.of_nat (length a + length b)) by (rewrite app_length, map_length; lia).
    destruct (IH a (Some c) (Some c :: rest) Hb) as [y Hy]. exists y. rewrite Hy. reflexivity.
Qed.

Lemma grow_ok : forall (t : table A) (l : list E), t_count t + t_preload t = Z.of_nat (length l) -> t_size t = Z.of_nat (length (t_arr t)) ->
  (exists rest, t_arr t = map Some l ++ rest) ->
  exists t', grow t (Z.of_nat (length l)) = Val t' /\ t_count t' = t_count t /\ t_preload t' = t_preload t /\
    t_size t' = Z.of_nat (length (t_arr t')) /\ exists x rest, t_arr t' = map Some l ++ x :: rest.
Proof.
  intros t l Hc Hs (rest & Ha). unfold grow. assert (Hl : length (t_arr t) = (length l + length rest)%nat) by (rewrite Ha, app_length, map_length; reflexivity).
  destruct (Z.geb_spec (Z.of_nat (length l)) (t_size t)) as [G|G].
  - set (n := if t_size t <=? 0 then 2048 else 2 * t_size t).
    assert (Hn : Z.of_nat (length l) < n) by (unfold n; destruct (Z.leb_spec (t_size t) 0); lia).
    destruct (Z.ltb_spec (Z.of_nat (length l)) 0); [lia|]. destruct (Z.ltb_spec (Z.of_nat (length (t_arr t))) (Z.of_nat (length l))); [lia|].
    destruct (Z.ltb_spec n (Z.of_nat (length l))); [lia|]. cbn [orb].
    eexists. split; [reflexivity|]. cbn [t_count t_preload t_size t_arr]. split; [reflexivity|]. split; [reflexivity|].
    rewrite Nat2Z.id, Ha. rewrite firstn_app, map_length, Nat.sub_diag, firstn_O, app_nil_r, firstn_all2 by (rewrite map_length; lia).
    split; [rewrite app_length, map_length, repeat_length; lia|].
    destruct (Z.to_nat (n - Z.of_nat (length l))) as [|k] eqn:Ek; [lia|]. cbn [repeat]. eauto.
  - exists t. split; [reflexivity|]. split; [reflexivity|]. split; [reflexivity|]. split; [exact Hs|].
    destruct rest as [|x rest]; [cbn [length] in Hl; lia|]. eauto.
Qed.

Lemma append_ok : forall (t : table A) L P c, holds t L P -> Forall (fun c => ce_index c < 0) P -> ce_index c = Z.of_nat (length L) ->
  exists t', AppendCluster t c = Val (true, t') /\ holds t' (L ++ [c]) P.
Proof.
  intros t L P c (H1 & H2 & H3 & rest & Ha) HP Hc. unfold AppendCluster.
  destruct (Z.ltb_spec (ce_index c) 0); [lia|].
  assert (Hlen : length (t_arr t) = (length L + length P + length rest)%nat) by (rewrite Ha, app_length, map_length, app_length; reflexivity).
  destruct (Z.ltb_spec (t_size t) (t_count t + t_preload t)); [lia|]. destruct (Z.eqb_spec (ce_index c) (t_count t)); [|lia]. cbn [orb negb].
  assert (Ecnt : t_count t + t_preload t = Z.of_nat (length (L ++ P))) by (rewrite app_length; lia).
  destruct (grow_ok t (L ++ P) Ecnt H3 (ex_intro _ rest Ha)) as (t' & Eg & G1 & G2 & G3 & x & rest' & G4).
  rewrite Ecnt, Eg. rewrite map_app, <- app_assoc in G4.
  assert (Hlen' : length (t_arr t') = (length L + length P + S (length rest'))%nat) by (rewrite G4, !app_length, !map_length; cbn [length]; lia).
  rewrite G1, G2.
  assert (Fin : forall y, exists t'', match set_cell (map Some L ++ y :: map Some P ++ rest') (ce_index c) c with
     | UB => UB | Val arr => Val (true, mkTable arr (t_size t') (t_count t + 1) (t_preload t)) end = Val (true, t'') /\ holds t'' (L ++ [c]) P).
  { intros y. replace (ce_index c) with (Z.of_nat (length (map Some L))) by (rewrite map_length; lia). rewrite set_mid. eexists. split; [reflexivity|].
    unfold holds. cbn [t_count t_preload t_size t_arr]. split; [rewrite app_length; cbn [length]; lia|]. split; [lia|].
    split; [rewrite G3, Hlen'; f_equal; rewrite !app_length; cbn [length]; rewrite app_length, !map_length; lia|].
    exists rest'. rewrite map_app, map_app. cbn [map]. rewrite <- !app_assoc. reflexivity. }
  destruct (Z.gtb_spec (t_preload t) 0) as [Gp|Gp].
  - destruct P as [|p P]; [cbn [length] in *; lia|]. cbn [map app] in G4. assert (Ec : cell (t_arr t') (t_count t) = Val p).
    { rewrite G4. replace (t_count t) with (Z.of_nat (length (map (@Some E) L))) by (rewrite map_length; lia). apply cell_mid. }
    rewrite Ec. pose proof (Forall_inv HP) as Hp. cbn beta in Hp. destruct (Z.geb_spec (ce_index p) 0); [lia|].
    destruct (Z.geb_spec (t_count t + t_preload t) (t_size t')); [lia|].
    destruct (shift_mid (p :: P) (map Some L) x rest' HP) as [y Hy]. rewrite map_length in Hy.
    replace (Z.to_nat (t_preload t)) with (length (p :: P)) by lia. rewrite G4. replace (t_count t + t_preload t) with (Z.of_nat (length L + length (p :: P))) by lia.
    cbn [map app] in Hy |- *. rewrite Hy. exact (Fin y).
  - destruct P as [|p P]; [|cbn [length] in *; lia]. cbn [map app] in G4. rewrite G4. exact (Fin x).
Qed.

Lemma preload_ok : forall (t : table A) L P1 P2 c, holds t L (P1 ++ P2) -> Forall (fun c => ce_index c < 0) P2 -> ce_index c < 0 ->
  exists t', PreloadCluster t c (Z.of_nat (length L + length P1)) = Val (true, t') /\ holds t' L (P1 ++ c :: P2).
Proof.
  intros t L P1 P2 c (H1 & H2 & H3 & rest & Ha) HP Hc. unfold PreloadCluster. rewrite app_length in H2.
  destruct (Z.geb_spec (ce_index c) 0); [lia|]. destruct (Z.ltb_spec (Z.of_nat (length L + length P1)) (t_count t)); [lia|]. cbn [orb].
  assert (Hlen : length (t_arr t) = (length L + length P1 + length P2 + length rest)%nat) by (rewrite Ha, app_length, map_length, !app_length; lia).
  destruct (Z.ltb_spec (t_size t) (t_count t + t_preload t)); [lia|].
  assert (Ecnt : t_count t + t_preload t = Z.of_nat (length (L ++ P1 ++ P2))) by (rewrite !app_length; lia).
  destruct (grow_ok t (L ++ P1 ++ P2) Ecnt H3 (ex_intro _ rest Ha)) as (t' & Eg & G1 & G2 & G3 & x & rest' & G4).
  rewrite Ecnt, Eg. rewrite !app_length in *.
  assert (Hlen' : length (t_arr t') = (length L + (length P1 + length P2) + S (length rest'))%nat) by (rewrite G4, app_length, map_length, !app_length; cbn [length]; lia).
  destruct (Z.ltb_spec (Z.of_nat (length L + (length P1 + length P2))) (Z.of_nat (length L + length P1))); [lia|].
  destruct (Z.geb_spec (Z.of_nat (length L + (length P1 + length P2))) (t_size t')); [lia|]. cbn [orb].
  replace (Z.to_nat (Z.of_nat (length L + (length P1 + length P2)) - Z.of_nat (length L + length P1))) with (length P2) by lia.
  destruct (shift_mid P2 (map Some (L ++ P1)) x rest' HP) as [y Hy]. rewrite map_length, app_length in Hy.
  replace (t_arr t') with (map Some (L ++ P1) ++ map Some P2 ++ x :: rest') by (rewrite G4, !map_app, <- !app_assoc; reflexivity).
  replace (Z.of_nat (length L + (length P1 + length P2))) with (Z.of_nat (length L + length P1 + length P2)) by lia. rewrite Hy.
  replace (Z.of_nat (length L + length P1)) with (Z.of_nat (length (map (@Some E) (L ++ P1)))) by (rewrite map_length, app_length; reflexivity).
  rewrite set_mid. eexists. split; [reflexivity|]. unfold holds. cbn [t_count t_preload t_size t_arr].
  split; [lia|]. split; [rewrite app_length; cbn [length]; lia|].
  split; [rewrite G3, Hlen'; f_equal; rewrite !app_length; cbn [length]; rewrite !app_length, !map_length, app_length; lia|].
  exists rest'. rewrite !map_app. cbn [map]. rewrite <- !app_assoc. reflexivity.
Qed.
Lemma preload_refused : forall (t : table A) c idx, idx < t_count t -> PreloadCluster t c idx = Val (false, t).
Proof. intros t c idx H. unfold PreloadCluster. destruct (Z.ltb_spec idx (t_count t)); [|lia]. rewrite orb_true_r. reflexivity. Qed.

(* the result of the search lies between a smaller and a greater position *)
Lemma search_ok : forall fuel (l : list E) rest i0 j0 i j pos,
  0 <= i0 <= i -> i <= j <= j0 -> j0 <= Z.of_nat (length l) -> j - i < Z.of_nat fuel ->
  (i0 < i -> exists c, cell (map Some l ++ rest) (i - 1) = Val c /\ ce_pos c < pos) ->
  (j < j0 -> exists c, cell (map Some l ++ rest) j = Val c /\ pos < ce_pos c) ->
  (exists k c, search_pos fuel (map Some l ++ rest) i j pos = Val (inl k) /\ i0 <= k < j0 /\ cell (map Some l ++ rest) k = Val c /\ ce_pos c = pos) \/
  (exists k, search_pos fuel (map Some l ++ rest) i j pos = Val (inr k) /\ i0 <= k <= j0 /\
     (i0 < k -> exists c, cell (map Some l ++ rest) (k - 1) = Val c /\ ce_pos c < pos) /\
     (k < j0 -> exists c, cell (map Some l ++ rest) k = Val c /\ pos < ce_pos c)).
Proof.
  induction fuel as [|fuel IH]; intros l rest i0 j0 i j pos Hi Hj Hl Hf Lo Hi'; [lia|]. cbn [search_pos].
  destruct (Z.ltb_spec i j) as [G|G].
  - set (k := i + (j - i) / 2). assert (Hk : i <= k < j) by (unfold k; Z.to_euclidean_division_equations; lia).
    destruct (nth_error l (Z.to_nat k)) as [c|] eqn:En; [|apply nth_error_None in En; lia].
    pose proof (cell_in l rest _ _ En) as Ec. rewrite Z2Nat.id in Ec by lia. rewrite Ec.
    destruct (Z.ltb_spec (ce_pos c) pos); [|destruct (Z.gtb_spec (ce_pos c) pos)].
    + apply (IH l rest i0 j0 (k + 1) j pos); auto; try lia. intros _. replace (k + 1 - 1) with k by lia. eauto.
    + apply (IH l rest i0 j0 i k pos); auto; try lia. intros _. eauto.
    + left. exists k, c. repeat split; auto; lia.
  - right. exists i. split; [reflexivity|]. assert (i = j) by lia. subst j. repeat split; auto; lia.
Qed.

(* ---------- sorted lists ---------- *)

Lemma inc_cons : forall x l, increasing (x :: l) <-> (increasing l /\ forall y, In y l -> x < y).
Proof.
  intros x l. revert x. induction l as [|y l IH]; intros x.
  - cbn [increasing In]. tauto.
  - change (increasing (x :: y :: l)) with (x < y /\ increasing (y :: l)). split.
    + intros [H1 H2]. split; [exact H2|]. intros z [<-|Hz]; [exact H1|]. apply IH in H2. destruct H2 as [_ H2]. specialize (H2 z Hz). lia.
    + intros [H1 H2]. split; [apply H2; left; reflexivity|exact H1].
Qed.
Lemma inc_app : forall a b, increasing (a ++ b) <-> (increasing a /\ increasing b /\ forall x y, In x a -> In y b -> x < y).
Proof.
  induction a as [|x a IH]; intros b; cbn [app].
  - cbn [increasing In]. intuition.
  - rewrite !inc_cons, IH. split.
    + intros ((H1 & H2 & H3) & H4). repeat split; auto; [intros y Hy; apply H4, in_or_app; auto|].
      intros z y [<-|Hz] Hy; [apply H4, in_or_app; auto|auto].
    + intros ((H1 & H2) & H3 & H4). repeat split; auto; [intros z y Hz Hy; apply H4; [right; auto|auto]|].
      intros y Hy. apply in_app_or in Hy. destruct Hy as [Hy|Hy]; [auto|]. apply H4; [left; reflexivity|exact Hy].
Qed.

Lemma cell_nth : forall (l : list E) rest i c, 0 <= i < Z.of_nat (length l) -> cell (map Some l ++ rest) i = Val c -> nth_error l (Z.to_nat i) = Some c.
Proof.
  intros l rest i c Hi H. destruct (nth_error l (Z.to_nat i)) as [c'|] eqn:En; [|apply nth_error_None in En; lia].
  pose proof (cell_in l rest _ _ En) as H'. rewrite Z2Nat.id in H' by lia. congruence.
Qed.

(* a new preloaded cluster goes where the search says *)
Lemma insert_ok : forall (t : table A) L P pos obj k, holds t L P -> preloaded_ok P ->
  Z.of_nat (length L) <= k <= Z.of_nat (length (L ++ P)) ->
  (Z.of_nat (length L) < k -> exists c, cell (t_arr t) (k - 1) = Val c /\ ce_pos c < pos) ->
  (k < Z.of_nat (length (L ++ P)) -> exists c, cell (t_arr t) k = Val c /\ pos < ce_pos c) ->
  exists t' P1 P2, PreloadCluster t (mkEnt (-1) pos obj) k = Val (true, t') /\ P = P1 ++ P2 /\
    k = Z.of_nat (length (L ++ P1)) /\
    holds t' L (P1 ++ mkEnt (-1) pos obj :: P2) /\ preloaded_ok (P1 ++ mkEnt (-1) pos obj :: P2).
Proof.
  intros t L P pos obj k Hh (Hs & Hi) Hk Lo Hhi. pose proof Hh as (H1 & H2 & H3 & rest & Ha). rewrite app_length in Hk.
  set (n := Z.to_nat (k - Z.of_nat (length L))).
  pose proof (firstn_skipn n P) as Esp. set (P1 := firstn n P) in *. set (P2 := skipn n P) in *.
  assert (L1 : length P1 = n) by (unfold P1; rewrite firstn_length; lia).
  assert (Ek : k = Z.of_nat (length L + length P1)) by lia. rewrite <- Esp in Hh, Hs, Hi. rewrite map_app in Hs. apply inc_app in Hs. destruct Hs as (S1 & S2 & S12).
  apply Forall_app in Hi. destruct Hi as [I1 I2].
  assert (I2' : Forall (fun c => ce_index c < 0) P2) by (eapply Forall_impl; [|exact I2]; cbn beta; intros; lia).
  destruct (preload_ok t L P1 P2 (mkEnt (-1) pos obj) Hh I2' ltac:(cbn [ce_index]; lia)) as (t' & E1 & E2).
  exists t', P1, P2. rewrite Ek at 1. split; [exact E1|]. split; [symmetry; exact Esp|]. split; [rewrite app_length; exact Ek|]. split; [exact E2|].
  assert (B1 : forall x, In x (map ce_pos P1) -> x < pos).
  { intros x Hx. destruct (Nat.eq_dec n 0) as [En|En]; [destruct P1; [contradiction|cbn [length] in L1; lia]|].
    destruct Lo as (c & Ec & Hc); [lia|]. rewrite Ha in Ec. apply cell_nth in Ec; [|rewrite app_length; lia].
    rewrite nth_error_app2 in Ec by lia. rewrite <- Esp, nth_error_app1 in Ec by lia.
    apply in_map_iff in Hx. destruct Hx as (c' & <- & Hc').
    apply nth_error_split in Ec. destruct Ec as (u & v & Ec & Eu). assert (v = []) as ->.
    { destruct v; [reflexivity|]. apply (f_equal (@length E)) in Ec. rewrite app_length in Ec. cbn [length] in Ec. lia. }
    rewrite Ec in Hc', S1. rewrite map_app in S1. apply inc_app in S1. destruct S1 as (_ & _ & S1). apply in_app_or in Hc'. destruct Hc' as [Hc'|[<-|[]]]; [|exact Hc].
    specialize (S1 (ce_pos c') (ce_pos c) (in_map _ _ _ Hc') (or_introl eq_refl)). lia. }
  assert (B2 : forall y, In y (map ce_pos P2) -> pos < y).
  { intros y Hy. destruct P2 as [|c P2'] eqn:EP2; [contradiction|].
    assert (HL : length P = (length P1 + S (length P2'))%nat) by (rewrite <- Esp, app_length; reflexivity).
    destruct Hhi as (c' & Ec & Hc); [rewrite app_length; lia|]. rewrite Ha in Ec. apply cell_nth in Ec; [|rewrite app_length; lia].
    rewrite nth_error_app2 in Ec by lia. rewrite <- Esp, nth_error_app2 in Ec by lia.
    replace (Z.to_nat k - length L - length P1)%nat with 0%nat in Ec by lia. cbn [nth_error] in Ec. injection Ec as <-.
    cbn [map] in Hy, S2. destruct Hy as [<-|Hy]; [exact Hc|]. apply inc_cons in S2. destruct S2 as [_ S2]. specialize (S2 y Hy). lia. }
  split.
  - rewrite map_app. cbn [map]. apply inc_app. split; [exact S1|]. split; [apply inc_cons; split; [exact S2|exact B2]|].
    intros x y Hx [<-|Hy]; [apply B1, Hx|]. apply S12; assumption.
  - apply Forall_app. split; [exact I1|]. constructor; [reflexivity|exact I2].
Qed.

Lemma request_ok : forall (t : table A) L P pos obj, holds t L P -> preloaded_ok P ->
  exists k t' P', FindOrPreloadCluster t pos obj = Val (k, t') /\ holds t' L P' /\ preloaded_ok P' /\
    (P' = P \/ exists P1 P2, P = P1 ++ P2 /\ P' = P1 ++ mkEnt (-1) pos obj :: P2) /\
    (forall i, k = Some i -> 0 <= i /\ exists c, nth_error (L ++ P') (Z.to_nat i) = Some c /\ ce_pos c = pos) /\
    (increasing (map ce_pos (L ++ P)) -> 0 <= pos -> In pos (map ce_pos L) \/ (forall c, In c L -> ce_pos c < pos) ->
       k <> None /\ increasing (map ce_pos (L ++ P'))).
Proof.
  intros t L P pos obj Hh HP. pose proof Hh as (H1 & H2 & H3 & rest & Ha). unfold FindOrPreloadCluster.
  destruct (Z.ltb_spec pos 0) as [G|G].
  { exists None, t, P. split; [reflexivity|]. split; [exact Hh|]. split; [exact HP|]. split; [left; reflexivity|]. split; [discriminate|]. intros; lia. }
  assert (Ecnt : t_count t + t_preload t = Z.of_nat (length (L ++ P))) by (rewrite app_length; lia). rewrite Ecnt, Ha.
  destruct (search_ok (S (Z.to_nat (Z.of_nat (length (L ++ P))))) (L ++ P) rest 0 (Z.of_nat (length (L ++ P))) 0 (Z.of_nat (length (L ++ P))) pos) as [(k & c & Es & Hk & Ec & Ep)|(k & Es & Hk & Lo & Hi)]; try lia; rewrite Es.
  - exists (Some k), t, P. split; [reflexivity|]. split; [exact Hh|]. split; [exact HP|]. split; [left; reflexivity|].
    split; [intros i Ei; injection Ei as <-; split; [lia|]; exists c; split; [apply (cell_nth _ rest); [lia|exact Ec]|exact Ep]|].
    intros Hinc _ _. split; [discriminate|exact Hinc].
  - destruct (Z.ltb_spec k (t_count t)) as [Gk|Gk].
    + rewrite preload_refused by exact Gk. exists None, t, P. split; [reflexivity|]. split; [exact Hh|]. split; [exact HP|]. split; [left; reflexivity|]. split; [discriminate|].
      intros Hinc Hp0 Hor. exfalso. rewrite app_length in *.
      destruct Hi as (ch & Ech & Hch); [lia|]. apply cell_nth in Ech; [|rewrite app_length; lia]. rewrite nth_error_app1 in Ech by lia.
      destruct Hor as [Hin|Hlt]; [|apply nth_error_In in Ech; specialize (Hlt _ Ech); lia].
      rewrite map_app in Hinc. apply inc_app in Hinc. destruct Hinc as (HL & _ & _).
      apply nth_error_split in Ech. destruct Ech as (u & v & -> & Eu). rewrite map_app in HL, Hin. cbn [map] in HL, Hin. apply inc_app in HL. destruct HL as (Hu & Hv & Huv).
      apply inc_cons in Hv. destruct Hv as [_ Hv].
      apply in_app_or in Hin. destruct Hin as [Hin|[Hin|Hin]]; [|lia|specialize (Hv _ Hin); lia].
      destruct u as [|u0 u'] eqn:Eu'; [contradiction|]. rewrite <- Eu' in *. clear Eu' u0 u'.
      assert (Hk0 : 0 < k) by (destruct u; [contradiction|cbn [length] in Eu; lia]).
      destruct (Lo Hk0) as (cl & Ecl & Hcl). apply cell_nth in Ecl; [|rewrite !app_length; lia]. rewrite <- app_assoc, nth_error_app1 in Ecl by lia.
      apply nth_error_split in Ecl. destruct Ecl as (u2 & v2 & -> & Eu2). assert (v2 = []) as -> by (destruct v2; [reflexivity|rewrite app_length in Eu; cbn [length] in Eu; lia]).
      rewrite map_app in Hin, Hu. apply inc_app in Hu. destruct Hu as (_ & _ & Hu). apply in_app_or in Hin. destruct Hin as [Hin|[Hin|[]]]; [|lia].
      specialize (Hu _ _ Hin (or_introl eq_refl)). lia.
    + destruct (insert_ok t L P pos obj k Hh HP) as (t' & P1 & P2 & E1 & E2 & E3 & E4 & E5); [lia| | |].
      { rewrite Ha. intros. apply Lo. lia. } { rewrite Ha. exact Hi. }
      rewrite E1. exists (Some k), t', (P1 ++ mkEnt (-1) pos obj :: P2). split; [reflexivity|]. split; [exact E4|]. split; [exact E5|].
      split; [right; eauto|]. split.
      { intros i Ei; injection Ei as <-. split; [lia|]. exists (mkEnt (-1) pos obj). split; [|reflexivity]. rewrite E3, Nat2Z.id, app_assoc, nth_error_app2, Nat.sub_diag by lia. reflexivity. }
      intros Hinc Hp0 Hor. split; [discriminate|]. rewrite map_app in Hinc |- *. apply inc_app in Hinc. destruct Hinc as (I1 & _ & I3).
      destruct E5 as [E5 _]. apply inc_app. split; [exact I1|]. split; [exact E5|].
      assert (HLp : forall x, In x (map ce_pos L) -> x < pos).
      { destruct Hor as [Hin|Hlt]; [|intros x Hx; apply in_map_iff in Hx; destruct Hx as (c & <- & Hc); apply Hlt, Hc].
        exfalso. assert (HL1 : length (L ++ P1) = (length L + length P1)%nat) by apply app_length.
        destruct (Z.eq_dec k 0) as [->|Hk0]; [destruct L; [contradiction|cbn [length] in HL1; lia]|].
        destruct Lo as (c & Ec & Hc); [lia|]. apply cell_nth in Ec; [|lia].
        destruct (Nat.eq_dec (length P1) 0) as [E0|E0].
        - rewrite nth_error_app1 in Ec by lia. apply nth_error_split in Ec. destruct Ec as (u & v & EL & Eu). assert (v = []) as ->.
          { destruct v; [reflexivity|]. apply (f_equal (@length E)) in EL. rewrite app_length in EL. cbn [length] in EL. lia. }
          rewrite EL, map_app in Hin, I1. apply inc_app in I1. destruct I1 as (_ & _ & I1). apply in_app_or in Hin. destruct Hin as [Hin|[Hin|[]]]; [|lia].
          specialize (I1 _ _ Hin (or_introl eq_refl)). lia.
        - rewrite nth_error_app2 in Ec by lia. apply nth_error_In in Ec. specialize (I3 pos (ce_pos c) Hin (in_map _ _ _ Ec)). lia. }
      intros x y Hx Hy. rewrite map_app in Hy. cbn [map] in Hy. apply in_app_or in Hy. destruct Hy as [Hy|[<-|Hy]].
      * apply I3; [exact Hx|]. rewrite E2, map_app. apply in_or_app. auto.
      * apply HLp, Hx.
      * apply I3; [exact Hx|]. rewrite E2, map_app. apply in_or_app. auto.
Qed.

Lemma next_ok : forall (t : table A) L P pos obj, holds t L P -> preloaded_ok P ->
  exists k t' P', preload_next t pos obj = Val (Some k, t') /\ holds t' L P' /\ preloaded_ok P' /\
    (P' = P \/ exists P1 P2, P = P1 ++ P2 /\ P' = P1 ++ mkEnt (-1) pos obj :: P2) /\
    0 <= k /\ exists c, nth_error (L ++ P') (Z.to_nat k) = Some c /\ ce_pos c = pos.
Proof.
  intros t L P pos obj Hh HP. pose proof Hh as (H1 & H2 & H3 & rest & Ha). unfold preload_next.
  assert (Ecnt : t_count t + t_preload t = Z.of_nat (length (L ++ P))) by (rewrite app_length; lia). rewrite Ecnt, Ha.
  pose proof (app_length L P) as HLP.
  destruct (search_ok (S (Z.to_nat (t_preload t))) (L ++ P) rest (t_count t) (Z.of_nat (length (L ++ P))) (t_count t) (Z.of_nat (length (L ++ P))) pos) as [(k & c & Es & Hk & Ec & Ep)|(k & Es & Hk & Lo & Hi)]; try lia; rewrite Es.
  - exists k, t, P. split; [reflexivity|]. split; [exact Hh|]. split; [exact HP|]. split; [left; reflexivity|]. split; [lia|]. exists c. split; [apply (cell_nth _ rest); [lia|exact Ec]|exact Ep].
  - destruct (insert_ok t L P pos obj k Hh HP) as (t' & P1 & P2 & E1 & E2 & E3 & E4 & E5); [lia| | |].
    { rewrite Ha. intros. apply Lo. lia. } { rewrite Ha. exact Hi. }
    rewrite E1. exists k, t', (P1 ++ mkEnt (-1) pos obj :: P2). split; [reflexivity|]. split; [exact E4|]. split; [exact E5|].
    split; [right; eauto|]. split; [lia|]. exists (mkEnt (-1) pos obj). split; [|reflexivity]. rewrite E3, Nat2Z.id, app_assoc, nth_error_app2, Nat.sub_diag by lia. reflexivity.
Qed.

Lemma loaded_app : forall (L : list E) c, loaded_ok L -> (forall x, In x L -> ce_pos x < ce_pos c) -> ce_index c = Z.of_nat (length L) -> loaded_ok (L ++ [c]).
Proof.
  intros L c (H1 & H2) Hlt Hi. split.
  - rewrite map_app. apply inc_app. split; [exact H1|]. split; [exact I|]. intros x y Hx [<-|[]]. apply in_map_iff in Hx. destruct Hx as (z & <- & Hz). apply Hlt, Hz.
  - intros i d Hd. destruct (Nat.lt_ge_cases i (length L)).
    + rewrite nth_error_app1 in Hd by lia. apply H2, Hd.
    + rewrite nth_error_app2 in Hd by lia. destruct (i - length L)%nat as [|m] eqn:Em; cbn [nth_error] in Hd; [injection Hd as <-; lia|destruct m; discriminate].
Qed.

Lemma load_ok : forall (t : table A) L P off blocks obj, holds t L P -> loaded_ok L -> preloaded_ok P -> (forall x, In x L -> ce_pos x < off) ->
  exists done t' L' P', load_found t off blocks obj = Val (done, t') /\ holds t' L' P' /\ loaded_ok L' /\ preloaded_ok P' /\
    match done with
    | Some true => blocks = true /\ (exists c, L' = L ++ [c] /\ ce_pos c = off) /\ (P' = P \/ exists p, P = p :: P' /\ ce_pos p = off) /\
        (In off (map ce_pos P) -> increasing (map ce_pos (L ++ P)) -> (forall c, In c P -> off <= ce_pos c) -> P = mkEnt (-1) off (match P with p :: _ => ce_obj p | _ => obj end) :: P')
    | _ => L' = L /\ P' = P /\ (blocks = true -> exists p, In p P /\ ce_pos p < 0)
    end.
Proof.
  intros t L P off blocks obj Hh HL HP Hlt. pose proof Hh as (H1 & H2 & H3 & rest & Ha). unfold load_found.
  assert (HPn : Forall (fun c => ce_index c < 0) P) by (destruct HP as [_ HP]; eapply Forall_impl; [|exact HP]; cbn beta; intros; lia).
  assert (App : (P = [] \/ exists p P2, P = p :: P2 /\ ce_pos p <> off) -> exists done t' L' P', (if blocks then match AppendCluster t (mkEnt (t_count t) off obj) with UB => UB | Val (true, t0) => Val (Some true, t0) | Val (false, t0) => Val (None, t0) end else Val (Some false, t)) = Val (done, t') /\ holds t' L' P' /\ loaded_ok L' /\ preloaded_ok P' /\
    match done with
    | Some true => blocks = true /\ (exists c, L' = L ++ [c] /\ ce_pos c = off) /\ (P' = P \/ exists p, P = p :: P' /\ ce_pos p = off) /\
        (In off (map ce_pos P) -> increasing (map ce_pos (L ++ P)) -> (forall c, In c P -> off <= ce_pos c) -> P = mkEnt (-1) off (match P with p :: _ => ce_obj p | _ => obj end) :: P')
    | _ => L' = L /\ P' = P /\ (blocks = true -> exists p, In p P /\ ce_pos p < 0)
    end).
  { intros Hne. destruct blocks.
    - destruct (append_ok t L P (mkEnt (t_count t) off obj) Hh HPn H1) as (t' & E1 & E2). rewrite E1.
      exists (Some true), t', (L ++ [mkEnt (t_count t) off obj]), P. split; [reflexivity|]. split; [exact E2|]. split; [apply loaded_app; assumption|]. split; [exact HP|].
      split; [reflexivity|]. split; [eexists; split; reflexivity|]. split; [left; reflexivity|]. intros Hin _ Hge. exfalso. destruct Hne as [->|(p & P2 & -> & Hp)]; [contradiction|].
      cbn [map In] in Hin. destruct Hin as [Hin|Hin]; [congruence|]. destruct HP as [HP _]. cbn [map] in HP. apply inc_cons in HP. destruct HP as [_ HP]. specialize (HP _ Hin). specialize (Hge p (or_introl eq_refl)). lia.
    - exists (Some false), t, L, P. split; [reflexivity|]. split; [exact Hh|]. split; [exact HL|]. split; [exact HP|]. split; [reflexivity|]. split; [reflexivity|]. discriminate. }
  destruct (Z.gtb_spec (t_preload t) 0) as [Gp|Gp].
  - destruct P as [|p P]; [cbn [length] in *; lia|].
    assert (Hlen : length (t_arr t) = (length L + S (length P) + length rest)%nat) by (rewrite Ha, app_length, map_length, app_length; reflexivity).
    destruct (Z.geb_spec (t_count t) (t_size t)); [lia|].
    assert (Ec : cell (t_arr t) (t_count t) = Val p).
    { rewrite Ha, map_app, <- app_assoc. cbn [map app]. replace (t_count t) with (Z.of_nat (length (map (@Some E) L))) by (rewrite map_length; lia). apply cell_mid. }
    rewrite Ec. pose proof (Forall_inv HPn) as Hp. cbn beta in Hp. destruct (Z.geb_spec (ce_index p) 0); [lia|].
    destruct (Z.ltb_spec (ce_pos p) 0).
    { exists None, t, L, (p :: P). split; [reflexivity|]. split; [exact Hh|]. split; [exact HL|]. split; [exact HP|]. split; [reflexivity|]. split; [reflexivity|]. intros _. exists p. split; [left; reflexivity|assumption]. }
    destruct (Z.eqb_spec (ce_pos p) off) as [Eo|Eo].
    + destruct blocks; cbn [negb].
      * assert (Es : set_cell (t_arr t) (t_count t) (mkEnt (t_count t) (ce_pos p) (ce_obj p)) = Val (map Some L ++ Some (mkEnt (t_count t) (ce_pos p) (ce_obj p)) :: map Some P ++ rest)).
        { rewrite Ha, map_app, <- app_assoc. cbn [map app]. replace (t_count t) with (Z.of_nat (length (map (@Some E) L))) at 1 by (rewrite map_length; lia). apply set_mid. }
        rewrite Es. exists (Some true). eexists _, (L ++ [mkEnt (t_count t) (ce_pos p) (ce_obj p)]), P. split; [reflexivity|].
        split. { unfold holds. cbn [t_count t_preload t_size t_arr]. cbn [length] in H2. split; [rewrite app_length; cbn [length]; lia|]. split; [lia|].
                 split; [rewrite H3, Hlen; f_equal; rewrite !app_length; cbn [length]; rewrite app_length, !map_length; lia|].
                 exists rest. rewrite map_app, map_app. cbn [map]. rewrite <- !app_assoc. reflexivity. }
        split; [apply loaded_app; [exact HL|cbn [ce_pos]; rewrite Eo; exact Hlt|exact H1]|].
        split. { destruct HP as [P1 P2]. cbn [map] in P1. apply inc_cons in P1. split; [apply P1|exact (Forall_inv_tail P2)]. }
        split; [reflexivity|]. split; [eexists; split; [reflexivity|exact Eo]|]. split; [right; exists p; auto|].
        intros _ _ _. f_equal. destruct HP as [_ P2]. apply Forall_inv in P2. destruct p as [pi pp po]. cbn [ce_index ce_pos ce_obj] in *. congruence.
      * exists None, t, L, (p :: P). split; [reflexivity|]. split; [exact Hh|]. split; [exact HL|]. split; [exact HP|]. split; [reflexivity|]. split; [reflexivity|]. discriminate.
    + apply App. right. eauto.
  - apply App. left. destruct P; [reflexivity|cbn [length] in *; lia].
Qed.

(* ---------- search by time ---------- *)

Lemma sorted_nth : forall l, sorted l -> forall i j x y, (i <= j)%nat -> nth_error l i = Some x -> nth_error l j = Some y -> x <= y.
Proof.
  induction l as [|a l IH]; intros Hs i j x y Hij Hx Hy; [destruct i; discriminate|].
  assert (Hs' : sorted l) by (destruct l; [exact I|apply Hs]).
  destruct i as [|i], j as [|j]; cbn [nth_error] in *; try lia.
  - injection Hx as <-. injection Hy as <-. lia.
  - injection Hx as <-. destruct l as [|b l]; [destruct j; discriminate|]. destruct Hs as [Hab _].
    specialize (IH Hs' 0%nat j b y ltac:(lia) eq_refl Hy). lia.
  - exact (IH Hs' i j x y ltac:(lia) Hx Hy).
Qed.

Lemma search_time_ok : forall (time : E -> outcome Z) ts fuel (l : list E) rest n i j x,
  (forall k c, nth_error l k = Some c -> Z.of_nat k < n -> exists t, time c = Val t /\ nth_error ts k = Some t) ->
  n <= Z.of_nat (length l) -> 0 <= i <= j -> j <= n -> j - i < Z.of_nat fuel ->
  (0 < i -> exists t, nth_error ts (Z.to_nat (i - 1)) = Some t /\ t <= x) ->
  (j < n -> exists t, nth_error ts (Z.to_nat j) = Some t /\ x < t) ->
  exists k, search_time fuel (map Some l ++ rest) time i j x = Val k /\ i <= k <= j /\
    (0 < k -> exists t, nth_error ts (Z.to_nat (k - 1)) = Some t /\ t <= x) /\
    (k < n -> exists t, nth_error ts (Z.to_nat k) = Some t /\ x < t).
Proof.
  intros time ts. induction fuel as [|fuel IH]; intros l rest n i j x Ht Hn Hij Hj Hf Lo Hi; [lia|]. cbn [search_time].
  destruct (Z.ltb_spec i j) as [G|G].
  - set (k := i + (j - i) / 2). assert (Hk : i <= k < j) by (unfold k; Z.to_euclidean_division_equations; lia).
    destruct (nth_error l (Z.to_nat k)) as [c|] eqn:En; [|apply nth_error_None in En; lia].
    pose proof (cell_in l rest _ _ En) as Ec. rewrite Z2Nat.id in Ec by lia. rewrite Ec.
    destruct (Ht _ _ En ltac:(lia)) as (t & -> & Et). destruct (Z.leb_spec t x).
    + destruct (IH l rest n (k + 1) j x Ht Hn) as (k' & E1 & E2 & E3); try lia; auto.
      { intros _. replace (k + 1 - 1) with k by lia. eauto. }
      exists k'. split; [exact E1|]. split; [lia|]. exact E3.
    + destruct (IH l rest n i k x Ht Hn) as (k' & E1 & E2 & E3); try lia; auto.
      { intros _. eauto. }
      exists k'. split; [exact E1|]. split; [lia|]. exact E3.
  - exists i. assert (i = j) by lia. subst j. split; [reflexivity|]. split; [lia|]. split; assumption.
Qed.

(* FindCluster on any times, and on sorted ones *)
Lemma find_cluster_ok : forall (t : table A) L P (time : E -> outcome Z) ts x, holds t L P -> L <> [] -> map time L = map Val ts ->
  exists k, FindCluster t time x = Val (Some k) /\ 0 <= k < Z.of_nat (length L) /\
    (k = 0 \/ exists t, nth_error ts (Z.to_nat k) = Some t /\ t <= x) /\ (sorted ts -> found_by_time ts x k).
Proof.
  intros t L P time ts x (H1 & H2 & H3 & rest & Ha) Hne Ht. unfold FindCluster.
  assert (Hl : length L = length ts) by (apply (f_equal (@length _)) in Ht; rewrite !map_length in Ht; exact Ht).
  assert (Htime : forall k c, nth_error L k = Some c -> exists v, time c = Val v /\ nth_error ts k = Some v).
  { intros k c Hc. apply (map_nth_error time) in Hc. rewrite Ht, nth_error_map in Hc. destruct (nth_error ts k) as [v|]; [|discriminate]. cbn [option_map] in Hc. exists v. split; [congruence|reflexivity]. }
  destruct L as [|c0 L]; [congruence|]. destruct (Z.leb_spec (t_count t) 0); [cbn [length] in H1; lia|].
  assert (Ec0 : cell (t_arr t) 0 = Val c0) by (rewrite Ha; apply (cell_in _ rest 0%nat); reflexivity). rewrite Ec0.
  destruct (Htime 0%nat c0 eq_refl) as (t0 & Et0 & En0). rewrite Et0.
  destruct (Z.leb_spec x t0) as [G|G].
  { exists 0. split; [reflexivity|]. split; [cbn [length]; lia|]. split; [left; reflexivity|]. intros _. exists t0, t0.
    split; [exact En0|]. split; [lia|]. split; [exact En0|]. destruct (Z.leb_spec x t0); [reflexivity|lia]. }
  destruct (search_time_ok time ts (S (Z.to_nat (t_count t))) ((c0 :: L) ++ P) rest (t_count t) 0 (t_count t) x) as (k & Ek & Hk & Lo & Hi).
  { intros k c Hc Hkn. rewrite nth_error_app1 in Hc by lia. exact (Htime k c Hc). }
  { rewrite app_length. lia. } { lia. } { lia. } { lia. } { lia. } { lia. }
  rewrite Ha. rewrite Ek. assert (Hk0 : 0 < k).
  { destruct (Z.eq_dec k 0) as [->|]; [|lia]. destruct (Hi ltac:(lia)) as (v & Ev & Hv). change (Z.to_nat 0) with 0%nat in Ev. rewrite En0 in Ev. injection Ev as <-. lia. }
  destruct (Lo Hk0) as (v & Ev & Hv).
  destruct (nth_error ((c0 :: L) ++ P) (Z.to_nat (k - 1))) as [c|] eqn:En; [|apply nth_error_None in En; rewrite app_length in En; lia].
  pose proof (cell_in _ rest _ _ En) as Ec. rewrite Z2Nat.id in Ec by lia. rewrite Ec.
  exists (k - 1). split; [reflexivity|]. split; [lia|]. split; [right; eauto|]. intros Hs. exists t0, v.
  split; [exact En0|]. split; [lia|]. split; [exact Ev|]. destruct (Z.leb_spec x t0); [lia|]. split; [exact Hv|].
  intros i u Hi' Hu. assert (Hin : i < t_count t) by (assert (Z.to_nat i < length ts)%nat by (apply nth_error_Some; congruence); lia).
  destruct (Hi ltac:(lia)) as (w & Ew & Hw). pose proof (sorted_nth ts Hs (Z.to_nat k) (Z.to_nat i) w u ltac:(lia) Ew Hu). lia.
Qed.

(* ---------- histories ---------- *)

Lemma holds_new : holds (@table_new A) [] [].
Proof. repeat split. exists []. reflexivity. Qed.
Lemma reached_ordered : forall (t : table A) last, reached t last -> exists L P, holds t L P /\ loaded_ok L /\ preloaded_ok P /\ forall c, In c L -> ce_pos c <= last.
Proof.
  intros t last H. induction H as [|t last off blocks obj done t' _ (L & P & Hh & HL & HP & Hlast) Hoff El|t last pos obj k t' _ (L & P & Hh & HL & HP & Hlast) Ef|t last off obj k t' _ (L & P & Hh & HL & HP & Hlast) Hoff Ef].
  - exists [], []. split; [exact holds_new|]. split; [split; [exact I|intros i c Hc; destruct i; discriminate]|]. split; [split; [exact I|constructor]|]. intros c [].
  - destruct (load_ok t L P off blocks obj Hh HL HP) as (d & t2 & L' & P' & E & Hh' & HL' & HP' & Hd); [intros x Hx; specialize (Hlast x Hx); lia|].
    rewrite El in E. injection E as <- <-. exists L', P'. split; [exact Hh'|]. split; [exact HL'|]. split; [exact HP'|].
    destruct done as [[|]|]; [destruct Hd as (_ & (c0 & -> & Hc0) & _)|destruct Hd as (-> & _ & _)|destruct Hd as (-> & _ & _)].
    + intros c Hc. apply in_app_or in Hc. destruct Hc as [Hc|[<-|[]]]; [specialize (Hlast c Hc)|]; lia.
    + intros c Hc. specialize (Hlast c Hc). lia.
    + exact Hlast.
  - destruct (request_ok t L P pos obj Hh HP) as (k2 & t2 & P' & E & Hh' & HP' & _). rewrite Ef in E. injection E as <- <-. exists L, P'. auto.
  - destruct (next_ok t L P off obj Hh HP) as (k2 & t2 & P' & E & Hh' & HP' & _). rewrite Ef in E. injection E as _ <-. exists L, P'. auto.
Qed.
Lemma reached_defined : forall (t : table A) last, reached t last ->
  (forall off blocks obj, last < off -> exists x, load_found t off blocks obj = Val x) /\
  (forall pos obj, exists x, FindOrPreloadCluster t pos obj = Val x) /\ (forall off obj, exists x, preload_next t off obj = Val x).
Proof.
  intros t last H. destruct (reached_ordered t last H) as (L & P & Hh & HL & HP & Hlast). split; [|split].
  - intros off blocks obj Ho. destruct (load_ok t L P off blocks obj Hh HL HP) as (d & t2 & L' & P' & E & _); [intros x Hx; specialize (Hlast x Hx); lia|]. eauto.
  - intros pos obj. destruct (request_ok t L P pos obj Hh HP) as (k2 & t2 & P' & E & _). eauto.
  - intros off obj. destruct (next_ok t L P off obj Hh HP) as (k2 & t2 & P' & E & _). eauto.
Qed.

Definition table_in (clusters : Z -> Prop) (L P : list E) (last : Z) : Prop :=
  loaded_ok L /\ preloaded_ok P /\ increasing (map ce_pos (L ++ P)) /\ (forall c, In c (L ++ P) -> clusters (ce_pos c)) /\
  (forall c, In c L -> ce_pos c <= last) /\ (forall c, In c P -> last < ce_pos c) /\
  (forall x, clusters x -> x <= last -> In x (map ce_pos L)).

Lemma in_insert : forall (P1 P2 : list E) c x, In x (P1 ++ c :: P2) -> x = c \/ In x (P1 ++ P2).
Proof. intros P1 P2 c x H. apply in_app_or in H. destruct H as [H|[H|H]]; [right; apply in_or_app; auto|left; auto|right; apply in_or_app; auto]. Qed.

Lemma reached_in_ordered : forall clusters : Z -> Prop, (forall x, clusters x -> 0 <= x) -> forall (t : table A) last, reached_in clusters t last ->
  exists L P, holds t L P /\ table_in clusters L P last.
Proof.
  intros clusters Hpos t last H. induction H as [|t last off blocks obj done t' _ (L & P & Hh & HL & HP & Hinc & Hcl & Hle & Hlt & Hall) Hoff Hgap Hbl El|t last pos obj k t' _ (L & P & Hh & HL & HP & Hinc & Hcl & Hle & Hlt & Hall) Hc Ef|t last off obj k t' i c _ (L & P & Hh & HL & HP & Hinc & Hcl & Hle & Hlt & Hall) Hc Hi Ec Hlo Ef].
  - exists [], []. split; [exact holds_new|]. split; [split; [exact I|intros i c Hc; destruct i; discriminate]|]. split; [split; [exact I|constructor]|].
    split; [exact I|]. split; [intros c []|]. split; [intros c []|]. split; [intros c []|]. intros x Hx Hle. specialize (Hpos x Hx). lia.
  - destruct (load_ok t L P off blocks obj Hh HL HP) as (d & t2 & L' & P' & E & Hh' & HL' & HP' & Hd); [intros x Hx; specialize (Hle x Hx); lia|].
    rewrite El in E. injection E as <- <-. exists L', P'. split; [exact Hh'|].
    assert (HPge : forall c, In c P -> off <= ce_pos c).
    { intros c Hc. specialize (Hlt c Hc). destruct (Z.lt_ge_cases (ce_pos c) off); [|lia]. exfalso. apply (Hgap (ce_pos c)); [lia|]. apply Hcl, in_or_app. auto. }
    destruct done as [[|]|].
    + destruct Hd as (Hb & (c0 & -> & Hc0) & HP2 & HP3). assert (Hco : clusters off) by (apply Hbl; exact Hb).
      assert (Psub : forall c, In c P' -> In c P) by (intros c Hc; destruct HP2 as [->|(p & -> & _)]; [exact Hc|right; exact Hc]).
      assert (HPgt : forall c, In c P' -> off < ce_pos c).
      { intros c Hc. pose proof (HPge c (Psub c Hc)). destruct (Z.eq_dec (ce_pos c) off) as [Eo|]; [|lia]. exfalso.
        assert (Hin : In off (map ce_pos P)) by (apply in_map_iff; exists c; split; [exact Eo|apply Psub, Hc]).
        specialize (HP3 Hin Hinc HPge). destruct HP as [HP _]. rewrite HP3 in HP. cbn [map ce_pos] in HP. apply inc_cons in HP. destruct HP as [_ HP].
        specialize (HP (ce_pos c) (in_map _ _ _ Hc)). lia. }
      split; [exact HL'|]. split; [exact HP'|]. split.
      { rewrite map_app. apply inc_app. split; [apply HL'|]. split; [apply HP'|]. intros x y Hx Hy. apply in_map_iff in Hx. destruct Hx as (cx & <- & Hx). apply in_map_iff in Hy. destruct Hy as (cy & <- & Hy).
        specialize (HPgt cy Hy). apply in_app_or in Hx. destruct Hx as [Hx|[<-|[]]]; [specialize (Hle cx Hx)|]; lia. }
      split. { intros c Hc. apply in_app_or in Hc. destruct Hc as [Hc|Hc]; [apply in_app_or in Hc; destruct Hc as [Hc|[<-|[]]]; [apply Hcl, in_or_app; auto|rewrite Hc0; exact Hco]|apply Hcl, in_or_app; auto]. }
      split. { intros c Hc. apply in_app_or in Hc. destruct Hc as [Hc|[<-|[]]]; [specialize (Hle c Hc)|]; lia. }
      split; [exact HPgt|]. intros x Hx Hxo. rewrite map_app. apply in_or_app. destruct (Z.le_gt_cases x last); [left; apply Hall; assumption|].
      destruct (Z.eq_dec x off) as [->|]; [right; left; exact Hc0|]. exfalso. apply (Hgap x); [lia|exact Hx].
    + destruct Hd as (-> & -> & Hb). assert (Hnb : ~ clusters off).
      { intros Hco. apply Hbl in Hco. destruct (Hb Hco) as (p & Hp & Hp0). specialize (Hpos (ce_pos p) (Hcl p (in_or_app _ _ _ (or_intror Hp)))). lia. }
      split; [exact HL|]. split; [exact HP|]. split; [exact Hinc|]. split; [exact Hcl|]. split; [intros c Hc; specialize (Hle c Hc); lia|].
      split. { intros c Hc. pose proof (HPge c Hc). destruct (Z.eq_dec (ce_pos c) off) as [Eo|]; [|lia]. exfalso. apply Hnb. rewrite <- Eo. apply Hcl, in_or_app. auto. }
      intros x Hx Hxo. destruct (Z.le_gt_cases x last); [apply Hall; assumption|]. destruct (Z.eq_dec x off) as [->|]; [contradiction|]. exfalso. apply (Hgap x); [lia|exact Hx].
    + destruct Hd as (-> & -> & _). repeat split; auto; try apply HL; try apply HP; apply Hcl.
  - destruct (request_ok t L P pos obj Hh HP) as (k2 & t2 & P' & E & Hh' & HP' & Hsub & _ & Hst). rewrite Ef in E. injection E as <- <-. exists L, P'. split; [exact Hh'|].
    assert (Hor : In pos (map ce_pos L) \/ (forall c, In c L -> ce_pos c < pos)).
    { destruct (Z.le_gt_cases pos last); [left; apply Hall; assumption|right; intros c Hc'; specialize (Hle c Hc'); lia]. }
    destruct (Hst Hinc (Hpos pos Hc) Hor) as [_ Hinc'].
    assert (Hnew : forall c, In c P' -> In c P \/ (ce_pos c = pos /\ P' <> P)).
    { intros c0 Hc0. destruct Hsub as [->|(P1 & P2 & -> & ->)]; [left; exact Hc0|]. apply in_insert in Hc0. destruct Hc0 as [->|Hc0]; [right|left; exact Hc0]. split; [reflexivity|].
      intros HE. apply (f_equal (@length E)) in HE. rewrite !app_length in HE. cbn [length] in HE. lia. }
    split; [exact HL|]. split; [exact HP'|]. split; [exact Hinc'|]. split.
    { intros c0 Hc0. apply in_app_or in Hc0. destruct Hc0 as [Hc0|Hc0]; [apply Hcl, in_or_app; auto|]. destruct (Hnew c0 Hc0) as [Hc1|[-> _]]; [apply Hcl, in_or_app; auto|exact Hc]. }
    split; [exact Hle|]. split; [|exact Hall]. intros c0 Hc0. destruct (Hnew c0 Hc0) as [Hc1|[Ep Hne]]; [apply Hlt; exact Hc1|]. rewrite Ep.
    destruct (Z.lt_ge_cases last pos); [assumption|]. exfalso. assert (Hin : In pos (map ce_pos L)) by (apply Hall; [exact Hc|lia]).
    rewrite map_app in Hinc'. apply inc_app in Hinc'. destruct Hinc' as (_ & _ & H3). specialize (H3 pos (ce_pos c0) Hin (in_map _ _ _ Hc0)). lia.
  - destruct (next_ok t L P off obj Hh HP) as (k2 & t2 & P' & E & Hh' & HP' & Hsub & _). rewrite Ef in E. injection E as _ <-. exists L, P'. split; [exact Hh'|].
    assert (Hlo' : last < off).
    { pose proof Hh as (H1 & H2 & H3 & rest & Ha). rewrite Ha in Ec. apply cell_nth in Ec; [|rewrite app_length; lia]. rewrite nth_error_app2 in Ec by lia. apply nth_error_In in Ec. specialize (Hlt c Ec). lia. }
    assert (Hnew : forall c, In c P' -> In c P \/ ce_pos c = off).
    { intros c0 Hc0. destruct Hsub as [->|(P1 & P2 & -> & ->)]; [left; exact Hc0|]. apply in_insert in Hc0. destruct Hc0 as [->|Hc0]; [right; reflexivity|left; exact Hc0]. }
    split; [exact HL|]. split; [exact HP'|]. split.
    { rewrite map_app. apply inc_app. split; [apply HL|]. split; [apply HP'|]. intros x y Hx Hy. apply in_map_iff in Hx. destruct Hx as (cx & <- & Hx). apply in_map_iff in Hy. destruct Hy as (cy & <- & Hy).
      specialize (Hle cx Hx). destruct (Hnew cy Hy) as [Hy'|Hy']; [specialize (Hlt cy Hy')|]; lia. }
    split. { intros c0 Hc0. apply in_app_or in Hc0. destruct Hc0 as [Hc0|Hc0]; [apply Hcl, in_or_app; auto|]. destruct (Hnew c0 Hc0) as [Hc1| ->]; [apply Hcl, in_or_app; auto|exact Hc]. }
    split; [exact Hle|]. split; [|exact Hall]. intros c0 Hc0. destruct (Hnew c0 Hc0) as [Hc1| ->]; [apply Hlt; exact Hc1|exact Hlo'].
Qed.
Lemma request_found : forall clusters : Z -> Prop, (forall x, clusters x -> 0 <= x) -> forall (t : table A) last pos obj, reached_in clusters t last -> clusters pos ->
  exists i t' c, FindOrPreloadCluster t pos obj = Val (Some i, t') /\ cell (t_arr t') i = Val c /\ ce_pos c = pos.
Proof.
  intros clusters Hpos t last pos obj H Hc. destruct (reached_in_ordered clusters Hpos t last H) as (L & P & Hh & HL & HP & Hinc & Hcl & Hle & Hlt & Hall).
  destruct (request_ok t L P pos obj Hh HP) as (k2 & t2 & P' & E & (G1 & G2 & G3 & rest & Ga) & HP' & Hsub & Hk & Hst).
  assert (Hor : In pos (map ce_pos L) \/ (forall c, In c L -> ce_pos c < pos)).
  { destruct (Z.le_gt_cases pos last); [left; apply Hall; assumption|right; intros c Hc'; specialize (Hle c Hc'); lia]. }
  destruct (Hst Hinc (Hpos pos Hc) Hor) as [Hne _]. destruct k2 as [i|]; [|congruence]. destruct (Hk i eq_refl) as (Hi & c & En & Ep).
  exists i, t2, c. split; [exact E|]. split; [|exact Ep]. rewrite Ga. rewrite <- (Z2Nat.id i Hi). apply cell_in. exact En.
Qed.
End T.
