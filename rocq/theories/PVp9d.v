(* Proofs about the VP9 level statistics. *)
From Coq Require Import ZifyBool ZifyNat Sorting.Sorted Floats.SpecFloat.
From Verif Require Import Base MFloat MVtt MVp9 Vp9Spec PVtt PVp9.

Lemma s64_ok : forall v, - 2 ^ 63 <= v < 2 ^ 63 -> s64 v = Val v.
Proof. intros v H. unfold s64. replace ((- 2 ^ 63 <=? v) && (v <? 2 ^ 63)) with true by lia. reflexivity. Qed.
Lemma total_app : forall a b, total (a ++ b) = total a + total b.
Proof. induction a as [|x a IH]; intros b; cbn [total fold_right app]; [reflexivity|]. unfold total in *. rewrite IH. lia. Qed.
Lemma total_cons : forall x a, total (x :: a) = x + total a. Proof. reflexivity. Qed.
Lemma total_rev : forall a, total (rev a) = total a.
Proof. induction a as [|x a IH]; [reflexivity|]. cbn [rev]. rewrite total_app, IH, !total_cons. cbn [total fold_right]. lia. Qed.
Lemma maximum_snoc : forall a x, maximum (a ++ [x]) = Z.max (maximum a) x \/ x < 0.
Proof. induction a as [|y a IH]; intros x; cbn [maximum fold_right app]; [destruct (Z.lt_ge_cases x 0); [right; assumption|left; lia]|]. destruct (IH x) as [E|E]; [left|right; exact E]. unfold maximum in *. rewrite E. lia. Qed.
Lemma maximum_app1 : forall a x, 0 <= x -> maximum (a ++ [x]) = if x >? maximum a then x else maximum a.
Proof. intros a x H. destruct (maximum_snoc a x) as [->|]; [|lia]. destruct (x >? maximum a) eqn:E; lia. Qed.
Lemma maximum_nonneg : forall a, 0 <= maximum a.
Proof. induction a as [|x a IH]; cbn [maximum fold_right]; [lia|]. unfold maximum in IH. lia. Qed.
Lemma minimum_app1 : forall a x, x <= INT_MAX -> minimum (a ++ [x]) = if x <? minimum a then x else minimum a.
Proof.
  induction a as [|y a IH]; intros x H; cbn [minimum fold_right app]; [destruct (x <? INT_MAX) eqn:E; lia|]. unfold minimum in *. rewrite IH by exact H. set (m := fold_right Z.min INT_MAX a). destruct (x <? m) eqn:E, (x <? Z.min y m) eqn:E'; lia.
Qed.
Lemma beginnings_snoc : forall (A : Type) (l done : list A) f, beginnings done (l ++ [f]) = beginnings done l ++ [f :: rev l ++ done].
Proof. induction l as [|x l IH]; intros done f; cbn [beginnings app rev]; [reflexivity|]. rewrite IH, <- app_assoc. reflexivity. Qed.
Lemma total_bound : forall b l, Forall (fun x => 0 <= x <= b) l -> 0 <= total l <= zlen l * b.
Proof. intros b l H. induction H as [|x l Hx H IH]; [cbn; lia|]. rewrite total_cons, zlen_cons. lia. Qed.
Lemma zlen_filter : forall (A : Type) (p : A -> bool) l, zlen (filter p l) <= zlen l.
Proof. intros A p l. induction l as [|x l IH]; [cbn; lia|]. cbn [filter]. destruct (p x); rewrite ?zlen_cons; lia. Qed.

Lemma filter_all : forall (A : Type) (p : A -> bool) l, (forall x, In x l -> p x = true) -> filter p l = l.
Proof. intros A p l H. induction l as [|x l IH]; [reflexivity|]. cbn [filter]. rewrite (H x (or_introl eq_refl)), IH; [reflexivity|]. intros y Hy. apply H. right. exact Hy. Qed.

(* the window of the last second *)
Lemma luma_drop_spec : forall w limit, StronglySorted (fun a b => fst a <= fst b) w -> Forall (fun x => 0 <= snd x) w -> total (map snd w) < 2 ^ 63 ->
  luma_drop w (total (map snd w)) limit = Val (filter (fun x => limit <=? fst x) w, total (map snd (filter (fun x => limit <=? fst x) w))).
Proof.
  induction w as [|[t v] w IH]; intros limit HS HF HB; [reflexivity|]. apply StronglySorted_inv in HS. destruct HS as [HS HT]. inversion HF as [|? ? Hv HF']. subst. cbn [snd] in Hv. cbn [map snd] in *. rewrite total_cons in *. cbn [luma_drop filter fst].
  assert (0 <= total (map snd w)). { clear -HF'. induction HF' as [|x l Hx H IH]; [cbn; lia|]. cbn [map]. rewrite total_cons. lia. }
  destruct (t <? limit) eqn:E.
  - replace (v + total (map snd w) - v) with (total (map snd w)) by lia. rewrite s64_ok by lia. cbn [obind]. replace (limit <=? t) with false by lia. apply IH; [exact HS|exact HF'|lia].
  - replace (limit <=? t) with true by lia. assert (EF : filter (fun x => limit <=? fst x) w = w).
    { apply filter_all. intros x Hx. rewrite Forall_forall in HT. specialize (HT x Hx). cbn [fst] in HT. lia. }
    rewrite EF. cbn [map snd]. rewrite total_cons. reflexivity.
Qed.

Lemma ref_count_total : forall n v, ref_count n v = total (bits n v).
Proof. induction n as [|n IH]; intros v; [reflexivity|]. cbn [ref_count bits]. rewrite total_cons, IH, bit_of by lia. lia. Qed.

(* counting shown frames between hidden ones *)
Fixpoint gap_state (open : option Z) (l : list frame) : option Z :=
  match l with
  | [] => open
  | f :: r => if hd_altref (fst f) =? 0 then gap_state (option_map Z.succ open) r else gap_state (Some 0) r
  end.
Lemma gaps_app : forall l open r, gaps open (l ++ r) = gaps open l ++ gaps (gap_state open l) r.
Proof. induction l as [|f l IH]; intros open r; [reflexivity|]. cbn [gaps gap_state app]. destruct (hd_altref (fst f) =? 0); [apply IH|]. destruct open; cbn [app]; rewrite IH; reflexivity. Qed.
Lemma gap_state_app : forall l open r, gap_state open (l ++ r) = gap_state (gap_state open l) r.
Proof. induction l as [|f l IH]; intros open r; [reflexivity|]. cbn [gap_state app]. destruct (hd_altref (fst f) =? 0); apply IH. Qed.

Definition pair_of (f : frame) : Z * Z := (snd f, area f).
Definition last_time (l : list frame) : Z := match rev l with [] => 0 | f :: _ => snd f end.
Definition recent (l : list frame) : list frame := filter (fun g => last_time l - 999999999 <=? snd g) l.
Definition shown (f : frame) : bool := hd_altref (fst f) =? 0.
Definition raw_bits (f : frame) : Z := Z.quot (area f * hd_bit_depth (fst f) * 3) 2.

Record st_inv (l : list frame) (s : stats) : Prop := {
  si_start : s_start s = match l with [] => -1 | f :: _ => snd f end;
  si_end : s_end s = match rev l with [] => -1 | f :: _ => snd f end;
  si_size : s_max_size s = maximum (map area l);
  si_breadth : s_max_breadth s = maximum (map breadth_of l);
  si_window : s_luma_window s = map pair_of (recent l);
  si_luma : s_luma s = total (map area (recent l));
  si_max_luma : s_max_luma s = maximum (map second_of (beginnings [] l));
  si_cwindow : map snd (s_cpb_window s) = map bytes_of (rev (firstn 4 (rev l)));
  si_cpb : s_cpb s = four_of (rev l);
  si_max_cpb : s_max_cpb s = maximum (map four_of (beginnings [] l));
  si_compressed : s_compressed s = total (map bytes_of l);
  si_uncompressed : s_uncompressed s = total (map raw_bits (filter shown l));
  si_displayed : s_displayed s = zlen (filter shown l);
  si_first : s_first_altref s = match gap_state None l with None => true | Some _ => false end;
  si_since : 0 <= s_since_altref s <= zlen l /\ (forall g, gap_state None l = Some g -> s_since_altref s = g);
  si_min : s_min_altref s = minimum (gaps None l);
  si_refreshed : s_refreshed s = stored (rev l);
  si_max_ref : s_max_refreshed s = maximum (map (fun b => count_bits (stored b)) (beginnings [] l));
  si_tiles : s_max_tiles s = maximum (map columns_of l);
  si_rest : s_duration s = -1 /\ s_estimate s = true /\ s_grace s = s_grace new_stats }.
Lemma st_inv_new : st_inv [] new_stats.
Proof. constructor; try reflexivity; [split; [cbn [s_since_altref new_stats]; cbn; lia|discriminate]|auto]. Qed.

Lemma stored_range : forall back, Forall fair_frame back -> field 8 (stored back).
Proof.
  intros back H. induction H as [|f back Hf H IH]; cbn [stored]; [unfold field; cbn; lia|]. destruct (hd_key (fst f) =? 1); [unfold field; cbn; lia|]. destruct Hf as (_ & _ & _ & _ & _ & _ & Hr & _). unfold field in *. change (2 ^ Z.of_nat 8) with 256 in *. split; [apply Z.lor_nonneg; lia|].
  destruct (Z.eq_dec (Z.lor (stored back) (hd_refresh (fst f))) 0) as [->|]; [lia|]. change 256 with (2 ^ 8). apply Z.log2_lt_pow2; [assert (0 <= Z.lor (stored back) (hd_refresh (fst f))) by (apply Z.lor_nonneg; lia); lia|]. rewrite Z.log2_lor by lia.
  assert (K : forall x, 0 <= x < 256 -> Z.log2 x < 8) by (intros x Hx; destruct (Z.eq_dec x 0) as [->|]; [cbn; lia|]; apply Z.log2_lt_pow2; [lia|change (2 ^ 8) with 256; lia]). apply Z.max_lub_lt; apply K; lia.
Qed.
Lemma bits_nonneg : forall n v, Forall (fun x => 0 <= x <= 1) (bits n v).
Proof. induction n as [|n IH]; intros v; cbn [bits]; constructor; [|apply IH]. pose proof (Z.mod_pos_bound (v / 2 ^ Z.of_nat n) 2 ltac:(lia)). lia. Qed.
Lemma count_nonneg : forall v, 0 <= count_bits v.
Proof. intros v. unfold count_bits. pose proof (total_bound 1 (bits 8 v) (bits_nonneg 8 v)). lia. Qed.
Lemma areas_bound : forall l, Forall fair_frame l -> Forall (fun x => 0 <= x <= 2 ^ 31) (map area l).
Proof. intros l H. induction H as [|f l Hf H IH]; constructor; [|exact IH]. destruct Hf as (Hw & Hh & Ha & _). unfold area in *. nia. Qed.
Lemma sizes_bound : forall l, Forall fair_frame l -> Forall (fun x => 0 <= x <= 2 ^ 30) (map bytes_of l).
Proof. intros l H. induction H as [|f l Hf H IH]; constructor; [|exact IH]. destruct Hf as (Hw & Hh & Ha & Hs & _). unfold bytes_of; lia. Qed.
Lemma raw_bound : forall f, fair_frame f -> 0 <= area f * hd_bit_depth (fst f) <= 2 ^ 35 /\ 0 <= raw_bits f <= 2 ^ 37.
Proof.
  intros f (Hw & Hh & Ha & _ & _ & Hd & _). unfold raw_bits. assert (0 <= area f) by (unfold area; nia). assert (0 <= area f * hd_bit_depth (fst f) <= 2 ^ 35) by nia. split; [assumption|]. rewrite Z.quot_div_nonneg by lia. split; [apply Z.div_pos; lia|]. apply Z.lt_succ_r. apply Z.div_lt_upper_bound; lia.
Qed.
Lemma Forall_filter : forall (A : Type) (P : A -> Prop) p l, Forall P l -> Forall P (filter p l).
Proof. intros A P p l H. induction H as [|x l Hx H IH]; [constructor|]. cbn [filter]. destruct (p x); [constructor|]; assumption. Qed.
Lemma raws_bound : forall l, Forall fair_frame l -> Forall (fun x => 0 <= x <= 2 ^ 37) (map raw_bits (filter shown l)).
Proof. intros l H. apply (Forall_filter _ _ shown) in H. induction H as [|f r Hf H IH]; constructor; [|exact IH]. apply raw_bound. exact Hf. Qed.
Lemma SS_map_filter : forall (l : list frame) p, StronglySorted (fun a b => snd a <= snd b) l -> StronglySorted (fun a b => fst a <= fst b) (map pair_of (filter p l)).
Proof.
  intros l p H. induction H as [|f l H IH HF]; [constructor|]. cbn [filter]. destruct (p f); [|exact IH]. cbn [map]. constructor; [exact IH|]. rewrite Forall_map. apply (Forall_filter _ _ p) in HF. exact HF.
Qed.
Lemma filter_map_pair : forall p (l : list frame), filter (fun x => p <=? fst x) (map pair_of l) = map pair_of (filter (fun g => p <=? snd g) l).
Proof. intros p l. induction l as [|f l IH]; [reflexivity|]. cbn [map filter pair_of fst]. fold (pair_of f). destruct (p <=? snd f); cbn [map]; rewrite IH; reflexivity. Qed.
Lemma filter_filter_le : forall a b (l : list frame), a <= b -> filter (fun g => b <=? snd g) (filter (fun g => a <=? snd g) l) = filter (fun g => b <=? snd g) l.
Proof. intros a b l H. induction l as [|f l IH]; [reflexivity|]. cbn [filter]. destruct (a <=? snd f) eqn:E; cbn [filter]; destruct (b <=? snd f) eqn:E'; rewrite ?IH; try reflexivity; lia. Qed.
Lemma last_time_snoc : forall l f, last_time (l ++ [f]) = snd f.
Proof. intros l f. unfold last_time. rewrite rev_app_distr. reflexivity. Qed.
Lemma filter_rev_ : forall (A : Type) (p : A -> bool) l, filter p (rev l) = rev (filter p l).
Proof. intros A p l. induction l as [|x l IH]; [reflexivity|]. cbn [rev filter]. rewrite filter_app, IH. cbn [filter]. destruct (p x); cbn [rev]; [reflexivity|apply app_nil_r]. Qed.
Lemma map_snd_pair : forall l, map snd (map pair_of l) = map area l.
Proof. intros l. rewrite map_map. reflexivity. Qed.
Lemma cpb_drop_spec : forall w back cur, map snd w = map bytes_of (rev (firstn 4 back)) -> Forall fair_frame back -> cur = four_of back ->
  exists w', cpb_drop w cur = Val (w', total (map bytes_of (firstn 3 back))) /\ map snd w' = map bytes_of (rev (firstn 3 back)).
Proof.
  intros w back cur HW HF HC. assert (HS := sizes_bound _ HF). unfold four_of in HC. destruct back as [|a [|b [|c [|d r]]]]; cbn [firstn rev app map] in HW, HC, HS |- *.
  - destruct w; [|discriminate]. exists []. subst. auto.
  - destruct w as [|[t v] [|]]; try discriminate. exists [(t, v)]. cbn [cpb_drop]. subst. auto.
  - destruct w as [|[t v] [|[t1 v1] [|]]]; try discriminate. eexists. cbn [cpb_drop]. change (zlen [(t, v); (t1, v1)] >? 3) with false. cbv iota. subst. split; [reflexivity|exact HW].
  - destruct w as [|[t v] [|[t1 v1] [|[t2 v2] [|]]]]; try discriminate. eexists. cbn [cpb_drop]. change (zlen [(t, v); (t1, v1); (t2, v2)] >? 3) with false. cbv iota. subst. split; [reflexivity|exact HW].
  - destruct w as [|[t v] [|[t1 v1] [|[t2 v2] [|[t3 v3] [|]]]]]; try discriminate. exists [(t1, v1); (t2, v2); (t3, v3)]. cbn [cpb_drop]. change (zlen [(t, v); (t1, v1); (t2, v2); (t3, v3)] >? 3) with true. cbv iota. change (zlen [(t1, v1); (t2, v2); (t3, v3)] >? 3) with false. cbv iota.
    cbn [map snd] in HW. injection HW as E0 E1 E2 E3. inversion HS as [|? ? Ha HS1]; subst. inversion HS1 as [|? ? Hb HS2]; subst. inversion HS2 as [|? ? Hc HS3]; subst. inversion HS3 as [|? ? Hd HS4]; subst. unfold total. cbn [fold_right]. rewrite s64_ok by lia. cbn [obind]. split; [do 2 f_equal; lia|]. cbn [map snd]. congruence.
Qed.

Ltac r64 := cbv zeta; match goal with |- ex (fun s' => obind (s64 ?v) _ = _ /\ _) => rewrite (s64_ok v) by lia; cbn [obind] | |- ex (fun s' => obind (obind (s64 ?v) _) _ = _ /\ _) => rewrite (s64_ok v) by lia; cbn [obind] | |- context [obind (s64 ?v) _] => rewrite (s64_ok v) by lia; cbn [obind] end.
Lemma add_inv : forall l s f, st_inv l s -> Forall fair_frame (l ++ [f]) -> StronglySorted (fun a b => snd a <= snd b) (l ++ [f]) -> zlen (l ++ [f]) < 2 ^ 24 ->
  exists s', AddFrame s (fst f) (snd f) = Val s' /\ st_inv (l ++ [f]) s'.
Proof.
  intros l s f HI HFA HSS HLen. apply Forall_app in HFA as [HF Hff]. inversion Hff as [|? ? Hfair _]. subst. rewrite zlen_app in HLen. change (zlen [f]) with 1 in HLen.
  assert (HSL : StronglySorted (fun a b => snd a <= snd b) l). { clear -HSS. induction l as [|x l IH]; [constructor|]. cbn [app] in HSS. apply StronglySorted_inv in HSS. destruct HSS as [A B]. constructor; [apply IH; exact A|]. apply Forall_app in B. apply B. }
  assert (HLE : forall g, In g l -> snd g <= snd f). { clear -HSS. induction l as [|x l IH]; intros g []; cbn [app] in HSS; apply StronglySorted_inv in HSS; destruct HSS as [A B]. - subst. apply Forall_app in B. destruct B as [_ B]. inversion B. assumption. - apply IH; assumption. }
  destruct Hfair as (Hw & Hh & Harea & Hsz & Htime & Hdepth & Href & Htile). pose proof (zlen_nonneg l) as HLp. change (hd_frame_size (fst f)) with (bytes_of f) in *. change (hd_column_tiles (fst f)) with (columns_of f) in *.
  unfold AddFrame. fold (area f) (bytes_of f) (columns_of f). assert (Ha0 : 1 <= area f) by (unfold area; nia). rewrite s32_ok by lia. cbn [obind].
  pose proof (total_bound _ _ (sizes_bound l HF)) as HTS. rewrite (si_compressed _ _ HI). assert (EZ : forall (A : Type) (g : frame -> A) l, zlen (map g l) = zlen l) by (intros; unfold zlen; rewrite map_length; reflexivity). rewrite EZ in HTS. change (2 ^ 30) with 1073741824 in *. change (2 ^ 24) with 16777216 in *. r64. r64.
  set (limit := snd f - 999999999).
  assert (HP : forall p, 0 <= total (map area (filter p l)) <= zlen l * 2147483648).
  { intros p. pose proof (total_bound _ _ (areas_bound _ (Forall_filter _ _ p _ HF))) as K. rewrite EZ in K. pose proof (zlen_filter _ p l) as K2. change (2 ^ 31) with 2147483648 in K. lia. }
  assert (HRB : 0 <= total (map area (recent l)) <= zlen l * 2147483648) by exact (HP _).
  assert (EL : luma_drop (s_luma_window s) (s_luma s) limit = Val (map pair_of (filter (fun g => limit <=? snd g) l), total (map area (filter (fun g => limit <=? snd g) l)))).
  { rewrite (si_window _ _ HI), (si_luma _ _ HI). rewrite <- map_snd_pair at 1. rewrite luma_drop_spec.
    - rewrite filter_map_pair. assert (EF : filter (fun g => limit <=? snd g) (recent l) = filter (fun g => limit <=? snd g) l).
      { apply filter_filter_le. unfold limit, last_time. destruct (rev l) as [|g r] eqn:Er; [lia|]. assert (In g l) by (apply in_rev; rewrite Er; left; reflexivity). specialize (HLE g H). lia. }
      rewrite EF, map_snd_pair. reflexivity.
    - apply SS_map_filter. exact HSL.
    - rewrite Forall_map. eapply Forall_impl; [|apply Forall_filter; exact HF]. intros g (A & C & _). cbn [snd pair_of]. unfold area. nia.
    - rewrite map_snd_pair. lia. }
  rewrite EL. cbn [obind].
  assert (HFB : 0 <= total (map area (filter (fun g => limit <=? snd g) l)) <= zlen l * 2147483648) by exact (HP _).
  r64.
  assert (HFR : Forall fair_frame (rev l)) by (apply Forall_rev; exact HF).
  destruct (cpb_drop_spec (s_cpb_window s) (rev l) (s_cpb s) (si_cwindow _ _ HI) HFR (si_cpb _ _ HI)) as (cw & EC & HCW). rewrite EC. cbn [obind].
  assert (HC3 : 0 <= total (map bytes_of (firstn 3 (rev l))) <= 3 * 1073741824).
  { assert (HF3 : Forall fair_frame (firstn 3 (rev l))) by (rewrite <- (firstn_skipn 3 (rev l)) in HFR; apply Forall_app in HFR; apply HFR). pose proof (total_bound _ _ (sizes_bound _ HF3)) as K. rewrite EZ in K. assert (zlen (firstn 3 (rev l)) <= 3) by (unfold zlen; pose proof (firstn_le_length 3 (rev l)); lia). nia. }
  r64.
  pose proof (raw_bound f ltac:(unfold fair_frame; auto 10)) as [HB1 HB2]. pose proof (total_bound _ _ (raws_bound l HF)) as HU. rewrite EZ in HU. pose proof (zlen_filter _ shown l) as HZF. pose proof (zlen_nonneg (filter shown l)) as HZF0.
  destruct (si_since _ _ HI) as [HS1 HS2]. rewrite (si_displayed _ _ HI), (si_uncompressed _ _ HI).
  assert (A1 : (if s_start s =? -1 then snd f else s_start s) = match l ++ [f] with [] => -1 | g :: _ => snd g end).
  { rewrite (si_start _ _ HI). destruct l as [|g l']; [reflexivity|]. cbn [app]. inversion HF as [|? ? (_ & _ & _ & _ & Ht & _) _]. subst. replace (snd g =? -1) with false by lia. reflexivity. }
  assert (A2 : (if area f >? s_max_size s then area f else s_max_size s) = maximum (map area (l ++ [f]))) by (rewrite map_app, (si_size _ _ HI); cbn [map]; rewrite maximum_app1 by lia; reflexivity).
  assert (A3 : (if (if hd_width (fst f) >? hd_height (fst f) then hd_width (fst f) else hd_height (fst f)) >? s_max_breadth s then (if hd_width (fst f) >? hd_height (fst f) then hd_width (fst f) else hd_height (fst f)) else s_max_breadth s)
     = maximum (map breadth_of (l ++ [f]))).
  { assert (EB : (if hd_width (fst f) >? hd_height (fst f) then hd_width (fst f) else hd_height (fst f)) = breadth_of f) by (unfold breadth_of; destruct (hd_width (fst f) >? hd_height (fst f)) eqn:E; [rewrite Z.max_l by lia|rewrite Z.max_r by lia]; reflexivity). rewrite EB, map_app, (si_breadth _ _ HI). cbn [map]. rewrite maximum_app1 by (unfold breadth_of; lia). reflexivity. }
  assert (ER : recent (l ++ [f]) = filter (fun g => limit <=? snd g) l ++ [f]). { unfold recent. rewrite last_time_snoc. fold limit. rewrite filter_app. cbn [filter]. replace (limit <=? snd f) with true by (unfold limit; lia). reflexivity. }
  assert (A4 : map pair_of (filter (fun g => limit <=? snd g) l) ++ [(snd f, area f)] = map pair_of (recent (l ++ [f]))) by (rewrite ER, map_app; reflexivity).
  assert (A5 : total (map area (filter (fun g => limit <=? snd g) l)) + area f = total (map area (recent (l ++ [f])))) by (rewrite ER, map_app, total_app; cbn [map]; rewrite total_cons; change (total []) with 0; lia).
  assert (A6' : second_of (f :: rev l ++ []) = total (map area (recent (l ++ [f])))). { rewrite app_nil_r, <- A5. cbn [second_of]. fold limit. cbn [filter]. replace (limit <=? snd f) with true by (unfold limit; lia). cbn [map]. rewrite total_cons, filter_rev_, map_rev, total_rev. lia. }
  assert (A6 : (if total (map area (filter (fun g => limit <=? snd g) l)) + area f >? s_max_luma s then total (map area (filter (fun g => limit <=? snd g) l)) + area f else s_max_luma s) = maximum (map second_of (beginnings [] (l ++ [f])))).
  { rewrite beginnings_snoc, map_app. cbn [map]. rewrite A6', <- A5. rewrite maximum_app1 by lia. rewrite (si_max_luma _ _ HI). reflexivity. }
  assert (EB4 : firstn 4 (rev (l ++ [f])) = f :: firstn 3 (rev l)) by (rewrite rev_app_distr; reflexivity).
  assert (A7 : map snd (cw ++ [(snd f, bytes_of f)]) = map bytes_of (rev (firstn 4 (rev (l ++ [f]))))) by (rewrite EB4; cbn [rev]; rewrite !map_app, HCW; reflexivity).
  assert (A8 : total (map bytes_of (firstn 3 (rev l))) + bytes_of f = four_of (rev (l ++ [f]))) by (unfold four_of; rewrite EB4; cbn [map]; rewrite total_cons; lia).
  assert (A9 : (if total (map bytes_of (firstn 3 (rev l))) + bytes_of f >? s_max_cpb s then total (map bytes_of (firstn 3 (rev l))) + bytes_of f else s_max_cpb s) = maximum (map four_of (beginnings [] (l ++ [f])))).
  { rewrite beginnings_snoc, map_app. cbn [map]. replace (f :: rev l ++ []) with (rev (l ++ [f])) by (rewrite rev_app_distr, app_nil_r; reflexivity). rewrite <- A8. rewrite maximum_app1 by lia. rewrite (si_max_cpb _ _ HI). reflexivity. }
  assert (A10 : total (map bytes_of l) + bytes_of f = total (map bytes_of (l ++ [f]))) by (rewrite map_app, total_app; cbn [map]; rewrite total_cons; change (total []) with 0; lia).
  assert (ERV : rev (l ++ [f]) = f :: rev l) by (rewrite rev_app_distr; reflexivity).
  assert (A11 : (if hd_key (fst f) =? 1 then 0 else Z.lor (s_refreshed s) (hd_refresh (fst f))) = stored (rev (l ++ [f]))) by (rewrite ERV; cbn [stored]; rewrite (si_refreshed _ _ HI); reflexivity).
  assert (A12 : (if hd_key (fst f) =? 1 then s_max_refreshed s else if ref_count 8 (if hd_key (fst f) =? 1 then 0 else Z.lor (s_refreshed s) (hd_refresh (fst f))) >? s_max_refreshed s then ref_count 8 (if hd_key (fst f) =? 1 then 0 else Z.lor (s_refreshed s) (hd_refresh (fst f))) else s_max_refreshed s)
      = maximum (map (fun b => count_bits (stored b)) (beginnings [] (l ++ [f])))).
  { rewrite A11, ref_count_total. fold (count_bits (stored (rev (l ++ [f])))). rewrite beginnings_snoc, map_app. cbn [map]. replace (f :: rev l ++ []) with (rev (l ++ [f])) by (rewrite ERV, app_nil_r; reflexivity). rewrite maximum_app1 by apply count_nonneg. rewrite (si_max_ref _ _ HI).
    destruct (hd_key (fst f) =? 1) eqn:EK; [|reflexivity]. rewrite ERV. cbn [stored]. rewrite EK. change (count_bits 0) with 0. pose proof (maximum_nonneg (map (fun b => count_bits (stored b)) (beginnings [] l))). replace (0 >? _) with false by lia. reflexivity. }
  assert (A13 : (if columns_of f >? s_max_tiles s then columns_of f else s_max_tiles s) = maximum (map columns_of (l ++ [f]))) by (rewrite map_app, (si_tiles _ _ HI); cbn [map]; rewrite maximum_app1 by lia; reflexivity).
  assert (A14 : snd f = match rev (l ++ [f]) with [] => -1 | g :: _ => snd g end) by (rewrite ERV; reflexivity).
  assert (EFS : filter shown (l ++ [f]) = filter shown l ++ (if hd_altref (fst f) =? 0 then [f] else [])) by (rewrite filter_app; cbn [filter]; unfold shown at 2; destruct (hd_altref (fst f) =? 0); reflexivity).
  assert (EG : gap_state None (l ++ [f]) = if hd_altref (fst f) =? 0 then option_map Z.succ (gap_state None l) else Some 0) by (rewrite gap_state_app; cbn [gap_state]; destruct (hd_altref (fst f) =? 0); reflexivity).
  assert (EGP : gaps None (l ++ [f]) = gaps None l ++ (if hd_altref (fst f) =? 0 then [] else match gap_state None l with None => [] | Some g => [g] end)) by (rewrite gaps_app; cbn [gaps]; destruct (hd_altref (fst f) =? 0); [reflexivity|]; destruct (gap_state None l); reflexivity).
  assert (EZ1 : zlen (l ++ [f]) = zlen l + 1) by (rewrite zlen_app; reflexivity).
  rewrite A1, A2, A3, A4, A6, A5, A9, A8, A10, A11 in *. 
  destruct (hd_altref (fst f) =? 0) eqn:EA; cbn [negb].
  - rewrite s32_ok by lia. cbn [obind]. rewrite s32_ok by lia. cbn [obind]. r64. r64. fold (raw_bits f). r64. eexists. split; [reflexivity|]. rewrite A13. constructor; cbn [s_start s_end s_duration s_max_size s_max_breadth s_luma_window s_luma s_max_luma s_grace s_first_altref s_since_altref s_min_altref s_cpb_window s_cpb s_max_cpb s_compressed s_uncompressed s_refreshed s_max_refreshed s_max_tiles s_estimate s_displayed]; try assumption; try reflexivity.
    + rewrite EFS, map_app, total_app. cbn [map]. rewrite total_cons. change (total []) with 0. lia.
    + rewrite EFS, zlen_app. reflexivity.
    + rewrite EG, (si_first _ _ HI). destruct (gap_state None l); reflexivity.
    + rewrite EG, EZ1. split; [lia|]. intros g Hg. destruct (gap_state None l) as [g0|] eqn:Egs; [|discriminate]. cbn [option_map] in Hg. injection Hg as <-. rewrite (HS2 g0 eq_refl). lia.
    + rewrite EGP, app_nil_r. apply (si_min _ _ HI).
    + exact (si_rest _ _ HI).
  - cbn [obind]. eexists. split; [reflexivity|]. rewrite A13. constructor; cbn [s_start s_end s_duration s_max_size s_max_breadth s_luma_window s_luma s_max_luma s_grace s_first_altref s_since_altref s_min_altref s_cpb_window s_cpb s_max_cpb s_compressed s_uncompressed s_refreshed s_max_refreshed s_max_tiles s_estimate s_displayed]; try assumption; try reflexivity.
    + rewrite EFS, app_nil_r. reflexivity.
    + rewrite EFS, app_nil_r. reflexivity.
    + rewrite EG. reflexivity.
    + rewrite EG, EZ1. split; [lia|]. intros g Hg. injection Hg as <-. reflexivity.
    + rewrite EGP. rewrite (si_first _ _ HI). destruct (gap_state None l) as [g0|] eqn:Egs; [|rewrite app_nil_r; apply (si_min _ _ HI)]. rewrite (HS2 g0 eq_refl) in *. rewrite minimum_app1 by (unfold INT_MAX; lia). rewrite (si_min _ _ HI). reflexivity.
    + exact (si_rest _ _ HI).
Qed.
Lemma add_frames_app : forall l s r, add_frames s (l ++ r) = match add_frames s l with Val s' => add_frames s' r | UB => UB end.
Proof. induction l as [|f l IH]; intros s r; [reflexivity|]. cbn [add_frames app]. destruct (AddFrame s (fst f) (snd f)); [apply IH|reflexivity]. Qed.
Lemma fair_sorted : forall l, (forall i j f g, (i <= j)%nat -> nth_error l i = Some f -> nth_error l j = Some g -> snd f <= snd g) -> StronglySorted (fun a b : frame => snd a <= snd b) l.
Proof.
  induction l as [|x l IH]; intros H; [constructor|]. constructor; [apply IH; intros i j f g Hij; apply (H (S i) (S j)); lia|]. rewrite Forall_forall. intros y Hy. destruct (In_nth_error _ _ Hy) as (n & Hn). apply (H 0%nat (S n) x y); [lia|reflexivity|exact Hn].
Qed.
Lemma SS_snoc_inv : forall l (f : frame), StronglySorted (fun a b : frame => snd a <= snd b) (l ++ [f]) -> StronglySorted (fun a b : frame => snd a <= snd b) l.
Proof. induction l as [|x l IH]; intros f H; [constructor|]. cbn [app] in H. apply StronglySorted_inv in H. destruct H as [A B]. constructor; [eapply IH; exact A|]. apply Forall_app in B. apply B. Qed.
Lemma stream_inv : forall l, Forall fair_frame l -> StronglySorted (fun a b : frame => snd a <= snd b) l -> zlen l < 2 ^ 24 -> exists s, add_frames new_stats l = Val s /\ st_inv l s.
Proof.
  intros l. induction l as [|f l IH] using rev_ind; intros HF HS HL; [exists new_stats; split; [reflexivity|apply st_inv_new]|].
  destruct IH as (s & E & HI); [apply Forall_app in HF; apply HF|eapply SS_snoc_inv; exact HS|rewrite zlen_app in HL; change (zlen [f]) with 1 in HL; lia|]. destruct (add_inv l s f HI HF HS HL) as (s' & E' & HI'). exists s'. split; [|exact HI']. rewrite add_frames_app, E. cbn [add_frames]. rewrite E'. reflexivity.
Qed.

(* ---------- levels ---------- *)
Lemma level_loop_spec : forall fits t a st, Vp9LevelTable = a ++ t -> Forall (fun x => fits x = false) a ->
  (exists r n, lowest fits r /\ nth_error Vp9LevelTable n = Some r /\ level_loop fits t (length a) st = if fst st <? r_level r then (r_level r, n) else st)
  \/ (Forall (fun x => fits x = false) Vp9LevelTable /\ level_loop fits t (length a) st = st).
Proof.
  intros fits. induction t as [|r t IH]; intros a st ET HA.
  - right. rewrite app_nil_r in ET. rewrite ET. auto.
  - cbn [level_loop]. destruct (fits r) eqn:E.
    + left. exists r, (length a). split; [exists a, t; auto|]. split; [rewrite ET, nth_error_app2 by lia; rewrite Nat.sub_diag; reflexivity|reflexivity].
    + specialize (IH (a ++ [r]) st). rewrite app_length in IH. cbn [length] in IH. rewrite Nat.add_1_r in IH. apply IH; [rewrite <- app_assoc; exact ET|]. apply Forall_app. split; [exact HA|]. constructor; [exact E|constructor].
Qed.
(* what a state of GetLevel says after the conditions fs *)
Definition st_ok (fs : list (row -> bool)) (st : Z * nat) : Prop :=
  (forall fits r, In fits fs -> lowest fits r -> r_level r <= fst st) /\
  (st = (0, 0%nat) \/ exists r fits, nth_error Vp9LevelTable (snd st) = Some r /\ r_level r = fst st /\ In fits fs /\ lowest fits r).
Lemma levels_pos : forall r, In r Vp9LevelTable -> 10 <= r_level r.
Proof. assert (K : forallb (fun r => 10 <=? r_level r) Vp9LevelTable = true) by reflexivity. rewrite forallb_forall in K. intros r H. specialize (K r H). lia. Qed.
Lemma lowest_in : forall fits r, lowest fits r -> In r Vp9LevelTable.
Proof. intros fits r (a & b & E & _). change Vp9LevelTable with vp9_levels. rewrite E. apply in_or_app. right. left. reflexivity. Qed.
Lemma lowest_unique : forall fits r r', lowest fits r -> lowest fits r' -> r = r'.
Proof.
  intros fits r r' (a & b & E & Hr & HA) (a' & b' & E' & Hr' & HA'). rewrite E in E'. clear E. revert a' E' HA'. induction a as [|x a IH]; intros [|x' a'] E' HA'; cbn [app] in E'.
  - congruence.
  - injection E' as -> _. inversion HA'. congruence.
  - injection E' as -> _. inversion HA. congruence.
  - injection E' as -> E'. inversion HA. inversion HA'. subst. eapply IH; eassumption.
Qed.
Lemma st_ok_step : forall fs fits st, st_ok fs st -> st_ok (fits :: fs) (level_loop fits Vp9LevelTable 0 st).
Proof.
  intros fs fits st [H1 H2]. destruct (level_loop_spec fits Vp9LevelTable [] st eq_refl (Forall_nil _)) as [(r & n & HL & Hn & E)|(HN & E)]; cbn [length] in E; rewrite E.
  - destruct (fst st <? r_level r) eqn:EL.
    + split; cbn [fst snd].
      * intros g r' [<-|Hg] Hr'; [rewrite (lowest_unique _ _ _ Hr' HL); lia|]. specialize (H1 g r' Hg Hr'). lia.
      * right. exists r, fits. split; [exact Hn|]. split; [reflexivity|]. split; [left; reflexivity|exact HL].
    + split.
      * intros g r' [<-|Hg] Hr'; [rewrite (lowest_unique _ _ _ Hr' HL); lia|]. exact (H1 g r' Hg Hr').
      * destruct H2 as [->|(r' & g & A & B & C & D)]; [left; reflexivity|right]. exists r', g. split; [exact A|]. split; [exact B|]. split; [right; exact C|exact D].
  - split.
    + intros g r' [<-|Hg] Hr'; [|exact (H1 g r' Hg Hr')]. exfalso. destruct Hr' as (a & b & E' & Hf & _). change Vp9LevelTable with vp9_levels in HN. rewrite E' in HN. apply Forall_app in HN as [_ HN]. inversion HN. congruence.
    + destruct H2 as [->|(r' & g & A & B & C & D)]; [left; reflexivity|right]. exists r', g. split; [exact A|]. split; [exact B|]. split; [right; exact C|exact D].
Qed.
Definition conditions (s : stats) : list (row -> bool) := [fits_refs s; fits_tiles s; fits_cpb s; fits_bitrate s; fits_breadth s; fits_size s; fits_rate s].
Lemma level_state : forall s, exists st, st_ok (conditions s) st /\
  exists r, nth_error Vp9LevelTable (snd st) = Some r /\
  GetLevel s = if SFltb (GetCompressionRatio s) (f64_of_Z (r_ratio r)) then 0 else if GetMinimumAltrefDistance s <? r_altref r then 0 else fst st.
Proof.
  intros s. unfold GetLevel. cbv zeta.
  assert (H0 : st_ok [] (0, 0%nat)) by (split; [intros g r []|left; reflexivity]).
  apply (st_ok_step _ (fits_rate s)) in H0. set (s1 := level_loop (fits_rate s) _ _ _) in *. apply (st_ok_step _ (fits_size s)) in H0. set (s2 := level_loop (fits_size s) _ _ _) in *. apply (st_ok_step _ (fits_breadth s)) in H0. set (s3 := level_loop (fits_breadth s) _ _ _) in *.
  apply (st_ok_step _ (fits_bitrate s)) in H0. set (s4 := level_loop (fits_bitrate s) _ _ _) in *. apply (st_ok_step _ (fits_cpb s)) in H0. set (s5 := level_loop (fits_cpb s) _ _ _) in *. apply (st_ok_step _ (fits_tiles s)) in H0. set (s6 := level_loop (fits_tiles s) _ _ _) in *.
  apply (st_ok_step _ (fits_refs s)) in H0. set (s7 := level_loop (fits_refs s) _ _ _) in *. exists s7. split; [exact H0|].
  assert (E : exists r, nth_error Vp9LevelTable (snd s7) = Some r). { destruct H0 as [_ [->|(r & g & A & _)]]; [eexists; reflexivity|exists r; exact A]. }
  destruct E as (r & E). exists r. split; [exact E|]. rewrite E. reflexivity.
Qed.

(* ---------- checking that a stream is fair ---------- *)
Definition fair_frameb (f : frame) : bool :=
  (1 <=? hd_width (fst f)) && (hd_width (fst f) <=? 65536) && (1 <=? hd_height (fst f)) && (hd_height (fst f) <=? 65536) && (area f <? 2 ^ 31) &&
  (0 <=? hd_frame_size (fst f)) && (hd_frame_size (fst f) <? 2 ^ 30) && (0 <=? snd f) && (snd f <? 2 ^ 62) && (0 <=? hd_bit_depth (fst f)) && (hd_bit_depth (fst f) <=? 12) &&
  (0 <=? hd_refresh (fst f)) && (hd_refresh (fst f) <? 256) && (0 <=? hd_column_tiles (fst f)).
Fixpoint sortedb (t : Z) (l : list frame) : bool := match l with [] => true | f :: r => (t <=? snd f) && sortedb (snd f) r end.
Lemma sortedb_all : forall l t, sortedb t l = true -> forall f, In f l -> t <= snd f.
Proof. induction l as [|x l IH]; intros t H f Hf; [destruct Hf|]. cbn [sortedb] in H. apply andb_prop in H as [A B]. destruct Hf as [->|Hf]; [lia|]. specialize (IH (snd x) B f Hf). lia. Qed.
Lemma fair_check : forall l, forallb fair_frameb l && sortedb 0 l && (zlen l <? 2 ^ 24) = true -> fair_stream l.
Proof.
  intros l H. apply andb_prop in H as [H H3]. apply andb_prop in H as [H1 H2]. split; [|split; [|lia]].
  - rewrite forallb_forall in H1. rewrite Forall_forall. intros f Hf. specialize (H1 f Hf). unfold fair_frameb in H1. unfold fair_frame, field. change (2 ^ Z.of_nat 8) with 256. lia.
  - clear H1 H3. revert H2. generalize 0. induction l as [|x l IH]; intros t H2 i j f g Hij Hi Hj; [destruct i; discriminate|]. cbn [sortedb] in H2. apply andb_prop in H2 as [A B]. destruct i as [|i]; cbn [nth_error] in Hi.
    + injection Hi as <-. destruct j as [|j]; cbn [nth_error] in Hj; [injection Hj as <-; lia|]. apply (sortedb_all _ _ B). eapply nth_error_In. exact Hj.
    + destruct j as [|j]; [lia|]. cbn [nth_error] in Hj. apply (IH _ B i j f g); [lia|assumption..].
Qed.
