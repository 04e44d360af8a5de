(* Moving the cues: the recursion ends, and every position grows by exactly the
   final size of the cues. *)
From Coq Require Import ZifyBool ZifyNat.
From Verif Require Import Base EbmlSpec MWriter WriterSpec PWriter MMuxUtil PMuxUtil Ids MMuxMeta MMuxSegment MParUtil MMuxMove.

Lemma coded_mono : forall a b, a <= b -> GetCodedUIntSize a <= GetCodedUIntSize b.
Proof. intros a b H. unfold GetCodedUIntSize. repeat (match goal with |- context [?x <? ?y] => destruct (Z.ltb_spec x y) end; try lia). Qed.
Lemma uint_mono : forall a b, a <= b -> GetUIntSize a <= GetUIntSize b.
Proof. intros a b H. unfold GetUIntSize. repeat (match goal with |- context [?x <? ?y] => destruct (Z.ltb_spec x y) end; try lia). Qed.

Lemma uint_elem : forall id v, EbmlElementSizeUInt id v = GetUIntSize id + GetUIntSize v + 1.
Proof.
  intros id v. unfold EbmlElementSizeUInt, EbmlElementSizeUIntFixed. change (0 >? 0) with false. cbv iota.
  pose proof (GetUIntSize_range id). pose proof (GetUIntSize_range v). rewrite (wrap64_small (GetUIntSize id + GetUIntSize v)) by lia. apply wrap64_small. lia.
Qed.

(* the part of a cue point's size that does not depend on the position *)
Definition cue_rest (q : cue_point) : Z :=
  GetUIntSize (cue_time q) + GetUIntSize (cue_track q) +
  (if cue_output_block_number q && (cue_block_number q >? 1) then GetUIntSize (cue_block_number q) + 3 else 0) + 10.
Lemma cue_rest_range : forall q, 12 <= cue_rest q <= 37.
Proof.
  intros q. unfold cue_rest. pose proof (GetUIntSize_range (cue_time q)). pose proof (GetUIntSize_range (cue_track q)). pose proof (GetUIntSize_range (cue_block_number q)).
  destruct (_ && _); lia.
Qed.
Ltac inner_wrap := repeat match goal with
  | |- context [wrap64 ?a] => lazymatch a with context [wrap64] => fail | context [GetCodedUIntSize] => fail | _ => rewrite (wrap64_small a) by lia end
  | |- context [GetCodedUIntSize ?a] => lazymatch a with context [wrap64] => fail | _ => rewrite (GetCodedUIntSize_small a) by lia end
  end.
Lemma cue_size_eq : forall q, CuePoint_Size q = cue_rest q + GetUIntSize (cue_cluster_pos q).
Proof.
  intros q. unfold CuePoint_Size, CuePoint_PayloadSize, cue_positions_size, cue_rest, size_sum. cbn [fold_left].
  pose proof (GetUIntSize_range (cue_time q)). pose proof (GetUIntSize_range (cue_track q)). pose proof (GetUIntSize_range (cue_block_number q)). pose proof (GetUIntSize_range (cue_cluster_pos q)).
  rewrite !uint_elem. unfold opt_sz, EbmlMasterElementSize.
  change (GetUIntSize kMkvCueTime) with 1. change (GetUIntSize kMkvCueTrack) with 1. change (GetUIntSize kMkvCueClusterPosition) with 1. change (GetUIntSize kMkvCueBlockNumber) with 2.
  change (GetUIntSize kMkvCueTrackPositions) with 1. change (GetUIntSize kMkvCuePoint) with 1.
  destruct (cue_output_block_number q && (cue_block_number q >? 1)).
  - inner_wrap. lia.
  - inner_wrap. lia.
Qed.

Definition zsum (l : list Z) : Z := fold_right Z.add 0 l.
Lemma zsum_cons : forall x l, zsum (x :: l) = x + zsum l. Proof. reflexivity. Qed.
Lemma fold_wrap_sum : forall l a, 0 <= a -> Forall (fun x => 0 <= x) l -> a + zsum l < 18446744073709551616 ->
  fold_left (fun acc x => wrap64 (acc + x)) l a = a + zsum l.
Proof.
  induction l as [|x l IH]; intros a Ha HF HL; cbn [fold_left]; [cbn; lia|]. inversion HF as [|? ? HX HY]; subst. rewrite zsum_cons in *.
  assert (0 <= zsum l). { clear - HY. induction HY as [|y l Hy HY IHY]; [cbn; lia|rewrite zsum_cons; lia]. }
  rewrite wrap64_small by lia. rewrite IH by (try assumption; lia). lia.
Qed.

(* size of the content of the cues, and of the whole element *)
Definition content (qs : list cue_point) : Z := zsum (map CuePoint_Size qs).
Definition whole (qs : list cue_point) : Z := content qs + GetCodedUIntSize (content qs).

Lemma cue_size_range : forall q, 13 <= CuePoint_Size q <= 45.
Proof. intros q. rewrite cue_size_eq. pose proof (cue_rest_range q). pose proof (GetUIntSize_range (cue_cluster_pos q)). lia. Qed.
Lemma content_range : forall qs, 13 * zlen qs <= content qs <= 45 * zlen qs.
Proof. unfold content. induction qs as [|q qs IH]; [cbn; lia|]. cbn [map]. rewrite zsum_cons, zlen_cons. pose proof (cue_size_range q). lia. Qed.
Lemma payload_content : forall qs, 45 * zlen qs < 2 ^ 55 -> cues_payload_size qs = content qs.
Proof.
  intros qs H. change (2 ^ 55) with 36028797018963968 in H. unfold cues_payload_size, size_sum. rewrite fold_wrap_sum; [unfold content; lia|lia| |pose proof (content_range qs); unfold content in *; lia].
  rewrite Forall_forall. intros x Hx. apply in_map_iff in Hx as (q & <- & _). pose proof (cue_size_range q). lia.
Qed.
Lemma Cues_Size_eq : forall qs, 45 * zlen qs < 2 ^ 55 -> Cues_Size qs = whole qs + 4.
Proof.
  intros qs H. unfold Cues_Size, whole. rewrite payload_content by exact H. change (2 ^ 55) with 36028797018963968 in H. unfold EbmlMasterElementSize. change (GetUIntSize kMkvCues) with 4.
  pose proof (content_range qs). pose proof (GetCodedUIntSize_range (content qs)). pose proof (zlen_nonneg _ qs). rewrite wrap64_small by lia. lia.
Qed.

(* how many bytes the cues can still grow by *)
Definition reserve (qs : list cue_point) : Z :=
  zsum (map (fun q => 8 - GetUIntSize (cue_cluster_pos q)) qs) + (8 - GetCodedUIntSize (content qs)).
Lemma reserve_range : forall qs, 0 <= reserve qs <= 7 * zlen qs + 7.
Proof.
  intros qs. unfold reserve. pose proof (GetCodedUIntSize_range (content qs)). assert (H0 : 0 <= zsum (map (fun q => 8 - GetUIntSize (cue_cluster_pos q)) qs) <= 7 * zlen qs); [|lia].
  clear. induction qs as [|q qs IH]; [cbn; lia|]. cbn [map]. rewrite zsum_cons, zlen_cons. pose proof (GetUIntSize_range (cue_cluster_pos q)). lia.
Qed.

(* q' is q with the position moved by n *)
Definition moved (n : Z) (q q' : cue_point) : Prop := q' = set_cluster_pos (cue_cluster_pos q + n) q.

Lemma moved_zero : forall q, moved (0 + 0) q q.
Proof. intros q. unfold moved. replace (cue_cluster_pos q + (0 + 0)) with (cue_cluster_pos q) by lia. destruct q; reflexivity. Qed.

(* the indices in js were moved by d + t, the others by t *)
Fixpoint moved_all (d t : Z) (js : nat -> bool) (i : nat) (qs qs' : list cue_point) : Prop :=
  match qs, qs' with
  | [], [] => True
  | q :: r, q' :: r' => moved ((if js i then d else 0) + t) q q' /\ moved_all d t js (S i) r r'
  | _, _ => False
  end.
Lemma moved_len : forall d t js qs i qs', moved_all d t js i qs qs' -> length qs' = length qs.
Proof. intros d t js. induction qs as [|q qs IH]; intros i [|q' qs'] H; try destruct H; [reflexivity|]. cbn [length]. f_equal. eapply IH. eassumption. Qed.
Lemma moved_ext : forall d t js js' qs i qs', (forall k, (i <= k < i + length qs)%nat -> js k = js' k) -> moved_all d t js i qs qs' -> moved_all d t js' i qs qs'.
Proof.
  intros d t js js'. induction qs as [|q qs IH]; intros i [|q' qs'] HE H; try destruct H; cbn [moved_all]; [exact I|]. split; [rewrite <- HE by (cbn [length]; lia); exact H|].
  apply IH; [|assumption]. intros k Hk. apply HE. cbn [length]. lia.
Qed.
Lemma set_set : forall a b q, set_cluster_pos a (set_cluster_pos b q) = set_cluster_pos a q. Proof. reflexivity. Qed.
Lemma moved_trans : forall d t js t' js' (both : nat -> bool) qs i q1 q2, (forall k, js k = true -> js' k = true -> False) -> (forall k, both k = js k || js' k) ->
  moved_all d t js i qs q1 -> moved_all d t' js' i q1 q2 -> moved_all d (t + t') both i qs q2.
Proof.
  intros d t js t' js' both. induction qs as [|q qs IH]; intros i [|x q1] [|y q2] HD HB H1 H2; try destruct H1; try destruct H2; cbn [moved_all]; [exact I|]. split; [|eapply IH; eassumption].
  unfold moved in *. subst. rewrite set_set. cbn [cue_cluster_pos set_cluster_pos]. f_equal. rewrite HB. specialize (HD i). destruct (js i), (js' i); cbn [orb]; try lia.
Qed.

Lemma moved_shift : forall g t d js qs i qs', (forall k, (i <= k < i + length qs)%nat -> js k = true) -> moved_all g t js i qs qs' -> moved_all d (g + t) (fun _ => false) i qs qs'.
Proof.
  intros g t d js. induction qs as [|q qs IH]; intros i [|q' qs'] HE H; try destruct H; cbn [moved_all]; [exact I|]. split.
  - rewrite HE in H by (cbn [length]; lia). unfold moved in *. rewrite H. reflexivity.
  - apply IH; [|assumption]. intros k Hk. apply HE. cbn [length]. lia.
Qed.

Lemma whole_mono_part : forall qs qs', content qs <= content qs' -> whole qs <= whole qs'.
Proof. intros qs qs' H. unfold whole. pose proof (coded_mono _ _ H). lia. Qed.

(* replacing one cue point *)
Lemma replace_len : forall i q qs, length (replace_cue i q qs) = length qs.
Proof. induction i as [|i IH]; intros q [|x qs]; cbn [replace_cue length]; [reflexivity..|]. rewrite IH. reflexivity. Qed.
Lemma replace_sum : forall f i q qs x, nth_error qs i = Some x -> zsum (map f (replace_cue i q qs)) = zsum (map f qs) + f q - f x.
Proof.
  intros f. induction i as [|i IH]; intros q [|y qs] x H; cbn [nth_error] in H; try discriminate.
  - injection H as ->. cbn [replace_cue map]. rewrite !zsum_cons. lia.
  - cbn [replace_cue map]. rewrite !zsum_cons, (IH _ _ _ H). lia.
Qed.
Lemma moved_replace : forall d qs i j x, nth_error qs i = Some x ->
  moved_all d 0 (fun k => (k =? j + i)%nat) j qs (replace_cue i (set_cluster_pos (cue_cluster_pos x + d) x) qs).
Proof.
  intros d. assert (HN : forall qs j (js : nat -> bool), (forall k, (j <= k)%nat -> js k = false) -> moved_all d 0 js j qs qs).
  { induction qs as [|q qs IH]; intros j js HJ; cbn [moved_all]; [exact I|]. split; [|apply IH; intros; apply HJ; lia]. rewrite HJ by lia. unfold moved. replace (cue_cluster_pos q + (0 + 0)) with (cue_cluster_pos q) by lia. destruct q; reflexivity. }
  induction qs as [|q qs IH]; intros i j x H; [destruct i; discriminate|]. destruct i as [|i]; cbn [nth_error] in H.
  - injection H as ->. cbn [replace_cue moved_all]. split.
    + replace (j =? j + 0)%nat with true by lia. unfold moved. f_equal. lia.
    + apply HN. intros k Hk. lia.
  - cbn [replace_cue moved_all]. split.
    + replace (j =? j + S i)%nat with false by lia. unfold moved. replace (cue_cluster_pos q + (0 + 0)) with (cue_cluster_pos q) by lia. destruct q; reflexivity.
    + replace (j + S i)%nat with (S j + i)%nat by lia. apply IH. exact H.
Qed.

(* every position, moved by d if js, can grow to the end without overflow *)
Fixpoint room_for (B d : Z) (js : nat -> bool) (i : nat) (qs : list cue_point) : Prop :=
  match qs with
  | [] => True
  | q :: r => 0 <= cue_cluster_pos q /\ cue_cluster_pos q + (if js i then d else 0) <= B /\ room_for B d js (S i) r
  end.
Lemma room_nth : forall B d js qs i j x, room_for B d js j qs -> nth_error qs i = Some x -> 0 <= cue_cluster_pos x /\ cue_cluster_pos x + (if js (j + i)%nat then d else 0) <= B.
Proof.
  intros B d js. induction qs as [|q qs IH]; intros i j x HR H; [destruct i; discriminate|]. destruct HR as (H1 & H2 & H3). destruct i as [|i]; cbn [nth_error] in H.
  - injection H as ->. rewrite Nat.add_0_r. auto.
  - replace (j + S i)%nat with (S j + i)%nat by lia. apply IH; assumption.
Qed.
Lemma room_moved : forall B d t js js' (rest : nat -> bool) qs i qs', 0 <= t -> 0 <= d -> (forall k, js k = true -> rest k = true -> False) -> (forall k, js' k = js k || rest k) ->
  room_for B d js' i qs -> moved_all d t js i qs qs' -> room_for (B + t) d rest i qs'.
Proof.
  intros B d t js js' rest. induction qs as [|q qs IH]; intros i [|q' qs'] Ht Hd HD HE HR H; try destruct H; cbn [room_for]; [exact I|]. destruct HR as (H1 & H2 & H3).
  unfold moved in H. subst q'. cbn [cue_cluster_pos set_cluster_pos]. rewrite HE in H2. specialize (HD i) as HDi.
  split; [destruct (js i); lia|]. split; [|eapply IH; eassumption].
  destruct (js i), (rest i); cbn [orb] in H2; try lia.
Qed.
Lemma room_weaken : forall B d (js : nat -> bool) B' d' (js' : nat -> bool) qs i, (forall k, B + (if js' k then d' else 0) <= B' + (if js k then d else 0)) -> room_for B d js i qs -> room_for B' d' js' i qs.
Proof. intros B d js B' d' js'. induction qs as [|q qs IH]; intros i HE H; cbn [room_for] in *; [exact I|]. destruct H as (H1 & H2 & H3). specialize (HE i) as HEi. split; [exact H1|]. split; [lia|apply IH; assumption]. Qed.

Definition mem (is : list nat) (k : nat) : bool := existsb (Nat.eqb k) is.
Lemma mem_In : forall is k, mem is k = true <-> In k is.
Proof. intros is k. unfold mem. rewrite existsb_exists. split; [intros (x & H1 & H2); apply Nat.eqb_eq in H2; subst; exact H1|intros H; exists k; split; [exact H|apply Nat.eqb_refl]]. Qed.

(* what one call, or a loop over is, leads to *)
Definition done_by (d : Z) (js : nat -> bool) (qs : list cue_point) (r : outcome (list cue_point * Z)) : Prop :=
  exists qs', r = Val (qs', content qs') /\ moved_all d (whole qs' - whole qs) js 0 qs qs' /\ whole qs <= whole qs' /\ content qs <= content qs' /\
    reserve qs' = reserve qs - (whole qs' - whole qs).

Lemma each_done : forall B R d helper, 0 <= d ->
  (forall i qs, reserve qs <= R -> 45 * zlen qs < 2 ^ 55 -> room_for (B - reserve qs) d (fun k => (k =? i)%nat) 0 qs -> done_by d (fun k => (k =? i)%nat && (i <? length qs)%nat) qs (helper i qs (content qs))) ->
  forall is qs, reserve qs <= R -> 45 * zlen qs < 2 ^ 55 -> NoDup is -> Forall (fun i => (i < length qs)%nat) is -> room_for (B - reserve qs) d (mem is) 0 qs ->
  done_by d (mem is) qs (move_each helper is qs (content qs)).
Proof.
  intros B R d helper Hd HH. induction is as [|i is IH]; intros qs HRS HL HN HF HR; cbn [move_each].
  - exists qs. split; [reflexivity|]. split; [|split; [lia|split; [lia|lia]]]. rewrite Z.sub_diag. clear. generalize 0%nat.
    induction qs as [|q qs IH]; intros n; cbn [moved_all]; [exact I|]. split; [|apply IH]. exact (moved_zero q).
  - inversion HN as [|? ? HN1 HN2]; subst. inversion HF as [|? ? HF1 HF2]; subst.
    destruct (HH i qs HRS HL) as (q1 & E1 & M1 & W1 & C1 & R1).
    { eapply room_weaken; [|exact HR]. intros k. unfold mem. cbn [existsb]. destruct (k =? i)%nat; cbn [orb]; [lia|]. destruct (existsb _ _); lia. }
    rewrite E1. cbn [obind fst snd].
    assert (L1 : length q1 = length qs) by (eapply moved_len; exact M1).
    assert (L1' : zlen q1 = zlen qs) by (unfold zlen; lia).
    assert (HD : forall k, (k =? i)%nat && (i <? length qs)%nat = true -> mem is k = true -> False).
    { intros k Hk Hm. apply mem_In in Hm. apply andb_true_iff in Hk as [Hk _]. apply Nat.eqb_eq in Hk. subst k. auto. }
    assert (HB : forall k, mem (i :: is) k = ((k =? i)%nat && (i <? length qs)%nat) || mem is k).
    { intros k. unfold mem. cbn [existsb]. replace (i <? length qs)%nat with true by lia. rewrite andb_true_r. reflexivity. }
    destruct (IH q1) as (q2 & E2 & M2 & W2 & C2 & R2); [lia|lia|exact HN2|eapply Forall_impl; [|exact HF2]; cbn; lia| |].
    { replace (B - reserve q1) with (B - reserve qs + (whole q1 - whole qs)) by lia. eapply room_moved; [lia|exact Hd|exact HD|exact HB|exact HR|exact M1]. }
    exists q2. split; [exact E2|]. split; [|split; [lia|split; [lia|lia]]].
    replace (whole q2 - whole qs) with ((whole q1 - whole qs) + (whole q2 - whole q1)) by lia. eapply moved_trans; [exact HD|exact HB|exact M1|exact M2].
Qed.

Lemma all_mem : forall n k, mem (seq 0 n) k = (k <? n)%nat.
Proof. intros n k. destruct (k <? n)%nat eqn:E; [apply mem_In, in_seq; lia|]. destruct (mem (seq 0 n) k) eqn:E2; [|reflexivity]. apply mem_In, in_seq in E2. lia. Qed.

Lemma helper_done : forall B, B < 2 ^ 63 -> forall fuel d i qs, 0 <= d -> reserve qs < Z.of_nat fuel -> 45 * zlen qs < 2 ^ 55 ->
  room_for (B - reserve qs) d (fun k => (k =? i)%nat) 0 qs -> done_by d (fun k => (k =? i)%nat && (i <? length qs)%nat) qs (move_helper fuel d i qs (content qs)).
Proof.
  intros B HB. change (2 ^ 63) with 9223372036854775808 in HB. induction fuel as [|fuel IH]; intros d i qs Hd HF HL HR; [pose proof (reserve_range qs); lia|].
  cbn [move_helper]. unfold GetCueByIndex. destruct (nth_error qs i) as [q|] eqn:Eq.
  2:{ exists qs. split; [reflexivity|]. split; [|split; [lia|split; [lia|lia]]]. apply nth_error_None in Eq. rewrite Z.sub_diag. replace (i <? length qs)%nat with false by lia. clear. generalize 0%nat.
    induction qs as [|x qs IH]; intros n; cbn [moved_all]; [exact I|]. split; [|apply IH]. rewrite andb_false_r. exact (moved_zero x). }
  assert (Hi : (i < length qs)%nat) by (apply nth_error_Some; congruence).
  destruct (room_nth _ _ _ _ _ _ _ HR Eq) as [HP1 HP2]. rewrite Nat.add_0_l, Nat.eqb_refl in HP2. pose proof (reserve_range qs) as RR. pose proof (content_range qs) as CR. pose proof (zlen_nonneg _ qs) as ZR.
  rewrite (wrap64_small (cue_cluster_pos q + d)) by lia. cbv zeta. set (q' := set_cluster_pos (cue_cluster_pos q + d) q). set (q1 := replace_cue i q' qs).
  assert (ES : CuePoint_Size q' - CuePoint_Size q = GetUIntSize (cue_cluster_pos q + d) - GetUIntSize (cue_cluster_pos q)).
  { rewrite !cue_size_eq. unfold q', cue_rest. cbn [cue_time cue_track cue_block_number cue_output_block_number cue_cluster_pos set_cluster_pos]. lia. }
  assert (HM : GetUIntSize (cue_cluster_pos q) <= GetUIntSize (cue_cluster_pos q + d)) by (apply uint_mono; lia).
  pose proof (GetUIntSize_range (cue_cluster_pos q)) as G1. pose proof (GetUIntSize_range (cue_cluster_pos q + d)) as G2.
  change (2 ^ 55) with 36028797018963968 in HL.
  assert (EC : content q1 = content qs + (CuePoint_Size q' - CuePoint_Size q)). { unfold content, q1. rewrite (replace_sum _ _ _ _ _ Eq). lia. }
  rewrite (wrap64_small (CuePoint_Size q' - CuePoint_Size q)) by lia. rewrite (wrap64_small (content qs + _)) by lia. rewrite <- EC.
  assert (HMC : GetCodedUIntSize (content qs) <= GetCodedUIntSize (content q1)) by (apply coded_mono; lia).
  pose proof (GetCodedUIntSize_range (content qs)) as K1. pose proof (GetCodedUIntSize_range (content q1)) as K2.
  rewrite (wrap64_small (_ - GetCodedUIntSize (content qs))) by lia.
  assert (EW : GetCodedUIntSize (content q1) - GetCodedUIntSize (content qs) + (CuePoint_Size q' - CuePoint_Size q) = whole q1 - whole qs) by (unfold whole; lia).
  rewrite EW. rewrite (wrap64_small (whole q1 - whole qs)) by lia.
  assert (ER : reserve q1 = reserve qs - (whole q1 - whole qs)).
  { unfold reserve, whole, q1. rewrite (replace_sum _ _ _ _ _ Eq). fold q1. cbv beta. replace (cue_cluster_pos q') with (cue_cluster_pos q + d) by reflexivity. lia. }
  assert (M1 : moved_all d 0 (fun k => (k =? i)%nat && (i <? length qs)%nat) 0 qs q1).
  { eapply moved_ext; [|exact (moved_replace d qs i 0 q Eq)]. intros k _. cbv beta. replace (i <? length qs)%nat with true by lia. rewrite andb_true_r. reflexivity. }
  assert (L1 : length q1 = length qs) by apply replace_len. assert (L1' : zlen q1 = zlen qs) by (unfold zlen; lia).
  destruct (whole q1 - whole qs >? 0) eqn:EG.
  2:{ exists q1. split; [reflexivity|]. assert (E0 : whole q1 - whole qs = 0) by lia. rewrite E0. split; [exact M1|]. lia. }
  assert (RM : room_for (B - reserve qs + 0) d (fun _ => false) 0 q1).
  { eapply room_moved with (js' := fun k => (k =? i)%nat); [lia|exact Hd| | |exact HR|exact M1]; [discriminate|]. intros k. replace (i <? length qs)%nat with true by lia. rewrite andb_true_r, orb_false_r. reflexivity. }
  destruct (each_done B (reserve q1) (whole q1 - whole qs) (move_helper fuel (whole q1 - whole qs)) ltac:(lia)) with (is := seq 0 (length q1)) (qs := q1) as (q2 & E2 & M2 & W2 & C2 & R2).
  - intros j x Hx HLx HRx. apply IH; try assumption; lia.
  - lia.
  - rewrite L1'. change (2 ^ 55) with 36028797018963968. exact HL.
  - apply seq_NoDup.
  - rewrite Forall_forall. intros j Hj. apply in_seq in Hj. lia.
  - eapply room_weaken; [|exact RM]. intros k. cbv beta. destruct (mem _ _); lia.
  - exists q2. split; [exact E2|]. split; [|lia].
    replace (whole q2 - whole qs) with (0 + ((whole q1 - whole qs) + (whole q2 - whole q1))) by lia.
    refine (moved_trans d 0 _ _ (fun _ => false) _ qs 0 q1 q2 _ _ M1 _); [intros k _ Hk; discriminate Hk|intros k; rewrite orb_false_r; reflexivity|].
    eapply moved_shift; [|exact M2]. intros k Hk. rewrite all_mem. lia.
Qed.

(* moving all of them *)
Lemma move_all : forall fuel qs, 7 * zlen qs + 7 < Z.of_nat fuel -> 45 * zlen qs < 2 ^ 55 ->
  Forall (fun q => 0 <= cue_cluster_pos q < 2 ^ 60) qs ->
  exists qs', move_each (move_helper fuel (Cues_Size qs)) (seq 0 (length qs)) qs (cues_payload_size qs) = Val (qs', content qs') /\
    Forall2 (fun q q' => q' = set_cluster_pos (cue_cluster_pos q + Cues_Size qs') q) qs qs'.
Proof.
  intros fuel qs HF HL HP. rewrite payload_content, Cues_Size_eq by exact HL. pose proof (reserve_range qs) as RR. pose proof (content_range qs) as CR. pose proof (GetCodedUIntSize_range (content qs)) as KR.
  assert (HW : 0 <= whole qs + 4 <= 2 ^ 60). { unfold whole. change (2 ^ 60) with 1152921504606846976. change (2 ^ 55) with 36028797018963968 in HL. pose proof (zlen_nonneg _ qs). lia. }
  destruct (each_done (2 ^ 61 + reserve qs) (reserve qs) (whole qs + 4) (move_helper fuel (whole qs + 4)) ltac:(lia)) with (is := seq 0 (length qs)) (qs := qs) as (q2 & E2 & M2 & W2 & C2 & R2).
  - intros j x Hx HLx HRx. apply (helper_done (2 ^ 61 + reserve qs)); try assumption; [|lia|lia].
    change (2 ^ 61) with 2305843009213693952. change (2 ^ 63) with 9223372036854775808. change (2 ^ 55) with 36028797018963968 in HL. lia.
  - lia.
  - exact HL.
  - apply seq_NoDup.
  - rewrite Forall_forall. intros j Hj. apply in_seq in Hj. lia.
  - replace (2 ^ 61 + reserve qs - reserve qs) with (2 ^ 60 + 2 ^ 60) by (change (2 ^ 61) with (2 ^ 60 + 2 ^ 60); lia). assert (HI : Forall (fun q => 0 <= cue_cluster_pos q < 2 ^ 60) qs) by exact HP.
    generalize (mem (seq 0 (length qs))). clear - HI HW. generalize 0%nat. revert HW. generalize (whole qs + 4). intros w HW. induction HI as [|q qs Hq HI IH]; intros n js; cbn [room_for]; [exact I|].
    split; [lia|]. split; [destruct (js n); lia|apply IH].
  - exists q2. split; [exact E2|]. assert (EL : zlen q2 = zlen qs) by (unfold zlen; rewrite (moved_len _ _ _ _ _ _ M2); reflexivity).
    rewrite Cues_Size_eq by (rewrite EL; exact HL). replace (whole q2 + 4) with ((whole qs + 4) + (whole q2 - whole qs)) by lia.
    clear R2. generalize dependent (whole q2 - whole qs). generalize (whole qs + 4). intros d t M2.
    assert (HM : forall k, (0 <= k < 0 + length qs)%nat -> mem (seq 0 (length qs)) k = true) by (intros k Hk; rewrite all_mem; lia).
    clear - M2 HM. pose proof (moved_shift _ _ 0 _ _ _ _ HM M2) as H. clear - H. revert H. generalize 0%nat. revert q2.
    induction qs as [|q qs IH]; intros [|q' q2] n H; cbn [moved_all] in H; try destruct H; [constructor|]. constructor; [|eapply IH; eassumption]. unfold moved in H. rewrite H. reflexivity.
Qed.
