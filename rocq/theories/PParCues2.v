(* Cues: search by time, and reading back what the muxer wrote. *)
From Coq Require Import ZifyBool ZifyNat.
From Verif Require Import Base EbmlSpec Ids MMuxMeta MParUtil MParCues MetaSpec ReaderSpec ReadBackSpec CueReadSpec TableSpec PParUtil PParMeta PParMeta2 PParTable PParCues.

(* ---------- search ---------- *)

Lemma cues_search_ok : forall scale ts fuel points n i j x,
  (forall k c, nth_error points k = Some c -> Z.of_nat k < n -> exists t, CuePoint_GetTime scale c = Val t /\ nth_error ts k = Some t) ->
  n <= Z.of_nat (length points) -> 0 <= i <= j -> j <= n -> j - i < Z.of_nat fuel ->
  (0 < i -> exists t, nth_error ts (Z.to_nat (i - 1)) = Some t /\ t <= x) ->
  (j < n -> exists t, nth_error ts (Z.to_nat j) = Some t /\ x < t) ->
  exists k, cues_search fuel points scale n i j x = Val (Some (k, k)) /\ i <= k <= j /\
    (0 < k -> exists t, nth_error ts (Z.to_nat (k - 1)) = Some t /\ t <= x) /\
    (k < n -> exists t, nth_error ts (Z.to_nat k) = Some t /\ x < t).
Proof.
  intros scale ts. induction fuel as [|fuel IH]; intros l n i j x Ht Hn Hij Hj Hf Lo Hi; [lia|]. cbn [cues_search].
  destruct (Z.ltb_spec i j) as [G|G].
  - set (k := i + (j - i) / 2). assert (Hk : i <= k < j) by (unfold k; Z.to_euclidean_division_equations; lia).
    destruct (Z.geb_spec k n); [lia|].
    destruct (nth_error l (Z.to_nat k)) as [c|] eqn:En; [|apply nth_error_None in En; lia].
    destruct (Ht _ _ En ltac:(lia)) as (t & -> & Et). destruct (Z.leb_spec t x); cbn iota.
    + destruct (Z.gtb_spec (k + 1) j); [lia|]. destruct (IH l n (k + 1) j x Ht Hn) as (k' & E1 & E2 & E3); try lia; auto.
      { intros _. replace (k + 1 - 1) with k by lia. eauto. }
      exists k'. split; [exact E1|]. split; [lia|]. exact E3.
    + destruct (Z.gtb_spec i k); [lia|]. destruct (IH l n i k x Ht Hn) as (k' & E1 & E2 & E3); try lia; auto.
      { intros _. eauto. }
      exists k'. split; [exact E1|]. split; [lia|]. exact E3.
  - assert (i = j) by lia. subst j. exists i. split; [reflexivity|]. split; [lia|]. split; assumption.
Qed.
Lemma cues_find_ok : forall c scale ts x track, 0 <= x -> 0 < cu_count c <= zlen (cu_points c) ->
  map (CuePoint_GetTime scale) (firstn (Z.to_nat (cu_count c)) (cu_points c)) = map Val ts ->
  exists k p, Cues_Find c scale x track = Val (Some (k, CuePoint_Find p track)) /\ 0 <= k < cu_count c /\ nth_error (cu_points c) (Z.to_nat k) = Some p /\
    (k = 0 \/ exists t, nth_error ts (Z.to_nat k) = Some t /\ t <= x) /\ (sorted ts -> found_by_time ts x k).
Proof.
  intros c scale ts x track Hx [Hc0 Hc1] Ht. unfold zlen in Hc1.
  assert (Hl : length ts = Z.to_nat (cu_count c)).
  { apply (f_equal (@length _)) in Ht. rewrite !map_length, firstn_length in Ht. lia. }
  assert (Htime : forall k p, nth_error (cu_points c) k = Some p -> Z.of_nat k < cu_count c -> exists t, CuePoint_GetTime scale p = Val t /\ nth_error ts k = Some t).
  { intros k p Hp Hk. assert (Hf : nth_error (firstn (Z.to_nat (cu_count c)) (cu_points c)) k = Some p).
    { rewrite <- (firstn_skipn (Z.to_nat (cu_count c)) (cu_points c)) in Hp. rewrite nth_error_app1 in Hp; [exact Hp|]. rewrite firstn_length. lia. }
    apply (map_nth_error (CuePoint_GetTime scale)) in Hf. rewrite Ht, nth_error_map in Hf. destruct (nth_error ts k) as [v|]; [|discriminate]. cbn [option_map] in Hf. exists v. split; [congruence|reflexivity]. }
  unfold Cues_Find. destruct (Z.ltb_spec x 0); [lia|]. destruct (Z.eqb_spec (zlen (cu_points c)) 0); [unfold zlen in *; lia|]. destruct (Z.eqb_spec (cu_count c) 0); [lia|]. cbn [orb].
  destruct (nth_error (cu_points c) 0) as [p0|] eqn:E0; [|apply nth_error_None in E0; lia].
  destruct (Htime 0%nat p0 E0 ltac:(lia)) as (t0 & -> & En0). destruct (Z.leb_spec x t0) as [G|G].
  { exists 0, p0. split; [reflexivity|]. split; [lia|]. split; [exact E0|]. split; [left; reflexivity|]. intros _. exists t0, t0. split; [exact En0|]. split; [lia|]. split; [exact En0|].
    destruct (Z.leb_spec x t0); [reflexivity|lia]. }
  destruct (cues_search_ok scale ts (S (Z.to_nat (cu_count c))) (cu_points c) (cu_count c) 0 (cu_count c) x Htime) as (k & Ek & Hk & Lo & Hi); try lia.
  rewrite Ek. assert (Hk0 : 0 < k).
  { destruct (Z.eq_dec k 0) as [->|]; [|lia]. destruct (Hi ltac:(lia)) as (v & Ev & Hv). change (Z.to_nat 0) with 0%nat in Ev. rewrite En0 in Ev. injection Ev as <-. lia. }
  rewrite Z.eqb_refl. destruct (Z.gtb_spec k (cu_count c)); [lia|]. destruct (Z.leb_spec k 0); [lia|]. cbn [negb orb].
  destruct (Lo Hk0) as (v & Ev & Hv). destruct (nth_error (cu_points c) (Z.to_nat (k - 1))) as [p|] eqn:En; [|apply nth_error_None in En; lia].
  destruct (Htime _ p En ltac:(lia)) as (v' & -> & Ev'). assert (v' = v) by congruence. subst v'. destruct (Z.gtb_spec v x); [lia|].
  exists (k - 1), p. split; [reflexivity|]. split; [lia|]. split; [exact En|]. split; [right; eauto|]. intros Hs. exists t0, v.
  split; [exact En0|]. split; [lia|]. split; [exact Ev|]. destruct (Z.leb_spec x t0); [lia|]. split; [exact Hv|].
  intros i u Hi' Hu. assert (Hin : i < cu_count c) by (assert (Z.to_nat i < length ts)%nat by (apply nth_error_Some; congruence); lia).
  destruct (Hi ltac:(lia)) as (w & Ew & Hw). pose proof (sorted_nth ts Hs (Z.to_nat k) (Z.to_nat i) w u ltac:(lia) Ew Hu). lia.
Qed.

(* ---------- reading back ---------- *)

Lemma uint_read : forall r v p q, 0 <= v < 2 ^ 63 -> content (uint 0 v) p -> serves r q p -> UnserializeUInt r q (zlen p) = Val v.
Proof.
  intros r v p q Hv [Hc _] Hs. rewrite (UnserializeUInt_payload _ _ _ _ Hc Hs). f_equal. unfold sint64, wraps. rewrite Z.mod_small by lia. destruct (Z.ltb_spec v (2 ^ (64 - 1))); lia.
Qed.
Definition cue_block (c : cue_point) : Z := if cue_output_block_number c && (1 <? cue_block_number c) then cue_block_number c else 1.
Lemma read_positions : forall r c p q, cue_valid c = true -> readable_cue c -> values_ok (cue_tree c) ->
  content (Master kMkvCueTrackPositions (uint kMkvCueTrack (cue_track c) :: uint kMkvCueClusterPosition (cue_cluster_pos c) ::
        opt (cue_output_block_number c && (1 <? cue_block_number c)) (uint kMkvCueBlockNumber (cue_block_number c)))) p ->
  serves r q p -> q + zlen p <= LLONG_MAX ->
  TrackPosition_Parse r q (zlen p) = Val (Some (mkTP (cue_track c) (cue_cluster_pos c) (cue_block c))).
Proof.
  intros r c p q Hv (R1 & R2 & R3 & R4) Hok Hc Hs HL. unfold cue_valid in Hv. cbn [content] in Hc.
  assert (U : 0 <= cue_track c /\ 0 <= cue_cluster_pos c) by lia.
  unfold TrackPosition_Parse. destruct (Z.gtb_spec (q + zlen p) LLONG_MAX); [lia|]. pose proof (zlen_nonneg _ p).
  assert (F : Forall2 (takes r (tp_element r)) (uint kMkvCueTrack (cue_track c) :: uint kMkvCueClusterPosition (cue_cluster_pos c) ::
        opt (cue_output_block_number c && (1 <? cue_block_number c)) (uint kMkvCueBlockNumber (cue_block_number c)))
        ((fun t => mkTP (cue_track c) (tp_pos t) (tp_block t)) :: (fun t => mkTP (tp_track t) (cue_cluster_pos c) (tp_block t)) ::
         (if cue_output_block_number c && (1 <? cue_block_number c) then [fun t => mkTP (tp_track t) (tp_pos t) (cue_block_number c)] else []))).
  { constructor; [|constructor].
    - intros i p' q' [a b d] Hc' Hs' _. cbn [tp_element tid uint Z.eqb tp_pos tp_block]. change (kMkvCueTrack =? kMkvCueTrack) with true. cbn iota. rewrite (uint_read r (cue_track c)) by (auto; lia). reflexivity.
    - intros i p' q' [a b d] Hc' Hs' _. cbn [tp_element tid uint tp_track tp_block]. change (kMkvCueClusterPosition =? kMkvCueTrack) with false. change (kMkvCueClusterPosition =? kMkvCueClusterPosition) with true. cbn iota. rewrite (uint_read r (cue_cluster_pos c)) by (auto; lia). reflexivity.
    - destruct (cue_output_block_number c && (1 <? cue_block_number c)) eqn:B; cbn [opt]; constructor; [|constructor].
      intros i p' q' [a b d] Hc' Hs' _. cbn [tp_element tid uint tp_track tp_pos]. change (kMkvCueBlockNumber =? kMkvCueTrack) with false. change (kMkvCueBlockNumber =? kMkvCueClusterPosition) with false. change (kMkvCueBlockNumber =? kMkvCueBlockNumber) with true. cbn iota. rewrite (uint_read r (cue_block_number c)) by (auto; lia). reflexivity. }
  rewrite (scan_trees r (tp_element r) _ p Hc _ F (Z.to_nat (zlen p)) q (mkTP (-1) (-1) 1) Hs HL ltac:(lia)).
  unfold cue_block. destruct (cue_output_block_number c && (1 <? cue_block_number c)) eqn:B; cbn [fold_left tp_track tp_pos tp_block negb orb];
    repeat match goal with |- context [if ?b then Val None else _] => destruct b eqn:?; [lia|] end; reflexivity.
Qed.
Lemma cue_load : forall r c idx pos a, cue_valid c = true -> readable_cue c -> values_ok (cue_tree c) -> encodes (cue_tree c) a -> serves r pos a -> 0 < pos -> pos + zlen a <= LLONG_MAX ->
  CuePoint_Load r (cue_new idx pos) = Val (true, mkPC pos (zlen a) idx (cue_time c) [mkTP (cue_track c) (cue_cluster_pos c) (cue_block c)]).
Proof.
  intros r c idx pos a Hv HR Hok He Hs Hp HL. destruct (element_header r pos (cue_tree c) a He Hs) as (p & il & w & E1 & E2 & H1 & H2 & La & Hc & Hsp & Ht).
  unfold CuePoint_Load, cue_new. cbn [cp_timecode cp_index cp_start cp_size cp_tps]. destruct (Z.geb_spec (- pos) 0); [lia|]. rewrite Z.opp_involutive, E1.
  change (tid (cue_tree c)) with kMkvCuePoint. rewrite Z.eqb_refl. cbn [negb]. rewrite E2. pose proof (zlen_nonneg _ p).
  destruct (Z.gtb_spec (pos + il + w + zlen p) LLONG_MAX); [lia|]. pose proof Hok as Hok'. cbn [cue_tree values_ok fold_right] in Hok'. destruct Hok' as (_ & (_ & HtU) & _). cbn [leaf_ok] in HtU. unfold is_u64 in HtU.
  pose proof HR as (R1 & R2 & R3 & R4). unfold cue_tree in Hc. cbn [content] in Hc.
  inversion Hc as [|? ? a1 b1 He1 Hc1 Et Eb]; subst. inversion Hc1 as [|? ? a2 b2 He2 Hc2 Et Eb2]; subst. inversion Hc2; subst. rewrite app_nil_r in *. clear Hc2. rewrite zlen_app in *.
  set (q := pos + il + w) in *. pose proof (serves_app_l _ _ _ _ Hsp) as Hs1. pose proof (serves_app_r _ _ _ _ Hsp) as Hs2.
  destruct (element_header r q _ a1 He1 Hs1) as (p1 & il1 & w1 & A1 & A2 & A3 & A4 & A5 & A6 & A7 & A8).
  destruct (element_header r (q + zlen a1) _ a2 He2 Hs2) as (p2 & il2 & w2 & B1 & B2 & B3 & B4 & B5 & B6 & B7 & B8).
  pose proof (zlen_nonneg _ p1). pose proof (zlen_nonneg _ p2).
  assert (Es : scan (Z.to_nat (zlen a1 + zlen a2)) r (count_element r) q (q + (zlen a1 + zlen a2)) (- pos, 0) = Val (inr (true, (cue_time c, 1)))).
  { replace (Z.to_nat (zlen a1 + zlen a2)) with (S (S (Z.to_nat (zlen a1 + zlen a2 - 2)))) by lia. cbn [scan].
    destruct (Z.leb_spec (q + (zlen a1 + zlen a2)) q); [lia|].
    destruct (header_element r q _ a1 (q + (zlen a1 + zlen a2)) He1 Hs1 ltac:(lia) ltac:(lia)) as (p1' & q1 & C1 & C2 & C3 & C4 & C5). rewrite C1.
    unfold count_element at 1. change (tid (uint kMkvCueTime (cue_time c)) =? kMkvCueTime) with true. cbn iota. rewrite (uint_read r (cue_time c)) by (auto; lia). rewrite C3.
    destruct (Z.leb_spec (q + (zlen a1 + zlen a2)) (q + zlen a1)); [lia|].
    destruct (header_element r (q + zlen a1) _ a2 (q + (zlen a1 + zlen a2)) He2 Hs2 ltac:(lia) ltac:(lia)) as (p2' & q2 & D1 & D2 & D3 & D4 & D5). rewrite D1.
    unfold count_element at 1. cbn [tid]. change (kMkvCueTrackPositions =? kMkvCueTime) with false. change (kMkvCueTrackPositions =? kMkvCueTrackPositions) with true. change (0 + 1 >? 4294967295) with false. cbn iota.
    rewrite D3. replace (q + zlen a1 + zlen a2) with (q + (zlen a1 + zlen a2)) by lia. apply scan_end. }
  rewrite Es. destruct (Z.ltb_spec (cue_time c) 0); [lia|]. change (1 <=? 0) with false. cbn [orb]. cbn iota.
  assert (El : load_positions (Z.to_nat (zlen a1 + zlen a2)) r 1 q (q + (zlen a1 + zlen a2)) [] = Val (Some [mkTP (cue_track c) (cue_cluster_pos c) (cue_block c)])).
  { replace (Z.to_nat (zlen a1 + zlen a2)) with (S (S (Z.to_nat (zlen a1 + zlen a2 - 2)))) by lia. cbn [load_positions].
    destruct (Z.leb_spec (q + (zlen a1 + zlen a2)) q); [lia|]. rewrite A1. destruct (Z.ltb_spec (tid (uint kMkvCueTime (cue_time c))) 0); [lia|]. destruct (Z.gtb_spec (q + il1) (q + (zlen a1 + zlen a2))); [lia|]. cbn [orb].
    rewrite A2. destruct (Z.gtb_spec (q + il1 + w1 + zlen p1) LLONG_MAX); [lia|]. change (tid (uint kMkvCueTime (cue_time c)) =? kMkvCueTrackPositions) with false. cbn iota.
    destruct (Z.gtb_spec (q + il1 + w1 + zlen p1) (q + (zlen a1 + zlen a2))); [lia|]. replace (q + il1 + w1 + zlen p1) with (q + zlen a1) by lia.
    destruct (Z.leb_spec (q + (zlen a1 + zlen a2)) (q + zlen a1)); [lia|]. rewrite B1. cbn [tid] in *. destruct (Z.ltb_spec kMkvCueTrackPositions 0); [lia|]. destruct (Z.gtb_spec (q + zlen a1 + il2) (q + (zlen a1 + zlen a2))); [lia|]. cbn [orb].
    rewrite B2. destruct (Z.gtb_spec (q + zlen a1 + il2 + w2 + zlen p2) LLONG_MAX); [lia|]. rewrite Z.eqb_refl. change (1 <=? zlen (@nil track_pos)) with false. cbn iota.
    rewrite (read_positions r c p2 (q + zlen a1 + il2 + w2) Hv HR Hok B6 B7 ltac:(lia)). cbn [app].
    destruct (Z.gtb_spec (q + zlen a1 + il2 + w2 + zlen p2) (q + (zlen a1 + zlen a2))); [lia|].
    replace (q + zlen a1 + il2 + w2 + zlen p2) with (q + (zlen a1 + zlen a2)) by lia. destruct (Z.to_nat (zlen a1 + zlen a2 - 2)); cbn [load_positions]; rewrite Z.leb_refl; reflexivity. }
  rewrite El. repeat f_equal. unfold q. lia.
Qed.

Fixpoint placed (parts : list (list Z)) (idx pos : Z) : list p_cue :=
  match parts with [] => [] | a :: ps => cue_new idx pos :: placed ps (idx + 1) (pos + zlen a) end.
Lemma placed_length : forall ps idx pos, length (placed ps idx pos) = length ps.
Proof. induction ps as [|a ps IH]; intros; cbn [placed length]; [reflexivity|]. rewrite IH. reflexivity. Qed.
Lemma encodes_parts : forall l bs, encodes_all (map cue_tree l) bs -> exists parts, Forall2 (fun c a => encodes (cue_tree c) a) l parts /\ bs = concat parts.
Proof.
  induction l as [|c l IH]; intros bs H; inversion H as [|? ? a b Ha Hb]; subst; [exists []; auto|].
  destruct (IH b Hb) as (ps & HF & ->). exists (a :: ps). split; [constructor; assumption|reflexivity].
Qed.
Lemma init_scan : forall r l parts, Forall2 (fun c a => encodes (cue_tree c) a) l parts -> forall fuel pos acc, serves r pos (concat parts) -> pos + zlen (concat parts) <= LLONG_MAX -> zlen (concat parts) <= Z.of_nat fuel ->
  scan (R := unit) fuel r init_element pos (pos + zlen (concat parts)) acc = Val (inr (true, acc ++ placed parts (zlen acc) pos)).
Proof.
  intros r l parts HF. induction HF as [|c a l ps Ha HF IH]; intros fuel pos acc Hs HL Hf; cbn [concat placed].
  - replace (pos + zlen (@nil Z)) with pos by (rewrite zlen_nil; lia). rewrite scan_end, app_nil_r. reflexivity.
  - cbn [concat] in *. rewrite zlen_app in *. pose proof (zlen_nonneg _ (concat ps)). set (b := concat ps) in *.
    destruct (header_element r pos _ a (pos + (zlen a + zlen b)) Ha (serves_app_l _ _ _ _ Hs) ltac:(lia) HL) as (p & q & E & Hq & Hq2 & Hc & Hsp).
    pose proof (zlen_nonneg _ p). destruct fuel as [|fuel]; [lia|]. cbn [scan]. destruct (Z.leb_spec (pos + (zlen a + zlen b)) pos); [lia|]. rewrite E. unfold init_element at 1. change (tid (cue_tree c) =? kMkvCuePoint) with true. cbn iota.
    rewrite Hq2. replace (pos + (zlen a + zlen b)) with (pos + zlen a + zlen b) by lia. rewrite IH; [|exact (serves_app_r _ _ _ _ Hs)|lia|lia].
    rewrite zlen_app, zlen_cons, zlen_nil, <- app_assoc. cbn [app]. replace (zlen acc + (1 + 0)) with (zlen acc + 1) by lia. reflexivity.
Qed.
Lemma loop_step : forall r start size fuel c a ps done k pos preload, cue_valid c = true -> readable_cue c -> values_ok (cue_tree c) -> encodes (cue_tree c) a ->
  serves r pos a -> 0 < pos -> pos + zlen a <= start + size -> start + size <= LLONG_MAX -> zlen done = k -> 1 <= preload ->
  load_loop (S fuel) r (start + size) (mkPCs start size pos (done ++ placed (a :: ps) k pos) k preload) =
  Val (true, mkPCs start size (pos + zlen a) (done ++ mkPC pos (zlen a) k (cue_time c) [mkTP (cue_track c) (cue_cluster_pos c) (cue_block c)] :: placed ps (k + 1) (pos + zlen a)) (k + 1) (preload - 1)).
Proof.
  intros r start size fuel c a ps done k pos preload Hv HR Hok He Hs Hp Hst HL Hk Hpre. destruct (element_header r pos (cue_tree c) a He Hs) as (p & il & w & E1 & E2 & H1 & H2 & La & Hc & Hsp & Ht).
  pose proof (zlen_nonneg _ p). pose proof (zlen_nonneg _ done). cbn [load_loop]. destruct (Z.leb_spec (start + size) pos); [lia|]. rewrite E1. destruct (Z.ltb_spec (tid (cue_tree c)) 0); [lia|]. destruct (Z.gtb_spec (pos + il) (start + size)); [lia|]. cbn [orb].
  rewrite E2. destruct (Z.ltb_spec (zlen p) 0); [lia|]. destruct (Z.gtb_spec (pos + il + w) (start + size)); [lia|]. cbn [orb].
  destruct (Z.gtb_spec (pos + il + w + zlen p) LLONG_MAX); [lia|]. destruct (Z.gtb_spec (pos + il + w + zlen p) (start + size)); [lia|].
  change (tid (cue_tree c)) with kMkvCuePoint. rewrite Z.eqb_refl. cbn [negb]. destruct (Z.ltb_spec preload 1); [lia|].
  assert (En : nth_error (done ++ placed (a :: ps) k pos) (Z.to_nat k) = Some (cue_new k pos)).
  { rewrite nth_error_app2 by (unfold zlen in Hk; lia). replace (Z.to_nat k - length done)%nat with 0%nat by (unfold zlen in Hk; lia). reflexivity. }
  rewrite En. unfold cue_new at 1 2. cbn [cp_timecode]. rewrite Z.opp_involutive, Z.eqb_refl. cbn [negb]. rewrite andb_false_r.
  rewrite (cue_load r c k pos a Hv HR Hok He Hs Hp ltac:(lia)). cbn iota. f_equal. f_equal. replace (pos + il + w + zlen p) with (pos + zlen a) by lia. f_equal.
  assert (El : Z.to_nat k = length done) by (unfold zlen in Hk; lia). rewrite El. rewrite firstn_app, Nat.sub_diag, firstn_all. cbn [firstn]. rewrite app_nil_r. f_equal. f_equal.
  rewrite skipn_app. replace (S (length done) - length done)%nat with 1%nat by lia. rewrite skipn_all2 by lia. reflexivity.
Qed.

(* the cue points as loaded *)
Fixpoint loaded (l : list cue_point) (parts : list (list Z)) (idx pos : Z) : list p_cue :=
  match l, parts with
  | c :: l, a :: ps => mkPC pos (zlen a) idx (cue_time c) [mkTP (cue_track c) (cue_cluster_pos c) (cue_block c)] :: loaded l ps (idx + 1) (pos + zlen a)
  | _, _ => []
  end.
Lemma loads_rest : forall r start size l parts, Forall2 (fun c a => encodes (cue_tree c) a) l parts ->
  forallb cue_valid l = true -> Forall readable_cue l -> Forall (fun c => values_ok (cue_tree c)) l ->
  forall done k pos, serves r pos (concat parts) -> start <= pos -> 0 < start -> pos + zlen (concat parts) = start + size -> start + size <= LLONG_MAX -> zlen done = k ->
  loads r (length l) (mkPCs start size pos (done ++ placed parts k pos) k (zlen l)) (mkPCs start size (start + size) (done ++ loaded l parts k pos) (k + zlen l) 0).
Proof.
  intros r start size l parts HF. induction HF as [|c a l ps Ha HF IH]; intros HV HR HO done k pos Hs Hst H0 Hend HL Hk.
  - cbn [length loaded placed zlen]. cbn [concat] in Hend. rewrite zlen_nil in Hend. replace pos with (start + size) by lia. change (zlen (@nil cue_point)) with 0. replace (k + 0) with k by lia. constructor.
  - cbn [forallb] in HV. apply andb_prop in HV. destruct HV as [HV1 HV2]. inversion HR as [|? ? HR1 HR2]; subst. inversion HO as [|? ? HO1 HO2]; subst.
    cbn [concat] in *. rewrite zlen_app in Hend. pose proof (zlen_nonneg _ (concat ps)). pose proof (serves_app_l _ _ _ _ Hs) as Hsa. pose proof (serves_app_r _ _ _ _ Hs) as Hsb.
    destruct (element_header r pos _ a Ha Hsa) as (p & il & w & _ & _ & W1 & W2 & La & _ & _ & _). pose proof (zlen_nonneg _ p). pose proof (zlen_nonneg _ l). pose proof (zlen_nonneg _ done).
    cbn [length]. econstructor.
    + unfold LoadCuePoint. cbn [cu_start cu_size cu_pos]. destruct (Z.geb_spec pos (start + size)); [lia|]. unfold Cues_Init.
      replace (zlen (done ++ placed (a :: ps) (zlen done) pos) =? 0) with false by (rewrite zlen_app; cbn [placed]; rewrite zlen_cons; pose proof (zlen_nonneg _ (placed ps (zlen done + 1) (pos + zlen a))); destruct (Z.eqb_spec (zlen done + (1 + zlen (placed ps (zlen done + 1) (pos + zlen a)))) 0); [lia|reflexivity]).
      cbn [negb cu_size]. replace (Z.to_nat size) with (S (Z.to_nat (size - 1))) by lia.
      assert (1 <= zlen (c :: l)) by (rewrite zlen_cons; lia). apply (loop_step r start size (Z.to_nat (size - 1)) c a ps done (zlen done) pos (zlen (c :: l))); auto; lia.
    + replace (zlen (c :: l) - 1) with (zlen l) by (rewrite zlen_cons; lia). cbn [loaded].
      specialize (IH HV2 HR2 HO2 (done ++ [mkPC pos (zlen a) (zlen done) (cue_time c) [mkTP (cue_track c) (cue_cluster_pos c) (cue_block c)]]) (zlen done + 1) (pos + zlen a) Hsb ltac:(lia) H0 ltac:(lia) HL).
      rewrite <- !app_assoc in IH. cbn [app] in IH. replace (zlen done + zlen (c :: l)) with (zlen done + 1 + zlen l) by (rewrite zlen_cons; lia). apply IH.
      rewrite zlen_app, zlen_cons, zlen_nil. lia.
Qed.
Lemma reads_loaded : forall l parts idx pos, length l = length parts -> length (loaded l parts idx pos) = length l /\
  forall i c, nth_error l i = Some c -> exists p, nth_error (loaded l parts idx pos) i = Some p /\ reads_cue (idx + Z.of_nat i) c p.
Proof.
  induction l as [|c l IH]; intros [|a ps] idx pos Hl; cbn [length] in Hl; try discriminate.
  - split; [reflexivity|]. intros [|i] c H; discriminate.
  - cbn [loaded length]. injection Hl as Hl. destruct (IH ps (idx + 1) (pos + zlen a) Hl) as [IH1 IH2]. split; [rewrite IH1; reflexivity|].
    intros [|i] x Hx; cbn [nth_error] in *.
    + injection Hx as <-. eexists. split; [reflexivity|]. unfold reads_cue. cbn [cp_index cp_timecode cp_tps]. split; [lia|]. split; reflexivity.
    + destruct (IH2 i x Hx) as (p & E & Hp). exists p. split; [exact E|]. replace (idx + Z.of_nat (S i)) with (idx + 1 + Z.of_nat i) by lia. exact Hp.
Qed.
Lemma Forall2_len : forall A B (R : A -> B -> Prop) l m, Forall2 R l m -> length l = length m.
Proof. induction 1; cbn [length]; congruence. Qed.

(* the first call also finds the cue points *)
Lemma loads_new : forall r start size l parts, Forall2 (fun c a => encodes (cue_tree c) a) l parts -> serves r start (concat parts) -> start + zlen (concat parts) = start + size -> start + size <= LLONG_MAX -> l <> [] ->
  LoadCuePoint r (cues_new start size) = LoadCuePoint r (mkPCs start size start (placed parts 0 start) 0 (zlen l)).
Proof.
  intros r start size l parts HF Hs Hend HL Hne. unfold LoadCuePoint, cues_new. cbn [cu_start cu_size cu_pos]. destruct (start >=? start + size) eqn:G; [exfalso|].
  - destruct HF as [|c a l ps Ha HF]; [congruence|]. cbn [concat] in *. destruct (element_header r start _ a Ha (serves_app_l _ _ _ _ Hs)) as (p & il & w & _ & _ & W1 & W2 & La & _). rewrite zlen_app in Hend. pose proof (zlen_nonneg _ p). pose proof (zlen_nonneg _ (concat ps)). lia.
  - unfold Cues_Init. change (zlen (@nil p_cue) =? 0) with true. cbn [negb Z.eqb orb]. pose proof (zlen_nonneg _ (concat parts)).
    rewrite <- Hend at 1. rewrite (init_scan r l parts HF (Z.to_nat size) start [] Hs ltac:(lia) ltac:(lia)). cbn [app]. change (zlen (@nil p_cue)) with 0.
    assert (Lp : zlen (placed parts 0 start) = zlen l) by (unfold zlen; rewrite placed_length, (Forall2_len _ _ _ _ _ HF); reflexivity).
    rewrite Lp. destruct (Z.eqb_spec (zlen l) 0) as [E|E]; [destruct l; [congruence|rewrite zlen_cons in E; pose proof (zlen_nonneg _ l); lia]|]. reflexivity.
Qed.

Lemma element_inside : forall r pos t bs, encodes t bs -> serves r pos bs -> pos + zlen bs <= LLONG_MAX ->
  exists start p, element_at r pos (tid t) start (zlen p) /\ start + zlen p = pos + zlen bs /\ content t p /\ serves r start p /\ pos < start.
Proof.
  intros r pos t bs He Hs HL. destruct (encodes_inv _ _ He) as (p & Hc & ib & w & Hib & (Hw & Hfit) & Ea).
  assert (Lv : zlen (vint w (zlen p)) = w). { unfold vint, zlen. rewrite be_bytes_length. lia. }
  assert (La : zlen bs = zlen ib + w + zlen p). { rewrite Ea, !zlen_app, Lv. lia. }
  pose proof (zlen_nonneg _ p) as Hp0. pose proof (zlen_nonneg _ ib).
  exists (pos + zlen ib + w), p. split; [|split; [lia|split; [exact Hc|split; [|lia]]]].
  - unfold element_at. apply ParseElementHeader_element; auto; try lia. apply (serves_app_l _ _ _ p). rewrite <- app_assoc, <- Ea. exact Hs.
  - rewrite Ea in Hs. apply serves_app_r in Hs. apply serves_app_r in Hs. rewrite Lv in Hs. exact Hs.
Qed.

Theorem cues_read : forall r l pos bs, representable [cues_tree l] -> forallb cue_valid l = true -> Forall readable_cue l ->
  encodes_all [cues_tree l] bs -> serves r pos bs -> pos + zlen bs <= LLONG_MAX ->
  exists start size c, element_at r pos kMkvCues start size /\ start + size = pos + zlen bs /\
    loads r (length l) (cues_new start size) c /\ LoadCuePoint r c = Val (false, c) /\ cu_count c = zlen l /\ length (cu_points c) = length l /\
    forall i x, nth_error l i = Some x -> exists p, nth_error (cu_points c) i = Some p /\ reads_cue (Z.of_nat i) x p.
Proof.
  intros r l pos bs [Hok _] HV HR He Hs HL. apply encodes_one in He. destruct (element_inside r pos _ bs He Hs HL) as (start & p & H1 & H2 & Hc & Hsp & Hlt). pose proof Hs as [Hp0 _]. assert (Hst : 0 < start) by lia.
  inversion Hok as [|? ? Hok1 _]; subst. cbn [cues_tree content] in Hc. destruct (encodes_parts l p Hc) as (parts & HF & Ep).
  assert (HO : Forall (fun c => values_ok (cue_tree c)) l) by (apply Forall_forall; intros c Hin; exact (kids_ok kMkvCues cue_point cue_tree l c Hok1 Hin)).
  pose proof (Forall2_len _ _ _ _ _ HF) as Hlen. destruct (reads_loaded l parts 0 start Hlen) as [RL1 RL2].
  assert (Hfin : forall points count, LoadCuePoint r (mkPCs start (zlen p) (start + zlen p) points count 0) = Val (false, mkPCs start (zlen p) (start + zlen p) points count 0)).
  { intros. unfold LoadCuePoint. cbn [cu_start cu_size cu_pos]. destruct (Z.geb_spec (start + zlen p) (start + zlen p)); [reflexivity|lia]. }
  exists start, (zlen p). destruct l as [|c0 l0] eqn:El.
  - inversion HF; subst. cbn [concat] in *. exists (cues_new start (zlen (@nil Z))). split; [exact H1|]. split; [exact H2|]. split; [constructor|]. split.
    { unfold LoadCuePoint, cues_new. cbn [cu_start cu_size cu_pos]. rewrite zlen_nil. destruct (Z.geb_spec start (start + 0)); [reflexivity|lia]. }
    split; [reflexivity|]. split; [reflexivity|]. intros [|i] x Hx; discriminate.
  - rewrite <- El in *. assert (Hne : l <> []) by (rewrite El; discriminate). exists (mkPCs start (zlen p) (start + zlen p) (loaded l parts 0 start) (zlen l) 0).
    split; [exact H1|]. split; [exact H2|]. rewrite Ep in Hsp. assert (Ez : zlen (concat parts) = zlen p) by (rewrite Ep; reflexivity).
    pose proof (loads_rest r start (zlen p) l parts HF HV HR HO [] 0 start Hsp ltac:(lia) Hst ltac:(lia) ltac:(lia) eq_refl) as HLd. cbn [app] in HLd.
    split; [|split; [apply Hfin|]; split; [reflexivity|]; split; [exact RL1|exact RL2]].
    destruct (length l) as [|n] eqn:Eln; [destruct l; [congruence|discriminate]|]. inversion HLd as [|n' c1 c' c2 E1 E2 E3 E4 E5]. apply (loads_S r n _ c'); [|exact E2].
    rewrite (loads_new r start (zlen p) l parts HF Hsp ltac:(lia) ltac:(lia) Hne). exact E1.
Qed.
