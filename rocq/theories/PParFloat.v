(* Floats written as binary32 and read into doubles: widening and narrowing are
   exact, and the order is that of the bit patterns. *)
From Coq Require Import ZifyBool ZifyNat Floats.SpecFloat.
From Verif Require Import Base MFloat MMuxMeta MParUtil MParMeta PParDur.

Lemma iter_shr_exact : forall k m, 0 <= m -> SpecFloat.iter_pos shr_1 k {| shr_m := m * 2 ^ Zpos k; shr_r := false; shr_s := false |} = {| shr_m := m; shr_r := false; shr_s := false |}.
Proof.
  assert (H1 : forall m, 0 <= m -> shr_1 {| shr_m := m * 2; shr_r := false; shr_s := false |} = {| shr_m := m; shr_r := false; shr_s := false |}).
  { intros [|p|p] H; [reflexivity| |lia]. replace (Zpos p * 2) with (Zpos p~0) by lia. reflexivity. }
  induction k as [k IH|k IH|]; intros m H; cbn [SpecFloat.iter_pos].
  - replace (m * 2 ^ Zpos k~1) with (m * 2 ^ Zpos k * 2 ^ Zpos k * 2) by (replace (Zpos k~1) with (Zpos k + Zpos k + 1) by lia; rewrite !Z.pow_add_r by lia; lia).
    rewrite H1 by nia. rewrite IH by nia. apply IH. assumption.
  - replace (m * 2 ^ Zpos k~0) with (m * 2 ^ Zpos k * 2 ^ Zpos k) by (replace (Zpos k~0) with (Zpos k + Zpos k) by lia; rewrite !Z.pow_add_r by lia; lia).
    rewrite IH by nia. apply IH. assumption.
  - change (2 ^ 1) with 2. apply H1. assumption.
Qed.

Lemma digits_range : forall p k, 0 < k -> 2 ^ (k - 1) <= Zpos p < 2 ^ k -> Zpos (digits2_pos p) = k.
Proof.
  intros p k Hk H. pose proof (digits2_lt p). pose proof (digits2_ge p).
  destruct (Z.lt_trichotomy (Zpos (digits2_pos p)) k) as [L|[E|L]]; [|assumption|]; exfalso.
  - assert (2 ^ Zpos (digits2_pos p) <= 2 ^ (k - 1)) by (apply Z.pow_le_mono_r; lia). lia.
  - assert (2 ^ k <= 2 ^ (Zpos (digits2_pos p) - 1)) by (apply Z.pow_le_mono_r; lia). lia.
Qed.

(* widening to double *)
Lemma widen : forall s m e, Zpos m < 2 ^ 24 -> -149 <= e <= 104 ->
  exists M k, 29 <= k <= 52 /\ Zpos M = Zpos m * 2 ^ k /\ 2 ^ 52 <= Zpos M < 2 ^ 53 /\ binary_round 53 1024 s m e = S754_finite s M (e - k).
Proof.
  intros s m e Hm He. pose proof (digits2_lt m) as D1. pose proof (digits2_ge m) as D2. set (d := Zpos (digits2_pos m)) in *.
  assert (Hd : 1 <= d <= 24).
  { split; [lia|]. destruct (Z.le_gt_cases d 24); [assumption|]. exfalso. assert (2 ^ 24 <= 2 ^ (d - 1)) by (apply Z.pow_le_mono_r; lia). lia. }
  destruct (53 - d) as [|k|k] eqn:Ek; [lia| |lia].
  assert (EM : Zpos (shift_pos k m) = Zpos m * 2 ^ Zpos k) by (rewrite shift_pos_correct, Z.pow_pos_fold; lia).
  assert (RM : 2 ^ 52 <= Zpos (shift_pos k m) < 2 ^ 53).
  { rewrite EM. replace 52 with (d - 1 + Zpos k) by lia. replace 53 with (d + Zpos k) by lia. rewrite !Z.pow_add_r by lia. assert (0 < 2 ^ Zpos k) by (apply Z.pow_pos_nonneg; lia). split; nia. }
  assert (DM : Zpos (digits2_pos (shift_pos k m)) = 53) by (apply digits_range; [lia|exact RM]).
  exists (shift_pos k m), (Zpos k). split; [lia|]. split; [exact EM|]. split; [exact RM|].
  unfold binary_round. fold d. replace (fexp 53 1024 (d + e)) with (e - Zpos k) by (unfold fexp, emin; lia).
  unfold shl_align. replace (e - Zpos k - e) with (Zneg k) by lia.
  unfold binary_round_aux, shr_fexp. cbn [Zdigits2]. rewrite DM.
  replace (fexp 53 1024 (53 + (e - Zpos k)) - (e - Zpos k)) with 0 by (unfold fexp, emin; lia).
  cbn [shr shr_record_of_loc loc_of_shr_record round_nearest_even shr_m fst snd]. cbn [Zdigits2]. rewrite DM.
  replace (fexp 53 1024 (53 + (e - Zpos k)) - (e - Zpos k)) with 0 by (unfold fexp, emin; lia).
  cbn [shr shr_record_of_loc loc_of_shr_record round_nearest_even shr_m fst snd].
  destruct (Z.leb_spec (e - Zpos k) (1024 - 53)); [reflexivity|lia].
Qed.

(* and back *)
Lemma narrow : forall s m e k M, (2 ^ 23 <= Zpos m < 2 ^ 24 \/ Zpos m < 2 ^ 23 /\ e = -149) -> -149 <= e <= 104 -> 29 <= k <= 52 ->
  Zpos M = Zpos m * 2 ^ k -> 2 ^ 52 <= Zpos M < 2 ^ 53 -> binary_round 24 128 s M (e - k) = S754_finite s m e.
Proof.
  intros s m e k M Hm He Hk EM RM. pose proof (digits2_lt m) as D1. pose proof (digits2_ge m) as D2.
  assert (Dm : Zpos (digits2_pos m) = 53 - k).
  { apply digits_range; [lia|]. replace 52 with (52 - k + k) in RM by lia. replace 53 with (53 - k + k) in RM by lia. rewrite !Z.pow_add_r in RM by lia.
    replace (53 - k - 1) with (52 - k) by lia. assert (0 < 2 ^ k) by (apply Z.pow_pos_nonneg; lia). rewrite EM in RM. split; nia. }
  set (d := Zpos (digits2_pos m)) in *.
  assert (Fx : fexp 24 128 (d + e) = e).
  { unfold fexp, emin. destruct Hm as [Hm|[Hm ->]].
    - assert (d = 24) by (apply digits_range; lia). lia.
    - assert (d <= 23). { destruct (Z.le_gt_cases d 23); [assumption|]. exfalso. assert (2 ^ 23 <= 2 ^ (d - 1)) by (apply Z.pow_le_mono_r; lia). lia. } lia. }
  assert (DM : Zpos (digits2_pos M) = 53) by (apply digits_range; lia).
  unfold binary_round. rewrite DM. replace (53 + (e - k)) with (d + e) by lia. rewrite Fx.
  unfold shl_align. destruct k as [|k|k]; [lia| |lia]. replace (e - (e - Zpos k)) with (Zpos k) by lia.
  unfold binary_round_aux, shr_fexp. cbn [Zdigits2]. rewrite DM. replace (53 + (e - Zpos k)) with (d + e) by lia. rewrite Fx. replace (e - (e - Zpos k)) with (Zpos k) by lia.
  cbn [shr shr_record_of_loc]. rewrite EM, iter_shr_exact by lia.
  cbn [loc_of_shr_record round_nearest_even shr_m fst snd]. cbn [Zdigits2]. fold d. replace (e - Zpos k + Zpos k) with e by lia. rewrite Fx, Z.sub_diag.
  cbn [shr shr_record_of_loc loc_of_shr_record round_nearest_even shr_m fst snd].
  destruct (Z.leb_spec e (128 - 24)); [reflexivity|lia].
Qed.

Lemma f32_cases : forall u, 0 <= u < 2 ^ 32 -> nonfinite32 u = false ->
  (exists s, f32_of_bits u = S754_zero s) \/
  exists s m e, f32_of_bits u = S754_finite s m e /\ (2 ^ 23 <= Zpos m < 2 ^ 24 \/ Zpos m < 2 ^ 23 /\ e = -149) /\ -149 <= e <= 104.
Proof.
  intros u Hu H. unfold nonfinite32 in H. unfold f32_of_bits.
  assert (E : Z.land (Z.shiftr u 23) 255 = u / 8388608 mod 256).
  { change 255 with (Z.ones 8). rewrite Z.land_ones, Z.shiftr_div_pow2 by lia. reflexivity. }
  rewrite E in H. rewrite H. pose proof (Z.mod_pos_bound (u / 8388608) 256 ltac:(lia)). pose proof (Z.mod_pos_bound u 8388608 ltac:(lia)).
  destruct (Z.eqb_spec (u / 8388608 mod 256) 0).
  - destruct (u mod 8388608) eqn:Em; [left; eauto| |lia]. right. do 3 eexists. split; [reflexivity|]. lia.
  - destruct (u mod 8388608 + 8388608) eqn:Em; [lia| |lia]. right. do 3 eexists. split; [reflexivity|]. lia.
Qed.

Lemma bits_roundtrip : forall u, 0 <= u < 2 ^ 32 -> nonfinite32 u = false -> bits_of_f32 (f32_of_bits u) = u.
Proof.
  intros u Hu H. unfold nonfinite32 in H. unfold f32_of_bits.
  assert (E : Z.land (Z.shiftr u 23) 255 = u / 8388608 mod 256).
  { change 255 with (Z.ones 8). rewrite Z.land_ones, Z.shiftr_div_pow2 by lia. reflexivity. }
  rewrite E in H. rewrite H. pose proof (Z.mod_pos_bound (u / 8388608) 256 ltac:(lia)). pose proof (Z.mod_pos_bound u 8388608 ltac:(lia)).
  assert (U : u = (u / 2147483648 mod 2) * 2147483648 + (u / 8388608 mod 256) * 8388608 + u mod 8388608) by (clear -Hu; Z.to_euclidean_division_equations; lia).
  assert (Sg : (if u / 2147483648 mod 2 =? 1 then 2147483648 else 0) = (u / 2147483648 mod 2) * 2147483648).
  { pose proof (Z.mod_pos_bound (u / 2147483648) 2 ltac:(lia)). destruct (Z.eqb_spec (u / 2147483648 mod 2) 1); lia. }
  destruct (Z.eqb_spec (u / 8388608 mod 256) 0) as [E0|E0].
  - destruct (u mod 8388608) eqn:Em; cbn [bits_of_f32]; rewrite ?Sg; [lia| |lia]. destruct (Z.ltb_spec (Zpos p) 8388608); lia.
  - destruct (u mod 8388608 + 8388608) eqn:Em; [lia| |lia]. cbn [bits_of_f32]. rewrite Sg. destruct (Z.ltb_spec (Zpos p) 8388608); lia.
Qed.

Theorem narrow_widen : forall u, 0 <= u < 2 ^ 32 -> nonfinite32 u = false -> f32_of_f64 (f64_of_bits32 u) = u.
Proof.
  intros u Hu H. rewrite <- (bits_roundtrip u Hu H) at 2. unfold f64_of_bits32. destruct (f32_cases u Hu H) as [[s ->]|(s & m & e & -> & Hm & He)]; [reflexivity|].
  destruct (widen s m e ltac:(lia) He) as (M & k & Hk & EM & RM & ->). cbn [f32_of_f64]. rewrite (narrow s m e k M Hm He Hk EM RM). reflexivity.
Qed.

(* ---------- order ---------- *)

(* the value of a positive pattern, times 2^1100 *)
Definition pval (u : Z) : Z :=
  if u / 8388608 =? 0 then (u mod 8388608) * 2 ^ 951 else (u mod 8388608 + 8388608) * 2 ^ (u / 8388608 + 950).
Lemma pval_lt : forall u v, 0 <= u -> u < v -> pval u < pval v.
Proof.
  intros u v Hu Huv. unfold pval. pose proof (Z.mod_pos_bound u 8388608 ltac:(lia)) as Mu. pose proof (Z.mod_pos_bound v 8388608 ltac:(lia)) as Mv.
  pose proof (Z.div_mod u 8388608 ltac:(lia)) as Du. pose proof (Z.div_mod v 8388608 ltac:(lia)) as Dv.
  set (eu := u / 8388608) in *. set (ev := v / 8388608) in *. set (mu := u mod 8388608) in *. set (mv := v mod 8388608) in *. clearbody eu ev mu mv.
  assert (P0 : 0 < 2 ^ 951) by lia.
  destruct (Z.eqb_spec eu 0) as [->|Eu], (Z.eqb_spec ev 0) as [->|Ev].
  - apply Z.mul_lt_mono_pos_r; lia.
  - assert (2 ^ 951 <= 2 ^ (ev + 950)) by (apply Z.pow_le_mono_r; lia). nia.
  - lia.
  - destruct (Z.eq_dec eu ev) as [->|Ne].
    + apply Z.mul_lt_mono_pos_r; [apply Z.pow_pos_nonneg|]; lia.
    + assert (2 ^ (eu + 1 + 950) <= 2 ^ (ev + 950)) by (apply Z.pow_le_mono_r; lia). replace (eu + 1 + 950) with (Z.succ (eu + 950)) in H by lia. rewrite Z.pow_succ_r in H by lia.
      assert (0 < 2 ^ (eu + 950)) by (apply Z.pow_pos_nonneg; lia). nia.
Qed.
Lemma pval_compare : forall u v, 0 <= u -> 0 <= v -> (pval u ?= pval v) = (u ?= v).
Proof.
  intros u v Hu Hv. destruct (Z.compare_spec u v) as [->|H|H].
  - apply Z.compare_refl.
  - apply Z.compare_lt_iff. apply pval_lt; lia.
  - apply Z.compare_gt_iff. apply pval_lt; lia.
Qed.

(* a double whose mantissa has 53 bits *)
Definition norm53 (x : f64) (v : Z) : Prop :=
  x = S754_zero false /\ v = 0 \/
  exists m e, x = S754_finite false m e /\ 2 ^ 52 <= Zpos m < 2 ^ 53 /\ 0 <= e + 1100 /\ v = Zpos m * 2 ^ (e + 1100).
Lemma compare53 : forall x y v w, norm53 x v -> norm53 y w -> SFcompare x y = Some (v ?= w).
Proof.
  intros x y v w [[-> ->]|(m & e & -> & Hm & He & ->)] [[-> ->]|(m' & e' & -> & Hm' & He' & ->)]; unfold SFcompare.
  - reflexivity.
  - f_equal. symmetry. apply Z.compare_lt_iff. assert (0 < 2 ^ (e' + 1100)) by (apply Z.pow_pos_nonneg; lia). nia.
  - f_equal. symmetry. apply Z.compare_gt_iff. assert (0 < 2 ^ (e + 1100)) by (apply Z.pow_pos_nonneg; lia). nia.
  - assert (G : forall a b i j, 2 ^ 52 <= a < 2 ^ 53 -> 2 ^ 52 <= b < 2 ^ 53 -> 0 <= i + 1100 -> i < j -> a * 2 ^ (i + 1100) < b * 2 ^ (j + 1100)).
    { intros a b i j Ha Hb Hi Hij. assert (2 ^ (i + 1 + 1100) <= 2 ^ (j + 1100)) by (apply Z.pow_le_mono_r; lia). replace (i + 1 + 1100) with (Z.succ (i + 1100)) in H by lia. rewrite Z.pow_succ_r in H by lia.
      assert (0 < 2 ^ (i + 1100)) by (apply Z.pow_pos_nonneg; lia). assert (2 * 2 ^ 52 = 2 ^ 53) by reflexivity. nia. }
    destruct (Z.compare_spec e e') as [->|L|L].
    + f_equal. change (Pos.compare_cont Eq m m') with (Pos.compare m m').
      assert (0 < 2 ^ (e' + 1100)) by (apply Z.pow_pos_nonneg; lia).
      destruct (Pos.compare_spec m m') as [->|L|L]; symmetry; [apply Z.compare_refl|apply Z.compare_lt_iff; apply Z.mul_lt_mono_pos_r; lia|apply Z.compare_gt_iff; apply Z.mul_lt_mono_pos_r; lia].
    + f_equal. symmetry. apply Z.compare_lt_iff. apply G; lia.
    + f_equal. symmetry. apply Z.compare_gt_iff. apply G; lia.
Qed.

Lemma norm_bits32 : forall u, 0 <= u < 0x7F800000 -> norm53 (f64_of_bits32 u) (pval u).
Proof.
  intros u Hu. unfold f64_of_bits32, f32_of_bits, pval. pose proof (Z.mod_pos_bound u 8388608 ltac:(lia)).
  replace (u / 2147483648 mod 2) with 0 by (clear -Hu; Z.to_euclidean_division_equations; lia). change (0 =? 1) with false.
  replace (u / 8388608 mod 256) with (u / 8388608) by (clear -Hu; Z.to_euclidean_division_equations; lia).
  assert (Hq : 0 <= u / 8388608 < 255) by (clear -Hu; Z.to_euclidean_division_equations; lia). destruct (Z.eqb_spec (u / 8388608) 255); [lia|].
  destruct (Z.eqb_spec (u / 8388608) 0).
  - destruct (u mod 8388608) eqn:Em; [left; split; [reflexivity|lia]| |lia]. right.
    destruct (widen false p (-149) ltac:(lia) ltac:(lia)) as (M & k & Hk & EM & RM & ->). do 2 eexists. split; [reflexivity|]. split; [exact RM|]. split; [lia|].
    rewrite EM, <- Z.mul_assoc, <- Z.pow_add_r by lia. f_equal. f_equal. lia.
  - destruct (u mod 8388608 + 8388608) eqn:Em; [lia| |lia]. right.
    destruct (widen false p (u / 8388608 - 150) ltac:(lia) ltac:(lia)) as (M & k & Hk & EM & RM & ->). do 2 eexists. split; [reflexivity|]. split; [exact RM|]. split; [lia|].
    rewrite EM, <- Z.mul_assoc, <- Z.pow_add_r by lia. f_equal. f_equal. lia.
Qed.
Lemma compare_bits32 : forall u v, 0 <= u < 0x7F800000 -> 0 <= v < 0x7F800000 -> SFcompare (f64_of_bits32 u) (f64_of_bits32 v) = Some (u ?= v).
Proof. intros u v Hu Hv. rewrite (compare53 _ _ _ _ (norm_bits32 u Hu) (norm_bits32 v Hv)), pval_compare by lia. reflexivity. Qed.
Lemma lt_bits32 : forall u v, 0 <= u < 0x7F800000 -> 0 <= v < 0x7F800000 -> SFltb (f64_of_bits32 u) (f64_of_bits32 v) = (u <? v).
Proof. intros u v Hu Hv. unfold SFltb. rewrite compare_bits32 by assumption. unfold Z.ltb. destruct (u ?= v); reflexivity. Qed.

(* the sign bit *)
Lemma compare_opp : forall x y, SFcompare (SFopp x) (SFopp y) = match SFcompare x y with Some c => Some (CompOpp c) | None => None end.
Proof.
  intros [s|s| |s m e] [s'|s'| |s' m' e']; try destruct s; try destruct s'; try reflexivity; cbn [SFopp negb SFcompare];
    destruct (Z.compare_spec e e'); try reflexivity; change (Pos.compare_cont Eq m m') with (Pos.compare m m'); destruct (Pos.compare m m'); reflexivity.
Qed.
Lemma bits32_opp : forall u, 0 <= u < 2 ^ 31 -> nonfinite32 u = false -> f64_of_bits32 (u + 2 ^ 31) = SFopp (f64_of_bits32 u).
Proof.
  intros u Hu H. assert (E1 : f32_of_bits (u + 2 ^ 31) = match f32_of_bits u with S754_nan => S754_nan | x => SFopp x end).
  { unfold f32_of_bits. change (2 ^ 31) with 2147483648.
    replace ((u + 2147483648) / 2147483648 mod 2) with 1 by (clear -Hu; Z.to_euclidean_division_equations; lia). replace (u / 2147483648 mod 2) with 0 by (clear -Hu; Z.to_euclidean_division_equations; lia).
    replace ((u + 2147483648) / 8388608 mod 256) with (u / 8388608 mod 256) by (clear -Hu; Z.to_euclidean_division_equations; lia).
    replace ((u + 2147483648) mod 8388608) with (u mod 8388608) by (clear -Hu; Z.to_euclidean_division_equations; lia).
    destruct (_ =? 255); [destruct (_ =? 0); reflexivity|]. destruct (_ =? 0); [destruct (u mod 8388608); reflexivity|]. destruct (_ + _); reflexivity. }
  unfold f64_of_bits32. rewrite E1. destruct (f32_cases u ltac:(lia) H) as [[s ->]|(s & m & e & -> & Hm & He)]; [reflexivity|]. cbn [SFopp].
  destruct (widen s m e ltac:(lia) He) as (M & k & Hk & EM & RM & ->). destruct (widen (negb s) m e ltac:(lia) He) as (M' & k' & Hk' & EM' & RM' & ->).
  assert (k = k'). { destruct (Z.lt_trichotomy k k') as [L|[E|L]]; [|assumption|]; exfalso.
    - assert (2 ^ (k + 1) <= 2 ^ k') by (apply Z.pow_le_mono_r; lia). rewrite Z.pow_add_r in H0 by lia. change (2 ^ 1) with 2 in H0. assert (2 * 2 ^ 52 = 2 ^ 53) by reflexivity. nia.
    - assert (2 ^ (k' + 1) <= 2 ^ k) by (apply Z.pow_le_mono_r; lia). rewrite Z.pow_add_r in H0 by lia. change (2 ^ 1) with 2 in H0. assert (2 * 2 ^ 52 = 2 ^ 53) by reflexivity. nia. }
  subst k'. assert (M = M') by lia. subst M'. reflexivity.
Qed.
