(* Proofs about the conversions between 90 kHz ticks and nanoseconds: the rounding
   errors of the double arithmetic are too small to matter. *)
From Coq Require Import ZifyBool ZifyNat Floats.SpecFloat QArith Qpower Lqa.
From Verif Require Import Base MFloat MPes PParDur PParFloat.
Local Open Scope Z_scope.

Lemma shr_1_m : forall r, 0 <= shr_m r -> shr_m (shr_1 r) = shr_m r / 2 /\ 0 <= shr_m (shr_1 r).
Proof.
  intros [m r s] H. cbn [shr_m] in H. destruct m as [|p|p]; [split; reflexivity| |lia].
  destruct p as [p|p|]; cbn [shr_1 shr_m]; (split; [|lia]).
  - apply (Z.div_unique _ 2 _ 1); lia.
  - apply (Z.div_unique _ 2 _ 0); lia.
  - reflexivity.
Qed.
Lemma iter_shr_m : forall k r, 0 <= shr_m r ->
  shr_m (SpecFloat.iter_pos shr_1 k r) = shr_m r / 2 ^ Zpos k /\ 0 <= shr_m (SpecFloat.iter_pos shr_1 k r).
Proof.
  induction k as [k IH|k IH|]; intros r H; cbn [SpecFloat.iter_pos].
  - destruct (shr_1_m r H) as [A1 A2]. destruct (IH _ A2) as [B1 B2]. destruct (IH _ B2) as [C1 C2].
    split; [|exact C2]. rewrite C1, B1, A1. rewrite !Z.div_div by (try lia; apply Z.pow_pos_nonneg; lia). f_equal.
    replace (Zpos k~1) with (1 + Zpos k + Zpos k) by lia. rewrite !Z.pow_add_r by lia. change (2 ^ 1) with 2. ring.
  - destruct (IH _ H) as [B1 B2]. destruct (IH _ B2) as [C1 C2].
    split; [|exact C2]. rewrite C1, B1. rewrite !Z.div_div by (try lia; apply Z.pow_pos_nonneg; lia). f_equal.
    replace (Zpos k~0) with (Zpos k + Zpos k) by lia. rewrite !Z.pow_add_r by lia. reflexivity.
  - exact (shr_1_m r H).
Qed.

Lemma shr_m_of_loc : forall m l, shr_m (shr_record_of_loc m l) = m.
Proof. intros m [|[| |]]; reflexivity. Qed.

Lemma Zdigits2_range : forall m k, 0 < k -> 2 ^ (k - 1) <= m < 2 ^ k -> Zdigits2 m = k.
Proof.
  intros m k Hk H. assert (0 < 2 ^ (k - 1)) by (apply Z.pow_pos_nonneg; lia).
  destruct m as [|p|p]; [lia| |lia]. cbn [Zdigits2]. apply digits_range; assumption.
Qed.

Lemma shr_fexp_norm : forall m e l d, 53 <= d <= 110 -> 2 ^ (d - 1) <= m < 2 ^ d -> -900 <= e <= 900 ->
  exists r, shr_fexp 53 1024 m e l = (r, e + (d - 53)) /\ shr_m r = m / 2 ^ (d - 53).
Proof.
  intros m e l d Hd Hm He. unfold shr_fexp. rewrite (Zdigits2_range m d) by lia.
  replace (fexp 53 1024 (d + e) - e) with (d - 53) by (unfold fexp, emin; lia).
  assert (0 < 2 ^ (d - 1)) by (apply Z.pow_pos_nonneg; lia).
  destruct (d - 53) as [|p|p] eqn:E; [| |lia]; cbn [shr].
  - eexists. rewrite Z.add_0_r. split; [reflexivity|]. rewrite shr_m_of_loc. cbn [Z.pow]. rewrite Z.div_1_r. reflexivity.
  - eexists. split; [reflexivity|]. destruct (iter_shr_m p (shr_record_of_loc m l)) as [A _]; [rewrite shr_m_of_loc; lia|].
    rewrite A, shr_m_of_loc. reflexivity.
Qed.

Lemma round_bounds : forall m l, m <= round_nearest_even m l <= m + 1.
Proof. intros m [|[| |]]; cbn [round_nearest_even]; try lia. destruct (Z.even m); lia. Qed.

Lemma round_aux : forall m e l, 2 ^ 52 <= m < 2 ^ 110 -> -900 <= e <= 800 ->
  exists m' e', binary_round_aux 53 1024 false m e l = S754_finite false m' e' /\
    2 ^ 52 <= Zpos m' < 2 ^ 53 /\ e <= e' <= e + 58 /\
    (2 ^ 51 - 1) * m <= 2 ^ 51 * (Zpos m' * 2 ^ (e' - e)) <= (2 ^ 51 + 1) * m.
Proof.
  intros m e l Hm He. set (d := Z.log2 m + 1).
  assert (Hd : 53 <= d <= 110 /\ 2 ^ (d - 1) <= m < 2 ^ d).
  { pose proof (Z.log2_spec m ltac:(lia)) as S. pose proof (Z.log2_le_mono _ _ (proj1 Hm)) as L1. rewrite Z.log2_pow2 in L1 by lia.
    assert (L2 : Z.log2 m < 110) by (apply Z.log2_lt_pow2; lia).
    unfold d. replace (Z.log2 m + 1 - 1) with (Z.log2 m) by lia. split; [lia|exact S]. }
  destruct Hd as [Hd Hb]. set (n := d - 53) in *.
  destruct (shr_fexp_norm m e l d Hd Hb ltac:(lia)) as (r1 & E1 & M1). fold n in E1, M1.
  unfold binary_round_aux. rewrite E1. cbv beta iota. rewrite M1.
  set (P := 2 ^ n). assert (HP : 0 < P) by (apply Z.pow_pos_nonneg; unfold n; lia).
  assert (Ed : 2 ^ d = 2 ^ 53 * P) by (unfold P; rewrite <- Z.pow_add_r by (unfold n; lia); f_equal; unfold n; lia).
  assert (Ed1 : 2 ^ (d - 1) = 2 ^ 52 * P) by (unfold P; rewrite <- Z.pow_add_r by (unfold n; lia); f_equal; unfold n; lia).
  rewrite Ed, Ed1 in Hb. fold P in M1.
  pose proof (Z.div_mod m P ltac:(lia)) as DM. pose proof (Z.mod_pos_bound m P HP) as MB.
  set (q := m / P) in *. assert (Q : 2 ^ 52 <= q < 2 ^ 53) by nia.
  pose proof (round_bounds q (loc_of_shr_record r1)) as RB.
  set (r := round_nearest_even q (loc_of_shr_record r1)) in *.
  assert (RV : (2 ^ 51 - 1) * m <= 2 ^ 51 * (r * P) <= (2 ^ 51 + 1) * m) by nia.
  assert (C : r < 2 ^ 53 \/ r = 2 ^ 53) by lia.
  assert (Hn : 0 <= n <= 57) by (unfold n; lia).
  destruct C as [C|C].
  - destruct (shr_fexp_norm r (e + n) loc_Exact 53) as (r2 & E2 & M2); [lia|change (53 - 1) with 52; lia|lia|].
    rewrite E2. cbv beta iota. rewrite M2. change (2 ^ (53 - 53)) with 1. rewrite Z.div_1_r.
    destruct r as [|m'|m'] eqn:Er; [lia| |lia]. change (53 - 53) with 0. rewrite Z.add_0_r.
    destruct (Z.leb_spec (e + n) (1024 - 53)); [|lia].
    exists m', (e + n). split; [reflexivity|]. split; [lia|]. split; [lia|]. replace (e + n - e) with n by lia. exact RV.
  - destruct (shr_fexp_norm r (e + n) loc_Exact 54) as (r2 & E2 & M2); [lia|change (54 - 1) with 53; rewrite C; split; [lia|reflexivity]|lia|].
    rewrite E2. cbv beta iota. rewrite M2, C. change (2 ^ 53 / 2 ^ (54 - 53)) with 4503599627370496. cbv iota.
    change (54 - 53) with 1. destruct (Z.leb_spec (e + n + 1) (1024 - 53)); [|lia].
    eexists _, (e + n + 1). split; [reflexivity|]. split; [split; [discriminate | reflexivity]|]. split; [lia|].
    replace (e + n + 1 - e) with (1 + n) by lia. rewrite Z.pow_add_r by lia. fold P.
    replace (4503599627370496 * (2 ^ 1 * P)) with (r * P) by (rewrite C; ring). exact RV.
Qed.

(* the value of a float as a rational *)
Definition F (m e : Z) : Q := (inject_Z m * Qpower 2 e)%Q.
Lemma F_pos : forall e, (0 < Qpower 2 e)%Q.
Proof.
  intro e. assert (N : ~ (Qpower 2 e == 0)%Q) by (apply Qpower_not_0; discriminate).
  pose proof (Qpower_pos 2 e ltac:(discriminate)) as P. apply Qle_lteq in P. destruct P as [P|P]; [exact P|].
  exfalso. apply N. symmetry. exact P.
Qed.
Lemma F_shift : forall m e n, 0 <= n -> (F m (e + n) == F (m * 2 ^ n) e)%Q.
Proof.
  intros m e n H. unfold F. rewrite inject_Z_mult, Zpower_Qpower by assumption. rewrite Qpower_plus by discriminate.
  change (inject_Z 2) with 2%Q. ring.
Qed.
Lemma F_mul : forall m1 e1 m2 e2, (F (m1 * m2) (e1 + e2) == F m1 e1 * F m2 e2)%Q.
Proof. intros. unfold F. rewrite inject_Z_mult, Qpower_plus by discriminate. ring. Qed.
Lemma F_le : forall a b e, a <= b -> (F a e <= F b e)%Q.
Proof.
  intros a b e H. unfold F. apply Qmult_le_compat_r; [rewrite <- Zle_Qle; assumption | apply Qlt_le_weak, F_pos].
Qed.
Lemma F_scale : forall c a e, (F (c * a) e == inject_Z c * F a e)%Q.
Proof. intros. unfold F. rewrite inject_Z_mult. ring. Qed.
Lemma F_add : forall a b e, (F (a + b) e == F a e + F b e)%Q.
Proof. intros. unfold F. rewrite inject_Z_plus. ring. Qed.

Definition near (x y : Q) : Prop :=
  (inject_Z (2 ^ 50 - 1) * y <= inject_Z (2 ^ 50) * x <= inject_Z (2 ^ 50 + 1) * y)%Q.

Definition norm (m : positive) (e lo hi : Z) : Prop := 2 ^ 52 <= Zpos m < 2 ^ 53 /\ lo <= e <= hi.

Lemma mul_near : forall m1 e1 m2 e2 lo1 hi1 lo2 hi2, norm m1 e1 lo1 hi1 -> norm m2 e2 lo2 hi2 ->
  -900 <= lo1 + lo2 -> hi1 + hi2 <= 800 ->
  exists m e, f64_mul (S754_finite false m1 e1) (S754_finite false m2 e2) = S754_finite false m e /\
    norm m e (lo1 + lo2) (hi1 + hi2 + 58) /\ near (F (Zpos m) e) (F (Zpos m1) e1 * F (Zpos m2) e2).
Proof.
  intros m1 e1 m2 e2 lo1 hi1 lo2 hi2 [A1 B1] [A2 B2] L H. unfold f64_mul. cbn [SFmul xorb].
  destruct (round_aux (Zpos m1 * Zpos m2) (e1 + e2) loc_Exact) as (m & e & E & N & Ee & V).
  { change (2 ^ 110) with (2 ^ 4 * (2 ^ 53 * 2 ^ 53)). nia. }
  { lia. }
  exists m, e. split; [exact E|]. split; [split; [exact N|lia]|].
  unfold near. rewrite <- F_mul.
  assert (X : (F (Zpos m) e == F (Zpos m * 2 ^ (e - (e1 + e2))) (e1 + e2))%Q).
  { rewrite <- F_shift by lia. replace (e1 + e2 + (e - (e1 + e2))) with e by lia. reflexivity. }
  rewrite X, <- !F_scale. split; apply F_le; lia.
Qed.

Lemma div_near : forall m1 e1 m2 e2 lo1 hi1 lo2 hi2, norm m1 e1 lo1 hi1 -> norm m2 e2 lo2 hi2 ->
  -800 <= lo1 - hi2 -> hi1 - lo2 <= 800 ->
  exists m e, f64_div (S754_finite false m1 e1) (S754_finite false m2 e2) = S754_finite false m e /\
    norm m e (lo1 - hi2 - 53) (hi1 - lo2 + 5) /\ near (F (Zpos m) e * F (Zpos m2) e2) (F (Zpos m1) e1).
Proof.
  intros m1 e1 m2 e2 lo1 hi1 lo2 hi2 [A1 B1] [A2 B2] L H. unfold f64_div. cbn [SFdiv xorb]. unfold SFdiv_core_binary.
  rewrite (Zdigits2_range (Zpos m1) 53), (Zdigits2_range (Zpos m2) 53) by (change (53 - 1) with 52; lia).
  replace (Z.min (fexp 53 1024 (53 + e1 - (53 + e2))) (e1 - e2)) with (e1 - e2 - 53) by (unfold fexp, emin; lia).
  replace (e1 - e2 - (e1 - e2 - 53)) with 53 by lia. rewrite Z.shiftl_mul_pow2 by lia.
  pose proof (Z_div_mod (Zpos m1 * 2 ^ 53) (Zpos m2) ltac:(lia)) as D.
  destruct (Z.div_eucl (Zpos m1 * 2 ^ 53) (Zpos m2)) as [q r]. destruct D as [D R].
  assert (Q : 2 ^ 52 <= q < 2 ^ 54).
  { change (2 ^ 54) with (2 * 2 ^ 53). change (2 ^ 53) with (2 * 2 ^ 52) in *. split; nia. }
  destruct (round_aux q (e1 - e2 - 53) (new_location (Zpos m2) r)) as (m & e & E & N & Ee & V).
  { change (2 ^ 110) with (2 ^ 54 * 2 ^ 56). lia. }
  { lia. }
  exists m, e. split; [exact E|]. split; [split; [exact N|lia]|].
  unfold near. rewrite <- F_mul.
  set (n := e - (e1 - e2 - 53)) in *. set (a := Zpos m * 2 ^ n) in *.
  assert (X1 : (F (Zpos m * Zpos m2) (e + e2) == F (a * Zpos m2) (e1 - 53))%Q).
  { replace (e + e2) with (e1 - 53 + n) by (unfold n; lia). rewrite F_shift by (unfold n; lia).
    replace (Zpos m * Zpos m2 * 2 ^ n) with (a * Zpos m2) by (unfold a; ring). reflexivity. }
  assert (X2 : (F (Zpos m1) e1 == F (Zpos m1 * 2 ^ 53) (e1 - 53))%Q).
  { replace e1 with (e1 - 53 + 53) at 1 by lia. apply F_shift. lia. }
  rewrite X1, X2, <- !F_scale. clearbody a. clear X1 X2 E.
  assert (K : (2 ^ 50 - 1) * (Zpos m1 * 2 ^ 53) <= 2 ^ 50 * (a * Zpos m2) <= (2 ^ 50 + 1) * (Zpos m1 * 2 ^ 53)).
  { rewrite D. set (M := Zpos m2) in *. clearbody M. clear - V R Q A2.
    assert (Y1 : (2 ^ 51 - 1) * q * M <= 2 ^ 51 * a * M) by (apply Z.mul_le_mono_nonneg_r; lia).
    assert (Y2 : 2 ^ 51 * a * M <= (2 ^ 51 + 1) * q * M) by (apply Z.mul_le_mono_nonneg_r; lia).
    assert (Y3 : 2 ^ 52 * M <= M * q) by nia.
    split; lia. }
  split; apply F_le; lia.
Qed.

Lemma of_Z_near : forall v, 0 < v < 2 ^ 53 ->
  exists m e, f64_of_Z v = S754_finite false m e /\ norm m e (-52) 0 /\ (F (Zpos m) e == inject_Z v)%Q.
Proof.
  intros v Hv. destruct v as [|p|p]; [lia| |lia]. unfold f64_of_Z. cbn [binary_normalize]. unfold binary_round.
  pose proof (digits2_lt p) as D1. pose proof (digits2_ge p) as D2. set (d := Zpos (digits2_pos p)) in *.
  assert (Hd : 1 <= d <= 53).
  { split; [lia|]. destruct (Z.le_gt_cases d 53); [assumption|]. exfalso. assert (2 ^ 53 <= 2 ^ (d - 1)) by (apply Z.pow_le_mono_r; lia). lia. }
  replace (fexp 53 1024 (d + 0)) with (d - 53) by (unfold fexp, emin; lia). unfold shl_align. rewrite Z.sub_0_r.
  assert (G : exists m, (match d - 53 with Zneg k => (shift_pos k p, d - 53) | _ => (p, 0) end) = (m, d - 53) /\ Zpos m = Zpos p * 2 ^ (53 - d)).
  { destruct (d - 53) as [|k|k] eqn:Ek; [|lia|].
    - exists p. split; [reflexivity|]. replace (53 - d) with 0 by lia. lia.
    - exists (shift_pos k p). split; [reflexivity|]. rewrite shift_pos_correct, Z.pow_pos_fold. replace (53 - d) with (Zpos k) by lia. lia. }
  destruct G as (m & G1 & G2). rewrite G1.
  assert (P : 0 < 2 ^ (53 - d)) by (apply Z.pow_pos_nonneg; lia).
  assert (Nm : 2 ^ 52 <= Zpos m < 2 ^ 53).
  { assert (Q1 : 2 ^ 52 = 2 ^ (d - 1) * 2 ^ (53 - d)) by (rewrite <- Z.pow_add_r by lia; f_equal; lia).
    assert (Q2 : 2 ^ 53 = 2 ^ d * 2 ^ (53 - d)) by (rewrite <- Z.pow_add_r by lia; f_equal; lia).
    rewrite G2, Q1, Q2. split; nia. }
  destruct (shr_fexp_norm (Zpos m) (d - 53) loc_Exact 53) as (r1 & E1 & M1); [lia|change (53 - 1) with 52; lia|lia|].
  exists m, (d - 53). split.
  - unfold binary_round_aux. unfold shr_fexp. rewrite (Zdigits2_range (Zpos m) 53) by (change (53 - 1) with 52; lia).
    replace (fexp 53 1024 (53 + (d - 53)) - (d - 53)) with 0 by (unfold fexp, emin; lia).
    cbn [shr shr_record_of_loc loc_of_shr_record round_nearest_even shr_m].
    rewrite (Zdigits2_range (Zpos m) 53) by (change (53 - 1) with 52; lia).
    replace (fexp 53 1024 (53 + (d - 53)) - (d - 53)) with 0 by (unfold fexp, emin; lia).
    cbn [shr shr_record_of_loc shr_m]. destruct (Z.leb_spec (d - 53) (1024 - 53)); [reflexivity|lia].
  - split; [split; [exact Nm|lia]|]. rewrite G2, <- F_shift by lia. replace (d - 53 + (53 - d)) with 0 by lia. unfold F. cbn [Qpower]. ring.
Qed.

Lemma trunc_near : forall m e, exists z, f64_trunc (S754_finite false m e) = Some z /\ 0 <= z /\
  (inject_Z z <= F (Zpos m) e)%Q /\ (F (Zpos m) e < inject_Z z + 1)%Q.
Proof.
  intros m e. cbn [f64_trunc]. eexists. split; [reflexivity|]. destruct (Z.leb_spec 0 e) as [H|H].
  - assert (0 < 2 ^ e) by (apply Z.pow_pos_nonneg; lia). split; [lia|].
    assert (E : (F (Zpos m) e == inject_Z (Zpos m * 2 ^ e))%Q).
    { replace e with (0 + e) at 1 by lia. rewrite F_shift by lia. unfold F. cbn [Qpower]. ring. }
    rewrite E. split; lra.
  - set (P := 2 ^ (- e)). assert (HP : 0 < P) by (apply Z.pow_pos_nonneg; lia).
    pose proof (Z.div_mod (Zpos m) P ltac:(lia)) as DM. pose proof (Z.mod_pos_bound (Zpos m) P HP) as MB.
    set (z := Zpos m / P) in *. split; [apply Z.div_pos; lia|].
    assert (E : forall k, (F (k * P) e == inject_Z k)%Q).
    { intro k. unfold P. rewrite <- F_shift by lia. replace (e + - e) with 0 by lia. unfold F. cbn [Qpower]. ring. }
    split.
    + rewrite <- E. apply F_le. nia.
    + assert (L : (F (Zpos m + 1) e <= inject_Z (z + 1))%Q) by (rewrite <- E; apply F_le; nia).
      rewrite F_add in L. rewrite inject_Z_plus in L. unfold F at 2 in L. pose proof (F_pos e). change (inject_Z 1) with 1%Q in L. lra.
Qed.

Theorem tick_roundtrip : forall t, 0 <= t < 2 ^ 33 ->
  exists ns t', Khz90TicksToNanoseconds t = Val ns /\ NanosecondsTo90KhzTicks ns = Val t' /\ t - 1 <= t' <= t.
Proof.
  intros t Ht. destruct (Z.eq_dec t 0) as [->|Nt].
  { exists 0, 0. split; [vm_compute; reflexivity|]. split; [vm_compute; reflexivity|]. lia. }
  unfold Khz90TicksToNanoseconds, NanosecondsTo90KhzTicks, kNanosecondsPerSecond, f64_to_s64.
  destruct (of_Z_near 90000) as (mk & ek & Ek & Nk & Fk); [lia|].
  destruct (of_Z_near 1000000000) as (mg & eg & Eg & Ng & Fg); [lia|].
  destruct (of_Z_near t) as (m1 & e1 & E1 & N1 & F1); [change (2 ^ 53) with (2 ^ 33 * 2 ^ 20); lia|].
  rewrite Ek, Eg, E1.
  destruct (div_near _ _ _ _ _ _ _ _ N1 Nk ltac:(lia) ltac:(lia)) as (m2 & e2 & E2 & N2 & F2). rewrite E2.
  destruct (mul_near _ _ _ _ _ _ _ _ N2 Ng ltac:(lia) ltac:(lia)) as (m3 & e3 & E3 & N3 & F3). rewrite E3.
  destruct (trunc_near m3 e3) as (ns & T3 & P3 & L3 & U3). rewrite T3.
  set (s := F (Zpos m2) e2) in *. set (p := F (Zpos m3) e3) in *.
  unfold near in F2, F3. rewrite F1, Fk in F2. rewrite Fg in F3.
  assert (Tq : (1 <= inject_Z t)%Q) by (change 1%Q with (inject_Z 1); rewrite <- Zle_Qle; lia).
  assert (Tq2 : (inject_Z t <= inject_Z (2 ^ 33))%Q) by (rewrite <- Zle_Qle; lia).
  change (inject_Z (2 ^ 50)) with 1125899906842624%Q in *. change (inject_Z (2 ^ 50 - 1)) with 1125899906842623%Q in *.
  change (inject_Z (2 ^ 50 + 1)) with 1125899906842625%Q in *. change (inject_Z (2 ^ 33)) with 8589934592%Q in *.
  change (inject_Z 90000) with 90000%Q in *. change (inject_Z 1000000000) with 1000000000%Q in *.
  assert (Bn : 0 < ns < 2 ^ 47).
  { split.
    - rewrite Zlt_Qlt. change (inject_Z 0) with 0%Q. lra.
    - rewrite Zlt_Qlt. change (inject_Z (2 ^ 47)) with 140737488355328%Q. lra. }
  assert (P47 : 2 ^ 47 < 2 ^ 53) by reflexivity.
  replace ((-9223372036854775808 <=? ns) && (ns <=? 9223372036854775807)) with true by (change (2 ^ 47) with 140737488355328 in Bn; lia).
  destruct (of_Z_near ns) as (m4 & e4 & E4 & N4 & F4); [lia|].
  destruct (div_near _ _ _ _ _ _ _ _ N4 Ng ltac:(lia) ltac:(lia)) as (m5 & e5 & E5 & N5 & F5).
  destruct (mul_near _ _ _ _ _ _ _ _ N5 Nk ltac:(lia) ltac:(lia)) as (m6 & e6 & E6 & N6 & F6).
  destruct (trunc_near m6 e6) as (t' & T6 & P6 & L6 & U6).
  set (q := F (Zpos m5) e5) in *. set (r := F (Zpos m6) e6) in *.
  unfold near in F5, F6. rewrite F4, Fg in F5. rewrite Fk in F6.
  change (inject_Z (2 ^ 50)) with 1125899906842624%Q in *. change (inject_Z (2 ^ 50 - 1)) with 1125899906842623%Q in *.
  change (inject_Z (2 ^ 50 + 1)) with 1125899906842625%Q in *.
  change (inject_Z 90000) with 90000%Q in *. change (inject_Z 1000000000) with 1000000000%Q in *.
  assert (R : t - 1 <= t' <= t).
  { clear - F2 F3 L3 U3 F5 F6 L6 U6 Tq Tq2.
    assert (A : (inject_Z t - 1 < inject_Z t' + 1)%Q /\ (inject_Z t' < inject_Z t + 1)%Q).
    { split; lra. }
    destruct A as [A1 A2].
    assert (B1 : (inject_Z (t - 2) < inject_Z t')%Q).
    { unfold Z.sub. rewrite inject_Z_plus. change (inject_Z (- (2))) with (- (2))%Q. lra. }
    assert (B2 : (inject_Z t' < inject_Z (t + 1))%Q).
    { rewrite inject_Z_plus. change (inject_Z 1) with 1%Q. lra. }
    rewrite <- Zlt_Qlt in B1, B2. lia. }
  exists ns, t'. split; [reflexivity|]. rewrite E4, E5, E6, T6.
  replace ((-9223372036854775808 <=? t') && (t' <=? 9223372036854775807)) with true by lia. split; [reflexivity|exact R].
Qed.
