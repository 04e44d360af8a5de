(* Mantissas of binary64 products, and the reported duration. *)
From Coq Require Import ZifyBool ZifyNat Floats.SpecFloat.
From Verif Require Import Base MFloat Ids MMuxMeta MParUtil MParMeta ReaderSpec PParUtil PParMeta PParMeta2.

Lemma digits2_lt : forall p, Zpos p < 2 ^ Zpos (digits2_pos p).
Proof.
  induction p as [p IH|p IH|]; cbn [digits2_pos]; [| |reflexivity].
  - rewrite Pos2Z.inj_succ, Z.pow_succ_r by lia. lia.
  - rewrite Pos2Z.inj_succ, Z.pow_succ_r by lia. lia.
Qed.
Lemma Zdigits2_lt : forall m, 0 <= m -> m < 2 ^ Zdigits2 m.
Proof. intros [|p|p] H; [reflexivity|apply digits2_lt|lia]. Qed.

Lemma shr_1_m : forall r, 0 <= shr_m r -> shr_m (shr_1 r) = shr_m r / 2.
Proof.
  intros [m rr ss] H. cbn [shr_m] in H. unfold shr_1. cbn [shr_m]. destruct m as [|p|p]; [reflexivity| |lia].
  destruct p as [p|p|]; cbn [shr_m]; [| |reflexivity]; Z.to_euclidean_division_equations; lia.
Qed.
Lemma iter_shr_m : forall n r, 0 <= shr_m r -> shr_m (SpecFloat.iter_pos shr_1 n r) = shr_m r / 2 ^ Zpos n.
Proof.
  assert (H1 : forall r, 0 <= shr_m r -> 0 <= shr_m (shr_1 r)) by (intros; rewrite shr_1_m by assumption; apply Z.div_pos; lia).
  induction n as [n IH|n IH|]; intros r H; cbn [SpecFloat.iter_pos].
  - assert (E1 : 0 <= shr_m (SpecFloat.iter_pos shr_1 n (shr_1 r))) by (rewrite IH by auto; apply Z.div_pos; [auto|lia]).
    rewrite IH by exact E1. rewrite IH by auto. rewrite shr_1_m by assumption. rewrite !Z.div_div by lia. f_equal.
    assert (E2 : Zpos n~1 = Zpos n + Zpos n + 1) by lia. rewrite E2, !Z.pow_add_r by lia. lia.
  - assert (E1 : 0 <= shr_m (SpecFloat.iter_pos shr_1 n r)) by (rewrite IH by auto; apply Z.div_pos; [auto|lia]).
    rewrite IH by exact E1. rewrite IH by auto. rewrite !Z.div_div by lia. f_equal.
    assert (E2 : Zpos n~0 = Zpos n + Zpos n) by lia. rewrite E2, !Z.pow_add_r by lia. lia.
  - rewrite shr_1_m by assumption. reflexivity.
Qed.

Lemma shr_fexp_small : forall m e l, 0 <= m -> 0 <= shr_m (fst (shr_fexp 53 1024 m e l)) < 2 ^ 53.
Proof.
  intros m e l H. unfold shr_fexp. pose proof (Zdigits2_lt m H) as D.
  assert (Hd : 0 <= Zdigits2 m) by (destruct m; cbn [Zdigits2]; lia).
  set (n := fexp 53 1024 (Zdigits2 m + e) - e). assert (Hn : Zdigits2 m - 53 <= n) by (unfold n, fexp, emin; lia).
  assert (Em : shr_m (shr_record_of_loc m l) = m) by (destruct l as [|[| |]]; reflexivity).
  unfold shr. destruct n as [|p|p]; cbn [fst].
  - rewrite Em. split; [assumption|]. assert (2 ^ Zdigits2 m <= 2 ^ 53) by (apply Z.pow_le_mono_r; lia). lia.
  - rewrite iter_shr_m by (rewrite Em; exact H). rewrite Em. split; [apply Z.div_pos; lia|].
    apply Z.div_lt_upper_bound; [lia|]. rewrite <- Z.pow_add_r by lia.
    assert (2 ^ Zdigits2 m <= 2 ^ (Zpos p + 53)) by (apply Z.pow_le_mono_r; lia). lia.
  - rewrite Em. split; [assumption|]. assert (2 ^ Zdigits2 m <= 2 ^ 53) by (apply Z.pow_le_mono_r; lia). lia.
Qed.

Definition small64 (x : f64) : Prop := match x with S754_finite _ m _ => Zpos m < 2 ^ 53 | S754_nan => False | _ => True end.
Lemma round_aux_small : forall s m e l, 0 <= m -> small64 (binary_round_aux 53 1024 s m e l).
Proof.
  intros s m e l H. unfold binary_round_aux. pose proof (shr_fexp_small m e l H) as H1.
  destruct (shr_fexp 53 1024 m e l) as [r1 e1]. cbn [fst] in H1.
  assert (H2 : 0 <= round_nearest_even (shr_m r1) (loc_of_shr_record r1)).
  { unfold round_nearest_even. destruct (loc_of_shr_record r1) as [|[| |]]; try lia. destruct (Z.even _); lia. }
  pose proof (shr_fexp_small _ e1 loc_Exact H2) as H3. destruct (shr_fexp 53 1024 (round_nearest_even _ _) e1 loc_Exact) as [r2 e2]. cbn [fst] in H3.
  destruct (shr_m r2) as [|p|p]; [exact I| |lia]. destruct (e2 <=? 1024 - 53); [cbn [small64]; lia|exact I].
Qed.
Lemma mul_small : forall a b, (forall s, a <> S754_infinity s) -> a <> S754_nan -> (forall s, b <> S754_infinity s) -> b <> S754_nan -> small64 (f64_mul a b).
Proof.
  intros a b A1 A2 B1 B2. unfold f64_mul, SFmul. destruct a as [sa|sa| |sa ma ea]; try congruence; destruct b as [sb|sb| |sb mb eb]; try congruence; try exact I.
  apply round_aux_small. lia.
Qed.

Lemma digits2_ge : forall p, 2 ^ (Zpos (digits2_pos p) - 1) <= Zpos p.
Proof.
  induction p as [p IH|p IH|]; cbn [digits2_pos]; [| |vm_compute; discriminate];
    rewrite Pos2Z.inj_succ; replace (Z.succ (Zpos (digits2_pos p)) - 1) with (Z.succ (Zpos (digits2_pos p) - 1)) by lia; rewrite Z.pow_succ_r by lia; lia.
Qed.
Lemma Zdigits2_le : forall m k, 0 <= m < 2 ^ k -> 0 <= k -> Zdigits2 m <= k.
Proof.
  intros [|p|p] k H Hk; cbn [Zdigits2]; [lia| |lia]. pose proof (digits2_ge p).
  destruct (Z.le_gt_cases (Zpos (digits2_pos p)) k); [assumption|]. exfalso.
  assert (2 ^ k <= 2 ^ (Zpos (digits2_pos p) - 1)) by (apply Z.pow_le_mono_r; lia). lia.
Qed.
Lemma shr_fexp_exp : forall m e l, snd (shr_fexp 53 1024 m e l) <= Z.max e (Z.max (Zdigits2 m + e - 53) (-1074)).
Proof.
  intros m e l. unfold shr_fexp. set (n := fexp 53 1024 (Zdigits2 m + e) - e).
  assert (Hn : n = Z.max (Zdigits2 m + e - 53) (-1074) - e) by (unfold n, fexp, emin; lia).
  unfold shr. destruct n as [|p|p]; cbn [snd]; lia.
Qed.
Definition finite64 (x : f64) : Prop := match x with S754_finite _ _ _ | S754_zero _ => True | _ => False end.
Lemma round_aux_finite : forall s m e k, 0 <= m < 2 ^ k -> 0 <= k -> k + e <= 1000 -> e <= 900 ->
  finite64 (binary_round_aux 53 1024 s m e loc_Exact).
Proof.
  intros s m e k Hm Hk Hke He. unfold binary_round_aux. pose proof (shr_fexp_small m e loc_Exact ltac:(lia)) as H1. pose proof (shr_fexp_exp m e loc_Exact) as X1.
  pose proof (Zdigits2_le m k Hm Hk).
  destruct (shr_fexp 53 1024 m e loc_Exact) as [r1 e1]. cbn [fst snd] in *.
  assert (H2 : 0 <= round_nearest_even (shr_m r1) (loc_of_shr_record r1) < 2 ^ 54).
  { unfold round_nearest_even. destruct (loc_of_shr_record r1) as [|[| |]]; try lia. destruct (Z.even _); lia. }
  pose proof (Zdigits2_le _ 54 H2 ltac:(lia)).
  pose proof (shr_fexp_small (round_nearest_even (shr_m r1) (loc_of_shr_record r1)) e1 loc_Exact ltac:(lia)) as H3.
  pose proof (shr_fexp_exp (round_nearest_even (shr_m r1) (loc_of_shr_record r1)) e1 loc_Exact) as X2.
  destruct (shr_fexp 53 1024 (round_nearest_even _ _) e1 loc_Exact) as [r2 e2]. cbn [fst snd] in *.
  destruct (shr_m r2) as [|p|p]; [exact I| |lia]. destruct (Z.leb_spec e2 (1024 - 53)); [exact I|lia].
Qed.
Lemma round_finite : forall s m e k, Zpos m < 2 ^ k -> 0 <= k -> k + e <= 1000 -> e <= 900 -> finite64 (binary_round 53 1024 s m e).
Proof.
  intros s m e k Hm Hk Hke He. unfold binary_round. set (x := fexp _ _ _). unfold shl_align.
  destruct (x - e) as [|d|d] eqn:E; [eapply (round_aux_finite _ _ _ k); lia|eapply (round_aux_finite _ _ _ k); lia|].
  apply (round_aux_finite _ _ _ (k + Zpos d)); try lia. rewrite shift_pos_correct, Z.pow_pos_fold. rewrite Z.pow_add_r by lia. nia.
Qed.
Lemma of_Z_finite : forall v, 0 <= v < 2 ^ 64 -> finite64 (f64_of_Z v).
Proof.
  intros [|p|p] H; [exact I| |lia]. unfold f64_of_Z, binary_normalize. apply (round_finite _ _ _ 64); lia.
Qed.
Lemma bits32_finite : forall u, nonfinite32 u = false -> finite64 (f64_of_bits32 u).
Proof.
  intros u H. unfold nonfinite32 in H. unfold f64_of_bits32, f32_of_bits.
  assert (E : Z.land (Z.shiftr u 23) 255 = u / 8388608 mod 256).
  { change 255 with (Z.ones 8). rewrite Z.land_ones, Z.shiftr_div_pow2 by lia. reflexivity. }
  rewrite E in H. rewrite H. pose proof (Z.mod_pos_bound (u / 8388608) 256 ltac:(lia)). pose proof (Z.mod_pos_bound u 8388608 ltac:(lia)).
  destruct (u / 8388608 mod 256 =? 0).
  - destruct (u mod 8388608) as [|p|p] eqn:Em; try exact I. apply (round_finite _ _ _ 23); lia.
  - destruct (u mod 8388608 + 8388608) as [|p|p] eqn:Em; try lia. apply (round_finite _ _ _ 24); lia.
Qed.
Lemma bits64_finite : forall u, nonfinite64 u = false -> finite64 (f64_of_bits64 u).
Proof.
  intros u H. unfold nonfinite64 in H. unfold f64_of_bits64. cbv zeta.
  assert (E : Z.land (Z.shiftr u 52) 2047 = u / 2 ^ 52 mod 2048).
  { change 2047 with (Z.ones 11). rewrite Z.land_ones, Z.shiftr_div_pow2 by lia. reflexivity. }
  rewrite E in H. rewrite H. pose proof (Z.mod_pos_bound u (2 ^ 52) ltac:(lia)).
  destruct (u / 2 ^ 52 mod 2048 =? 0).
  - destruct (u mod 2 ^ 52); exact I.
  - destruct (u mod 2 ^ 52 + 2 ^ 52) as [|p|p] eqn:Em; [lia|exact I|lia].
Qed.

(* ---------- what the loop keeps ---------- *)

Lemma walk_keeps : forall S r zr (h : Z -> Z -> Z -> S -> outcome (step S)) (P : S -> Prop),
  (forall id pos size s s', P s -> h id pos size s = Val (Next s') -> P s') ->
  (forall id pos size s st s', P s -> h id pos size s = Val (Ret st s') -> st <> 0) ->
  forall fuel pos stop s s', P s -> walk fuel r zr h pos stop s = Val (0, s') -> P s'.
Proof.
  intros S r zr h P H1 H2. induction fuel as [|fuel IH]; intros pos stop s s' Hs H; cbn [walk] in H.
  - destruct (stop <=? pos); [|discriminate]. destruct (pos =? stop); [injection H as <-; exact Hs|discriminate].
  - destruct (stop <=? pos); [destruct (pos =? stop); [injection H as <-; exact Hs|discriminate]|].
    destruct (ParseElementHeader r pos stop) as (((st, pos'), id), size).
    destruct (Z.ltb_spec st 0); [injection H as E1 E2; lia|].
    destruct (_ && _); [exact (IH _ _ _ _ Hs H)|]. destruct (_ && _); [discriminate|].
    destruct (h id pos' size s) as [[s1|st1 s1]|] eqn:E; [| |discriminate].
    + destruct (_ >? LLONG_MAX); [discriminate|]. destruct (_ >? stop); [discriminate|]. exact (IH _ _ _ _ (H1 _ _ _ _ _ Hs E) H).
    + injection H as E1 E2. exfalso. exact (H2 _ _ _ _ _ _ Hs E E1).
Qed.

Lemma UInt_range : forall r pos size v, UnserializeUInt r pos size = Val v -> v < 2 ^ 63.
Proof.
  intros r pos size v. unfold UnserializeUInt. destruct (_ || _ || _); [intros E; injection E as <-; unfold E_FILE_FORMAT_INVALID; lia|].
  assert (G : forall n pos acc, acc < 2 ^ 63 -> UnserializeUInt_loop r n pos acc = Val v -> v < 2 ^ 63); [|apply G; lia]. clear pos size.
  induction n as [|n IH]; intros pos acc H0 H; cbn [UnserializeUInt_loop] in H; [injection H as <-; exact H0|].
  destruct (r_byte r pos) as [st|b]; [destruct (Z.ltb_spec st 0); [injection H as <-; lia|discriminate]|].
  apply IH in H; [exact H|]. unfold sint64, wraps. set (z := Z.lor _ _). pose proof (Z.mod_pos_bound z (2 ^ 64) ltac:(lia)). cbv zeta. change (64 - 1) with 63. destruct (Z.ltb_spec (z mod 2 ^ 64) (2 ^ 63)); lia.
Qed.

Definition good_info (i : seg_info) : Prop := finite64 (p_duration i) /\ 1 <= p_scale i < 2 ^ 63.

Lemma string_field_next : forall S r pos size (set : option (list Z) -> S) s', string_field r pos size set = Val (Next s') -> exists x, s' = set x.
Proof. intros S r pos size set s'. unfold string_field, on_status. destruct (UnserializeString r pos size) as [st x]. destruct (st =? 0); intros H; [injection H as <-; eauto|discriminate]. Qed.
Lemma string_field_ret : forall S r pos size (set : option (list Z) -> S) st s', string_field r pos size set = Val (Ret st s') -> st <> 0.
Proof. intros S r pos size set st s'. unfold string_field, on_status. destruct (UnserializeString r pos size) as [st' x]. destruct (Z.eqb_spec st' 0); intros H; [discriminate|injection H as <- <-; assumption]. Qed.

Lemma val_pair_inj : forall A B (a c : A) (b d : B), Val (a, b) = Val (c, d) -> a = c /\ b = d.
Proof. intros A B a c b d H. injection H as -> ->. auto. Qed.
Lemma float_ok : forall r pos size old d, ParseFloat r pos size old = Val (0, d) -> finite64 d.
Proof.
  intros r pos size old d. unfold ParseFloat, UnserializeFloat. destruct ((pos <? 0) || _) eqn:E0; [discriminate|].
  destruct (r_read r pos size) as [st|buf].
  - destruct (Z.ltb_spec st 0); [|discriminate]. intros H'. injection H' as H1 H2. lia.
  - destruct (size =? 4) eqn:E4.
    + destruct (nonfinite32 _) eqn:En; [discriminate|]. cbn [Z.eqb orb]. intros H. apply val_pair_inj in H. destruct H as [_ <-]. apply bits32_finite, En.
    + destruct (nonfinite64 _) eqn:En; [discriminate|]. cbn [Z.eqb orb]. intros H. apply val_pair_inj in H. destruct H as [_ <-]. apply bits64_finite, En.
Qed.
Lemma float_status : forall r pos size old st d, ParseFloat r pos size old = Val (st, d) -> st <= 0.
Proof.
  intros r pos size old st d. unfold ParseFloat, UnserializeFloat. destruct ((pos <? 0) || _) eqn:E0; [intros H; injection H as <- <-; unfold E_FILE_FORMAT_INVALID; lia|].
  destruct (r_read r pos size) as [s1|buf].
  - destruct (Z.ltb_spec s1 0); [|discriminate]. intros H'. injection H' as <- <-. lia.
  - destruct (size =? 4); [destruct (nonfinite32 _)|destruct (nonfinite64 _)]; intros H; apply val_pair_inj in H; destruct H as [<- _]; unfold E_FILE_FORMAT_INVALID; lia.
Qed.

Lemma info_element_keeps : forall r id pos size s s', good_info s -> info_element r id pos size s = Val (Next s') -> good_info s'.
Proof.
  intros r id pos size [sc du mu wr ti] s' (H1 & H2) H. unfold info_element in H. cbn [p_duration p_scale] in *.
  destruct (id =? kMkvTimecodeScale).
  { unfold uint_field in H. destruct (UnserializeUInt r pos size) as [v|] eqn:E; [|discriminate]. destruct (Z.leb_spec v 0); [discriminate|].
    injection H as <-. apply UInt_range in E. split; cbn [p_duration p_scale]; [exact H1|lia]. }
  destruct (id =? kMkvDuration).
  { destruct (ParseFloat r pos size du) as [[st d]|] eqn:E; [|discriminate]. destruct (Z.ltb_spec st 0); [discriminate|].
    destruct (f64_neg d); [discriminate|]. injection H as <-. pose proof (float_status _ _ _ _ _ _ E). replace st with 0 in E by lia.
    split; cbn [p_duration p_scale]; [exact (float_ok _ _ _ _ _ E)|lia]. }
  repeat match type of H with (if ?b then _ else _) = _ => destruct b; [apply string_field_next in H; destruct H as [x ->]; split; assumption|] end.
  injection H as <-. split; assumption.
Qed.
Lemma info_element_ret : forall r id pos size s st s', good_info s -> info_element r id pos size s = Val (Ret st s') -> st <> 0.
Proof.
  intros r id pos size [sc du mu wr ti] st s' _ H. unfold info_element in H.
  destruct (id =? kMkvTimecodeScale).
  { unfold uint_field in H. destruct (UnserializeUInt r pos size) as [v|] eqn:E; [|discriminate]. destruct (Z.leb_spec v 0); [|discriminate].
    injection H as <- <-. discriminate. }
  destruct (id =? kMkvDuration).
  { destruct (ParseFloat r pos size du) as [[st1 d]|] eqn:E; [|discriminate]. destruct (Z.ltb_spec st1 0); [injection H as <- <-; lia|].
    destruct (f64_neg d); [injection H as <- <-; discriminate|discriminate]. }
  repeat match type of H with (if ?b then _ else _) = _ => destruct b; [exact (string_field_ret _ _ _ _ _ _ _ H)|] end. discriminate.
Qed.

Lemma round_aux_sign : forall s m e l, match binary_round_aux 53 1024 s m e l with S754_finite s' _ _ | S754_infinity s' => s' = s | _ => True end.
Proof.
  intros s m e l. unfold binary_round_aux. destruct (shr_fexp 53 1024 m e l) as [mrs' e']. destruct (shr_fexp 53 1024 _ e' loc_Exact) as [mrs'' e''].
  destruct (shr_m mrs''); [exact I| |exact I]. destruct (e'' <=? 1024 - 53); reflexivity.
Qed.
Lemma finite_not : forall x, finite64 x -> (forall s, x <> S754_infinity s) /\ x <> S754_nan.
Proof. intros [| | |] H; try contradiction; split; congruence. Qed.

Theorem duration_defined : forall r start size i, SegmentInfo_Parse r start size = Val (0, i) ->
  f64_mul (p_duration i) (f64_of_Z (p_scale i)) <> f64_of_Z (2 ^ 63) ->
  exists d, GetDuration i = Val d /\ -1 <= d < 2 ^ 63.
Proof.
  intros r start size i H Hne. unfold SegmentInfo_Parse in H.
  destruct (walk_payload r ZPass (info_element r) start size si_init) as [[st i0]|] eqn:E; [|discriminate].
  destruct (Z.eqb_spec st 0) as [->|]; cbn [negb] in H; [|injection H as E1 E2; lia].
  destruct (SFltb _ _) eqn:El; [discriminate|]. injection H as <-.
  assert (G : good_info i0).
  { unfold walk_payload in E. destruct (_ >? LLONG_MAX); [discriminate|].
    refine (walk_keeps _ r ZPass (info_element r) good_info (info_element_keeps r) (info_element_ret r) _ _ _ _ _ _ E). split; vm_compute; [exact I|split; [discriminate|reflexivity]]. }
  destruct G as [Gd Gs]. pose proof (of_Z_finite (p_scale i0) ltac:(lia)) as Fs.
  destruct (finite_not _ Gd) as [A1 A2]. destruct (finite_not _ Fs) as [B1 B2].
  pose proof (mul_small _ _ A1 A2 B1 B2) as Hm. unfold GetDuration.
  destruct (f64_neg (p_duration i0)) eqn:En; [exists (-1); split; [reflexivity|lia]|].
  change (f64_of_Z LLONG_MAX) with (S754_finite false 4503599627370496 11) in El.
  change (f64_of_Z (2 ^ 63)) with (S754_finite false 4503599627370496 11) in Hne.
  set (x := f64_mul (p_duration i0) (f64_of_Z (p_scale i0))) in *.
  assert (Sx : match x with S754_finite s _ _ | S754_infinity s => s = false | _ => True end).
  { unfold x. clear - Gd Gs En Fs. destruct (p_scale i0) as [|p|p] eqn:Ep; try lia. unfold f64_of_Z, binary_normalize in *.
    pose proof (binary_round_sign 53 1024 false p 0) as Bs. destruct (binary_round 53 1024 false p 0) as [s|s| |s m e]; try contradiction; subst s.
    - destruct (p_duration i0); try contradiction; exact I.
    - destruct (p_duration i0) as [s|s| |s m1 e1]; try contradiction; [exact I|]. destruct s; [discriminate|]. unfold f64_mul, SFmul. cbn [xorb].
      apply round_aux_sign. }
  destruct x as [s|s| |s m e]; cbn [small64] in Hm.
  - exists 0. split; [reflexivity|lia].
  - subst s. unfold SFltb, SFcompare in El. discriminate El.
  - contradiction.
  - subst s. unfold f64_to_s64, f64_trunc. unfold SFltb, SFcompare in El.
    destruct (Z.compare_spec 11 e) as [He|He|He]; [|discriminate El|].
    + subst e. change (0 <=? 11) with true. cbn iota. destruct (Pos.compare_cont Eq 4503599627370496 m) eqn:Ec; [|discriminate El|].
      * change (Pos.compare 4503599627370496 m = Eq) in Ec. apply Pos.compare_eq in Ec. congruence.
      * change (Pos.compare 4503599627370496 m = Gt) in Ec. apply Pos.compare_gt_iff in Ec.
        assert (Hv : 0 <= Zpos m * 2 ^ 11 < 2 ^ 63) by (apply Pos2Z.pos_lt_pos in Ec; revert Ec; clear; generalize (Zpos m) (Pos2Z.is_pos m); intros z H1 H2; change (2 ^ 11) with 2048; change (2 ^ 63) with 9223372036854775808; lia). generalize dependent (Zpos m * 2 ^ 11). clear. intros v Hv. exists v.
        destruct ((-9223372036854775808 <=? v) && (v <=? 9223372036854775807)) eqn:Eb; [split; [reflexivity|lia]|lia].
    + set (v := if 0 <=? e then _ else _). assert (Hv : 0 <= v < 2 ^ 63).
      { unfold v. clear - Hm He. destruct (Z.leb_spec 0 e).
        - assert (2 ^ e <= 2 ^ 10) by (apply Z.pow_le_mono_r; lia). assert (0 < 2 ^ e) by lia. nia.
        - split; [apply Z.div_pos; lia|]. apply Z.div_lt_upper_bound; [lia|]. assert (1 <= 2 ^ (- e)) by (apply (Z.pow_le_mono_r 2 0); lia). nia. }
      generalize dependent v. clear. intros v Hv. exists v.
      destruct ((-9223372036854775808 <=? v) && (v <=? 9223372036854775807)) eqn:Eb; [split; [reflexivity|lia]|lia].
Qed.
