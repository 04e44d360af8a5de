(* Proofs about the callback parser: scalar elements are read as specified. *)
From Coq Require Import ZifyBool ZifyNat.
From Verif Require Import Base EbmlSpec LacingSpec WpSpec WpDocSpec MWp MWpBlock MWpTree PParUtil PWpRead.

Local Notation W l p t := (mk_world l p [] t).

Lemma wraps_mod : forall k a b, a mod 2 ^ k = b mod 2 ^ k -> wraps k a = wraps k b.
Proof. intros k a b E. unfold wraps. rewrite E. reflexivity. Qed.
Lemma wraps_mod_eq : forall k a, 0 <= k -> wraps k a mod 2 ^ k = a mod 2 ^ k.
Proof.
  intros k a Hk. pose proof (pow2_pos k Hk). unfold wraps. cbv zeta. destruct (_ <? _).
  - apply Z.mod_mod. lia.
  - replace (a mod 2 ^ k - 2 ^ k) with (a mod 2 ^ k + (-1) * 2 ^ k) by ring. rewrite Z_mod_plus_full. apply Z.mod_mod. lia.
Qed.
Lemma acc_signed_step : forall bits v b, 0 <= bits -> acc_step true bits (wraps bits v) b = wraps bits (v * 256 + b).
Proof.
  intros bits v b Hb. pose proof (pow2_pos bits Hb). unfold acc_step. cbv iota. apply wraps_mod. unfold wrapu.
  rewrite Z.mod_mod by lia. rewrite wraps_mod_eq by lia.
  rewrite <- (Z.add_mod_idemp_l (v * 256)) by lia. rewrite <- (Z.mul_mod_idemp_l v) by lia.
  rewrite Z.add_mod_idemp_l by lia. reflexivity.
Qed.
Lemma acc_signed : forall bits a v, 0 <= bits ->
  fold_left (acc_step true bits) a (wraps bits v) = wraps bits (v * 2 ^ (8 * zlen a) + be_val a).
Proof.
  induction a as [|x a IH]; intros v Hb; cbn [fold_left].
  - rewrite zlen_nil. cbn. f_equal. lia.
  - rewrite acc_signed_step, IH by lia. f_equal.
    assert (P : 2 ^ (8 * zlen (x :: a)) = 256 * 2 ^ (8 * zlen a)) by (unfold zlen; cbn [length]; apply pow2_8S).
    rewrite be_val_cons, P. ring.
Qed.
Lemma wraps_0 : forall k, 0 < k -> wraps k 0 = 0.
Proof.
  intros k Hk. pose proof (pow2_pos (k - 1) ltac:(lia)). pose proof (pow2_pos k ltac:(lia)). unfold wraps.
  rewrite Z.mod_0_l by lia. replace (0 <? 2 ^ (k - 1)) with true by lia. reflexivity.
Qed.

(* ---------- sign extension ---------- *)
Lemma top_bits : forall k i, 0 <= k <= 64 -> 0 <= i ->
  Z.testbit (2 ^ 64 - 2 ^ k) i = (k <=? i) && (i <? 64).
Proof.
  intros k i Hk Hi. replace (2 ^ 64 - 2 ^ k) with (Z.shiftl (Z.ones (64 - k)) k).
  - rewrite Z.shiftl_spec by lia. destruct (Z.leb_spec k i).
    + destruct (Z.ltb_spec i 64).
      * rewrite Z.ones_spec_low by lia. reflexivity.
      * rewrite Z.ones_spec_high by lia. reflexivity.
    + rewrite Z.testbit_neg_r by lia. reflexivity.
  - rewrite Z.shiftl_mul_pow2 by lia. rewrite Z.ones_equiv.
    replace (Z.pred (2 ^ (64 - k))) with (2 ^ (64 - k) - 1) by lia.
    rewrite Z.mul_sub_distr_r, <- Z.pow_add_r by lia. replace (64 - k + k) with 64 by lia. ring.
Qed.
Lemma testbit_above : forall x k i, 0 <= x < 2 ^ k -> 0 <= k <= i -> Z.testbit x i = false.
Proof.
  intros x k i Hx Hi. destruct (Z.eq_dec x 0) as [->|N]; [apply Z.testbit_0_l|].
  apply Z.bits_above_log2; [lia|]. enough (Z.log2 x < k) by lia. apply Z.log2_lt_pow2; lia.
Qed.
Lemma land_top : forall x k, 0 <= k <= 64 -> 0 <= x < 2 ^ 64 -> Z.land x (2 ^ 64 - 2 ^ k) = Z.shiftl (Z.shiftr x k) k.
Proof.
  intros x k Hk Hx. apply Z.bits_inj'. intros i Hi. rewrite Z.land_spec, top_bits, Z.shiftl_spec by lia.
  destruct (Z.leb_spec k i).
  - rewrite Z.shiftr_spec by lia. replace (i - k + k) with i by lia. destruct (Z.ltb_spec i 64); cbn [andb].
    + apply andb_true_r.
    + rewrite (testbit_above x 64 i) by lia. reflexivity.
  - rewrite (Z.testbit_neg_r _ (i - k)) by lia. apply andb_false_r.
Qed.
Lemma lor_top : forall x k, 0 <= k < 64 -> 0 <= x < 2 ^ 64 -> Z.lor x (2 ^ 64 - 2 ^ k) = 2 ^ 64 - 2 ^ k + x mod 2 ^ k.
Proof.
  intros x k Hk Hx. pose proof (pow2_pos k ltac:(lia)). pose proof (Z.mod_pos_bound x (2 ^ k) ltac:(lia)) as M.
  assert (E : Z.lor x (2 ^ 64 - 2 ^ k) = Z.lor (2 ^ 64 - 2 ^ k) (x mod 2 ^ k)).
  { apply Z.bits_inj'. intros i Hi. rewrite !Z.lor_spec, top_bits by lia.
    destruct (Z.leb_spec k i).
    - destruct (Z.ltb_spec i 64); cbn [andb orb].
      + apply orb_true_r.
      + rewrite (testbit_above x 64 i) by lia. rewrite (testbit_above (x mod 2 ^ k) k i M) by (clear M; lia). reflexivity.
    - cbn [andb orb]. rewrite orb_false_r. rewrite Z.mod_pow2_bits_low by (clear M; lia). reflexivity. }
  rewrite E. replace (2 ^ 64 - 2 ^ k) with (Z.shiftl (2 ^ (64 - k) - 1) k).
  - pose proof (pow2_pos (64 - k) ltac:(lia)). rewrite lor_shiftl_low by (try exact M; lia). rewrite Z.shiftl_mul_pow2 by lia. reflexivity.
  - rewrite Z.shiftl_mul_pow2 by lia. rewrite Z.mul_sub_distr_r, <- Z.pow_add_r by lia.
    replace (64 - k + k) with 64 by lia. ring.
Qed.
Lemma sign_extend_spec : forall n x, 1 <= n <= 8 -> 0 <= x < 2 ^ (8 * n) ->
  sign_extend n (wraps 64 x) = wraps (8 * n) x.
Proof.
  intros n x Hn Hx. unfold sign_extend. cbv zeta.
  assert (B : 2 ^ (8 * n) <= 2 ^ 64) by (apply Z.pow_le_mono_r; lia).
  assert (D : 2 ^ (8 * n) = 2 * 2 ^ (8 * n - 1)).
  { replace (8 * n) with (Z.succ (8 * n - 1)) at 1 by lia. rewrite Z.pow_succ_r by lia. reflexivity. }
  set (k := 8 * n - 1) in *. assert (Hk : 0 <= k < 64) by (unfold k; lia).
  pose proof (pow2_pos k ltac:(lia)) as Pk.
  assert (S1 : wrap64 (18446744073709551615 * 2 ^ k) = 2 ^ 64 - 2 ^ k).
  { unfold wrap64. change 18446744073709551616 with (2 ^ 64).
    replace (18446744073709551615 * 2 ^ k) with (2 ^ 64 - 2 ^ k + (2 ^ k - 1) * 2 ^ 64) by (change (2 ^ 64) with 18446744073709551616; ring).
    rewrite Z_mod_plus_full. apply Z.mod_small. change (2 ^ 64) with 18446744073709551616 in *.
    assert (2 ^ k < 2 ^ 64) by (apply Z.pow_lt_mono_r; lia). change (2 ^ 64) with 18446744073709551616 in *. lia. }
  rewrite S1.
  assert (W1 : wrap64 (wraps 64 x) = x).
  { unfold wrap64. change 18446744073709551616 with (2 ^ 64). rewrite wraps_mod_eq by lia. apply Z.mod_small. lia. }
  rewrite W1. rewrite land_top by lia. rewrite Z.shiftl_mul_pow2, Z.shiftr_div_pow2 by lia.
  unfold wraps at 2. cbv zeta. rewrite (Z.mod_small x (2 ^ (8 * n))) by lia. fold k.
  destruct (Z.ltb_spec x (2 ^ k)).
  - rewrite Z.div_small by lia. rewrite Z.mul_0_l. cbn [Z.eqb].
    unfold wraps. cbv zeta. rewrite (Z.mod_small x (2 ^ 64)) by lia.
    assert (2 ^ k <= 2 ^ (64 - 1)) by (apply Z.pow_le_mono_r; lia).
    replace (x <? 2 ^ (64 - 1)) with true by lia. reflexivity.
  - assert (Q : x / 2 ^ k = 1) by (symmetry; apply (Z.div_unique x (2 ^ k) 1 (x - 2 ^ k)); lia).
    rewrite Q, Z.mul_1_l. replace (2 ^ k =? 0) with false by lia.
    rewrite lor_top by lia. rewrite (Z.mod_eq x) by lia. rewrite Q.
    unfold sint64, wraps. cbv zeta.
    replace (2 ^ 64 - 2 ^ k + (x - 2 ^ k * 1)) with (2 ^ 64 + (x - 2 ^ (8 * n))) by (rewrite D; ring).
    rewrite Z.mod_small by lia.
    assert (2 ^ k <= 2 ^ (64 - 1)) by (apply Z.pow_le_mono_r; lia).
    change (2 ^ (64 - 1)) with 9223372036854775808 in *. change (2 ^ 64) with 18446744073709551616 in *.
    replace (18446744073709551616 + (x - 2 ^ (8 * n)) <? 9223372036854775808) with false by lia. lia.
Qed.

(* ---------- strings ---------- *)
Lemma drop_zeros_repeat : forall k l, drop_zeros (repeat 0 k ++ l) = drop_zeros l.
Proof. induction k as [|k IH]; intro l; [reflexivity|]. cbn [repeat app drop_zeros]. apply IH. Qed.
Lemma drop_zeros_id : forall l, hd 1 l <> 0 -> drop_zeros l = l.
Proof. intros [|x l] H; [reflexivity|]. cbn [hd] in H. destruct x; [congruence|reflexivity|reflexivity]. Qed.
Lemma hd_rev_last : forall (s : list Z) d, hd d (rev s) = last s d.
Proof.
  intros s d. destruct s as [|x s] using rev_ind; [reflexivity|]. rewrite rev_app_distr, last_last. reflexivity.
Qed.
Lemma rev_repeat0 : forall k, rev (repeat 0 k) = repeat 0 k.
Proof.
  induction k as [|k IH]; [reflexivity|]. cbn [repeat rev]. rewrite IH.
  clear IH. induction k as [|k IH]; [reflexivity|]. cbn [repeat app]. rewrite IH. reflexivity.
Qed.
Lemma strip_zeros_spec : forall s k, last s 1 <> 0 -> strip_zeros (s ++ repeat 0 k) = s.
Proof.
  intros s k H. unfold strip_zeros. rewrite rev_app_distr, rev_repeat0, drop_zeros_repeat.
  rewrite drop_zeros_id by (rewrite hd_rev_last; exact H). apply rev_involutive.
Qed.

(* ---------- scalar elements ---------- *)
Definition scalar_node (n : node) (ty : sty) : Prop :=
  match ty with
  | TUint d => n = NUint d | TInt d => n = NSint d | TFloat d => n = NFloat d | TDate => n = NDate
  | TBool d => n = NBool d | TId => n = NIdEl | TString d => n = NStr d | TBinary => n = NBin
  end.

Lemma zlen_zero : forall (bs : list Z), zlen bs = 0 -> bs = [].
Proof. intros [|x bs] H; [reflexivity|]. rewrite zlen_cons in H. pose proof (zlen_nonneg _ bs). lia. Qed.
Lemma zlen_pos : forall (bs : list Z), bs <> [] -> 1 <= zlen bs.
Proof. intros [|x bs] H; [congruence|]. rewrite zlen_cons. pose proof (zlen_nonneg _ bs). lia. Qed.

Lemma acc_uint : forall bits bs, bytes bs -> 0 <= bits -> 8 * zlen bs <= bits ->
  fold_left (acc_step false bits) bs 0 = be_val bs.
Proof.
  intros bits bs B Hb H. rewrite acc_unsigned; [lia | assumption | lia | assumption |].
  rewrite Z.add_0_l, Z.mul_1_l. apply Z.pow_le_mono_r; lia.
Qed.

Ltac fin := repeat (split; [reflexivity|]); let n := fresh in intro n; destruct n as [| | | | | | | | | | | | | | | | | | |vn| |]; try reflexivity; destruct vn; reflexivity.
Lemma scalar_read : forall cb sk n ty m bs v max l p t,
  scalar_node n ty -> scalar ty bs v -> bytes bs -> me_size m = zlen bs -> zlen bs < 2 ^ 62 ->
  exists p0 p1, parser_Init n m max = (kOkCompleted, p0) /\
    feed cb 1 sk p0 (W (bs ++ l) p t) = Some (kOkCompleted, zlen bs, p1, W l (p + zlen bs) t) /\
    p_value p1 = v /\ cached p0 = None /\ cached p1 = None /\ was_skipped p1 = false /\
    wrapped (NVal VInfo) p0 = true /\ (forall n', is_start n' p0 = false).
Proof.
  intros cb sk n ty m bs v max l p t N S B M L.
  destruct S as [d|d bs H1 H2|d|d bs H1 H2|d|d bs H1| |bs H1|d|d bs b H1 H2 H3|bs H1|d|d s k H1 H2|bs];
    unfold scalar_node in N; subst n; cbn [parser_Init feed].
  - unfold IntParser_Init. rewrite M. cbn. do 2 eexists. split; [reflexivity|]. split; [rewrite Z.add_0_r; reflexivity|]. fin.
  - unfold IntParser_Init. rewrite M. pose proof (zlen_pos _ H1). replace (8 <? zlen bs) with false by lia.
    replace (zlen bs =? 0) with false by lia. cbn [fst snd].
    do 2 eexists. split; [reflexivity|]. unfold IntParser_Feed. cbn [n_rem n_size n_value].
    rewrite Accumulate_full' by (unfold zlen; lia). cbn [andb].
    rewrite acc_uint by (try assumption; lia).
    split; [rewrite !Z.add_0_l; reflexivity|]. fin.
  - unfold IntParser_Init. rewrite M. cbn. do 2 eexists. split; [reflexivity|]. split; [rewrite Z.add_0_r; reflexivity|]. fin.
  - unfold IntParser_Init. rewrite M. pose proof (zlen_pos _ H1). replace (8 <? zlen bs) with false by lia.
    replace (zlen bs =? 0) with false by lia. cbn [fst snd].
    do 2 eexists. split; [reflexivity|]. unfold IntParser_Feed. cbn [n_rem n_size n_value].
    rewrite Accumulate_full' by (unfold zlen; lia). cbn [andb]. rewrite !Z.add_0_l, Z.sub_diag.
    replace (0 <? zlen bs) with true by lia. cbn [Z.eqb andb].
    split; [reflexivity|]. split.
    { cbn [p_value n_value]. f_equal. rewrite <- (wraps_0 64) at 1 by lia. rewrite acc_signed by lia.
      rewrite Z.mul_0_l, Z.add_0_l. apply sign_extend_spec; [lia|]. apply be_val_bound. assumption. }
    fin.
  - unfold FloatParser_Init. rewrite M. cbn. do 2 eexists. split; [reflexivity|]. split; [rewrite Z.add_0_r; reflexivity|]. fin.
  - unfold FloatParser_Init. rewrite M.
    replace ((zlen bs =? 0) || (zlen bs =? 4) || (zlen bs =? 8)) with true by lia.
    replace (zlen bs =? 0) with false by lia. cbn [fst snd].
    do 2 eexists. split; [reflexivity|]. unfold FloatParser_Feed. cbn [n_rem n_size n_value].
    replace (zlen bs =? 0) with false by lia.
    rewrite Accumulate_full' by (unfold zlen; lia).
    rewrite acc_uint by (try assumption; lia).
    split; [rewrite !Z.add_0_l; reflexivity|]. fin.
  - unfold DateParser_Init. rewrite M. cbn. do 2 eexists. split; [reflexivity|]. split; [rewrite Z.add_0_r; reflexivity|]. fin.
  - unfold DateParser_Init. rewrite M, H1. cbn [Z.eqb Pos.eqb negb andb fst snd].
    do 2 eexists. split; [reflexivity|]. unfold DateParser_Feed. cbn [n_rem n_size n_value].
    rewrite Accumulate_full' by (unfold zlen in *; lia). rewrite H1.
    split; [reflexivity|]. split.
    { cbn [p_value n_value]. f_equal. rewrite <- (wraps_0 64) at 1 by lia. rewrite acc_signed by lia.
      rewrite Z.mul_0_l, Z.add_0_l. reflexivity. }
    fin.
  - unfold BoolParser_Init. rewrite M. cbn. do 2 eexists. split; [reflexivity|]. split; [rewrite Z.add_0_r; reflexivity|]. fin.
  - unfold BoolParser_Init. rewrite M. pose proof (zlen_pos _ H1). replace (8 <? zlen bs) with false by lia.
    cbn [fst snd].
    eexists. exists (PBool (mk_boolst 0 (zlen bs) b)). split; [reflexivity|]. unfold BoolParser_Feed. cbn [bo_rem bo_size bo_value].
    rewrite Accumulate_full' by (unfold zlen; lia).
    rewrite acc_uint by (try assumption; lia). rewrite !Z.add_0_l, Z.sub_diag, H3.
    replace (0 <? zlen bs) with true by lia.
    split; [destruct b; reflexivity|]. fin.
  - unfold IdElementParser_Init. rewrite M.
    replace ((zlen bs =? 0) || (4 <? zlen bs)) with false by lia. cbn [fst snd].
    do 2 eexists. split; [reflexivity|]. unfold IdElementParser_Feed. cbn [n_rem n_size n_value].
    rewrite Accumulate_full' by (unfold zlen; lia).
    rewrite acc_uint by (try assumption; lia).
    split; [rewrite !Z.add_0_l; reflexivity|]. fin.
  - unfold ByteParser_Init. rewrite M. cbn. do 2 eexists. split; [reflexivity|]. split; [rewrite Z.add_0_r; reflexivity|]. fin.
  - unfold ByteParser_Init. rewrite M. pose proof (zlen_pos _ H1). unfold kUnknownElementSize, kMaxBytes.
    change (2 ^ 62) with 4611686018427387904 in L.
    replace (zlen (s ++ repeat 0 k) =? 18446744073709551615) with false by lia.
    replace (9223372036854775807 <? zlen (s ++ repeat 0 k)) with false by lia.
    replace (zlen (s ++ repeat 0 k) =? 0) with false by lia. cbn [fst snd].
    do 2 eexists. split; [reflexivity|]. unfold ByteParser_Feed. cbn [by_want by_got].
    replace (zlen (s ++ repeat 0 k) =? 0) with false by lia.
    rewrite take_all_full by exact H1. cbn [andb Z.eqb kOkCompleted app].
    split; [reflexivity|]. split; [cbn [p_value by_got]; rewrite strip_zeros_spec by exact H2; reflexivity|].
    fin.
  - unfold ByteParser_Init. rewrite M. unfold kUnknownElementSize, kMaxBytes.
    pose proof (zlen_nonneg _ bs). change (2 ^ 62) with 4611686018427387904 in L.
    replace (zlen bs =? 18446744073709551615) with false by lia.
    replace (9223372036854775807 <? zlen bs) with false by lia. cbn [fst snd].
    eexists. exists (PBytes false (mk_byst 0 bs)). split; [reflexivity|]. unfold ByteParser_Feed. cbn [by_want by_got].
    destruct (Z.eqb_spec (zlen bs) 0) as [Z0|NZ].
    + pose proof (zlen_zero _ Z0). subst bs. cbn [app]. rewrite zlen_nil, Z.add_0_r. split; [reflexivity|].
      fin.
    + rewrite take_all_full by (intro Q; subst; apply NZ, zlen_nil). cbn [andb app]. rewrite Z.sub_diag.
      split; [reflexivity|]. fin.
Qed.
