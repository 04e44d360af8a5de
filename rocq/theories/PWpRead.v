(* Proofs about the callback parser's primitive parsers on data that is all there:
   what they read is what the specification says. *)
From Coq Require Import ZifyBool ZifyNat.
From Verif Require Import Base EbmlSpec WpSpec MWp PParUtil PParBlock.

Local Notation W l p t := (mk_world l p [] t).

Lemma skipn_zlen_app : forall (a l : list Z), skipn (Z.to_nat (zlen a)) (a ++ l) = l.
Proof.
  intros a l. unfold zlen. rewrite Nat2Z.id, skipn_app, skipn_all, Nat.sub_diag. reflexivity.
Qed.
Lemma firstn_zlen_app : forall (a l : list Z), firstn (Z.to_nat (zlen a)) (a ++ l) = a.
Proof.
  intros a l. unfold zlen. rewrite Nat2Z.id, firstn_app, firstn_all, Nat.sub_diag, app_nil_r. reflexivity.
Qed.

Lemma ReadByte_full : forall b l p t, ReadByte (W (b :: l) p t) = (kOkCompleted, b, W l (p + 1) t).
Proof.
  intros b l p t. unfold ReadByte, rd_take. cbn [w_sched]. unfold rd_give. cbn [w_data].
  pose proof (zlen_nonneg _ l). rewrite zlen_cons.
  replace (Z.min (Z.min 1 1) (1 + zlen l)) with 1 by lia. reflexivity.
Qed.
Lemma ReadByte_end : forall p t, ReadByte (W [] p t) = (kEndOfFile, 0, W [] p t).
Proof. reflexivity. Qed.

Lemma take_all_full : forall a l p t, a <> [] -> take_all (zlen a) (W (a ++ l) p t) = (kOkCompleted, a, W l (p + zlen a) t).
Proof.
  intros a l p t Ha. unfold take_all. cbn [w_sched length take_loop]. unfold rd_take. cbn [w_sched].
  unfold rd_give. cbn [w_data]. destruct a as [|x a]; [congruence|].
  change ((x :: a) ++ l) with (x :: (a ++ l)). cbv iota.
  change (x :: (a ++ l)) with ((x :: a) ++ l).
  pose proof (zlen_nonneg _ l).
  replace (Z.min (Z.min (zlen (x :: a)) (zlen (x :: a))) (zlen ((x :: a) ++ l))) with (zlen (x :: a))
    by (rewrite zlen_app; lia).
  rewrite Z.eqb_refl. unfold w_got. cbn [w_data w_pos w_trace]. rewrite firstn_zlen_app, skipn_zlen_app.
  cbn [app]. reflexivity.
Qed.

Lemma Accumulate_full : forall sg bits a l p t v nr,
  Accumulate sg bits (length a) v nr (W (a ++ l) p t)
  = (kOkCompleted, nr + zlen a, fold_left (acc_step sg bits) a v, W l (p + zlen a) t).
Proof.
  induction a as [|x a IH]; intros l p t v nr; cbn [length Accumulate fold_left].
  - rewrite zlen_nil, !Z.add_0_r. reflexivity.
  - change ((x :: a) ++ l) with (x :: (a ++ l)). rewrite ReadByte_full. cbn [Z.eqb kOkCompleted].
    rewrite IH, zlen_cons. rewrite <- !Z.add_assoc. reflexivity.
Qed.
Lemma Accumulate_full' : forall sg bits n a l p t v nr, n = length a ->
  Accumulate sg bits n v nr (W (a ++ l) p t)
  = (kOkCompleted, nr + zlen a, fold_left (acc_step sg bits) a v, W l (p + zlen a) t).
Proof. intros; subst; apply Accumulate_full. Qed.

(* unsigned accumulation without overflow *)
Lemma acc_unsigned : forall bits a v, bytes a -> 0 <= v -> 0 <= bits -> (v + 1) * 2 ^ (8 * zlen a) <= 2 ^ bits ->
  fold_left (acc_step false bits) a v = v * 2 ^ (8 * zlen a) + be_val a.
Proof.
  induction a as [|x a IH]; intros v B V Hb H; cbn [fold_left].
  - rewrite zlen_nil. cbn. lia.
  - inversion B as [|? ? Bx Ba]; subst. unfold is_byte in Bx.
    pose proof (zlen_nonneg _ a). pose proof (pow2_pos (8 * zlen a) ltac:(lia)).
    assert (P : 2 ^ (8 * zlen (x :: a)) = 256 * 2 ^ (8 * zlen a)) by (unfold zlen; cbn [length]; apply pow2_8S).
    rewrite P in H. rewrite be_val_cons, P.
    assert (S1 : acc_step false bits v x = v * 256 + x).
    { unfold acc_step, wrapu. rewrite (Z.mod_small v) by nia. apply Z.mod_small. nia. }
    rewrite S1. rewrite IH; [ring | assumption | lia | assumption | nia].
Qed.

(* ---------- variable-size integers ---------- *)
Lemma clz_loop_spec : forall b l, 0 <= l <= 7 -> 2 ^ (7 - l) <= b < 2 * 2 ^ (7 - l) -> CountLeadingZeros b = l.
Proof.
  intros b l Hl Hb.
  assert (E : forall x, 0 <= x < 256 -> CountLeadingZeros x = (if x =? 0 then 8 else 7 - Z.log2 x)).
  { assert (A : forallb (fun x => CountLeadingZeros (Z.of_nat x) =? (if Z.of_nat x =? 0 then 8 else 7 - Z.log2 (Z.of_nat x))) (seq 0 256) = true)
      by (vm_compute; reflexivity).
    rewrite forallb_forall in A. intros x Hx. specialize (A (Z.to_nat x)).
    rewrite Z2Nat.id in A by lia. apply Z.eqb_eq, A, in_seq. lia. }
  pose proof (pow2_pos (7 - l) ltac:(lia)).
  assert (2 ^ (7 - l) <= 2 ^ 7) by (apply Z.pow_le_mono_r; lia). change (2 ^ 7) with 128 in *.
  rewrite E by lia. replace (b =? 0) with false by lia.
  rewrite (Z.log2_unique b (7 - l)); [lia | lia |].
  replace (2 ^ Z.succ (7 - l)) with (2 * 2 ^ (7 - l)); [lia|].
  rewrite Z.pow_succ_r by lia. reflexivity.
Qed.

Lemma mask_vint : forall w, 1 <= w <= 8 -> Z.shiftr 18446744073709551615 (57 - 7 * (w - 1)) = 2 ^ (7 * w) - 1.
Proof.
  intros w Hw. assert (K : w = 1 \/ w = 2 \/ w = 3 \/ w = 4 \/ w = 5 \/ w = 6 \/ w = 7 \/ w = 8) by lia.
  destruct K as [->|[->|[->|[->|[->|[->|[->| ->]]]]]]]; reflexivity.
Qed.

Lemma VarInt_full : forall w x l p t, 1 <= w <= 8 -> 0 <= x < 2 ^ (7 * w) ->
  VarIntParser_Feed vi_new (W (vint w x ++ l) p t) = (kOkCompleted, w, mk_vist 0 (w - 1) x, W l (p + w) t).
Proof.
  intros w x l p t Hw Hx. destruct (vint_cons w x Hw Hx) as [E H].
  set (hi := x / 2 ^ (8 * (w - 1))) in *.
  pose proof (pow2_pos (8 - w) ltac:(lia)) as Hq.
  unfold VarIntParser_Feed. change (vi_rem vi_new =? -1) with true. cbv iota.
  rewrite E. change ((?a :: ?b) ++ l) with (a :: (b ++ l)). rewrite ReadByte_full. cbn [negb Z.eqb kOkCompleted].
  replace (2 ^ (8 - w) + hi =? 0) with false by lia.
  replace (CountLeadingZeros (2 ^ (8 - w) + hi)) with (w - 1).
  2:{ symmetry. apply clz_loop_spec; [lia|]. replace (7 - (w - 1)) with (8 - w) by lia. lia. }
  cbv zeta. unfold vi_rest. cbn [vi_rem vi_total vi_value].
  rewrite Accumulate_full' by (rewrite be_bytes_length; reflexivity).
  cbn [negb Z.eqb kOkCompleted]. rewrite be_bytes_zlen, Z2Nat.id by lia.
  rewrite acc_unsigned; [| apply be_bytes_bytes | lia | lia |].
  - rewrite be_bytes_zlen, Z2Nat.id by lia. rewrite mask_vint by lia.
    rewrite be_val_be_bytes, Z2Nat.id by lia.
    assert (E2 : 2 ^ (7 * w) = 2 ^ (8 - w) * 2 ^ (8 * (w - 1))).
    { rewrite <- Z.pow_add_r by lia. apply f_equal2; [reflexivity|lia]. }
    pose proof (pow2_pos (8 * (w - 1)) ltac:(lia)).
    assert (V : (2 ^ (8 - w) + hi) * 2 ^ (8 * (w - 1)) + x mod 2 ^ (8 * (w - 1)) = x + 1 * 2 ^ (7 * w)).
    { rewrite E2. unfold hi. rewrite (Z.div_mod x (2 ^ (8 * (w - 1)))) at 3 by lia. ring. }
    rewrite V. replace (2 ^ (7 * w) - 1) with (Z.ones (7 * w)) by (rewrite Z.ones_equiv; lia).
    rewrite Z.land_ones by lia. rewrite Z_mod_plus_full, Z.mod_small by lia.
    f_equal; [f_equal; [f_equal; lia|]|]; [f_equal; lia|f_equal; lia].
  - rewrite be_bytes_zlen, Z2Nat.id by lia.
    assert ((2 ^ (8 - w) + hi + 1) * 2 ^ (8 * (w - 1)) <= (2 * 2 ^ (8 - w)) * 2 ^ (8 * (w - 1))).
    { apply Z.mul_le_mono_nonneg_r; [|lia]. pose proof (pow2_pos (8 * (w - 1))). lia. }
    replace (2 * 2 ^ (8 - w)) with (2 ^ (9 - w)) in H0.
    2:{ replace (9 - w) with (Z.succ (8 - w)) by lia. rewrite Z.pow_succ_r by lia. reflexivity. }
    rewrite <- Z.pow_add_r in H0 by lia.
    assert (2 ^ (9 - w + 8 * (w - 1)) <= 2 ^ 64) by (apply Z.pow_le_mono_r; lia). lia.
Qed.

Lemma Size_full : forall w x l p t, 1 <= w <= 8 -> 0 <= x < 2 ^ (7 * w) ->
  SizeParser_Feed vi_new (W (vint w x ++ l) p t) = (kOkCompleted, w, mk_vist 0 (w - 1) x, W l (p + w) t).
Proof. intros. unfold SizeParser_Feed. rewrite VarInt_full by assumption. reflexivity. Qed.
Lemma size_value_known : forall w x, vint_fits w x -> size_value (mk_vist 0 (w - 1) x) = x.
Proof.
  intros w x [Hw Hx]. unfold size_value, encoded_length. cbn [vi_value vi_total].
  replace (w - 1 + 1 - 1) with (w - 1) by lia. rewrite mask_vint by lia.
  replace (x =? 2 ^ (7 * w) - 1) with false by lia. reflexivity.
Qed.
Lemma size_value_unknown : forall w, 1 <= w <= 8 ->
  size_value (mk_vist 0 (w - 1) (2 ^ (7 * w) - 1)) = kUnknownElementSize.
Proof.
  intros w Hw. unfold size_value, encoded_length. cbn [vi_value vi_total].
  replace (w - 1 + 1 - 1) with (w - 1) by lia. rewrite mask_vint by lia. rewrite Z.eqb_refl. reflexivity.
Qed.

(* ---------- identifiers ---------- *)
Lemma Id_full : forall id ib l p t, is_id_bytes id ib ->
  IdParser_Feed id_new (W (ib ++ l) p t) = (kOkCompleted, zlen ib, mk_idst 0 id, W l (p + zlen ib) t).
Proof.
  intros id ib l p t (w & [Hw Hid] & ->).
  replace (2 ^ (7 * w + 1)) with (2 * 2 ^ (7 * w)) in Hid by (rewrite Z.pow_add_r by lia; change (2 ^ 1) with 2; ring).
  assert (Hx : 0 <= id - 2 ^ (7 * w) < 2 ^ (7 * w)) by lia.
  destruct (vint_cons w (id - 2 ^ (7 * w)) ltac:(lia) Hx) as [E H].
  unfold vint in E. replace (2 ^ (7 * w) + (id - 2 ^ (7 * w))) with id in E by ring.
  set (x := id - 2 ^ (7 * w)) in *. set (hi := x / 2 ^ (8 * (w - 1))) in *.
  pose proof (pow2_pos (8 - w) ltac:(lia)) as Hq.
  unfold IdParser_Feed. change (ip_rem id_new =? -1) with true. cbv iota.
  rewrite E at 1. change ((?a :: ?b) ++ l) with (a :: (b ++ l)). rewrite ReadByte_full. cbn [negb Z.eqb kOkCompleted].
  assert (B : 16 <= 2 ^ (8 - w)).
  { change 16 with (2 ^ 4). apply Z.pow_le_mono_r; lia. }
  assert (B2 : 2 ^ (8 - w) <= 128) by (change 128 with (2 ^ 7); apply Z.pow_le_mono_r; lia).
  replace (Z.land (2 ^ (8 - w) + hi) 240 =? 0) with false.
  2:{ assert (A : forallb (fun x => Bool.eqb (Z.land (Z.of_nat x) 240 =? 0) (Z.of_nat x <? 16)) (seq 0 256) = true)
        by (vm_compute; reflexivity).
      rewrite forallb_forall in A. specialize (A (Z.to_nat (2 ^ (8 - w) + hi))).
      rewrite Z2Nat.id in A by lia. rewrite Bool.eqb_true_iff in A. rewrite A by (apply in_seq; lia). lia. }
  replace (CountLeadingZeros (2 ^ (8 - w) + hi)) with (w - 1).
  2:{ symmetry. apply clz_loop_spec; [lia|]. replace (7 - (w - 1)) with (8 - w) by lia. lia. }
  unfold id_rest. cbn [ip_rem ip_id].
  rewrite Accumulate_full' by (rewrite be_bytes_length; reflexivity).
  rewrite !be_bytes_zlen, !Z2Nat.id by lia.
  rewrite acc_unsigned; [| apply be_bytes_bytes | lia | lia |].
  - rewrite be_bytes_zlen, Z2Nat.id by lia. rewrite be_val_be_bytes, Z2Nat.id by lia.
    assert (E2 : 2 ^ (7 * w) = 2 ^ (8 - w) * 2 ^ (8 * (w - 1))).
    { rewrite <- Z.pow_add_r by lia. apply f_equal2; [reflexivity|lia]. }
    pose proof (pow2_pos (8 * (w - 1)) ltac:(lia)).
    assert (V : (2 ^ (8 - w) + hi) * 2 ^ (8 * (w - 1)) + x mod 2 ^ (8 * (w - 1)) = id).
    { replace id with (x + 2 ^ (7 * w)) by (unfold x; ring).
      rewrite E2. unfold hi. rewrite (Z.div_mod x (2 ^ (8 * (w - 1)))) at 3 by lia. ring. }
    rewrite V.
    f_equal; [f_equal; [f_equal; lia|]|]; [f_equal; lia|f_equal; lia].
  - rewrite be_bytes_zlen, Z2Nat.id by lia.
    assert ((2 ^ (8 - w) + hi + 1) * 2 ^ (8 * (w - 1)) <= (2 * 2 ^ (8 - w)) * 2 ^ (8 * (w - 1))).
    { apply Z.mul_le_mono_nonneg_r; [|lia]. pose proof (pow2_pos (8 * (w - 1))). lia. }
    replace (2 * 2 ^ (8 - w)) with (2 ^ (9 - w)) in H0.
    2:{ replace (9 - w) with (Z.succ (8 - w)) by lia. rewrite Z.pow_succ_r by lia. reflexivity. }
    rewrite <- Z.pow_add_r in H0 by lia.
    assert (2 ^ (9 - w + 8 * (w - 1)) <= 2 ^ 32) by (apply Z.pow_le_mono_r; lia). lia.
Qed.
