From Coq Require Import ZifyBool ZifyNat.
From Verif Require Import Base EndianSpec MEndian PPesPts.

Lemma land_mask : forall x k, 0 <= k -> Z.land x (Z.shiftl 255 k) = (x / 2 ^ k mod 256) * 2 ^ k.
Proof.
  intros x k Hk. rewrite <- Z.shiftl_mul_pow2 by exact Hk. rewrite <- Z.shiftr_div_pow2 by exact Hk.
  change 256 with (2 ^ 8). rewrite <- Z.land_ones by lia. change (Z.ones 8) with 255.
  apply Z.bits_inj'. intros n Hn. rewrite Z.land_spec, !Z.shiftl_spec, Z.land_spec by lia.
  destruct (Z.leb_spec k n) as [L|L].
  - rewrite Z.shiftr_spec by lia. replace (n - k + k) with n by lia. reflexivity.
  - rewrite !(Z.testbit_neg_r _ (n - k)) by lia. rewrite !Bool.andb_false_r. reflexivity.
Qed.
(* one more byte *)
Lemma lor_byte : forall a b j k, 0 <= k -> k + 8 <= j -> 0 <= b < 256 -> Z.lor (a * 2 ^ j) (b * 2 ^ k) = a * 2 ^ j + b * 2 ^ k.
Proof.
  intros a b j k Hk Hj Hb. apply lor_mul_low; [lia|]. assert (0 < 2 ^ k) by (apply Z.pow_pos_nonneg; lia).
  assert (2 ^ (k + 8) <= 2 ^ j) by (apply Z.pow_le_mono_r; lia). rewrite Z.pow_add_r in H0 by lia. change (2 ^ 8) with 256 in H0. nia.
Qed.

Definition le4 (b0 b1 b2 b3 : Z) : Z := b0 + 256 * (b1 + 256 * (b2 + 256 * b3)).
Definition le8 (b0 b1 b2 b3 b4 b5 b6 b7 : Z) : Z := le4 b0 b1 b2 b3 + 2 ^ 32 * le4 b4 b5 b6 b7.
Ltac pw := repeat match goal with |- context [2 ^ ?k] => match k with Zpos _ => let v := eval vm_compute in (2 ^ k) in change (2 ^ k) with v end end.
Ltac dm := Z.div_mod_to_equations; lia.

Lemma byte_up : forall v k m s, 0 <= s -> 8 + k <= m -> 0 <= k -> s <= k ->
  (v * 2 ^ s) mod 2 ^ m / 2 ^ k mod 2 ^ 8 = v / 2 ^ (k - s) mod 2 ^ 8.
Proof.
  intros v k m s Hs H8 Hk Hsk. apply Z.bits_inj'. intros n Hn.
  destruct (Z.ltb_spec n 8) as [L|L].
  - rewrite !Z.mod_pow2_bits_low by lia. rewrite !Z.div_pow2_bits by lia. rewrite Z.mod_pow2_bits_low by lia. rewrite Z.mul_pow2_bits by lia. f_equal. lia.
  - rewrite !Z.mod_pow2_bits_high by lia. reflexivity.
Qed.
Lemma byte_down : forall v k s, 0 <= s -> 0 <= k -> v / 2 ^ s / 2 ^ k = v / 2 ^ (k + s).
Proof. intros v k s Hs Hk. rewrite Z.div_div by (try apply Z.pow_nonzero; try apply Z.pow_pos_nonneg; lia). rewrite <- Z.pow_add_r by lia. f_equal. f_equal. lia. Qed.
Lemma top_up : forall v m s, 0 <= s -> 8 + s = m -> (v * 2 ^ s) mod 2 ^ m = (v mod 256) * 2 ^ s.
Proof. intros v m s Hs <-. rewrite (Z.pow_add_r 2 8 s) by lia. rewrite (Z.mul_comm (2 ^ 8)), (Z.mul_comm v), Z.mul_mod_distr_l; [|apply Z.pow_nonzero; lia|apply Z.pow_nonzero; lia]. change (2 ^ 8) with 256. lia. Qed.

Lemma byte_range : forall v i, 0 <= byte_of v i < 256. Proof. intros v i. unfold byte_of. apply Z.mod_pos_bound. lia. Qed.

(* masked and shifted bytes *)
Lemma up_byte : forall v k m s i, 0 <= s -> 0 <= k -> 8 + k <= m -> s + 8 * Z.of_nat i = k ->
  Z.land (Z.shiftl v s mod 2 ^ m) (Z.shiftl 255 k) = byte_of v i * 2 ^ k.
Proof.
  intros v k m s i Hs Hk Hm Hi. rewrite land_mask by exact Hk. rewrite Z.shiftl_mul_pow2 by exact Hs. change 256 with (2 ^ 8).
  rewrite byte_up by lia. unfold byte_of. change 256 with (2 ^ 8). f_equal. f_equal. f_equal. f_equal. lia.
Qed.
Lemma down_byte : forall v k s i, 0 <= s -> 0 <= k -> k + s = 8 * Z.of_nat i -> Z.land (Z.shiftr v s) (Z.shiftl 255 k) = byte_of v i * 2 ^ k.
Proof.
  intros v k s i Hs Hk Hi. rewrite land_mask by exact Hk. rewrite Z.shiftr_div_pow2 by exact Hs. rewrite byte_down by lia. unfold byte_of. rewrite Hi. reflexivity.
Qed.

Lemma swap64_little : forall v, 0 <= v < 2 ^ 64 -> swap64_check_little_endian (little 8) v =
  byte_of v 0 * 2 ^ 56 + byte_of v 1 * 2 ^ 48 + byte_of v 2 * 2 ^ 40 + byte_of v 3 * 2 ^ 32 + byte_of v 4 * 2 ^ 24 + byte_of v 5 * 2 ^ 16 + byte_of v 6 * 2 ^ 8 + byte_of v 7.
Proof.
  intros v Hv. unfold swap64_check_little_endian.
  change (nth 7 (memory (little 8) 0x0123456789ABCDEF) 0 =? 0xEF) with false. change (nth 0 (memory (little 8) 0x0123456789ABCDEF) 0 =? 0xEF) with true.
  cbv iota beta zeta. unfold negb.
  change (wrap64 (Z.shiftl v 56)) with (Z.shiftl v 56 mod 2 ^ 64). change (wrap64 (Z.shiftl v 40)) with (Z.shiftl v 40 mod 2 ^ 64).
  change (wrap64 (Z.shiftl v 24)) with (Z.shiftl v 24 mod 2 ^ 64). change (wrap64 (Z.shiftl v 8)) with (Z.shiftl v 8 mod 2 ^ 64).
  change 0x00FF000000000000 with (Z.shiftl 255 48). change 0x0000FF0000000000 with (Z.shiftl 255 40). change 0x000000FF00000000 with (Z.shiftl 255 32).
  change 0x00000000FF000000 with (Z.shiftl 255 24). change 0x0000000000FF0000 with (Z.shiftl 255 16). change 0x000000000000FF00 with (Z.shiftl 255 8).
  rewrite (up_byte v 48 64 40 1), (up_byte v 40 64 24 2), (up_byte v 32 64 8 3) by lia.
  rewrite (down_byte v 24 8 4), (down_byte v 16 24 5), (down_byte v 8 40 6) by lia.
  rewrite (Z.shiftl_mul_pow2 v 56) by lia. rewrite (top_up v 64 56) by lia.
  assert (E0 : v mod 256 = byte_of v 0) by (unfold byte_of; change (2 ^ (8 * Z.of_nat 0)) with 1; rewrite Z.div_1_r; reflexivity). rewrite E0.
  assert (E7 : Z.shiftr v 56 = byte_of v 7).
  { rewrite Z.shiftr_div_pow2 by lia. unfold byte_of. change (8 * Z.of_nat 7) with 56. rewrite Z.mod_small; [reflexivity|]. split; [apply Z.div_pos; [lia|reflexivity]|apply Z.div_lt_upper_bound; [reflexivity|exact (proj2 Hv)]]. }
  rewrite E7. clear E0 E7 Hv.
  pose proof (byte_range v 0) as R0. pose proof (byte_range v 1) as R1. pose proof (byte_range v 2) as R2. pose proof (byte_range v 3) as R3.
  pose proof (byte_range v 4) as R4. pose proof (byte_range v 5) as R5. pose proof (byte_range v 6) as R6. pose proof (byte_range v 7) as R7.
  generalize dependent (byte_of v 0). generalize dependent (byte_of v 1). generalize dependent (byte_of v 2). generalize dependent (byte_of v 3).
  generalize dependent (byte_of v 4). generalize dependent (byte_of v 5). generalize dependent (byte_of v 6). generalize dependent (byte_of v 7). clear v.
  intros b7 R7 b6 R6 b5 R5 b4 R4 b3 R3 b2 R2 b1 R1 b0 R0.
  rewrite (lor_byte b0 b1 56 48) by lia. replace (b0 * 2 ^ 56 + b1 * 2 ^ 48) with ((b0 * 256 + b1) * 2 ^ 48) by (pw; ring).
  rewrite (lor_byte _ b2 48 40) by lia. replace ((b0 * 256 + b1) * 2 ^ 48 + b2 * 2 ^ 40) with (((b0 * 256 + b1) * 256 + b2) * 2 ^ 40) by (pw; ring).
  rewrite (lor_byte _ b3 40 32) by lia. set (x := ((b0 * 256 + b1) * 256 + b2) * 2 ^ 40 + b3 * 2 ^ 32). replace x with ((((b0 * 256 + b1) * 256 + b2) * 256 + b3) * 2 ^ 32) by (unfold x; pw; ring). clear x.
  set (y := ((b0 * 256 + b1) * 256 + b2) * 256 + b3).
  rewrite (lor_byte y b4 32 24) by lia. replace (y * 2 ^ 32 + b4 * 2 ^ 24) with ((y * 256 + b4) * 2 ^ 24) by (pw; ring).
  rewrite (lor_byte _ b5 24 16) by lia. replace ((y * 256 + b4) * 2 ^ 24 + b5 * 2 ^ 16) with (((y * 256 + b4) * 256 + b5) * 2 ^ 16) by (pw; ring).
  rewrite (lor_byte _ b6 16 8) by lia. replace (((y * 256 + b4) * 256 + b5) * 2 ^ 16 + b6 * 2 ^ 8) with ((((y * 256 + b4) * 256 + b5) * 256 + b6) * 2 ^ 8) by (pw; ring).
  rewrite lor_mul_low by (change (2 ^ 8) with 256; lia). unfold y. pw. ring.
Qed.

Lemma swap32_little : forall v, 0 <= v < 2 ^ 32 -> swap32_check_little_endian (little 4) v =
  byte_of v 0 * 2 ^ 24 + byte_of v 3 * 2 ^ 16 + byte_of v 0 * 2 ^ 8 + byte_of v 3.
Proof.
  intros v Hv. unfold swap32_check_little_endian, u32.
  change (nth 3 (memory (little 4) 0x01234567) 0 =? 0x67) with false. change (nth 0 (memory (little 4) 0x01234567) 0 =? 0x67) with true.
  cbv iota beta zeta. unfold negb. change 0x00FF0000 with (Z.shiftl 255 16). change 0x0000FF00 with (Z.shiftl 255 8).
  rewrite (up_byte v 8 32 8 0), (down_byte v 16 8 3) by lia. rewrite (Z.shiftl_mul_pow2 v 24) by lia. rewrite (top_up v 32 24) by lia.
  assert (E0 : v mod 256 = byte_of v 0) by (unfold byte_of; change (2 ^ (8 * Z.of_nat 0)) with 1; rewrite Z.div_1_r; reflexivity). rewrite E0.
  assert (E3 : Z.shiftr v 24 = byte_of v 3).
  { rewrite Z.shiftr_div_pow2 by lia. unfold byte_of. change (8 * Z.of_nat 3) with 24. rewrite Z.mod_small; [reflexivity|]. split; [apply Z.div_pos; [lia|reflexivity]|apply Z.div_lt_upper_bound; [reflexivity|exact (proj2 Hv)]]. }
  rewrite E3. clear E0 E3 Hv. pose proof (byte_range v 0) as R0. pose proof (byte_range v 3) as R3.
  generalize dependent (byte_of v 0). generalize dependent (byte_of v 3). clear v. intros b3 R3 b0 R0.
  rewrite (lor_byte b0 b0 24 8) by lia.
  replace (b0 * 2 ^ 24 + b0 * 2 ^ 8) with (Z.lor (b0 * 2 ^ 24) (b0 * 2 ^ 8)) by (apply lor_byte; lia).
  rewrite <- (Z.lor_assoc (b0 * 2 ^ 24)), (Z.lor_comm (b0 * 2 ^ 8)), Z.lor_assoc.
  rewrite (lor_byte b0 b3 24 16) by lia. replace (b0 * 2 ^ 24 + b3 * 2 ^ 16) with ((b0 * 256 + b3) * 2 ^ 16) by (pw; ring).
  rewrite (lor_byte _ b0 16 8) by lia. replace ((b0 * 256 + b3) * 2 ^ 16 + b0 * 2 ^ 8) with (((b0 * 256 + b3) * 256 + b0) * 2 ^ 8) by (pw; ring).
  rewrite lor_mul_low by (change (2 ^ 8) with 256; lia). pw. ring.
Qed.

(* the bytes of a number put together *)
Lemma byte_of_le8 : forall a b c d e f g h, is_byte a -> is_byte b -> is_byte c -> is_byte d -> is_byte e -> is_byte f -> is_byte g -> is_byte h ->
  map (byte_of (a * 2 ^ 56 + b * 2 ^ 48 + c * 2 ^ 40 + d * 2 ^ 32 + e * 2 ^ 24 + f * 2 ^ 16 + g * 2 ^ 8 + h)) (seq 0 8) = [h; g; f; e; d; c; b; a].
Proof.
  intros a b c d e f g h. unfold is_byte. intros Ha Hb Hc Hd He Hf Hg Hh. cbn [seq map]. unfold byte_of.
  change (8 * Z.of_nat 0) with 0. change (8 * Z.of_nat 1) with 8. change (8 * Z.of_nat 2) with 16. change (8 * Z.of_nat 3) with 24.
  change (8 * Z.of_nat 4) with 32. change (8 * Z.of_nat 5) with 40. change (8 * Z.of_nat 6) with 48. change (8 * Z.of_nat 7) with 56.
  change (2 ^ 0) with 1. pw.
  repeat f_equal; dm.
Qed.
Lemma byte_of_le4 : forall e f g h, is_byte e -> is_byte f -> is_byte g -> is_byte h ->
  map (byte_of (e * 2 ^ 24 + f * 2 ^ 16 + g * 2 ^ 8 + h)) (seq 0 4) = [h; g; f; e].
Proof.
  intros e f g h. unfold is_byte. intros He Hf Hg Hh. cbn [seq map]. unfold byte_of.
  change (8 * Z.of_nat 0) with 0. change (8 * Z.of_nat 1) with 8. change (8 * Z.of_nat 2) with 16. change (8 * Z.of_nat 3) with 24.
  change (2 ^ 0) with 1. pw. repeat f_equal; dm.
Qed.
Lemma four : forall bs : list Z, length bs = 4%nat -> exists a b c d, bs = [a; b; c; d].
Proof. intros [|a [|b [|c [|d [|e l]]]]] H; try discriminate H. exists a, b, c, d. reflexivity. Qed.
Lemma eight : forall bs : list Z, length bs = 8%nat -> exists a b c d e f g h, bs = [a; b; c; d; e; f; g; h].
Proof. intros [|a [|b [|c [|d [|e [|f [|g [|h [|i l]]]]]]]]] H; try discriminate H. exists a, b, c, d, e, f, g, h. reflexivity. Qed.

Ltac fb H := repeat match type of H with Forall _ (_ :: _) => let x := fresh "B" in apply Forall_cons_iff in H; destruct H as [x H] end.

Lemma to64 : forall order v, order = little 8 \/ order = big 8 -> 0 <= v < 2 ^ 64 -> memory order (host_to_bigendian64 order v) = big_endian 8 v.
Proof.
  intros order v [E|E] Hv; subst order; unfold host_to_bigendian64.
  - rewrite swap64_little by exact Hv. unfold memory, little. rewrite byte_of_le8 by apply byte_range. reflexivity.
  - unfold swap64_check_little_endian. change (nth 7 (memory (big 8) 0x0123456789ABCDEF) 0 =? 0xEF) with true. cbv zeta iota. reflexivity.
Qed.
Lemma load_little8 : forall a b c d e f g h, load (little 8) [a; b; c; d; e; f; g; h] =
  h * 2 ^ 56 + g * 2 ^ 48 + f * 2 ^ 40 + e * 2 ^ 32 + d * 2 ^ 24 + c * 2 ^ 16 + b * 2 ^ 8 + a.
Proof.
  intros. unfold load, little. cbn [seq combine fold_right fst snd].
  change (8 * Z.of_nat 0) with 0. change (8 * Z.of_nat 1) with 8. change (8 * Z.of_nat 2) with 16. change (8 * Z.of_nat 3) with 24.
  change (8 * Z.of_nat 4) with 32. change (8 * Z.of_nat 5) with 40. change (8 * Z.of_nat 6) with 48. change (8 * Z.of_nat 7) with 56. change (2 ^ 0) with 1. pw. ring.
Qed.
Lemma load_little4 : forall a b c d, load (little 4) [a; b; c; d] = d * 2 ^ 24 + c * 2 ^ 16 + b * 2 ^ 8 + a.
Proof.
  intros. unfold load, little. cbn [seq combine fold_right fst snd].
  change (8 * Z.of_nat 0) with 0. change (8 * Z.of_nat 1) with 8. change (8 * Z.of_nat 2) with 16. change (8 * Z.of_nat 3) with 24. change (2 ^ 0) with 1. pw. ring.
Qed.
Lemma load_big4 : forall a b c d, load (big 4) [a; b; c; d] = value_of [a; b; c; d].
Proof.
  intros. unfold load, big, value_of. cbn [seq rev app combine fold_right fold_left fst snd].
  change (8 * Z.of_nat 0) with 0. change (8 * Z.of_nat 1) with 8. change (8 * Z.of_nat 2) with 16. change (8 * Z.of_nat 3) with 24. change (2 ^ 0) with 1. pw. ring.
Qed.
Lemma from64 : forall order bs, order = little 8 \/ order = big 8 -> bytes bs -> length bs = 8%nat -> bigendian_to_host64 order (load order bs) = value_of bs.
Proof.
  intros order bs HE HB HL. destruct (eight bs HL) as (a & b & c & d & e & f & g & h & E). subst bs. unfold bytes in HB. fb HB. unfold bigendian_to_host64.
  destruct HE as [E|E]; subst order.
  - rewrite load_little8. pose proof (byte_of_le8 h g f e d c b a B6 B5 B4 B3 B2 B1 B0 B) as HM. cbn [seq map] in HM.
    rewrite swap64_little by (clear HM; unfold is_byte in *; pw; lia).
    set (v := h * 2 ^ 56 + g * 2 ^ 48 + f * 2 ^ 40 + e * 2 ^ 32 + d * 2 ^ 24 + c * 2 ^ 16 + b * 2 ^ 8 + a) in *. clearbody v.
    injection HM as E0 E1 E2 E3 E4 E5 E6 E7. rewrite E0, E1, E2, E3, E4, E5, E6, E7. unfold value_of. cbn [fold_left]. pw. ring.
  - unfold swap64_check_little_endian. change (nth 7 (memory (big 8) 0x0123456789ABCDEF) 0 =? 0xEF) with true. cbv zeta iota.
    unfold load, big, value_of. cbn [seq rev app combine fold_right fold_left fst snd].
    change (8 * Z.of_nat 0) with 0. change (8 * Z.of_nat 1) with 8. change (8 * Z.of_nat 2) with 16. change (8 * Z.of_nat 3) with 24.
    change (8 * Z.of_nat 4) with 32. change (8 * Z.of_nat 5) with 40. change (8 * Z.of_nat 6) with 48. change (8 * Z.of_nat 7) with 56. change (2 ^ 0) with 1. pw. ring.
Qed.

Lemma to32_little : forall v, 0 <= v < 2 ^ 32 ->
  memory (little 4) (host_to_bigendian32 (little 4) v) = [byte_of v 3; byte_of v 0; byte_of v 3; byte_of v 0].
Proof. intros v Hv. unfold host_to_bigendian32. rewrite swap32_little by exact Hv. unfold memory, little. rewrite byte_of_le4 by apply byte_range. reflexivity. Qed.
Lemma swap32_big : forall v, swap32_check_little_endian (big 4) v = v.
Proof. intro v. unfold swap32_check_little_endian. change (nth 3 (memory (big 4) 0x01234567) 0 =? 0x67) with true. reflexivity. Qed.
Lemma to32_big : forall v, memory (big 4) (host_to_bigendian32 (big 4) v) = big_endian 4 v.
Proof. intro v. unfold host_to_bigendian32. rewrite swap32_big. reflexivity. Qed.
Lemma to32_iff : forall v, 0 <= v < 2 ^ 32 ->
  (memory (little 4) (host_to_bigendian32 (little 4) v) = big_endian 4 v <-> byte_of v 1 = byte_of v 3 /\ byte_of v 2 = byte_of v 0).
Proof.
  intros v Hv. rewrite to32_little by exact Hv. unfold big_endian. cbn [seq rev app map]. split.
  - intro H. injection H as E1 E2. split; congruence.
  - intros [E1 E2]. rewrite E1, E2. reflexivity.
Qed.
Lemma from32_little : forall a b c d, is_byte a -> is_byte b -> is_byte c -> is_byte d ->
  bigendian_to_host32 (little 4) (load (little 4) [a; b; c; d]) = value_of [a; d; a; d].
Proof.
  intros a b c d Ha Hb Hc Hd. rewrite load_little4. pose proof (byte_of_le4 d c b a Hd Hc Hb Ha) as HM. cbn [seq map] in HM.
  unfold bigendian_to_host32. rewrite swap32_little by (clear HM; unfold is_byte in *; pw; lia).
  set (v := d * 2 ^ 24 + c * 2 ^ 16 + b * 2 ^ 8 + a) in *. clearbody v. injection HM as E0 E1 E2 E3. rewrite E0, E3. unfold value_of. cbn [fold_left]. pw. ring.
Qed.
Lemma from32_big : forall a b c d, bigendian_to_host32 (big 4) (load (big 4) [a; b; c; d]) = value_of [a; b; c; d].
Proof. intros. unfold bigendian_to_host32. rewrite swap32_big. apply load_big4. Qed.

(* the loop *)
Lemma print_ok : forall order frame n pos j,
  pos = (9 + 4 * j)%nat -> (pos <= length frame)%nat ->
  let size := Z.of_nat (length frame) in
  let room := Z.to_nat ((size - Z.of_nat pos) / 4) in
  print_partitions order frame pos size (Z.of_nat pos) n =
  Some (map (fun i => bigendian_to_host32 order (load order (offset_bytes frame i))) (seq j (Nat.min n room)),
        if (n <=? room)%nat then Z.of_nat pos + 4 * Z.of_nat n else 0).
Proof.
  intros order frame n. induction n as [|n IH]; intros pos j HP HL size room.
  - cbn [print_partitions Nat.min seq map Nat.leb]. do 2 f_equal. lia.
  - cbn [print_partitions]. cbv zeta. destruct (size <? Z.of_nat pos + 4) eqn:E.
    + apply Z.ltb_lt in E. assert (R : room = 0%nat). { unfold room. rewrite Z.div_small by (unfold size in *; lia). reflexivity. }
      rewrite R. reflexivity.
    + apply Z.ltb_ge in E. assert (HL2 : (pos + 4 <= length frame)%nat) by (unfold size in E; lia).
      assert (EB : (length (firstn 4 (skipn pos frame)) <? 4)%nat = false). { apply Nat.ltb_ge. rewrite firstn_length, skipn_length. lia. }
      rewrite EB. replace (Z.of_nat pos + 4) with (Z.of_nat (pos + 4)) by lia.
      specialize (IH (pos + 4)%nat (S j) ltac:(lia) HL2). cbv zeta in IH. fold size in IH. rewrite IH.
      set (room' := Z.to_nat ((size - Z.of_nat (pos + 4)) / 4)).
      assert (R : room = S room').
      { unfold room, room'. replace (size - Z.of_nat pos) with ((size - Z.of_nat (pos + 4)) + 1 * 4) by lia. rewrite Z.div_add by lia.
        assert (0 <= (size - Z.of_nat (pos + 4)) / 4) by (apply Z.div_pos; lia). lia. }
      rewrite R. cbn [Nat.min seq map Nat.leb]. unfold offset_bytes at 2. rewrite <- HP. f_equal. f_equal. destruct (n <=? room')%nat; lia.
Qed.
Lemma print_sub_ok : forall order frame, bytes frame -> (9 <= length frame)%nat ->
  PrintSubSampleEncryption order frame (Z.of_nat (length frame)) =
  Some (map (fun i => bigendian_to_host32 order (load order (offset_bytes frame i))) (seq 0 (Z.to_nat (Z.min (partition_count frame) (offsets_inside frame)))),
        if partition_count frame <=? offsets_inside frame then 9 + 4 * partition_count frame else 0).
Proof.
  intros order frame HB HL. unfold PrintSubSampleEncryption. cbv zeta.
  destruct (Z.of_nat (length frame) <? 8) eqn:E1; [lia|]. destruct (Z.of_nat (length frame) <? 8 + 1) eqn:E2; [lia|].
  rewrite (nth_error_nth' frame 0 (n := 8)) by lia. fold (partition_count frame).
  assert (B : is_byte (partition_count frame)). { unfold bytes in HB. rewrite Forall_forall in HB. apply HB. apply nth_In. lia. }
  unfold is_byte in B. change (8 + 1) with (Z.of_nat 9).
  pose proof (print_ok order frame (Z.to_nat (partition_count frame)) 9 0 ltac:(lia) HL) as H. cbv zeta in H. rewrite H.
  change (Z.of_nat 9) with 9. fold (offsets_inside frame).
  assert (0 <= offsets_inside frame) by (apply Z.div_pos; lia).
  replace (Nat.min (Z.to_nat (partition_count frame)) (Z.to_nat (offsets_inside frame))) with (Z.to_nat (Z.min (partition_count frame) (offsets_inside frame))) by lia.
  do 2 f_equal. destruct (Z.leb_spec (partition_count frame) (offsets_inside frame)), (Nat.leb_spec (Z.to_nat (partition_count frame)) (Z.to_nat (offsets_inside frame))); lia.
Qed.
Lemma print_sub_short : forall order frame, (length frame < 9)%nat -> PrintSubSampleEncryption order frame (Z.of_nat (length frame)) = Some ([], 0).
Proof.
  intros order frame HL. unfold PrintSubSampleEncryption. cbv zeta. destruct (Z.of_nat (length frame) <? 8) eqn:E1; [reflexivity|].
  destruct (Z.of_nat (length frame) <? 8 + 1) eqn:E2; [reflexivity|lia].
Qed.
Lemma offset_bytes_four : forall frame i, bytes frame -> (9 + 4 * i + 4 <= length frame)%nat -> exists a b c d,
  offset_bytes frame i = [a; b; c; d] /\ is_byte a /\ is_byte b /\ is_byte c /\ is_byte d.
Proof.
  intros frame i HB HL. assert (L : length (offset_bytes frame i) = 4%nat) by (unfold offset_bytes; rewrite firstn_length, skipn_length; lia).
  destruct (four _ L) as (a & b & c & d & E). exists a, b, c, d. split; [exact E|].
  assert (F : Forall is_byte (offset_bytes frame i)).
  { unfold bytes in HB. rewrite Forall_forall in *. intros x Hx. apply HB. unfold offset_bytes in Hx.
    rewrite <- (firstn_skipn (9 + 4 * i) frame). apply in_or_app. right. rewrite <- (firstn_skipn 4 (skipn (9 + 4 * i) frame)). apply in_or_app. left. exact Hx. }
  rewrite E in F. fb F. auto.
Qed.
