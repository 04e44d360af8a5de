(* The PTS field: what SetPtsBits stores and what the parser reads back. *)
From Coq Require Import ZifyBool ZifyNat.
From Verif Require Import Base MFloat MPes PesSpec PPes.

Lemma land_255 : forall x, Z.land x 255 = x mod 256.
Proof. intros. change 255 with (Z.ones 8). apply Z.land_ones. lia. Qed.
Lemma land_7 : forall x, Z.land x 7 = x mod 8.
Proof. intros. change 7 with (Z.ones 3). apply Z.land_ones. lia. Qed.
Lemma land_32767 : forall x, Z.land x 0x7FFF = x mod 32768.
Proof. intros. change 0x7FFF with (Z.ones 15). apply Z.land_ones. lia. Qed.
Lemma shiftr_div : forall x k, 0 <= k -> Z.shiftr x k = x / 2 ^ k.
Proof. intros. apply Z.shiftr_div_pow2. lia. Qed.
Lemma shiftl_mul : forall x k, 0 <= k -> Z.shiftl x k = x * 2 ^ k.
Proof. intros. apply Z.shiftl_mul_pow2. lia. Qed.

Lemma lor_mul_low : forall a b k, 0 <= k -> 0 <= b < 2 ^ k -> Z.lor (a * 2 ^ k) b = a * 2 ^ k + b.
Proof. intros a b k Hk Hb. rewrite <- Z.shiftl_mul_pow2 by lia. rewrite lor_shiftl_low by lia.
  rewrite Z.shiftl_mul_pow2 by lia. reflexivity. Qed.

Lemma lor_bound : forall a b k, 0 <= k -> 0 <= a < 2 ^ k -> 0 <= b < 2 ^ k -> 0 <= Z.lor a b < 2 ^ k.
Proof.
  intros a b k Hk Ha Hb.
  assert (0 <= Z.lor a b) by (apply Z.lor_nonneg; lia).
  split; [lia|].
  assert (E : Z.land (Z.lor a b) (Z.ones k) = Z.lor a b).
  { rewrite Z.land_lor_distr_l, !Z.land_ones by lia. rewrite !Z.mod_small by lia. reflexivity. }
  rewrite <- E, Z.land_ones by lia. apply Z.mod_pos_bound. apply pow2_pos; lia.
Qed.

Lemma lor_mul_add : forall x y lo k, 0 <= k -> 0 <= lo < 2 ^ k ->
  Z.lor (x * 2 ^ k) (y * 2 ^ k + lo) = Z.lor x y * 2 ^ k + lo.
Proof.
  intros x y lo k Hk Hlo.
  rewrite <- (lor_mul_low y lo k) by lia. rewrite Z.lor_assoc.
  rewrite <- !Z.shiftl_mul_pow2 by lia. rewrite <- Z.shiftl_lor.
  rewrite !Z.shiftl_mul_pow2 by lia. apply lor_mul_low; lia.
Qed.

(* The five bytes actually stored.  The fourth one is the or of the byte the
   format asks for with the second one. *)
Definition pts_stored (p : Z) : list Z :=
  [ 0x21 + 2 * ((p / 2 ^ 30) mod 8);
    (p / 2 ^ 22) mod 256;
    1 + 2 * ((p / 2 ^ 15) mod 128);
    Z.lor ((p / 2 ^ 7) mod 256) ((p / 2 ^ 22) mod 256);
    1 + 2 * (p mod 128) ].

Lemma lor_1_even : forall x, Z.lor (2 * x) 1 = 2 * x + 1.
Proof.
  intros x. replace (2 * x) with (x * 2 ^ 1) by (change (2 ^ 1) with 2; lia).
  apply (lor_mul_low x 1 1); cbn; lia.
Qed.

Lemma small8 : forall P : Z -> Prop,
  P 0 -> P 1 -> P 2 -> P 3 -> P 4 -> P 5 -> P 6 -> P 7 -> forall x, 0 <= x < 8 -> P x.
Proof.
  intros P; intros. 
  assert (C : x = 0 \/ x = 1 \/ x = 2 \/ x = 3 \/ x = 4 \/ x = 5 \/ x = 6 \/ x = 7) by lia.
  intuition; subst; auto.
Qed.

Lemma SetPtsBits_value : forall p,
  SetPtsBits p =
    (1 + 2 * (p mod 128)) * 2 ^ 32 +
    Z.lor ((p / 2 ^ 7) mod 256) ((p / 2 ^ 22) mod 256) * 2 ^ 24 +
    (1 + 2 * ((p / 2 ^ 15) mod 128)) * 2 ^ 16 +
    ((p / 2 ^ 22) mod 256) * 2 ^ 8 +
    (0x21 + 2 * ((p / 2 ^ 30) mod 8)).
Proof.
  intros p. unfold SetPtsBits. cbv zeta.
  rewrite !land_255, !land_7, !land_32767, !(shiftr_div p) by lia.
  change (2 ^ 30) with 1073741824. change (2 ^ 15) with 32768.
  set (p1 := (p / 1073741824) mod 8). set (p2 := (p / 32768) mod 32768). set (p3 := p mod 32768).
  assert (H1 : 0 <= p1 < 8) by (subst p1; apply Z.mod_pos_bound; lia).
  assert (H2 : 0 <= p2 < 32768) by (subst p2; apply Z.mod_pos_bound; lia).
  assert (H3 : 0 <= p3 < 32768) by (subst p3; apply Z.mod_pos_bound; lia).
  unfold wrap32. rewrite !(Z.mod_small p1), !(Z.mod_small p2), !(Z.mod_small p3) by lia.
  rewrite !shiftr_div, !shiftl_mul by lia.
  change (2 ^ 1) with 2. change (2 ^ 7) with 128. change (2 ^ 8) with 256. change (2 ^ 5) with 32.
  rewrite !(Z.mod_small (_ * 2) 4294967296) by lia.
  rewrite Z.lor_0_l.
  replace (p3 * 2 mod 256) with (2 * (p mod 128)) by (subst p3; zdm).
  replace ((p3 / 128) mod 256) with ((p / 2 ^ 7) mod 256) by (subst p3; change (2 ^ 7) with 128; zdm).
  replace (p2 / 128 mod 256) with ((p / 2 ^ 22) mod 256)
    by (subst p2; change (2 ^ 22) with (32768 * 128); rewrite <- (Z.div_div p 32768 128) by lia; zdm).
  change (2 ^ 22) with 4194304. change (2 ^ 7) with 128.
  change (2 ^ 32) with 4294967296. change (2 ^ 24) with 16777216. change (2 ^ 16) with 65536.
  assert (Ec : p2 * 2 = (p / 4194304) mod 256 * 256 + 2 * ((p / 32768) mod 128)).
  { subst p2. change 4194304 with (32768 * 128). rewrite <- (Z.div_div p 32768 128) by lia. zdm. }
  rewrite Ec.
  set (a := p mod 128). set (b := (p / 128) mod 256). set (ch := (p / 4194304) mod 256).
  set (cl := (p / 32768) mod 128).
  assert (Ha : 0 <= a < 128) by (subst a; apply Z.mod_pos_bound; lia).
  assert (Hb : 0 <= b < 256) by (subst b; apply Z.mod_pos_bound; lia).
  assert (Hch : 0 <= ch < 256) by (subst ch; apply Z.mod_pos_bound; lia).
  assert (Hcl : 0 <= cl < 128) by (subst cl; apply Z.mod_pos_bound; lia).
  assert (HD : 0 <= Z.lor b ch < 2 ^ 8) by (apply lor_bound; lia).
  change (2 ^ 8) with 256 in HD. set (dd := Z.lor b ch) in *.
  rewrite lor_1_even. unfold wrap64.
  rewrite (Z.mod_small ((2 * a + 1) * 256)) by lia.
  rewrite (lor_mul_low _ b 8) by lia. change (2 ^ 8) with 256.
  rewrite (Z.mod_small (((2 * a + 1) * 256 + b) * 256)) by lia.
  replace (((2 * a + 1) * 256 + b) * 256) with ((((2 * a + 1) * 256 + b)) * 2 ^ 8) by (change (2 ^ 8) with 256; lia).
  replace (ch * 256) with (ch * 2 ^ 8) by (change (2 ^ 8) with 256; lia).
  rewrite (lor_mul_add _ ch (2 * cl) 8) by (change (2 ^ 8) with 256; lia).
  replace ((2 * a + 1) * 256) with ((2 * a + 1) * 2 ^ 8) by (change (2 ^ 8) with 256; lia).
  assert (ED : Z.lor ((2 * a + 1) * 2 ^ 8 + b) ch = (2 * a + 1) * 2 ^ 8 + dd).
  { rewrite <- (lor_mul_low (2 * a + 1) b 8) by lia. rewrite <- Z.lor_assoc.
    apply (lor_mul_low (2 * a + 1) dd 8); lia. }
  rewrite ED.
  change (2 ^ 8) with 256.
  replace ((((2 * a + 1) * 256 + dd) * 256 + 2 * cl)) with (2 * (((2 * a + 1) * 256 + dd) * 128 + cl)) by lia.
  rewrite lor_1_even.
  rewrite (Z.mod_small ((2 * (((2 * a + 1) * 256 + dd) * 128 + cl) + 1) * 256)) by lia.
  rewrite (lor_mul_low _ ch 8) by lia. change (2 ^ 8) with 256.
  rewrite (Z.mod_small (_ * 256) 18446744073709551616) by lia.
  set (hi := (2 * (((2 * a + 1) * 256 + dd) * 128 + cl) + 1) * 256 + ch).
  rewrite <- !Z.lor_assoc.
  replace (Z.lor (1 * 32) (Z.lor (p1 * 2) 1)) with (33 + 2 * p1).
  2: { revert H1. generalize p1. apply small8; reflexivity. }
  change (hi * 256) with (hi * 2 ^ 8).
  rewrite (lor_mul_low hi (33 + 2 * p1) 8) by (change (2 ^ 8) with 256; lia).
  subst hi. change (2 ^ 8) with 256. lia.
Qed.

Lemma opt_header_pts : forall p,
  opt_header_bytes true (SetPtsBits p) = [0x80; 0x80; 6] ++ pts_stored p ++ [0xFF].
Proof.
  intros p. unfold opt_header_bytes, pts_stored. rewrite SetPtsBits_value.
  rewrite !land_255, !shiftr_div by lia.
  set (a := p mod 128). set (b := (p / 2 ^ 7) mod 256). set (ch := (p / 2 ^ 22) mod 256).
  set (cl := (p / 2 ^ 15) mod 128). set (p1 := (p / 2 ^ 30) mod 8).
  assert (Ha : 0 <= a < 128) by (subst a; apply Z.mod_pos_bound; lia).
  assert (Hb : 0 <= b < 256) by (subst b; apply Z.mod_pos_bound; lia).
  assert (Hch : 0 <= ch < 256) by (subst ch; apply Z.mod_pos_bound; lia).
  assert (Hcl : 0 <= cl < 128) by (subst cl; apply Z.mod_pos_bound; lia).
  assert (Hp1 : 0 <= p1 < 8) by (subst p1; apply Z.mod_pos_bound; lia).
  assert (HD : 0 <= Z.lor b ch < 2 ^ 8) by (apply lor_bound; lia).
  change (2 ^ 8) with 256 in *. set (dd := Z.lor b ch) in *.
  change (2 ^ 16) with 65536. change (2 ^ 24) with 16777216. change (2 ^ 32) with 4294967296.
  cbn [app]. clearbody a b ch cl p1 dd.
  change (wrap8 (Z.shiftl 2 6)) with 128. change (wrap8 (Z.shiftl 1 7)) with 128.
  do 3 f_equal.
  apply f_equal2; [zdm|]. apply f_equal2; [zdm|]. apply f_equal2; [zdm|].
  apply f_equal2; [zdm|]. apply f_equal2; [zdm|]. reflexivity.
Qed.

Lemma land_fffe : forall x, Z.land x 0xFFFE = 2 * ((x / 2) mod 32768).
Proof.
  intros x.
  assert (E : x = Z.lor (Z.shiftl (x / 2) 1) (x mod 2)).
  { rewrite lor_shiftl_low; [change (2 ^ 1) with 2; zdm|lia|change (2 ^ 1) with 2; zdm]. }
  rewrite E at 1. rewrite Z.land_lor_distr_l.
  change 0xFFFE with (Z.shiftl 0x7FFF 1) at 1. rewrite <- Z.shiftl_land, land_32767, shiftl_mul by lia.
  replace (Z.land (x mod 2) 65534) with 0.
  - rewrite Z.lor_0_r. change (2 ^ 1) with 2. lia.
  - assert (C : x mod 2 = 0 \/ x mod 2 = 1) by zdm. destruct C as [-> | ->]; reflexivity.
Qed.

Lemma pts_decompose : forall p, 0 <= p < 2 ^ 33 ->
  p = (p / 2 ^ 30) mod 8 * 2 ^ 30 + (p / 2 ^ 22) mod 256 * 2 ^ 22 + (p / 2 ^ 15) mod 128 * 2 ^ 15
      + (p / 2 ^ 7) mod 256 * 2 ^ 7 + p mod 128.
Proof.
  intros p Hp.
  assert (E22 : p / 2 ^ 22 = p / 2 ^ 7 / 2 ^ 8 / 2 ^ 7) by (rewrite !Z.div_div by lia; reflexivity).
  assert (E15 : p / 2 ^ 15 = p / 2 ^ 7 / 2 ^ 8) by (rewrite !Z.div_div by lia; reflexivity).
  assert (E30 : p / 2 ^ 30 = p / 2 ^ 7 / 2 ^ 8 / 2 ^ 7 / 2 ^ 8) by (rewrite !Z.div_div by lia; reflexivity).
  rewrite E22, E15, E30.
  change (2 ^ 33) with 8589934592 in *. change (2 ^ 30) with 1073741824. change (2 ^ 22) with 4194304.
  change (2 ^ 15) with 32768. change (2 ^ 7) with 128. change (2 ^ 8) with 256. zdm.
Qed.

(* what the parser makes of the stored bytes *)
Definition pts_read (p : Z) : outcome Z :=
  match pts_stored p with
  | [b0; b1; b2; b3; b4] => parse_pts b0 b1 b2 b3 b4
  | _ => UB
  end.

Lemma pts_read_value : forall p, 0 <= p < 2 ^ 31 ->
  pts_read p = Val ((p / 2 ^ 30) mod 8 * 2 ^ 30 + (p / 2 ^ 22) mod 256 * 2 ^ 22 + (p / 2 ^ 15) mod 128 * 2 ^ 15
      + Z.lor ((p / 2 ^ 7) mod 256) ((p / 2 ^ 22) mod 256) * 2 ^ 7 + p mod 128).
Proof.
  intros p Hp. unfold pts_read, pts_stored, parse_pts, ReadUint16.
  assert (Hp1 : 0 <= (p / 2 ^ 30) mod 8 <= 1).
  { change (2 ^ 31) with 2147483648 in Hp. change (2 ^ 30) with 1073741824. zdm. }
  set (a := p mod 128). set (b := (p / 2 ^ 7) mod 256). set (ch := (p / 2 ^ 22) mod 256).
  set (cl := (p / 2 ^ 15) mod 128). set (p1 := (p / 2 ^ 30) mod 8) in *.
  assert (Ha : 0 <= a < 128) by (subst a; apply Z.mod_pos_bound; lia).
  assert (Hb : 0 <= b < 256) by (subst b; apply Z.mod_pos_bound; lia).
  assert (Hch : 0 <= ch < 256) by (subst ch; apply Z.mod_pos_bound; lia).
  assert (Hcl : 0 <= cl < 128) by (subst cl; apply Z.mod_pos_bound; lia).
  assert (HD : 0 <= Z.lor b ch < 2 ^ 8) by (apply lor_bound; lia).
  change (2 ^ 8) with 256 in HD. set (dd := Z.lor b ch) in *.
  assert (ET : Z.shiftl (Z.land (33 + 2 * p1) 14) 29 = p1 * 2 ^ 30).
  { assert (C : p1 = 0 \/ p1 = 1) by lia. destruct C as [-> | ->]; reflexivity. }
  rewrite ET.
  replace (4294967295 <? p1 * 2 ^ 30) with false by (change (2 ^ 30) with 1073741824; lia).
  replace (sint32 (p1 * 2 ^ 30)) with (p1 * 2 ^ 30).
  2: { unfold sint32. rewrite wraps_id; [reflexivity|lia|].
       change (2 ^ 30) with 1073741824. change (2 ^ (32 - 1)) with 2147483648. lia. }
  clearbody dd a b ch cl p1. clear Hp.
  apply f_equal. rewrite land_fffe, !lor_shiftl_low by (change (2 ^ 8) with 256; lia). rewrite shiftl_mul, shiftr_div by lia.
  change (2 ^ 8) with 256. change (2 ^ 14) with 16384. change (2 ^ 1) with 2.
  replace ((ch * 256 + (1 + 2 * cl)) / 2 mod 32768) with (ch * 128 + cl) by zdm.
  replace ((dd * 256 + (1 + 2 * a)) / 2) with (dd * 128 + a) by zdm.
  replace (2 * (ch * 128 + cl) * 16384) with ((ch * 128 + cl) * 2 ^ 15) by (change (2 ^ 15) with 32768; lia).
  rewrite (lor_mul_low p1) by (change (2 ^ 15) with 32768; change (2 ^ 30) with 1073741824; lia).
  replace (p1 * 2 ^ 30 + (ch * 128 + cl) * 2 ^ 15) with ((p1 * 2 ^ 15 + (ch * 128 + cl)) * 2 ^ 15)
    by (change (2 ^ 30) with 1073741824; change (2 ^ 15) with 32768; lia).
  rewrite lor_mul_low by (change (2 ^ 15) with 32768; lia).
  unfold wrap64. rewrite Z.mod_small;
    change (2 ^ 22) with 4194304; change (2 ^ 7) with 128;
    change (2 ^ 30) with 1073741824; change (2 ^ 15) with 32768; lia.
Qed.

Lemma Val_inj : forall A (a b : A), Val a = Val b -> a = b.
Proof. intros A a b E. injection E as E. exact E. Qed.

Lemma pts_read_high : forall p, 2 ^ 31 <= p < 2 ^ 33 -> pts_read p <> Val p.
Proof.
  intros p Hp. unfold pts_read, pts_stored, parse_pts.
  set (p1 := (p / 2 ^ 30) mod 8).
  assert (C : 2 <= p1 < 8).
  { subst p1. change (2 ^ 31) with 2147483648 in Hp. change (2 ^ 33) with 8589934592 in Hp.
    change (2 ^ 30) with 1073741824. zdm. }
  clearbody p1.
  set (u := ReadUint16 _ (1 + 2 * ((p / 2 ^ 15) mod 128))). set (v := ReadUint16 _ (1 + 2 * (p mod 128))).
  assert (CC : p1 = 2 \/ p1 = 3 \/ 4 <= p1) by lia.
  destruct CC as [->|[->|C4]].
  - replace (4294967295 <? Z.shiftl (Z.land (33 + 2 * 2) 14) 29) with false by reflexivity.
    replace (sint32 (Z.shiftl (Z.land (33 + 2 * 2) 14) 29)) with (-2147483648) by reflexivity.
    intros E. apply Val_inj in E.
    assert (T : Z.testbit p 40 = true).
    { rewrite <- E. unfold wrap64. change 18446744073709551616 with (2 ^ 64).
      rewrite Z.mod_pow2_bits_low by lia. rewrite !Z.lor_spec. reflexivity. }
    assert (T2 : Z.testbit p 40 = false).
    { rewrite <- (Z.mod_small p (2 ^ 40)). apply Z.mod_pow2_bits_high; lia.
      change (2 ^ 33) with 8589934592 in Hp. change (2 ^ 40) with 1099511627776. lia. }
    congruence.
  - replace (4294967295 <? Z.shiftl (Z.land (33 + 2 * 3) 14) 29) with false by reflexivity.
    replace (sint32 (Z.shiftl (Z.land (33 + 2 * 3) 14) 29)) with (-1073741824) by reflexivity.
    intros E. apply Val_inj in E.
    assert (T : Z.testbit p 40 = true).
    { rewrite <- E. unfold wrap64. change 18446744073709551616 with (2 ^ 64).
      rewrite Z.mod_pow2_bits_low by lia. rewrite !Z.lor_spec. reflexivity. }
    assert (T2 : Z.testbit p 40 = false).
    { rewrite <- (Z.mod_small p (2 ^ 40)). apply Z.mod_pow2_bits_high; lia.
      change (2 ^ 33) with 8589934592 in Hp. change (2 ^ 40) with 1099511627776. lia. }
    congruence.
  - assert (ET : (4294967295 <? Z.shiftl (Z.land (33 + 2 * p1) 14) 29) = true).
    { assert (D : p1 = 4 \/ p1 = 5 \/ p1 = 6 \/ p1 = 7) by lia.
      destruct D as [->|[->|[->| ->]]]; reflexivity. }
    rewrite ET. discriminate.
Qed.

Lemma lor_absorb_iff : forall a b, Z.lor a b = a <-> Z.land b a = b.
Proof.
  intros a b. split; intros E; apply Z.bits_inj'; intros n Hn;
    apply (f_equal (fun z => Z.testbit z n)) in E;
    rewrite ?Z.lor_spec, ?Z.land_spec in *;
    destruct (Z.testbit a n), (Z.testbit b n); cbn in *; congruence.
Qed.

Lemma pts_round_trip_iff : forall p, 0 <= p < 2 ^ 33 -> pts_read p = Val p <-> pts_clean p.
Proof.
  intros p Hp. unfold pts_clean. destruct (Z_lt_le_dec p (2 ^ 31)) as [Hl|Hh].
  - rewrite pts_read_value by lia. rewrite <- lor_absorb_iff.
    pose proof (pts_decompose p Hp) as D.
    set (a := p mod 128) in *. set (b := (p / 2 ^ 7) mod 256) in *. set (ch := (p / 2 ^ 22) mod 256) in *.
    set (cl := (p / 2 ^ 15) mod 128) in *. set (p1 := (p / 2 ^ 30) mod 8) in *.
    split.
    + intros E. injection E as E. split; [lia|].
      assert (Z.lor b ch * 2 ^ 7 = b * 2 ^ 7) by lia. change (2 ^ 7) with 128 in *. lia.
    + intros (_ & E). rewrite E. f_equal. lia.
  - split; [|lia]. intros E. exfalso. eapply pts_read_high; eauto; lia.
Qed.

Lemma pts_small_clean : forall p, 0 <= p < 2 ^ 22 -> pts_clean p.
Proof.
  intros p Hp. split; [change (2 ^ 22) with 4194304 in Hp; change (2 ^ 31) with 2147483648; lia|].
  rewrite (Z.div_small p (2 ^ 22)) by lia. reflexivity.
Qed.
