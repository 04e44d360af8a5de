(* Proofs about the reading primitives of mkvparser.cc. *)
From Verif Require Import Base EbmlSpec MParUtil ReaderSpec.
From Coq Require Import ZifyBool ZifyNat.

(* ---------- slices and serving ---------- *)

Lemma zslice_length : forall l p n, 0 <= p -> 0 <= n -> p + n <= zlen l -> zlen (zslice l p n) = n.
Proof.
  intros l p n Hp Hn H. unfold zslice, zlen in *. rewrite firstn_length, skipn_length. lia.
Qed.

Lemma zslice_app_mid : forall a b c, zslice (a ++ b ++ c) (zlen a) (zlen b) = b.
Proof.
  intros. unfold zslice, zlen. rewrite !Nat2Z.id, skipn_app, skipn_all, Nat.sub_diag. cbn [app skipn].
  rewrite firstn_app, firstn_all, Nat.sub_diag. cbn [firstn]. apply app_nil_r.
Qed.

Lemma zslice_cons0 : forall b l, zslice (b :: l) 0 1 = [b].
Proof. intros. unfold zslice. cbn. reflexivity. Qed.

Lemma zslice_sub : forall a b c o l, 0 <= o -> 0 <= l -> o + l <= zlen b ->
  zslice (a ++ b ++ c) (zlen a + o) l = zslice b o l.
Proof.
  intros a b c o l Ho Hl H. unfold zslice, zlen in *.
  replace (Z.to_nat (Z.of_nat (length a) + o)) with (length a + Z.to_nat o)%nat by lia.
  rewrite skipn_app, skipn_all2 by lia. cbn [app].
  replace (length a + Z.to_nat o - length a)%nat with (Z.to_nat o) by lia.
  rewrite skipn_app, firstn_app, skipn_length.
  replace (Z.to_nat l - (length b - Z.to_nat o))%nat with O by lia. cbn [firstn].
  apply app_nil_r.
Qed.

Lemma serves_file : forall a b c, serves (file_reader (a ++ b ++ c)) (zlen a) b.
Proof.
  intros a b c. split; [apply zlen_nonneg|]. intros o l Ho Hl H.
  unfold r_read, file_reader. cbn [r_err r_avail r_data Z.eqb negb].
  pose proof (zlen_nonneg _ a). pose proof (zlen_nonneg _ c).
  destruct (Z.ltb_spec (zlen a + o) 0); [lia|]. destruct (Z.ltb_spec l 0); [lia|]. cbn [orb].
  destruct (Z.eqb_spec l 0) as [->|]; [reflexivity|].
  rewrite !zlen_app. destruct (Z.leb_spec (zlen a + o + l) (zlen a + (zlen b + zlen c))); [|lia].
  rewrite zslice_sub by lia. reflexivity.
Qed.

Lemma serves_app_l : forall r pos a b, serves r pos (a ++ b) -> serves r pos a.
Proof.
  intros r pos a b [Hp H]. split; auto. intros o l Ho Hl Hb.
  rewrite H by (rewrite ?zlen_app; pose proof (zlen_nonneg _ b); lia).
  f_equal. apply (zslice_sub [] a b o l); lia.
Qed.

Lemma serves_app_r : forall r pos a b, serves r pos (a ++ b) -> serves r (pos + zlen a) b.
Proof.
  intros r pos a b [Hp H]. pose proof (zlen_nonneg _ a). split; [lia|]. intros o l Ho Hl Hb.
  replace (pos + zlen a + o) with (pos + (zlen a + o)) by lia.
  rewrite H by (rewrite ?zlen_app; lia).
  f_equal. rewrite <- (app_nil_r b) at 1. apply zslice_sub; lia.
Qed.

Lemma serves_byte : forall r pos b l, serves r pos (b :: l) -> r_byte r pos = inr b.
Proof.
  intros r pos b l [Hp H]. unfold r_byte. specialize (H 0 1).
  rewrite Z.add_0_r in H. rewrite H by (rewrite ?zlen_cons; pose proof (zlen_nonneg _ l); lia).
  rewrite zslice_cons0. reflexivity.
Qed.

Lemma serves_tail : forall r pos b l, serves r pos (b :: l) -> serves r (pos + 1) l.
Proof. intros r pos b l H. apply (serves_app_r r pos [b] l). exact H. Qed.

Lemma serves_read : forall r pos bs, serves r pos bs -> r_read r pos (zlen bs) = inr bs.
Proof.
  intros r pos bs [Hp H]. specialize (H 0 (zlen bs)). rewrite Z.add_0_r in H.
  pose proof (zlen_nonneg _ bs). rewrite H by lia. f_equal.
  pose proof (zslice_app_mid [] bs []) as E. rewrite app_nil_r in E. exact E.
Qed.

(* r_byte of a well-formed reader *)
Lemma zslice_bytes : forall l p n, bytes l -> bytes (zslice l p n).
Proof.
  intros l p n H. unfold zslice, bytes in *. rewrite Forall_forall in *.
  intros x Hx. apply H.
  assert (G : forall A (l : list A) k x, In x (firstn k l) -> In x l).
  { intros A l0 k x0. revert l0. induction k; intros [|y l0]; cbn; intuition. }
  assert (G2 : forall A (l : list A) k x, In x (skipn k l) -> In x l).
  { intros A l0 k x0. revert l0. induction k; intros [|y l0]; cbn; intuition. }
  eapply G2, G, Hx.
Qed.

Lemma r_byte_wf : forall r pos b, wf_reader r -> r_byte r pos = inr b ->
  is_byte b /\ 0 <= pos < r_avail r.
Proof.
  intros r pos b (Hb & Ha & Hm & _) H. unfold r_byte, r_read in H.
  destruct (negb (r_err r pos 1 =? 0)); [discriminate|].
  destruct (Z.ltb_spec pos 0); [discriminate|]. cbn [orb Z.ltb Z.eqb Z.compare] in H.
  change (1 =? 0) with false in H. change (1 <? 0) with false in H. cbn [orb] in H.
  destruct (Z.leb_spec (pos + 1) (r_avail r)); [|discriminate].
  injection H as <-. split; [|lia].
  pose proof (zslice_bytes (r_data r) pos 1 Hb) as Hz.
  pose proof (zslice_length (r_data r) pos 1 ltac:(lia) ltac:(lia) ltac:(lia)) as Hl.
  destruct (zslice (r_data r) pos 1) as [|x xs]; [cbn in Hl; unfold zlen in Hl; cbn in Hl; lia|].
  inversion Hz; auto.
Qed.

(* ---------- marker byte ---------- *)

Definition marker_ok (b : Z) : bool :=
  let '(m, len) := marker_scan 8 b 128 1 in
  (1 <=? len) && (len <=? 8) && (m =? 2 ^ (8 - len)) && (m <=? b) && (b <? 2 * m)
  && (Z.land b (Z.lnot m) =? b - m).

Lemma marker_sweep : forallb (fun i => marker_ok (Z.of_nat i)) (seq 1 255) = true.
Proof. vm_compute. reflexivity. Qed.

Lemma marker_scan_spec : forall b, 1 <= b < 256 ->
  exists len, marker_scan 8 b 128 1 = (2 ^ (8 - len), len) /\ 1 <= len <= 8 /\
    2 ^ (8 - len) <= b < 2 * 2 ^ (8 - len) /\
    Z.land b (Z.lnot (2 ^ (8 - len))) = b - 2 ^ (8 - len).
Proof.
  intros b Hb. pose proof marker_sweep as S. rewrite forallb_forall in S.
  specialize (S (Z.to_nat b)). rewrite in_seq in S. specialize (S ltac:(lia)).
  rewrite Z2Nat.id in S by lia. unfold marker_ok in S.
  destruct (marker_scan 8 b 128 1) as [m len].
  rewrite !andb_true_iff in S. destruct S as [[[[[S1 S2] S3] S4] S5] S6].
  apply Z.eqb_eq in S3. subst m. exists len.
  apply Z.leb_le in S1, S2, S4. apply Z.ltb_lt in S5. apply Z.eqb_eq in S6. auto.
Qed.

Lemma pow_unique : forall a b x, 0 <= a -> 0 <= b ->
  2 ^ a <= x < 2 * 2 ^ a -> 2 ^ b <= x < 2 * 2 ^ b -> a = b.
Proof.
  intros a b x Ha Hb H1 H2.
  destruct (Z.lt_trichotomy a b) as [L|[E|L]]; auto; exfalso.
  - assert (2 ^ (1 + a) <= 2 ^ b) by (apply Z.pow_le_mono_r; lia).
    rewrite Z.pow_add_r in H by lia. change (2 ^ 1) with 2 in H. lia.
  - assert (2 ^ (1 + b) <= 2 ^ a) by (apply Z.pow_le_mono_r; lia).
    rewrite Z.pow_add_r in H by lia. change (2 ^ 1) with 2 in H. lia.
Qed.

(* ---------- ReadUInt ---------- *)

Lemma sint64_small : forall v, - 9223372036854775808 <= v < 9223372036854775808 -> sint64 v = v.
Proof. intros. apply wraps_id; simpl (2 ^ _); lia. Qed.

Lemma ReadUInt_loop_serves : forall bs r pos res len,
  bytes bs -> serves r pos bs -> 0 <= res ->
  (res + 1) * 2 ^ (8 * zlen bs) <= 2 ^ 63 ->
  ReadUInt_loop r (length bs) pos res len = (res * 2 ^ (8 * zlen bs) + be_val bs, len).
Proof.
  induction bs as [|b bs IH]; intros r pos res len Hb Hs Hr Hbnd.
  - cbn [length ReadUInt_loop]. unfold zlen, be_val; cbn. f_equal. lia.
  - cbn [length ReadUInt_loop]. rewrite (serves_byte _ _ _ _ Hs).
    inversion Hb as [|x xs Hx Hxs]; subst.
    assert (P : 2 ^ (8 * zlen (b :: bs)) = 256 * 2 ^ (8 * zlen bs)) by (unfold zlen; cbn [length]; apply pow2_8S).
    rewrite P in Hbnd.
    pose proof (pow2_pos (8 * zlen bs) ltac:(pose proof (zlen_nonneg _ bs); lia)).
    unfold is_byte in Hx.
    rewrite lor_shiftl_low by (simpl (2 ^ 8); lia). change (2 ^ 8) with 256.
    change (2 ^ 63) with 9223372036854775808 in *.
    rewrite sint64_small by nia.
    rewrite IH; auto; [| |nia|].
    + rewrite P, be_val_cons. f_equal. ring.
    + eapply serves_tail; eauto.
    + change (2 ^ 63) with 9223372036854775808. nia.
Qed.

(* the first byte of a vint *)
Lemma vint_cons : forall w v, 1 <= w <= 8 -> 0 <= v < 2 ^ (7 * w) ->
  let hi := v / 2 ^ (8 * (w - 1)) in
  vint w v = (2 ^ (8 - w) + hi) :: be_bytes (Z.to_nat (w - 1)) v /\ 0 <= hi < 2 ^ (8 - w).
Proof.
  intros w v Hw Hv hi. unfold vint.
  replace (Z.to_nat w) with (S (Z.to_nat (w - 1))) by lia.
  cbn [be_bytes]. rewrite Z2Nat.id by lia.
  pose proof (pow2_pos (8 * (w - 1)) ltac:(lia)) as Hp.
  pose proof (pow2_pos (8 - w) ltac:(lia)) as Hq.
  assert (E : 2 ^ (7 * w) = 2 ^ (8 - w) * 2 ^ (8 * (w - 1))).
  { rewrite <- Z.pow_add_r by lia. apply f_equal2; [reflexivity|lia]. }
  assert (Hhi : 0 <= hi < 2 ^ (8 - w)).
  { unfold hi. split; [apply Z.div_pos; lia|]. apply Z.div_lt_upper_bound; lia. }
  split; [|exact Hhi]. f_equal.
  - rewrite E, Z.div_add_l by lia. fold hi. apply Z.mod_small.
    assert (2 ^ (8 - w) <= 2 ^ 7) by (apply Z.pow_le_mono_r; lia). change (2 ^ 7) with 128 in *. lia.
  - apply be_bytes_mod. rewrite Z2Nat.id by lia.
    rewrite E, Z.add_comm, Z_mod_plus_full. reflexivity.
Qed.

Lemma ReadUInt_vint : forall r pos w v, 1 <= w <= 8 -> 0 <= v < 2 ^ (7 * w) ->
  serves r pos (vint w v) -> ReadUInt r pos = (v, w).
Proof.
  intros r pos w v Hw Hv Hs. pose proof Hs as [Hp _].
  destruct (vint_cons w v Hw Hv) as [E Hhi]. rewrite E in Hs.
  set (hi := v / 2 ^ (8 * (w - 1))) in *.
  unfold ReadUInt. destruct (Z.ltb_spec pos 0); [lia|].
  rewrite (serves_byte _ _ _ _ Hs).
  pose proof (pow2_pos (8 - w) ltac:(lia)) as Hq.
  assert (B : 2 ^ (8 - w) <= 2 ^ 7) by (apply Z.pow_le_mono_r; lia). change (2 ^ 7) with 128 in B.
  destruct (Z.eqb_spec (2 ^ (8 - w) + hi) 0); [lia|].
  destruct (marker_scan_spec (2 ^ (8 - w) + hi) ltac:(lia)) as (len & Em & Hl & Hr & Hm).
  rewrite Em. assert (len = w).
  { assert (8 - len = 8 - w); [|lia]. eapply pow_unique with (x := 2 ^ (8 - w) + hi); lia. }
  subst len. rewrite Hm.
  replace (2 ^ (8 - w) + hi - 2 ^ (8 - w)) with hi by lia.
  rewrite <- (be_bytes_length (Z.to_nat (w - 1)) v) at 1.
  rewrite ReadUInt_loop_serves.
  - rewrite be_bytes_zlen, be_val_be_bytes, Z2Nat.id by lia. f_equal.
    unfold hi. pose proof (pow2_pos (8 * (w - 1)) ltac:(lia)).
    rewrite (Z.div_mod v (2 ^ (8 * (w - 1)))) at 3 by lia. ring.
  - apply be_bytes_bytes.
  - eapply serves_tail; eauto.
  - lia.
  - rewrite be_bytes_zlen, Z2Nat.id by lia.
    assert ((hi + 1) * 2 ^ (8 * (w - 1)) <= 2 ^ (8 - w) * 2 ^ (8 * (w - 1))).
    { apply Z.mul_le_mono_nonneg_r; [|lia]. pose proof (pow2_pos (8 * (w - 1))). lia. }
    rewrite <- Z.pow_add_r in H0 by lia.
    assert (2 ^ (8 - w + 8 * (w - 1)) <= 2 ^ 63) by (apply Z.pow_le_mono_r; lia). lia.
Qed.

(* range of the results for any reader *)
Lemma ReadUInt_loop_range : forall n r pos res len k, wf_reader r ->
  0 <= res < 2 ^ k -> 0 <= k -> k + 8 * Z.of_nat n <= 63 -> 1 <= len ->
  let '(v, l) := ReadUInt_loop r n pos res len in
  (v < 0 /\ l = 1) \/ (0 <= v < 2 ^ (k + 8 * Z.of_nat n) /\ l = len /\ (n <> O -> pos + Z.of_nat n <= r_avail r)).
Proof.
  induction n as [|n IH]; intros r pos res len k Hwf Hres Hk Hkn Hlen; cbn [ReadUInt_loop].
  - right. rewrite Z.add_0_r. split; [exact Hres|]. split; [reflexivity|congruence].
  - destruct (r_byte r pos) as [st|b] eqn:E.
    + destruct (Z.ltb_spec st 0); unfold E_BUFFER_NOT_FULL; left; lia.
    + destruct (r_byte_wf _ _ _ Hwf E) as [Hb Hpos].
      unfold is_byte in Hb. rewrite lor_shiftl_low by (simpl (2 ^ 8); lia). change (2 ^ 8) with 256.
      assert (Hk8 : 2 ^ (k + 8) = 2 ^ k * 256) by (rewrite Z.pow_add_r by lia; reflexivity).
      assert (2 ^ (k + 8) <= 2 ^ 63) by (apply Z.pow_le_mono_r; lia).
      change (2 ^ 63) with 9223372036854775808 in *.
      rewrite sint64_small by nia.
      specialize (IH r (pos + 1) (res * 256 + b) len (k + 8) Hwf).
      specialize (IH ltac:(rewrite Hk8; nia) ltac:(lia) ltac:(lia) Hlen).
      destruct (ReadUInt_loop r n (pos + 1) (res * 256 + b) len) as [v l].
      destruct IH as [?|(Hv & Hl & Hrd)]; [left; assumption|right].
      replace (k + 8 * Z.of_nat (S n)) with (k + 8 + 8 * Z.of_nat n) by lia.
      split; [assumption|]. split; [assumption|]. intros _.
      destruct n; [lia|]. specialize (Hrd ltac:(discriminate)). lia.
Qed.

Lemma ReadUInt_range : forall r pos v len, wf_reader r -> 0 <= pos ->
  ReadUInt r pos = (v, len) ->
  (v < 0 /\ len = 1) \/
  (1 <= len <= 8 /\ 0 <= v < 2 ^ (7 * len) /\ pos + len <= r_avail r).
Proof.
  intros r pos v len Hwf Hp H. unfold ReadUInt in H.
  destruct (Z.ltb_spec pos 0); [lia|].
  destruct (r_byte r pos) as [st|b] eqn:E.
  - left. destruct (Z.ltb_spec st 0); inversion H; subst; unfold E_BUFFER_NOT_FULL; lia.
  - destruct (r_byte_wf _ _ _ Hwf E) as [Hb Hpos]. unfold is_byte in Hb.
    destruct (Z.eqb_spec b 0).
    + inversion H; subst. left. unfold E_FILE_FORMAT_INVALID. lia.
    + destruct (marker_scan_spec b ltac:(lia)) as (l & Em & Hl & Hr & Hm).
      rewrite Em, Hm in H.
      pose proof (pow2_pos (8 - l) ltac:(lia)).
      pose proof (ReadUInt_loop_range (Z.to_nat (l - 1)) r (pos + 1) (b - 2 ^ (8 - l)) l (8 - l) Hwf
        ltac:(lia) ltac:(lia) ltac:(lia) ltac:(lia)) as L.
      rewrite H in L. destruct L as [L|(L1 & L2 & L3)]; [left; exact L|right].
      subst l. rewrite Z2Nat.id in L1 by lia.
      replace (8 - len + 8 * (len - 1)) with (7 * len) in L1 by lia.
      split; [lia|]. split; [lia|].
      destruct (Z.eqb_spec len 1); [lia|].
      specialize (L3 ltac:(lia)). lia.
Qed.

(* truncated input is never accepted: shown by the bound pos + len <= r_avail above *)

(* ---------- ReadID ---------- *)

Definition id_scan_ok (b : Z) : bool :=
  match ReadID_scan 4 b 0 with
  | Some bp => (0 <=? bp) && (bp <=? 3) && (2 ^ (7 - bp) <=? b) && (b <? 2 * 2 ^ (7 - bp))
  | None => b <? 16
  end.

Lemma id_scan_sweep : forallb (fun i => id_scan_ok (Z.of_nat i)) (seq 1 255) = true.
Proof. vm_compute. reflexivity. Qed.

Lemma id_scan_spec : forall b, 1 <= b < 256 -> id_scan_ok b = true.
Proof.
  intros b Hb. pose proof id_scan_sweep as S. rewrite forallb_forall in S.
  specialize (S (Z.to_nat b)). rewrite in_seq in S. specialize (S ltac:(lia)).
  rewrite Z2Nat.id in S by lia. exact S.
Qed.

Lemma ReadID_loop_serves : forall bs r pos id, bytes bs -> serves r pos bs -> 0 <= id ->
  ReadID_loop r (length bs) pos id = id * 2 ^ (8 * zlen bs) + be_val bs.
Proof.
  induction bs as [|b bs IH]; intros r pos id Hb Hs Hid.
  - cbn [length ReadID_loop]. unfold zlen, be_val; cbn. lia.
  - cbn [length ReadID_loop]. rewrite (serves_byte _ _ _ _ Hs).
    inversion Hb as [|x xs Hx Hxs]; subst. unfold is_byte in Hx.
    rewrite lor_shiftl_low by (simpl (2 ^ 8); lia). change (2 ^ 8) with 256.
    rewrite IH by (auto; try lia; eapply serves_tail; eauto).
    rewrite be_val_cons. unfold zlen. cbn [length]. rewrite pow2_8S. ring.
Qed.

Lemma id_cons : forall w id, id_width w id ->
  let hi := id / 2 ^ (8 * (w - 1)) in
  be_bytes (Z.to_nat w) id = hi :: be_bytes (Z.to_nat (w - 1)) id /\
  2 ^ (8 - w) <= hi < 2 * 2 ^ (8 - w).
Proof.
  intros w id [Hw Hid] hi.
  replace (Z.to_nat w) with (S (Z.to_nat (w - 1))) by lia.
  cbn [be_bytes]. rewrite Z2Nat.id by lia. fold hi.
  pose proof (pow2_pos (8 * (w - 1)) ltac:(lia)) as Hp.
  assert (E : 2 ^ (7 * w) = 2 ^ (8 - w) * 2 ^ (8 * (w - 1))).
  { rewrite <- Z.pow_add_r by lia. apply f_equal2; [reflexivity|lia]. }
  assert (E2 : 2 ^ (7 * w + 1) = 2 * 2 ^ (7 * w)) by (rewrite Z.pow_add_r by lia; lia).
  assert (Hhi : 2 ^ (8 - w) <= hi < 2 * 2 ^ (8 - w)).
  { unfold hi. split; [apply Z.div_le_lower_bound; lia|]. apply Z.div_lt_upper_bound; nia. }
  split; [|exact Hhi]. f_equal. apply Z.mod_small.
  assert (2 ^ (8 - w) <= 2 ^ 7) by (apply Z.pow_le_mono_r; lia). change (2 ^ 7) with 128 in *.
  pose proof (pow2_pos (8 - w) ltac:(lia)). lia.
Qed.

Lemma ReadID_bytes : forall r pos w id, id_width w id ->
  serves r pos (be_bytes (Z.to_nat w) id) -> ReadID r pos = (id, w).
Proof.
  intros r pos w id Hid Hs. pose proof Hs as [Hp _]. pose proof Hid as [Hw Hr].
  destruct (id_cons w id Hid) as [E Hhi]. set (hi := id / 2 ^ (8 * (w - 1))) in *.
  rewrite E in Hs. unfold ReadID. destruct (Z.ltb_spec pos 0); [lia|].
  rewrite (serves_byte _ _ _ _ Hs).
  pose proof (pow2_pos (8 - w) ltac:(lia)) as Hq.
  assert (B : 2 ^ (8 - w) <= 2 ^ 7) by (apply Z.pow_le_mono_r; lia). change (2 ^ 7) with 128 in B.
  assert (B2 : 2 ^ 4 <= 2 ^ (8 - w)) by (apply Z.pow_le_mono_r; lia). change (2 ^ 4) with 16 in B2.
  destruct (Z.eqb_spec hi 0); [lia|].
  pose proof (id_scan_spec hi ltac:(lia)) as S. unfold id_scan_ok in S.
  destruct (ReadID_scan 4 hi 0) as [bp|]; [|apply Z.ltb_lt in S; lia].
  rewrite !andb_true_iff in S. destruct S as [[[S1 S2] S3] S4].
  apply Z.leb_le in S1, S2, S3. apply Z.ltb_lt in S4.
  assert (bp = w - 1).
  { assert (7 - bp = 8 - w); [|lia]. eapply pow_unique with (x := hi); lia. }
  subst bp.
  assert (L : ReadID_loop r (Z.to_nat (w - 1)) (pos + 1) hi = id).
  { rewrite <- (be_bytes_length (Z.to_nat (w - 1)) id) at 1.
    rewrite ReadID_loop_serves; [|apply be_bytes_bytes|eapply serves_tail; eauto|lia].
    rewrite be_bytes_zlen, be_val_be_bytes, Z2Nat.id by lia.
    unfold hi. pose proof (pow2_pos (8 * (w - 1)) ltac:(lia)).
    rewrite (Z.div_mod id (2 ^ (8 * (w - 1)))) at 3 by lia. ring. }
  rewrite L. pose proof (pow2_pos (7 * w) ltac:(lia)).
  destruct (Z.ltb_spec id 0); [lia|]. f_equal. lia.
Qed.

Lemma ReadID_loop_range : forall n r pos id k, wf_reader r ->
  2 ^ k <= id < 2 ^ (k + 1) -> 0 <= k ->
  let v := ReadID_loop r n pos id in
  v < 0 \/ (2 ^ (k + 8 * Z.of_nat n) <= v < 2 ^ (k + 1 + 8 * Z.of_nat n) /\
            (n <> O -> pos + Z.of_nat n <= r_avail r)).
Proof.
  induction n as [|n IH]; intros r pos id k Hwf Hid Hk; cbn [ReadID_loop].
  - right. rewrite !Z.add_0_r. split; [exact Hid|congruence].
  - destruct (r_byte r pos) as [st|b] eqn:E.
    + destruct (Z.ltb_spec st 0); unfold E_BUFFER_NOT_FULL, E_FILE_FORMAT_INVALID; left; lia.
    + destruct (r_byte_wf _ _ _ Hwf E) as [Hb Hpos].
      unfold is_byte in Hb. rewrite lor_shiftl_low by (simpl (2 ^ 8); lia). change (2 ^ 8) with 256.
      specialize (IH r (pos + 1) (id * 256 + b) (k + 8) Hwf).
      assert (E1 : 2 ^ (k + 8) = 2 ^ k * 256) by (rewrite Z.pow_add_r by lia; reflexivity).
      assert (E2 : 2 ^ (k + 8 + 1) = 2 ^ (k + 1) * 256).
      { replace (k + 8 + 1) with (k + 1 + 8) by lia. rewrite Z.pow_add_r by lia. reflexivity. }
      specialize (IH ltac:(rewrite E1, E2; lia) ltac:(lia)). cbv zeta in IH.
      destruct IH as [IH|[IH1 IH2]]; [left; exact IH|right].
      replace (k + 8 * Z.of_nat (S n)) with (k + 8 + 8 * Z.of_nat n) by lia.
      replace (k + 1 + 8 * Z.of_nat (S n)) with (k + 8 + 1 + 8 * Z.of_nat n) by lia.
      split; [exact IH1|]. intros _. destruct n; [lia|]. specialize (IH2 ltac:(discriminate)). lia.
Qed.

Lemma ReadID_range : forall r pos v len, wf_reader r -> 0 <= pos ->
  ReadID r pos = (v, len) ->
  (v < 0) \/ (id_width len v /\ pos + len <= r_avail r).
Proof.
  intros r pos v len Hwf Hp H. unfold ReadID in H.
  destruct (Z.ltb_spec pos 0); [lia|].
  destruct (r_byte r pos) as [st|b] eqn:E.
  - left. destruct (Z.ltb_spec st 0); inversion H; subst; unfold E_BUFFER_NOT_FULL, E_FILE_FORMAT_INVALID; lia.
  - destruct (r_byte_wf _ _ _ Hwf E) as [Hb Hpos]. unfold is_byte in Hb.
    destruct (Z.eqb_spec b 0); [inversion H; subst; left; unfold E_FILE_FORMAT_INVALID; lia|].
    pose proof (id_scan_spec b ltac:(lia)) as S. unfold id_scan_ok in S.
    destruct (ReadID_scan 4 b 0) as [bp|];
      [|inversion H; subst; left; unfold E_FILE_FORMAT_INVALID; lia].
    rewrite !andb_true_iff in S. destruct S as [[[S1 S2] S3] S4].
    apply Z.leb_le in S1, S2, S3. apply Z.ltb_lt in S4.
    assert (Hr : 2 ^ (7 - bp) <= b < 2 ^ (7 - bp + 1)) by (rewrite Z.pow_add_r by lia; lia).
    pose proof (ReadID_loop_range (Z.to_nat bp) r (pos + 1) b (7 - bp) Hwf Hr ltac:(lia)) as L.
    cbv zeta in L. set (id := ReadID_loop r (Z.to_nat bp) (pos + 1) b) in *.
    rewrite Z2Nat.id in L by lia.
    destruct (Z.ltb_spec id 0).
    + inversion H; subst. left. lia.
    + inversion H; subst. destruct L as [L|[L1 L2]]; [lia|right].
      split; [split; [lia|]|].
      * replace (7 * (bp + 1)) with (7 - bp + 8 * bp) by lia.
        replace (7 - bp + 8 * bp + 1) with (7 - bp + 1 + 8 * bp) by lia. exact L1.
      * destruct (Z.eqb_spec bp 0); [lia|]. specialize (L2 ltac:(lia)). lia.
Qed.

(* ---------- ParseElementHeader ---------- *)

Lemma ParseElementHeader_range : forall r pos stop pos' id size, wf_reader r -> 0 <= pos ->
  ParseElementHeader r pos stop = (0, pos', id, size) ->
  2 <= pos' - pos <= 12 /\ (0 <= stop -> pos' <= stop) /\ pos' <= r_avail r /\
  valid_id id /\ 0 <= size < 2 ^ 56.
Proof.
  intros r pos stop pos' id size Hwf Hp H. unfold ParseElementHeader in H.
  destruct (Z.geb_spec stop 0) as [Hstop|Hstop]; destruct (Z.geb_spec pos stop) as [Hps|Hps];
    cbn [andb] in H; try discriminate H.
  all: destruct (ReadID r pos) as [i l] eqn:EI.
  all: destruct (Z.ltb_spec i 0); [discriminate H|].
  all: destruct (ReadID_range r pos i l Hwf Hp EI) as [?|[Hid Hlen]]; [lia|].
  all: pose proof Hid as [Hl _].
  all: destruct (Z.geb_spec (pos + l) stop) as [Hps2|Hps2]; cbn [andb] in H; try discriminate H.
  all: destruct (ReadUInt r (pos + l)) as [sz l2] eqn:ES.
  all: destruct ((sz <? 0) || (l2 <? 1) || (l2 >? 8)) eqn:C; [discriminate H|].
  all: apply orb_false_iff in C; destruct C as [C C3]; apply orb_false_iff in C; destruct C as [C1 C2].
  all: apply Z.ltb_ge in C1, C2.
  all: destruct (ReadUInt_range r (pos + l) sz l2 Hwf ltac:(lia) ES) as [?|(R1 & R2 & R3)]; [lia|].
  all: destruct (wrap64 (pos + l + l2) >? LLONG_MAX); [discriminate H|].
  all: destruct (Z.gtb_spec (pos + l + l2) stop) as [Hps3|Hps3]; cbn [andb] in H; try discriminate H;
       inversion H; subst.
  all: assert (2 ^ (7 * l2) <= 2 ^ 56) by (apply Z.pow_le_mono_r; lia).
  all: repeat split; try lia; exists l; exact Hid.
Qed.

Lemma ParseElementHeader_element : forall r pos stop ib w id n,
  is_id_bytes id ib -> 1 <= w <= 8 -> 0 <= n < 2 ^ (7 * w) ->
  serves r pos (ib ++ vint w n) ->
  pos + zlen ib + w <= LLONG_MAX ->
  (stop < 0 \/ pos + zlen ib + w <= stop) ->
  ParseElementHeader r pos stop = (0, pos + zlen ib + w, id, n).
Proof.
  intros r pos stop ib w id n (wi & Hid & ->) Hw Hn Hs Hmax Hstop.
  pose proof Hs as [Hp _]. pose proof Hid as [Hwi Hidr].
  assert (Hib : zlen (be_bytes (Z.to_nat wi) id) = wi) by (rewrite be_bytes_zlen; lia).
  rewrite Hib in *.
  unfold ParseElementHeader.
  assert (C1 : (stop >=? 0) && (pos >=? stop) = false).
  { destruct (Z.geb_spec stop 0), (Z.geb_spec pos stop); auto; lia. }
  rewrite C1. rewrite (ReadID_bytes r pos wi id Hid (serves_app_l _ _ _ _ Hs)).
  pose proof (pow2_pos (7 * wi) ltac:(lia)).
  destruct (Z.ltb_spec id 0); [lia|].
  assert (C2 : (stop >=? 0) && (pos + wi >=? stop) = false).
  { destruct (Z.geb_spec stop 0), (Z.geb_spec (pos + wi) stop); auto; lia. }
  rewrite C2. apply serves_app_r in Hs. rewrite Hib in Hs.
  rewrite (ReadUInt_vint r (pos + wi) w n Hw Hn Hs).
  destruct (Z.ltb_spec n 0); [lia|]. destruct (Z.ltb_spec w 1); [lia|].
  destruct (Z.gtb_spec w 8); [lia|]. cbn [orb].
  unfold wrap64. unfold LLONG_MAX in *. rewrite Z.mod_small by lia.
  destruct (Z.gtb_spec (pos + wi + w) 9223372036854775807); [lia|].
  assert (C3 : (stop >=? 0) && (pos + wi + w >? stop) = false).
  { destruct (Z.geb_spec stop 0), (Z.gtb_spec (pos + wi + w) stop); auto; lia. }
  rewrite C3. reflexivity.
Qed.

(* ---------- payloads ---------- *)

Lemma UnserializeUInt_loop_serves : forall bs r pos res,
  bytes bs -> serves r pos bs -> 0 <= res ->
  (res + 1) * 2 ^ (8 * zlen bs) <= 2 ^ 64 -> (bs = [] -> res < 2 ^ 63) ->
  UnserializeUInt_loop r (length bs) pos res = Val (sint64 (res * 2 ^ (8 * zlen bs) + be_val bs)).
Proof.
  induction bs as [|b bs IH]; intros r pos res Hb Hs Hr Hbnd Hsm.
  - cbn [length UnserializeUInt_loop]. unfold zlen, be_val; cbn [length be_val_acc].
    change (2 ^ (8 * Z.of_nat 0)) with 1. rewrite Z.mul_1_r, Z.add_0_r.
    specialize (Hsm eq_refl). change (2 ^ 63) with 9223372036854775808 in Hsm.
    rewrite sint64_small by lia. reflexivity.
  - cbn [length UnserializeUInt_loop]. rewrite (serves_byte _ _ _ _ Hs).
    inversion Hb as [|x xs Hx Hxs]; subst.
    assert (P : 2 ^ (8 * zlen (b :: bs)) = 256 * 2 ^ (8 * zlen bs)) by (unfold zlen; cbn [length]; apply pow2_8S).
    rewrite P in Hbnd.
    pose proof (pow2_pos (8 * zlen bs) ltac:(pose proof (zlen_nonneg _ bs); lia)).
    unfold is_byte in Hx.
    rewrite lor_shiftl_low by (simpl (2 ^ 8); lia). change (2 ^ 8) with 256.
    rewrite be_val_cons, P.
    destruct bs as [|b2 bs].
    + cbn [length UnserializeUInt_loop]. unfold zlen, be_val; cbn [length be_val_acc].
      change (2 ^ (8 * Z.of_nat 0)) with 1. do 2 f_equal. lia.
    + change (2 ^ 64) with 18446744073709551616 in *.
      assert (Q : 256 <= 2 ^ (8 * zlen (b2 :: bs))).
      { change 256 with (2 ^ 8). apply Z.pow_le_mono_r; [lia|].
        rewrite zlen_cons. pose proof (zlen_nonneg _ bs). lia. }
      rewrite sint64_small by nia.
      rewrite IH; auto.
      * do 2 f_equal. ring.
      * eapply serves_tail; eauto.
      * nia.
      * change (2 ^ 64) with 18446744073709551616. nia.
      * discriminate.
Qed.

Lemma UnserializeUInt_payload : forall r pos bs v, uint_payload v bs -> serves r pos bs ->
  UnserializeUInt r pos (zlen bs) = Val (sint64 v).
Proof.
  intros r pos bs v (Hb & Hl & Hv) Hs. pose proof Hs as [Hp _]. unfold UnserializeUInt.
  destruct (Z.ltb_spec pos 0); [lia|]. destruct (Z.leb_spec (zlen bs) 0); [lia|].
  destruct (Z.gtb_spec (zlen bs) 8); [lia|]. cbn [orb].
  unfold zlen at 1. rewrite Nat2Z.id. rewrite UnserializeUInt_loop_serves; auto; try lia.
  - do 2 f_equal. lia.
  - rewrite Z.mul_1_l. apply Z.pow_le_mono_r; lia.
Qed.

Lemma UnserializeInt_loop_serves : forall bs r pos res,
  bytes bs -> serves r pos bs -> 0 <= res < 2 ^ 64 ->
  UnserializeInt_loop r (length bs) pos res = Val (0, sint64 (res * 2 ^ (8 * zlen bs) + be_val bs)).
Proof.
  induction bs as [|b bs IH]; intros r pos res Hb Hs Hr.
  - cbn [length UnserializeInt_loop]. unfold zlen, be_val; cbn [length be_val_acc].
    change (2 ^ (8 * Z.of_nat 0)) with 1. do 3 f_equal. lia.
  - cbn [length UnserializeInt_loop]. rewrite (serves_byte _ _ _ _ Hs).
    inversion Hb as [|x xs Hx Hxs]; subst. unfold is_byte in Hx.
    assert (P : 2 ^ (8 * zlen (b :: bs)) = 256 * 2 ^ (8 * zlen bs)) by (unfold zlen; cbn [length]; apply pow2_8S).
    rewrite lor_shiftl_low by (simpl (2 ^ 8); lia). change (2 ^ 8) with 256.
    rewrite IH; auto; [|eapply serves_tail; eauto|apply Z.mod_pos_bound; lia].
    rewrite be_val_cons, P. do 2 f_equal.
    unfold sint64, wraps, wrap64. change 18446744073709551616 with (2 ^ 64).
    assert (M : forall x y, ((x mod 2 ^ 64) * y + be_val bs) mod 2 ^ 64 = (x * y + be_val bs) mod 2 ^ 64).
    { intros x y. rewrite <- (Z.add_mod_idemp_l (x mod 2 ^ 64 * y)), Z.mul_mod_idemp_l,
        Z.add_mod_idemp_l by lia. reflexivity. }
    rewrite M. replace ((res * 256 + b) * 2 ^ (8 * zlen bs) + be_val bs)
      with (res * (256 * 2 ^ (8 * zlen bs)) + (b * 2 ^ (8 * zlen bs) + be_val bs)) by ring.
    reflexivity.
Qed.

Lemma sint8_byte : forall b, is_byte b -> sint8 b = if b <? 128 then b else b - 256.
Proof.
  intros b Hb. unfold sint8, wraps. unfold is_byte in Hb. change (2 ^ 8) with 256.
  change (2 ^ (8 - 1)) with 128. rewrite Z.mod_small by lia. reflexivity.
Qed.

Lemma UnserializeInt_payload : forall r pos bs v, sint_payload v bs -> serves r pos bs ->
  UnserializeInt r pos (zlen bs) = Val (0, v).
Proof.
  intros r pos bs v (Hb & Hl & Hv) Hs. pose proof Hs as [Hp _]. unfold UnserializeInt.
  destruct (Z.ltb_spec pos 0); [lia|]. destruct (Z.ltb_spec (zlen bs) 1); [lia|].
  destruct (Z.gtb_spec (zlen bs) 8); [lia|]. cbn [orb].
  destruct bs as [|b bs]; [rewrite zlen_nil in Hl; lia|].
  rewrite (serves_byte _ _ _ _ Hs). inversion Hb as [|x xs Hx Hxs]; subst.
  rewrite zlen_cons. replace (Z.to_nat (1 + zlen bs - 1)) with (length bs) by (unfold zlen; lia).
  rewrite UnserializeInt_loop_serves; auto; [|eapply serves_tail; eauto|apply Z.mod_pos_bound; lia].
  do 2 f_equal.
  rewrite zlen_cons in *. rewrite be_val_cons.
  pose proof (be_val_bound bs Hxs) as Hbb.
  set (n := zlen bs) in *. set (low := be_val bs) in *.
  assert (Hn : 0 <= n) by (unfold n; apply zlen_nonneg).
  pose proof (pow2_pos (8 * n) ltac:(lia)) as Hpn.
  assert (P : 2 ^ (8 * (1 + n)) = 256 * 2 ^ (8 * n)).
  { replace (8 * (1 + n)) with (8 + 8 * n) by lia. rewrite Z.pow_add_r by lia. reflexivity. }
  assert (P1 : 2 ^ (8 * (1 + n) - 1) = 128 * 2 ^ (8 * n)).
  { replace (8 * (1 + n) - 1) with (7 + 8 * n) by lia. rewrite Z.pow_add_r by lia. reflexivity. }
  assert (R : wraps (8 * (1 + n)) (b * 2 ^ (8 * n) + low) = sint8 b * 2 ^ (8 * n) + low).
  { rewrite sint8_byte by exact Hx. unfold wraps. rewrite P, P1. unfold is_byte in Hx.
    rewrite Z.mod_small by nia.
    destruct (Z.ltb_spec b 128); destruct (Z.ltb_spec (b * 2 ^ (8 * n) + low) (128 * 2 ^ (8 * n))); nia. }
  rewrite R. unfold sint64.
  assert (M : (wrap64 (sint8 b) * 2 ^ (8 * n) + low) mod 2 ^ 64 = (sint8 b * 2 ^ (8 * n) + low) mod 2 ^ 64).
  { unfold wrap64. change 18446744073709551616 with (2 ^ 64).
    rewrite <- (Z.add_mod_idemp_l (sint8 b mod 2 ^ 64 * _)), Z.mul_mod_idemp_l,
        Z.add_mod_idemp_l by lia. reflexivity. }
  unfold wraps at 1. rewrite M. fold (wraps 64 (sint8 b * 2 ^ (8 * n) + low)).
  apply wraps_id; [lia|].
  assert (H64 : 2 ^ (8 * (1 + n) - 1) <= 2 ^ (64 - 1)) by (apply Z.pow_le_mono_r; lia).
  rewrite P1 in H64. rewrite sint8_byte by exact Hx. unfold is_byte in Hx.
  destruct (Z.ltb_spec b 128); nia.
Qed.

Lemma float_bits_val : forall buf acc, bytes buf -> 0 <= acc -> (acc mod 256 = 0) -> buf <> [] ->
  float_bits acc buf = (acc / 256) * 2 ^ (8 * zlen buf) + be_val buf.
Proof.
  induction buf as [|b buf IH]; intros acc Hb Ha Hm Hne; [congruence|].
  inversion Hb as [|x xs Hx Hxs]; subst. unfold is_byte in Hx.
  assert (L : Z.lor acc b = acc + b).
  { replace acc with (Z.shiftl (acc / 256) 8) at 1
      by (rewrite Z.shiftl_mul_pow2 by lia; change (2 ^ 8) with 256; zdm).
    rewrite lor_shiftl_low by (simpl (2 ^ 8); lia). change (2 ^ 8) with 256. zdm. }
  destruct buf as [|b2 buf].
  - cbn [float_bits]. rewrite L. unfold zlen, be_val. cbn [length be_val_acc].
    change (2 ^ (8 * Z.of_nat 1)) with 256. zdm.
  - change (float_bits acc (b :: b2 :: buf)) with (float_bits (Z.shiftl (Z.lor acc b) 8) (b2 :: buf)).
    rewrite L, Z.shiftl_mul_pow2 by lia. change (2 ^ 8) with 256.
    rewrite IH; auto; [|lia|apply Z_mod_mult|discriminate].
    rewrite Z.div_mul by lia.
    rewrite (be_val_cons b). 
    assert (P : 2 ^ (8 * zlen (b :: b2 :: buf)) = 256 * 2 ^ (8 * zlen (b2 :: buf)))
      by (unfold zlen; cbn [length]; apply pow2_8S).
    rewrite P. assert (acc = 256 * (acc / 256)) by zdm.
    set (q := acc / 256) in *. rewrite H. ring.
Qed.

Lemma UnserializeFloat_payload : forall r pos bs, bytes bs -> (zlen bs = 4 \/ zlen bs = 8) ->
  serves r pos bs ->
  UnserializeFloat r pos (zlen bs) =
    Val (if (if zlen bs =? 4 then nonfinite32 (be_val bs) else nonfinite64 (be_val bs))
         then E_FILE_FORMAT_INVALID else 0, be_val bs).
Proof.
  intros r pos bs Hb Hl Hs. pose proof Hs as [Hp _]. unfold UnserializeFloat.
  destruct (Z.ltb_spec pos 0); [lia|].
  assert (C : negb (zlen bs =? 4) && negb (zlen bs =? 8) = false).
  { destruct (Z.eqb_spec (zlen bs) 4), (Z.eqb_spec (zlen bs) 8); auto; lia. }
  cbn [orb]. rewrite C. rewrite serves_read by assumption.
  rewrite float_bits_val; auto; try lia.
  2: { intros ->. rewrite zlen_nil in Hl. lia. }
  change (0 / 256) with 0. rewrite Z.mul_0_l, Z.add_0_l.
  destruct (zlen bs =? 4); [destruct (nonfinite32 _)|destruct (nonfinite64 _)]; reflexivity.
Qed.

Lemma UnserializeString_payload : forall r pos bs, zlen bs <= kStringElementSizeLimit ->
  serves r pos bs -> UnserializeString r pos (zlen bs) = (0, Some bs).
Proof.
  intros r pos bs Hl Hs. unfold UnserializeString, kStringElementSizeLimit, LLONG_MAX in *.
  pose proof (zlen_nonneg _ bs).
  destruct (Z.geb_spec (zlen bs) 9223372036854775807); [lia|].
  destruct (Z.ltb_spec (zlen bs) 0); [lia|].
  destruct (Z.gtb_spec (zlen bs) 20000000); [lia|]. cbn [orb].
  rewrite serves_read by assumption. reflexivity.
Qed.
