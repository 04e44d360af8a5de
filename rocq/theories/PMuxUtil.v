(* Proofs about mkvmuxer/mkvmuxerutil.cc: pure encoders and the fact that the
   writing functions emit exactly them. *)
From Verif Require Import Base EbmlSpec MWriter WriterSpec MMuxUtil PWriter.

(* ---------- sizes ---------- *)

Ltac split_ltb H :=
  repeat match type of H with
  | context [if ?c then _ else _] => destruct c eqn:?
  end.

Lemma GetUIntSize_range : forall v, 1 <= GetUIntSize v <= 8.
Proof. intros v. unfold GetUIntSize. repeat (destruct (_ <? _); [lia|]). lia. Qed.

Lemma GetCodedUIntSize_range : forall v, 1 <= GetCodedUIntSize v <= 8.
Proof. intros v. unfold GetCodedUIntSize. repeat (destruct (_ <? _); [lia|]). lia. Qed.

Lemma GetUIntSize_spec : forall v, is_u64 v ->
  let n := GetUIntSize v in
  v < 2 ^ (8 * n) /\ (n = 1 \/ 2 ^ (8 * (n - 1)) <= v).
Proof.
  intros v Hv. unfold is_u64 in Hv. cbv zeta. unfold GetUIntSize.
  repeat (match goal with |- context [?a <? ?b] => destruct (Z.ltb_spec a b) end;
          [simpl (2 ^ _); lia|]).
  simpl (2 ^ _). lia.
Qed.

Lemma GetUIntSize_unique : forall v n, is_u64 v -> 1 <= n <= 8 -> v < 2 ^ (8 * n) ->
  (n = 1 \/ 2 ^ (8 * (n - 1)) <= v) -> GetUIntSize v = n.
Proof.
  intros v n Hv Hn H1 H2. unfold is_u64 in Hv. unfold GetUIntSize.
  assert (C : n = 1 \/ n = 2 \/ n = 3 \/ n = 4 \/ n = 5 \/ n = 6 \/ n = 7 \/ n = 8) by lia.
  destruct C as [->|[->|[->|[->|[->|[->|[->| ->]]]]]]]; simpl (2 ^ _) in H1, H2;
  repeat (match goal with |- context [?a <? ?b] => destruct (Z.ltb_spec a b) end; try lia); lia.
Qed.

Lemma GetUIntSize_minimal : forall v n, is_u64 v -> 1 <= n -> v < 2 ^ (8 * n) -> GetUIntSize v <= n.
Proof.
  intros v n Hv Hn H. destruct (Z_le_gt_dec (GetUIntSize v) n) as [|Hgt]; auto.
  destruct (GetUIntSize_spec v Hv) as [_ [E|E]]; [lia|].
  assert (2 ^ (8 * n) <= 2 ^ (8 * (GetUIntSize v - 1))) by (apply Z.pow_le_mono_r; lia). lia.
Qed.

Lemma GetCodedUIntSize_spec : forall v, 0 <= v <= 2 ^ 56 - 2 ->
  let n := GetCodedUIntSize v in
  v <= 2 ^ (7 * n) - 2 /\ (n = 1 \/ 2 ^ (7 * (n - 1)) - 2 < v).
Proof.
  intros v Hv. simpl (2 ^ 56) in Hv. cbv zeta. unfold GetCodedUIntSize.
  repeat (match goal with |- context [?a <? ?b] => destruct (Z.ltb_spec a b) end;
          [simpl (2 ^ _); lia|]).
  simpl (2 ^ _). lia.
Qed.

Lemma GetCodedUIntSize_shortest : forall v, 0 <= v <= 2 ^ 56 - 2 ->
  vint_shortest (GetCodedUIntSize v) v.
Proof.
  intros v Hv. destruct (GetCodedUIntSize_spec v Hv) as [H1 H2].
  pose proof (GetCodedUIntSize_range v) as R.
  split; [split; [exact R|lia]|].
  intros w' [Hw' Hv']. destruct H2 as [E|E]; [lia|].
  destruct (Z_le_gt_dec (GetCodedUIntSize v) w') as [|Hgt]; auto.
  assert (2 ^ (7 * w') <= 2 ^ (7 * (GetCodedUIntSize v - 1))) by (apply Z.pow_le_mono_r; lia). lia.
Qed.

Lemma GetCodedUIntSize_big : forall v, 2 ^ 56 - 2 < v -> GetCodedUIntSize v = 8.
Proof.
  intros v Hv. simpl (2 ^ 56) in Hv. unfold GetCodedUIntSize.
  repeat (match goal with |- context [?a <? ?b] => destruct (Z.ltb_spec a b) end; [lia|]).
  reflexivity.
Qed.

(* ---------- pure encoders ---------- *)

Definition id_bytes (id : Z) : list Z := be_bytes (Z.to_nat (GetUIntSize id)) id.
Definition size_bytes (v : Z) : list Z := vint (GetCodedUIntSize v) v.
Definition e_master (id n : Z) : list Z := id_bytes id ++ size_bytes n.
Definition e_uintf (id v n : Z) : list Z :=
  id_bytes id ++ size_bytes n ++ be_bytes (Z.to_nat n) v.
Definition e_uint (id v : Z) : list Z := e_uintf id v (GetUIntSize v).
Definition e_int (id v : Z) : list Z :=
  id_bytes id ++ size_bytes (GetIntSize v) ++ be_bytes (Z.to_nat (GetIntSize v)) v.
Definition e_float (id u32 : Z) : list Z := id_bytes id ++ size_bytes 4 ++ be_bytes 4 u32.
Definition e_buf (id : Z) (bs : list Z) : list Z := id_bytes id ++ size_bytes (zlen bs) ++ bs.
Definition e_date (id v : Z) : list Z := id_bytes id ++ size_bytes 8 ++ be_bytes 8 v.

(* ---------- SerializeInt ---------- *)

Lemma shiftr_byte : forall v n,
  wrap8 (Z.shiftr v (8 * Z.of_nat n)) = (v / 2 ^ (8 * Z.of_nat n)) mod 256.
Proof. intros. unfold wrap8. rewrite Z.shiftr_div_pow2 by lia. reflexivity. Qed.

Lemma emits_SerializeInt_loop : forall n v, emits_st (SerializeInt_loop v n) (be_bytes n v).
Proof.
  induction n as [|n IH]; intros v; cbn [SerializeInt_loop be_bytes].
  - apply emits_ret. reflexivity.
  - rewrite shiftr_byte.
    change (?b :: be_bytes n v) with ([b] ++ be_bytes n v).
    eapply emits_bind; [apply emits_write| |].
    + intros r Hr. unfold st_ok in Hr. subst r. cbn [Z.ltb Z.compare]. apply IH.
    + intros r Hr; cbv beta in Hr. exists r. destruct (Z.ltb_spec r 0); [|lia].
      split; [unfold st_bad; lia|reflexivity].
Qed.

Lemma be_bytes_sint64 : forall n v, (n <= 8)%nat -> be_bytes n (sint64 v) = be_bytes n v.
Proof.
  intros n v Hn. apply be_bytes_mod.
  assert (E : sint64 v mod 2 ^ 64 = v mod 2 ^ 64) by (apply wraps_mod; lia).
  assert (D : exists k, 2 ^ 64 = 2 ^ (8 * Z.of_nat n) * k).
  { exists (2 ^ (64 - 8 * Z.of_nat n)). rewrite <- Z.pow_add_r by lia. f_equal; lia. }
  destruct D as [k Hk].
  pose proof (pow2_pos (8 * Z.of_nat n) ltac:(lia)).
  assert (0 < k) by (pose proof (pow2_pos 64 ltac:(lia)); nia).
  assert (M : forall x, x mod 2 ^ (8 * Z.of_nat n) = (x mod 2 ^ 64) mod 2 ^ (8 * Z.of_nat n)).
  { intros x. rewrite Hk. rewrite Z.rem_mul_r by lia.
    rewrite (Z.mul_comm _ ((x / _) mod k)), Z_mod_plus_full. symmetry. apply Z.mod_mod. lia. }
  rewrite M, E, <- M. reflexivity.
Qed.

Lemma emits_SerializeInt : forall v size, 1 <= size <= 8 ->
  emits_st (SerializeInt v size) (be_bytes (Z.to_nat size) v).
Proof.
  intros v size Hs. unfold SerializeInt.
  destruct (Z.ltb_spec size 1); [lia|]. destruct (Z.gtb_spec size 8); [lia|]. cbn [orb].
  rewrite <- be_bytes_sint64 by lia. apply emits_SerializeInt_loop.
Qed.

Lemma emits_SerializeFloat : forall u, emits_st (SerializeFloat u) (be_bytes 4 u).
Proof. intros. apply emits_SerializeInt_loop. Qed.

(* ---------- coded sizes ---------- *)

Lemma lor_marker : forall v size, 1 <= size <= 8 -> 0 <= v <= 2 ^ (7 * size) - 2 ->
  Z.lor v (Z.shiftl 1 (size * 7)) = 2 ^ (7 * size) + v.
Proof.
  intros v size Hs Hv. rewrite Z.shiftl_mul_pow2, Z.mul_1_l, (Z.mul_comm size 7) by lia.
  rewrite lor_pow2 by lia. lia.
Qed.

Lemma shiftl_marker : forall size, 0 <= size -> Z.shiftl 1 (size * 7) = 2 ^ (7 * size).
Proof. intros. rewrite Z.shiftl_mul_pow2, Z.mul_1_l by lia. f_equal; lia. Qed.

Lemma emits_WriteUIntSize : forall v size, vint_fits size v ->
  emits_st (WriteUIntSize v size) (vint size v).
Proof.
  intros v size [Hs Hv]. unfold WriteUIntSize.
  destruct (Z.ltb_spec size 0); [lia|]. destruct (Z.gtb_spec size 8); [lia|]. cbn [orb].
  destruct (Z.gtb_spec size 0); [|lia].
  rewrite shiftl_marker by lia.
  destruct (Z.gtb_spec v (2 ^ (7 * size) - 2)); [lia|].
  rewrite <- shiftl_marker by lia. rewrite lor_marker by lia.
  apply emits_SerializeInt. lia.
Qed.

Lemma emits_WriteUInt : forall v, 0 <= v <= 2 ^ 56 - 2 -> emits_st (WriteUInt v) (size_bytes v).
Proof.
  intros v Hv. unfold WriteUInt, size_bytes. apply emits_WriteUIntSize.
  apply GetCodedUIntSize_shortest. exact Hv.
Qed.

Lemma emits_WriteID : forall id, emits_st (WriteID id) (id_bytes id).
Proof. intros id. apply emits_SerializeInt. apply GetUIntSize_range. Qed.

(* ---------- check_status / check_true ---------- *)

Lemma emits_check_status : forall A (G B : A -> Prop) m bad k a b,
  emits_st m a -> B bad -> emits G B k b -> emits G B (check_status m bad k) (a ++ b).
Proof.
  intros A G B m bad k a b Hm Hb Hk. unfold check_status.
  eapply emits_bind; [exact Hm| |].
  - intros r Hr. unfold st_ok in Hr. subst r. cbn [Z.eqb]. exact Hk.
  - intros r Hr. unfold st_bad in Hr. exists bad. split; auto.
    intros s. destruct (Z.eqb_spec r 0); [lia|reflexivity].
Qed.

Lemma emits_check_true : forall A (G B : A -> Prop) m bad k a b,
  emits_b m a -> B bad -> emits G B k b -> emits G B (check_true m bad k) (a ++ b).
Proof.
  intros A G B m bad k a b Hm Hb Hk. unfold check_true.
  eapply emits_bind; [exact Hm| |].
  - intros r Hr. unfold b_ok in Hr. subst r. exact Hk.
  - intros r Hr. unfold b_bad in Hr. subst r. exists bad. split; auto.
Qed.

Lemma emits_true : emits_b (ret true) [].
Proof. apply emits_ret. reflexivity. Qed.

Lemma emits_done : forall m a, emits_st m a -> emits_b (check_status m false (ret true)) a.
Proof.
  intros. rewrite <- (app_nil_r a). apply emits_check_status; auto. reflexivity. apply emits_true.
Qed.

(* ---------- element writers ---------- *)

Lemma emits_WriteEbmlMasterElement : forall id n, 0 <= n <= 2 ^ 56 - 2 ->
  emits_b (WriteEbmlMasterElement id n) (e_master id n).
Proof.
  intros id n Hn. unfold WriteEbmlMasterElement, e_master.
  apply emits_check_status; [apply emits_WriteID|reflexivity|].
  apply emits_done. apply emits_WriteUInt. exact Hn.
Qed.

Lemma sint32_small : forall n, 0 <= n < 2147483648 -> sint32 n = n.
Proof. intros. apply wraps_id; simpl (2 ^ _); lia. Qed.

Lemma emits_WriteEbmlElementUIntFixed : forall id v n, 0 <= n <= 8 ->
  (n = 0 \/ GetUIntSize v <= n) ->
  emits_b (WriteEbmlElementUIntFixed id v n) (e_uintf id v (if n =? 0 then GetUIntSize v else n)).
Proof.
  intros id v n Hn Hfit. unfold WriteEbmlElementUIntFixed, e_uintf.
  apply emits_check_status; [apply emits_WriteID|reflexivity|].
  pose proof (GetUIntSize_range v) as R.
  assert (E : (if n >? 0 then n else GetUIntSize v) = (if n =? 0 then GetUIntSize v else n)).
  { destruct (Z.gtb_spec n 0), (Z.eqb_spec n 0); auto; lia. }
  rewrite E.
  assert (C : (n >? 0) && (GetUIntSize v >? n) = false).
  { destruct (Z.gtb_spec n 0), (Z.gtb_spec (GetUIntSize v) n); auto; lia. }
  rewrite C.
  set (m := if n =? 0 then GetUIntSize v else n).
  assert (Hm : 1 <= m <= 8). { unfold m. destruct (Z.eqb_spec n 0); lia. }
  apply emits_check_status; [apply emits_WriteUInt; simpl (2 ^ 56); lia|reflexivity|].
  apply emits_done. rewrite sint32_small by lia. apply emits_SerializeInt. exact Hm.
Qed.

Lemma emits_WriteEbmlElementUInt : forall id v, emits_b (WriteEbmlElementUInt id v) (e_uint id v).
Proof. intros. apply (emits_WriteEbmlElementUIntFixed id v 0); lia. Qed.

Lemma GetIntSize_range : forall v, 1 <= GetIntSize v <= 8.
Proof. intros; apply GetUIntSize_range. Qed.

Lemma emits_WriteEbmlElementInt : forall id v, emits_b (WriteEbmlElementInt id v) (e_int id v).
Proof.
  intros id v. unfold WriteEbmlElementInt, e_int. pose proof (GetIntSize_range v) as R.
  apply emits_check_status; [apply emits_WriteID|reflexivity|].
  apply emits_check_status; [apply emits_WriteUInt; simpl (2 ^ 56); lia|reflexivity|].
  apply emits_done. apply emits_SerializeInt. exact R.
Qed.

Lemma emits_WriteEbmlElementFloat : forall id u, emits_b (WriteEbmlElementFloat id u) (e_float id u).
Proof.
  intros id u. unfold WriteEbmlElementFloat, e_float.
  apply emits_check_status; [apply emits_WriteID|reflexivity|].
  apply emits_check_status; [apply emits_WriteUInt; simpl (2 ^ 56); lia|reflexivity|].
  apply emits_done. apply emits_SerializeFloat.
Qed.

Lemma emits_WriteEbmlElementString : forall id bs, zlen bs < 4294967296 ->
  emits_b (WriteEbmlElementString id bs) (e_buf id bs).
Proof.
  intros id bs Hl. unfold WriteEbmlElementString, e_buf. pose proof (zlen_nonneg _ bs).
  apply emits_check_status; [apply emits_WriteID|reflexivity|].
  apply emits_check_status; [apply emits_WriteUInt; simpl (2 ^ 56); lia|reflexivity|].
  apply emits_done. apply emits_write_u32. exact Hl.
Qed.

Lemma emits_WriteEbmlElementBuf : forall id bs, 1 <= zlen bs < 4294967296 ->
  emits_b (WriteEbmlElementBuf id bs) (e_buf id bs).
Proof.
  intros id bs Hl. unfold WriteEbmlElementBuf, e_buf.
  destruct (Z.ltb_spec (zlen bs) 1); [lia|].
  apply emits_check_status; [apply emits_WriteID|reflexivity|].
  apply emits_check_status; [apply emits_WriteUInt; simpl (2 ^ 56); lia|reflexivity|].
  apply emits_done. apply emits_write_u32. lia.
Qed.

Lemma emits_WriteEbmlDateElement : forall id v, emits_b (WriteEbmlDateElement id v) (e_date id v).
Proof.
  intros id v. unfold WriteEbmlDateElement, e_date.
  apply emits_check_status; [apply emits_WriteID|reflexivity|].
  apply emits_check_status; [apply emits_WriteUInt; simpl (2 ^ 56); lia|reflexivity|].
  apply emits_done. apply (emits_SerializeInt v 8). lia.
Qed.

(* ---------- lengths ---------- *)

Lemma id_bytes_zlen : forall id, zlen (id_bytes id) = GetUIntSize id.
Proof.
  intros. unfold id_bytes. rewrite be_bytes_zlen. pose proof (GetUIntSize_range id). lia.
Qed.

Lemma vint_zlen : forall w v, 0 <= w -> zlen (vint w v) = w.
Proof. intros. unfold vint. rewrite be_bytes_zlen. lia. Qed.

Lemma size_bytes_zlen : forall v, zlen (size_bytes v) = GetCodedUIntSize v.
Proof. intros. unfold size_bytes. apply vint_zlen. pose proof (GetCodedUIntSize_range v). lia. Qed.

Lemma e_master_zlen : forall id n, zlen (e_master id n) = EbmlMasterElementSize id n.
Proof. intros. unfold e_master, EbmlMasterElementSize. rewrite zlen_app, id_bytes_zlen, size_bytes_zlen. reflexivity. Qed.

Lemma GetCodedUIntSize_small : forall n, n <= 126 -> GetCodedUIntSize n = 1.
Proof. intros. unfold GetCodedUIntSize. destruct (Z.ltb_spec n 127); [reflexivity|lia]. Qed.

Lemma wrap64_small : forall v, 0 <= v < 18446744073709551616 -> wrap64 v = v.
Proof. intros. apply Z.mod_small. lia. Qed.

Lemma e_uintf_zlen : forall id v n, 1 <= n <= 8 -> GetUIntSize v <= n ->
  zlen (e_uintf id v n) = EbmlElementSizeUIntFixed id v n.
Proof.
  intros id v n Hn Hf. unfold e_uintf, EbmlElementSizeUIntFixed.
  rewrite !zlen_app, id_bytes_zlen, size_bytes_zlen, be_bytes_zlen, GetCodedUIntSize_small by lia.
  destruct (Z.gtb_spec n 0); [|lia]. pose proof (GetUIntSize_range id).
  rewrite !wrap64_small by (try rewrite wrap64_small by lia; lia). lia.
Qed.

Lemma e_uint_zlen : forall id v, zlen (e_uint id v) = EbmlElementSizeUInt id v.
Proof.
  intros id v. pose proof (GetUIntSize_range v). unfold e_uint. rewrite e_uintf_zlen by lia.
  unfold EbmlElementSizeUInt, EbmlElementSizeUIntFixed.
  destruct (Z.gtb_spec (GetUIntSize v) 0); [|lia]. reflexivity.
Qed.

Lemma e_int_zlen : forall id v, zlen (e_int id v) = EbmlElementSizeInt id v.
Proof.
  intros id v. pose proof (GetIntSize_range v). unfold e_int, EbmlElementSizeInt.
  rewrite !zlen_app, id_bytes_zlen, size_bytes_zlen, be_bytes_zlen, GetCodedUIntSize_small by lia. lia.
Qed.

Lemma e_float_zlen : forall id v, zlen (e_float id v) = EbmlElementSizeFloat id.
Proof.
  intros id v. unfold e_float, EbmlElementSizeFloat.
  rewrite !zlen_app, id_bytes_zlen, size_bytes_zlen, be_bytes_zlen, GetCodedUIntSize_small by lia. lia.
Qed.

Lemma e_date_zlen : forall id v, zlen (e_date id v) = EbmlDateElementSize id.
Proof.
  intros id v. unfold e_date, EbmlDateElementSize.
  rewrite !zlen_app, id_bytes_zlen, size_bytes_zlen, be_bytes_zlen, GetCodedUIntSize_small by lia. lia.
Qed.

Lemma e_buf_zlen : forall id bs, zlen bs < 2 ^ 56 -> zlen (e_buf id bs) = EbmlElementSizeBuf id bs.
Proof.
  intros id bs Hl. unfold e_buf, EbmlElementSizeBuf. simpl (2 ^ 56) in Hl.
  rewrite !zlen_app, id_bytes_zlen, size_bytes_zlen. pose proof (GetUIntSize_range id).
  pose proof (GetCodedUIntSize_range (zlen bs)). pose proof (zlen_nonneg _ bs).
  rewrite wrap64_small by lia. lia.
Qed.

(* ---------- structure ---------- *)

Lemma id_width_GetUIntSize : forall w id, id_width w id -> GetUIntSize id = w.
Proof.
  intros w id [Hw Hid].
  assert (C : w = 1 \/ w = 2 \/ w = 3 \/ w = 4) by lia.
  unfold GetUIntSize.
  destruct C as [->|[->|[->| ->]]]; simpl (2 ^ _) in Hid;
  repeat (match goal with |- context [?a <? ?b] => destruct (Z.ltb_spec a b) end; try lia).
Qed.

Lemma id_bytes_spec : forall id, valid_id id -> is_id_bytes id (id_bytes id).
Proof.
  intros id [w Hw]. exists w. split; auto. unfold id_bytes.
  rewrite (id_width_GetUIntSize w id Hw). reflexivity.
Qed.

Lemma size_bytes_fits : forall v, 0 <= v <= 2 ^ 56 - 2 -> vint_fits (GetCodedUIntSize v) v.
Proof. intros v Hv. apply GetCodedUIntSize_shortest. exact Hv. Qed.

Lemma is_element_intro : forall id n payload, valid_id id -> n = zlen payload -> n <= 2 ^ 56 - 2 ->
  is_element id payload (e_master id n ++ payload).
Proof.
  intros id n payload Hid -> Hl. exists (id_bytes id), (GetCodedUIntSize (zlen payload)).
  split; [apply id_bytes_spec; auto|].
  split; [apply size_bytes_fits; pose proof (zlen_nonneg _ payload); lia|].
  unfold e_master, size_bytes. rewrite <- app_assoc. reflexivity.
Qed.

Lemma e_buf_element : forall id bs, valid_id id -> zlen bs <= 2 ^ 56 - 2 ->
  is_element id bs (e_buf id bs).
Proof.
  intros. unfold e_buf. rewrite app_assoc. fold (e_master id (zlen bs)).
  apply is_element_intro; auto.
Qed.

Lemma e_uintf_element : forall id v n, valid_id id -> 1 <= n <= 8 ->
  is_element id (be_bytes (Z.to_nat n) v) (e_uintf id v n).
Proof.
  intros. unfold e_uintf. rewrite app_assoc. fold (e_master id n).
  apply is_element_intro; auto. rewrite be_bytes_zlen; lia. simpl (2 ^ 56); lia.
Qed.

Lemma e_int_element : forall id v, valid_id id ->
  is_element id (be_bytes (Z.to_nat (GetIntSize v)) v) (e_int id v).
Proof.
  intros id v Hid. pose proof (GetIntSize_range v). unfold e_int. rewrite app_assoc.
  fold (e_master id (GetIntSize v)).
  apply is_element_intro; auto. rewrite be_bytes_zlen; lia. simpl (2 ^ 56); lia.
Qed.

Lemma e_float_element : forall id v, valid_id id -> is_element id (be_bytes 4 v) (e_float id v).
Proof.
  intros id v Hid. unfold e_float. rewrite app_assoc. fold (e_master id 4).
  apply is_element_intro; auto. simpl (2 ^ 56); lia.
Qed.

Lemma e_date_element : forall id v, valid_id id -> is_element id (be_bytes 8 v) (e_date id v).
Proof.
  intros id v Hid. unfold e_date. rewrite app_assoc. fold (e_master id 8).
  apply is_element_intro; auto. simpl (2 ^ 56); lia.
Qed.

(* ---------- payload values ---------- *)

Lemma uint_payload_ok : forall v n, is_u64 v -> 1 <= n <= 8 -> GetUIntSize v <= n ->
  uint_payload v (be_bytes (Z.to_nat n) v).
Proof.
  intros v n Hv Hn Hf. split; [apply be_bytes_bytes|]. rewrite be_bytes_zlen, Z2Nat.id by lia.
  split; [lia|]. rewrite be_val_be_bytes, Z2Nat.id by lia. apply Z.mod_small.
  destruct (GetUIntSize_spec v Hv) as [H _]. unfold is_u64 in Hv. split; [lia|].
  apply Z.lt_le_trans with (1 := H). apply Z.pow_le_mono_r; lia.
Qed.

Lemma lxor_m1 : forall v, Z.lxor v (-1) = -1 - v.
Proof. intros. rewrite Z.lxor_m1_r. unfold Z.lnot. lia. Qed.

(* v fits in n two's complement bytes iff GetIntSize v <= n *)
Lemma GetIntSize_spec : forall v n, is_s64 v -> 1 <= n <= 8 ->
  (GetIntSize v <= n <-> - 2 ^ (8 * n - 1) <= v < 2 ^ (8 * n - 1)).
Proof.
  intros v n Hv Hn. unfold is_s64 in Hv. unfold GetIntSize.
  set (u := if v <? 0 then Z.lxor v (-1) else v).
  assert (Hu : u = if v <? 0 then -1 - v else v).
  { unfold u. destruct (v <? 0); [apply lxor_m1|reflexivity]. }
  clearbody u.
  assert (0 <= u < 2 ^ 63) by (simpl (2 ^ 63); destruct (Z.ltb_spec v 0); lia).
  simpl (2 ^ 63) in *.
  rewrite wrap64_small by lia.
  assert (U : is_u64 (2 * u)) by (unfold is_u64; lia).
  assert (E : 2 ^ (8 * n) = 2 * 2 ^ (8 * n - 1)).
  { replace (8 * n) with (1 + (8 * n - 1)) at 1 by lia. rewrite Z.pow_add_r by lia. reflexivity. }
  split; intros H1.
  - assert (2 * u < 2 ^ (8 * n)).
    { destruct (GetUIntSize_spec _ U) as [B _]. apply Z.lt_le_trans with (1 := B).
      apply Z.pow_le_mono_r; lia. }
    destruct (Z.ltb_spec v 0); lia.
  - apply GetUIntSize_minimal; auto; [lia|]. destruct (Z.ltb_spec v 0); lia.
Qed.

Lemma sint_payload_ok : forall v n, is_s64 v -> 1 <= n <= 8 -> GetIntSize v <= n ->
  sint_payload v (be_bytes (Z.to_nat n) v).
Proof.
  intros v n Hv Hn Hf. apply (GetIntSize_spec v n Hv Hn) in Hf.
  split; [apply be_bytes_bytes|]. rewrite be_bytes_zlen, Z2Nat.id by lia.
  split; [lia|]. rewrite be_val_be_bytes, Z2Nat.id by lia.
  transitivity (wraps (8 * n) v); [|apply wraps_id; lia].
  unfold wraps. rewrite Z.mod_mod by (pose proof (pow2_pos (8 * n)); lia). reflexivity.
Qed.
