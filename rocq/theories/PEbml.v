(* Proofs behind PropEbml.v. *)
From Verif Require Import Base EbmlSpec MWriter WriterSpec MMuxUtil PWriter PMuxUtil.
From Verif Require Import MParUtil ReaderSpec PParUtil EbmlPropSpec.
From Coq Require Import ZifyBool ZifyNat.

Lemma serves_prefix : forall r pos a b, serves r pos (a ++ b) -> serves r pos a.
Proof. exact serves_app_l. Qed.

Lemma WriteUInt_too_big : forall v s, 2 ^ 56 - 2 < v -> WriteUInt v s = Val (-1, s).
Proof.
  intros v s Hv. unfold WriteUInt. rewrite GetCodedUIntSize_big by exact Hv.
  unfold WriteUIntSize. cbn [Z.ltb Z.gtb Z.compare orb].
  rewrite shiftl_marker by lia. change (7 * 8) with 56.
  destruct (Z.gtb_spec v (2 ^ 56 - 2)); [reflexivity|lia].
Qed.

Lemma WriteUIntSize_misfit : forall v size s, 0 <= v -> 1 <= size <= 8 -> ~ vint_fits size v ->
  WriteUIntSize v size s = Val (-1, s).
Proof.
  intros v size s Hv Hs Hf. unfold WriteUIntSize.
  destruct (Z.ltb_spec size 0); [lia|]. destruct (Z.gtb_spec size 8); [lia|]. cbn [orb].
  destruct (Z.gtb_spec size 0); [|lia]. rewrite shiftl_marker by lia.
  destruct (Z.gtb_spec v (2 ^ (7 * size) - 2)); [reflexivity|].
  exfalso. apply Hf. split; lia.
Qed.

Lemma coded_width_search_spec : forall fuel v size, 1 <= size -> size + Z.of_nat fuel = 10 ->
  0 <= v <= 2 ^ 56 - 2 -> (size = 1 \/ 2 ^ (7 * (size - 1)) - 2 < v) ->
  coded_width_search v size fuel = Val (GetCodedUIntSize v).
Proof.
  induction fuel as [|fuel IH]; intros v size Hs Hf Hv Hprev; cbn [coded_width_search].
  - exfalso. assert (size = 10) by lia. subst size. destruct Hprev; [lia|].
    change (2 ^ (7 * (10 - 1))) with 9223372036854775808 in H. change (2 ^ 56) with 72057594037927936 in Hv. lia.
  - destruct (Z.gtb_spec size 8).
    { exfalso. destruct Hprev; [lia|].
      assert (2 ^ 56 <= 2 ^ (7 * (size - 1))) by (apply Z.pow_le_mono_r; lia). lia. }
    rewrite shiftl_marker by lia.
    destruct (Z.leb_spec v (2 ^ (7 * size) - 2)) as [L|L].
    + f_equal. destruct (GetCodedUIntSize_shortest v Hv) as [[R F] M].
      assert (GetCodedUIntSize v <= size) by (apply M; split; lia).
      destruct Hprev as [->|Hprev]; [lia|].
      destruct (Z_le_gt_dec size (GetCodedUIntSize v)); [lia|].
      assert (2 ^ (7 * GetCodedUIntSize v) <= 2 ^ (7 * (size - 1))) by (apply Z.pow_le_mono_r; lia).
      lia.
    + apply IH; try lia. right. replace (size + 1 - 1) with size by lia. lia.
Qed.

Lemma emits_WriteUIntSize0 : forall v, 0 <= v <= 2 ^ 56 - 2 ->
  emits_st (WriteUIntSize v 0) (vint (GetCodedUIntSize v) v).
Proof.
  intros v Hv. unfold WriteUIntSize. cbn [Z.ltb Z.gtb Z.compare orb].
  rewrite coded_width_search_spec by (auto; lia).
  pose proof (GetCodedUIntSize_range v) as R.
  destruct (Z.gtb_spec (GetCodedUIntSize v) 8); [lia|].
  destruct (GetCodedUIntSize_shortest v Hv) as [[_ F] _].
  rewrite lor_marker by lia. apply emits_SerializeInt. lia.
Qed.

Lemma coded_width_search_ub : forall v fuel size, 2 ^ 56 - 2 < v -> 1 <= size ->
  size + Z.of_nat fuel = 10 -> coded_width_search v size fuel = UB.
Proof.
  intros v fuel. induction fuel as [|fuel IH]; intros size Hv Hs Hf; cbn [coded_width_search]; auto.
  destruct (Z.gtb_spec size 8); auto. rewrite shiftl_marker by lia.
  destruct (Z.leb_spec v (2 ^ (7 * size) - 2)) as [L|L]; [|apply IH; lia].
  assert (2 ^ (7 * size) <= 2 ^ 56) by (apply Z.pow_le_mono_r; lia). lia.
Qed.

Lemma WriteUIntSize0_ub : forall v s, 2 ^ 56 - 2 < v -> WriteUIntSize v 0 s = UB.
Proof.
  intros v s Hv. unfold WriteUIntSize. cbn [Z.ltb Z.gtb Z.compare orb].
  rewrite coded_width_search_ub by (auto; lia). reflexivity.
Qed.

(* a fixed-size element that does not fit *)
Lemma WriteEbmlElementUIntFixed_misfit : forall id v n s, valid_id id -> is_u64 v ->
  1 <= n <= 8 -> 2 ^ (8 * n) <= v -> good s -> no_fail s ->
  exists s', WriteEbmlElementUIntFixed id v n s = Val (false, s') /\ advanced s (id_bytes id) s'.
Proof.
  intros id v n s Hid Hv Hn Hbig Hg Hnf. unfold WriteEbmlElementUIntFixed, check_status, bind.
  destruct (emits_no_fail _ _ _ _ _ s (emits_WriteID id) Hg Hnf) as (r & s' & E & HG & Adv).
  unfold st_ok in HG. subst r. rewrite E. cbn [Z.eqb].
  destruct (Z.gtb_spec n 0); [|lia].
  destruct (GetUIntSize_spec v Hv) as [B _].
  assert (n < GetUIntSize v).
  { destruct (Z_lt_le_dec n (GetUIntSize v)); auto.
    assert (2 ^ (8 * GetUIntSize v) <= 2 ^ (8 * n)) by (apply Z.pow_le_mono_r; pose proof (GetUIntSize_range v); lia). lia. }
  destruct (Z.gtb_spec (GetUIntSize v) n); [|lia]. cbn [andb]. exists s'. split; auto.
Qed.

(* ---------- Void ---------- *)

Lemma emits_write_zeros : forall n, emits_st (write_zeros n) (repeat 0 n).
Proof.
  induction n as [|n IH]; cbn [write_zeros repeat].
  - apply emits_ret. reflexivity.
  - change (0 :: repeat 0 n) with ([0] ++ repeat 0 n).
    eapply emits_bind; [apply emits_write_st| |].
    + intros r Hr. unfold st_ok in Hr. subst r. cbn [Z.eqb]. exact IH.
    + intros r Hr. exists r. split; auto. intros s. unfold st_bad in Hr.
      destruct (Z.eqb_spec r 0); [lia|reflexivity].
Qed.

Lemma void_entry_size : forall size, 2 <= size < 2147483648 ->
  let e := size - 1 - GetCodedUIntSize (size - 1) in
  1 + GetCodedUIntSize e + e = size <-> void_gap size = false.
Proof.
  intros size Hs. cbv zeta. unfold void_gap.
  rewrite !orb_false_iff, !andb_false_iff, Z.ltb_ge, !Z.leb_gt.
  unfold GetCodedUIntSize.
  repeat match goal with |- context [?a <? ?b] => destruct (Z.ltb_spec a b); try lia end.
Qed.

Lemma void_entry_nonneg : forall size, 2 <= size < 2147483648 ->
  0 <= size - 1 - GetCodedUIntSize (size - 1) < 2147483648.
Proof.
  intros size Hs. unfold GetCodedUIntSize.
  repeat match goal with |- context [?a <? ?b] => destruct (Z.ltb_spec a b); try lia end.
Qed.

Lemma emits_WriteVoidElement : forall size, 2 <= size < 2147483648 -> void_gap size = false ->
  let e := size - 1 - GetCodedUIntSize (size - 1) in
  emits_sz (WriteVoidElement size) (e_buf kMkvVoid (repeat 0 (Z.to_nat e))) /\
  zlen (e_buf kMkvVoid (repeat 0 (Z.to_nat e))) = size.
Proof.
  intros size Hs Hgap e.
  pose proof (void_entry_nonneg size Hs) as He. fold e in He.
  apply void_entry_size in Hgap; [|exact Hs]. fold e in Hgap.
  assert (Hz : zlen (repeat 0 (Z.to_nat e)) = e) by (unfold zlen; rewrite repeat_length; lia).
  assert (HL : zlen (e_buf kMkvVoid (repeat 0 (Z.to_nat e))) = size).
  { unfold e_buf. rewrite !zlen_app, id_bytes_zlen, size_bytes_zlen, Hz.
    change (GetUIntSize kMkvVoid) with 1. lia. }
  split; [|exact HL].
  unfold emits_sz. rewrite HL. unfold WriteVoidElement.
  rewrite (wrap64_small (size - 1)) by lia. fold e.
  rewrite (wrap64_small e) by lia. unfold EbmlMasterElementSize.
  change (GetUIntSize kMkvVoid) with 1.
  rewrite Hgap. rewrite wrap64_small by lia.
  rewrite Z.eqb_refl. cbn [negb].
  intros s Hg. unfold w_position. unfold bind at 1.
  destruct Hg as [Hp Hsch]. destruct (Z.ltb_spec (w_pos s) 0); [lia|].
  rewrite (sint32_small e) by lia.
  assert (EM : emits (sz_ok size) sz_bad
     (check_status (WriteID kMkvVoid) 0 (check_status (WriteUInt e) 0
        (check_status (write_zeros (Z.to_nat e)) 0 (ret size))))
     (e_buf kMkvVoid (repeat 0 (Z.to_nat e)))).
  { unfold e_buf. rewrite Hz. apply emits_check_status; [apply emits_WriteID|reflexivity|].
    apply emits_check_status; [apply emits_WriteUInt; simpl (2 ^ 56); lia|reflexivity|].
    rewrite <- (app_nil_r (repeat _ _)).
    apply emits_check_status; [apply emits_write_zeros|reflexivity|]. apply emits_ret. reflexivity. }
  destruct (EM s (conj Hp Hsch)) as (r & s' & p & q & E & Eb & Adv & Res).
  (* the final position check never fires when everything was written *)
  exists r, s', p, q. split; [|auto].
  clear EM. unfold check_status, bind in E |- *.
  destruct (WriteID kMkvVoid s) as [[st s1]|] eqn:E1; [|discriminate].
  destruct (st =? 0); [|exact E].
  destruct (WriteUInt e s1) as [[st2 s2]|] eqn:E2; [|discriminate].
  destruct (st2 =? 0); [|exact E].
  destruct (write_zeros (Z.to_nat e) s2) as [[st3 s3]|] eqn:E3; [|discriminate].
  destruct (st3 =? 0) eqn:E0; [|exact E].
  unfold ret in E. injection E as <- <-.
  destruct Adv as (_ & HP & _).
  assert (Hq : q = []).
  { destruct Res as [[_ ?]|[B _]]; auto. unfold sz_bad in B. lia. }
  subst q. rewrite app_nil_r in Eb. subst p. rewrite HL in HP.
  destruct (Z.ltb_spec (w_pos s3) 0); [lia|].
  unfold MParUtil.file_reader.
  assert (Hsz : sint64 size = size) by (apply PParUtil.sint64_small; lia).
  rewrite Hsz. replace (w_pos s3 - w_pos s) with size by lia. rewrite Z.eqb_refl. reflexivity.
Qed.

Lemma WriteVoidElement_gap : forall size s, 1 <= size < 2147483648 -> void_gap size = true ->
  WriteVoidElement size s = Val (0, s).
Proof.
  intros size s Hs Hgap. unfold WriteVoidElement.
  destruct (Z.eqb_spec size 1) as [->|].
  { vm_compute. reflexivity. }
  pose proof (void_entry_nonneg size ltac:(lia)) as He.
  assert (N : ~ (1 + GetCodedUIntSize (size - 1 - GetCodedUIntSize (size - 1)) +
              (size - 1 - GetCodedUIntSize (size - 1)) = size)).
  { intros E. apply void_entry_size in E; [congruence|lia]. }
  rewrite (wrap64_small (size - 1)) by lia.
  rewrite (wrap64_small (size - 1 - GetCodedUIntSize (size - 1))) by lia.
  unfold EbmlMasterElementSize. change (GetUIntSize kMkvVoid) with 1.
  pose proof (GetCodedUIntSize_range (size - 1 - GetCodedUIntSize (size - 1))).
  rewrite wrap64_small by lia.
  destruct (Z.eqb_spec (1 + GetCodedUIntSize (size - 1 - GetCodedUIntSize (size - 1)) +
              (size - 1 - GetCodedUIntSize (size - 1))) size); [contradiction|]. reflexivity.
Qed.

(* ---------- sibling walk ---------- *)

Lemma walk_progress : forall r stop pos n pos', wf_reader r -> 0 <= pos ->
  walk r stop pos n pos' -> pos + 2 * Z.of_nat n <= pos'.
Proof.
  intros r stop pos n pos' Hwf Hp H. induction H as [|pos pos1 id size n pos2 E H IH]; [lia|].
  destruct (ParseElementHeader_range _ _ _ _ _ _ Hwf Hp E) as (A & B & C & D & F).
  specialize (IH ltac:(lia)). lia.
Qed.

Lemma walk_bound : forall r stop pos n pos', wf_reader r -> 0 <= pos ->
  walk r stop pos n pos' -> (n <> O) -> pos + 2 * Z.of_nat n <= r_avail r.
Proof.
  intros r stop pos n pos' Hwf Hp H. induction H as [|pos pos1 id size n pos2 E H IH]; [congruence|].
  intros _. destruct (ParseElementHeader_range _ _ _ _ _ _ Hwf Hp E) as (A & B & C & D & F).
  destruct n as [|n]; [lia|]. specialize (IH ltac:(lia) ltac:(discriminate)). lia.
Qed.

(* ---------- all element writers at once ---------- *)

Lemma elem_op_correct : forall op, op_valid op ->
  emits_b (op_run op) (op_bytes op) /\
  zlen (op_bytes op) = op_size op /\
  is_element (op_id op) (op_payload op) (op_bytes op) /\
  op_payload_ok op.
Proof.
  intros op (Hid & Hop).
  change (op_bytes op) with (id_bytes (op_id op) ++ size_bytes (zlen (op_payload op)) ++ op_payload op).
  destruct op as [id v n|id v|id u|id s|id bs|id v];
    cbn [op_run op_size op_id op_payload op_payload_ok op_valid] in *.
  - destruct Hop as (Hv & Hn & Hfit).
    assert (F : n = 0 \/ GetUIntSize v <= n).
    { destruct Hfit as [|Hf]; [left; auto|]. destruct (Z.eqb_spec n 0); [left; auto|right].
      apply GetUIntSize_minimal; auto; lia. }
    pose proof (emits_WriteEbmlElementUIntFixed id v n Hn F) as E.
    pose proof (GetUIntSize_range v) as R.
    set (m := if n =? 0 then GetUIntSize v else n) in *.
    assert (Hm : 1 <= m <= 8 /\ GetUIntSize v <= m) by (unfold m; destruct (Z.eqb_spec n 0); lia).
    assert (EB : e_uintf id v m = id_bytes id ++ size_bytes (zlen (be_bytes (Z.to_nat m) v)) ++ be_bytes (Z.to_nat m) v).
    { unfold e_uintf. rewrite be_bytes_zlen, Z2Nat.id by lia. reflexivity. }
    unfold op_payload_ok. cbn [op_payload]. fold m. rewrite <- EB.
    split; [exact E|]. split; [|split].
    + rewrite e_uintf_zlen by lia. unfold m, EbmlElementSizeUIntFixed.
      destruct (Z.eqb_spec n 0) as [->|].
      * destruct (Z.gtb_spec (GetUIntSize v) 0); [reflexivity|lia].
      * reflexivity.
    + apply e_uintf_element; auto; lia.
    + split; [apply uint_payload_ok; auto; lia|]. split.
      * intros Hn0. rewrite be_bytes_zlen, Z2Nat.id by lia. unfold m.
        destruct (Z.eqb_spec n 0); lia.
      * intros -> p' (B1 & B2 & B3). rewrite be_bytes_zlen, Z2Nat.id by lia. unfold m. cbn [Z.eqb].
        apply GetUIntSize_minimal; auto; [lia|]. rewrite <- B3.
        apply be_val_bound. exact B1.
  - rename Hop into Hv. pose proof (GetIntSize_range v) as R.
    assert (EB : e_int id v = id_bytes id ++ size_bytes (zlen (be_bytes (Z.to_nat (GetIntSize v)) v))
                              ++ be_bytes (Z.to_nat (GetIntSize v)) v).
    { unfold e_int. rewrite be_bytes_zlen, Z2Nat.id by lia. reflexivity. }
    unfold op_payload_ok. cbn [op_payload]. rewrite <- EB.
    split; [apply emits_WriteEbmlElementInt|]. split; [apply e_int_zlen|].
    split; [apply e_int_element; auto|].
    split; [apply sint_payload_ok; auto; lia|].
    intros p' (B1 & B2 & B3). rewrite be_bytes_zlen, Z2Nat.id by lia.
    apply (GetIntSize_spec v (zlen p') Hv ltac:(lia)). rewrite <- B3. apply wraps_range. lia.
  - rename Hop into Hu. unfold op_payload_ok. cbn [op_payload].
    change (id_bytes id ++ size_bytes (zlen (be_bytes 4 u)) ++ be_bytes 4 u) with (e_float id u).
    split; [apply emits_WriteEbmlElementFloat|]. split; [apply e_float_zlen|].
    split; [apply e_float_element; auto|].
    split; [apply be_bytes_bytes|]. split; [reflexivity|].
    rewrite be_val_be_bytes. apply Z.mod_small. exact Hu.
  - destruct Hop as (Hb & Hl). unfold op_payload_ok. cbn [op_payload]. fold (e_buf id s).
    split; [apply emits_WriteEbmlElementString; auto|]. split; [apply e_buf_zlen; simpl (2 ^ 56); lia|].
    split; [apply e_buf_element; auto; simpl (2 ^ 56); lia|reflexivity].
  - destruct Hop as (Hb & Hl). unfold op_payload_ok. cbn [op_payload]. fold (e_buf id bs).
    split; [apply emits_WriteEbmlElementBuf; auto|]. split; [apply e_buf_zlen; simpl (2 ^ 56); lia|].
    split; [apply e_buf_element; auto; simpl (2 ^ 56); lia|reflexivity].
  - rename Hop into Hv. unfold op_payload_ok. cbn [op_payload].
    change (id_bytes id ++ size_bytes (zlen (be_bytes 8 v)) ++ be_bytes 8 v) with (e_date id v).
    split; [apply emits_WriteEbmlDateElement|]. split; [apply e_date_zlen|].
    split; [apply e_date_element; auto|].
    split; [reflexivity|]. pose proof (sint_payload_ok v 8 Hv ltac:(lia)) as S.
    apply S. apply GetIntSize_range.
Qed.

Lemma op_run_success : forall op s s', op_valid op -> good s ->
  op_run op s = Val (true, s') -> advanced s (op_bytes op) s'.
Proof.
  intros op s s' Hv Hg E. destruct (elem_op_correct op Hv) as [H _].
  eapply emits_success; [exact H| |exact Hg|exact E|reflexivity].
  unfold b_ok, b_bad. intros; congruence.
Qed.

(* a string of 2^32 bytes: reported as written although no content was stored *)
Lemma WriteEbmlElementString_4G : forall id bs s, zlen bs = 4294967296 -> good s -> no_fail s ->
  exists s', WriteEbmlElementString id bs s = Val (true, s') /\ advanced s (e_master id 4294967296) s'.
Proof.
  intros id bs s Hl Hg Hn.
  assert (E : emits_b (WriteEbmlElementString id bs) (e_master id 4294967296)).
  { unfold WriteEbmlElementString, e_master. rewrite Hl.
    apply emits_check_status; [apply emits_WriteID|reflexivity|].
    rewrite <- (app_nil_r (size_bytes _)).
    apply emits_check_status; [apply emits_WriteUInt; simpl (2 ^ 56); lia|reflexivity|].
    apply emits_done. unfold w_write_u32. rewrite Hl. change (wrap32 4294967296) with 0.
    cbn [Z.to_nat firstn]. apply emits_write_st. }
  destruct (emits_no_fail _ _ _ _ _ s E Hg Hn) as (r & s' & E1 & HG & Adv).
  unfold b_ok in HG. subst r. eauto.
Qed.

(* ---------- end to end: write, then read the file ---------- *)

Lemma fresh_good : forall f, good (fresh_writer f) /\ no_fail (fresh_writer f).
Proof.
  intros f. unfold good, no_fail, fresh_writer. cbn.
  repeat split; try constructor; try lia. apply zlen_nonneg.
Qed.

Lemma fresh_emits : forall A (G B : A -> Prop) m bs f, emits G B m bs ->
  exists r s', m (fresh_writer f) = Val (r, s') /\ G r /\ w_file s' = f ++ bs.
Proof.
  intros A G B m bs f H. destruct (fresh_good f) as [Hg Hn].
  destruct (emits_no_fail _ _ _ _ _ _ H Hg Hn) as (r & s' & E & HG & (F & _)).
  exists r, s'. split; auto. split; auto. rewrite F. cbn. apply write_at_end.
Qed.

Lemma WriteUInt_ReadUInt : forall v f rest, 0 <= v <= 2 ^ 56 - 2 ->
  exists s', WriteUInt v (fresh_writer f) = Val (0, s') /\
    zlen (w_file s') = zlen f + GetCodedUIntSize v /\
    ReadUInt (file_reader (w_file s' ++ rest)) (zlen f) = (v, GetCodedUIntSize v).
Proof.
  intros v f rest Hv.
  destruct (fresh_emits _ _ _ _ _ f (emits_WriteUInt v Hv)) as (r & s' & E & HG & F).
  unfold st_ok in HG. subst r. exists s'. split; auto. rewrite F.
  split; [rewrite zlen_app, size_bytes_zlen; reflexivity|].
  rewrite <- app_assoc. destruct (size_bytes_fits v Hv) as [W X].
  apply ReadUInt_vint; [exact W|lia|]. apply serves_file.
Qed.

Lemma read_uint_element : forall id v n r pos stop, op_valid (OpUInt id v n) -> v < 2 ^ 63 ->
  let bs := op_bytes (OpUInt id v n) in
  serves r pos bs -> pos + zlen bs <= LLONG_MAX -> (stop < 0 \/ pos + zlen bs <= stop) ->
  exists pos1 size, ParseElementHeader r pos stop = (0, pos1, id, size) /\
    pos1 + size = pos + zlen bs /\ UnserializeUInt r pos1 size = Val v.
Proof.
  intros id v n r pos stop Hv Hbig bs Hs Hmax Hstop.
  destruct (elem_op_correct _ Hv) as (_ & _ & (ib & w & Hib & Hfit & Ebs) & P & _).
  fold bs in Ebs. set (p := op_payload (OpUInt id v n)) in *.
  pose proof (zlen_nonneg _ p) as Hzp. destruct Hfit as [Hw Hf].
  pose proof Hs as Hs'. rewrite Ebs, app_assoc in Hs'.
  rewrite Ebs, !zlen_app, vint_zlen in Hmax, Hstop |- * by lia.
  exists (pos + zlen ib + w), (zlen p). split; [|split; [lia|]].
  - apply ParseElementHeader_element; auto; try lia. eapply serves_app_l; eauto.
  - rewrite (UnserializeUInt_payload r _ p v P).
    + f_equal. apply sint64_small. destruct Hv as (_ & Hu & _). unfold is_u64 in Hu.
      change (2 ^ 63) with 9223372036854775808 in Hbig. lia.
    + apply serves_app_r in Hs'. rewrite zlen_app, vint_zlen in Hs' by lia.
      rewrite Z.add_assoc in Hs'. exact Hs'.
Qed.

Lemma GetUIntLength_vint : forall r pos w v rest, r_total r = -1 \/ r_avail r <= r_total r ->
  vint_fits w v -> serves r pos (vint w v ++ rest) -> pos < r_avail r -> GetUIntLength r pos = (0, w).
Proof.
  intros r pos w v rest Ht [Hw Hv] Hs Hav. pose proof Hs as [Hp _].
  destruct (vint_cons w v Hw ltac:(lia)) as [E Hhi].
  unfold GetUIntLength. destruct (Z.ltb_spec pos 0); [lia|].
  assert (C : (r_total r >=? 0) && (r_avail r >? r_total r) = false).
  { destruct (Z.geb_spec (r_total r) 0), (Z.gtb_spec (r_avail r) (r_total r)); auto; lia. }
  rewrite C. destruct (Z.geb_spec pos (r_avail r)); [lia|].
  rewrite E in Hs. cbn [app] in Hs. rewrite (serves_byte _ _ _ _ Hs).
  set (hi := v / 2 ^ (8 * (w - 1))) in *.
  pose proof (pow2_pos (8 - w) ltac:(lia)) as Hq.
  assert (B : 2 ^ (8 - w) <= 2 ^ 7) by (apply Z.pow_le_mono_r; lia). change (2 ^ 7) with 128 in B.
  destruct (Z.eqb_spec (2 ^ (8 - w) + hi) 0); [lia|].
  destruct (marker_scan_spec (2 ^ (8 - w) + hi) ltac:(lia)) as (len & Em & Hl & Hr & Hm).
  rewrite Em. cbn [snd]. assert (8 - len = 8 - w); [|f_equal; lia].
  eapply pow_unique with (x := 2 ^ (8 - w) + hi); lia.
Qed.

Lemma write_positive_status : exists s s', good (mkW (w_file s) (w_pos s) (w_seekable s) []) /\
  ~ no_fail s /\ WriteEbmlElementUInt 0xE7 5 s = Val (true, s') /\
  w_file s' <> w_file s ++ op_bytes (OpUInt 0xE7 5 0).
Proof.
  exists (mkW [] 0 true [WFail 1 0]). eexists. split; [|split; [|split]].
  - unfold good; cbn. split; [unfold zlen; cbn; lia|constructor].
  - intros H. inversion H as [|x y H1 H2]. discriminate H1.
  - vm_compute. reflexivity.
  - vm_compute. discriminate.
Qed.

Lemma void_zero : forall f, exists s', WriteVoidElement 0 (fresh_writer f) = Val (0, s') /\
  w_file s' = f ++ [0xEC].
Proof.
  intros f. assert (E : emits_st (WriteID kMkvVoid) [0xEC]) by apply emits_WriteID.
  destruct (fresh_emits _ _ _ _ _ f E) as (r & s' & E1 & HG & F). unfold st_ok in HG. subst r.
  exists s'. split; auto. unfold WriteVoidElement.
  change (wrap64 (0 - 1 - GetCodedUIntSize (wrap64 (0 - 1)))) with 18446744073709551607.
  change (wrap64 (EbmlMasterElementSize kMkvVoid 18446744073709551607 + 18446744073709551607)) with 0.
  cbn [Z.eqb negb]. unfold w_position, bind at 1. cbn [fresh_writer w_pos].
  pose proof (zlen_nonneg _ f). destruct (Z.ltb_spec (zlen f) 0); [lia|].
  unfold check_status at 1, bind at 1. rewrite E1. cbn [Z.eqb].
  unfold check_status at 1, bind at 1. rewrite WriteUInt_too_big by (vm_compute; reflexivity).
  reflexivity.
Qed.

Lemma ReadUInt_size : forall r pos w v rest, vint_fits w v ->
  serves r pos (vint w v ++ rest) -> ReadUInt r pos = (v, w).
Proof.
  intros r pos w v rest [Hw Hv] Hs. apply ReadUInt_vint; auto; [lia|].
  eapply serves_app_l; eauto.
Qed.

Lemma WriteUIntSize_spec : forall v size, is_u64 v -> 1 <= size <= 8 ->
  (vint_fits size v -> emits_st (WriteUIntSize v size) (vint size v)) /\
  (~ vint_fits size v -> forall s, WriteUIntSize v size s = Val (-1, s)).
Proof.
  intros v size Hv Hs. split; intros H.
  - apply emits_WriteUIntSize; auto.
  - intros s. apply WriteUIntSize_misfit; auto. unfold is_u64 in Hv. lia.
Qed.

Lemma ID_roundtrip : forall w id, id_width w id ->
  emits_st (WriteID id) (be_bytes (Z.to_nat w) id) /\
  forall r pos rest, serves r pos (be_bytes (Z.to_nat w) id ++ rest) -> ReadID r pos = (id, w).
Proof.
  intros w id H. split.
  - rewrite <- (id_width_GetUIntSize w id H). apply emits_WriteID.
  - intros r pos rest Hs. apply ReadID_bytes; auto. eapply serves_app_l; eauto.
Qed.

Lemma uint_alias : forall r pos, let p := op_payload (OpUInt 0xE7 (2 ^ 64 - 2) 0) in
  serves r pos p -> UnserializeUInt r pos (zlen p) = Val E_FILE_FORMAT_INVALID.
Proof.
  intros r pos p Hs. assert (V : op_valid (OpUInt 0xE7 (2 ^ 64 - 2) 0)).
  { split; [exists 1; unfold id_width; cbn; lia|]. unfold is_u64. cbn. lia. }
  destruct (elem_op_correct _ V) as (_ & _ & _ & P & _). fold p in P.
  rewrite (UnserializeUInt_payload r pos p _ P Hs). reflexivity.
Qed.

Lemma void_128_possible : is_element kMkvVoid (repeat 0 126) (e_buf kMkvVoid (repeat 0 126)) /\
  zlen (e_buf kMkvVoid (repeat 0 126)) = 128.
Proof.
  split; [|reflexivity]. apply e_buf_element; [exists 1; unfold id_width, kMkvVoid; cbn; lia|].
  cbn. lia.
Qed.

Lemma void_written : forall size, 2 <= size < 2 ^ 31 -> void_gap size = false ->
  exists n, let bs := e_buf kMkvVoid (repeat 0 n) in
    is_element kMkvVoid (repeat 0 n) bs /\ zlen bs = size /\ emits_sz (WriteVoidElement size) bs.
Proof.
  intros size Hs Hg. destruct (emits_WriteVoidElement size Hs Hg) as [E L].
  exists (Z.to_nat (size - 1 - GetCodedUIntSize (size - 1))). cbv zeta.
  split; [|split; auto].
  apply e_buf_element; [exists 1; unfold id_width, kMkvVoid; cbn; lia|].
  unfold zlen. rewrite repeat_length. pose proof (void_entry_nonneg size Hs).
  change (2 ^ 56) with 72057594037927936. lia.
Qed.

Lemma WriteUIntSize0_ub_ex : exists v, is_u64 v /\ forall s, WriteUIntSize v 0 s = UB.
Proof.
  exists (2 ^ 56). split; [unfold is_u64; cbn; lia|].
  intros s. apply WriteUIntSize0_ub. reflexivity.
Qed.

Lemma uint_alias_ex : exists v, is_u64 v /\
  forall r pos, let p := op_payload (OpUInt 0xE7 v 0) in
  serves r pos p -> UnserializeUInt r pos (zlen p) = Val E_FILE_FORMAT_INVALID.
Proof. exists (2 ^ 64 - 2). split; [unfold is_u64; cbn; lia|exact uint_alias]. Qed.

Lemma void_total_ex : exists size payload bs,
  is_element kMkvVoid payload bs /\ zlen bs = size /\ forall s, WriteVoidElement size s = Val (0, s).
Proof.
  destruct void_128_possible as [A B]. exists 128, (repeat 0 126), (e_buf kMkvVoid (repeat 0 126)).
  split; [exact A|]. split; [exact B|]. intros s. apply WriteVoidElement_gap; [lia|reflexivity].
Qed.
