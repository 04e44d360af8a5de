(* Proofs about MMuxBlock.v. *)
From Coq Require Import ZifyBool ZifyNat.
From Verif Require Import Base EbmlSpec MWriter WriterSpec MMuxUtil PWriter PMuxUtil.
From Verif Require Import LacingSpec MMuxBlock BlockSpec Ids.

Definition content_bytes (f : frame) (rel flags : Z) : list Z :=
  size_bytes (fr_track f) ++ be_bytes 2 rel ++ be_bytes 1 flags ++ fr_data f.

Lemma content_zlen : forall f rel flags, 1 <= fr_track f <= 126 ->
  zlen (content_bytes f rel flags) = 4 + zlen (fr_data f).
Proof.
  intros f rel flags H. unfold content_bytes. rewrite !zlen_app, size_bytes_zlen, !be_bytes_zlen.
  rewrite GetCodedUIntSize_small by lia. lia.
Qed.

Lemma content_spec : forall f rel flags, 1 <= fr_track f <= 126 -> 0 <= rel <= 32767 ->
  (flags = 0 \/ flags = 128) -> fr_data f <> [] ->
  block_content (fr_track f) rel flags LNone [fr_data f] (content_bytes f rel flags).
Proof.
  intros f rel flags HT HR HF HD. exists 1, []. split; [lia|]. split; [change (2 ^ (7 * 1)) with 128; lia|].
  split; [lia|]. split; [unfold is_byte; lia|]. split; [destruct HF as [->| ->]; reflexivity|].
  split; [constructor; [auto|constructor]|]. split; [constructor|].
  unfold content_bytes, size_bytes. rewrite GetCodedUIntSize_small by lia.
  cbn [concat app]. rewrite app_nil_r. destruct HF as [->| ->]; reflexivity.
Qed.

(* ---------- SimpleBlock ---------- *)

Definition simple_flags (f : frame) : Z := if fr_is_key f then 128 else 0.
Definition simple_bytes (f : frame) (rel : Z) : list Z :=
  e_buf kMkvSimpleBlock (content_bytes f rel (simple_flags f)).

Lemma vid1 : forall id, 128 <= id < 256 -> valid_id id.
Proof. intros id H. exists 1. unfold id_width. change (2 ^ (7 * 1)) with 128. change (2 ^ (7 * 1 + 1)) with 256. lia. Qed.
Lemma vid2 : forall id, 16384 <= id < 32768 -> valid_id id.
Proof. intros id H. exists 2. unfold id_width. change (2 ^ (7 * 2)) with 16384. change (2 ^ (7 * 2 + 1)) with 32768. lia. Qed.
Lemma vid3 : forall id, 2097152 <= id < 4194304 -> valid_id id.
Proof. intros id H. exists 3. unfold id_width. change (2 ^ (7 * 3)) with 2097152. change (2 ^ (7 * 3 + 1)) with 4194304. lia. Qed.
Lemma vid4 : forall id, 268435456 <= id < 536870912 -> valid_id id.
Proof. intros id H. exists 4. unfold id_width. change (2 ^ (7 * 4)) with 268435456. change (2 ^ (7 * 4 + 1)) with 536870912. lia. Qed.
Ltac vid := first [apply vid1; cbv; split; congruence | apply vid2; cbv; split; congruence
                  | apply vid3; cbv; split; congruence | apply vid4; cbv; split; congruence].

Lemma emits_WriteSimpleBlock : forall f rel, frame_ok f -> 0 <= rel <= 32767 ->
  emits_sz (WriteSimpleBlock f rel) (simple_bytes f rel).
Proof.
  intros f rel (HB & HL & HA & HI & HD & HT & HTS & HDP & HR) Hrel. unfold emits_sz, WriteSimpleBlock.
  assert (EL : zlen (simple_bytes f rel) =
    wrap64 (GetUIntSize kMkvSimpleBlock + GetCodedUIntSize (zlen (fr_data f) + 4) + 4 + zlen (fr_data f))).
  { unfold simple_bytes. rewrite e_buf_zlen.
    - unfold EbmlElementSizeBuf. rewrite content_zlen by lia. f_equal. rewrite (Z.add_comm 4). lia.
    - rewrite content_zlen by lia. unfold INT_MAX in HL. change (2 ^ 56) with 72057594037927936. lia. }
  rewrite EL. unfold simple_bytes, e_buf. rewrite content_zlen by lia. unfold content_bytes.
  unfold INT_MAX in HL. rewrite sint32_small by lia. unfold add_s32, INT_MIN, INT_MAX.
  replace ((-2147483648 <=? zlen (fr_data f) + 4) && (zlen (fr_data f) + 4 <=? 2147483647)) with true by lia.
  rewrite (wrap64_small (zlen (fr_data f) + 4)) by lia. rewrite (Z.add_comm 4 (zlen (fr_data f))).
  apply emits_check_status; [apply emits_WriteID|reflexivity|].
  apply emits_check_status; [apply emits_WriteUInt; change (2 ^ 56) with 72057594037927936; lia|reflexivity|].
  apply emits_check_status; [apply emits_WriteUInt; change (2 ^ 56) with 72057594037927936; lia|reflexivity|].
  apply emits_check_status; [apply (emits_SerializeInt rel 2); lia|reflexivity|].
  apply emits_check_status; [apply (emits_SerializeInt (simple_flags f) 1); lia|reflexivity|].
  apply (emits_eq _ _ _ _ _ _ (app_nil_r (fr_data f))).
  apply emits_check_status; [apply emits_write_u32; lia|reflexivity|].
  apply emits_ret. reflexivity.
Qed.

Lemma simple_bytes_spec : forall f rel, frame_ok f -> 0 <= rel <= 32767 ->
  is_simple_block f rel (simple_bytes f rel).
Proof.
  intros f rel (HB & HL & HA & HI & HD & HT & HTS & HDP & HR) Hrel. exists (content_bytes f rel (simple_flags f)).
  unfold INT_MAX in HL.
  split.
  - apply e_buf_element; [vid|]. rewrite content_zlen by lia. change (2 ^ 56) with 72057594037927936. lia.
  - apply content_spec; auto. unfold simple_flags; destruct (fr_is_key f); auto.
    intros E. rewrite E, zlen_nil in HL. lia.
Qed.

(* ---------- BlockGroup ---------- *)

Definition more_payload (f : frame) (a : list Z) : list Z :=
  e_uint kMkvBlockAddID (fr_add_id f) ++ e_buf kMkvBlockAdditional a.
Definition additions_payload (f : frame) (a : list Z) : list Z := e_buf kMkvBlockMore (more_payload f a).
Definition adds_bytes (f : frame) : list Z :=
  match fr_additional f with None => [] | Some a => e_buf kMkvBlockAdditions (additions_payload f a) end.
Definition disc_bytes (f : frame) : list Z :=
  if negb (fr_discard f =? 0) then e_int kMkvDiscardPadding (fr_discard f) else [].
Definition ref_bytes (f : frame) (scale : Z) : list Z :=
  if negb (fr_is_key f) then e_uint kMkvReferenceBlock (wrap64 (fr_ref f) / scale) else [].
Definition dur_bytes (f : frame) (scale : Z) : list Z :=
  if fr_duration f / scale >? 0 then e_uint kMkvBlockDuration (fr_duration f / scale) else [].
Definition group_payload (f : frame) (rel scale : Z) : list Z :=
  e_buf kMkvBlock (content_bytes f rel 0) ++ adds_bytes f ++ disc_bytes f ++ ref_bytes f scale ++ dur_bytes f scale.
Definition group_bytes (f : frame) (rel scale : Z) : list Z := e_buf kMkvBlockGroup (group_payload f rel scale).

(* crude bounds that keep every size computation far away from 2^56 *)
Lemma e_buf_zlen' : forall id bs, zlen (e_buf id bs) = GetUIntSize id + GetCodedUIntSize (zlen bs) + zlen bs.
Proof. intros. unfold e_buf. rewrite !zlen_app, id_bytes_zlen, size_bytes_zlen. lia. Qed.
Lemma e_uint_zlen' : forall id v, zlen (e_uint id v) = GetUIntSize id + 1 + GetUIntSize v.
Proof.
  intros. unfold e_uint, e_uintf. pose proof (GetUIntSize_range v).
  rewrite !zlen_app, id_bytes_zlen, size_bytes_zlen, be_bytes_zlen, GetCodedUIntSize_small by lia. lia.
Qed.
Lemma e_int_zlen' : forall id v, zlen (e_int id v) = GetUIntSize id + 1 + GetIntSize v.
Proof.
  intros. unfold e_int. pose proof (GetIntSize_range v).
  rewrite !zlen_app, id_bytes_zlen, size_bytes_zlen, be_bytes_zlen, GetCodedUIntSize_small by lia. lia.
Qed.
Lemma e_uint_bound : forall id v, 3 <= zlen (e_uint id v) <= 17.
Proof. intros. rewrite e_uint_zlen'. pose proof (GetUIntSize_range v). pose proof (GetUIntSize_range id). lia. Qed.
Lemma e_int_bound : forall id v, 3 <= zlen (e_int id v) <= 17.
Proof. intros. rewrite e_int_zlen'. pose proof (GetIntSize_range v). pose proof (GetUIntSize_range id). lia. Qed.
Lemma e_buf_bound : forall id bs, 2 + zlen bs <= zlen (e_buf id bs) <= 16 + zlen bs.
Proof. intros. rewrite e_buf_zlen'. pose proof (GetCodedUIntSize_range (zlen bs)). pose proof (GetUIntSize_range id). lia. Qed.

Lemma disc_bound : forall f, 0 <= zlen (disc_bytes f) <= 17.
Proof. intros. unfold disc_bytes. destruct (negb (fr_discard f =? 0)); [pose proof (e_int_bound kMkvDiscardPadding (fr_discard f)); lia|rewrite zlen_nil; lia]. Qed.
Lemma ref_bound : forall f s, 0 <= zlen (ref_bytes f s) <= 17.
Proof. intros. unfold ref_bytes. destruct (negb (fr_is_key f)); [pose proof (e_uint_bound kMkvReferenceBlock (wrap64 (fr_ref f) / s)); lia|rewrite zlen_nil; lia]. Qed.
Lemma dur_bound : forall f s, 0 <= zlen (dur_bytes f s) <= 17.
Proof. intros. unfold dur_bytes. destruct (fr_duration f / s >? 0); [pose proof (e_uint_bound kMkvBlockDuration (fr_duration f / s)); lia|rewrite zlen_nil; lia]. Qed.
Lemma more_bound : forall f a, zlen (more_payload f a) <= 33 + zlen a.
Proof.
  intros. unfold more_payload. rewrite zlen_app. pose proof (e_uint_bound kMkvBlockAddID (fr_add_id f)).
  pose proof (e_buf_bound kMkvBlockAdditional a). lia.
Qed.
Lemma additions_bound : forall f a, zlen (additions_payload f a) <= 49 + zlen a.
Proof.
  intros. unfold additions_payload. pose proof (e_buf_bound kMkvBlockMore (more_payload f a)).
  pose proof (more_bound f a). lia.
Qed.
Lemma adds_bound : forall f, frame_ok f -> 0 <= zlen (adds_bytes f) <= 2 ^ 33.
Proof.
  intros f (_ & _ & HA & _). unfold adds_bytes. destruct (fr_additional f) as [a|]; [|rewrite zlen_nil; lia].
  pose proof (e_buf_bound kMkvBlockAdditions (additions_payload f a)). pose proof (additions_bound f a).
  pose proof (zlen_nonneg _ (additions_payload f a)).
  change (2 ^ 32) with 4294967296 in HA. change (2 ^ 33) with 8589934592. lia.
Qed.
Lemma group_bound : forall f rel s, frame_ok f -> zlen (group_payload f rel s) <= 2 ^ 34.
Proof.
  intros f rel s H. unfold group_payload. rewrite !zlen_app.
  pose proof (e_buf_bound kMkvBlock (content_bytes f rel 0)). pose proof (adds_bound f H). pose proof (disc_bound f).
  pose proof (ref_bound f s). pose proof (dur_bound f s). destruct H as (HB & HL & HA & HI & HD & HT & _).
  rewrite content_zlen in * by lia. unfold INT_MAX in HL. change (2 ^ 33) with 8589934592 in *. change (2 ^ 34) with 17179869184. lia.
Qed.

Lemma wrap64_eq : forall a b, a = b -> 0 <= b < 18446744073709551616 -> wrap64 a = b.
Proof. intros a b -> H. apply wrap64_small. exact H. Qed.

Lemma master_plus : forall id bs, zlen bs < 2 ^ 56 ->
  wrap64 (EbmlMasterElementSize id (zlen bs) + zlen bs) = zlen (e_buf id bs).
Proof.
  intros id bs H. change (2 ^ 56) with 72057594037927936 in H. apply wrap64_eq.
  - rewrite e_buf_zlen'. reflexivity.
  - pose proof (e_buf_bound id bs). pose proof (zlen_nonneg _ bs). lia.
Qed.

Lemma additions_sizes_spec : forall f, frame_ok f ->
  additions_sizes f = match fr_additional f with
                      | None => (0, 0, 0)
                      | Some a => (zlen (more_payload f a), zlen (additions_payload f a), zlen (adds_bytes f))
                      end.
Proof.
  intros f (_ & _ & HA & _). unfold additions_sizes, adds_bytes. destruct (fr_additional f) as [a|]; auto.
  change (2 ^ 32) with 4294967296 in HA.
  assert (E1 : wrap64 (EbmlElementSizeUInt kMkvBlockAddID (fr_add_id f) + EbmlElementSizeBuf kMkvBlockAdditional a)
               = zlen (more_payload f a)).
  { unfold more_payload. rewrite zlen_app, e_uint_zlen, e_buf_zlen by (change (2 ^ 56) with 72057594037927936; lia).
    apply wrap64_small. rewrite <- e_uint_zlen, <- e_buf_zlen by (change (2 ^ 56) with 72057594037927936; lia).
    pose proof (e_uint_bound kMkvBlockAddID (fr_add_id f)). pose proof (e_buf_bound kMkvBlockAdditional a). lia. }
  rewrite E1. pose proof (more_bound f a). pose proof (additions_bound f a).
  rewrite master_plus by (change (2 ^ 56) with 72057594037927936; lia).
  fold (additions_payload f a).
  rewrite master_plus by (change (2 ^ 56) with 72057594037927936; lia). reflexivity.
Qed.

Lemma is_u64_div : forall a s, 0 <= a < 18446744073709551616 -> 1 <= s -> is_u64 (a / s).
Proof.
  intros a s H Hs. unfold is_u64. split; [apply Z.div_pos; lia|].
  apply Z.le_lt_trans with a; [|lia]. apply Z.div_le_upper_bound; nia.
Qed.

Lemma emits_WriteBlock : forall f rel scale, frame_ok f -> 0 <= rel <= 32767 -> 1 <= scale ->
  emits_sz (WriteBlock f rel scale) (group_bytes f rel scale).
Proof.
  intros f rel scale Hok Hrel Hs. pose proof (group_bound f rel scale Hok) as HG.
  pose proof (adds_bound f Hok) as HAB. pose proof (disc_bound f) as HDB. pose proof (ref_bound f scale) as HRB.
  pose proof (dur_bound f scale) as HUB.
  unfold emits_sz, WriteBlock. rewrite additions_sizes_spec by auto.
  pose proof Hok as Hok'. destruct Hok' as (HB & HL & HA & HI & HD & HT & HTS & HDP & HR). unfold INT_MAX in HL.
  change (2 ^ 32) with 4294967296 in HA. change (2 ^ 33) with 8589934592 in HAB. change (2 ^ 34) with 17179869184 in HG.
  assert (EP : wrap64 (4 + zlen (fr_data f)) = zlen (content_bytes f rel 0)).
  { rewrite content_zlen by lia. apply wrap64_small. lia. }
  assert (EBl : wrap64 (EbmlMasterElementSize kMkvBlock (zlen (content_bytes f rel 0)) + zlen (content_bytes f rel 0))
               = zlen (e_buf kMkvBlock (content_bytes f rel 0))).
  { apply master_plus. rewrite content_zlen by lia. change (2 ^ 56) with 72057594037927936. lia. }
  set (add_sz := match fr_additional f with
                 | Some a => (zlen (more_payload f a), zlen (additions_payload f a), zlen (adds_bytes f))
                 | None => (0, 0, 0) end).
  assert (EA : snd add_sz = zlen (adds_bytes f)).
  { unfold add_sz, adds_bytes. destruct (fr_additional f); reflexivity. }
  destruct add_sz as [[ms ps] es] eqn:Eadd. cbn [snd] in EA. subst es.
  assert (ED : (if negb (fr_discard f =? 0) then EbmlElementSizeInt kMkvDiscardPadding (fr_discard f) else 0) = zlen (disc_bytes f)).
  { unfold disc_bytes. destruct (negb (fr_discard f =? 0)); [symmetry; apply e_int_zlen|reflexivity]. }
  assert (ER : (if negb (fr_is_key f) then EbmlElementSizeUInt kMkvReferenceBlock (wrap64 (fr_ref f) / scale) else 0) = zlen (ref_bytes f scale)).
  { unfold ref_bytes. destruct (negb (fr_is_key f)); [symmetry; apply e_uint_zlen|reflexivity]. }
  assert (EU : (if fr_duration f / scale >? 0 then EbmlElementSizeUInt kMkvBlockDuration (fr_duration f / scale) else 0) = zlen (dur_bytes f scale)).
  { unfold dur_bytes. destruct (fr_duration f / scale >? 0); [symmetry; apply e_uint_zlen|reflexivity]. }
  cbv zeta. rewrite EP, EBl, ED, ER, EU.
  assert (EG : wrap64 (zlen (e_buf kMkvBlock (content_bytes f rel 0)) + zlen (adds_bytes f) + zlen (dur_bytes f scale)
                       + zlen (disc_bytes f) + zlen (ref_bytes f scale)) = zlen (group_payload f rel scale)).
  { apply wrap64_eq; [unfold group_payload; rewrite !zlen_app; lia|]. pose proof (zlen_nonneg _ (group_payload f rel scale)). lia. }
  rewrite EG. rewrite master_plus by (change (2 ^ 56) with 72057594037927936; lia). fold (group_bytes f rel scale).
  set (total := zlen (group_bytes f rel scale)).
  unfold group_bytes, e_buf at 1. rewrite app_assoc. fold (e_master kMkvBlockGroup (zlen (group_payload f rel scale))).
  apply emits_check_true; [apply emits_WriteEbmlMasterElement; pose proof (zlen_nonneg _ (group_payload f rel scale)); change (2 ^ 56) with 72057594037927936; lia|reflexivity|].
  unfold group_payload at 1. unfold e_buf at 1. rewrite <- !app_assoc, (app_assoc (id_bytes kMkvBlock)).
  fold (e_master kMkvBlock (zlen (content_bytes f rel 0))).
  apply emits_check_true; [apply emits_WriteEbmlMasterElement; rewrite content_zlen by lia; change (2 ^ 56) with 72057594037927936; lia|reflexivity|].
  unfold content_bytes at 1. rewrite <- !app_assoc.
  apply emits_check_status; [apply emits_WriteUInt; change (2 ^ 56) with 72057594037927936; lia|reflexivity|].
  apply emits_check_status; [apply (emits_SerializeInt rel 2); lia|reflexivity|].
  apply emits_check_status; [apply (emits_SerializeInt 0 1); lia|reflexivity|].
  apply emits_check_status; [apply emits_write_u32; lia|reflexivity|].
  apply emits_check_true; [|reflexivity|].
  { unfold adds_bytes. unfold add_sz in Eadd. destruct (fr_additional f) as [a|] eqn:Ea; [|apply emits_true].
    injection Eadd as <- <-. pose proof (more_bound f a). pose proof (additions_bound f a).
    pose proof (zlen_nonneg _ (more_payload f a)). pose proof (zlen_nonneg _ (additions_payload f a)).
    unfold e_buf at 1. rewrite app_assoc. fold (e_master kMkvBlockAdditions (zlen (additions_payload f a))).
    apply emits_check_true; [apply emits_WriteEbmlMasterElement; change (2 ^ 56) with 72057594037927936; lia|reflexivity|].
    unfold additions_payload at 1, e_buf at 1. rewrite app_assoc. fold (e_master kMkvBlockMore (zlen (more_payload f a))).
    apply emits_check_true; [apply emits_WriteEbmlMasterElement; change (2 ^ 56) with 72057594037927936; lia|reflexivity|].
    unfold more_payload at 1.
    apply emits_check_true; [apply emits_WriteEbmlElementUInt|reflexivity|].
    apply (emits_eq _ _ _ _ _ _ (app_nil_r (e_buf kMkvBlockAdditional a))).
    apply emits_check_true; [apply emits_WriteEbmlElementBuf; lia|reflexivity|]. apply emits_true. }
  apply emits_check_true; [|reflexivity|].
  { unfold disc_bytes. destruct (negb (fr_discard f =? 0)); [apply emits_WriteEbmlElementInt|apply emits_true]. }
  apply emits_check_true; [|reflexivity|].
  { unfold ref_bytes. destruct (negb (fr_is_key f)); [apply emits_WriteEbmlElementUInt|apply emits_true]. }
  apply (emits_eq _ _ _ _ _ _ (app_nil_r (dur_bytes f scale))).
  apply emits_check_true; [|reflexivity|].
  { unfold dur_bytes. destruct (fr_duration f / scale >? 0); [apply emits_WriteEbmlElementUInt|apply emits_true]. }
  apply emits_ret. reflexivity.
Qed.

Lemma is_elements_app : forall a b x y, is_elements a x -> is_elements b y -> is_elements (a ++ b) (x ++ y).
Proof.
  intros a b x y H. induction H; cbn [app]; auto. intros Hy. rewrite <- app_assoc. constructor; auto.
Qed.
Lemma is_elements_1 : forall id p b, is_element id p b -> is_elements [(id, p)] b.
Proof. intros. rewrite <- (app_nil_r b). constructor; [assumption|constructor]. Qed.

Lemma group_bytes_spec : forall f rel scale, frame_ok f -> 0 <= rel <= 32767 -> 1 <= scale ->
  is_block_group f rel scale (group_bytes f rel scale).
Proof.
  intros f rel scale Hok Hrel Hs. pose proof (group_bound f rel scale Hok) as HG.
  pose proof Hok as (HB & HL & HA & HI & HD & HT & HTS & HDP & HR). unfold INT_MAX in HL.
  change (2 ^ 32) with 4294967296 in HA.
  exists (group_payload f rel scale), (content_bytes f rel 0),
    (match fr_additional f with None => [] | Some a => [(kMkvBlockAdditions, additions_payload f a)] end),
    (if negb (fr_discard f =? 0) then [(kMkvDiscardPadding, be_bytes (Z.to_nat (GetIntSize (fr_discard f))) (fr_discard f))] else []),
    (if negb (fr_is_key f) then [(kMkvReferenceBlock, be_bytes (Z.to_nat (GetUIntSize (wrap64 (fr_ref f) / scale))) (wrap64 (fr_ref f) / scale))] else []),
    (if 0 <? fr_duration f / scale then [(kMkvBlockDuration, be_bytes (Z.to_nat (GetUIntSize (fr_duration f / scale))) (fr_duration f / scale))] else []).
  assert (HR64 : is_u64 (wrap64 (fr_ref f) / scale)).
  { apply is_u64_div; auto. unfold wrap64. apply Z.mod_pos_bound. lia. }
  assert (HD64 : is_u64 (fr_duration f / scale)) by (apply is_u64_div; auto).
  split; [|split; [|split; [|split; [|split; [|split]]]]].
  - apply e_buf_element; [vid|]. change (2 ^ 34) with 17179869184 in HG. change (2 ^ 56) with 72057594037927936. lia.
  - apply content_spec; auto. intros E. rewrite E, zlen_nil in HL. lia.
  - destruct (fr_additional f) as [a|]; auto. exists (additions_payload f a). split; [|reflexivity].
    exists (more_payload f a), (be_bytes (Z.to_nat (GetUIntSize (fr_add_id f))) (fr_add_id f)). split; [|split].
    + apply e_buf_element; [vid|]. pose proof (more_bound f a). change (2 ^ 56) with 72057594037927936. lia.
    + apply uint_payload_ok; auto. apply GetUIntSize_range. lia.
    + apply (is_elements_app [_] [_]); apply is_elements_1.
      * apply e_uintf_element; [vid|apply GetUIntSize_range].
      * apply e_buf_element; [vid|]. change (2 ^ 56) with 72057594037927936. lia.
  - unfold opt_child. destruct (negb _); [|reflexivity]. eexists. split; [|reflexivity].
    apply sint_payload_ok; auto. apply GetIntSize_range. lia.
  - unfold opt_child. destruct (negb _); [|reflexivity]. eexists. split; [|reflexivity].
    apply uint_payload_ok; auto. apply GetUIntSize_range. lia.
  - unfold opt_child. destruct (0 <? _); [|reflexivity]. eexists. split; [|reflexivity].
    apply uint_payload_ok; auto. apply GetUIntSize_range. lia.
  - unfold group_payload. apply (is_elements_app [_]).
    { apply is_elements_1. apply e_buf_element; [vid|]. rewrite content_zlen by lia. change (2 ^ 56) with 72057594037927936. lia. }
    apply is_elements_app.
    { unfold adds_bytes. destruct (fr_additional f) as [a|]; [|constructor]. apply is_elements_1. apply e_buf_element; [vid|].
      pose proof (additions_bound f a). change (2 ^ 56) with 72057594037927936. lia. }
    apply is_elements_app.
    { unfold disc_bytes. destruct (negb (fr_discard f =? 0)); [|constructor]. apply is_elements_1. apply e_int_element; vid. }
    apply is_elements_app.
    { unfold ref_bytes. destruct (negb (fr_is_key f)); [|constructor]. apply is_elements_1. apply e_uintf_element; [vid|apply GetUIntSize_range]. }
    { unfold dur_bytes. replace (fr_duration f / scale >? 0) with (0 <? fr_duration f / scale) by lia.
      destruct (0 <? _); [|constructor]. apply is_elements_1. apply e_uintf_element; [vid|apply GetUIntSize_range]. }
Qed.

(* ---------- WriteFrame ---------- *)

Definition frame_bytes (f : frame) (rel scale : Z) : list Z :=
  if CanBeSimpleBlock f then simple_bytes f rel else group_bytes f rel scale.

Lemma sint64_id : forall v, 0 <= v < 9223372036854775808 -> sint64 v = v.
Proof. intros v H. apply wraps_id; [lia|]. change (2 ^ (64 - 1)) with 9223372036854775808. lia. Qed.

Lemma GetRelativeTimecode_spec : forall ct t, 0 <= ct < 2 ^ 63 -> 0 <= t < 2 ^ 63 ->
  GetRelativeTimecode ct t = Val (if (0 <=? t - ct) && (t - ct <=? 32767) then t - ct else -1).
Proof.
  intros ct t Hc Ht. change (2 ^ 63) with 9223372036854775808 in *. unfold GetRelativeTimecode.
  rewrite !sint64_id by lia. change (2 ^ 63) with 9223372036854775808. unfold kMaxBlockTimecode.
  replace ((t - ct <? - (9223372036854775808)) || (9223372036854775808 <=? t - ct)) with false by lia.
  destruct ((0 <=? t - ct) && (t - ct <=? 32767)) eqn:E.
  - replace ((t - ct <? 0) || (t - ct >? 32767)) with false by lia. reflexivity.
  - replace ((t - ct <? 0) || (t - ct >? 32767)) with true by lia. reflexivity.
Qed.

(* a frame the API accepts *)
Lemma IsValid_spec : forall f, frame_ok f ->
  IsValid f = negb (negb (CanBeSimpleBlock f) && negb (fr_is_key f) && negb (fr_ref_set f)).
Proof.
  intros f (HB & HL & HA & HI & HD & HT & HTS & HDP & HR). unfold IsValid, kMaxTrackNumber.
  replace (zlen (fr_data f) =? 0) with false by lia.
  replace (match fr_additional f with Some a => zlen a =? 0 | None => false end) with false.
  2:{ destruct (fr_additional f); auto. lia. }
  replace ((fr_track f =? 0) || (fr_track f >? 126)) with false by lia.
  destruct (negb (CanBeSimpleBlock f) && negb (fr_is_key f) && negb (fr_ref_set f)); reflexivity.
Qed.

Theorem emits_WriteFrame : forall f ct scale, frame_ok f -> IsValid f = true ->
  0 <= ct < 2 ^ 63 -> 1 <= scale -> 0 <= frame_rel f ct scale <= 32767 ->
  emits_sz (WriteFrame f ct scale) (frame_bytes f (frame_rel f ct scale) scale).
Proof.
  intros f ct scale Hok HV Hct Hs Hrel. unfold WriteFrame. rewrite HV. cbn [negb orb].
  replace (scale =? 0) with false by lia. unfold frame_rel in *.
  assert (HT : 0 <= fr_timestamp f / scale < 2 ^ 63).
  { destruct Hok as (_ & _ & _ & _ & _ & _ & HTS & _). split; [apply Z.div_pos; lia|]. apply Z.le_lt_trans with (fr_timestamp f); [|lia]. apply Z.div_le_upper_bound; nia. }
  rewrite GetRelativeTimecode_spec by auto. set (rel := fr_timestamp f / scale - ct) in *.
  replace ((0 <=? rel) && (rel <=? 32767)) with true by lia. unfold kMaxBlockTimecode.
  replace ((rel <? 0) || (rel >? 32767)) with false by lia. unfold frame_bytes.
  destruct (CanBeSimpleBlock f).
  - apply emits_WriteSimpleBlock; auto.
  - apply emits_WriteBlock; auto.
Qed.

Theorem WriteFrame_refused : forall f ct scale s, frame_ok f -> 0 <= ct < 2 ^ 63 -> 1 <= scale ->
  IsValid f = false \/ ~ (0 <= frame_rel f ct scale <= 32767) ->
  WriteFrame f ct scale s = Val (0, s).
Proof.
  intros f ct scale s Hok Hct Hs H. unfold WriteFrame. destruct (IsValid f) eqn:EV; [|reflexivity].
  destruct H as [H|H]; [discriminate|]. cbn [negb orb]. replace (scale =? 0) with false by lia. unfold frame_rel in *.
  assert (HT : 0 <= fr_timestamp f / scale < 2 ^ 63).
  { destruct Hok as (_ & _ & _ & _ & _ & _ & HTS & _). split; [apply Z.div_pos; lia|]. apply Z.le_lt_trans with (fr_timestamp f); [|lia]. apply Z.div_le_upper_bound; nia. }
  rewrite GetRelativeTimecode_spec by auto. set (rel := fr_timestamp f / scale - ct) in *.
  replace ((0 <=? rel) && (rel <=? 32767)) with false by lia. reflexivity.
Qed.

Theorem frame_bytes_spec : forall f rel scale, frame_ok f -> 0 <= rel <= 32767 -> 1 <= scale ->
  if CanBeSimpleBlock f then is_simple_block f rel (frame_bytes f rel scale)
  else is_block_group f rel scale (frame_bytes f rel scale).
Proof.
  intros. unfold frame_bytes. destruct (CanBeSimpleBlock f); [apply simple_bytes_spec|apply group_bytes_spec]; auto.
Qed.

(* A simple block of 2^31-4 to 2^31-1 bytes overflows an int32 (undefined
   behaviour) after the ID has been written. *)
Lemma WriteFrame_huge : forall f, fr_additional f = None -> fr_discard f = 0 -> fr_duration f = 0 ->
  1 <= fr_track f <= 126 -> fr_timestamp f = 0 -> INT_MAX - 4 < zlen (fr_data f) <= INT_MAX ->
  WriteFrame f 0 1000000 (mkW [] 0 true []) = UB.
Proof.
  intros f HA HD HU HT HS HL. unfold INT_MAX in HL.
  assert (HC : CanBeSimpleBlock f = true) by (unfold CanBeSimpleBlock; rewrite HA, HD, HU; reflexivity).
  unfold WriteFrame, IsValid, kMaxTrackNumber. rewrite HC, HA. cbn [negb andb].
  replace (zlen (fr_data f) =? 0) with false by lia.
  replace ((fr_track f =? 0) || (fr_track f >? 126)) with false by lia. cbn [negb orb].
  change (1000000 =? 0) with false. cbn iota. rewrite HS.
  change (GetRelativeTimecode 0 (0 / 1000000)) with (Val 0). cbn iota.
  change ((0 <? 0) || (0 >? kMaxBlockTimecode)) with false. cbn iota.
  unfold WriteSimpleBlock.
  replace (add_s32 (sint32 (zlen (fr_data f))) 4) with (@UB Z).
  2:{ rewrite sint32_small by lia. unfold add_s32, INT_MAX, INT_MIN. replace ((-2147483648 <=? zlen (fr_data f) + 4) && (zlen (fr_data f) + 4 <=? 2147483647)) with false by lia. reflexivity. }
  unfold check_status. reflexivity.
Qed.
