(* The metadata objects one by one: size functions and writers (C11). *)
From Coq Require Import ZifyBool ZifyNat.
From Verif Require Import Base EbmlSpec MWriter WriterSpec MMuxUtil PWriter PMuxUtil MFloat Ids MMuxMeta MetaSpec PMuxBlock PMeta.

Ltac rsplit :=
  repeat match goal with
  | H : representable (_ ++ _) |- _ => apply representable_app in H; destruct H
  | H : representable (_ :: ?t) |- _ =>
      lazymatch t with nil => fail | _ => apply representable_cons in H; destruct H end
  end.
Ltac encz :=
  unfold cong; f_equal; repeat rewrite ?enc_all_cons, ?enc_all_app, ?zlen_app;
  change (enc_all []) with (@nil Z); rewrite ?zlen_nil; cbn [zsum fold_right]; lia.
Ltac csum := eapply cong_trans; [apply size_sum_cong; repeat (apply Forall2_cons || apply Forall2_nil)|].
Ltac cpiece := first [apply c_uint | apply c_float | apply c_date | apply c_ocstr | apply c_optr | apply c_cstr
                      | apply c_ptr | apply c_buf | (apply c_opt; first [apply c_uint | apply c_float | apply c_date | apply c_buf])].
Ltac usize := first [apply size_sum_range | apply wrap64_range].

(* sequences: one write per tree or group of trees *)
Lemma ser_cons1 : forall v m r t ts, ser true m (enc t) -> ser v (write_seq r) (enc_all ts) ->
  ser v (write_seq (m :: r)) (enc_all (t :: ts)).
Proof. intros v m r t ts H1 H2. rewrite enc_all_cons. exact (ser_write_cons true v m r _ _ H1 H2). Qed.
Lemma ser_cons : forall v1 v2 m r a b, ser v1 m (enc_all a) -> ser v2 (write_seq r) (enc_all b) ->
  ser (v1 && v2) (write_seq (m :: r)) (enc_all (a ++ b)).
Proof. intros v1 v2 m r a b H1 H2. rewrite enc_all_app. exact (ser_write_cons v1 v2 m r _ _ H1 H2). Qed.
Lemma ser_cons_t : forall v m r a b, ser true m (enc_all a) -> ser v (write_seq r) (enc_all b) ->
  ser v (write_seq (m :: r)) (enc_all (a ++ b)).
Proof. intros v m r a b H1 H2. exact (ser_cons true v m r a b H1 H2). Qed.
Lemma ser_last : forall v m a, ser v m (enc_all a) -> ser v (write_seq [m]) (enc_all a).
Proof. intros. apply ser_one. assumption. Qed.
Lemma ser_nil : ser true (write_seq []) (enc_all []).
Proof. apply ser_ret_true. Qed.
Ltac swrite :=
  first [apply ser_nil
        | apply ser_cons1; [first [apply s_uint | apply s_float]|]
        | apply ser_cons_t; [first [apply s_opt; first [apply s_uint | apply s_float] | apply s_ocstr; assumption]|] ].

Lemma rep1 : forall t, representable [t] -> zlen (enc t) <= 72057594037927934.
Proof. intros t H. pose proof (representable_enc _ H) as K. rewrite enc_all_1 in K. exact K. Qed.
Lemma ser_all1 : forall v m t, ser v m (enc t) -> ser v m (enc_all [t]).
Proof. intros. rewrite enc_all_1. assumption. Qed.

(* ---------- EBML header ---------- *)

Lemma header_ser : forall version dt, representable [ebml_header_tree version dt] ->
  ser true (WriteEbmlHeader version dt) (enc (ebml_header_tree version dt)).
Proof.
  intros version dt H. pose proof (representable_kids _ _ H) as HK. unfold WriteEbmlHeader, ebml_header_tree.
  apply s_master_seq; [assumption| |].
  - apply size_is; [assumption|usize|]. unfold ebml_header_size. csum.
    1-4,6-7: cpiece. apply c_buf. encz.
  - rsplit. repeat swrite. apply ser_cons1; [|repeat swrite].
    pose proof (s_cstr kMkvDocType (Some dt)) as K. cbn [str present] in K. rewrite enc_all_1 in K. apply K. assumption.
Qed.

(* ---------- cues ---------- *)

Lemma gtb_ltb : forall a b, (a >? b) = (b <? a).
Proof. intros. apply Z.gtb_ltb. Qed.

Section Cue.
Variable c : cue_point.
Let pos_kids := uint kMkvCueTrack (cue_track c) :: uint kMkvCueClusterPosition (cue_cluster_pos c) ::
        opt (cue_output_block_number c && (1 <? cue_block_number c)) (uint kMkvCueBlockNumber (cue_block_number c)).
Let kids := [uint kMkvCueTime (cue_time c); Master kMkvCueTrackPositions pos_kids].

Lemma cue_pos_size : representable pos_kids -> cue_positions_size c = zlen (enc_all pos_kids).
Proof.
  intros H. apply size_is; [assumption|usize|]. unfold cue_positions_size. rewrite gtb_ltb. csum; try cpiece.
  unfold pos_kids. encz.
Qed.
Lemma cue_payload : representable kids -> CuePoint_PayloadSize c = zlen (enc_all kids).
Proof.
  intros H. apply size_is; [assumption|usize|]. unfold CuePoint_PayloadSize.
  assert (HP : representable pos_kids).
  { unfold kids in H. rsplit. eapply representable_kids; eassumption. }
  eapply cong_trans.
  - apply cong_wrap, cong_add; [apply c_uint|]. apply cong_wrap. apply c_master. apply cue_pos_size. assumption.
  - unfold kids. encz.
Qed.
Lemma cue_size : representable [cue_tree c] -> CuePoint_Size c = zlen (enc (cue_tree c)).
Proof.
  intros H. rewrite <- enc_all_1. apply size_is; [assumption|usize|]. rewrite enc_all_1.
  unfold CuePoint_Size. apply cong_wrap. apply c_master. apply cue_payload.
  eapply representable_kids. exact H.
Qed.
Lemma cue_ser : representable [cue_tree c] -> ser (cue_valid c) (CuePoint_Write c) (enc (cue_tree c)).
Proof.
  intros H. unfold CuePoint_Write, cue_valid.
  destruct ((cue_track c <? 1) || (cue_cluster_pos c <? 1)) eqn:E.
  - replace ((1 <=? cue_track c) && (1 <=? cue_cluster_pos c)) with false by lia. apply ser_ret_false.
  - replace ((1 <=? cue_track c) && (1 <=? cue_cluster_pos c)) with true by lia.
    pose proof (representable_kids _ _ H) as HK. fold pos_kids in HK. fold kids in HK.
    assert (HP : representable pos_kids) by (unfold kids in HK; rsplit; eapply representable_kids; eassumption).
    change (cue_tree c) with (Master kMkvCuePoint kids). apply s_master_seq; [assumption|apply cue_payload; assumption|].
    apply ser_last. pose proof (representable_enc _ HK) as HB. apply ser_checked.
    + unfold kids. swrite. rewrite enc_all_1. apply s_master_seq; [assumption|apply cue_pos_size; assumption|].
      unfold pos_kids. rewrite gtb_ltb. repeat swrite.
      apply ser_last. apply s_opt. apply s_uint.
    + apply cue_payload; assumption.
    + change (2 ^ 63) with 9223372036854775808. lia.
Qed.
End Cue.

Lemma size_sum_map : forall A (f : A -> Z) (g : A -> tree) l,
  (forall x, In x l -> f x = zlen (enc (g x))) -> cong (size_sum (map f l)) (zlen (enc_all (map g l))).
Proof.
  intros A f g l H. eapply cong_trans; [apply size_sum_zsum|]. unfold cong. f_equal.
  induction l as [|x l IH]; [reflexivity|]. cbn [map zsum fold_right]. rewrite enc_all_cons, zlen_app.
  rewrite H by (left; reflexivity). f_equal. apply IH. intros y Hy. apply H. right. assumption.
Qed.
Lemma size_sum_map_eq : forall A (f : A -> Z) (g : A -> tree) l, representable (map g l) ->
  (forall x, representable [g x] -> f x = zlen (enc (g x))) -> size_sum (map f l) = zlen (enc_all (map g l)).
Proof.
  intros A f g l HR H. apply size_is; [assumption|usize|]. apply size_sum_map. intros x Hx. apply H.
  eapply representable_in; eassumption.
Qed.
Lemma ser_map_trees : forall A (f : A -> W bool) (v : A -> bool) (g : A -> tree) l, representable (map g l) ->
  (forall x, representable [g x] -> ser (v x) (f x) (enc (g x))) ->
  ser (forallb v l) (write_seq (map f l)) (enc_all (map g l)).
Proof.
  intros A f v g l HR H. unfold enc_all. rewrite map_map. apply ser_write_map. intros x Hx. apply H.
  eapply representable_in; eassumption.
Qed.

Lemma cues_payload : forall l, representable (map cue_tree l) -> cues_payload_size l = zlen (enc_all (map cue_tree l)).
Proof. intros. apply size_sum_map_eq; [assumption|]. intros. apply cue_size. assumption. Qed.
Lemma cues_size : forall l, representable [cues_tree l] -> Cues_Size l = zlen (enc (cues_tree l)).
Proof.
  intros l H. rewrite <- enc_all_1. apply size_is; [assumption|usize|]. rewrite enc_all_1. unfold Cues_Size.
  apply cong_wrap. apply c_master'. apply cues_payload. eapply representable_kids. exact H.
Qed.
Lemma cues_ser : forall l, representable [cues_tree l] ->
  ser (forallb cue_valid l) (Cues_Write l) (enc (cues_tree l)).
Proof.
  intros l H. pose proof (representable_kids _ _ H) as HK. pose proof (representable_enc _ HK).
  apply s_master_seq; [assumption|apply cues_payload; assumption|]. apply ser_last. apply ser_checked.
  - apply ser_map_trees; [assumption|]. intros. apply cue_ser. assumption.
  - apply cues_payload; assumption.
  - change (2 ^ 63) with 9223372036854775808. lia.
Qed.

(* ---------- content encodings ---------- *)

Section Encoding.
Variable c : content_encoding.
Let aes_kids := [uint kMkvAESSettingsCipherMode (ce_cipher_mode c)].
Let enc_kids := uint kMkvContentEncAlgo (ce_enc_algo c) :: str kMkvContentEncKeyID (ce_key_id c) ++
        [Master kMkvContentEncAESSettings aes_kids].
Let kids := [uint kMkvContentEncodingOrder (ce_order c); uint kMkvContentEncodingScope (ce_scope c);
     uint kMkvContentEncodingType (ce_type c); Master kMkvContentEncryption enc_kids].

Lemma aes_payload : AES_PayloadSize c = zlen (enc_all aes_kids).
Proof. unfold AES_PayloadSize, aes_kids. rewrite enc_all_1. cbn [enc uint enc_leaf_bytes]. rewrite e_uint_zlen. reflexivity. Qed.
Lemma aes_size : representable [Master kMkvContentEncAESSettings aes_kids] ->
  AES_Size c = zlen (enc (Master kMkvContentEncAESSettings aes_kids)).
Proof.
  intros H. rewrite <- enc_all_1. apply size_is; [assumption|usize|]. rewrite enc_all_1. unfold AES_Size.
  apply cong_wrap, c_master, aes_payload.
Qed.
Lemma aes_ser : representable [Master kMkvContentEncAESSettings aes_kids] ->
  ser true (AES_Write c) (enc (Master kMkvContentEncAESSettings aes_kids)).
Proof.
  intros H. pose proof (representable_kids _ _ H) as HK. pose proof (representable_enc _ HK).
  apply s_master_seq; [assumption|apply aes_payload|]. apply ser_last. apply ser_checked.
  - unfold aes_kids. repeat swrite.
  - apply aes_payload.
  - change (2 ^ 63) with 9223372036854775808. lia.
Qed.
Lemma encryption_size : representable enc_kids -> EncryptionSize c = zlen (enc_all enc_kids).
Proof.
  intros H. apply size_is; [assumption|usize|]. unfold EncryptionSize.
  assert (HA : representable [Master kMkvContentEncAESSettings aes_kids]) by (unfold enc_kids in H; rsplit; assumption).
  eapply cong_trans.
  - apply cong_wrap, cong_add; [csum; try cpiece; apply cong_refl|]. rewrite (aes_size HA). apply cong_refl.
  - unfold enc_kids. encz.
Qed.
Lemma encoding_payload : representable kids -> EncodingSize c (EncryptionSize c) = zlen (enc_all kids).
Proof.
  intros H. apply size_is; [assumption|usize|]. unfold EncodingSize.
  assert (HE : representable enc_kids) by (unfold kids in H; rsplit; eapply representable_kids; eassumption).
  rewrite (encryption_size HE). assert (0 < zlen (enc_all enc_kids)).
  { unfold enc_kids. rewrite enc_all_cons, zlen_app. pose proof (enc_pos (uint kMkvContentEncAlgo (ce_enc_algo c))).
    match goal with |- 0 < _ + ?z => assert (0 <= z) by apply zlen_nonneg end. lia. }
  replace (zlen (enc_all enc_kids) >? 0) with true by lia. cbn [opt_sz].
  csum; [apply cong_wrap; apply (c_master _ _ enc_kids); reflexivity|cpiece|cpiece|cpiece|]. unfold kids. encz.
Qed.
Lemma encoding_size : representable [encoding_tree c] -> ContentEncoding_Size c = zlen (enc (encoding_tree c)).
Proof.
  intros H. rewrite <- enc_all_1. apply size_is; [assumption|usize|]. rewrite enc_all_1. unfold ContentEncoding_Size.
  apply cong_wrap. apply (c_master _ _ kids). apply encoding_payload. eapply representable_kids. exact H.
Qed.
Lemma encoding_ser : representable [encoding_tree c] ->
  ser (encoding_valid c) (ContentEncoding_Write c) (enc (encoding_tree c)).
Proof.
  intros H. pose proof (representable_kids _ _ H) as HK. fold aes_kids in HK. fold enc_kids in HK. fold kids in HK.
  assert (HE : representable enc_kids) by (unfold kids in HK; rsplit; eapply representable_kids; eassumption).
  pose proof (rep1 _ H) as HB. unfold ContentEncoding_Write. apply ser_checked.
  - change (encoding_tree c) with (Master kMkvContentEncoding kids). apply s_master_seq; [assumption|apply encoding_payload; assumption|].
    unfold kids. do 3 swrite. rewrite enc_all_1. apply s_master_seq; [assumption|apply encryption_size; assumption|].
    unfold enc_kids. swrite. unfold enc_kids in HE. rsplit.
    eapply ser_eq; [apply ser_cons; [apply s_ptr; assumption|apply ser_last, ser_all1, aes_ser; assumption]| |reflexivity].
    apply andb_true_r.
  - change (ContentEncoding_Size c = zlen (enc (encoding_tree c))). apply encoding_size. assumption.
  - change (2 ^ 63) with 9223372036854775808. lia.
Qed.
End Encoding.

(* ---------- chromaticities, mastering metadata, colour ---------- *)

Lemma c_chroma : forall o x y, cong (opt_sz (present o) (Chroma_Size x y)) (zlen (enc_all (chroma_trees o x y))).
Proof.
  intros [[a b]|] x y; cbn [present opt_sz chroma_trees]; [|apply cong_refl].
  unfold Chroma_Size. eapply cong_trans; [apply cong_wrap, cong_add; [apply (c_float x a)|apply (c_float y b)]|]. encz.
Qed.
Lemma s_chroma : forall o x y, ser (opt_valid o) (opt_chroma_w o x y) (enc_all (chroma_trees o x y)).
Proof.
  intros [[a b]|] x y; cbn [opt_valid opt_chroma_w chroma_trees]; [|apply ser_ret_true].
  unfold Chroma_Write. destruct (Chroma_Valid (a, b)); cbn [negb]; [|apply ser_ret_false]. cbn [fst snd]. repeat swrite.
Qed.

Section Mastering.
Variable m : mastering.
Definition chromas_valid : bool := opt_valid (mm_r m) && (opt_valid (mm_g m) && (opt_valid (mm_b m) && opt_valid (mm_white m))).

Lemma mm_payload : representable (mastering_kids m) -> MM_PayloadSize m = zlen (enc_all (mastering_kids m)).
Proof.
  intros H. apply size_is; [assumption|usize|]. unfold MM_PayloadSize.
  csum; [apply c_opt, (c_float _ (mm_luminance_max m))|apply c_opt, (c_float _ (mm_luminance_min m))|apply c_chroma..|].
  unfold mastering_kids. encz.
Qed.
Lemma nonempty_master_enc : forall id kids, zlen (enc_all (nonempty_master id kids)) =
  if zlen (enc_all kids) =? 0 then 0 else zlen (enc (Master id kids)).
Proof.
  intros id [|k kids]; [reflexivity|]. cbn [nonempty_master]. rewrite enc_all_1.
  pose proof (enc_pos k). pose proof (zlen_nonneg _ (enc_all kids)).
  replace (zlen (enc_all (k :: kids)) =? 0) with false by (rewrite enc_all_cons, zlen_app; lia). reflexivity.
Qed.
Lemma nonempty_kids : forall id kids, representable (nonempty_master id kids) -> representable kids.
Proof. intros id [|k kids] H; [exact H|]. eapply representable_kids; exact H. Qed.
(* PayloadSize, and the master header when it is not zero *)
Lemma nonempty_size : forall id kids n, representable (nonempty_master id kids) -> n = zlen (enc_all kids) ->
  (if n >? 0 then wrap64 (n + EbmlMasterElementSize id n) else n) = zlen (enc_all (nonempty_master id kids)).
Proof.
  intros id kids n H Hn. pose proof (representable_enc _ H) as HB. pose proof (zlen_nonneg _ (enc_all kids)) as HZ.
  rewrite nonempty_master_enc in HB |- *. subst n. destruct (Z.eqb_spec (zlen (enc_all kids)) 0) as [E|E].
  - rewrite E. reflexivity.
  - replace (zlen (enc_all kids) >? 0) with true by lia.
    apply cong_eq; [apply cong_wrap, c_master'; reflexivity|apply wrap64_range|].
    pose proof (zlen_nonneg _ (enc (Master id kids))). unfold is_u64. lia.
Qed.
Lemma nonempty_ser : forall v id kids n l, representable (nonempty_master id kids) -> n = zlen (enc_all kids) ->
  (kids = [] -> v = true) ->
  ser v (write_seq l) (enc_all kids) ->
  ser v (if n =? 0 then ret true else write_seq (WriteEbmlMasterElement id n :: l)) (enc_all (nonempty_master id kids)).
Proof.
  intros v id kids n l H Hn Hv Hl. destruct (Z.eqb_spec n 0) as [E|E].
  - assert (kids = []) by (apply enc_all_zero; lia). subst kids. rewrite (Hv eq_refl). apply ser_ret_true.
  - destruct kids as [|k kids]; [exfalso; apply E; subst n; reflexivity|]. cbn [nonempty_master].
    rewrite enc_all_1. apply s_master_seq; [eapply representable_kids; exact H|assumption|assumption].
Qed.

Lemma mm_size : representable (nonempty_master kMkvMasteringMetadata (mastering_kids m)) ->
  MM_Size m = zlen (enc_all (nonempty_master kMkvMasteringMetadata (mastering_kids m))).
Proof.
  intros H. unfold MM_Size. apply nonempty_size; [assumption|]. apply mm_payload. eapply nonempty_kids; eassumption.
Qed.
Lemma chroma_nil : forall o x y, chroma_trees o x y = [] -> opt_valid o = true.
Proof. intros [[a b]|] x y; [discriminate|reflexivity]. Qed.
Lemma mm_ser : representable (nonempty_master kMkvMasteringMetadata (mastering_kids m)) ->
  ser chromas_valid (MM_Write m) (enc_all (nonempty_master kMkvMasteringMetadata (mastering_kids m))).
Proof.
  intros H. unfold MM_Write. apply nonempty_ser; [assumption|apply mm_payload; eapply nonempty_kids; eassumption| |].
  - intros E. unfold mastering_kids in E. unfold chromas_valid.
    repeat match goal with E : _ ++ _ = [] |- _ => apply app_eq_nil in E; destruct E end.
    repeat match goal with E : chroma_trees _ _ _ = [] |- _ => apply chroma_nil in E; rewrite E end. reflexivity.
  - unfold mastering_kids. do 2 swrite. unfold chromas_valid.
    apply ser_cons; [apply s_chroma|]. apply ser_cons; [apply s_chroma|]. apply ser_cons; [apply s_chroma|].
    apply ser_last. apply s_chroma.
Qed.
Lemma mm_valid_chromas : MM_Valid m = true -> chromas_valid = true.
Proof.
  unfold MM_Valid, chromas_valid. intros H. repeat (apply andb_prop in H; destruct H as [H ?]).
  repeat (apply andb_true_intro; split; auto).
Qed.
End Mastering.

Section Colour.
Variable c : colour.
Let mm_trees := match co_mastering c with
  | None => [] | Some m => nonempty_master kMkvMasteringMetadata (mastering_kids m) end.

Lemma colour_kids_eq : colour_kids c = flat_map (fun f => colour_field (fst f) (snd f)) (co_fields c) ++ mm_trees.
Proof. unfold colour_kids, co_fields. cbn [flat_map fst snd]. rewrite !app_nil_r, <- !app_assoc. reflexivity. Qed.

Lemma colour_payload : representable (colour_kids c) -> Colour_PayloadSize c = zlen (enc_all (colour_kids c)).
Proof.
  intros H. apply size_is; [assumption|usize|]. unfold Colour_PayloadSize. rewrite colour_kids_eq in H |- *.
  apply representable_app in H. destruct H as [_ HM]. rewrite enc_all_app, zlen_app.
  eapply cong_trans; [apply size_sum_zsum|].
  assert (E : forall l r, zsum (l ++ r) = zsum l + zsum r).
  { induction l as [|x l IH]; intros r; cbn [app zsum fold_right]; [reflexivity|]. unfold zsum in *. rewrite IH. lia. }
  rewrite E. apply cong_add.
  - generalize (co_fields c). intros l. induction l as [|f l IH]; [apply cong_refl|].
    cbn [map zsum fold_right flat_map]. rewrite enc_all_app, zlen_app. apply cong_add; [|exact IH].
    unfold colour_field. change (2 ^ 64 - 1) with kValueNotPresent. apply c_opt, c_uint.
  - cbn [zsum fold_right]. rewrite Z.add_0_r. unfold mm_trees in *. destruct (co_mastering c) as [m|]; [|apply cong_refl].
    rewrite (mm_size m HM). apply cong_refl.
Qed.
Lemma colour_size : representable (colour_trees c) -> Colour_Size c = zlen (enc_all (colour_trees c)).
Proof. intros H. unfold Colour_Size. apply nonempty_size; [assumption|]. apply colour_payload. eapply nonempty_kids; eassumption. Qed.

Lemma colour_empty_valid : colour_kids c = [] -> Colour_Valid c = true.
Proof.
  intros E. unfold colour_kids in E.
  repeat match goal with E : _ ++ _ = [] |- _ => apply app_eq_nil in E; destruct E end.
  assert (F : forall id v, colour_field id v = [] -> co_present v = false).
  { intros id v. unfold colour_field. change (2 ^ 64 - 1) with kValueNotPresent. unfold co_present.
    destruct (negb (v =? kValueNotPresent)); [discriminate|reflexivity]. }
  repeat match goal with E : colour_field _ _ = [] |- _ => apply F in E end.
  unfold Colour_Valid. repeat match goal with E : co_present _ = false |- _ => rewrite E; clear E end.
  cbn [andb negb]. rewrite !andb_true_r. destruct (co_mastering c) as [m|]; [|reflexivity].
  match goal with E : nonempty_master _ _ = [] |- _ => rename E into E1 end.
  assert (E2 : mastering_kids m = []) by (destruct (mastering_kids m); [reflexivity|discriminate]). unfold mastering_kids in E2.
  repeat match goal with E : _ ++ _ = [] |- _ => apply app_eq_nil in E; destruct E end.
  repeat match goal with E : chroma_trees _ _ _ = [] |- _ => apply chroma_nil in E end.
  assert (G : forall b t, opt b t = [] -> b = false) by (intros [|] t; [discriminate|reflexivity]).
  repeat match goal with E : opt _ _ = [] |- _ => apply G in E end.
  unfold MM_Valid. repeat match goal with E : _ = true |- _ => rewrite E; clear E end.
  repeat match goal with E : lum_present _ = false |- _ => rewrite E; clear E end. reflexivity.
Qed.

Lemma colour_ser : representable (colour_trees c) -> ser (Colour_Valid c) (Colour_Write c) (enc_all (colour_trees c)).
Proof.
  intros H. unfold Colour_Write. pose proof (nonempty_kids _ _ H) as HK.
  destruct (Z.eqb_spec (Colour_PayloadSize c) 0) as [E|E].
  - rewrite (colour_payload HK) in E. apply enc_all_zero in E. rewrite (colour_empty_valid E).
    unfold colour_trees. rewrite E. apply ser_ret_true.
  - destruct (Colour_Valid c) eqn:EV; cbn [negb]; [|apply ser_ret_false].
    assert (NE : colour_trees c = [Master kMkvColour (colour_kids c)]).
    { rewrite (colour_payload HK) in E. unfold colour_trees, nonempty_master.
      destruct (colour_kids c) eqn:EC; [|reflexivity]. exfalso. apply E. reflexivity. }
    rewrite NE, enc_all_1. apply s_master_seq; [assumption|apply colour_payload; assumption|].
    pose proof HK as HK2. rewrite colour_kids_eq in HK2 |- *. apply representable_app in HK2. destruct HK2 as [_ HM].
    rewrite enc_all_app. change true with (true && true). apply ser_write_app.
    + generalize (co_fields c). intros l. induction l as [|f l IH]; [apply ser_nil|].
      cbn [map flat_map]. apply ser_cons_t; [|exact IH]. unfold colour_field.
      change (2 ^ 64 - 1) with kValueNotPresent. apply s_opt, s_uint.
    + apply ser_last. unfold mm_trees in *. destruct (co_mastering c) as [m|] eqn:EM; [|apply ser_ret_true].
      assert (HV : MM_Valid m = true).
      { unfold Colour_Valid in EV. rewrite EM in EV. do 6 (apply andb_prop in EV; destruct EV as [EV _]). exact EV. }
      rewrite <- (mm_valid_chromas m HV). apply mm_ser. exact HM.
Qed.
End Colour.

(* ---------- projection ---------- *)

Section Projection.
Variable p : projection.
Let kids := (uint kMkvProjectionType (pj_type p mod 2 ^ 64) ::
     opt (0 <? zlen (pj_private p)) (Leaf kMkvProjectionPrivate (LBytes (pj_private p))) ++
     [Leaf kMkvProjectionPoseYaw (LFloat (pj_yaw p));
      Leaf kMkvProjectionPosePitch (LFloat (pj_pitch p));
      Leaf kMkvProjectionPoseRoll (LFloat (pj_roll p))]).
Lemma projection_payload : representable kids -> Projection_PayloadSize p = zlen (enc_all kids).
Proof.
  intros H. apply size_is; [assumption|usize|]. unfold Projection_PayloadSize. rewrite gtb_ltb.
  change (EbmlElementSizeUInt kMkvProjection (wrap64 (pj_type p))) with (EbmlElementSizeUInt kMkvProjectionType (pj_type p mod 2 ^ 64)).
  csum; [apply c_uint|apply c_opt, c_buf|apply (c_float _ (pj_yaw p))|apply (c_float _ (pj_pitch p))|apply (c_float _ (pj_roll p))|].
  unfold kids. encz.
Qed.
Lemma projection_pos : representable kids -> 0 < zlen (enc_all kids).
Proof.
  intros _. unfold kids. rewrite enc_all_cons, zlen_app. pose proof (enc_pos (uint kMkvProjectionType (pj_type p mod 2 ^ 64))).
  match goal with |- 0 < _ + ?z => assert (0 <= z) by apply zlen_nonneg end. lia.
Qed.
Lemma projection_size : representable [projection_tree p] -> Projection_Size p = zlen (enc (projection_tree p)).
Proof.
  intros H. pose proof (representable_kids _ _ H) as HK. fold kids in HK. unfold Projection_Size.
  pose proof (projection_pos HK). rewrite (projection_payload HK). replace (zlen (enc_all kids) >? 0) with true by lia.
  change (projection_tree p) with (Master kMkvProjection kids) in H |- *. rewrite <- enc_all_1. apply size_is; [assumption|usize|].
  rewrite enc_all_1. apply cong_wrap, c_master'. reflexivity.
Qed.
Lemma projection_ser : representable [projection_tree p] -> ser true (Projection_Write p) (enc (projection_tree p)).
Proof.
  intros H. pose proof (representable_kids _ _ H) as HK. fold kids in HK. unfold Projection_Write.
  pose proof (projection_pos HK). pose proof (projection_payload HK) as E.
  replace (Projection_PayloadSize p =? 0) with false by lia.
  change (projection_tree p) with (Master kMkvProjection kids). apply s_master_seq; [assumption|assumption|].
  unfold kids in HK |- *. change (wrap64 (pj_type p)) with (pj_type p mod 2 ^ 64). swrite. rewrite gtb_ltb.
  rsplit. apply ser_cons_t; [|repeat swrite].
  destruct (Z.ltb_spec 0 (zlen (pj_private p))) as [L|L]; cbn [opt opt_w] in *; [|apply ser_ret_true].
  rewrite enc_all_1. pose proof (s_buf kMkvProjectionPrivate (pj_private p)) as K.
  replace (zlen (pj_private p) =? 0) with false in K by lia. apply K. assumption.
Qed.
End Projection.
