(* Proofs about the muxer's metadata elements (C11). *)
From Coq Require Import ZifyBool ZifyNat.
From Verif Require Import Base EbmlSpec MWriter WriterSpec MMuxUtil PWriter PMuxUtil MFloat Ids MMuxMeta MetaSpec PMuxBlock.

(* ---------- serializes: a weaker but compositional form of emits ---------- *)

Definition serializes {A} (G B : A -> Prop) (v : bool) (m : W A) (bs : list Z) : Prop :=
  forall s, good s -> exists r s' p, m s = Val (r, s') /\ advanced s p s' /\
    ((G r /\ v = true /\ p = bs) \/ (B r /\ (v = true -> ~ no_fail s))).
Definition ser := serializes b_ok b_bad.
Definition ser_sz (v : bool) (m : W Z) (bs : list Z) := serializes (sz_ok (zlen bs)) sz_bad v m bs.

Lemma ser_emits : forall m bs, emits_b m bs -> ser true m bs.
Proof.
  intros m bs H s Hs. destruct (H s Hs) as (r & s' & p & q & E & Eb & Adv & [[HG ->]|[HB Hn]]).
  - exists r, s', p. rewrite app_nil_r in Eb. subst. auto 6.
  - exists r, s', p. auto 6.
Qed.
Lemma ser_eq : forall v v' m bs bs', ser v m bs -> v = v' -> bs = bs' -> ser v' m bs'.
Proof. intros; subst; assumption. Qed.
Lemma ser_ret_true : ser true (ret true) [].
Proof. apply ser_emits, emits_true. Qed.
Lemma ser_ret_false : forall bs, ser false (ret false) bs.
Proof.
  intros bs s Hs. exists false, s, []. split; [reflexivity|]. split; [apply advanced_nil; assumption|].
  right. split; [reflexivity|discriminate].
Qed.

Lemma ser_bind_gen : forall A (G B : A -> Prop) v1 v2 m bad (k : W A) a b,
  ser v1 m a -> B bad -> serializes G B v2 k b ->
  serializes G B (v1 && v2) (check_true m bad k) (a ++ b).
Proof.
  intros A G B v1 v2 m bad k a b Hm Hbad Hk s Hs.
  destruct (Hm s Hs) as (r & s1 & p & E & Adv & [(HG & Hv & Hp)|(HB & Hn)]).
  - destruct (Hk s1 (advanced_good _ _ _ Hs Adv)) as (r2 & s2 & p2 & E2 & Adv2 & H2).
    exists r2, s2, (p ++ p2). unfold check_true, bind. rewrite E. unfold b_ok in HG. subst r. rewrite E2.
    split; [reflexivity|]. split; [eapply advanced_trans; eauto; apply Hs|].
    subst p v1. destruct H2 as [(HG2 & Hv2 & Hp2)|(HB2 & Hn2)].
    + left. subst. auto.
    + right. split; [assumption|]. cbn [andb]. intros Hv Hnf. apply (Hn2 Hv).
      eapply advanced_no_fail; eauto.
  - exists bad, s1, p. unfold check_true, bind. rewrite E. unfold b_bad in HB. subst r.
    split; [reflexivity|]. split; [assumption|]. right. split; [assumption|].
    intros Hv. apply Hn. destruct v1; [reflexivity|discriminate].
Qed.
Lemma ser_seq : forall v1 v2 m k a b, ser v1 m a -> ser v2 k b ->
  ser (v1 && v2) (check_true m false k) (a ++ b).
Proof. intros. apply ser_bind_gen; auto. reflexivity. Qed.

Lemma ser_write_cons : forall v1 v2 m r a b, ser v1 m a -> ser v2 (write_seq r) b ->
  ser (v1 && v2) (write_seq (m :: r)) (a ++ b).
Proof. intros. cbn [write_seq]. apply ser_seq; auto. Qed.

Lemma ser_write_map : forall A (f : A -> W bool) (v : A -> bool) (e : A -> list Z) l,
  (forall x, In x l -> ser (v x) (f x) (e x)) ->
  ser (forallb v l) (write_seq (map f l)) (concat (map e l)).
Proof.
  intros A f v e l. induction l as [|x l IH]; intros H.
  - apply ser_ret_true.
  - cbn [map forallb concat]. apply ser_write_cons; [apply H; left; reflexivity|].
    apply IH. intros y Hy. apply H. right; assumption.
Qed.

Lemma ser_write_app : forall v1 v2 l r a b, ser v1 (write_seq l) a -> ser v2 (write_seq r) b ->
  ser (v1 && v2) (write_seq (l ++ r)) (a ++ b).
Proof.
  intros v1 v2 l r a b H1 H2 s Hs.
  assert (E : write_seq (l ++ r) s = check_true (write_seq l) false (write_seq r) s).
  { clear H1. revert s Hs. induction l as [|m l IH]; intros s Hs.
    - reflexivity.
    - cbn [app write_seq]. unfold check_true, bind. destruct (m s) as [[x s1]|] eqn:Em; [|reflexivity].
      destruct x; [|reflexivity].
      assert (Q : forall s, write_seq (l ++ r) s = check_true (write_seq l) false (write_seq r) s).
      { clear. induction l as [|m l IH]; intros s; [reflexivity|]. cbn [app write_seq].
        unfold check_true, bind. destruct (m s) as [[x s1]|]; [|reflexivity]. destruct x; [|reflexivity].
        rewrite IH. reflexivity. }
      rewrite Q. reflexivity. }
  rewrite E. apply ser_seq; assumption.
Qed.

Lemma ser_opt : forall b v m bs, ser v m bs -> ser (negb b || v) (opt_w b m) (if b then bs else []).
Proof. intros b v m bs H. destruct b; [exact H|apply ser_ret_true]. Qed.

Lemma ser_checked : forall v m bs size, ser v m bs -> size = zlen bs -> zlen bs < 2 ^ 63 ->
  ser v (position_checked size m) bs.
Proof.
  intros v m bs size H Hsz Hb s Hs. destruct (H s Hs) as (r & s' & p & E & Adv & HR).
  unfold position_checked, bind, w_position. pose proof Hs as ((Hp & _) & _).
  replace (w_pos s <? 0) with false by lia. unfold check_true, bind. rewrite E.
  destruct HR as [(HG & Hv & Hpp)|(HB & Hn)].
  - unfold b_ok in HG. subst r. pose proof Adv as (_ & HP & _). pose proof (zlen_nonneg _ bs).
    replace (w_pos s' <? 0) with false by (subst p; lia).
    subst size. rewrite sint64_id by (change (2 ^ 63) with 9223372036854775808 in Hb; lia).
    replace (w_pos s' - w_pos s =? zlen bs) with true by (subst p; lia). cbn [orb negb].
    exists true, s', p. split; [reflexivity|]. split; [assumption|]. left. split; [reflexivity|auto].
  - unfold b_bad in HB. subst r. exists false, s', p. split; [reflexivity|]. split; [assumption|]. right; split; [reflexivity|assumption].
Qed.

Lemma ser_checked_sz : forall v m bs size, ser v m bs -> size = zlen bs -> zlen bs < 2 ^ 63 ->
  ser_sz v (position_checked_sz size m) bs.
Proof.
  intros v m bs size H Hsz Hb s Hs. destruct (H s Hs) as (r & s' & p & E & Adv & HR).
  unfold position_checked_sz, bind, w_position, check_true, bind. rewrite E.
  destruct HR as [(HG & Hv & Hpp)|(HB & Hn)].
  - unfold b_ok in HG. subst r. pose proof Adv as (_ & HP & _). pose proof (zlen_nonneg _ bs).
    subst size p. replace (w_pos s' - w_pos s) with (zlen bs) by lia.
    rewrite wrap64_small by (change (2 ^ 63) with 9223372036854775808 in Hb; lia).
    rewrite Z.eqb_refl. cbn [negb]. rewrite andb_false_r.
    exists (zlen bs), s', bs. split; [reflexivity|]. split; [assumption|]. left. split; [reflexivity|auto].
  - unfold b_bad in HB. subst r. exists 0, s', p. split; [reflexivity|]. split; [assumption|]. right; split; [reflexivity|assumption].
Qed.

Lemma ser_nonzero : forall v m bs, ser_sz v m bs -> 0 < zlen bs -> ser v (nonzero m) bs.
Proof.
  intros v m bs H Hp s Hs. destruct (H s Hs) as (r & s' & p & E & Adv & HR).
  unfold nonzero, bind, ret. rewrite E. exists (negb (r =? 0)), s', p. split; [reflexivity|]. split; [assumption|].
  unfold sz_ok, sz_bad, b_ok, b_bad in *. destruct HR as [(HG & Hv & Hpp)|(HB & Hn)].
  - left. subst r. repeat split; auto. lia.
  - right. subst r. split; [reflexivity|assumption].
Qed.

(* ---------- encoding of trees ---------- *)

Lemma tree_ind2 : forall (P : tree -> Prop),
  (forall id l, P (Leaf id l)) ->
  (forall id kids, Forall P kids -> P (Master id kids)) -> forall t, P t.
Proof.
  intros P HL HM. fix IH 1. intros [id l|id kids]; [apply HL|]. apply HM.
  induction kids as [|k kids IHk]; constructor; [apply IH|apply IHk].
Qed.

Definition enc_leaf_bytes (id : Z) (l : leaf) : list Z :=
  match l with
  | LUint v => e_uint id v
  | LFloat u => e_float id u
  | LDate v => e_date id v
  | LBytes bs => e_buf id bs
  end.
Fixpoint enc (t : tree) : list Z :=
  match t with
  | Leaf id l => enc_leaf_bytes id l
  | Master id kids => e_buf id (concat (map enc kids))
  end.
Definition enc_all (ts : list tree) : list Z := concat (map enc ts).

Lemma enc_all_app : forall a b, enc_all (a ++ b) = enc_all a ++ enc_all b.
Proof. intros. unfold enc_all. rewrite map_app, concat_app. reflexivity. Qed.
Lemma enc_all_cons : forall t ts, enc_all (t :: ts) = enc t ++ enc_all ts.
Proof. reflexivity. Qed.
Lemma enc_all_1 : forall t, enc_all [t] = enc t.
Proof. intros. cbn [enc_all map concat]. unfold enc_all. cbn [map concat]. apply app_nil_r. Qed.
Lemma enc_master : forall id kids, enc (Master id kids) = e_buf id (enc_all kids).
Proof. reflexivity. Qed.

Lemma e_float_bound : forall id u, zlen (e_float id u) <= 24.
Proof. intros. rewrite e_float_zlen. unfold EbmlElementSizeFloat. pose proof (GetUIntSize_range id). lia. Qed.
Lemma e_date_bound : forall id u, zlen (e_date id u) <= 24.
Proof. intros. rewrite e_date_zlen. unfold EbmlDateElementSize. pose proof (GetUIntSize_range id). lia. Qed.

Lemma enc_weight : forall t, zlen (enc t) <= weight t.
Proof.
  induction t as [id l|id kids IH] using tree_ind2.
  - destruct l; cbn [enc enc_leaf_bytes weight leaf_weight].
    + pose proof (e_uint_bound id v). lia.
    + pose proof (e_float_bound id u). lia.
    + pose proof (e_date_bound id v). lia.
    + pose proof (e_buf_bound id bs). lia.
  - cbn [enc weight]. pose proof (e_buf_bound id (concat (map enc kids))) as H.
    assert (HK : zlen (concat (map enc kids)) <= fold_right (fun k acc => weight k + acc) 0 kids).
    { clear H. induction IH as [|k kids Hk HF IHk]; cbn [map concat fold_right].
      - rewrite zlen_nil. lia.
      - rewrite zlen_app. lia. }
    lia.
Qed.
Lemma enc_all_weight : forall ts, zlen (enc_all ts) <= weight_all ts.
Proof.
  induction ts as [|t ts IH]; [apply Z.le_refl|]. rewrite enc_all_cons, zlen_app. cbn [weight_all fold_right].
  pose proof (enc_weight t). unfold weight_all in IH. lia.
Qed.

Lemma weight_nonneg : forall t, 0 <= weight t.
Proof.
  induction t as [id l|id kids IH] using tree_ind2.
  - cbn [weight]. destruct l; cbn [leaf_weight]; try lia. pose proof (zlen_nonneg _ bs). lia.
  - cbn [weight]. assert (0 <= fold_right (fun k acc => weight k + acc) 0 kids); [|lia].
    induction IH; cbn [fold_right]; lia.
Qed.
Lemma weight_all_nonneg : forall ts, 0 <= weight_all ts.
Proof. induction ts as [|t ts IH]; cbn [weight_all fold_right]; [lia|]. pose proof (weight_nonneg t). unfold weight_all in IH. lia. Qed.
Lemma weight_all_app : forall a b, weight_all (a ++ b) = weight_all a + weight_all b.
Proof. induction a as [|t a IH]; intros b; cbn [app weight_all fold_right]; [unfold weight_all; lia|]. unfold weight_all in *. rewrite IH. lia. Qed.

Lemma values_fold : forall kids, fold_right (fun k acc => values_ok k /\ acc) True kids <-> Forall values_ok kids.
Proof.
  induction kids as [|k kids IH]; cbn [fold_right]; split; intros H; auto.
  - constructor; [tauto|]. apply IH; tauto.
  - inversion H; subst. split; [assumption|]. apply IH; assumption.
Qed.

Lemma representable_cons : forall t ts, representable (t :: ts) -> representable [t] /\ representable ts.
Proof.
  intros t ts (HV & HW). inversion HV; subst. cbn [weight_all fold_right] in HW.
  pose proof (weight_nonneg t). pose proof (weight_all_nonneg ts). unfold representable, weight_all in *. cbn [fold_right].
  repeat split; auto; lia.
Qed.
Lemma representable_app : forall a b, representable (a ++ b) -> representable a /\ representable b.
Proof.
  intros a b (HV & HW). apply Forall_app in HV. rewrite weight_all_app in HW.
  pose proof (weight_all_nonneg a). pose proof (weight_all_nonneg b). unfold representable. repeat split; try tauto; lia.
Qed.
Lemma representable_kids : forall id kids, representable [Master id kids] -> representable kids.
Proof.
  intros id kids (HV & HW). apply Forall_inv in HV. destruct HV as (_ & H1). apply values_fold in H1.
  unfold weight_all in HW. cbn [fold_right weight] in HW. unfold representable, weight_all. split; [assumption|]. lia.
Qed.
Lemma representable_bytes : forall id bs, representable [Leaf id (LBytes bs)] -> zlen bs < 4294967296.
Proof. intros id bs (HV & _). apply Forall_inv in HV. destruct HV as (_ & H1). apply H1. Qed.
Lemma representable_enc : forall ts, representable ts -> zlen (enc_all ts) <= 72057594037927934.
Proof. intros ts (_ & H). pose proof (enc_all_weight ts). change (2 ^ 56 - 2) with 72057594037927934 in H. lia. Qed.
Lemma representable_in : forall A (f : A -> tree) l x, representable (map f l) -> In x l -> representable [f x].
Proof.
  intros A f l x H Hin. induction l as [|y l IH]; [destruct Hin|].
  cbn [map] in H. apply representable_cons in H. destruct Hin as [->|Hin]; [tauto|]. apply IH; tauto.
Qed.

(* the encoding is an encoding in the sense of the specification *)
Lemma enc_leaf_spec : forall id l, representable [Leaf id l] -> encodes (Leaf id l) (enc (Leaf id l)).
Proof.
  intros id l HR. pose proof HR as (HV & _). apply Forall_inv in HV. destruct HV as (Hid & Hl). cbn [enc].
  destruct l; cbn [enc_leaf_bytes leaf_ok] in *.
  - pose proof (GetUIntSize_range v). eapply enc_leaf; [|apply e_uintf_element; [assumption|lia]].
    cbn [leaf_payload]. split; [apply uint_payload_ok; [assumption|lia|lia]|].
    intros q (Q1 & Q2 & Q3). rewrite be_bytes_zlen, Z2Nat.id by lia. apply GetUIntSize_minimal; [assumption|lia|].
    rewrite <- Q3. apply be_val_bound. exact Q1.
  - eapply enc_leaf; [|apply e_float_element; assumption]. reflexivity.
  - eapply enc_leaf; [|apply e_date_element; assumption]. cbn [leaf_payload].
    split; [rewrite be_bytes_zlen; reflexivity|]. split; [apply be_bytes_bytes|]. rewrite be_bytes_zlen. split; [lia|].
    rewrite be_val_be_bytes. change (8 * Z.of_nat 8) with 64. unfold wraps. rewrite Z.mod_mod by lia.
    apply wraps_id; [lia|]. change (2 ^ (64 - 1)) with 9223372036854775808. unfold is_s64 in Hl. lia.
  - eapply enc_leaf; [|apply e_buf_element; [assumption|]]. reflexivity.
    destruct Hl as (_ & Hl). change (2 ^ 32) with 4294967296 in Hl. change (2 ^ 56 - 2) with 72057594037927934. lia.
Qed.

Lemma enc_all_spec_aux : forall ts, Forall (fun t => representable [t] -> encodes t (enc t)) ts ->
  representable ts -> encodes_all ts (enc_all ts).
Proof.
  intros ts H. induction H as [|t ts Ht HF IH]; intros HR; [constructor|].
  apply representable_cons in HR. rewrite enc_all_cons. constructor; [apply Ht|apply IH]; tauto.
Qed.
Lemma enc_spec : forall t, representable [t] -> encodes t (enc t).
Proof.
  induction t as [id l|id kids IH] using tree_ind2; intros HR; [apply enc_leaf_spec; assumption|].
  pose proof (representable_kids _ _ HR) as HK. rewrite enc_master.
  eapply MetaSpec.enc_master; [apply enc_all_spec_aux; eassumption|].
  apply e_buf_element; [|change (2 ^ 56 - 2) with 72057594037927934; apply representable_enc; assumption].
  destruct HR as (HV & _). apply Forall_inv in HV. apply HV.
Qed.
Lemma enc_all_spec : forall ts, representable ts -> encodes_all ts (enc_all ts).
Proof. intros ts. apply enc_all_spec_aux. apply Forall_forall. intros t _. apply enc_spec. Qed.

Lemma enc_pos : forall t, 0 < zlen (enc t).
Proof.
  intros [id l|id kids].
  - destruct l; cbn [enc enc_leaf_bytes].
    + pose proof (e_uint_bound id v); lia.
    + rewrite e_float_zlen. unfold EbmlElementSizeFloat. pose proof (GetUIntSize_range id). lia.
    + rewrite e_date_zlen. unfold EbmlDateElementSize. pose proof (GetUIntSize_range id). lia.
    + pose proof (e_buf_bound id bs). pose proof (zlen_nonneg _ bs). lia.
  - rewrite enc_master. pose proof (e_buf_bound id (enc_all kids)). pose proof (zlen_nonneg _ (enc_all kids)). lia.
Qed.
Lemma enc_all_zero : forall ts, zlen (enc_all ts) = 0 -> ts = [].
Proof.
  intros [|t ts] H; [reflexivity|]. rewrite enc_all_cons, zlen_app in H. pose proof (enc_pos t).
  pose proof (zlen_nonneg _ (enc_all ts)). lia.
Qed.

(* from serializes to the specification *)
Lemma writes_exactly_intro : forall v size m ts, ser v m (enc_all ts) -> representable ts ->
  (v = true -> size = zlen (enc_all ts)) -> writes_exactly v size m ts.
Proof.
  intros v size m ts H HR Hsz s Hs. destruct (H s Hs) as (r & s' & p & E & Adv & HRes).
  exists r, s'. split; [assumption|]. unfold b_ok, b_bad in HRes. split.
  - intros ->. destruct HRes as [(_ & Hv & Hp)|(HB & _)]; [|discriminate]. split; [assumption|].
    exists (enc_all ts). split; [apply enc_all_spec; assumption|]. subst p. split; [symmetry; auto|assumption].
  - intros Hv Hn. destruct HRes as [(HG & _)|(_ & HN)]; [assumption|]. exfalso. exact (HN Hv Hn).
Qed.

(* ---------- congruence modulo 2^64 for the size computations ---------- *)

Definition cong (a b : Z) : Prop := wrap64 a = wrap64 b.
Lemma cong_refl : forall a, cong a a.
Proof. reflexivity. Qed.
Lemma cong_wrap : forall a b, cong a b -> cong (wrap64 a) b.
Proof. unfold cong, wrap64. intros a b H. rewrite Z.mod_mod by lia. exact H. Qed.
Lemma cong_add : forall a b c d, cong a b -> cong c d -> cong (a + c) (b + d).
Proof. unfold cong, wrap64. intros a b c d H1 H2. rewrite Z.add_mod, H1, H2, <- Z.add_mod by lia. reflexivity. Qed.
Lemma cong_trans : forall a b c, cong a b -> cong b c -> cong a c.
Proof. unfold cong. congruence. Qed.
Lemma cong_eq : forall a b, cong a b -> is_u64 a -> is_u64 b -> a = b.
Proof. unfold cong, is_u64. intros a b H Ha Hb. rewrite !wrap64_small in H by lia. exact H. Qed.
Lemma wrap64_range : forall a, is_u64 (wrap64 a).
Proof. intros a. unfold is_u64, wrap64. apply Z.mod_pos_bound. lia. Qed.

Definition zsum (l : list Z) : Z := fold_right Z.add 0 l.
Lemma size_sum_acc : forall l acc, cong (fold_left (fun acc x => wrap64 (acc + x)) l acc) (acc + zsum l).
Proof.
  induction l as [|x l IH]; intros acc; cbn [fold_left zsum fold_right].
  - rewrite Z.add_0_r. apply cong_refl.
  - eapply cong_trans; [apply IH|]. replace (acc + (x + fold_right Z.add 0 l)) with ((acc + x) + fold_right Z.add 0 l) by lia.
    apply cong_add; [apply cong_wrap, cong_refl|apply cong_refl].
Qed.
Lemma size_sum_zsum : forall l, cong (size_sum l) (zsum l).
Proof. intros l. unfold size_sum. eapply cong_trans; [apply size_sum_acc|]. apply cong_refl. Qed.
Lemma size_sum_range : forall l, is_u64 (size_sum l).
Proof.
  intros l. unfold size_sum. assert (G : forall l acc, is_u64 acc -> is_u64 (fold_left (fun acc x => wrap64 (acc + x)) l acc)).
  { clear l. induction l as [|x l IH]; intros acc H; cbn [fold_left]; auto. apply IH. apply wrap64_range. }
  apply G. unfold is_u64. lia.
Qed.
Lemma size_sum_cong : forall l l', Forall2 cong l l' -> cong (size_sum l) (zsum l').
Proof.
  intros l l' H. eapply cong_trans; [apply size_sum_zsum|].
  induction H as [|a b l l' Hab HF IH]; cbn [zsum fold_right]; [apply cong_refl|]. apply cong_add; assumption.
Qed.

Lemma c_uint : forall id v, cong (EbmlElementSizeUInt id v) (zlen (enc (uint id v))).
Proof. intros. cbn [enc uint enc_leaf_bytes]. rewrite e_uint_zlen. apply cong_refl. Qed.
Lemma c_float : forall id u, cong (EbmlElementSizeFloat id) (zlen (enc (Leaf id (LFloat u)))).
Proof. intros. cbn [enc enc_leaf_bytes]. rewrite e_float_zlen. apply cong_refl. Qed.
Lemma c_date : forall id v, cong (EbmlDateElementSize id) (zlen (enc (Leaf id (LDate v)))).
Proof. intros. cbn [enc enc_leaf_bytes]. rewrite e_date_zlen. apply cong_refl. Qed.
Lemma c_buf : forall id bs, cong (EbmlElementSizeBuf id bs) (zlen (enc (Leaf id (LBytes bs)))).
Proof.
  intros. cbn [enc enc_leaf_bytes]. rewrite e_buf_zlen'. unfold EbmlElementSizeBuf.
  apply cong_wrap. replace (GetUIntSize id + zlen bs + GetCodedUIntSize (zlen bs)) with
    (GetUIntSize id + GetCodedUIntSize (zlen bs) + zlen bs) by lia. apply cong_refl.
Qed.
Lemma c_cstr : forall id s, cong (EbmlElementSizeCStr id s) (zlen (enc_all (str id s))).
Proof. intros id [s|]; cbn [str EbmlElementSizeCStr]; [rewrite enc_all_1; apply c_buf|apply cong_refl]. Qed.
Lemma c_ptr : forall id s, cong (EbmlElementSizePtr id s) (zlen (enc_all (str id s))).
Proof. intros id [s|]; cbn [str EbmlElementSizePtr]; [rewrite enc_all_1; apply c_buf|apply cong_refl]. Qed.
Lemma c_ocstr : forall id s, cong (opt_sz (present s) (EbmlElementSizeCStr id s)) (zlen (enc_all (str id s))).
Proof. intros id [s|]; [apply c_cstr|apply cong_refl]. Qed.
Lemma c_optr : forall id s, cong (opt_sz (present s) (EbmlElementSizePtr id s)) (zlen (enc_all (str id s))).
Proof. intros id [s|]; [apply c_ptr|apply cong_refl]. Qed.
Lemma c_opt : forall b n t, cong n (zlen (enc t)) -> cong (opt_sz b n) (zlen (enc_all (opt b t))).
Proof. intros [|] n t H; cbn [opt opt_sz]; [rewrite enc_all_1; exact H|apply cong_refl]. Qed.

Lemma master_enc : forall id n kids, n = zlen (enc_all kids) ->
  EbmlMasterElementSize id n + n = zlen (enc (Master id kids)).
Proof. intros id n kids ->. rewrite enc_master, e_buf_zlen'. reflexivity. Qed.
Lemma c_master : forall id n kids, n = zlen (enc_all kids) ->
  cong (EbmlMasterElementSize id n + n) (zlen (enc (Master id kids))).
Proof. intros. rewrite (master_enc id n kids) by assumption. apply cong_refl. Qed.
Lemma c_master' : forall id n kids, n = zlen (enc_all kids) ->
  cong (n + EbmlMasterElementSize id n) (zlen (enc (Master id kids))).
Proof. intros. rewrite Z.add_comm. apply c_master. assumption. Qed.

(* a size equals the length of the encoding *)
Lemma size_is : forall a ts, representable ts -> is_u64 a -> cong a (zlen (enc_all ts)) -> a = zlen (enc_all ts).
Proof.
  intros a ts HR Ha H. apply cong_eq; auto. pose proof (representable_enc ts HR). pose proof (zlen_nonneg _ (enc_all ts)).
  unfold is_u64. lia.
Qed.

(* ---------- element writers ---------- *)

Lemma s_uint : forall id v, ser true (WriteEbmlElementUInt id v) (enc (uint id v)).
Proof. intros. apply ser_emits, emits_WriteEbmlElementUInt. Qed.
Lemma s_float : forall id u, ser true (WriteEbmlElementFloat id u) (enc (Leaf id (LFloat u))).
Proof. intros. apply ser_emits, emits_WriteEbmlElementFloat. Qed.
Lemma s_cstr : forall id s, representable (str id s) ->
  ser (present s) (WriteEbmlElementCStr id s) (enc_all (str id s)).
Proof.
  intros id [s|] H; cbn [WriteEbmlElementCStr present str].
  - rewrite enc_all_1. apply ser_emits. apply emits_WriteEbmlElementString. eapply representable_bytes; eassumption.
  - apply ser_ret_false.
Qed.
Lemma s_ocstr : forall id s, representable (str id s) ->
  ser true (opt_w (present s) (WriteEbmlElementCStr id s)) (enc_all (str id s)).
Proof. intros id s H. pose proof (s_cstr id s H) as K. destruct s; [exact K|apply ser_ret_true]. Qed.
Lemma s_buf : forall id s, representable [Leaf id (LBytes s)] ->
  ser (negb (zlen s =? 0)) (WriteEbmlElementBuf id s) (enc (Leaf id (LBytes s))).
Proof.
  intros id s H. apply representable_bytes in H. pose proof (zlen_nonneg _ s).
  destruct (Z.eqb_spec (zlen s) 0) as [E|E]; cbn [negb].
  - unfold WriteEbmlElementBuf. replace (zlen s <? 1) with true by lia. apply ser_ret_false.
  - apply ser_emits. apply emits_WriteEbmlElementBuf. lia.
Qed.
Lemma nonempty_buf_zlen : forall s, nonempty_buf (Some s) = negb (zlen s =? 0).
Proof. intros [|x s]; [reflexivity|]. cbn [nonempty_buf]. rewrite zlen_cons. pose proof (zlen_nonneg _ s). lia. Qed.
Lemma s_ptr : forall id s, representable (str id s) ->
  ser (nonempty_buf s) (WriteEbmlElementPtr id s) (enc_all (str id s)).
Proof.
  intros id [s|] H; cbn [WriteEbmlElementPtr str].
  - rewrite nonempty_buf_zlen, enc_all_1. apply s_buf. exact H.
  - apply ser_ret_false.
Qed.
Lemma s_optr : forall id s, representable (str id s) ->
  ser (match s with Some [] => false | _ => true end) (opt_w (present s) (WriteEbmlElementPtr id s)) (enc_all (str id s)).
Proof.
  intros id s H. pose proof (s_ptr id s H) as K. destruct s as [[|x s]|]; [exact K|exact K|apply ser_ret_true].
Qed.
Lemma s_opt : forall b m t, ser true m (enc t) -> ser true (opt_w b m) (enc_all (opt b t)).
Proof. intros [|] m t H; cbn [opt_w opt]; [rewrite enc_all_1; exact H|apply ser_ret_true]. Qed.

(* a master element followed by its content *)
Lemma s_master : forall v id n kids m, representable kids -> n = zlen (enc_all kids) ->
  ser v m (enc_all kids) ->
  ser v (check_true (WriteEbmlMasterElement id n) false m) (enc (Master id kids)).
Proof.
  intros v id n kids m HR Hn Hm. pose proof (representable_enc _ HR). pose proof (zlen_nonneg _ (enc_all kids)).
  rewrite enc_master. unfold e_buf.
  rewrite app_assoc. change (id_bytes id ++ size_bytes (zlen (enc_all kids))) with (e_master id (zlen (enc_all kids))).
  replace v with (true && v) by reflexivity. apply ser_seq; [|exact Hm]. subst n. apply ser_emits.
  apply emits_WriteEbmlMasterElement. change (2 ^ 56 - 2) with 72057594037927934. lia.
Qed.
Lemma s_master_seq : forall v id n kids l, representable kids -> n = zlen (enc_all kids) ->
  ser v (write_seq l) (enc_all kids) ->
  ser v (write_seq (WriteEbmlMasterElement id n :: l)) (enc (Master id kids)).
Proof. intros. cbn [write_seq]. apply s_master; assumption. Qed.
(* the same when the children are written by a suffix of a longer sequence *)
Lemma s_master_app : forall v1 v2 id n kids l r b, representable kids -> n = zlen (enc_all kids) ->
  ser v1 (write_seq l) (enc_all kids) -> ser v2 (write_seq r) b ->
  ser (v1 && v2) (write_seq (WriteEbmlMasterElement id n :: l ++ r)) (enc (Master id kids) ++ b).
Proof.
  intros. change (WriteEbmlMasterElement id n :: l ++ r) with ((WriteEbmlMasterElement id n :: l) ++ r).
  apply ser_write_app; [apply s_master_seq; assumption|assumption].
Qed.
Lemma ser_one : forall v m bs, ser v m bs -> ser v (write_seq [m]) bs.
Proof.
  intros v m bs H. eapply ser_eq; [apply ser_write_cons; [exact H|apply ser_ret_true]|apply andb_true_r|apply app_nil_r].
Qed.
