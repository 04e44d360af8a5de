(* Proofs about files of the muxer as documents for the callback parser: blocks and
   clusters. *)
From Coq Require Import ZifyBool ZifyNat.
From Verif Require Import Base EbmlSpec LacingSpec Ids MFloat MMuxBlock BlockSpec MMuxMeta MetaSpec MMuxSegment MuxFileSpec
  WpSpec WpDocSpec WpMuxSpec PMuxUtil PMeta PWpMux.

Lemma not_unknown : forall w n, vint_fits w n -> (n =? kUnknownElementSize) = false.
Proof.
  intros w n [W1 W2]. assert (2 ^ (7 * w) <= 2 ^ 56) by (apply Z.pow_le_mono_r; lia). change (2 ^ 56) with 72057594037927936 in *. unfold kUnknownElementSize. lia.
Qed.
Lemma item_meta : forall d parent closed id p bs pos, is_element id p bs ->
  exists m, me_id m = id /\ me_size m = zlen p /\ (me_size m =? kUnknownElementSize) = false /\
    forall ev v, element d parent closed m p ev v -> one d parent closed pos bs (mk_item m ev v).
Proof.
  intros d parent closed id p bs pos (ib & w & H1 & H2 & ->). exists (mk_meta id (zlen ib + w) (zlen p) pos).
  cbn [me_id me_size]. split; [reflexivity|]. split; [reflexivity|]. split; [apply (not_unknown w); exact H2|]. intros ev v H.
  exists id, ib, w, p. cbn [i_meta i_events i_value]. do 4 (split; [first [assumption | reflexivity]|]). exact H.
Qed.

Lemma item_events_1 : forall it, item_events [it] = EElement (i_meta it) :: i_events it.
Proof. intros. rewrite item_events_cons. cbn. rewrite app_nil_r. reflexivity. Qed.

(* elements about which only their values are of interest *)
Definition quiet (d : nat) (parent : Z) (pos : Z) (bs : list Z) (vals : list (Z * value)) : Prop :=
  exists items, ones d parent true pos bs items /\ item_values items = vals /\ Forall calm (item_events items) /\ reports (item_events items) = [].
Lemma quiet_nil : forall d parent pos, quiet d parent pos [] [].
Proof. intros. exists []. split; [constructor|]. repeat split. constructor. Qed.
Lemma quiet_app : forall d parent pos a b x y, quiet d parent pos a x -> quiet d parent (pos + zlen a) b y -> quiet d parent pos (a ++ b) (x ++ y).
Proof.
  intros d parent pos a b x y (i & A1 & A2 & A3 & A4) (j & B1 & B2 & B3 & B4). exists (i ++ j). split; [apply ones_app; assumption|].
  rewrite item_values_app, item_events_app, reports_app, A2, B2, A4, B4. split; [reflexivity|]. split; [apply Forall_app; auto|reflexivity].
Qed.
Lemma quiet_scalar : forall d parent pos id p bs ty v, is_element id p bs -> type_in parent id = Some (TScalar ty) -> scalar ty p v ->
  quiet d parent pos bs [(id, v)].
Proof.
  intros d parent pos id p bs ty v HE HT HS. destruct (item_meta d parent true id p bs pos HE) as (m & M1 & M2 & M3 & M4).
  exists [mk_item m [] (Some v)]. split; [apply ones_1, M4; eapply e_scalar; [rewrite M1; exact HT|exact HS|exact M2]|].
  unfold item_values, item_events. cbn [map concat i_value i_meta i_events app]. rewrite M1. repeat split. repeat constructor.
Qed.
Lemma quiet_master : forall d d' parent pos id p bs vals, is_element id p bs -> type_in parent id = Some TMaster -> inner d parent id = Some d' ->
  plain_id id = true -> kind_of id = None -> (forall q, quiet d' id q p vals) -> quiet d parent pos bs [(id, VRec vals)].
Proof.
  intros d d' parent pos id p bs vals HE HT HI HP HK HQ. destruct (item_meta d parent true id p bs pos HE) as (m & M1 & M2 & M3 & M4).
  destruct (HQ (me_pos m + me_hsize m)) as (items & Q1 & Q2 & Q3 & Q4).
  exists [mk_item m (master_events m items) (Some (VRec (item_values items)))]. split.
  - apply ones_1, M4. apply WpDocSpec.e_master with (d' := d'); rewrite ?M1; auto. rewrite M3. cbn [negb]. apply ones_all. exact Q1.
  - rewrite (master_plain m items) by (rewrite M1; exact HP). rewrite M1, HK, app_nil_r.
    rewrite item_events_1. cbn [i_meta i_events]. split; [|split; [constructor; [exact Logic.I|exact Q3]|exact Q4]].
    rewrite Q2. unfold item_values. cbn [map concat i_value i_meta app]. rewrite M1. reflexivity.
Qed.

Lemma is_elements_app : forall a b bs, is_elements (a ++ b) bs -> exists x y, bs = x ++ y /\ is_elements a x /\ is_elements b y.
Proof.
  induction a as [|[id p] a IH]; intros b bs H.
  - exists [], bs. split; [reflexivity|]. split; [constructor|exact H].
  - cbn [app] in H. inversion H as [|? ? e ? r H1 H2]; subst. destruct (IH b r H2) as (x & y & -> & X1 & X2).
    exists (e ++ x), y. split; [apply app_assoc|]. split; [constructor; assumption|exact X2].
Qed.
Lemma is_elements_1 : forall id p bs, is_elements [(id, p)] bs -> is_element id p bs.
Proof. intros id p bs H. inversion H as [|? ? e ? r H1 H2]; subst. inversion H2; subst. rewrite app_nil_r. exact H1. Qed.

Lemma uint_scalar : forall d v p, uint_payload v p -> scalar (TUint d) p (VInt v).
Proof. intros d v p (HB & HL & <-). apply WpDocSpec.s_uint; [intros ->; rewrite zlen_nil in HL; lia|lia]. Qed.
Lemma sint_scalar : forall d v p, sint_payload v p -> scalar (TInt d) p (VInt v).
Proof. intros d v p (HB & HL & <-). apply WpDocSpec.s_int; [intros ->; rewrite zlen_nil in HL; lia|lia]. Qed.

(* ---------- blocks ---------- *)

Lemma collect_data : forall bs tc b acc m p n rest,
  collect tc (Some (b, acc)) (map (EData (DFrame m p n)) bs ++ rest) = collect tc (Some (b, acc ++ bs)) rest.
Proof.
  induction bs as [|x bs IH]; intros tc b acc m p n rest; [rewrite app_nil_r; reflexivity|]. cbn [map app collect]. rewrite IH, <- app_assoc. reflexivity.
Qed.

Definition is_block_item (scale tc : Z) (f : frame) (it : item) : Prop :=
  starts it = true /\ reports (i_events it) = [] /\
  exists x, tells scale f x /\ forall rest, collect tc None (i_events it ++ rest) = x :: collect tc None rest.

Lemma block_item : forall scale tc f bs closed pos, is_block scale tc f bs ->
  exists it, one O Cluster closed pos bs it /\ is_block_item scale tc f it.
Proof.
  intros scale tc f bs closed pos (rel & R1 & R2 & [((c & E1 & E2) & A1 & A2 & A3)|HG]).
  - (* SimpleBlock *)
    destruct (item_meta O Cluster closed kMkvSimpleBlock c bs pos E1) as (m & M1 & M2 & M3 & M4).
    set (b := block_value true (fr_track f) rel (if fr_is_key f then 128 else 0) LNone [fr_data f]).
    eexists. split; [apply M4; eapply e_block with (simple := true); [rewrite M1; reflexivity|exact M2|exact E2|discriminate]|].
    split; [unfold starts; cbn [i_meta i_value]; rewrite M1; reflexivity|]. cbn [i_events frame_events]. fold b. set (q := me_pos m + me_hsize m + _). split.
    { unfold data_events. rewrite app_nil_r. change (reports ((EBegin KSimpleBlock m (VBlock b)) :: (map (EData (DFrame m q (zlen (fr_data f)))) (fr_data f) ++ [EDataEnd (DFrame m q (zlen (fr_data f)))]) ++ [EEnd KSimpleBlock m (VBlock b)]))
        with (reports (data_events (DFrame m q (zlen (fr_data f))) (fr_data f) ++ [EEnd KSimpleBlock m (VBlock b)])). rewrite reports_app, reports_data. reflexivity. }
    exists (mk_told (fr_track f) (tc + rel) (fr_data f) (Some (fr_is_key f)) []). split.
    { repeat split; [exact R2|]. left. repeat split; assumption. }
    intros rest. cbn [app collect]. rewrite app_nil_r. unfold data_events. rewrite <- !app_assoc, collect_data. cbn [app collect].
    f_equal. cbn [b block_value bv_track bv_time bv_key]. f_equal. destruct (fr_is_key f); reflexivity.
  - (* BlockGroup *)
    destruct HG as (p & blk & adds & disc & refs & dur & E0 & EB & EA & ED & ER & EU & EE).
    destruct (item_meta O Cluster closed kMkvBlockGroup p bs pos E0) as (m & M1 & M2 & M3 & M4).
    set (q0 := me_pos m + me_hsize m).
    change ((kMkvBlock, blk) :: adds ++ disc ++ refs ++ dur) with ([(kMkvBlock, blk)] ++ adds ++ disc ++ refs ++ dur) in EE.
    apply is_elements_app in EE as (p1 & r1 & -> & P1 & EE). apply is_elements_1 in P1.
    apply is_elements_app in EE as (p2 & r2 & -> & P2 & EE). apply is_elements_app in EE as (p3 & r3 & -> & P3 & EE). apply is_elements_app in EE as (p4 & p5 & -> & P4 & P5).
    (* the block *)
    destruct (item_meta O BlockGroup true kMkvBlock blk p1 q0 P1) as (n & N1 & N2 & N3 & N4).
    set (b := block_value false (fr_track f) rel 0 LNone [fr_data f]).
    set (q := me_pos n + me_hsize n + (zlen blk - zlen (concat [fr_data f]))).
    set (bev := EBegin KBlock n (VBlock b) :: frame_events n q [fr_data f] ++ [EEnd KBlock n (VBlock b)]).
    assert (HB : one O BlockGroup true q0 p1 (mk_item n bev (Some (VBlock b)))).
    { apply N4. apply (e_block O BlockGroup true n blk false (fr_track f) rel 0 LNone [fr_data f]); [rewrite N1; reflexivity|exact N2|exact EB|discriminate]. }
    (* the rest *)
    set (va := match fr_additional f with None => [] | Some a => [(0x75A1, VRec [(0xA6, VRec [(0xEE, VInt (fr_add_id f)); (0xA5, VBytes a)])])] end).
    set (vd := if fr_discard f =? 0 then [] else [(0x75A2, VInt (fr_discard f))]).
    set (vu := if 0 <? fr_duration f / scale then [(0x9B, VInt (fr_duration f / scale))] else []).
    assert (QA : forall z, quiet O BlockGroup z p2 va).
    { intros z. unfold va. destruct (fr_additional f) as [a|]; [|subst adds; inversion P2; subst; apply quiet_nil].
      destruct EA as (c & (mo & idp & C1 & C2 & C3) & ->). apply is_elements_1 in P2.
      apply (quiet_master O O BlockGroup z kMkvBlockAdditions c p2); try reflexivity; [exact P2|]. intros z1.
      apply (quiet_master O O kMkvBlockAdditions z1 kMkvBlockMore mo c); try reflexivity; [exact C1|]. intros z2.
      change [(kMkvBlockAddID, idp); (kMkvBlockAdditional, a)] with ([(kMkvBlockAddID, idp)] ++ [(kMkvBlockAdditional, a)]) in C3.
      apply is_elements_app in C3 as (x & y & -> & C3 & C4). apply is_elements_1 in C3, C4.
      change [(0xEE, VInt (fr_add_id f)); (0xA5, VBytes a)] with ([(kMkvBlockAddID, VInt (fr_add_id f))] ++ [(kMkvBlockAdditional, VBytes a)]).
      apply quiet_app; [eapply quiet_scalar; [exact C3|reflexivity|apply uint_scalar; exact C2]|eapply quiet_scalar; [exact C4|reflexivity|constructor]]. }
    assert (QD : forall z, quiet O BlockGroup z p3 vd).
    { intros z. unfold vd. destruct (fr_discard f =? 0); cbn [negb opt_child] in ED; [subst disc; inversion P3; subst; apply quiet_nil|].
      destruct ED as (c & C1 & ->). apply is_elements_1 in P3. eapply quiet_scalar; [exact P3|reflexivity|apply sint_scalar; exact C1]. }
    assert (QR : exists ref, forall z, quiet O BlockGroup z p4 (if fr_is_key f then [] else [(0xFB, VInt ref)])).
    { destruct (fr_is_key f); cbn [negb opt_child] in ER; [exists 0; intros z; subst refs; inversion P4; subst; apply quiet_nil|].
      destruct ER as (c & (C1 & C2 & _) & ->). apply is_elements_1 in P4. exists (wraps (8 * zlen c) (be_val c)). intros z.
      eapply quiet_scalar; [exact P4|reflexivity|]. apply WpDocSpec.s_int; [intros ->; rewrite zlen_nil in C2; lia|lia]. }
    destruct QR as (ref & QR).
    assert (QU : forall z, quiet O BlockGroup z p5 vu).
    { intros z. unfold vu. destruct (0 <? fr_duration f / scale); cbn [opt_child] in EU; [|subst dur; inversion P5; subst; apply quiet_nil].
      destruct EU as (c & C1 & ->). apply is_elements_1 in P5. eapply quiet_scalar; [exact P5|reflexivity|apply uint_scalar; exact C1]. }
    pose proof (quiet_app _ _ (q0 + zlen p1) _ _ _ _ (QA _) (quiet_app _ _ _ _ _ _ _ (QD _) (quiet_app _ _ _ _ _ _ _ (QR _) (QU _)))) as QQ.
    destruct QQ as (items & I1 & I2 & I3 & I4). set (all := mk_item n bev (Some (VBlock b)) :: items).
    exists (mk_item m (master_events m all) (Some (VRec (item_values all)))). split.
    { apply M4. apply WpDocSpec.e_master with (d' := O); rewrite ?M1; try reflexivity. rewrite M3. cbn [negb].
      apply one_cons; [exact HB|]. apply ones_all. exact I1. }
    split; [unfold starts; cbn [i_meta i_value]; rewrite M1; reflexivity|]. cbn [i_events].
    assert (EM : master_events m all = EBegin KBlockGroup m (VRec []) :: (EElement n :: bev ++ item_events items) ++ [EEnd KBlockGroup m (VRec (item_values all))]).
    { unfold master_events. rewrite M1. reflexivity. }
    rewrite EM. clear EM.
    assert (EV : item_values all = (0xA1, VBlock b) :: va ++ vd ++ (if fr_is_key f then [] else [(0xFB, VInt ref)]) ++ vu).
    { change (item_values all) with ((me_id n, VBlock b) :: item_values items). rewrite I2, N1. reflexivity. }
    rewrite EV. set (gv := (0xA1, VBlock b) :: _).
    assert (EBV : bev = EBegin KBlock n (VBlock b) :: data_events (DFrame n q (zlen (fr_data f))) (fr_data f) ++ [EEnd KBlock n (VBlock b)]).
    { unfold bev. cbn [frame_events]. rewrite app_nil_r. reflexivity. }
    rewrite EBV. split.
    { set (D := data_events _ _). 
      change (reports (EBegin KBlockGroup m (VRec []) :: (EElement n :: (EBegin KBlock n (VBlock b) :: D ++ [EEnd KBlock n (VBlock b)]) ++ item_events items) ++ [EEnd KBlockGroup m (VRec gv)]))
        with (reports (((D ++ [EEnd KBlock n (VBlock b)]) ++ item_events items) ++ [EEnd KBlockGroup m (VRec gv)])).
      rewrite !reports_app, I4. unfold D. rewrite reports_data. reflexivity. }
    exists (mk_told (fr_track f) (tc + rel) (fr_data f) None gv). split.
    { repeat split; [exact R2|]. right. split; [reflexivity|]. exists b, ref. reflexivity. }
    intros rest. cbn [app collect]. unfold data_events. rewrite <- !app_assoc, collect_data. cbn [app collect]. rewrite (collect_calm _ _ _ _ I3).
    reflexivity.
Qed.
