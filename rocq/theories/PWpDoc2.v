(* Proofs about the callback parser: every element of a well-formed document is reported. *)
From Coq Require Import ZifyBool ZifyNat.
From Verif Require Import Base EbmlSpec LacingSpec WpSpec WpDocSpec MWp MWpBlock MWpTree PParUtil PWp3
  PWpRead PWpLeaf PWpBlk PWpDoc.

Local Notation W l p t := (mk_world l p [] t).

Scheme element_mind := Minimality for element_skip Sort Prop
with elements_mind := Minimality for elements_skip Sort Prop.
Combined Scheme document_mind from element_mind, elements_mind.

Section skip.
Variable skip : meta -> bool.
Local Notation cb := (skipping skip).
Local Notation lg := (lg skip).
Local Notation loop := (mloop cb).
Local Notation element := (element_skip skip).
Local Notation elements := (elements_skip skip).
Local Notation Eclaim := (Eclaim skip).
Local Notation Kclaim := (Kclaim skip).

(* ---------- elements without children ---------- *)
Lemma sized_mode : forall md id m max len l p, me_size m = len -> len < 2 ^ 62 ->
  md_ok md id (negb (me_size m =? kUnknownElementSize)) max len l p -> md = MdSz.
Proof.
  intros md id m max len l p E B H. assert (P : 2 ^ 62 < kUnknownElementSize) by reflexivity.
  replace (me_size m =? kUnknownElementSize) with false in H by lia. exact H.
Qed.
Lemma sel_type : forall d parent id cn ty, sel d parent id cn -> type_in parent id = Some ty -> node_is d parent id ty cn.
Proof.
  intros d parent id cn ty [(H & _) | [(H & _) | (ty' & H & N)]] T; [congruence|congruence|].
  replace ty with ty' by congruence. exact N.
Qed.
Lemma wrapped_any : forall p, wrapped (NVal VInfo) p = true -> forall n', wrapped n' p = is_value n'.
Proof. intros p H n'. unfold wrapped in *. cbn [is_value andb] in H. rewrite H. apply andb_true_r. Qed.

Ltac sized md Ok H := pose proof (sized_mode md _ _ _ _ _ _ H ltac:(lia) Ok); subst md; cbn [md_k md_rest md_cached]; rewrite ?Z.add_0_r.

Lemma E_scalar : forall d parent closed m bs ty v,
  type_in parent (me_id m) = Some (TScalar ty) -> scalar ty bs v -> me_size m = zlen bs ->
  skip m = false ->
  Eclaim d parent closed m bs [] (Some v).
Proof.
  intros d parent closed m bs ty v Ty Sc Sz Hsk cn max l p t md Hsel Hp P0 H0' Hb B _ Ok _. rewrite Hsk.
  sized md Ok Sz.
  pose proof (sel_type _ _ _ _ _ Hsel Ty) as N. cbn [node_is] in N.
  destruct (scalar_read cb false cn ty m bs v max l p t N Sc Hb Sz ltac:(lia)) as (p0 & p1 & I & F & V & _ & C1 & Ws & Wr & St).
  exists p0, p1, 1%nat. split; [exact I|]. split; [rewrite lg_nil; exact F|]. split; [exact C1|]. split; [exact Ws|].
  split; [split; [apply wrapped_any; exact Wr | intros _; exact V]|].
  intros ->. rewrite St. unfold starts. cbn [i_meta i_value]. symmetry.
  destruct (Z.eqb_spec (me_id m) SimpleBlock) as [Q|Q]; [rewrite Q in Ty; discriminate Ty|].
  destruct (Z.eqb_spec (me_id m) BlockGroup) as [Q'|Q']; [rewrite Q' in Ty; discriminate Ty|]. reflexivity.
Qed.

Lemma E_void : forall d parent closed m bs, me_id m = Void -> me_size m = zlen bs ->
  skip m = false ->
  Eclaim d parent closed m bs (data_events (DVoid m) bs) None.
Proof.
  intros d parent closed m bs Id Sz Hsk cn max l p t md Hsel Hp P0 H0' Hb B _ Ok _. rewrite Hsk. sized md Ok Sz.
  rewrite Id in Hsel. pose proof (type_in_void parent) as Tv.
  assert (cn = NVoid) by (destruct Hsel as [(_ & Q & _) | [(_ & _ & Q) | (ty & Q & _)]]; congruence). subst cn.
  assert (P : 2 ^ 62 < kUnknownElementSize) by reflexivity.
  exists (PVoid m (me_size m)), (PVoid m 0), 1%nat. cbn [parser_Init].
  replace (me_size m =? kUnknownElementSize) with false by lia. split; [reflexivity|].
  split; [cbn [feed]; rewrite Sz, on_data_full, Z.sub_0_r; reflexivity|].
  split; [reflexivity|]. split; [reflexivity|]. split; [intros n'; unfold wrapped; apply andb_false_r|].
  intros _. reflexivity.
Qed.

Lemma E_unknown : forall d parent m bs, type_in parent (me_id m) = None -> me_id m <> Void -> me_size m = zlen bs ->
  skip m = false ->
  Eclaim d parent true m bs (data_events (DUnknown m) bs) None.
Proof.
  intros d parent m bs Ty Id Sz Hsk cn max l p t md Hsel Hp P0 H0' Hb B _ Ok _. rewrite Hsk. sized md Ok Sz.
  assert (cn = NUnknown) by (destruct Hsel as [(_ & _ & Q) | [(_ & Q & _) | (ty & Q & _)]]; congruence). subst cn.
  assert (P : 2 ^ 62 < kUnknownElementSize) by reflexivity.
  exists (PUnknown m (me_size m)), (PUnknown m 0), 1%nat. cbn [parser_Init].
  replace (me_size m =? kUnknownElementSize) with false by lia. split; [reflexivity|].
  split; [cbn [feed]; rewrite Sz, on_data_full, Z.sub_0_r; reflexivity|].
  split; [reflexivity|]. split; [reflexivity|]. split; [intros n'; unfold wrapped; apply andb_false_r|].
  intros _. reflexivity.
Qed.

Lemma E_skipped : forall d parent closed m bs, me_size m = zlen bs -> skip m = true -> Eclaim d parent closed m bs [] None.
Proof.
  intros d parent closed m bs Sz Hsk cn max l p t md Hsel Hp P0 H0' Hb B _ Ok _. rewrite Hsk. sized md Ok Sz.
  assert (P : 2 ^ 62 < kUnknownElementSize) by reflexivity.
  exists (PSkip (me_size m)), (PSkip 0), 1%nat. cbn [parser_Init]. unfold SkipParser_Init.
  replace (me_size m =? kUnknownElementSize) with false by lia. split; [reflexivity|].
  split.
  { cbn [feed]. unfold SkipParser_Feed. rewrite Sz, lg_nil. destruct (Z.eqb_spec (zlen bs) 0) as [Q|Q].
    - rewrite Q. pose proof (zlen_zero _ Q). subst bs. rewrite Z.add_0_r. reflexivity.
    - rewrite take_all_full by (intro R; subst; apply Q, zlen_nil). rewrite Z.sub_diag. reflexivity. }
  split; [reflexivity|]. split; [reflexivity|]. split; [intros n'; unfold wrapped; apply andb_false_r|].
  intros _. reflexivity.
Qed.

Lemma E_block : forall d parent closed m bs simple track time flags lac frames,
  type_in parent (me_id m) = Some (TBlock simple) -> me_size m = zlen bs ->
  block_content track time flags lac frames bs -> (lac = LFixed -> zlen frames = 1) ->
  skip m = false ->
  Eclaim d parent closed m bs
      (EBegin (if simple then KSimpleBlock else KBlock) m (VBlock (block_value simple track time flags lac frames))
       :: frame_events m (me_pos m + me_hsize m + (zlen bs - zlen (concat frames))) frames
       ++ [EEnd (if simple then KSimpleBlock else KBlock) m (VBlock (block_value simple track time flags lac frames))])
      (Some (VBlock (block_value simple track time flags lac frames))).
Proof.
  intros d parent closed m bs simple track time flags lac frames Ty Sz Bc Fx Hsk cn max l p t md Hsel Hp P0 H0' Hb B _ Ok _. rewrite Hsk.
  sized md Ok Sz.
  pose proof (sel_type _ _ _ _ _ Hsel Ty) as N. cbn [node_is] in N. subst cn.
  assert (P : 2 ^ 62 < 2 ^ 63) by reflexivity.
  destruct (@block_read skip simple m track time flags lac frames bs l p t Bc Sz P0 H0' ltac:(lia)) as (st0 & st1 & I & F & Sd & V).
  exists (PBlock simple st0), (PBlock simple st1), 1%nat. cbn [parser_Init]. rewrite I. split; [reflexivity|].
  split; [cbn [feed]; rewrite F, base_regular by exact Fx; reflexivity|].
  split; [reflexivity|]. split; [cbn [was_skipped]; rewrite Sd; reflexivity|].
  split; [split; [apply wrapped_any; reflexivity | intros _; cbn [p_value]; rewrite V; reflexivity]|].
  intros ->. unfold starts. cbn [is_start i_meta i_value]. unfold type_in in Ty.
  match type of Ty with context [assoc ?p schema] =>
      let x := eval vm_compute in (assoc p schema) in change (assoc p schema) with x in Ty end.
  cbn [assoc] in Ty. unfold SimpleBlock, BlockGroup. rewrite (Z.eqb_sym (me_id m)), (Z.eqb_sym (me_id m) 0xA0).
  destruct (231 =? me_id m); [discriminate Ty|]. destruct (171 =? me_id m); [discriminate Ty|].
  destruct (163 =? me_id m); [injection Ty as <-; reflexivity|]. destruct (160 =? me_id m); discriminate Ty.
Qed.

Lemma E_virtual : forall d parent closed m w track time flags,
    type_in parent (me_id m) = Some TVirtual ->
    1 <= w <= 8 -> 0 <= track < 2 ^ (7 * w) -> -32768 <= time < 32768 -> is_byte flags ->
    me_size m = w + 3 ->
  skip m = false ->
  Eclaim d parent closed m (vint w track ++ be_bytes 2 time ++ [flags]) [] (Some (VVirtual track time)).
Proof.
  intros d parent closed m w track time flags Ty Hw Ht Hm Hf Sz Hsk cn max l p t md Hsel Hp P0 H0' Hb B _ Ok _. rewrite Hsk.
  assert (Lz : zlen (vint w track ++ be_bytes 2 time ++ [flags]) = w + 3).
  { rewrite !zlen_app, vint_len, be_bytes_zlen by lia. change (zlen [flags]) with 1. lia. }
  rewrite Lz in *. sized md Ok Sz.
  pose proof (sel_type _ _ _ _ _ Hsel Ty) as N. cbn [node_is] in N. subst cn.
  destruct (Header_full w track time flags l p t Hw Ht Hm) as [u E].
  eexists _, _, 1%nat. cbn [parser_Init]. unfold VirtualBlockParser_Init. rewrite Sz.
  assert (P : 2 ^ 62 < kUnknownElementSize) by reflexivity.
  replace ((w + 3 =? kUnknownElementSize) || (w + 3 <? 4)) with false by lia. split; [reflexivity|].
  split; [cbn [feed fst snd]; unfold VirtualBlockParser_Feed; cbn [vb_state vb_hp]; rewrite <- !app_assoc; rewrite E;
    cbn [negb Z.eqb kOkCompleted]; unfold vb_validate; cbn [vb_size vb_total vb_hp]; rewrite Z.add_0_l;
    replace (w + 3 <? w + 3) with false by lia; rewrite lg_nil; reflexivity|].
  split; [reflexivity|]. split; [reflexivity|]. split; [split; [apply wrapped_any; reflexivity | reflexivity]|].
  intros ->. exfalso. unfold type_in in Ty.
  match type of Ty with context [assoc ?p schema] =>
      let x := eval vm_compute in (assoc p schema) in change (assoc p schema) with x in Ty end.
  cbn [assoc] in Ty. repeat match type of Ty with context [?a =? ?b] => destruct (a =? b); [discriminate Ty|] end. discriminate Ty.
Qed.

(* ---------- master elements ---------- *)
Lemma master_loop : forall n d m bs items max l p t md v0,
  ctx n = Some (d, me_id m) ->
  Kclaim d (me_id m) (negb (me_size m =? kUnknownElementSize)) (me_pos m + me_hsize m) bs items ->
  p = me_pos m + me_hsize m -> 0 <= me_pos m -> 0 <= me_hsize m -> bytes bs -> p + zlen bs < 2 ^ 62 ->
  me_size m = zlen bs \/ (me_size m = kUnknownElementSize /\ bs <> []) ->
  md_ok md (me_id m) (negb (me_size m =? kUnknownElementSize)) max (zlen bs) l (p + zlen bs) ->
  max <= kUnknownElementSize -> v_skip v0 = false ->
  exists f m' c' v', agree (MasterParser_Init m max) m' /\
    (if m_cached m' then Some (m_cm m') else None) = md_cached md /\
    v_skip v' = false /\ v_complete v' = v_complete v0 /\ v_val v' = v_val v0 ++ new_vals n items /\
    v_started v' = v_started v0 || (is_cluster n && existsb starts items) /\
    loop f n false false (MasterParser_Init m max) CNone v0 0 (W (bs ++ l) p t)
    = Some (kOkCompleted, zlen bs + md_k md, (m', c', v'), W (md_rest md l) (p + zlen bs + md_k md)
        (lg (seqv (is_cluster n) (own_meta idCluster (MasterParser_Init m max)) (v_val v0) (v_started v0) items) t)).
Proof.
  intros n d m bs items max l p t md v0 Hn [K0 KC] Hp P0 H0' Hb B Sz Ok Mx Hv.
  assert (U : 2 ^ 62 < kUnknownElementSize) by reflexivity. pose proof (zlen_nonneg _ bs).
  destruct bs as [|b0 bs0] eqn:Eb.
  - assert (Q : me_size m = zlen (@nil Z)) by (destruct Sz as [Q | [_ Q]]; congruence). rewrite zlen_nil in *.
    sized md Ok Q. assert (items = []) by (apply K0; reflexivity). subst items.
    exists 1%nat, (MasterParser_Init m max), CNone, v0. split; [repeat split|]. split; [reflexivity|]. split; [exact Hv|].
    split; [reflexivity|]. split; [unfold new_vals; destruct (is_value n); rewrite app_nil_r; reflexivity|].
    split; [cbn [existsb]; rewrite andb_false_r, orb_false_r; reflexivity|].
    rewrite ml_MEnd by (unfold MasterParser_Init; cbn [m_state]; rewrite Q; reflexivity).
    cbn [seqv app]. reflexivity.
  - assert (NB : bs <> []) by (rewrite Eb; discriminate). rewrite <- Eb in *. clear b0 bs0 Eb.
    destruct (KC NB) as (x & more & i & its & Ei & Exi & Hh & S0 & B1 & NE & KK). clear KC.
    pose proof (zlen_pos _ NB) as L1. pose proof (hdr_len _ _ _ _ Hh) as (HL & Hz & _). pose proof (zlen_nonneg _ more).
    assert (St : m_state (MasterParser_Init m max) = MFirst).
    { unfold MasterParser_Init. cbn [m_state]. replace (me_size m =? 0) with false by (destruct Sz as [Q | [Q _]]; lia). reflexivity. }
    destruct (@ml_header skip n (MasterParser_Init m max) (bs ++ l) p x (more ++ l) St eq_refl eq_refl) as (m1 & A1 & A2 & A3 & A4 & A5 & A6).
    { rewrite Hp. apply hdr_app. exact Hh. }
    change (m_total (MasterParser_Init m max)) with 0 in A5.
    assert (Lim : limits (negb (me_size m =? kUnknownElementSize)) max 0 (zlen bs) m1).
    { apply (limits_agree _ _ _ _ (MasterParser_Init m max)); [exact A1|]. unfold limits, MasterParser_Init. cbn [m_size m_max].
      destruct Sz as [Q | [Q _]].
      - replace (me_size m =? kUnknownElementSize) with false by lia. cbn [negb]. lia.
      - rewrite Q, Z.eqb_refl. cbn [negb]. lia. }
    rewrite Hp in Ok.
    destruct (KK n m1 CNone v0 l t md max 0 Hn Hb ltac:(lia) ltac:(lia) A3 A4 ltac:(rewrite A2; reflexivity) A5 ltac:(lia) Lim Ok Hv)
      as (f & m' & c' & v' & R1 & R2 & R3 & R4 & R5 & R6 & R7).
    exists (S (S f)), m', c', v'. split; [exact (agree_trans _ _ _ A1 R1)|]. split; [exact R2|]. split; [exact R3|].
    split; [exact R4|]. split; [exact R5|]. split; [exact R6|]. rewrite A6, Hp, R7.
    rewrite (agree_own idCluster _ _ A1). do 4 f_equal. clear; ring.
Qed.

Lemma own_meta_init : forall m max, own_meta (me_id m) (MasterParser_Init m max) = m.
Proof. intros [a b c d] max. reflexivity. Qed.

Lemma vname_kind : forall vn, vn = VCluster \/ vn = VBlockGroup \/ (vn <> VCluster /\ vn <> VBlockGroup).
Proof. intro vn. destruct vn; auto; right; right; split; discriminate. Qed.

Lemma master_feed : forall n d m bs items max l p t md,
  ctx n = Some (d, me_id m) ->
  Kclaim d (me_id m) (negb (me_size m =? kUnknownElementSize)) (me_pos m + me_hsize m) bs items ->
  p = me_pos m + me_hsize m -> 0 <= me_pos m -> 0 <= me_hsize m -> bytes bs -> p + zlen bs < 2 ^ 62 ->
  me_size m = zlen bs \/ (me_size m = kUnknownElementSize /\ bs <> []) ->
  md_ok md (me_id m) (negb (me_size m =? kUnknownElementSize)) max (zlen bs) l (p + zlen bs) ->
  max <= kUnknownElementSize ->
  exists f m' c' v', (if m_cached m' then Some (m_cm m') else None) = md_cached md /\
    v_skip v' = false /\ v_val v' = new_vals n items /\
    feed cb f false (PMaster n (MasterParser_Init m max) CNone v_new) (W (bs ++ l) p t)
    = Some (kOkCompleted, zlen bs + md_k md, PMaster n m' c' v', W (md_rest md l) (p + zlen bs + md_k md) (lg (master_events m items) t)).
Proof.
  intros n d m bs items max l p t md Hn K Hp P0 H0' Hb B Sz Ok Mx.
  assert (L : forall t v0, v_skip v0 = false -> _) by
    (intros t' v0; exact (master_loop n d m bs items max l p t' md v0 Hn K Hp P0 H0' Hb B Sz Ok Mx)).
  clear K Hb B Sz Ok Mx.
  destruct n as [| | | | | | | | | | | | | | | | | | |vn| |]; try discriminate Hn.
  2-6: injection Hn as <- Hid;
    destruct (L t v_new eq_refl) as (f & m' & c' & v' & A & C & S1 & S2 & S3 & S4 & E);
    exists (S f), m', c', v'; (split; [exact C|]); (split; [exact S1|]); (split; [exact S3|]);
    rewrite fd_other by (discriminate || reflexivity);
    change (m_skip (MasterParser_Init m max)) with false; cbn [orb]; rewrite E; cbn [is_cluster]; rewrite seqv_plain;
    do 3 f_equal; unfold master_events; rewrite <- Hid; reflexivity.
  { (* Segment *)
    injection Hn as <- Hid.
    destruct (L (lg [EBegin KSegment m (VRec [])] t) (mk_vst [] false false true) eq_refl)
      as (f & m' & c' & v' & A & C & S1 & S2 & S3 & S4 & E).
    exists (S f), m', c', (mk_vst (v_val v') (v_skip v') true (v_started v')). split; [exact C|]. split; [exact S1|]. split; [exact S3|].
    rewrite fd_seg. change (v_started v_new) with false. cbv iota. rewrite notify_all. cbn [skips].
    change idSegment with Segment. rewrite Hid, own_meta_init. change (kOkCompleted =? kOkCompleted) with true.
    cbn [negb v_skip v_complete v_val v_started orb v_new]. cbv zeta.
    change (m_skip (MasterParser_Init m max)) with false. rewrite E.
    change (kOkCompleted =? kOkCompleted) with true. cbn [negb]. rewrite notify_all. cbn [skips].
    rewrite (agree_own (me_id m) _ _ A), own_meta_init. cbn [is_cluster]. rewrite seqv_plain.
    do 3 f_equal. unfold master_events. rewrite <- Hid. change (Segment =? Segment) with true. cbv iota.
    rewrite (lg_cons _ (item_events items ++ _)), lg_app. reflexivity. }
  (* the parsers with values *)
  destruct (vname_kind vn) as [-> | [-> | Hk]].
  - (* Cluster *)
    injection Hn as <- Hid.
    destruct (L t v_new eq_refl) as (f & m' & c' & v' & A & C & S1 & S2 & S3 & S4 & E).
    exists (S f), m', c', (mk_vst (v_val v') false true true). split; [exact C|]. split; [reflexivity|]. split; [exact S3|].
    pose proof (fd_val cb f false VCluster (MasterParser_Init m max) CNone v_new (W (bs ++ l) p t)) as Q.
    cbv zeta in Q. rewrite Q. clear Q. change (kOkCompleted =? kOkCompleted) with true.
    cbn [negb v_skip v_complete v_val v_started orb v_new]. change (m_skip (MasterParser_Init m max)) with false. rewrite E.
    change (kOkCompleted =? kSwitchToSkip) with false. cbv iota. change (kOkCompleted =? kOkCompleted) with true.
    cbn [negb v_skip v_complete v_val v_started orb v_new on_started on_completed].
    change idCluster with Cluster in *. rewrite S1, S4. cbn [v_started v_new orb is_cluster andb].
    rewrite (agree_own Cluster _ _ A). rewrite Hid. rewrite own_meta_init.
    unfold master_events. rewrite <- Hid. change (Cluster =? Segment) with false. change (Cluster =? Cluster) with true. cbv iota.
    rewrite cluster_events_seqv. cbn [app orb]. change (item_values []) with (@nil (Z * value)).
    cbn [v_val v_new app] in S3. unfold new_vals in S3. cbn [is_value] in S3.
    cbn [v_val v_started v_new]. destruct (existsb starts items).
    + cbn [negb v_skip v_val]. rewrite notify_all. cbn [skips]. rewrite S3. cbn [app]. rewrite lg_app. reflexivity.
    + rewrite notify_all. cbn [skips]. change (kOkCompleted =? kOkCompleted) with true. cbn [negb v_skip v_val]. rewrite notify_all.
      rewrite S3, !lg_app. reflexivity.
  - (* BlockGroup *)
    injection Hn as <- Hid.
    destruct (L (lg [EBegin KBlockGroup m (VRec [])] t) (mk_vst [] false false true) eq_refl)
      as (f & m' & c' & v' & A & C & S1 & S2 & S3 & S4 & E).
    exists (S f), m', c', (mk_vst (v_val v') false true true). split; [exact C|]. split; [reflexivity|]. split; [exact S3|].
    pose proof (fd_val cb f false VBlockGroup (MasterParser_Init m max) CNone v_new (W (bs ++ l) p t)) as Q.
    cbv zeta in Q. rewrite Q. clear Q. cbn [v_started v_new on_started]. cbv iota. rewrite notify_all. cbn [skips].
    change idBlockGroup with BlockGroup. rewrite Hid, own_meta_init. change (kOkCompleted =? kOkCompleted) with true.
    cbn [negb v_skip v_complete v_val v_started orb v_new]. change (m_skip (MasterParser_Init m max)) with false. rewrite E.
    change (kOkCompleted =? kSwitchToSkip) with false. cbv iota. change (kOkCompleted =? kOkCompleted) with true.
    cbn [negb v_skip v_complete v_val v_started orb on_completed]. rewrite S1, S4. cbn [v_started orb negb v_val v_skip].
    change idBlockGroup with BlockGroup. rewrite notify_all. cbn [skips]. rewrite Hid, (agree_own (me_id m) _ _ A), own_meta_init.
    cbn [is_cluster]. rewrite seqv_plain. cbn [v_val app] in S3. unfold new_vals in S3. cbn [is_value] in S3. rewrite S3.
    unfold master_events. rewrite <- Hid. change (BlockGroup =? Segment) with false. change (BlockGroup =? Cluster) with false.
    change (BlockGroup =? BlockGroup) with true. cbv iota. rewrite (lg_cons _ (item_events items ++ _)), lg_app. reflexivity.
  - (* the others *)
    destruct (L t v_new eq_refl) as (f & m' & c' & v' & A & C & S1 & S2 & S3 & S4 & E).
    exists (S f), m', c', (mk_vst (v_val v') false true true). split; [exact C|]. split; [reflexivity|]. split; [exact S3|].
    pose proof (fd_val cb f false vn (MasterParser_Init m max) CNone v_new (W (bs ++ l) p t)) as Q.
    cbv zeta in Q. rewrite Q. clear Q.
    replace (match vn with VBlockGroup => _ | _ => (kOkCompleted, v_new, W (bs ++ l) p t) end)
      with (kOkCompleted, v_new, W (bs ++ l) p t) by (destruct vn; try reflexivity; exfalso; tauto).
    cbv iota. change (kOkCompleted =? kOkCompleted) with true.
    cbn [negb v_skip v_complete v_val v_started orb v_new]. change (m_skip (MasterParser_Init m max)) with false. rewrite E.
    change (kOkCompleted =? kSwitchToSkip) with false. cbv iota. change (kOkCompleted =? kOkCompleted) with true.
    replace (is_cluster (NVal vn)) with false in * by (destruct vn; try reflexivity; exfalso; tauto).
    cbn [negb v_skip v_complete v_val v_started orb v_new andb] in *. rewrite S1, S4. cbv iota.
    replace (on_started cb (NVal vn)) with (fun (_ : bool) (_ : mst) (_ : vst) (w : world) => (kOkCompleted, false, w)).
    2:{ destruct vn; try reflexivity; exfalso; tauto. }
    cbv beta iota. change (kOkCompleted =? kOkCompleted) with true. cbn [negb v_skip]. rewrite seqv_plain.
    unfold new_vals in S3. cbn [is_value app] in S3.
    match goal with |- (let '(_, _) := ?x in _) = _ =>
      assert (E5 : x = (kOkCompleted, W (md_rest md l) (p + zlen bs + md_k md) (lg (master_events m items) t))) end.
    2:{ rewrite E5. reflexivity. }
    assert (Own : forall id, me_id m = id -> own_meta id m' = m).
    { intros id <-. rewrite (agree_own _ _ _ A). apply own_meta_init. }
    unfold master_events.
    destruct vn; try (exfalso; tauto); injection Hn as _ Hid; pose proof (Own _ (eq_sym Hid)) as Ow; rewrite <- Hid;
      cbn [on_completed v_val];
      repeat match goal with |- context [if ?a =? ?b then _ else _] =>
        let c := eval vm_compute in (a =? b) in change (a =? b) with c; cbv iota end;
      try reflexivity;
      rewrite notify_all; cbn [skips]; rewrite S3, lg_app;
      match type of Ow with own_meta ?j m' = _ => match goal with |- context [own_meta ?i m'] => change (own_meta i m') with (own_meta j m') end end;
      rewrite Ow; reflexivity.
Qed.

Lemma E_master : forall d d' parent closed m bs items,
  type_in parent (me_id m) = Some TMaster -> inner d parent (me_id m) = Some d' ->
  Kclaim d' (me_id m) (negb (me_size m =? kUnknownElementSize)) (me_pos m + me_hsize m) bs items ->
  skip m = false ->
  Eclaim d parent closed m bs (master_events m items) (Some (VRec (item_values items))).
Proof.
  intros d d' parent closed m bs items Ty In K Hsk cn max l p t md Hsel Hp P0 H0' Hb B Sz Ok Mx. rewrite Hsk.
  pose proof (sel_type _ _ _ _ _ Hsel Ty) as N. cbn [node_is] in N. destruct (N _ In) as (cn' & Mn & Cx).
  destruct (master_feed cn' d' m bs items max l p t md Cx K Hp P0 H0' Hb B ltac:(clear - Sz; tauto) Ok Mx) as (f & m' & c' & v' & C & Sk & V & F).
  assert (Wsk : was_skipped (PMaster cn' m' c' v') = false) by (cbn [was_skipped]; destruct cn'; try reflexivity; exact Sk).
  assert (Pv : is_value cn' = true -> v_val v' = item_values items) by (intro Q; rewrite V; unfold new_vals; rewrite Q; reflexivity).
  assert (Grp : parent = Cluster -> me_id m = BlockGroup).
  { intros ->. unfold type_in in Ty.
    match type of Ty with context [assoc ?p schema] =>
      let x := eval vm_compute in (assoc p schema) in change (assoc p schema) with x in Ty end.
    cbn [assoc] in Ty. unfold BlockGroup.
    destruct (231 =? me_id m); [discriminate Ty|]. destruct (171 =? me_id m); [discriminate Ty|].
    destruct (163 =? me_id m); [discriminate Ty|]. destruct (Z.eqb_spec 160 (me_id m)); [auto | discriminate Ty]. }
  destruct Mn as [[-> M] | [(d2 & -> & ->) | (d2 & -> & ->)]].
  - exists (PMaster cn' (MasterParser_Init m max) CNone v_new), (PMaster cn' m' c' v'), f.
    split; [destruct cn'; try discriminate M; reflexivity|]. split; [exact F|]. split; [exact C|]. split; [exact Wsk|].
    split; [split; [apply wrapped_any; reflexivity | intro Q; cbn [p_value]; rewrite Pv by (apply Q; exact M); reflexivity]|].
    intro Q. specialize (Grp Q). unfold starts. cbn [i_meta i_value]. rewrite Grp in Cx |- *. cbn [is_start].
    assert (cn' = NVal VBlockGroup) by (destruct cn'; try discriminate Cx; destruct v; try discriminate Cx; reflexivity).
    subst cn'. reflexivity.
  - exists (PRec (PMaster (NVal (VAtom d2)) (MasterParser_Init m max) CNone v_new)), (PRec (PMaster (NVal (VAtom d2)) m' c' v')), (S f).
    split; [reflexivity|]. cbn [ctx] in Cx.
    assert (Hid : me_id m = ChapterAtom) by congruence.
    assert (md = MdSz).
    { destruct Sz as [Q | (_ & _ & [Q | Q])]; [exact (sized_mode md _ m max (zlen bs) _ _ Q ltac:(lia) Ok)| |]; rewrite Hid in Q; discriminate Q. }
    subst md. split; [cbn [feed]; rewrite F; reflexivity|].
    split; [reflexivity|]. split; [reflexivity|].
    split; [split; [apply wrapped_any; reflexivity | intro Q; cbn [p_value]; rewrite Pv by reflexivity; reflexivity]|].
    intro Q. specialize (Grp Q). rewrite Grp in Hid. discriminate Hid.
  - exists (PRec (PMaster (NVal (VSimpleTag d2)) (MasterParser_Init m max) CNone v_new)), (PRec (PMaster (NVal (VSimpleTag d2)) m' c' v')), (S f).
    split; [reflexivity|]. cbn [ctx] in Cx.
    assert (Hid : me_id m = SimpleTag) by congruence.
    assert (md = MdSz).
    { destruct Sz as [Q | (_ & _ & [Q | Q])]; [exact (sized_mode md _ m max (zlen bs) _ _ Q ltac:(lia) Ok)| |]; rewrite Hid in Q; discriminate Q. }
    subst md. split; [cbn [feed]; rewrite F; reflexivity|].
    split; [reflexivity|]. split; [reflexivity|].
    split; [split; [apply wrapped_any; reflexivity | intro Q; cbn [p_value]; rewrite Pv by reflexivity; reflexivity]|].
    intro Q. specialize (Grp Q). rewrite Grp in Hid. discriminate Hid.
Qed.

Theorem document_claims :
  (forall d parent closed m bs evs val, element d parent closed m bs evs val ->
     element d parent closed m bs evs val /\ (skip m = false -> Eclaim d parent closed m bs evs val)) /\
  (forall d parent closed pos bs items, elements d parent closed pos bs items -> Kclaim d parent closed pos bs items).
Proof.
  apply document_mind.
  - intros. split; [eapply e_scalar; eassumption | eapply E_scalar; eassumption].
  - intros. split; [apply e_void; assumption | apply E_void; assumption].
  - intros. split; [apply e_unknown; assumption | apply E_unknown; assumption].
  - intros. split; [apply e_block; assumption | apply E_block; assumption].
  - intros. split; [apply e_virtual; assumption | apply E_virtual; assumption].
  - intros. split; [eapply e_master; eassumption | eapply E_master; eassumption].
  - intros. apply K_none.
  - intros d parent closed pos id ib w payload rest events v items Hi [Hw Hf] Hsk _ [El EC] _ K.
    pose proof (@K_cons skip d parent closed pos id ib w (zlen payload) payload rest events v items) as Kc. cbv zeta in Kc.
    rewrite size_value_known in Kc by (split; assumption).
    apply Kc; try assumption; [pose proof (zlen_nonneg _ payload); lia | exact (el_open _ _ _ _ _ _ _ El) | | congruence | auto | left; reflexivity].
    intros Q B. exfalso. cbn [me_size] in Q. assert (U : 2 ^ 62 < kUnknownElementSize) by reflexivity. lia.
  - intros d parent closed pos id ib w payload rest events v items Hi Hw NE Ends Hsk _ [El EC] _ K.
    pose proof (@K_cons skip d parent closed pos id ib w (2 ^ (7 * w) - 1) payload rest events v items) as Kc. cbv zeta in Kc.
    rewrite size_value_unknown in Kc by assumption. pose proof (pow2_pos (7 * w) ltac:(lia)).
    apply Kc; try assumption; [lia | exact (el_open _ _ _ _ _ _ _ El) | | congruence | auto | right; repeat split; assumption].
    intros Q B. split; [exact (el_unsized _ _ _ _ _ _ _ El Q B) | exact Hsk].
  - intros d parent closed pos id ib w payload rest items Hi [Hw Hf] Hsk Op _ K.
    pose proof (@K_cons skip d parent closed pos id ib w (zlen payload) payload rest [] None items) as Kc. cbv zeta in Kc.
    rewrite size_value_known in Kc by (split; assumption).
    apply Kc; try assumption; [pose proof (zlen_nonneg _ payload); lia | | reflexivity | apply E_skipped; [reflexivity | exact Hsk] | left; reflexivity].
    intros Q B. exfalso. cbn [me_size] in Q. assert (U : 2 ^ 62 < kUnknownElementSize) by reflexivity. lia.
Qed.
End skip.
Arguments master_loop {skip}.
Arguments master_feed {skip}.
Arguments document_claims {skip}.
Arguments E_skipped {skip}.
