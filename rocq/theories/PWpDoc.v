(* Proofs about the callback parser: a well-formed document is reported correctly. *)
From Coq Require Import ZifyBool ZifyNat.
From Verif Require Import Base EbmlSpec LacingSpec WpSpec WpDocSpec MWp MWpBlock MWpTree PParUtil PWp3
  PWpRead PWpLeaf PWpBlk.

Local Notation W l p t := (mk_world l p [] t).

(* ---------- the parsers and the schema ---------- *)
(* the levels left in, and the identifier of, the master element a parser is for *)
Definition ctx (n : node) : option (nat * Z) :=
  match n with
  | NSegment => Some (O, Segment) | NChapters => Some (O, 0x1043A770) | NCues => Some (O, 0x1C53BB6B)
  | NSeekHead => Some (O, 0x114D9B74) | NTags => Some (O, 0x1254C367) | NTracks => Some (O, 0x1654AE6B)
  | NVal v =>
      match v with
      | VEbml => Some (O, Ebml) | VSeek => Some (O, Seek) | VInfo => Some (O, Info)
      | VCluster => Some (O, Cluster) | VBlockGroup => Some (O, BlockGroup)
      | VBlockAdditions => Some (O, 0x75A1) | VBlockMore => Some (O, 0xA6) | VSlices => Some (O, 0x8E)
      | VTimeSlice => Some (O, 0xE8) | VTrackEntry => Some (O, TrackEntry) | VVideo => Some (O, 0xE0)
      | VColour => Some (O, 0x55B0) | VMastering => Some (O, 0x55D0) | VProjection => Some (O, 0x7670)
      | VAudio => Some (O, 0xE1) | VEncodings => Some (O, 0x6D80) | VEncoding => Some (O, 0x6240)
      | VEncryption => Some (O, 0x5035) | VAes => Some (O, 0x47E7) | VCuePoint => Some (O, CuePoint)
      | VCueTrackPositions => Some (O, 0xB7) | VEdition => Some (O, EditionEntry) | VDisplay => Some (O, 0x80)
      | VTag => Some (O, Tag) | VTargets => Some (O, 0x63C0)
      | VAtom d => Some (d, ChapterAtom) | VSimpleTag d => Some (d, SimpleTag)
      end
  | _ => None
  end.
(* a parser that handles the master element itself, or a wrapper around it *)
Definition master_node (d : nat) (cn cn' : node) : Prop :=
  (cn = cn' /\ is_master cn = true) \/ (exists d', cn = NRecAtom (S d') /\ cn' = NVal (VAtom d'))
  \/ (exists d', cn = NRecTag (S d') /\ cn' = NVal (VSimpleTag d')).
Definition node_is (d : nat) (parent id : Z) (ty : ety) (cn : node) : Prop :=
  match ty with
  | TScalar s => scalar_node cn s
  | TBlock b => cn = NBlock b
  | TVirtual => cn = NVirtual
  | TMaster => forall d', inner d parent id = Some d' -> exists cn', master_node d cn cn' /\ ctx cn' = Some (d', id)
  end.
(* the parser chosen for an element with that identifier *)
Definition sel (d : nat) (parent id : Z) (cn : node) : Prop :=
  (type_in parent id = None /\ id <> Void /\ cn = NUnknown) \/ (type_in parent id = None /\ id = Void /\ cn = NVoid) \/
  (exists ty, type_in parent id = Some ty /\ node_is d parent id ty cn).

Lemma inner_other : forall d parent id, (id =? ChapterAtom) || (id =? SimpleTag) = false -> inner d parent id = Some O.
Proof. intros d parent id H. unfold inner. rewrite H. reflexivity. Qed.

Lemma schema_ok : forall n d parent id, ctx n = Some (d, parent) ->
  match lookup id (children n) with
  | None => type_in parent id = None /\ id <> Void
  | Some cn => sel d parent id cn /\ cn <> NUnknown
  end.
Proof.
  intros n d parent id H. unfold sel, type_in.
  destruct n; try discriminate H; [.. | destruct v; try discriminate H];
    cbn [ctx] in H; injection H as <- <-;
    match goal with |- context [assoc ?p schema] =>
      let x := eval vm_compute in (assoc p schema) in change (assoc p schema) with x end;
    match goal with |- context [children ?n] =>
      let x := eval vm_compute in (children n) in change (children n) with x end;
    cbn [lookup assoc]; unfold Void;
    repeat match goal with |- context [?a =? id] => destruct (Z.eqb_spec a id) as [E|?]; [subst id; clear | ] end.
  all: try (split; [reflexivity | congruence]).
  all: split; [|discriminate].
  all: try (right; left; split; [vm_compute; reflexivity | split; reflexivity]).
  all: right; right; eexists; (split; [vm_compute; reflexivity|]).
  all: try reflexivity.
  all: cbn [node_is]; intros d' Hd; vm_compute in Hd.
  all: try (injection Hd as <-; eexists; (split; [left; split; reflexivity | reflexivity])).
  all: match type of Hd with context [match ?x with _ => _ end] => destruct x end; [discriminate Hd|]; injection Hd as <-.
  - eexists. split; [right; left; eexists; split; reflexivity | reflexivity].
  - eexists. split; [right; right; eexists; split; reflexivity | reflexivity].
Qed.

Lemma type_in_void : forall p, type_in p Void = None.
Proof.
  intro p. unfold type_in. destruct (assoc p schema) as [l|] eqn:E; [|reflexivity].
  assert (G : forall s : list (Z * list (Z * ety)), (forall q (x : list (Z * ety)), In (q, x) s -> assoc Void x = None) -> forall x, assoc p s = Some x -> assoc Void x = None).
  { clear. induction s as [|[q y] s IH]; intros HI x E; [discriminate E|]. cbn [assoc] in E. destruct (q =? p).
    - injection E as <-. apply (HI q y). left; reflexivity.
    - apply IH; [|exact E]. intros q' x' I. apply (HI q' x'). right; exact I. }
  refine (G schema _ l E). clear. intros q x I.
  assert (F : forallb (fun e => match assoc Void (snd e) with None => true | _ => false end) schema = true) by (vm_compute; reflexivity).
  rewrite forallb_forall in F. specialize (F _ I). cbn [snd] in F. destruct (assoc Void x); [discriminate F | reflexivity].
Qed.

(* the value parsers contain value parsers only *)
Lemma value_children : forall v id cn, lookup id (children (NVal v)) = Some cn -> is_master cn = true -> is_value cn = true.
Proof.
  intros v id cn L M.
  destruct v; match type of L with context [children ?n] =>
      let x := eval vm_compute in (children n) in change (children n) with x in L end;
    cbn [lookup] in L;
    repeat match type of L with context [?a =? id] => destruct (a =? id) end;
    try discriminate L; injection L as <-; try reflexivity; discriminate M.
Qed.

Lemma schema_parent : forall id q0, forallb (fun e => match assoc id (snd e) with None => true | _ => fst e =? q0 end) schema = true ->
  forall p, type_in p id <> None -> p = q0.
Proof.
  intros id q0 F p H. unfold type_in in H. destruct (assoc p schema) as [l|] eqn:E; [|congruence].
  revert F E. generalize schema. induction l0 as [|[q y] s IH]; intros F E; [discriminate E|]. cbn [assoc forallb fst snd] in *.
  apply andb_true_iff in F. destruct F as [F1 F2]. destruct (Z.eqb_spec q p).
  - injection E as ->. subst q. destruct (assoc id l); [lia | congruence].
  - apply IH; assumption.
Qed.
Lemma segment_parent : forall p, type_in p Segment <> None -> p = 0.
Proof. apply schema_parent. vm_compute. reflexivity. Qed.
Lemma cluster_parent : forall p, type_in p Cluster <> None -> p = Segment.
Proof. apply schema_parent. vm_compute. reflexivity. Qed.
Lemma ctx_not_document : forall n d, ctx n <> Some (d, 0).
Proof. intros n d H. destruct n; try discriminate H. destruct v; discriminate H. Qed.

(* ---------- headers ---------- *)
Lemma vint_len : forall w v, 0 <= w -> zlen (vint w v) = w.
Proof. intros w v H. unfold vint. rewrite be_bytes_zlen. lia. Qed.
Inductive hdr : list Z -> Z -> meta -> list Z -> Prop :=
| hdr_i : forall id ib w n more pos, is_id_bytes id ib -> 1 <= w <= 8 -> 0 <= n < 2 ^ (7 * w) ->
    hdr (ib ++ vint w n ++ more) pos (mk_meta id (zlen ib + w) (size_value (mk_vist 0 (w - 1) n)) pos) more.
Lemma hdr_app : forall bs pos x more l, hdr bs pos x more -> hdr (bs ++ l) pos x (more ++ l).
Proof. intros bs pos x more l H. destruct H. rewrite <- !app_assoc. constructor; assumption. Qed.
Lemma id_bytes_len : forall id ib, is_id_bytes id ib -> 1 <= zlen ib <= 4.
Proof. intros id ib (w & [Hw _] & ->). rewrite be_bytes_zlen. lia. Qed.
Lemma hdr_len : forall bs pos x more, hdr bs pos x more -> zlen bs = me_hsize x + zlen more /\ 2 <= me_hsize x <= 12 /\ me_pos x = pos.
Proof.
  intros bs pos x more H. destruct H as [id ib w n more pos Hi Hw Hn]. pose proof (id_bytes_len _ _ Hi).
  cbn [me_hsize me_pos]. rewrite !zlen_app, vint_len by lia. lia.
Qed.

Lemma hdr_bytes : forall bs pos x more, hdr bs pos x more -> bytes bs -> bytes more.
Proof. intros bs pos x more H Hb. destruct H. unfold bytes in *. rewrite !Forall_app in Hb. tauto. Qed.

(* the fields of a master parser that never change *)
Definition agree (m m' : mst) : Prop :=
  m_hsize m' = m_hsize m /\ m_size m' = m_size m /\ m_pos m' = m_pos m /\ m_max m' = m_max m.
Lemma agree_trans : forall a b c, agree a b -> agree b c -> agree a c.
Proof. unfold agree. intros a b c (A & B & C & D) (E & F & G & H). repeat split; congruence. Qed.
Lemma agree_cap : forall a b, agree a b -> byte_cap b = byte_cap a.
Proof. unfold agree, byte_cap. intros a b (A & B & C & D). rewrite B, D. reflexivity. Qed.
Lemma agree_own : forall id a b, agree a b -> own_meta id b = own_meta id a.
Proof. unfold agree, own_meta. intros id a b (A & B & C & D). congruence. Qed.

Lemma mst_eq : forall a b, m_state a = m_state b -> m_idp a = m_idp b -> m_szp a = m_szp b -> m_cm a = m_cm b ->
  m_skip a = m_skip b -> m_hsize a = m_hsize b -> m_size a = m_size b -> m_pos a = m_pos b -> m_max a = m_max b ->
  m_total a = m_total b -> m_cached a = m_cached b -> a = b.
Proof.
  intros [a1 a2 a3 a4 a5 a6 a7 a8 a9 a10 a11] [b1 b2 b3 b4 b5 b6 b7 b8 b9 b10 b11].
  cbn [m_state m_idp m_szp m_cm m_skip m_hsize m_size m_pos m_max m_total m_cached]. congruence.
Qed.

Section skip.
Variable skip : meta -> bool.
Local Notation cb := (skipping skip).
Local Notation lg := (lg skip).
Local Notation loop := (mloop cb).
Local Notation element := (element_skip skip).

Lemma ml_header : forall n m bs pos x more, m_state m = MFirst -> m_idp m = id_new -> m_szp m = vi_new ->
  hdr bs pos x more ->
  exists m', agree m m' /\ m_cached m' = m_cached m /\ m_state m' = MValidate /\ m_cm m' = x /\
    m_total m' = m_total m + me_hsize x /\
    forall f c v nr t, loop (S (S f)) n false false m c v nr (W bs pos t)
      = loop f n false false m' c v (nr + me_hsize x) (W more (pos + me_hsize x) t).
Proof.
  intros n m bs pos x more Hs Hi Hz H. destruct H as [id ib w k more pos Ib Hw Hk].
  exists (mk_mst MValidate (mk_idst 0 id) (mk_vist 0 (w - 1) k)
            (mk_meta id (zlen ib + w) (size_value (mk_vist 0 (w - 1) k)) pos)
            (m_skip m) (m_hsize m) (m_size m) (m_pos m) (m_max m) (m_total m + zlen ib + w) (m_cached m)).
  split; [repeat split|]. split; [reflexivity|]. split; [reflexivity|]. split; [reflexivity|].
  split; [cbn [m_total me_hsize]; ring|].
  intros f c v nr t. rewrite ml_MFirst by exact Hs. cbv zeta. rewrite Hi, (Id_full id ib) by exact Ib.
  change (kOkCompleted =? kEndOfFile) with false. change (kOkCompleted =? kOkCompleted) with true.
  cbn [andb negb orb w_pos]. cbv iota.
  rewrite ml_MSize by reflexivity. cbv zeta.
  match goal with |- context [m_szp (m_set_state MSize ?m1)] => change (m_szp (m_set_state MSize m1)) with (m_szp m) end.
  rewrite Hz, Size_full by assumption. change (kOkCompleted =? kOkCompleted) with true. cbn [negb]. cbv iota.
  cbn [me_hsize]. rewrite !Z.add_assoc.
  match goal with |- loop f n false false ?a _ _ _ _ = loop f n false false ?b _ _ _ _ => replace a with b; [reflexivity|] end.
  apply mst_eq; reflexivity.
Qed.

Lemma ml_eof : forall n m pos, m_state m = MFirst -> m_idp m = id_new -> m_size m = kUnknownElementSize ->
  exists m', agree m m' /\ m_cached m' = m_cached m /\
    forall f c v nr t, loop (S (S f)) n false false m c v nr (W [] pos t)
      = Some (kOkCompleted, nr, (m', c, v), W [] pos t).
Proof.
  intros n m pos Hs Hi Hu. eexists. split; [|split].
  3:{ intros f c v nr t. rewrite ml_MFirst by exact Hs. cbv zeta. rewrite Hi.
      change (IdParser_Feed id_new (W [] pos t)) with (kEndOfFile, 0, id_new, W [] pos t). rewrite Hu.
      cbn [w_pos]. change ((kEndOfFile =? kEndOfFile) && (kUnknownElementSize =? kUnknownElementSize) && (0 =? 0)) with true.
      cbv iota. rewrite ml_MEnd by reflexivity. rewrite Z.add_0_r. reflexivity. }
  - repeat split.
  - reflexivity.
Qed.

(* ---------- how the content of an element ends ---------- *)
(* its size is known; it is the last thing its parent has room for; the data ends;
   an element that is not its child follows *)
Inductive mode := MdSz | MdCap | MdEof | MdNext (x : meta) (more : list Z).
Definition md_k (md : mode) : Z := match md with MdNext x _ => me_hsize x | _ => 0 end.
Definition md_rest (md : mode) (l : list Z) : list Z := match md with MdNext _ more => more | _ => l end.
Definition md_cached (md : mode) : option meta := match md with MdNext x _ => Some x | _ => None end.
Definition md_ok (md : mode) (id : Z) (closed : bool) (max len : Z) (l : list Z) (p : Z) : Prop :=
  if closed then md = MdSz
  else (id = Segment -> md = MdEof) /\
    match md with
    | MdSz => False
    | MdCap => max = len
    | MdEof => l = [] /\ len < max
    | MdNext x more =>
        hdr l p x more /\ type_in id (me_id x) = None /\ me_id x <> Void /\ 0 <= me_size x /\
        len + me_hsize x + (if me_size x =? kUnknownElementSize then 0 else me_size x) <= max
    end.

Definition is_cluster (n : node) : bool := match n with NVal VCluster => true | _ => false end.
(* the notifications about the children of a master element, without its own *)
Fixpoint seqv (clus : bool) (m : meta) (vals : list (Z * value)) (started : bool) (items : list item) : list event :=
  match items with
  | [] => []
  | i :: r => EElement (i_meta i)
      :: (if clus && starts i && negb started then [EBegin KCluster m (VRec vals)] else [])
      ++ i_events i ++ seqv clus m (vals ++ item_values [i]) (started || clus && starts i) r
  end.
Definition new_vals (n : node) (items : list item) : list (Z * value) := if is_value n then item_values items else [].

Lemma item_values_app : forall a b, item_values (a ++ b) = item_values a ++ item_values b.
Proof. intros. unfold item_values. rewrite map_app, concat_app. reflexivity. Qed.
Lemma seqv_plain : forall m vals st items, seqv false m vals st items = item_events items.
Proof.
  intros m vals st items. revert vals st. induction items as [|i r IH]; intros vals st; [reflexivity|].
  cbn [seqv andb]. rewrite IH. unfold item_events. cbn [map concat app]. reflexivity.
Qed.
Lemma cluster_events_seqv : forall m items before st,
  cluster_events m before st items
  = seqv true m (item_values before) st items
    ++ (if st || existsb starts items then [] else [EBegin KCluster m (VRec (item_values (before ++ items)))])
    ++ [EEnd KCluster m (VRec (item_values (before ++ items)))].
Proof.
  intros m items. induction items as [|i r IH]; intros before st.
  - cbn [cluster_events seqv existsb app]. rewrite orb_false_r, app_nil_r. reflexivity.
  - cbn [cluster_events seqv existsb]. rewrite IH, item_values_app. cbn [andb].
    rewrite <- (app_assoc before [i] r). cbn [app]. rewrite <- !app_assoc. rewrite <- (orb_assoc st). reflexivity.
Qed.

Definition Eclaim (d : nat) (parent : Z) (closed : bool) (m : meta) (bs : list Z) (evs : list event) (val : option value) : Prop :=
  forall cn max l p t md,
    sel d parent (me_id m) cn -> p = me_pos m + me_hsize m -> 0 <= me_pos m -> 0 <= me_hsize m ->
    bytes bs -> p + zlen bs < 2 ^ 62 ->
    me_size m = zlen bs \/ (me_size m = kUnknownElementSize /\ bs <> [] /\ (me_id m = Segment \/ me_id m = Cluster)) ->
    md_ok md (me_id m) (negb (me_size m =? kUnknownElementSize)) max (zlen bs) l (p + zlen bs) ->
    max <= kUnknownElementSize ->
    exists p0 p1 f, parser_Init (if skip m then NSkip else cn) m max = (kOkCompleted, p0) /\
      feed cb f (skip m) p0 (W (bs ++ l) p t)
      = Some (kOkCompleted, zlen bs + md_k md, p1, W (md_rest md l) (p + zlen bs + md_k md) (lg evs t)) /\
      cached p1 = md_cached md /\ was_skipped p1 = false /\
      match val with
      | Some v => (forall n', wrapped n' p0 = is_value n') /\ ((is_master cn = true -> is_value cn = true) -> p_value p1 = v)
      | None => forall n', wrapped n' p0 = false
      end /\
      (parent = Cluster -> is_start (NVal VCluster) p0 = starts (mk_item m evs val)).

Definition Kclaim (d : nat) (parent : Z) (closed : bool) (pos : Z) (bs : list Z) (items : list item) : Prop :=
  (items = [] <-> bs = []) /\
  (bs <> [] -> exists x more i its, items = i :: its /\ i_meta i = x /\ hdr bs pos x more /\ 0 <= me_size x /\
    (me_size x = kUnknownElementSize \/ me_hsize x + me_size x <= zlen bs) /\
    (me_size x <> 0 \/ its <> [] -> me_hsize x < zlen bs) /\
    forall n m c v l t md max T, ctx n = Some (d, parent) -> bytes bs -> 0 <= pos -> pos + zlen bs < 2 ^ 62 ->
      m_state m = MValidate -> m_cm m = x -> m_cached m = false -> m_total m = T + me_hsize x -> - me_hsize x <= T <= pos ->
      (if closed then m_size m = T + zlen bs /\ m_max m = T + zlen bs
       else m_size m = kUnknownElementSize /\ m_max m = T + max /\ m_max m <= kUnknownElementSize) ->
      md_ok md parent closed max (zlen bs) l (pos + zlen bs) ->
      v_skip v = false ->
      exists f m' c' v', agree m m' /\
        (if m_cached m' then Some (m_cm m') else None) = md_cached md /\
        v_skip v' = false /\ v_complete v' = v_complete v /\ v_val v' = v_val v ++ new_vals n items /\
        v_started v' = v_started v || (is_cluster n && existsb starts items) /\
        forall nr, loop f n false false m c v nr (W (more ++ l) (pos + me_hsize x) t)
          = Some (kOkCompleted, nr + (zlen bs - me_hsize x) + md_k md, (m', c', v'),
                  W (md_rest md l) (pos + zlen bs + md_k md)
                    (lg (seqv (is_cluster n) (own_meta idCluster m) (v_val v) (v_started v) items) t))).

(* ---------- one child ---------- *)
Lemma ml_child : forall n m c v t l0 p cn p0 p1 k w' evs st,
  m_state m = MValidate ->
  (if me_size (m_cm m) =? kUnknownElementSize then m_total m else wrap64 (m_total m + me_size (m_cm m))) <= byte_cap m ->
  lookup (me_id (m_cm m)) (children n) = Some cn \/
    (lookup (me_id (m_cm m)) (children n) = None /\ (m_size m =? kUnknownElementSize) = false
     /\ (me_size (m_cm m) =? kUnknownElementSize) = false /\ cn = NUnknown) ->
  (skip (m_cm m) = true -> (me_size (m_cm m) =? kUnknownElementSize) = false /\ wrapped n p0 = false) ->
  parser_Init (if skip (m_cm m) then NSkip else cn) (m_cm m) (m_max m - m_total m) = (kOkCompleted, p0) ->
  (is_cluster n = true -> is_start (NVal VCluster) p0 && wrapped n p0 = st) -> (is_cluster n = false -> st = false) ->
  v_skip v = false ->
  evs = EElement (m_cm m) :: (if st && negb (v_started v) then [EBegin KCluster (own_meta idCluster m) (VRec (v_val v))] else []) ->
  was_skipped p1 = false ->
  exists m1 v1, agree m m1 /\ m_cached m1 = m_cached m /\ m_state m1 = MParsed /\ m_total m1 = m_total m + k /\
    m_cm m1 = m_cm m /\
    v1 = mk_vst (v_val v ++ (if wrapped n p0 then [(me_id (m_cm m), p_value p1)] else [])) false (v_complete v) (v_started v || st) /\
    forall f nr, feed cb f (skip (m_cm m)) p0 (W l0 p (lg evs t)) = Some (kOkCompleted, k, p1, w') ->
      loop (S (S (S (S f)))) n false false m c v nr (W l0 p t)
      = loop f n false (skip (m_cm m)) m1 (CAct p1) v1 (nr + k) w'.
Proof.
  intros n m c v t l0 p cn p0 p1 k w' evs st Hs Hc Hl Hk Hi Hst Hst2 Hv Hev Hw.
  exists (mk_mst MParsed (m_idp m) (m_szp m) (m_cm m) (skip (m_cm m)) (m_hsize m) (m_size m) (m_pos m) (m_max m) (m_total m + k) (m_cached m)).
  eexists. split; [repeat split|]. split; [reflexivity|]. split; [reflexivity|]. split; [reflexivity|]. split; [reflexivity|].
  split; [reflexivity|]. intros f nr Hf.
  rewrite ml_MValidate by exact Hs. cbv zeta.
  match goal with |- context [?a <? ?b] => replace (a <? b) with false by (symmetry; apply Z.ltb_ge; exact Hc) end.
  match goal with |- ?lhs = _ => assert (E1 : lhs = loop (S (S (S f))) n false false (m_set_state MAction m) (CSel cn) v nr (W l0 p t)) end.
  { destruct Hl as [Hl | (Hl & U1 & U2 & ->)]; rewrite Hl; [reflexivity|]. rewrite U1, U2. reflexivity. }
  rewrite E1; clear E1.
  rewrite ml_MAction by reflexivity. cbv zeta. rewrite notify_all. change (kOkCompleted =? kOkCompleted) with true. cbn [negb].
  change (m_cm (m_set_state MAction m)) with (m_cm m). cbn [skips].
  match goal with |- ?lhs = _ =>
    assert (E1 : lhs = loop (S (S f)) n false (skip (m_cm m)) (m_set_state MInit (m_set_skip (skip (m_cm m)) (m_set_state MAction m)))
      (CSel (if skip (m_cm m) then NSkip else cn)) v nr (W l0 p (lg [EElement (m_cm m)] t))) end.
  { destruct (skip (m_cm m)); [|reflexivity]. destruct (Hk eq_refl) as [-> _]. reflexivity. }
  rewrite E1; clear E1.
  rewrite ml_MInit by reflexivity.
  match goal with |- context [parser_Init ?cc ?a ?b] => change (parser_Init cc a b) with (parser_Init cc (m_cm m) (m_max m - m_total m)) end. rewrite Hi.
  change (kOkCompleted =? kOkCompleted) with true. cbn [negb].
  rewrite ml_MBody by reflexivity. cbv zeta.
  set (m4 := m_set_state MBody _).
  assert (E2 : (if wrapped n p0 && is_start n p0 && negb (v_started v) then
                  let '(s1, sk1, w1) := on_started cb n (skip (m_cm m)) m4 v (W l0 p (lg [EElement (m_cm m)] t)) in
                  (if negb (s1 =? kOkCompleted) then s1 else if sk1 then kSwitchToSkip else kOkCompleted,
                   mk_vst (v_val v) sk1 (v_complete v) (s1 =? kOkCompleted), w1)
                else (kOkCompleted, v, W l0 p (lg [EElement (m_cm m)] t)))
    = (kOkCompleted, mk_vst (v_val v) false (v_complete v) (v_started v || st), W l0 p (lg evs t))).
  { subst evs. destruct (is_cluster n) eqn:Ec.
    - specialize (Hst eq_refl). destruct n; try discriminate Ec. destruct v0; try discriminate Ec.
      rewrite (andb_comm (wrapped _ _)), Hst. destruct (st && negb (v_started v)) eqn:Es.
      + replace (skip (m_cm m)) with false.
        2:{ destruct (skip (m_cm m)); [|reflexivity]. destruct (Hk eq_refl) as [_ Q]. rewrite Q, andb_false_r in Hst. subst st. discriminate Es. }
        cbn [on_started]. rewrite notify_all. change (kOkCompleted =? kOkCompleted) with true. cbn [negb].
        destruct st; [|discriminate Es]. destruct (v_started v); [discriminate Es|]. reflexivity.
      + destruct v as [a b c0 d]. cbn [v_val v_skip v_complete v_started] in *. subst b.
        replace (d || st) with d by (destruct d, st; cbn in *; congruence). reflexivity.
    - rewrite (Hst2 eq_refl). replace (is_start n p0) with false.
      2:{ destruct n; try reflexivity. destruct v0; try reflexivity. discriminate Ec. }
      rewrite andb_false_r. cbn [andb]. rewrite orb_false_r. destruct v as [a b c0 d]. cbn [v_val v_skip v_complete v_started] in *.
      subst b. reflexivity. }
  match goal with |- context [let '(_, _) := ?x in _] =>
    replace x with (kOkCompleted, mk_vst (v_val v) false (v_complete v) (v_started v || st), W l0 p (lg evs t)) by (symmetry; exact E2) end.
  cbv iota. change (kOkCompleted =? kOkCompleted) with true. cbn [negb]. rewrite Hf.
  change (kOkCompleted =? kOkCompleted) with true. cbn [negb v_skip]. rewrite Hw. cbn [negb]. rewrite !andb_true_r.
  match goal with |- loop f n false _ ?a _ ?b _ _ = loop f n false _ ?a' _ ?b' _ _ =>
    replace a with a' by (apply mst_eq; reflexivity); replace b with b'; [reflexivity|] end.
  cbn [v_val v_complete v_started]. destruct (wrapped n p0); [reflexivity|]. rewrite app_nil_r. reflexivity.
Qed.

Definition limits (closed : bool) (max T len : Z) (m : mst) : Prop :=
  if closed then m_size m = T + len /\ m_max m = T + len
  else m_size m = kUnknownElementSize /\ m_max m = T + max /\ m_max m <= kUnknownElementSize.
Lemma limits_agree : forall closed max T len m m', agree m m' -> limits closed max T len m -> limits closed max T len m'.
Proof. unfold limits, agree. intros closed max T len m m' (A & B & C & D). rewrite B, D. auto. Qed.

Lemma md_ok_max : forall md id max len l p, md_ok md id false max len l p -> len <= max.
Proof.
  intros md id max len l p [_ H]. destruct md; [contradiction | lia | lia |].
  destruct H as (H & _ & _ & S0 & B). pose proof (hdr_len _ _ _ _ H). destruct (me_size x =? kUnknownElementSize); lia.
Qed.

(* after the last child *)
Lemma ml_tail : forall n d parent closed m p1 v l pos t md max T len,
  ctx n = Some (d, parent) -> m_state m = MParsed -> m_cached m = false -> m_total m = T + len ->
  0 <= T + len -> T + len < 2 ^ 62 ->
  limits closed max T len m -> md_ok md parent closed max len l pos -> cached p1 = None ->
  exists m' c', agree m m' /\ (if m_cached m' then Some (m_cm m') else None) = md_cached md /\
    forall f nr sk, loop (S (S (S (S (S f))))) n false sk m (CAct p1) v nr (W l pos t)
      = Some (kOkCompleted, nr + md_k md, (m', c', v), W (md_rest md l) (pos + md_k md) t).
Proof.
  intros n d parent closed m p1 v l pos t md max T len Hn Hs Hc Ht T0 B Lim Ok Cp.
  assert (U : kUnknownElementSize = 2 ^ 64 - 1) by reflexivity. assert (P : 2 ^ 62 < 2 ^ 64 - 1) by reflexivity.
  assert (Hend : m_total m = byte_cap m -> md_k md = 0 -> md_cached md = None -> md_rest md l = l ->
    exists m' c', agree m m' /\ (if m_cached m' then Some (m_cm m') else None) = md_cached md /\
    forall f nr sk, loop (S (S (S (S (S f))))) n false sk m (CAct p1) v nr (W l pos t)
      = Some (kOkCompleted, nr + md_k md, (m', c', v), W (md_rest md l) (pos + md_k md) t)).
  { intros Q K0 C0 R0. exists (m_set_state MEnd m), (CAct p1). split; [repeat split|]. split; [cbn [m_cached m_set_state]; rewrite Hc, C0; reflexivity|].
    intros f nr sk. rewrite K0, R0, !Z.add_0_r. rewrite ml_MParsed by exact Hs. rewrite <- Q, Z.ltb_irrefl, Z.eqb_refl.
    rewrite ml_MEnd by reflexivity. reflexivity. }
  destruct closed; cbn [limits md_ok] in Lim, Ok.
  - destruct Lim as [L1 L2]. subst md. apply Hend; try reflexivity. unfold byte_cap. rewrite L1, Ht.
    replace (T + len =? kUnknownElementSize) with false by lia. reflexivity.
  - destruct Lim as (L1 & L2 & L3). destruct Ok as [_ Ok].
    assert (Cap : byte_cap m = T + max) by (unfold byte_cap; rewrite L1, Z.eqb_refl; exact L2).
    destruct md as [| | |x more]; [contradiction | | |].
    + apply Hend; try reflexivity. rewrite Cap, Ht, Ok. reflexivity.
    + destruct Ok as [-> Lt].
      set (m2 := PrepareForNextChild (m_set_state MFirst m)).
      destruct (ml_eof n m2 pos eq_refl eq_refl L1) as (m' & A & C' & E).
      exists m', CNone. split; [exact A|]. split; [rewrite C'; change (m_cached m2) with (m_cached m); rewrite Hc; reflexivity|].
      intros f nr sk. cbn [md_k md_rest]. rewrite !Z.add_0_r. rewrite ml_MParsed by exact Hs. rewrite Cap, Ht, Cp.
      replace (T + max <? T + len) with false by lia. replace (T + len =? T + max) with false by lia.
      apply (E (S (S f))).
    + destruct Ok as (Hh & Ty & NV & S0 & Bd). pose proof (hdr_len _ _ _ _ Hh) as (_ & Hz & _).
      set (m2 := PrepareForNextChild (m_set_state MFirst m)).
      destruct (ml_header n m2 l pos x more eq_refl eq_refl eq_refl Hh) as (m3 & A & C' & S3 & X3 & T3 & E).
      change (m_total m2) with (m_total m) in T3.
      exists (m_set_state MEnd (m_set_cached true m3)), CNone.
      split; [destruct A as (A1 & A2 & A3 & A4); split; [exact A1|]; split; [exact A2|]; split; [exact A3 | exact A4]|].
      split; [cbn [m_cached m_cm m_set_state m_set_cached]; rewrite X3; reflexivity|].
      intros f nr sk. rewrite ml_MParsed by exact Hs. rewrite Cap, Ht, Cp.
      assert (Lm : len < max) by (destruct (me_size x =? kUnknownElementSize); lia).
      replace (T + max <? T + len) with false by lia. replace (T + len =? T + max) with false by lia.
      rewrite (E (S (S f))). cbn [md_k md_rest]. rewrite ml_MValidate by exact S3. cbv zeta.
      assert (Cap3 : byte_cap m3 = T + max) by (rewrite (agree_cap m2 m3 A); exact Cap).
      rewrite Cap3, X3, T3, Ht.
      replace (T + max <? (if me_size x =? kUnknownElementSize then T + len + me_hsize x else wrap64 (T + len + me_hsize x + me_size x)))
        with false.
      2:{ symmetry. apply Z.ltb_ge. destruct (me_size x =? kUnknownElementSize); [lia|]. unfold wrap64.
          rewrite Z.mod_small; [lia|]. change (2 ^ 64) with (kUnknownElementSize + 1). lia. }
      pose proof (schema_ok n d parent (me_id x) Hn) as SO.
      destruct (lookup (me_id x) (children n)) as [cn|].
      { exfalso. destruct SO as [[(_ & _ & Q) | [(_ & Q & _) | (ty & Q & _)]] NU]; congruence. }
      replace (m_size m3) with kUnknownElementSize by (destruct A as (_ & A2 & _); rewrite A2; symmetry; exact L1).
      rewrite Z.eqb_refl. rewrite ml_MEnd by reflexivity. reflexivity.
Qed.

(* ---------- the children of an element ---------- *)
Lemma el_open : forall d parent closed m bs evs val, element d parent closed m bs evs val ->
  closed = true \/ type_in parent (me_id m) <> None \/ me_id m = Void.
Proof. intros d parent closed m bs evs val H. destruct H; auto; right; left; congruence. Qed.
Lemma el_unsized : forall d parent closed m bs evs val, element d parent closed m bs evs val -> me_size m = kUnknownElementSize ->
  zlen bs < 2 ^ 62 -> type_in parent (me_id m) = Some TMaster.
Proof.
  intros d parent closed m bs evs val H U B. assert (P : 2 ^ 62 < kUnknownElementSize) by reflexivity.
  destruct H; try (exfalso; lia); assumption.
Qed.
Lemma seqv_irrel : forall m a b s s' items, seqv false m a s items = seqv false m b s' items.
Proof. intros. rewrite !seqv_plain. reflexivity. Qed.

Lemma K_none : forall d parent closed pos, Kclaim d parent closed pos [] [].
Proof. intros. split; [tauto | congruence]. Qed.

Lemma K_cons : forall d parent closed pos id ib w n0 payload rest events val items,
  let x := mk_meta id (zlen ib + w) (size_value (mk_vist 0 (w - 1) n0)) pos in
  is_id_bytes id ib -> 1 <= w <= 8 -> 0 <= n0 < 2 ^ (7 * w) ->
  closed = true \/ type_in parent id <> None \/ id = Void ->
  (me_size x = kUnknownElementSize -> zlen payload < 2 ^ 62 -> type_in parent id = Some TMaster /\ skip x = false) -> (skip x = true -> val = None) ->
  Eclaim d parent closed x payload events val ->
  Kclaim d parent closed (pos + zlen ib + w + zlen payload) rest items ->
  me_size x = zlen payload \/
    (me_size x = kUnknownElementSize /\ payload <> [] /\ (id = Segment /\ items = [] \/ id = Cluster /\ ends_cluster items)) ->
  Kclaim d parent closed pos (ib ++ vint w n0 ++ payload ++ rest) (mk_item x events val :: items).
Proof.
  intros d parent closed pos id ib w n0 payload rest events val items x Hi Hw Hn0 Hop Huns Hskv EC [K0 KC] Sz.
  assert (U : kUnknownElementSize = 2 ^ 64 - 1) by reflexivity. assert (P : 2 ^ 62 < 2 ^ 64 - 1) by reflexivity.
  assert (Hh : hdr (ib ++ vint w n0 ++ payload ++ rest) pos x (payload ++ rest)) by (apply hdr_i; assumption).
  pose proof (hdr_len _ _ _ _ Hh) as (HL & Hz & _). rewrite (zlen_app _ payload rest) in HL.
  pose proof (zlen_nonneg _ payload) as P1. pose proof (zlen_nonneg _ rest) as P2.
  assert (Hpos : pos + zlen ib + w + zlen payload = pos + me_hsize x + zlen payload) by (cbn [x me_hsize]; ring).
  rewrite Hpos in *.
  assert (Ix : me_id x = id) by reflexivity. assert (Px : me_pos x = pos) by reflexivity.
  assert (NB : ib ++ vint w n0 ++ payload ++ rest <> []).
  { intro Q. pose proof (zlen_nil Z) as Q1. rewrite <- Q in Q1. lia. }
  split; [split; [discriminate | congruence]|]. intros _. exists x, (payload ++ rest), (mk_item x events val), items.
  split; [reflexivity|]. split; [reflexivity|]. split; [exact Hh|].
  set (bs := ib ++ vint w n0 ++ payload ++ rest) in *.
  clearbody x bs. clear Hi Hw Hn0 Hpos ib w n0 NB.
  assert (SzB : 0 <= me_size x) by (destruct Sz as [Q | [Q _]]; rewrite Q; lia).
  assert (NRi : items <> [] -> rest <> []) by (intros Q R; apply Q, K0, R).
  split; [exact SzB|].
  split; [destruct Sz as [Q | [Q _]]; [right; lia | left; exact Q]|].
  split.
  { intros [Q | Q].
    - destruct Sz as [E | (_ & NE & _)]; [lia|]. pose proof (zlen_pos _ NE). lia.
    - pose proof (zlen_pos _ (NRi Q)). lia. }
  intros n m c v l t md max T Hn Hb Hp Hpl Hs Hcm Hca Ht HT Lim Ok Hv.
  change (if closed then _ else _) with (limits closed max T (zlen bs) m) in Lim.
  pose proof (hdr_bytes _ _ _ _ Hh Hb) as Hbp. apply Forall_app in Hbp. destruct Hbp as [Hbp Hbr].
  assert (CapOk : T + zlen bs <= byte_cap m /\ m_max m = byte_cap m /\ byte_cap m <= kUnknownElementSize).
  { unfold byte_cap. destruct closed; cbn [limits] in Lim.
    - destruct Lim as [L1 L2]. rewrite L1, L2. replace (T + zlen bs =? kUnknownElementSize) with false by lia. lia.
    - destruct Lim as (L1 & L2 & L3). rewrite L1, Z.eqb_refl. pose proof (md_ok_max _ _ _ _ _ _ Ok). lia. }
  destruct CapOk as (Cap1 & Cap2 & Cap3).
  (* the parser *)
  pose proof (schema_ok n d parent id Hn) as SO.
  assert (HCn : exists cn, sel d parent id cn /\
    (lookup id (children n) = Some cn \/
     (lookup id (children n) = None /\ (m_size m =? kUnknownElementSize) = false
      /\ (me_size x =? kUnknownElementSize) = false /\ cn = NUnknown))).
  { destruct (lookup id (children n)) as [cn|]; [exists cn; split; [apply SO | left; reflexivity]|].
    destruct SO as [Ty NV]. exists NUnknown. split; [left; repeat split; assumption|]. right.
    destruct Hop as [-> | [Q | Q]]; [|congruence|congruence].
    split; [reflexivity|]. split; [cbn [limits] in Lim; lia|]. split; [|reflexivity].
    destruct (Z.eqb_spec (me_size x) kUnknownElementSize) as [Q|Q]; [|reflexivity].
    destruct (Huns Q ltac:(lia)) as [Q1 _]. congruence. }
  destruct HCn as (cn & Hsel & Hlk).
  (* how the child ends *)
  assert (KC2 : exists x' more', rest <> [] -> exists i its, items = i :: its /\ i_meta i = x' /\
     hdr rest (pos + me_hsize x + zlen payload) x' more' /\ 0 <= me_size x' /\
     (me_size x' = kUnknownElementSize \/ me_hsize x' + me_size x' <= zlen rest) /\
     (me_size x' <> 0 \/ its <> [] -> me_hsize x' < zlen rest) /\
     forall n m c v l t md max T, ctx n = Some (d, parent) -> bytes rest -> 0 <= pos + me_hsize x + zlen payload ->
      pos + me_hsize x + zlen payload + zlen rest < 2 ^ 62 ->
      m_state m = MValidate -> m_cm m = x' -> m_cached m = false -> m_total m = T + me_hsize x' -> - me_hsize x' <= T <= pos + me_hsize x + zlen payload ->
      limits closed max T (zlen rest) m ->
      md_ok md parent closed max (zlen rest) l (pos + me_hsize x + zlen payload + zlen rest) ->
      v_skip v = false ->
      exists f m' c' v', agree m m' /\
        (if m_cached m' then Some (m_cm m') else None) = md_cached md /\
        v_skip v' = false /\ v_complete v' = v_complete v /\ v_val v' = v_val v ++ new_vals n items /\
        v_started v' = v_started v || (is_cluster n && existsb starts items) /\
        forall nr, loop f n false false m c v nr (W (more' ++ l) (pos + me_hsize x + zlen payload + me_hsize x') t)
          = Some (kOkCompleted, nr + (zlen rest - me_hsize x') + md_k md, (m', c', v'),
                  W (md_rest md l) (pos + me_hsize x + zlen payload + zlen rest + md_k md)
                    (lg (seqv (is_cluster n) (own_meta idCluster m) (v_val v) (v_started v) items) t))).
  { destruct rest as [|r0 rest0] eqn:Er; [exists x, []; congruence|]. rewrite <- Er in *.
    destruct (KC ltac:(congruence)) as (x' & more' & i & its & Q). exists x', more'. intros _. exists i, its. exact Q. }
  destruct KC2 as (x' & more' & KC2). clear KC.
  set (mc := m_max m - m_total m).
  assert (Znil : zlen (@nil Z) = 0) by reflexivity.
  assert (Hmd : exists mdc, md_ok mdc (me_id x) (negb (me_size x =? kUnknownElementSize)) mc (zlen payload) (rest ++ l)
                  (pos + me_hsize x + zlen payload) /\
    (rest = [] -> md_k mdc = 0 /\ md_rest mdc (rest ++ l) = l /\ md_cached mdc = None) /\
    (rest <> [] -> mdc = MdSz \/ mdc = MdNext x' (more' ++ l) /\ me_hsize x' < zlen rest)).
  { destruct Sz as [Q | (Q & NP & Sz)].
    - replace (me_size x =? kUnknownElementSize) with false by lia. exists MdSz. cbn [negb md_ok].
      split; [reflexivity|]. split; [intros ->; repeat split | intros _; left; reflexivity].
    - rewrite Q, Z.eqb_refl. cbn [negb md_ok].
      destruct (Huns Q ltac:(lia)) as [Ty _].
      destruct Sz as [[-> _] | [-> Ends]].
      { exfalso. rewrite (segment_parent parent) in Hn by congruence. exact (ctx_not_document _ _ Hn). }
      pose proof (cluster_parent parent ltac:(congruence)) as Hpar.
      destruct rest as [|r0 rest0] eqn:Er.
      + destruct closed; cbn [limits md_ok] in Lim, Ok.
        * exists MdCap. rewrite Ix. split; [split; [intro Z0; discriminate Z0 | unfold mc; lia]|].
          split; [repeat split | congruence].
        * destruct Ok as [Ok1 Ok2]. specialize (Ok1 Hpar). subst md. destruct Ok2 as [-> Ok2].
          exists MdEof. rewrite Ix. split; [split; [intro Z0; discriminate Z0 | split; [reflexivity | unfold mc; lia]]|].
          split; [repeat split | congruence].
      + rewrite <- Er in *. assert (NR : rest <> []) by congruence.
        destruct (KC2 NR) as (i & its & Ei & Exi & Hh' & S0' & B' & NE' & _).
        pose proof (hdr_len _ _ _ _ Hh') as (HL' & Hz' & _). pose proof (zlen_nonneg _ more').
        rewrite Ei in Ends. cbn [ends_cluster] in Ends. rewrite Exi in Ends. destruct Ends as (E1 & E2 & E3).
        exists (MdNext x' (more' ++ l)). rewrite Ix.
        split; [split; [intro Z0; discriminate Z0|]; split; [apply hdr_app; exact Hh'|]; split; [exact E1|];
          split; [exact E2|]; split; [exact S0'|]; unfold mc; destruct (Z.eqb_spec (me_size x') kUnknownElementSize); lia|].
        split; [congruence|]. intros _. right. split; [reflexivity | auto]. }
  destruct Hmd as (mdc & OkC & MdR0 & MdR1).
  set (st := is_cluster n && starts (mk_item x events val)).
  set (evs := EElement x :: (if st && negb (v_started v) then [EBegin KCluster (own_meta idCluster m) (VRec (v_val v))] else [])).
  destruct (EC cn mc (rest ++ l) (pos + me_hsize x) (lg evs t) mdc ltac:(rewrite Ix; exact Hsel) ltac:(clear - Px; lia) ltac:(clear - Px Hp; lia) ltac:(clear - Hz; lia) Hbp ltac:(clear - Hpl HL P2; lia)
    ltac:(clear - Sz Ix; rewrite Ix; tauto) OkC ltac:(clear - Cap2 Cap3 Ht HT Hz; unfold mc; lia)) as (p0 & p1 & f1 & Init & Feed & Cach & Wsk & Val & Start).
  assert (Hst : is_cluster n = true -> is_start (NVal VCluster) p0 && wrapped n p0 = st).
  { intro Ec. unfold st. rewrite Ec. cbn [andb]. assert (Hpc : parent = Cluster).
    { destruct n; try discriminate Ec. destruct v0; try discriminate Ec. cbn [ctx] in Hn. congruence. }
    specialize (Start Hpc). rewrite Start. destruct val as [vv|].
    - destruct Val as [Vw _]. rewrite Vw. replace (is_value n) with true by (destruct n; try discriminate Ec; reflexivity).
      apply andb_true_r.
    - rewrite Val, andb_false_r. reflexivity. }
  assert (Hst2 : is_cluster n = false -> st = false) by (intro Ec; unfold st; rewrite Ec; reflexivity).
  assert (Hvals : (if wrapped n p0 then [(me_id x, p_value p1)] else []) = new_vals n [mk_item x events val]).
  { unfold new_vals, item_values. cbn [map concat i_value i_meta]. destruct val as [vv|].
    - destruct Val as [Vw Vv]. rewrite Vw. destruct (is_value n) eqn:Iv; [|reflexivity]. rewrite Vv; [reflexivity|].
      destruct n; try discriminate Iv. destruct Hlk as [Lk | (_ & _ & _ & ->)]; [|intro Z0; discriminate Z0].
      apply (value_children _ _ _ Lk).
    - rewrite Val. destruct (is_value n); reflexivity. }
  assert (Cnt : (if me_size (m_cm m) =? kUnknownElementSize then m_total m else wrap64 (m_total m + me_size (m_cm m))) <= byte_cap m).
  { rewrite Hcm. destruct (Z.eqb_spec (me_size x) kUnknownElementSize) as [Q|Q]; [clear - Ht Cap1 HL P1 P2; lia|].
    destruct Sz as [Q1 | (Q1 & _)]; [|congruence]. unfold wrap64. change (2 ^ 64) with (kUnknownElementSize + 1).
    rewrite Z.mod_small; clear - Q1 Ht HT HL Hpl Hz P1 P2 U Cap1 P; lia. }
  assert (Child : exists m1 v1, agree m m1 /\ m_cached m1 = m_cached m /\ m_state m1 = MParsed /\ m_total m1 = m_total m + (zlen payload + md_k mdc) /\
    v1 = mk_vst (v_val v ++ new_vals n [mk_item x events val]) false (v_complete v) (v_started v || st) /\
    forall F nr, (f1 <= F)%nat -> loop (S (S (S (S F)))) n false false m c v nr (W ((payload ++ rest) ++ l) (pos + me_hsize x) t)
      = loop F n false (skip x) m1 (CAct p1) v1 (nr + (zlen payload + md_k mdc))
          (W (md_rest mdc (rest ++ l)) (pos + me_hsize x + zlen payload + md_k mdc) (lg events (lg evs t)))).
  { destruct (ml_child n m c v t ((payload ++ rest) ++ l) (pos + me_hsize x) cn p0 p1 (zlen payload + md_k mdc)
       (W (md_rest mdc (rest ++ l)) (pos + me_hsize x + zlen payload + md_k mdc) (lg events (lg evs t))) evs st)
      as (m1 & v1 & A1 & A2 & A3 & A4 & A5 & A6 & A7); try assumption.
    - rewrite Hcm, Ix. exact Hlk.
    - rewrite Hcm. intro Q. specialize (Hskv Q). split; [|rewrite Hskv in Val; apply Val].
      destruct (Z.eqb_spec (me_size x) kUnknownElementSize) as [Q1|Q1]; [|reflexivity]. destruct (Huns Q1 ltac:(clear - HL Hpl Hp Hz P2; lia)). congruence.
    - rewrite Hcm. exact Init.
    - rewrite Hcm. reflexivity.
    - exists m1, v1. rewrite Hcm in A6, A7. rewrite Hvals in A6.
      split; [exact A1|]. split; [exact A2|]. split; [exact A3|]. split; [exact A4|]. split; [exact A6|].
      intros F nr LF. apply A7. rewrite <- app_assoc. exact (feed_mono _ _ _ _ _ _ _ LF Feed). }
  destruct Child as (m1 & v1 & A1 & A2 & A3 & A4 & A5 & A6).
  assert (Lim1 : limits closed max T (zlen bs) m1) by (apply (limits_agree _ _ _ _ m); assumption).
  assert (Cap1' : byte_cap m1 = byte_cap m) by (apply agree_cap; exact A1).
  clear EC Init Feed Val Start Hst Hst2 Hvals Cnt Hlk SO Hsel Hop Huns Hskv Sz OkC SzB Wsk.
  (* what follows *)
  destruct rest as [|r0 rest0] eqn:Er.
  - destruct (MdR0 eq_refl) as (R1 & R2 & R3). rewrite R1 in A4. rewrite R3 in Cach. rewrite zlen_nil in HL.
    assert (Ei : items = []) by (apply K0; reflexivity). subst items.
    assert (E1 : m_total m1 = T + zlen bs) by (clear - A4 Ht HL; lia).
    assert (E0 : 0 <= T + zlen bs) by (clear - HT HL P1; lia).
    assert (E2 : T + zlen bs < 2 ^ 62) by (clear - HT Hpl; lia).
    assert (Hca1 : m_cached m1 = false) by congruence.
    destruct (ml_tail n d parent closed m1 p1 v1 l (pos + zlen bs) (lg events (lg evs t)) md max T (zlen bs)
      Hn A3 Hca1 E1 E0 E2 Lim1 Ok Cach) as (m' & c' & T1 & T2 & T3).
    exists (S (S (S (S (f1 + 5))))), m', c', v1.
    split; [exact (agree_trans _ _ _ A1 T1)|]. split; [exact T2|].
    split; [rewrite A5; reflexivity|]. split; [rewrite A5; reflexivity|]. split; [rewrite A5; reflexivity|].
    split; [rewrite A5; cbn [v_started existsb]; rewrite orb_false_r; reflexivity|].
    intro nr. rewrite A6 by (clear; lia). rewrite R1, R2, !Z.add_0_r.
    replace (f1 + 5)%nat with (S (S (S (S (S f1))))) by (clear; lia).
    replace (pos + me_hsize x + zlen payload) with (pos + zlen bs) by (clear - HL; lia). rewrite T3.
    replace (nr + (zlen bs - me_hsize x)) with (nr + zlen payload) by (clear - HL; lia). cbn [seqv].
    do 3 f_equal. unfold st in evs. unfold evs. cbn [i_meta i_events]. rewrite app_nil_r.
    rewrite <- lg_app. reflexivity.
  - rewrite <- Er in *. assert (NR : rest <> []) by (clear - Er; congruence).
    destruct (KC2 NR) as (i & its & Ei & Exi & Hh' & S0' & B' & NE' & KK). clear KC2.
    pose proof (hdr_len _ _ _ _ Hh') as (HL' & Hz' & _). pose proof (zlen_nonneg _ more') as P3.
    assert (Go : exists m2, agree m1 m2 /\ m_cached m2 = m_cached m1 /\ m_state m2 = MValidate /\ m_cm m2 = x' /\
       m_total m2 = T + (me_hsize x + zlen payload) + me_hsize x' /\
       forall F nr t' r, loop F n false false m2 CNone v1 (nr + zlen payload + me_hsize x') (W (more' ++ l) (pos + me_hsize x + zlen payload + me_hsize x') t') = Some r ->
         loop (S (S (S F))) n false (skip x) m1 (CAct p1) v1 (nr + (zlen payload + md_k mdc))
          (W (md_rest mdc (rest ++ l)) (pos + me_hsize x + zlen payload + md_k mdc) t') = Some r).
    { destruct (MdR1 NR) as [Em | [Em Lt2]]; subst mdc; cbn [md_k md_rest md_cached] in *.
      - destruct (ml_header n (PrepareForNextChild (m_set_state MFirst m1)) (rest ++ l) (pos + me_hsize x + zlen payload) x' (more' ++ l)
          eq_refl eq_refl eq_refl (hdr_app _ _ _ _ l Hh')) as (m2 & B1 & B2 & B3 & B4 & B5 & B6).
        exists m2. split; [exact B1|]. split; [exact B2|]. split; [exact B3|]. split; [exact B4|].
        split; [rewrite B5; change (m_total (PrepareForNextChild (m_set_state MFirst m1))) with (m_total m1); clear - A4 Ht; lia|].
        intros F nr t' r Hr. rewrite ml_MParsed by exact A3. rewrite Cach, Cap1', A4.
        replace (byte_cap m <? m_total m + (zlen payload + 0)) with false by (clear - Ht Cap1 HL HL' Hz' P3; lia).
        replace (m_total m + (zlen payload + 0) =? byte_cap m) with false by (clear - Ht Cap1 HL HL' Hz' P3; lia).
        rewrite !Z.add_0_r. rewrite B6. exact Hr.
      - exists (PrepareForNextChild (m_set_state MValidate (m_set_cm x' m1))).
        split; [repeat split|]. split; [reflexivity|]. split; [reflexivity|]. split; [reflexivity|].
        split; [change (m_total (PrepareForNextChild (m_set_state MValidate (m_set_cm x' m1)))) with (m_total m1); clear - A4 Ht; lia|].
        intros F nr t' r Hr. rewrite ml_MParsed by exact A3. rewrite Cach, Cap1', A4.
        replace (byte_cap m <? m_total m + (zlen payload + me_hsize x')) with false by (clear - Ht Cap1 HL Lt2; lia).
        replace (m_total m + (zlen payload + me_hsize x') =? byte_cap m) with false by (clear - Ht Cap1 HL Lt2; lia).
        rewrite !Z.add_assoc in *. refine (mloop_mono _ _ _ _ _ _ _ _ _ _ _ _ _ Hr). clear; lia. }
    destruct Go as (m2 & G1 & G2 & G3 & G4 & G5 & G6).
    set (mx := max - (me_hsize x + zlen payload)).
    assert (Lim2 : limits closed mx (T + (me_hsize x + zlen payload)) (zlen rest) m2).
    { pose proof (limits_agree _ _ _ _ _ _ G1 Lim1) as Q. clear - Q HL. unfold limits, mx in *. destruct closed; lia. }
    assert (Ok2 : md_ok md parent closed mx (zlen rest) l (pos + me_hsize x + zlen payload + zlen rest)).
    { replace (pos + me_hsize x + zlen payload + zlen rest) with (pos + zlen bs) by (clear - HL; lia).
      clear - Ok HL. unfold md_ok, mx in *. destruct closed; [exact Ok|]. destruct Ok as [Ok1 Ok2]. split; [exact Ok1|].
      destruct md; [exact Ok2 | lia | destruct Ok2 as [-> Ok2]; split; [reflexivity | lia] |]. destruct Ok2 as (Q1 & Q2 & Q3 & Q4 & Q5).
      split; [exact Q1|]. split; [exact Q2|]. split; [exact Q3|]. split; [exact Q4|]. lia. }
    assert (Q1 : 0 <= pos + me_hsize x + zlen payload) by (clear - Hp Hz P1; lia).
    assert (Q2 : pos + me_hsize x + zlen payload + zlen rest < 2 ^ 62) by (clear - Hpl HL; lia).
    assert (Q3 : m_cached m2 = false) by congruence.
    assert (Q4 : - me_hsize x' <= T + (me_hsize x + zlen payload) <= pos + me_hsize x + zlen payload) by (clear - HT Hz Hz' P1; lia).
    assert (Q5 : v_skip v1 = false) by (rewrite A5; reflexivity).
    destruct (KK n m2 CNone v1 l (lg events (lg evs t)) md mx (T + (me_hsize x + zlen payload)) Hn Hbr Q1 Q2 G3 G4 Q3 G5 Q4 Lim2 Ok2 Q5)
      as (f2 & m' & c' & v' & R1 & R2 & R3 & R4 & R5 & R6 & R7).
    exists (S (S (S (S (S (S (S (f1 + f2)))))))), m', c', v'.
    split; [exact (agree_trans _ _ _ A1 (agree_trans _ _ _ G1 R1))|]. split; [exact R2|]. split; [exact R3|].
    split; [rewrite R4, A5; reflexivity|].
    split; [rewrite R5, A5; cbn [v_val]; rewrite <- app_assoc; f_equal; unfold new_vals; destruct (is_value n); [|reflexivity];
            change (mk_item x events val :: items) with ([mk_item x events val] ++ items); rewrite item_values_app; reflexivity|].
    split; [rewrite R6, A5; cbn [v_started existsb]; unfold st; destruct (is_cluster n); cbn [andb]; rewrite ?orb_assoc; rewrite ?orb_false_r; reflexivity|].
    intro nr. rewrite A6 by (clear; lia). apply G6.
    rewrite (mloop_mono _ f2 (f1 + f2) _ _ _ _ _ _ _ _ _ ltac:(clear; lia) (R7 (nr + zlen payload + me_hsize x'))).
    replace (nr + zlen payload + me_hsize x' + (zlen rest - me_hsize x')) with (nr + (zlen bs - me_hsize x)) by (clear - HL; lia).
    replace (pos + me_hsize x + zlen payload + zlen rest) with (pos + zlen bs) by (clear - HL; lia).
    do 3 f_equal. rewrite <- !lg_app. f_equal. cbn [seqv]. unfold evs. cbn [i_meta i_events app]. f_equal.
    fold st. f_equal. f_equal.
    rewrite (agree_own idCluster m m2 (agree_trans _ _ _ A1 G1)). rewrite A5. cbn [v_val v_started].
    destruct (is_cluster n) eqn:Ec; [|apply seqv_irrel].
    unfold new_vals. replace (is_value n) with true by (clear - Ec; destruct n; try discriminate Ec; reflexivity). reflexivity.
Qed.
End skip.
Arguments ml_header {skip}.
Arguments ml_eof {skip}.
Arguments ml_tail {skip}.
Arguments K_cons {skip}.
Arguments K_none {skip}.
Arguments el_open {skip}.
Arguments el_unsized {skip}.
