(* Proofs about files of the muxer as documents for the callback parser: element
   trees are elements of a document. *)
From Coq Require Import ZifyBool ZifyNat.
From Verif Require Import Base EbmlSpec LacingSpec Ids MFloat MMuxBlock MMuxMeta MetaSpec MMuxSegment MuxFileSpec
  WpSpec WpDocSpec WpMuxSpec PMuxUtil PMeta.

Lemma zlen_vint : forall w v, 1 <= w -> zlen (vint w v) = w.
Proof. intros. apply vint_zlen. lia. Qed.

(* one element with a size *)
Definition one (d : nat) (parent : Z) (closed : bool) (pos : Z) (bs : list Z) (it : item) : Prop :=
  exists id ib w payload, is_id_bytes id ib /\ vint_fits w (zlen payload) /\ bs = ib ++ vint w (zlen payload) ++ payload /\
    i_meta it = mk_meta id (zlen ib + w) (zlen payload) pos /\ element d parent closed (i_meta it) payload (i_events it) (i_value it).

Lemma one_cons : forall d parent closed pos bs it rest items,
  one d parent closed pos bs it -> elements d parent closed (pos + zlen bs) rest items ->
  elements d parent closed pos (bs ++ rest) (it :: items).
Proof.
  intros d parent closed pos bs [m ev v] rest items (id & ib & w & p & H1 & H2 & -> & H3 & H4) H.
  cbn [i_meta i_events i_value] in *. subst m. rewrite <- !app_assoc. apply els_sized; auto.
  rewrite !zlen_app, zlen_vint in H by (destruct H2; lia). replace (pos + zlen ib + w + zlen p) with (pos + (zlen ib + (w + zlen p))) by lia. exact H.
Qed.

Inductive ones (d : nat) (parent : Z) (closed : bool) : Z -> list Z -> list item -> Prop :=
| ones_nil : forall pos, ones d parent closed pos [] []
| ones_cons : forall pos bs it rest items, one d parent closed pos bs it -> ones d parent closed (pos + zlen bs) rest items ->
    ones d parent closed pos (bs ++ rest) (it :: items).

Lemma ones_elements : forall d parent closed pos bs items rest more,
  ones d parent closed pos bs items -> elements d parent closed (pos + zlen bs) rest more ->
  elements d parent closed pos (bs ++ rest) (items ++ more).
Proof.
  intros d parent closed pos bs items rest more H. revert rest more. induction H as [pos|pos b it r items H1 H2 IH]; intros rest more H.
  - rewrite zlen_nil in H. cbn [app]. replace (pos + 0) with pos in H by lia. exact H.
  - rewrite <- app_assoc. cbn [app]. apply one_cons; [exact H1|]. apply IH. rewrite zlen_app in H. replace (pos + zlen b + zlen r) with (pos + (zlen b + zlen r)) by lia. exact H.
Qed.
Lemma ones_all : forall d parent closed pos bs items, ones d parent closed pos bs items -> elements d parent closed pos bs items.
Proof.
  intros d parent closed pos bs items H. rewrite <- (app_nil_r bs), <- (app_nil_r items). apply ones_elements; [exact H|apply els_none].
Qed.
Lemma ones_1 : forall d parent closed pos bs it, one d parent closed pos bs it -> ones d parent closed pos bs [it].
Proof. intros. rewrite <- (app_nil_r bs). constructor; [assumption|constructor]. Qed.
Lemma ones_app : forall d parent closed pos a b x y, ones d parent closed pos a x -> ones d parent closed (pos + zlen a) b y ->
  ones d parent closed pos (a ++ b) (x ++ y).
Proof.
  intros d parent closed pos a b x y H. revert b y. induction H as [pos|pos e it r items H1 H2 IH]; intros b y H.
  - rewrite zlen_nil in H. cbn [app]. replace (pos + 0) with pos in H by lia. exact H.
  - rewrite <- app_assoc. cbn [app]. constructor; [exact H1|]. apply IH. rewrite zlen_app in H. replace (pos + zlen e + zlen r) with (pos + (zlen e + zlen r)) by lia. exact H.
Qed.

(* ---------- events ---------- *)

(* notifications that do not concern frames *)
Definition calm (e : event) : Prop :=
  match e with EElement _ | EReport _ _ _ | EDataEnd _ | EData (DVoid _) _ | EData (DUnknown _) _ => True | _ => False end.
Lemma collect_calm : forall evs tc cur rest, Forall calm evs -> collect tc cur (evs ++ rest) = collect tc cur rest.
Proof.
  induction evs as [|e evs IH]; intros tc cur rest H; [reflexivity|]. inversion H as [|? ? H1 H2]; subst. cbn [app].
  destruct e as [m|k m v|k m v|k m v|[m|m|m p n] b|x]; cbn [calm] in H1; try contradiction; cbn [collect]; apply IH; exact H2.
Qed.
Lemma reports_app : forall a b, reports (a ++ b) = reports a ++ reports b.
Proof. intros. unfold reports. rewrite map_app, concat_app. reflexivity. Qed.
Lemma reports_data : forall d bs, reports (data_events d bs) = [].
Proof. intros. unfold data_events. rewrite reports_app. induction bs as [|b bs IH]; [reflexivity|exact IH]. Qed.
Lemma calm_data : forall d bs, (forall m p n, d <> DFrame m p n) -> Forall calm (data_events d bs).
Proof.
  intros d bs H. unfold data_events. apply Forall_app. split; [|repeat constructor].
  apply Forall_map, Forall_forall. intros b _. destruct d; cbn [calm]; auto. eapply H. reflexivity.
Qed.
Lemma item_events_app : forall a b, item_events (a ++ b) = item_events a ++ item_events b.
Proof. intros. unfold item_events. rewrite map_app, concat_app. reflexivity. Qed.
Lemma item_events_cons : forall i b, item_events (i :: b) = EElement (i_meta i) :: i_events i ++ item_events b.
Proof. reflexivity. Qed.
Lemma item_values_app : forall a b, item_values (a ++ b) = item_values a ++ item_values b.
Proof. intros. unfold item_values. rewrite map_app, concat_app. reflexivity. Qed.

(* ---------- element trees ---------- *)

Definition leaf_type (ty : sty) (l : leaf) : Prop :=
  match ty, l with
  | TUint _, LUint _ | TFloat _, LFloat _ | TDate, LDate _ | TString _, LBytes _ | TBinary, LBytes _ => True
  | TId, LUint v => 0 <= v < 2 ^ 32
  | _, _ => False
  end.
Definition plain_id (id : Z) : bool := negb ((id =? Segment) || (id =? Cluster) || (id =? BlockGroup)).
Fixpoint conforms (d : nat) (parent : Z) (t : tree) : Prop :=
  match t with
  | Leaf id l =>
      match type_in parent id with
      | None => id <> Void
      | Some (TScalar ty) => leaf_type ty l
      | _ => False
      end
  | Master id kids =>
      type_in parent id = Some TMaster /\ plain_id id = true /\
      exists d', inner d parent id = Some d' /\ fold_right (fun k acc => conforms d' id k /\ acc) True kids
  end.
Definition known_in (parent : Z) (t : tree) : Prop := type_in parent (tree_id t) <> None.

(* the reports about a tree *)
Definition kind_of (id : Z) : option rkind :=
  if id =? Ebml then Some KEbml else if id =? Seek then Some KSeek else if id =? Info then Some KInfo
  else if id =? TrackEntry then Some KTrackEntry else if id =? CuePoint then Some KCuePoint
  else if id =? EditionEntry then Some KEdition else if id =? Tag then Some KTag else None.
Fixpoint tree_reports (parent : Z) (t : tree) : list (rkind * value) :=
  match t with
  | Leaf _ _ => []
  | Master id kids =>
      concat (map (tree_reports id) kids) ++ match kind_of id with Some k => report k parent t | None => [] end
  end.

Lemma master_plain : forall m items, plain_id (me_id m) = true ->
  master_events m items = item_events items ++ match kind_of (me_id m) with Some k => [EReport k m (VRec (item_values items))] | None => [] end.
Proof.
  intros m items H. unfold plain_id in H. unfold master_events, kind_of.
  destruct (me_id m =? Segment); [discriminate|]. destruct (me_id m =? Cluster); [discriminate|]. destruct (me_id m =? BlockGroup); [discriminate|].
  repeat match goal with |- context [if ?c then _ else _] => destruct c; [reflexivity|] end. rewrite app_nil_r. reflexivity.
Qed.

Lemma trimmed_spec : forall l, exists s k, l = s ++ repeat 0 k /\ last s 1 <> 0 /\ trimmed l = s.
Proof.
  induction l as [|x l (s & k & E & L & T)].
  - exists [], O. repeat split. discriminate.
  - cbn [trimmed]. rewrite T. destruct s as [|y s].
    + destruct (Z.eqb_spec x 0) as [->|N].
      * exists [], (S k). cbn [app repeat]. rewrite E. repeat split. discriminate.
      * exists [x], k. rewrite E. repeat split. cbn. exact N.
    + exists (x :: y :: s), k. rewrite E. repeat split. exact L.
Qed.

Lemma leaf_scalar : forall ty l p, leaf_type ty l -> leaf_payload l p -> scalar ty p (leaf_value ty l).
Proof.
  intros ty l p HT HP. destruct ty, l; cbn [leaf_type] in HT; try contradiction; cbn [leaf_payload leaf_value] in *.
  - destruct HP as ((HB & HL & <-) & _). apply WpDocSpec.s_uint; [intros ->; rewrite zlen_nil in HL; lia|lia].
  - subst p. replace (u mod 2 ^ 32) with (be_val (be_bytes 4 u)) by (rewrite be_val_be_bytes; reflexivity).
    apply (WpDocSpec.s_float dflt (be_bytes 4 u)). left. reflexivity.
  - destruct HP as (HL & HB & _ & <-). rewrite HL. change (8 * 8) with 64. apply WpDocSpec.s_date. exact HL.
  - destruct HP as ((HB & HL & <-) & HM). apply WpDocSpec.s_id. split; [lia|]. specialize (HM (be_bytes 4 (be_val p))).
    rewrite be_bytes_zlen in HM. apply HM. split; [apply be_bytes_bytes|]. split; [rewrite be_bytes_zlen; lia|].
    rewrite be_val_be_bytes. change (8 * Z.of_nat 4) with 32. apply Z.mod_small. exact HT.
  - subst bs. destruct p as [|x p]; [apply WpDocSpec.s_string0|]. destruct (trimmed_spec (x :: p)) as (s & k & E & L & T). rewrite T, E.
    apply WpDocSpec.s_string; [rewrite <- E; discriminate|exact L].
  - subst bs. apply WpDocSpec.s_binary.
Qed.

Definition is_item (parent : Z) (t : tree) (it : item) : Prop :=
  me_id (i_meta it) = tree_id t /\ i_value it = tree_value parent t /\ Forall calm (i_events it) /\
  reports (i_events it) = tree_reports parent t /\
  match t with Master _ (_ :: _) => me_size (i_meta it) <> 0 | _ => True end.

Lemma encodes_nonempty : forall t bs, encodes t bs -> 1 <= zlen bs.
Proof.
  assert (H : forall id p bs, is_element id p bs -> 1 <= zlen bs).
  { intros id p bs (ib & w & (k & (K1 & _) & ->) & (W1 & _) & ->). rewrite !zlen_app, zlen_vint, be_bytes_zlen by lia. pose proof (zlen_nonneg _ p). lia. }
  intros t bs HE. inversion HE; subst; eauto.
Qed.

Lemma items_of : forall parent ts items, Forall2 (is_item parent) ts items ->
  item_values items = concat (map (fun k => match tree_value parent k with Some v => [(tree_id k, v)] | None => [] end) ts) /\
  Forall calm (item_events items) /\ reports (item_events items) = concat (map (tree_reports parent) ts).
Proof.
  intros parent ts items H. induction H as [|t it ts items (H1 & H2 & H3 & H4 & _) HF (I1 & I2 & I3)]; [repeat split; constructor|].
  split; [|split].
  - unfold item_values in *. cbn [map concat]. rewrite I1, H1, H2. reflexivity.
  - rewrite item_events_cons. constructor; [exact Logic.I|]. apply Forall_app. auto.
  - rewrite item_events_cons. change (EElement (i_meta it) :: i_events it ++ item_events items) with ([EElement (i_meta it)] ++ i_events it ++ item_events items).
    rewrite !reports_app, H4, I3. reflexivity.
Qed.

Lemma tree_item : forall t d parent closed bs pos, conforms d parent t -> encodes t bs -> closed = true \/ known_in parent t ->
  exists it, one d parent closed pos bs it /\ is_item parent t it.
Proof.
  induction t as [id l|id kids IH] using tree_ind2; intros d parent closed bs pos HC HE HK.
  - inversion HE as [? ? p ? HP (ib & w & H1 & H2 & H3)|]; subst. cbn [conforms] in HC. unfold is_item, known_in in *. cbn [tree_id tree_value tree_reports] in *.
    destruct (type_in parent id) as [[ty| | |]|] eqn:ET; try contradiction.
    + exists (mk_item (mk_meta id (zlen ib + w) (zlen p) pos) [] (Some (leaf_value ty l))). split.
      * exists id, ib, w, p. cbn [i_meta i_events i_value]. do 4 (split; [first [assumption | reflexivity]|]). eapply e_scalar; cbn [me_id me_size]; [exact ET| |reflexivity]. apply leaf_scalar; assumption.
      * cbn [i_meta i_events i_value me_id]. repeat split. constructor.
    + destruct HK as [->|HK]; [|contradiction]. 
      set (m := mk_meta id (zlen ib + w) (zlen p) pos). exists (mk_item m (data_events (DUnknown m) p) None). split.
      * exists id, ib, w, p. cbn [i_meta i_events i_value]. do 4 (split; [first [assumption | reflexivity]|]). apply e_unknown; auto.
      * cbn [i_meta i_events i_value me_id m]. repeat split; [apply calm_data; discriminate|apply reports_data].
  - inversion HE as [|? ? body ? HB (ib & w & H1 & H2 & H3)]; subst. cbn [conforms] in HC. destruct HC as (C1 & C2 & d' & C3 & C4).
    assert (HS : exists items, ones d' id true (pos + (zlen ib + w)) body items /\ Forall2 (is_item id) kids items).
    { clear - IH HB C4. revert IH body HB C4. generalize (pos + (zlen ib + w)) as q. intros q IH. revert q. induction IH as [|t ts Ht IH IHs]; intros q body HB HC.
      - inversion HB; subst. exists []. split; constructor.
      - inversion HB as [|? ? a b Ha Hb]; subst. cbn [fold_right] in HC. destruct HC as [HC1 HC2].
        destruct (Ht d' id true a q HC1 Ha (or_introl eq_refl)) as (it & I1 & I2). destruct (IHs (q + zlen a) b Hb HC2) as (items & J1 & J2).
        exists (it :: items). split; [constructor; assumption|constructor; assumption]. }
    destruct HS as (items & S1 & S2). destruct (items_of _ _ _ S2) as (V1 & V2 & V3).
    set (m := mk_meta id (zlen ib + w) (zlen body) pos). exists (mk_item m (master_events m items) (Some (VRec (item_values items)))).
    assert (NU : (zlen body =? kUnknownElementSize) = false).
    { destruct H2 as [W1 W2]. assert (2 ^ (7 * w) <= 2 ^ 56) by (apply Z.pow_le_mono_r; lia). change (2 ^ 56) with 72057594037927936 in *. unfold kUnknownElementSize. lia. }
    split.
    + exists id, ib, w, body. cbn [i_meta i_events i_value]. do 4 (split; [first [assumption | reflexivity]|]). apply WpDocSpec.e_master with (d' := d'); cbn [me_id m]; auto.
      cbn [me_size me_pos me_hsize m]. rewrite NU. cbn [negb]. apply ones_all. exact S1.
    + unfold is_item. cbn [i_meta i_events i_value tree_id tree_value me_id]. rewrite C1, <- V1. split; [reflexivity|]. split; [reflexivity|].
      rewrite (master_plain m items C2). cbn [me_id m]. split.
      * apply Forall_app. split; [exact V2|]. destruct (kind_of id); repeat constructor.
      * split; [|destruct kids as [|k ks]; [exact Logic.I|]; inversion HB as [|? ? a b Ha Hb]; subst; apply encodes_nonempty in Ha; cbn [me_size m]; rewrite zlen_app; pose proof (zlen_nonneg _ b); lia].
        rewrite reports_app, V3. cbn [tree_reports]. f_equal. destruct (kind_of id) as [k|]; [|reflexivity]. cbn. unfold report. cbn [tree_value]. rewrite C1, <- V1. reflexivity.
Qed.

(* ---------- the trees of the muxer ---------- *)

Definition conforms_all (d : nat) (parent : Z) (ts : list tree) : Prop := fold_right (fun k acc => conforms d parent k /\ acc) True ts.
Lemma ca_app : forall d p a b, conforms_all d p a -> conforms_all d p b -> conforms_all d p (a ++ b).
Proof. intros d p a b Ha Hb. induction a as [|x a IH]; [exact Hb|]. destruct Ha as [H1 H2]. split; [exact H1|apply IH; exact H2]. Qed.
Lemma ca_opt : forall d p b t, conforms d p t -> conforms_all d p (opt b t).
Proof. intros d p [] t H; [split; [exact H|exact Logic.I]|exact Logic.I]. Qed.
Lemma ca_str : forall d p id s, (forall l, conforms d p (Leaf id (LBytes l))) -> conforms_all d p (str id s).
Proof. intros d p id [s|] H; [split; [apply H|exact Logic.I]|exact Logic.I]. Qed.
Lemma ca_map : forall A (f : A -> tree) d p l, (forall x, In x l -> conforms d p (f x)) -> conforms_all d p (map f l).
Proof. intros A f d p l H. induction l as [|x l IH]; [exact Logic.I|]. split; [apply H; left; reflexivity|apply IH; intros y Hy; apply H; right; exact Hy]. Qed.
Lemma c_master_intro : forall d d' p id kids, type_in p id = Some TMaster -> plain_id id = true -> inner d p id = Some d' -> conforms_all d' id kids -> conforms d p (Master id kids).
Proof. intros d d' p id kids H1 H2 H3 H4. cbn [conforms]. split; [exact H1|]. split; [exact H2|]. exists d'. split; [exact H3|exact H4]. Qed.
Ltac mast := eapply c_master_intro; [reflexivity|reflexivity|reflexivity|].
Lemma c_leaf : forall d p id l ty, type_in p id = Some (TScalar ty) -> leaf_type ty l -> conforms d p (Leaf id l).
Proof. intros d p id l ty H1 H2. cbn [conforms]. rewrite H1. exact H2. Qed.
Lemma c_unknown : forall d p id l, type_in p id = None -> id <> Void -> conforms d p (Leaf id l).
Proof. intros d p id l H1 H2. cbn [conforms]. rewrite H1. exact H2. Qed.
Ltac lf := unfold uint; first [eapply c_leaf; [reflexivity|exact Logic.I] | apply c_unknown; [reflexivity|discriminate]].
Ltac kids := repeat match goal with
  | |- conforms_all _ _ (_ ++ _) => apply ca_app
  | |- conforms_all _ _ (opt _ _) => apply ca_opt; lf
  | |- conforms_all _ _ (str _ _) => apply ca_str; intros ?; lf
  | |- conforms_all _ _ (_ :: _) => split; [lf|]
  | |- conforms_all _ _ [] => exact Logic.I
  end.

Lemma header_conforms : forall v dt, conforms O 0 (ebml_header_tree v dt).
Proof. intros. mast. kids. Qed.

Lemma info_conforms : forall i, conforms O Segment (info_tree i).
Proof. intros. mast. kids. Qed.
Lemma seek_conforms : forall l, Forall (fun e => 0 <= fst e < 2 ^ 32) l -> conforms O Segment (seek_head_tree l).
Proof.
  intros l H. mast. apply ca_map. intros e He. rewrite Forall_forall in H. specialize (H e He). mast. split; [|kids]. exact H.
Qed.
Lemma cues_conforms : forall l, conforms O Segment (cues_tree l).
Proof. intros l. mast. apply ca_map. intros q _. mast. split; [lf|]. split; [|exact Logic.I]. mast. kids. Qed.
Lemma tags_conforms : forall l, conforms O Segment (tags_tree l).
Proof. intros l. mast. apply ca_map. intros q _. mast. apply ca_map. intros t _. mast. kids. Qed.
Lemma chapters_conforms : forall l, conforms O Segment (chapters_tree l).
Proof.
  intros l. mast. split; [|exact Logic.I]. mast. apply ca_map. intros c _. mast. apply ca_app; [kids|]. split; [lf|]. split; [lf|]. split; [lf|].
  apply ca_map. intros x _. mast. kids.
Qed.
Lemma ca_nonempty : forall d p id kids, (kids <> [] -> conforms d p (Master id kids)) -> conforms_all d p (nonempty_master id kids).
Proof. intros d p id [|k kids] H; [exact Logic.I|]. split; [apply H; discriminate|exact Logic.I]. Qed.
Lemma mastering_conforms : forall m, conforms_all O kMkvMasteringMetadata (mastering_kids m).
Proof. intros m. unfold mastering_kids, chroma_trees. destruct (mm_r m) as [[? ?]|], (mm_g m) as [[? ?]|], (mm_b m) as [[? ?]|], (mm_white m) as [[? ?]|]; kids. Qed.
Lemma colour_conforms : forall c, conforms_all O kMkvVideo (colour_trees c).
Proof.
  intros c. unfold colour_trees. apply ca_nonempty. intros _. mast. unfold colour_kids, colour_field. 
  repeat (apply ca_app; [apply ca_opt; lf|]). destruct (co_mastering c) as [m|]; [|exact Logic.I]. apply ca_nonempty. intros _. mast. apply mastering_conforms.
Qed.
Lemma video_conforms : forall v, conforms O kMkvTrackEntry (video_tree v).
Proof.
  intros v. unfold video_tree. cbv zeta. mast. split; [lf|]. split; [lf|].
  repeat (apply ca_app; [first [apply ca_opt; lf | apply ca_str; intros ?; lf]|]).
  apply ca_app; [destruct (vi_colour v); [apply colour_conforms|exact Logic.I]|].
  destruct (vi_projection v) as [p|]; [|exact Logic.I]. split; [|exact Logic.I]. unfold projection_tree. mast. kids.
Qed.
Lemma tracks_conforms : forall l, conforms O Segment (tracks_tree l).
Proof.
  intros l. mast. apply ca_map. intros t _. unfold track_tree. cbv zeta. mast. split; [lf|]. split; [lf|]. split; [lf|].
  repeat (apply ca_app; [first [apply ca_opt; lf | apply ca_str; intros ?; lf]|]).
  apply ca_app.
  - apply ca_nonempty. intros _. mast. apply ca_map. intros e _. mast. split; [lf|]. split; [lf|]. split; [lf|]. split; [|exact Logic.I].
    mast. split; [lf|]. apply ca_app; [apply ca_str; intros ?; lf|]. split; [|exact Logic.I]. mast. kids.
  - destruct (tk_kind t); [exact Logic.I|split; [apply video_conforms|exact Logic.I]|]. split; [|exact Logic.I]. mast. kids.
Qed.
