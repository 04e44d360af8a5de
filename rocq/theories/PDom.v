From Coq Require Import ZifyBool ZifyNat.
From Verif Require Import Base WpSpec WpDocSpec DomSpec MWpTree MDom.

Lemma assoc_update : forall id f i l,
  assoc i (update id f l) = if i =? id then match assoc i l with Some s => Some (f s) | None => None end else assoc i l.
Proof.
  intros id f i. induction l as [|[j s] l IH]; cbn [update map assoc fst snd]; [destruct (i =? id); reflexivity|].
  fold (update id f l). destruct (Z.eqb_spec j id) as [->|N]; cbn [assoc].
  - destruct (Z.eqb_spec id i) as [<-|M]; [rewrite Z.eqb_refl; reflexivity|exact IH].
  - destruct (Z.eqb_spec j i) as [<-|M]; [destruct (Z.eqb_spec j id); [contradiction|reflexivity]|exact IH].
Qed.

Lemma assoc_init : forall s id l,
  assoc id (map (fun c : Z * node => (fst c, member_init s (fst c) (snd c))) l) =
  match assoc id l with Some n => Some (member_init s id n) | None => None end.
Proof.
  intros s id. induction l as [|[j n] l IH]; [reflexivity|]. cbn [map assoc fst snd].
  destruct (Z.eqb_spec j id) as [->|N]; [reflexivity|exact IH].
Qed.

(* ---------- the tables ---------- *)

Lemma vectors : forall s id, is_vector s id = repeats (struct_id s) id.
Proof.
  intros s id. unfold repeats, may_repeat, Cluster, BlockGroup, SimpleBlock, CuePoint, EditionEntry, ChapterAtom, Tag, SimpleTag. cbn [existsb fst snd].
  destruct s; cbn [struct_id is_vector Z.eqb Pos.eqb andb orb]; rewrite ?Bool.orb_false_r; rewrite ?(Z.eqb_sym id); try reflexivity.
  all: apply Bool.orb_comm.
Qed.

Lemma defaults : forall s id n, assoc id (val_children s) = Some n ->
  exists ty, type_in (struct_id s) id = Some ty /\ (repeats (struct_id s) id = false -> member_value n = default_of id ty).
Proof.
  intros s id n H. unfold type_in.
  destruct s;
    (match goal with |- context [assoc (struct_id ?s) schema] =>
      let x := eval vm_compute in (assoc (struct_id s) schema) in change (assoc (struct_id s) schema) with x end);
    cbn [val_children assoc] in H; unfold idSimpleBlock, idBlockGroup, idChapterAtom, idSimpleTag in H;
    repeat match type of H with (if ?a =? id then _ else _) = _ =>
      destruct (Z.eqb_spec a id) as [<-|?]; [injection H as <-; eexists; split; [vm_compute; reflexivity|intros E; first [reflexivity | vm_compute in E; discriminate E]]|] end;
    discriminate H.
Qed.

Lemma initial : forall s id, is_vector s id = true ->
  exists l, (forall n, member_init s id n = Many l) /\ l = initially (struct_id s) id /\ (l = [] \/ exists d, l = [(d, false)]).
Proof.
  intros s id H. unfold member_init. rewrite H. unfold initially.
  destruct s; try discriminate H; cbn [struct_id];
    try (eexists; split; [intros n; reflexivity|]; split; [reflexivity|left; reflexivity]).
  destruct (id =? 0x437C); (eexists; split; [intros n; reflexivity|]; split; [reflexivity|]); [right; eexists; reflexivity|left; reflexivity].
Qed.

(* ---------- the loop ---------- *)

Lemma last_snoc : forall id ks k, last_of id (ks ++ [k]) = if kid_is id k then Some k else last_of id ks.
Proof. intros id ks k. unfold last_of. rewrite rev_app_distr. reflexivity. Qed.
Lemma values_snoc : forall id ks k, values_of id (ks ++ [k]) = values_of id ks ++ (if kid_is id k then [(snd k, true)] else []).
Proof. intros id ks k. unfold values_of. rewrite filter_app, map_app. cbn [filter]. destruct (kid_is id k); reflexivity. Qed.

Lemma plain_step : forall s id ty ks k,
  plain_field (struct_id s) id ty (ks ++ [k]) =
  if kid_is id k then consume (snd k) (plain_field (struct_id s) id ty ks) else plain_field (struct_id s) id ty ks.
Proof.
  intros s id ty ks k. unfold plain_field. rewrite last_snoc, values_snoc. destruct (kid_is id k) eqn:E; [|rewrite app_nil_r; reflexivity].
  destruct (repeats (struct_id s) id) eqn:R.
  - rewrite <- vectors in R. destruct (initial s id R) as (l & _ & <- & Hl). unfold consume.
    destruct (values_of id ks) as [|[d b] vs] eqn:V; cbn [app].
    + destruct Hl as [->|[d ->]]; reflexivity.
    + assert (b = true) as ->.
      { unfold values_of in V. destruct (filter (kid_is id) ks); [discriminate|]. cbn [map] in V. congruence. }
      destruct vs; reflexivity.
  - destruct (last_of id ks); reflexivity.
Qed.

Lemma loop : forall s ks,
  let o := fold_left (child_done s) ks (obj_init s) in
  (forall id n, assoc id (val_children s) = Some n -> exists ty, type_in (struct_id s) id = Some ty /\
     assoc id (o_fields o) = Some (plain_field (struct_id s) id ty ks)) /\
  (s = VVideo -> o_width o = given_with_content 0x54B0 ks /\ o_height o = given_with_content 0x54BA ks) /\
  (s = VAudio -> o_output o = given_with_content 0x78B5 ks).
Proof.
  intros s ks. induction ks as [|k ks IH] using rev_ind; cbv zeta.
  - cbn [fold_left]. split; [|split; intros _; [split|]; reflexivity].
    intros id n H. destruct (defaults s id n H) as (ty & T & D). exists ty. split; [exact T|]. unfold obj_init. cbn [o_fields].
    rewrite assoc_init, H. f_equal. unfold plain_field. cbn [values_of last_of filter map rev find].
    destruct (repeats (struct_id s) id) eqn:R.
    + rewrite <- vectors in R. destruct (initial s id R) as (l & E & <- & _). rewrite E. reflexivity.
    + rewrite <- vectors in R. unfold member_init. rewrite R. rewrite (D eq_refl). reflexivity.
  - cbv zeta in IH. destruct IH as (F & W & A). rewrite fold_left_app. cbn [fold_left].
    set (o := fold_left (child_done s) ks (obj_init s)) in *. clearbody o. destruct k as ((i, sz), d). unfold child_done.
    set (o1 := mk_obj (update i (consume d) (o_fields o)) (o_width o) (o_height o) (o_output o)).
    assert (Fs : forall s' , o_fields (OnChildParsed s' i sz o1) = o_fields o1).
    { intros s'. unfold OnChildParsed. destruct s'; try reflexivity; repeat match goal with |- context [if ?c then _ else _] => destruct c end; reflexivity. }
    split.
    + intros id n H. destruct (F id n H) as (ty & T & E). exists ty. split; [exact T|]. rewrite Fs. unfold o1. cbn [o_fields].
      rewrite assoc_update, plain_step. unfold kid_is. cbn [fst snd]. rewrite (Z.eqb_sym i id). destruct (id =? i); [rewrite E; reflexivity|exact E].
    + unfold given_with_content in *. rewrite !last_snoc. unfold kid_is. cbn [fst snd]. split; intros ->.
      * destruct (W eq_refl) as [W1 W2]. unfold OnChildParsed, o1. destruct (Z.eqb_spec i 0x54B0) as [->|N1]; [|destruct (Z.eqb_spec i 0x54BA) as [->|N2]];
          cbn [o_width o_height Z.eqb Pos.eqb fst snd]; (split; [try exact W1|try exact W2]); try (unfold Z.gtb, Z.ltb; rewrite (Z.compare_antisym 0 sz); destruct (0 ?= sz); reflexivity).
      * pose proof (A eq_refl) as A1. unfold OnChildParsed, o1. destruct (Z.eqb_spec i 0x78B5) as [->|N1]; cbn [o_output fst snd]; [|exact A1].
        unfold Z.gtb, Z.ltb; rewrite (Z.compare_antisym 0 sz); destruct (0 ?= sz); reflexivity.
Qed.

Lemma assign_other : forall a b i l, i <> a -> assoc i (assign a b l) = assoc i l.
Proof.
  intros a b i l H. unfold assign. destruct (assoc b l) as [[d p|m]|]; try reflexivity.
  rewrite assoc_update. destruct (Z.eqb_spec i a); [contradiction|reflexivity].
Qed.
Lemma assign_same : forall a b l d p e q, assoc b l = Some (One d p) -> assoc a l = Some (One e q) -> assoc a (assign a b l) = Some (One d q).
Proof. intros a b l d p e q Hb Ha. unfold assign. rewrite Hb, assoc_update, Z.eqb_refl, Ha. reflexivity. Qed.

Lemma plain_one : forall parent id ty ks, repeats parent id = false ->
  plain_field parent id ty ks = One (single (plain_field parent id ty ks)) (match last_of id ks with Some _ => true | None => false end).
Proof. intros parent id ty ks R. unfold plain_field. rewrite R. destruct (last_of id ks); reflexivity. Qed.

Lemma no_lender : forall s id, s <> VVideo -> s <> VAudio -> lender (struct_id s) id = None.
Proof.
  intros s id H1 H2. unfold lender, borrows. cbn [find fst snd].
  destruct s; try contradiction; reflexivity.
Qed.

Lemma object_shows : forall s kids id n, assoc id (val_children s) = Some n ->
  exists sl, field id (object s kids) = Some sl /\ shows (struct_id s) id kids sl.
Proof.
  intros s kids id n H. pose proof (loop s kids) as L. cbv zeta in L. destruct L as (F & W & A).
  unfold object, field. set (o := fold_left (child_done s) kids (obj_init s)) in *. clearbody o.
  destruct (F id n H) as (ty & T & E).
  assert (Plain : lender (struct_id s) id = None -> assoc id (fix_missing s o) = assoc id (o_fields o) ->
          exists sl, assoc id (fix_missing s o) = Some sl /\ shows (struct_id s) id kids sl).
  { intros HL HE. rewrite HE. eexists. split; [exact E|]. exists ty. split; [exact T|]. rewrite HL. reflexivity. }
  assert (Borrow : forall other no, assoc other (val_children s) = Some no -> lender (struct_id s) id = Some other ->
          repeats (struct_id s) id = false -> repeats (struct_id s) other = false ->
          (given_with_content id kids = true -> assoc id (fix_missing s o) = assoc id (o_fields o)) ->
          (given_with_content id kids = false -> exists l, assoc id l = assoc id (o_fields o) /\ assoc other l = assoc other (o_fields o) /\ assoc id (fix_missing s o) = assoc id (assign id other l)) ->
          exists sl, assoc id (fix_missing s o) = Some sl /\ shows (struct_id s) id kids sl).
  { intros other no Ho HL R1 R2 G1 G2. destruct (given_with_content id kids) eqn:G.
    - rewrite (G1 eq_refl). eexists. split; [exact E|]. exists ty. split; [exact T|]. rewrite HL, G. reflexivity.
    - destruct (G2 eq_refl) as (l & L1 & L2 & L3). destruct (F other no Ho) as (ty' & T' & E').
      rewrite (plain_one _ _ ty' kids R2) in E'. rewrite (plain_one _ _ ty kids R1) in E.
      eexists. split; [rewrite L3; refine (assign_same _ _ _ _ _ _ _ _ _); [rewrite L2; exact E'|rewrite L1; exact E]|].
      exists ty. split; [exact T|]. rewrite HL, G. exists ty'. split; [exact T'|reflexivity]. }
  destruct s; try (apply Plain; [apply no_lender; discriminate|reflexivity]).
  - destruct (W eq_refl) as [W1 W2]. unfold fix_missing in *. cbn [struct_id] in *. clear F A.
    destruct (Z.eq_dec id 0x54B0) as [->|N1]; [|destruct (Z.eq_dec id 0x54BA) as [->|N2]].
    + refine (Borrow 0xB0 _ eq_refl eq_refl eq_refl eq_refl _ _); intros G; rewrite W1, G; cbn [negb].
      * destruct (o_height o); cbn [negb]; [reflexivity|apply assign_other; lia].
      * exists (o_fields o). split; [reflexivity|]. split; [reflexivity|].
        destruct (o_height o); cbn [negb]; [reflexivity|apply assign_other; lia].
    + refine (Borrow 0xBA _ eq_refl eq_refl eq_refl eq_refl _ _); intros G; rewrite W2, G; cbn [negb].
      * destruct (o_width o); cbn [negb]; [reflexivity|apply assign_other; lia].
      * exists (if negb (o_width o) then assign 0x54B0 0xB0 (o_fields o) else o_fields o).
        split; [destruct (o_width o); cbn [negb]; [reflexivity|apply assign_other; lia]|].
        split; [destruct (o_width o); cbn [negb]; [reflexivity|apply assign_other; lia]|reflexivity].
    + apply Plain.
      * unfold lender, borrows. cbn [find fst snd]. destruct (Z.eqb_spec 0x54B0 id); [congruence|]. destruct (Z.eqb_spec 0x54BA id); [congruence|]. reflexivity.
      * destruct (o_height o), (o_width o); cbn [negb]; rewrite ?assign_other by lia; reflexivity.
  - pose proof (A eq_refl) as A1. unfold fix_missing in *. cbn [struct_id] in *. clear F W.
    destruct (Z.eq_dec id 0x78B5) as [->|N1].
    + refine (Borrow 0xB5 _ eq_refl eq_refl eq_refl eq_refl _ _); intros G; rewrite A1, G; cbn [negb]; [reflexivity|].
      exists (o_fields o). split; [reflexivity|]. split; reflexivity.
    + apply Plain.
      * unfold lender, borrows. cbn [find fst snd]. destruct (Z.eqb_spec 0x78B5 id); [congruence|]. reflexivity.
      * destruct (o_output o); cbn [negb]; rewrite ?assign_other by lia; reflexivity.
Qed.
