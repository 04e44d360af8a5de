(* Proofs about files of the muxer as documents for the callback parser: clusters
   and the whole file. *)
From Coq Require Import ZifyBool ZifyNat.
From Verif Require Import Base MMuxUtil EbmlSpec LacingSpec Ids MFloat MMuxBlock BlockSpec MMuxMeta MetaSpec MMuxSegment MuxFileSpec ClusterSpec SegReadSpec
  WpSpec WpDocSpec WpMuxSpec PMuxUtil PMeta PWpMux PWpMux2.

(* ---------- clusters ---------- *)

Lemma block_id : forall scale tc f it, is_block_item scale tc f it ->
  starts it = true.
Proof. intros scale tc f it (H & _). exact H. Qed.

Lemma started : forall scale tc m fs items, Forall2 (is_block_item scale tc) fs items -> forall before,
  reports (cluster_events m before true items) = [] /\
  exists xs, Forall2 (tells scale) fs xs /\ forall rest, collect tc None (cluster_events m before true items ++ rest) = xs ++ collect tc None rest.
Proof.
  intros scale tc m fs items H. induction H as [|f it fs items HB HF IH]; intros before.
  - split; [reflexivity|]. exists []. split; [constructor|]. intros rest. reflexivity.
  - cbn [cluster_events]. rewrite (block_id _ _ _ _ HB). cbn [andb orb negb app]. destruct HB as (_ & B1 & x & X1 & X2). destruct (IH (before ++ [it])) as (R1 & xs & XS1 & XS2).
    split; [change (EElement (i_meta it) :: i_events it ++ cluster_events m (before ++ [it]) true items) with ([EElement (i_meta it)] ++ i_events it ++ cluster_events m (before ++ [it]) true items);
            rewrite !reports_app, B1, R1; reflexivity|].
    exists (x :: xs). split; [constructor; assumption|]. intros rest. cbn [app collect]. rewrite <- app_assoc, X2, XS2. reflexivity.
Qed.

(* the contents of a cluster *)
Lemma cluster_body : forall scale c tcp t blocks closed pos,
  uint_payload (mc_tc c) tcp -> is_element kMkvTimecode tcp t -> Forall2 (is_block scale (mc_tc c)) (mc_frames c) blocks ->
  exists items, elements O Cluster closed pos (t ++ concat blocks) items /\ forall m,
    reports (cluster_events m [] false items) = [] /\
    exists xs, Forall2 (tells scale) (mc_frames c) xs /\
      forall tc0 rest, collect tc0 None (cluster_events m [] false items ++ rest) = xs ++ collect (mc_tc c) None rest.
Proof.
  intros scale c tcp t blocks closed pos HU HT HF.
  assert (HB : exists items, ones O Cluster closed (pos + zlen t) (concat blocks) items /\ Forall2 (is_block_item scale (mc_tc c)) (mc_frames c) items).
  { clear - HF. generalize (pos + zlen t) as q. induction HF as [|f b fs bl HB HF IH]; intros q; [exists []; split; constructor|].
    destruct (block_item scale (mc_tc c) f b closed q HB) as (it & I1 & I2). destruct (IH (q + zlen b)) as (items & J1 & J2).
    exists (it :: items). split; [cbn [concat]; constructor; assumption|constructor; assumption]. }
  destruct HB as (items & B1 & B2). destruct (item_meta O Cluster closed kMkvTimecode tcp t pos HT) as (n & N1 & N2 & N3 & N4).
  set (ti := mk_item n [] (Some (VInt (mc_tc c)))). exists (ti :: items).
  split; [apply one_cons; [apply N4; eapply e_scalar; [rewrite N1; reflexivity|apply uint_scalar; exact HU|exact N2]|apply ones_all; exact B1]|].
  intros m. cbn [cluster_events]. replace (starts ti) with false by (unfold starts; cbn [ti i_meta i_value]; rewrite N1; reflexivity).
  cbn [andb orb negb app ti i_events]. fold ti. assert (EV : item_values [ti] = [(0xE7, VInt (mc_tc c))]) by (unfold item_values; cbn [map concat ti i_value i_meta app]; rewrite N1; reflexivity).
  destruct B2 as [|f it fs items' HB B2].
  - cbn [cluster_events]. rewrite EV. split; [reflexivity|]. exists []. split; [constructor|]. intros tc0 rest. reflexivity.
  - cbn [cluster_events]. rewrite (block_id _ _ _ _ HB), EV. cbn [andb orb negb app]. destruct HB as (_ & B3 & x & X1 & X2).
    destruct (started scale (mc_tc c) m fs items' B2 ([ti] ++ [it])) as (R1 & xs & XS1 & XS2). cbn [app] in R1, XS2.
    split.
    + match goal with |- reports (?a :: ?b :: ?c :: ?r) = [] => change (reports (a :: b :: c :: r)) with (reports r) end. rewrite reports_app, B3, R1. reflexivity.
    + exists (x :: xs). split; [constructor; assumption|]. intros tc0 rest. cbn [app collect].
      change (cluster_time [(231, VInt (mc_tc c))]) with (mc_tc c). rewrite <- app_assoc, X2, XS2. reflexivity.
Qed.

Definition unknown_field : list Z := [1; 255; 255; 255; 255; 255; 255; 255].
Lemma unknown_vint : unknown_field = vint 8 (2 ^ (7 * 8) - 1).
Proof. reflexivity. Qed.

(* a list of clusters, and what is told about it *)
Definition cluster_told (scale : Z) (cs : list mcluster) (evs : list event) : Prop :=
  reports evs = [] /\ exists xs, Forall2 (tells scale) (concat (map mc_frames cs)) xs /\
    forall tc rest, exists tc', collect tc None (evs ++ rest) = xs ++ collect tc' None rest.

Lemma clusters_elements : forall sized scale cs pos back more, Forall (is_cluster sized scale) cs ->
  (sized = false -> cs <> [] -> ends_cluster more) ->
  elements O Segment sized (pos + zlen (concat (map mc_bytes cs))) back more ->
  exists items, elements O Segment sized pos (concat (map mc_bytes cs) ++ back) (items ++ more) /\ cluster_told scale cs (item_events items) /\
    (cs <> [] -> sized = false -> ends_cluster (items ++ more)) /\ (cs = [] -> items = []).
Proof.
  intros sized scale cs pos back more H HE. revert pos. induction H as [|c cs HC HF IH]; intros pos H.
  - exists []. cbn [map concat app] in *. rewrite zlen_nil in H. replace (pos + 0) with pos in H by lia. split; [exact H|].
    split; [split; [reflexivity|]; exists []; split; [constructor|]; intros tc rest; exists tc; reflexivity|]. split; [intros X; contradiction|reflexivity].
  - cbn [map concat] in *. rewrite zlen_app in H. destruct (IH) with (pos := pos + zlen (mc_bytes c)) as (items & I1 & (I2 & xs & I3 & I4) & I5 & I6).
    { intros Hs _. apply HE; [exact Hs|discriminate]. }
    { replace (pos + zlen (mc_bytes c) + zlen (concat (map mc_bytes cs))) with (pos + (zlen (mc_bytes c) + zlen (concat (map mc_bytes cs)))) by lia. exact H. }
    destruct HC as (tcp & t & blocks & C1 & C2 & C3 & C4). rewrite <- app_assoc.
    assert (HT : forall m its, me_id m = Cluster -> (reports (cluster_events m [] false its) = [] /\
       exists ys, Forall2 (tells scale) (mc_frames c) ys /\ forall tc0 rest, collect tc0 None (cluster_events m [] false its ++ rest) = ys ++ collect (mc_tc c) None rest) ->
       forall v, cluster_told scale (c :: cs) (item_events (mk_item m (cluster_events m [] false its) v :: items))).
    { intros m its _ (R1 & ys & Y1 & Y2) v. rewrite item_events_cons. cbn [i_meta i_events]. split.
      - change (reports (EElement m :: cluster_events m [] false its ++ item_events items)) with (reports (cluster_events m [] false its ++ item_events items)). rewrite reports_app, R1, I2. reflexivity.
      - exists (ys ++ xs). cbn [map concat]. split; [apply Forall2_app; assumption|]. intros tc rest. destruct (I4 (mc_tc c) rest) as (tc' & I4'). exists tc'.
        cbn [app collect]. rewrite <- app_assoc, Y2, I4', app_assoc. reflexivity. }
    assert (EMC : forall m its, me_id m = Cluster -> master_events m its = cluster_events m [] false its).
    { intros m its Hm. unfold master_events. rewrite Hm. reflexivity. }
    destruct sized.
    + destruct (item_meta O Segment true kMkvCluster _ _ pos C4) as (m & M1 & M2 & M3 & M4).
      destruct (cluster_body scale c tcp t blocks true (me_pos m + me_hsize m) C1 C2 C3) as (its & J1 & J2).
      exists (mk_item m (cluster_events m [] false its) (Some (VRec (item_values its))) :: items). split; [|split; [apply HT; [exact M1|apply J2]|split; discriminate]].
      cbn [app]. apply one_cons; [|exact I1]. apply M4. rewrite <- (EMC m its M1). apply WpDocSpec.e_master with (d' := O); rewrite ?M1; try reflexivity. rewrite M3. exact J1.
    + destruct C4 as (ib & L1 & L2). set (m := mk_meta kMkvCluster (zlen ib + 8) kUnknownElementSize pos).
      destruct (cluster_body scale c tcp t blocks false (me_pos m + me_hsize m) C1 C2 C3) as (its & J1 & J2).
      exists (mk_item m (cluster_events m [] false its) (Some (VRec (item_values its))) :: items).
      split; [|split; [apply HT; [reflexivity|apply J2]|]].
      * change (((mk_item m (cluster_events m [] false its) (Some (VRec (item_values its))) :: items) ++ more)) with (mk_item m (cluster_events m [] false its) (Some (VRec (item_values its))) :: (items ++ more)).
        assert (L3 : mc_bytes c = ib ++ vint 8 (2 ^ (7 * 8) - 1) ++ (t ++ concat blocks)) by exact L2. rewrite L3, <- !app_assoc, (app_assoc t).
        apply (els_unsized O Segment false pos kMkvCluster ib 8 (t ++ concat blocks)); [exact L1|lia| | |reflexivity| |].
        -- destruct C2 as (jb & w & (k & (K1 & _) & ->) & _ & ->). clear - K1. intros E. apply (f_equal zlen) in E. rewrite !zlen_app, be_bytes_zlen, zlen_nil in E.
           pose proof (zlen_nonneg _ (vint w (zlen tcp))). pose proof (zlen_nonneg _ tcp). pose proof (zlen_nonneg _ (concat blocks)). lia.
        -- right. split; [reflexivity|]. destruct cs as [|c2 cs]; [|apply I5; [discriminate|reflexivity]].
           rewrite (I6 eq_refl). apply HE; [reflexivity|discriminate].
        -- rewrite <- (EMC m its eq_refl). apply WpDocSpec.e_master with (d' := O); try reflexivity. exact J1.
        -- rewrite L2 in I1. rewrite !zlen_app in I1. rewrite zlen_app. change (zlen [1; 255; 255; 255; 255; 255; 255; 255]) with 8 in I1.
           replace (pos + zlen ib + 8 + (zlen t + zlen (concat blocks))) with (pos + (zlen ib + (8 + (zlen t + zlen (concat blocks))))) by lia. exact I1.
      * split; [|discriminate]. intros _ _. cbn [app ends_cluster i_meta me_id me_size m]. split; [reflexivity|]. split; [discriminate|]. left. discriminate.
Qed.

(* ---------- reports about trees ---------- *)

(* elements inside which nothing is reported *)
Definition dull (p : Z) : bool := negb (existsb (Z.eqb p) [0; Segment; kMkvSeekHead; kMkvTracks; kMkvCues; kMkvChapters; kMkvTags]).
Lemma assoc_in : forall A id (l : list (Z * A)) x, assoc id l = Some x -> In (id, x) l.
Proof.
  induction l as [|[i y] l IH]; intros x H; [discriminate|]. cbn [assoc] in H. destruct (Z.eqb_spec i id) as [->|N]; [left; congruence|right; apply IH; exact H].
Qed.
Definition no_kind (id : Z) : bool := match kind_of id with None => true | Some _ => false end.
Lemma dull_step : forall p id, dull p = true -> type_in p id = Some TMaster -> dull id = true /\ kind_of id = None.
Proof.
  intros p id HD HT. unfold type_in in HT. destruct (assoc p schema) as [l|] eqn:E; [|discriminate]. apply assoc_in in E, HT.
  assert (C : forallb (fun e => negb (dull (fst e)) || forallb (fun c => match snd c with TMaster => dull (fst c) && no_kind (fst c) | _ => true end) (snd e)) schema = true) by (vm_compute; reflexivity).
  rewrite forallb_forall in C. specialize (C _ E). cbn [fst snd] in C. rewrite HD in C. cbn [negb orb] in C. rewrite forallb_forall in C. specialize (C _ HT). cbn [fst snd] in C.
  apply andb_prop in C as [C1 C2]. split; [exact C1|]. unfold no_kind in C2. destruct (kind_of id); [discriminate|reflexivity].
Qed.
Lemma conforms_kids : forall d p id kids, conforms d p (Master id kids) -> exists d', Forall (conforms d' id) kids.
Proof.
  intros d p id kids (_ & _ & d' & _ & H). exists d'. induction kids as [|k kids IH]; [constructor|]. destruct H as [H1 H2]. constructor; [exact H1|apply IH; exact H2].
Qed.
Lemma dull_reports : forall t d p, dull p = true -> conforms d p t -> tree_reports p t = [].
Proof.
  induction t as [id l|id kids IH] using tree_ind2; intros d p HD HC; [reflexivity|]. destruct (conforms_kids _ _ _ _ HC) as (d' & HK).
  destruct HC as (C1 & _). destruct (dull_step p id HD C1) as [D1 D2]. cbn [tree_reports]. rewrite D2, app_nil_r.
  induction IH as [|t ts Ht IH IHs]; [reflexivity|]. inversion HK; subst. cbn [map concat]. rewrite (Ht d' id D1) by assumption. apply IHs. assumption.
Qed.
Lemma object_reports : forall d p id kids k, conforms d p (Master id kids) -> dull id = true -> kind_of id = Some k ->
  tree_reports p (Master id kids) = report k p (Master id kids).
Proof.
  intros d p id kids k HC HD HK. destruct (conforms_kids _ _ _ _ HC) as (d' & HF). cbn [tree_reports]. rewrite HK.
  replace (concat (map (tree_reports id) kids)) with (@nil (rkind * value)); [reflexivity|]. symmetry.
  clear HC. induction HF as [|t ts Ht HF IH]; [reflexivity|]. cbn [map concat]. rewrite (dull_reports t d' id HD Ht). apply IH.
Qed.
Lemma group_reports : forall d p id kids k, conforms d p (Master id kids) -> kind_of id = None ->
  Forall (fun t => exists i ks, t = Master i ks /\ dull i = true /\ kind_of i = Some k) kids ->
  tree_reports p (Master id kids) = reports_of k id kids.
Proof.
  intros d p id kids k HC HK HF. destruct (conforms_kids _ _ _ _ HC) as (d' & HF'). cbn [tree_reports]. rewrite HK, app_nil_r. unfold reports_of. f_equal.
  clear HC. induction HF as [|t ts (i & ks & -> & D & K) HF IH]; [reflexivity|]. inversion HF'; subst. cbn [map]. rewrite (object_reports d' id i ks k) by assumption. f_equal. apply IH. assumption.
Qed.
Lemma map_masters : forall A (f : A -> tree) k l, (forall x, exists i ks, f x = Master i ks /\ dull i = true /\ kind_of i = Some k) ->
  Forall (fun t => exists i ks, t = Master i ks /\ dull i = true /\ kind_of i = Some k) (map f l).
Proof. intros A f k l H. apply Forall_map, Forall_forall. intros x _. apply H. Qed.

Lemma header_reports : forall v dt, tree_reports 0 (ebml_header_tree v dt) = report KEbml 0 (ebml_header_tree v dt).
Proof. intros. eapply object_reports; [apply header_conforms|reflexivity|reflexivity]. Qed.
Lemma info_reports : forall i, tree_reports Segment (info_tree i) = report KInfo Segment (info_tree i).
Proof. intros. eapply object_reports; [apply info_conforms|reflexivity|reflexivity]. Qed.
Lemma seek_reports : forall l, Forall (fun e => 0 <= fst e < 2 ^ 32) l -> tree_reports Segment (seek_head_tree l) = reports_of KSeek kMkvSeekHead (map seek_tree l).
Proof. intros. eapply group_reports; [apply seek_conforms; assumption|reflexivity|]. apply map_masters. intros x. do 2 eexists. repeat split. Qed.
Lemma tracks_reports : forall l, tree_reports Segment (tracks_tree l) = reports_of KTrackEntry kMkvTracks (map track_tree l).
Proof. intros. eapply group_reports; [apply tracks_conforms|reflexivity|]. apply map_masters. intros x. do 2 eexists. repeat split. Qed.
Lemma tags_reports : forall l, tree_reports Segment (tags_tree l) = reports_of KTag kMkvTags (map tag_tree l).
Proof. intros. eapply group_reports; [apply tags_conforms|reflexivity|]. apply map_masters. intros x. do 2 eexists. repeat split. Qed.
Lemma cues_reports : forall l, tree_reports Segment (cues_tree l) = reports_of KCuePoint kMkvCues (map cue_tree l).
Proof. intros. eapply group_reports; [apply cues_conforms|reflexivity|]. apply map_masters. intros x. do 2 eexists. repeat split. Qed.
Lemma chapters_reports : forall l, tree_reports Segment (chapters_tree l) = report KEdition kMkvChapters (Master kMkvEditionEntry (map chapter_tree l)).
Proof.
  intros. unfold chapters_tree. rewrite (group_reports O Segment kMkvChapters _ KEdition); [|apply (chapters_conforms l)|reflexivity|repeat constructor; do 2 eexists; repeat split].
  unfold reports_of. cbn [map concat]. apply app_nil_r.
Qed.

(* ---------- the parts of a file that are not clusters ---------- *)

Definition part (sized : bool) (bs : list Z) (R : list (rkind * value)) : Prop := forall pos,
  exists items, ones O Segment sized pos bs items /\ Forall calm (item_events items) /\ reports (item_events items) = R.
Lemma part_nil : forall sized, part sized [] [].
Proof. intros sized pos. exists []. split; [constructor|]. split; [constructor|reflexivity]. Qed.
Lemma part_app : forall sized a b x y, part sized a x -> part sized b y -> part sized (a ++ b) (x ++ y).
Proof.
  intros sized a b x y Ha Hb pos. destruct (Ha pos) as (i & A1 & A2 & A3). destruct (Hb (pos + zlen a)) as (j & B1 & B2 & B3).
  exists (i ++ j). split; [apply ones_app; assumption|]. rewrite item_events_app, reports_app, A3, B3. split; [apply Forall_app; auto|reflexivity].
Qed.
Lemma part_tree : forall sized t bs, conforms O Segment t -> known_in Segment t -> encodes t bs -> part sized bs (tree_reports Segment t).
Proof.
  intros sized t bs HC HK HE pos. destruct (tree_item t O Segment sized bs pos HC HE (or_intror HK)) as (it & I1 & (_ & _ & I2 & I3 & _)).
  exists [it]. split; [apply ones_1; exact I1|]. rewrite item_events_1. split; [constructor; [exact Logic.I|exact I2]|exact I3].
Qed.
Lemma part_void : forall sized p bs, is_element kMkvVoid p bs -> part sized bs [].
Proof.
  intros sized p bs HE pos. destruct (item_meta O Segment sized kMkvVoid p bs pos HE) as (m & M1 & M2 & M3 & M4).
  exists [mk_item m (data_events (DVoid m) p) None]. split; [apply ones_1, M4, e_void; [rewrite M1; reflexivity|exact M2]|].
  rewrite item_events_1. cbn [i_events i_meta]. split; [constructor; [exact Logic.I|apply calm_data; discriminate]|apply reports_data].
Qed.

(* ---------- the file ---------- *)

Theorem file_told : forall sized scale h dt eb seg fr bk cs R1 R2,
  encodes (ebml_header_tree h dt) eb -> is_sized_element sized kMkvSegment (fr ++ concat (map mc_bytes cs) ++ bk) seg -> fr <> [] ->
  part sized fr R1 -> Forall (is_cluster sized scale) cs ->
  (forall pos, exists items, ones O Segment sized pos bk items /\ Forall calm (item_events items) /\ reports (item_events items) = R2 /\
     (sized = false -> cs <> [] -> ends_cluster items)) ->
  exists events, document (eb ++ seg) events /\ reports events = report KEbml 0 (ebml_header_tree h dt) ++ R1 ++ R2 /\
    Forall2 (tells scale) (concat (map mc_frames cs)) (frames_told events).
Proof.
  intros sized scale h dt eb seg fr bk cs R1 R2 HE HS HN HF HC HB.
  destruct (tree_item _ O 0 true eb 0 (header_conforms h dt) HE (or_introl eq_refl)) as (eit & E1 & (_ & _ & E2 & E3 & _)). rewrite header_reports in E3.
  assert (HI : forall pos, exists items, elements O Segment sized pos (fr ++ concat (map mc_bytes cs) ++ bk) items /\ reports (item_events items) = R1 ++ R2 /\
     exists xs, Forall2 (tells scale) (concat (map mc_frames cs)) xs /\ forall tc evs, Forall calm evs -> collect tc None (item_events items ++ EEnd KSegment (mk_meta 0 0 0 0) (VRec []) :: evs) = xs).
  { intros pos. destruct (HF pos) as (fi & F1 & F2 & F3). destruct (HB (pos + zlen fr + zlen (concat (map mc_bytes cs)))) as (bi & B1 & B2 & B3 & B4).
    destruct (clusters_elements sized scale cs (pos + zlen fr) bk bi HC B4 (ones_all _ _ _ _ _ _ B1)) as (ci & C1 & (C2 & xs & C3 & C4) & _ & _).
    exists (fi ++ ci ++ bi). split; [apply ones_elements; assumption|]. rewrite !item_events_app, !reports_app, F3, C2, B3. split; [reflexivity|].
    exists xs. split; [exact C3|]. intros tc evs He. rewrite <- !app_assoc, (collect_calm _ _ _ _ F2).
    destruct (C4 tc (item_events bi ++ EEnd KSegment (mk_meta 0 0 0 0) (VRec []) :: evs)) as (tc' & ->). rewrite (collect_calm _ _ _ _ B2). cbn [collect].
    rewrite <- (app_nil_r evs), (collect_calm _ _ _ _ He). cbn [collect]. apply app_nil_r. }
  assert (HD : forall sit its, elements O 0 true (0 + zlen eb) seg [sit] -> i_events sit = EBegin KSegment (i_meta sit) (VRec []) :: item_events its ++ [EEnd KSegment (i_meta sit) (VRec [])] ->
     reports (item_events its) = R1 ++ R2 ->
     (exists xs, Forall2 (tells scale) (concat (map mc_frames cs)) xs /\ forall tc evs, Forall calm evs -> collect tc None (item_events its ++ EEnd KSegment (mk_meta 0 0 0 0) (VRec []) :: evs) = xs) ->
     exists events, document (eb ++ seg) events /\ reports events = report KEbml 0 (ebml_header_tree h dt) ++ R1 ++ R2 /\ Forall2 (tells scale) (concat (map mc_frames cs)) (frames_told events)).
  { intros sit its H1 H2 H3 (xs & X1 & X2). exists (item_events [eit; sit]). split; [exists [eit; sit]; split; [apply one_cons; assumption|reflexivity]|].
    rewrite item_events_cons, item_events_1, H2. split.
    - change (reports (EElement (i_meta eit) :: i_events eit ++ EElement (i_meta sit) :: EBegin KSegment (i_meta sit) (VRec []) :: item_events its ++ [EEnd KSegment (i_meta sit) (VRec [])]))
        with (reports (i_events eit ++ EElement (i_meta sit) :: EBegin KSegment (i_meta sit) (VRec []) :: item_events its ++ [EEnd KSegment (i_meta sit) (VRec [])])).
      rewrite reports_app, E3. f_equal. 
      change (reports (EElement (i_meta sit) :: EBegin KSegment (i_meta sit) (VRec []) :: item_events its ++ [EEnd KSegment (i_meta sit) (VRec [])])) with (reports (item_events its ++ [EEnd KSegment (i_meta sit) (VRec [])])).
      rewrite reports_app, H3. cbn. apply app_nil_r.
    - unfold frames_told. cbn [collect]. rewrite (collect_calm _ _ _ _ E2). cbn [collect].
      assert (EC : forall evs tc cur m1 m2, collect tc cur (evs ++ [EEnd KSegment m1 (VRec [])]) = collect tc cur (evs ++ [EEnd KSegment m2 (VRec [])])).
      { clear. induction evs as [|e evs IH]; intros tc cur m1 m2; [destruct cur; reflexivity|]. cbn [app collect].
        repeat match goal with |- context [match ?x with _ => _ end] => is_var x; destruct x end; try apply IH; f_equal; apply IH. }
      rewrite (EC _ _ _ _ (mk_meta 0 0 0 0)), (X2 0 [] (Forall_nil _)). exact X1. }
  destruct sized.
  - destruct (item_meta O 0 true kMkvSegment _ _ (0 + zlen eb) HS) as (m & M1 & M2 & M3 & M4).
    destruct (HI (me_pos m + me_hsize m)) as (its & I1 & I2 & I3).
    apply (HD (mk_item m (master_events m its) (Some (VRec (item_values its)))) its); auto.
    + apply ones_all, ones_1, M4. apply WpDocSpec.e_master with (d' := O); rewrite ?M1; try reflexivity. rewrite M3. exact I1.
    + cbn [i_events i_meta]. unfold master_events. rewrite M1. reflexivity.
  - destruct HS as (ib & L1 & L2). set (m := mk_meta kMkvSegment (zlen ib + 8) kUnknownElementSize (0 + zlen eb)).
    destruct (HI (me_pos m + me_hsize m)) as (its & I1 & I2 & I3).
    apply (HD (mk_item m (master_events m its) (Some (VRec (item_values its)))) its); auto.
    assert (L3 : seg = ib ++ vint 8 (2 ^ (7 * 8) - 1) ++ (fr ++ concat (map mc_bytes cs) ++ bk) ++ []) by (rewrite app_nil_r; exact L2). rewrite L3.
    apply (els_unsized O 0 true (0 + zlen eb) kMkvSegment ib 8); [exact L1|lia| | |reflexivity| |apply els_none].
    + intros E. apply app_eq_nil in E as [E _]. contradiction.
    + left. split; reflexivity.
    + apply WpDocSpec.e_master with (d' := O); try reflexivity. exact I1.
Qed.
