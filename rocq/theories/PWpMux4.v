(* Proofs about files of the muxer as documents for the callback parser: the files of
   a session. *)
From Coq Require Import ZifyBool ZifyNat.
From Verif Require Import Base MMuxUtil EbmlSpec LacingSpec Ids MFloat MMuxBlock BlockSpec MMuxMeta MetaSpec MMuxSegment MuxFileSpec MoveSpec ClusterSpec SegReadSpec
  WpSpec WpDocSpec WpMuxSpec PMuxUtil PMeta PSegLayout PWpMux PWpMux2 PWpMux3.

(* ---------- the file consists of bytes ---------- *)

Lemma bytes_app : forall a b, bytes a -> bytes b -> bytes (a ++ b).
Proof. intros. apply Forall_app. auto. Qed.
Lemma id_bytes_bytes : forall id ib, is_id_bytes id ib -> bytes ib.
Proof. intros id ib (w & _ & ->). apply be_bytes_bytes. Qed.
Lemma element_bytes : forall id p bs, is_element id p bs -> bytes p -> bytes bs.
Proof. intros id p bs (ib & w & H1 & _ & ->) H. apply bytes_app; [eapply id_bytes_bytes; exact H1|]. apply bytes_app; [apply be_bytes_bytes|exact H]. Qed.
Lemma sized_bytes : forall sized id p bs, is_sized_element sized id p bs -> bytes p -> bytes bs.
Proof.
  intros [] id p bs H HP; [eapply element_bytes; eassumption|]. destruct H as (ib & H1 & ->). apply bytes_app; [eapply id_bytes_bytes; exact H1|].
  apply bytes_app; [repeat constructor; unfold is_byte; lia|exact HP].
Qed.
Lemma encodes_bytes : forall t bs, values_ok t -> encodes t bs -> bytes bs.
Proof.
  induction t as [id l|id kids IH] using tree_ind2; intros bs HV HE.
  - inversion HE as [? ? p ? HP HEl|]; subst. eapply element_bytes; [exact HEl|]. destruct HV as [_ HV]. destruct l; cbn [leaf_payload leaf_ok] in *.
    + apply HP. + subst p. apply be_bytes_bytes. + apply HP. + subst p. apply HV.
  - inversion HE as [|? ? body ? HB HEl]; subst. eapply element_bytes; [exact HEl|]. destruct HV as [_ HV]. apply values_fold in HV. clear HEl HE.
    revert body HB HV. induction IH as [|t ts Ht IH IHs]; intros body HB HV; inversion HB; subst; [constructor|]. inversion HV; subst. apply bytes_app; [apply Ht; assumption|apply IHs; assumption].
Qed.
Lemma content_bytes : forall track time flags data c, block_content track time flags LNone [data] c -> bytes data -> bytes c.
Proof.
  intros track time flags data c (w & head & _ & _ & _ & HB & _ & _ & HL & ->) HD. inversion HL; subst. cbn [concat app]. rewrite app_nil_r.
  apply bytes_app; [apply be_bytes_bytes|]. apply bytes_app; [apply be_bytes_bytes|]. constructor; assumption.
Qed.
Lemma elements_bytes : forall l bs, is_elements l bs -> Forall (fun x => bytes (snd x)) l -> bytes bs.
Proof.
  intros l bs H. induction H as [|id p b rest bs H1 H2 IH]; intros HF; [constructor|]. inversion HF; subst. apply bytes_app; [eapply element_bytes; [exact H1|assumption]|apply IH; assumption].
Qed.
Lemma block_bytes : forall scale tc f bs, is_block scale tc f bs -> frame_ok f -> bytes bs.
Proof.
  intros scale tc f bs (rel & _ & _ & [((c & E1 & E2) & _)|HG]) (HD & _ & HA & _).
  - eapply element_bytes; [exact E1|]. eapply content_bytes; [exact E2|exact HD].
  - destruct HG as (p & blk & adds & disc & refs & dur & E0 & EB & EA & ED & ER & EU & EE). eapply element_bytes; [exact E0|]. eapply elements_bytes; [exact EE|].
    constructor; [cbn [snd]; eapply content_bytes; [exact EB|exact HD]|].
    assert (OC : forall b id P els, opt_child b id P els -> (forall c, P c -> bytes c) -> Forall (fun x => bytes (snd x)) els).
    { intros b id P els HO HP. unfold opt_child in HO. destruct b; [destruct HO as (c & C1 & ->); constructor; [apply HP; exact C1|constructor]|subst; constructor]. }
    repeat (apply Forall_app; split); [|eapply OC; [eassumption|intros c Hc; apply Hc]..].
    destruct (fr_additional f) as [a|]; [|subst; constructor]. destruct EA as (c & (mo & idp & C1 & C2 & C3) & ->). constructor; [|constructor]. cbn [snd].
    eapply element_bytes; [exact C1|]. eapply elements_bytes; [exact C3|]. constructor; [apply C2|constructor; [apply HA|constructor]].
Qed.
Lemma cluster_bytes : forall sized scale c, is_cluster sized scale c -> Forall frame_ok (mc_frames c) -> bytes (mc_bytes c).
Proof.
  intros sized scale c (tcp & t & blocks & C1 & C2 & C3 & C4) HF. eapply sized_bytes; [exact C4|]. apply bytes_app; [eapply element_bytes; [exact C2|apply C1]|].
  clear - C3 HF. induction C3 as [|f b fs bs H1 H2 IH]; [constructor|]. inversion HF; subst. cbn [concat]. apply bytes_app; [eapply block_bytes; eassumption|apply IH; assumption].
Qed.

Lemma header_values : forall v dt, is_u64 v -> bytes dt -> zlen dt < 2 ^ 32 -> values_ok (ebml_header_tree v dt).
Proof.
  intros v dt H1 H2 H3. assert (V : forall id, id_width 2 id \/ id_width 4 id -> valid_id id) by (intros id [H|H]; eexists; exact H).
  cbn [ebml_header_tree values_ok fold_right uint leaf_ok]. unfold is_u64.
  repeat split; try (apply V; unfold id_width; vm_compute; intuition discriminate); try lia; auto; try apply H1.
Qed.
Lemma info_values : forall i d, values_ok (info_tree i) -> values_ok (info_tree (si_set_duration d i)).
Proof.
  intros i d H. unfold info_tree in *. cbn [values_ok] in *. destruct H as [H1 H2]. split; [exact H1|]. apply values_fold. apply values_fold in H2.
  inversion H2 as [|? ? A1 A2]; subst. apply Forall_app in A2 as [_ A2]. constructor; [exact A1|]. apply Forall_app. split; [|exact A2].
  unfold opt. destruct (f64_pos (si_duration (si_set_duration d i))); [|constructor]. constructor; [|constructor]. split; [exists 2; unfold id_width, kMkvDuration; cbn; lia|exact Logic.I].
Qed.
Lemma seek_values : forall l, Forall (fun e => 0 <= fst e < 2 ^ 32 /\ 0 <= snd e < 2 ^ 63) l -> values_ok (seek_head_tree l).
Proof.
  intros l H. split; [exists 4; unfold id_width, kMkvSeekHead; cbn; lia|]. apply values_fold, Forall_map. eapply Forall_impl; [|exact H]. intros [id p] [HI HP].
  cbn [fst snd] in *. cbn [seek_tree values_ok fold_right uint leaf_ok fst snd]. unfold is_u64.
  repeat split; try (exists 2; unfold id_width; vm_compute; intuition discriminate); try lia.
  all: change (2 ^ 63) with 9223372036854775808 in *; change (2 ^ 64) with 18446744073709551616 in *; lia.
Qed.
Lemma encodes_weight : forall t bs, encodes t bs -> zlen bs <= weight t.
Proof.
  assert (HEL : forall id p bs, is_element id p bs -> zlen bs <= 12 + zlen p).
  { intros id p bs (ib & w & (k & (K1 & _) & ->) & (W1 & _) & ->). rewrite !zlen_app, zlen_vint, be_bytes_zlen by lia. lia. }
  induction t as [id l|id kids IH] using tree_ind2; intros bs HE.
  - inversion HE as [? ? p ? HP HEl|]; subst. apply HEL in HEl. cbn [weight]. destruct l; cbn [leaf_payload leaf_weight] in *.
    + destruct HP as ((_ & HP & _) & _). lia.
    + subst p. rewrite be_bytes_zlen in HEl. lia.
    + lia.
    + subst p. lia.
  - inversion HE as [|? ? body ? HB HEl]; subst. apply HEL in HEl. cbn [weight]. enough (zlen body <= fold_right (fun k acc => weight k + acc) 0 kids) by lia. clear HEl HE.
    revert body HB. induction IH as [|t ts Ht IH IHs]; intros body HB; inversion HB; subst; [rewrite zlen_nil; cbn; lia|]. rewrite zlen_app. cbn [fold_right].
    match goal with H1 : encodes t _, H2 : encodes_all ts _ |- _ => apply Ht in H1; apply IHs in H2 end. lia.
Qed.

(* ---------- the file ---------- *)

Definition seek_part (l : MuxFileSpec.layout) (entries : list (Z * Z)) : Prop :=
  (lo_seek l = [] /\ entries = []) \/ (is_seek_head l entries /\ Forall (fun e => 0 <= fst e < 2 ^ 32 /\ 0 <= snd e < 2 ^ 63) entries).

Lemma valid_small : forall id, valid_id id -> 0 <= id < 2 ^ 32.
Proof.
  intros id (w & W1 & W2). assert (2 ^ (7 * w + 1) <= 2 ^ 29) by (apply Z.pow_le_mono_r; lia). pose proof (pow2_pos (7 * w) ltac:(lia)).
  change (2 ^ 29) with 536870912 in *. change (2 ^ 32) with 4294967296. lia.
Qed.
Lemma seek_part_told : forall l entries sized, seek_part l entries -> part sized (lo_seek l) (reports_of KSeek kMkvSeekHead (map seek_tree entries)).
Proof.
  intros l entries sized [[-> ->]|[(sh & vp & void & E1 & _ & E2 & E3) HF]]; [apply part_nil|]. rewrite E1.
  assert (HI : Forall (fun e : Z * Z => 0 <= fst e < 2 ^ 32) entries).
  { eapply Forall_impl; [|exact HF]. intros e [He _]. exact He. }
  rewrite <- (app_nil_r (reports_of _ _ _)). apply part_app; [|eapply part_void; exact E3]. rewrite <- (seek_reports entries HI).
  apply part_tree; [apply seek_conforms; exact HI|discriminate|exact E2].
Qed.
Lemma seek_part_bytes : forall l entries, seek_part l entries -> bytes (lo_seek l).
Proof.
  intros l entries [[-> _]|[(sh & vp & void & E1 & _ & E2 & E3) HF]]; [constructor|]. rewrite E1. apply bytes_app.
  - eapply encodes_bytes; [apply seek_values; exact HF|exact E2].
  - eapply element_bytes; [exact E3|]. apply Forall_forall. intros x Hx. apply repeat_spec in Hx. subst x. unfold is_byte. lia.
Qed.

(* what precedes the clusters *)
Record heading (s : segment) (dt : list Z) (d : f64) (entries : list (Z * Z)) (l : MuxFileSpec.layout) : Prop := mkHeading {
  hd_ebml : encodes (ebml_header_tree 4 dt) (lo_ebml l);
  hd_seek : seek_part l entries;
  hd_info : encodes (info_tree (si_set_duration d (sg_info s))) (lo_info l);
  hd_tracks : encodes (tracks_tree (sg_tracks s)) (lo_tracks l);
  hd_chapters : opt_element (sg_chapters s) (chapters_tree (sg_chapters s)) (lo_chapters l);
  hd_tags : opt_element (sg_tags s) (tags_tree (sg_tags s)) (lo_tags l)
}.
Definition front_reports (s : segment) (d : f64) (entries : list (Z * Z)) : list (rkind * value) :=
  reports_of KSeek kMkvSeekHead (map seek_tree entries) ++ report KInfo Segment (info_tree (si_set_duration d (sg_info s))) ++
  reports_of KTrackEntry kMkvTracks (map track_tree (sg_tracks s)) ++
  match sg_chapters s with [] => [] | l => report KEdition kMkvChapters (Master kMkvEditionEntry (map chapter_tree l)) end ++
  reports_of KTag kMkvTags (map tag_tree (sg_tags s)).
Lemma front_told : forall sized s dt d entries l, heading s dt d entries l -> part sized (lo_front l) (front_reports s d entries) /\ lo_front l <> [].
Proof.
  intros sized s dt d entries l [HE HSk HI HT HC HG]. unfold lo_front, front_reports. split.
  - apply part_app; [apply seek_part_told; exact HSk|]. apply part_app; [rewrite <- info_reports; apply part_tree; [apply info_conforms|discriminate|exact HI]|].
    apply part_app; [rewrite <- tracks_reports; apply part_tree; [apply tracks_conforms|discriminate|exact HT]|].
    apply part_app.
    + unfold opt_element in HC. destruct (sg_chapters s) as [|c cs]; [rewrite HC; apply part_nil|].
      rewrite <- chapters_reports. apply part_tree; [apply chapters_conforms|discriminate|exact HC].
    + rewrite <- tags_reports. unfold opt_element in HG. destruct (sg_tags s) as [|t ts]; [rewrite HG; apply part_nil|]. apply part_tree; [apply tags_conforms|discriminate|exact HG].
  - intros E. apply app_eq_nil in E as [_ E]. apply app_eq_nil in E as [E _]. apply encodes_nonempty in HI. rewrite E, zlen_nil in HI. lia.
Qed.
Lemma heading_bytes : forall s dt d entries l, heading s dt d entries l -> doc_type_of dt -> ready s -> bytes (lo_ebml l) /\ bytes (lo_front l).
Proof.
  intros s dt d entries l [HE HSk HI HT HC HG] HD HR. split.
  - eapply encodes_bytes; [|exact HE]. apply header_values; [unfold is_u64; lia| |]; destruct HD as [->| ->]; try (vm_compute; reflexivity); repeat constructor; unfold is_byte; lia.
  - unfold lo_front. repeat apply bytes_app.
    + eapply seek_part_bytes; exact HSk.
    + eapply encodes_bytes; [apply info_values; apply (r_info s HR)|exact HI].
    + eapply encodes_bytes; [apply (r_tracks s HR)|exact HT].
    + unfold opt_element in HC. pose proof (proj2 (r_chapters s HR)) as HVC. destruct (sg_chapters s); [rewrite HC; constructor|eapply encodes_bytes; eassumption].
    + unfold opt_element in HG. pose proof (proj2 (r_tags s HR)) as HVG. destruct (sg_tags s); [rewrite HG; constructor|eapply encodes_bytes; eassumption].
Qed.
Lemma all_clusters_bytes : forall sized scale cs, Forall (is_cluster sized scale) cs -> Forall (fun c => Forall frame_ok (mc_frames c)) cs -> bytes (concat (map mc_bytes cs)).
Proof.
  intros sized scale cs HCl HFr. induction HCl as [|c cs H1 H2 IH]; [constructor|]. inversion HFr; subst. cbn [map concat]. apply bytes_app; [eapply cluster_bytes; eassumption|apply IH; assumption].
Qed.

Theorem muxed_told : forall sized s dt d cues entries file l,
  is_muxed sized s dt d cues file l -> seek_part l entries -> cues_end_well sized cues (lo_clusters l) ->
  exists events, document file events /\
    reports events = head_reports s dt d entries ++ cue_reports cues /\
    Forall2 (tells (si_timecode_scale (sg_info s))) (lo_frames l) (frames_told events).
Proof.
  intros sized s dt d cues entries file l (seg & -> & HE & HS & HI & HT & HC & HG & HCl & HQ) HSk HW.
  destruct (front_told sized s dt d entries l (mkHeading _ _ _ _ _ HE HSk HI HT HC HG)) as [HF HN].
  destruct (file_told sized (si_timecode_scale (sg_info s)) 4 dt (lo_ebml l) seg _ (lo_cues l) (lo_clusters l) _ (cue_reports cues) HE HS HN HF HCl) as (events & D1 & D2 & D3).
  - intros pos. destruct cues as [qs|].
    + destruct (tree_item (cues_tree qs) O Segment sized (lo_cues l) pos (cues_conforms qs) HQ) as (it & I1 & (I2 & _ & I3 & I4 & I5)); [right; discriminate|].
      exists [it]. split; [apply ones_1; exact I1|]. rewrite item_events_1. split; [constructor; [exact Logic.I|exact I3]|].
      split; [change (reports (EElement (i_meta it) :: i_events it)) with (reports (i_events it)); rewrite I4; apply cues_reports|].
      intros X1 X2. cbn [ends_cluster]. rewrite I2. split; [reflexivity|]. split; [discriminate|]. left.
      destruct qs as [|q qs]; [exfalso; apply (HW X1 X2); reflexivity|exact I5].
    + rewrite HQ. exists []. split; [constructor|]. split; [constructor|]. split; [reflexivity|]. intros _ _. exact Logic.I.
  - exists events. split; [exact D1|]. split; [|exact D3]. rewrite D2. unfold head_reports, front_reports. rewrite <- !app_assoc. reflexivity.
Qed.

Theorem muxed_bytes : forall sized s dt d cues entries file l,
  is_muxed sized s dt d cues file l -> doc_type_of dt -> seek_part l entries -> ready s ->
  Forall (fun c => Forall frame_ok (mc_frames c)) (lo_clusters l) ->
  match cues with None => True | Some qs => values_ok (cues_tree qs) end -> bytes file.
Proof.
  intros sized s dt d cues entries file l (seg & -> & HE & HS & HI & HT & HC & HG & HCl & HQ) HD HSk HR HFr HV.
  destruct (heading_bytes s dt d entries l (mkHeading _ _ _ _ _ HE HSk HI HT HC HG) HD HR) as [B1 B2].
  apply bytes_app; [exact B1|]. eapply sized_bytes; [exact HS|]. unfold lo_body. apply bytes_app; [exact B2|]. apply bytes_app.
  - eapply all_clusters_bytes; eassumption.
  - destruct cues as [qs|]; [eapply encodes_bytes; eassumption|rewrite HQ; constructor].
Qed.

(* the same with the cues in front of the clusters *)
Theorem moved_told : forall s dt d qs entries file l,
  is_moved s dt d qs file l -> seek_part l entries ->
  exists events, document file events /\
    reports events = head_reports s dt d entries ++ cue_reports (Some qs) /\
    Forall2 (tells (si_timecode_scale (sg_info s))) (lo_frames l) (frames_told events).
Proof.
  intros s dt d qs entries file l (seg & -> & HE & HS & HI & HT & HC & HG & HCl & HQ) HSk.
  destruct (front_told true s dt d entries l (mkHeading _ _ _ _ _ HE HSk HI HT HC HG)) as [HF HN].
  assert (HF2 : part true (lo_front l ++ lo_cues l) (front_reports s d entries ++ cue_reports (Some qs))).
  { apply part_app; [exact HF|]. cbn [cue_reports]. rewrite <- cues_reports. apply part_tree; [apply cues_conforms|discriminate|exact HQ]. }
  assert (HS2 : is_sized_element true kMkvSegment ((lo_front l ++ lo_cues l) ++ concat (map mc_bytes (lo_clusters l)) ++ []) seg).
  { rewrite app_nil_r, <- app_assoc. exact HS. }
  assert (HN2 : lo_front l ++ lo_cues l <> []) by (intros E; apply app_eq_nil in E as [E _]; contradiction).
  destruct (file_told true (si_timecode_scale (sg_info s)) 4 dt (lo_ebml l) seg _ [] (lo_clusters l) _ [] HE HS2 HN2 HF2 HCl) as (events & D1 & D2 & D3).
  - intros pos. exists []. split; [constructor|]. split; [constructor|]. split; [reflexivity|discriminate].
  - exists events. split; [exact D1|]. split; [|exact D3]. rewrite D2, app_nil_r. unfold head_reports, front_reports. rewrite <- !app_assoc. reflexivity.
Qed.
Theorem moved_bytes : forall s dt d qs entries file l,
  is_moved s dt d qs file l -> doc_type_of dt -> seek_part l entries -> ready s ->
  Forall (fun c => Forall frame_ok (mc_frames c)) (lo_clusters l) -> values_ok (cues_tree qs) -> bytes file /\ zlen (lo_ebml l) < 2 ^ 20.
Proof.
  intros s dt d qs entries file l (seg & -> & HE & HS & HI & HT & HC & HG & HCl & HQ) HD HSk HR HFr HV.
  destruct (heading_bytes s dt d entries l (mkHeading _ _ _ _ _ HE HSk HI HT HC HG) HD HR) as [B1 B2]. split.
  - apply bytes_app; [exact B1|]. eapply element_bytes; [exact HS|]. unfold moved_body. apply bytes_app; [exact B2|]. apply bytes_app; [eapply encodes_bytes; eassumption|].
    eapply all_clusters_bytes; eassumption.
  - apply encodes_weight in HE. assert (HW : weight (ebml_header_tree 4 dt) < 1000) by (destruct HD as [->| ->]; vm_compute; reflexivity).
    change (2 ^ 20) with 1048576. lia.
Qed.
