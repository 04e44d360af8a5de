(* Copying a file with the cues moved in front of the clusters. *)
From Coq Require Import ZifyBool ZifyNat.
From Verif Require Import Base EbmlSpec MWriter WriterSpec PWriter MMuxUtil PMuxUtil EbmlPropSpec PEbml Ids LacingSpec MMuxBlock BlockSpec
  MFloat MMuxMeta MetaSpec PMeta PMetaObj MMuxSegment SegmentSpec MuxFileSpec MParUtil PSegRun PSegCluster PSegAcc PSegStream PSegHead PSegFin PSegFile PSegLayout
  MMuxMove PMove MoveSpec.

(* ---------- copying ---------- *)

Lemma read_mid : forall a b c, r_read (file_reader (a ++ b ++ c)) (zlen a) (zlen b) = inr b.
Proof.
  intros a b c. unfold r_read, file_reader. cbn [r_err r_avail r_data Z.eqb negb].
  pose proof (zlen_nonneg _ a). pose proof (zlen_nonneg _ b). pose proof (zlen_nonneg _ c). replace ((zlen a <? 0) || (zlen b <? 0)) with false by lia.
  destruct (Z.eqb_spec (zlen b) 0) as [E|_]; [destruct b; [reflexivity|rewrite zlen_cons in E; pose proof (zlen_nonneg _ b); lia]|].
  rewrite !zlen_app. replace (zlen a + zlen b <=? zlen a + (zlen b + zlen c)) with true by lia.
  unfold zslice, zlen. rewrite !Nat2Z.id, skipn_app, skipn_all, Nat.sub_diag. cbn [app skipn]. rewrite firstn_app, firstn_all, Nat.sub_diag. cbn [firstn]. rewrite app_nil_r. reflexivity.
Qed.
Lemma chunked_run : forall fuel a b c w, zlen b <= 2048 * Z.of_nat fuel -> at_end w ->
  exists w', chunked_loop fuel (file_reader (a ++ b ++ c)) (zlen a) (zlen b) w = Val (true, w') /\ appended w b w'.
Proof.
  induction fuel as [|fuel IH]; intros a b c w HL HE; cbn [chunked_loop].
  - destruct b as [|x b]; [|rewrite zlen_cons in HL; pose proof (zlen_nonneg _ b); lia]. exists w. split; [reflexivity|apply appended_nil; exact HE].
  - destruct (Z.leb_spec (zlen b) 0) as [H0|H0].
    { destruct b as [|x b]; [|rewrite zlen_cons in H0; pose proof (zlen_nonneg _ b); lia]. exists w. split; [reflexivity|apply appended_nil; exact HE]. }
    set (n := if zlen b >? 2048 then 2048 else zlen b). assert (HN : 0 < n <= 2048 /\ n <= zlen b /\ zlen b - n <= 2048 * Z.of_nat fuel) by (unfold n; destruct (Z.gtb_spec (zlen b) 2048); lia).
    set (b1 := firstn (Z.to_nat n) b). set (b2 := skipn (Z.to_nat n) b). assert (EB : b = b1 ++ b2) by (symmetry; apply firstn_skipn).
    assert (L1 : zlen b1 = n). { unfold b1, zlen. unfold zlen in HN. rewrite firstn_length. lia. }
    assert (L2 : zlen b2 = zlen b - n). { rewrite EB at 1. rewrite zlen_app. lia. }
    clearbody b1 b2 n. subst b.
    replace (a ++ (b1 ++ b2) ++ c) with (a ++ b1 ++ b2 ++ c) by (rewrite <- !app_assoc; reflexivity).
    rewrite <- L1, read_mid. destruct (run_st _ _ _ (emits_write_st b1) HE) as (w1 & E1 & A1). rewrite (bind_run _ _ _ _ _ _ _ E1).
    destruct (IH (a ++ b1) b2 c w1) as (w2 & E2 & A2); [lia|exact (appended_end _ _ _ A1)|].
    rewrite zlen_app, <- app_assoc in E2. exists w2. split; [|eapply appended_trans; eassumption].
    rewrite <- E2. f_equal. rewrite zlen_app. lia.
Qed.
Lemma copy_run : forall a b c w, at_end w -> exists w', ChunkedCopy (file_reader (a ++ b ++ c)) (zlen a) (zlen b) w = Val (true, w') /\ appended w b w'.
Proof.
  intros a b c w HE. unfold ChunkedCopy. apply chunked_run; [|exact HE]. pose proof (zlen_nonneg _ b). pose proof (Z.div_mod (zlen b) 2048). pose proof (Z.mod_pos_bound (zlen b) 2048).
  pose proof (Z.div_pos (zlen b) 2048). lia.
Qed.

(* ---------- the seek head ---------- *)

Lemma move_seek : forall pre p1 p2 st, (length pre <= 3)%nat -> Forall (fun e => fst e <> kMkvCluster /\ fst e <> kMkvCues) pre ->
  let h := mkSH (pad5 (pre ++ [(kMkvCluster, p1); (kMkvCues, p2)])) st in
  let h1 := SetSeekEntry h (seek_index h kMkvCues) kMkvCues (GetPosition h (seek_index h kMkvCluster)) in
  GetPosition h1 (seek_index h kMkvCues) = p1 /\
  forall p, SetSeekEntry h1 (seek_index h kMkvCluster) kMkvCluster p = mkSH (pad5 (pre ++ [(kMkvCluster, p); (kMkvCues, p1)])) st.
Proof.
  intros pre p1 p2 st HL HI h h1. subst h h1.
  destruct pre as [|[a1 a2] [|[b1 b2] [|[c1 c2] [|? ?]]]]; [| | | |cbn in HL; lia]; repeat match goal with H : Forall _ (_ :: _) |- _ => inversion H as [|? ? [? ?] ?]; subst; clear H end; cbn [fst] in *;
    unfold seek_index, GetId, pad5; cbn [app length sh_entries sh_index fold_left Nat.sub repeat];
    repeat match goal with |- context [nth (Z.to_nat ?k) ?l ?d] => let v := eval cbn in (nth (Z.to_nat k) l d) in change (nth (Z.to_nat k) l d) with v end; cbn [fst];
    repeat match goal with |- context [sh_index ?k] => change (sh_index k) with true end; cbv iota;
    repeat match goal with H : ?x <> ?y |- context [?x =? ?y] => replace (x =? y) with false by (symmetry; apply Z.eqb_neq; exact H) end;
    change (kMkvCluster =? kMkvCluster) with true; change (kMkvCues =? kMkvCues) with true; change (kMkvCluster =? kMkvCues) with false; change (kMkvCues =? kMkvCluster) with false;
    change (0 =? kMkvCluster) with false; change (0 =? kMkvCues) with false; cbv iota; (split; [reflexivity|intros p; reflexivity]).
Qed.

(* ---------- the cues ---------- *)

Lemma cues_rep' : forall qs, Forall (fun q => values_ok (cue_tree q) /\ weight (cue_tree q) <= 128 /\ cue_valid q = true) qs -> 128 * zlen qs + 16 < 2 ^ 55 ->
  representable [cues_tree qs] /\ forallb cue_valid qs = true /\ zlen (enc (cues_tree qs)) <= 128 * zlen qs + 16.
Proof.
  intros qs HQ HN.
  assert (H : Forall values_ok (map cue_tree qs) /\ weight_all (map cue_tree qs) <= 128 * zlen qs /\ forallb cue_valid qs = true).
  { clear HN. induction HQ as [|q qs (V1 & V2 & V3) HQ (IH1 & IH2 & IH3)]; [split; [constructor|split; [cbn; lia|reflexivity]]|].
    cbn [map forallb weight_all fold_right]. rewrite zlen_cons, V3, IH3. split; [constructor; assumption|]. split; [unfold weight_all in IH2; lia|reflexivity]. }
  destruct H as (H1 & H2 & H3). assert (HW : weight (cues_tree qs) <= 128 * zlen qs + 16) by (unfold cues_tree; cbn [weight]; unfold weight_all in H2; lia).
  split; [|split; [exact H3|]].
  - apply rep_of; [|lia]. unfold cues_tree. cbn [values_ok]. split; [exists 4; split; [lia|vm_compute; split; congruence]|]. apply values_fold. exact H1.
  - pose proof (enc_weight (cues_tree qs)). lia.
Qed.
Lemma moved_values : forall p q, 0 <= p < 2 ^ 60 -> values_ok (cue_tree q) -> values_ok (cue_tree (set_cluster_pos p q)).
Proof.
  intros p q HP H. unfold cue_tree in *. cbn [set_cluster_pos cue_time cue_track cue_cluster_pos cue_block_number cue_output_block_number] in *.
  destruct (cue_output_block_number q && (1 <? cue_block_number q)); cbn [opt uint values_ok fold_right leaf_ok] in *; unfold is_u64 in *; change (2 ^ 64) with 18446744073709551616 in *;
    change (2 ^ 60) with 1152921504606846976 in HP; intuition lia.
Qed.
Lemma moved_weight : forall p q, weight (cue_tree (set_cluster_pos p q)) = weight (cue_tree q).
Proof. intros p q. unfold cue_tree. cbn [set_cluster_pos cue_time cue_track cue_cluster_pos cue_block_number cue_output_block_number]. destruct (cue_output_block_number q && (1 <? cue_block_number q)); reflexivity. Qed.
Lemma Forall2_len : forall A B (R : A -> B -> Prop) l l', Forall2 R l l' -> zlen l' = zlen l.
Proof. induction 1; [reflexivity|]. rewrite !zlen_cons. lia. Qed.
Lemma moved_rep : forall n qs qs', 0 <= n -> Forall2 (fun q q' => q' = set_cluster_pos (cue_cluster_pos q + n) q) qs qs' ->
  Forall (fun q => 0 <= cue_cluster_pos q + n < 2 ^ 60 /\ 0 <= cue_cluster_pos q) qs ->
  Forall (fun q => values_ok (cue_tree q) /\ weight (cue_tree q) <= 128 /\ cue_valid q = true) qs ->
  Forall (fun q => values_ok (cue_tree q) /\ weight (cue_tree q) <= 128 /\ cue_valid q = true) qs'.
Proof.
  intros n qs qs' Hn H. induction H as [|q q' qs qs' -> H IH]; intros HP HV; [constructor|]. inversion HP as [|? ? [P1 P2] HP']; inversion HV as [|? ? (V1 & V2 & V3) HV']; subst.
  constructor; [|auto]. split; [apply moved_values; assumption|]. split; [rewrite moved_weight; exact V2|]. unfold cue_valid in *. cbn [set_cluster_pos cue_track cue_cluster_pos]. lia.
Qed.

(* ---------- the whole copy ---------- *)

Definition moved_layout (l : layout) (sv : list Z) (qs : list cue_point) : layout :=
  mkLayout (lo_ebml l) sv (lo_info l) (lo_tracks l) (lo_chapters l) (lo_tags l) (lo_clusters l) (enc (cues_tree qs)).
Definition moved_entries (l : layout) (pre : list (Z * Z)) (n : Z) : list (Z * Z) :=
  pre ++ [(kMkvCluster, zlen (lo_front l) + n); (kMkvCues, zlen (lo_front l))].

Lemma copy_move_run : forall s2 file l qs pre fuel w, finished s2 file l qs pre -> lo_clusters l <> [] ->
  Forall (fun q => 0 <= cue_cluster_pos q <= zlen (lo_front l) + zlen (all_clusters l)) qs -> 7 * zlen qs + 7 < Z.of_nat fuel -> new_file true w ->
  exists qs' sv s3 w', CopyAndMoveCuesBeforeClusters fuel (file_reader file) s2 w = Val ((true, s3), w') /\
    sg_cues s3 = qs' /\ Forall2 (fun q q' => q' = set_cluster_pos (cue_cluster_pos q + zlen (enc (cues_tree qs'))) q) qs qs' /\
    representable [cues_tree qs'] /\
    seek_ok (moved_entries l pre (zlen (enc (cues_tree qs')))) /\ zlen sv = 110 /\
    (exists vp void, sv = enc (seek_head_tree (moved_entries l pre (zlen (enc (cues_tree qs'))))) ++ void /\ is_element kMkvVoid (repeat 0 vp) void) /\
    w_file w' = lo_ebml l ++ id_bytes kMkvSegment ++ vint 8 (zlen (moved_body (moved_layout l sv qs'))) ++ moved_body (moved_layout l sv qs') /\
    zlen (moved_body (moved_layout l sv qs')) < 2 ^ 55.
Proof.
  intros s2 file l qs pre fuel w [I1 I2 I3 I4 I5 I6 I7 _ I8 I9 I10 I11 I12 I13 I14] HNE HPos HF (W1 & W2 & W3 & W4).
  destruct (I7 HNE) as (c & r & EC & EP).
  pose proof (zlen_nonneg _ (lo_front l)) as N1. pose proof (zlen_nonneg _ (all_clusters l)) as N2. pose proof (zlen_nonneg _ qs) as N3. pose proof (zlen_nonneg _ (lo_ebml l)) as N4.
  change (2 ^ 55) with 36028797018963968 in *.
  destruct (move_all fuel qs) as (qs' & EM & HM); [exact HF|change (2 ^ 55) with 36028797018963968; lia| |].
  { eapply Forall_impl; [|exact HPos]. cbn beta. intros q Hq. change (2 ^ 60) with 1152921504606846976. lia. }
  pose proof (Forall2_len _ _ _ _ _ HM) as EL.
  assert (HCS : 0 <= Cues_Size qs' <= 45 * zlen qs + 12). { rewrite Cues_Size_eq by (change (2 ^ 55) with 36028797018963968; lia). unfold whole. pose proof (content_range qs'). pose proof (GetCodedUIntSize_range (content qs')). pose proof (zlen_nonneg _ qs'). lia. }
  assert (HR : Forall (fun q => values_ok (cue_tree q) /\ weight (cue_tree q) <= 128 /\ cue_valid q = true) qs').
  { eapply moved_rep; [|exact HM| |exact I14]; [lia|]. eapply Forall_impl; [|exact HPos]. cbn beta. intros q Hq. change (2 ^ 60) with 1152921504606846976. lia. }
  destruct (cues_rep' qs' HR) as (R1 & R2 & R3); [change (2 ^ 55) with 36028797018963968; lia|]. pose proof (cues_size qs' R1) as ECS. rewrite ECS in HM, HCS.
  set (Q := enc (cues_tree qs')) in *.
  set (m := lo_info l ++ lo_tracks l ++ lo_chapters l ++ lo_tags l). assert (EFr : lo_front l = lo_seek l ++ m) by reflexivity.
  set (h4 := id_bytes kMkvSegment) in *. assert (LH : zlen h4 = 4) by (unfold h4; rewrite id_bytes_zlen; reflexivity).
  set (v8 := vint 8 (zlen (lo_body l))) in *. assert (LV : zlen v8 = 8) by apply vint8_zlen.
  set (Hd := lo_ebml l ++ h4 ++ v8).
  assert (LHd : zlen Hd = zlen (lo_ebml l) + 12) by (unfold Hd; rewrite !zlen_app; lia).
  assert (EFile : file = [] ++ (Hd ++ lo_front l) ++ (all_clusters l ++ lo_cues l)). { rewrite I1. unfold Hd, lo_body. fold (all_clusters l). rewrite <- !app_assoc. reflexivity. }
  unfold CopyAndMoveCuesBeforeClusters. rewrite bind_seekable, W4. cbn [negb]. rewrite EC.
  change (GetUIntSize kMkvCluster) with 4. replace (cl_size_pos c - 4) with (zlen (Hd ++ lo_front l)) by (rewrite EP, zlen_app, LHd; lia).
  assert (HE0 : at_end w) by (split; [exact W3|rewrite W1, W2; reflexivity]).
  destruct (copy_run [] (Hd ++ lo_front l) (all_clusters l ++ lo_cues l) w HE0) as (w1 & E1 & A1). rewrite <- EFile in E1. change (zlen []) with 0 in E1.
  rewrite (check_true_run _ _ _ _ _ _ E1).
  assert (EMV : MoveCuesBeforeClusters fuel s2 = Val (sg_set_seek (mkSH (pad5 (moved_entries l pre (zlen Q))) (zlen Hd)) (sg_set_cues qs' s2))).
  { unfold MoveCuesBeforeClusters. rewrite I2. rewrite (payload_content qs) in * by (change (2 ^ 55) with 36028797018963968; lia). rewrite EM. cbn [obind fst]. rewrite I3. unfold fin_entries.
    assert (HL3 : (length pre <= 3)%nat). { destruct I9 as [[_ I9] _]. unfold fin_entries in I9. rewrite app_length in I9. cbn [length] in I9. lia. }
    destruct (move_seek pre (zlen (lo_front l)) (zlen (lo_front l) + zlen (all_clusters l)) (zlen (lo_ebml l) + 12) HL3 I10) as [G1 G2]. rewrite G2, G1, ECS.
    rewrite wrap64_small by lia. rewrite LHd. unfold moved_entries. rewrite (Z.add_comm (zlen Q)). reflexivity. }
  set (s3 := sg_set_seek (mkSH (pad5 (moved_entries l pre (zlen Q))) (zlen Hd)) (sg_set_cues qs' s2)) in *.
  rewrite (bind_run _ _ (lift (MoveCuesBeforeClusters fuel s2)) _ s3 w1 w1) by (unfold lift; rewrite EMV; reflexivity).
  change (sg_cues s3) with qs'. change (sg_seek s3) with (mkSH (pad5 (moved_entries l pre (zlen Q))) (zlen Hd)).
  change (sg_cluster_end s3) with (sg_cluster_end s2). change (sg_payload_pos s3) with (sg_payload_pos s2). change (sg_size_pos s3) with (sg_size_pos s2).
  destruct (run_ser_v _ _ _ w1 (cues_ser qs' R1) R2 (appended_end _ _ _ A1)) as (w2 & E2 & A2). rewrite (check_true_run _ _ _ _ _ _ E2).
  pose proof (appended_trans _ _ _ _ _ A1 A2) as A12. fold Q in A12.
  assert (HU : used_ok (moved_entries l pre (zlen Q))). { unfold moved_entries, used_ok, fin_entries in *. apply Forall_app in I8 as [I8 _]. apply Forall_app. split; [exact I8|]. repeat constructor; discriminate. }
  assert (HSO : seek_ok (moved_entries l pre (zlen Q))).
  { unfold moved_entries, seek_ok, fin_entries in *. destruct I9 as [J1 J2]. apply Forall_app in J2 as [J2 J3]. inversion J3 as [|? ? J4 J5]; inversion J5 as [|? ? J6 J7]; subst. cbn [fst snd] in *.
    split; [rewrite app_length in *; exact J1|]. apply Forall_app. split; [exact J2|]. change (2 ^ 56) with 72057594037927936 in *. repeat constructor; cbn [fst snd]; lia. }
  destruct A12 as (B1 & B2 & B3). rewrite W1 in B2. cbn [app] in B2.
  destruct (SH_run _ w2 Hd (m ++ Q) HU HSO B1 ltac:(congruence) (lo_seek l)) as (vp & sv & void & w3 & E3 & B4 & B5 & B6 & B7 & B8 & B9); [rewrite B2, EFr, <- !app_assoc; reflexivity|exact I12|].
  rewrite (check_true_run _ _ _ _ _ _ E3).
  rewrite I6. replace (zlen (lo_ebml l) + 12 + zlen (lo_front l) + zlen (all_clusters l) - zlen (Hd ++ lo_front l)) with (zlen (all_clusters l)) by (rewrite zlen_app, LHd; lia).
  destruct (copy_run (Hd ++ lo_front l) (all_clusters l) (lo_cues l) w3 B4) as (w4 & E4 & (D1 & D2 & D3)).
  replace ((Hd ++ lo_front l) ++ all_clusters l ++ lo_cues l) with file in E4 by (rewrite EFile; cbn [app]; reflexivity).
  rewrite (check_true_run _ _ _ _ _ _ E4), bind_position.
  assert (EBody : moved_body (moved_layout l sv qs') = (sv ++ m) ++ Q ++ all_clusters l) by reflexivity.
  assert (LBody : zlen (moved_body (moved_layout l sv qs')) = zlen (lo_front l) + zlen Q + zlen (all_clusters l)) by (rewrite EBody, EFr, !zlen_app; lia).
  assert (EF4 : w_file w4 = (lo_ebml l ++ h4) ++ v8 ++ moved_body (moved_layout l sv qs')) by (rewrite D2, B6, EBody; unfold Hd; rewrite <- !app_assoc; reflexivity).
  assert (EPos : w_pos w4 - sg_payload_pos s2 = zlen (moved_body (moved_layout l sv qs'))). { destruct D1 as [_ D1]. rewrite D1, EF4, !zlen_app, I4. lia. }
  cbv zeta. rewrite EPos.
  destruct (patch_run _ (WriteUIntSize (zlen (moved_body (moved_layout l sv qs'))) 8) (vint 8 (zlen (moved_body (moved_layout l sv qs')))) w4 (lo_ebml l ++ h4) v8 (moved_body (moved_layout l sv qs')) (sg_size_pos s2)
    (ret (true, s3)) (false, s3)) as (w5 & E5 & _ & F5 & _).
  - apply emits_WriteUIntSize. split; [lia|]. change (2 ^ (7 * 8) - 2) with 72057594037927934. lia.
  - exact D1.
  - exact EF4.
  - rewrite I5, zlen_app. lia.
  - rewrite LV. symmetry. apply vint8_zlen.
  - exists qs', sv, s3, w5. split; [exact E5|]. split; [reflexivity|]. fold Q. split; [exact HM|]. split; [exact R1|]. split; [exact HSO|]. split; [exact B7|].
    split; [exists vp, void; auto|]. split; [rewrite F5, <- app_assoc; reflexivity|]. lia.
Qed.

(* an element with content starts at its place *)
Lemma starts_mid : forall a el b id kids t, t = Master id kids -> representable [t] -> el = enc t -> starts_at (a ++ el ++ b) id (zlen a).
Proof. intros a el b id kids t Ht HR ->. destruct (enc_elem' _ _ _ Ht HR) as (p & Hp). exists a, p, (enc t), b. auto. Qed.

(* everything about the copy of a finished file *)
Lemma moved_file : forall s dt d s2 file l qs pre fuel w, finished s2 file l qs pre -> is_muxed true s dt d (Some qs) file l -> sg_clusters s2 <> [] ->
  Forall (fun q => exists f, locates_cluster (si_timecode_scale (sg_info s)) l q f) qs -> 7 * zlen qs + 7 < Z.of_nat fuel -> new_file true w ->
  exists s3 w' qs' l' entries, CopyAndMoveCuesBeforeClusters fuel (file_reader file) s2 w = Val ((true, s3), w') /\
    is_moved s dt d qs' (w_file w') l' /\ same_but_cues l l' /\
    Forall2 (fun q q' => same_but_position q q' /\ cue_cluster_pos q' = cue_cluster_pos q + zlen (lo_cues l')) qs qs' /\
    zlen (lo_front l') = zlen (lo_front l) /\
    is_seek_head l' entries /\ map fst entries = map fst (fin_entries l pre) /\
    Forall (fun e => starts_at (moved_body l') (fst e) (snd e)) entries /\
    representable [cues_tree qs'] /\ seek_ok entries /\ zlen (w_file w') < zlen (lo_ebml l') + 2 ^ 56.
Proof.
  intros s dt d s2 file l qs pre fuel w HFi (seg & M1 & M2 & M3 & M4 & M5 & M6 & M7 & M8 & M9) HNC HLoc HF HW.
  assert (HNE : lo_clusters l <> []) by (intros E; apply HNC; exact (fi_none _ _ _ _ _ HFi E)).
  destruct (copy_move_run s2 file l qs pre fuel w HFi HNE) as (qs' & sv & s3 & w' & E1 & E2 & E3 & E4 & E5 & E6 & (vp & void & E7 & E8) & E9 & E10); [|exact HF|exact HW|].
  { eapply Forall_impl; [|exact HLoc]. cbn beta. intros q (f & bf & c & af & L1 & L2 & _). unfold all_clusters. rewrite L1, map_app, concat_app, zlen_app, L2.
    pose proof (zlen_nonneg _ (lo_front l)). pose proof (zlen_nonneg _ (concat (map mc_bytes bf))). pose proof (zlen_nonneg _ (concat (map mc_bytes (c :: af)))). lia. }
  set (Q := enc (cues_tree qs')) in *. set (l' := moved_layout l sv qs') in *.
  pose proof HFi as [I1 I2 I3 I4 I5 I6 I7 I7' I8 I9 I10 I11 I12 I13 I14].
  assert (EFr : zlen (lo_front l') = zlen (lo_front l)). { unfold lo_front. cbn [l' moved_layout lo_seek lo_info lo_tracks lo_chapters lo_tags]. rewrite !zlen_app. lia. }
  exists s3, w', qs', l', (moved_entries l pre (zlen Q)). split; [exact E1|]. split.
  { exists (id_bytes kMkvSegment ++ vint 8 (zlen (moved_body l')) ++ moved_body l'). split; [exact E9|]. split; [exact M2|].
    split; [|repeat (split; [assumption|]); apply enc_spec; exact E4].
    exists (id_bytes kMkvSegment), 8. split; [apply id_bytes_spec; exists 4; split; [lia|vm_compute; split; congruence]|]. split; [|reflexivity]. split; [lia|].
    change (2 ^ (7 * 8) - 1) with 72057594037927935. change (2 ^ 55) with 36028797018963968 in E10. pose proof (zlen_nonneg _ (moved_body l')). lia. }
  split; [repeat split|]. split.
  { change (lo_cues l') with Q. generalize (zlen Q), E3. clear. intros n E3. induction E3 as [|q q' a b -> H IH]; constructor; [|exact IH]. split; [repeat split|reflexivity]. }
  split; [exact EFr|]. split.
  { exists (enc (seek_head_tree (moved_entries l pre (zlen Q)))), vp, void. split; [exact E7|]. split; [exact E6|]. split; [apply enc_spec; apply seek_head_rep; exact E5|exact E8]. }
  split; [unfold moved_entries, fin_entries; rewrite !map_app; reflexivity|].
  split; [|split; [exact E4|split; [exact E5|]]].
  2:{ rewrite E9, !zlen_app. change (lo_ebml l') with (lo_ebml l). change (zlen (id_bytes kMkvSegment)) with 4. rewrite vint_zlen by lia. clear - E10. lia. }
  unfold moved_entries. apply Forall_app. split.
  - replace (moved_body l') with (sv ++ lo_info l ++ lo_tracks l ++ lo_chapters l ++ lo_tags l ++ Q ++ all_clusters l).
    2:{ unfold moved_body, lo_front. rewrite <- !app_assoc. reflexivity. }
    apply I11. exact E6.
  - constructor; [|constructor; [|constructor]]; cbn [fst snd]; rewrite <- EFr; unfold moved_body.
    + change (lo_clusters l') with (lo_clusters l). change (lo_cues l') with Q. destruct (lo_clusters l) as [|c r] eqn:EC; [destruct (HNE eq_refl)|]. inversion M8 as [|? ? (tcp & t & blocks & _ & _ & _ & HEl) _]; subst.
      cbn [map concat]. exists (lo_front l' ++ Q), (t ++ concat blocks), (mc_bytes c), (concat (map mc_bytes r)). split; [rewrite <- !app_assoc; reflexivity|]. split; [rewrite zlen_app; reflexivity|exact HEl].
    + eapply starts_mid; [|exact E4|reflexivity]. reflexivity.
Qed.

Lemma locates_weak : forall scale l q f, locates scale l q f -> locates_cluster scale l q f.
Proof. intros scale l q f (b & c & a & H1 & H2 & H3 & H4 & H5 & H6). exists b, c, a. repeat (split; [assumption|]). split; [eapply nth_error_In; exact H4|auto]. Qed.
Lemma locates_goes : forall scale l l' q q' f, same_but_cues l l' -> zlen (lo_front l') = zlen (lo_front l) -> same_but_position q q' -> cue_cluster_pos q' = cue_cluster_pos q + zlen (lo_cues l') ->
  (locates scale l q f -> locates_moved scale l' q' f) /\ (locates_cluster scale l q f -> locates_cluster_moved scale l' q' f).
Proof.
  intros scale l l' q q' f (_ & _ & _ & _ & _ & EC) EF (P1 & P2 & P3 & P4) EP. split.
  - intros (b & c & a & H1 & H2 & H3 & H4 & H5 & H6). exists b, c, a. rewrite EC, EF, EP, P1, P2, P3. repeat (split; [first [assumption|lia]|]). assumption.
  - intros (b & c & a & H1 & H2 & H3 & H4 & H5). exists b, c, a. rewrite EC, EF, EP, P1, P2. repeat (split; [first [assumption|lia]|]). assumption.
Qed.
