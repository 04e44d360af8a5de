(* Writing the headers of a segment. *)
From Coq Require Import ZifyBool ZifyNat Sorted.
From Verif Require Import Base EbmlSpec MWriter WriterSpec PWriter MMuxUtil PMuxUtil EbmlPropSpec PEbml Ids LacingSpec MMuxBlock BlockSpec
  PMuxBlock MFloat MMuxMeta MetaSpec PMeta PMetaObj PMetaObj2 MMuxSegment SegmentSpec MuxFileSpec PSegRun PSegCluster PSegAcc PSegStream.

(* ---------- seek entries ---------- *)

Definition pad5 (u : list (Z * Z)) : list (Z * Z) := u ++ repeat (0, 0) (5 - length u).
Definition used_ok (u : list (Z * Z)) : Prop := Forall (fun e => fst e <> 0) u.

Lemma add_entry_app : forall u r id pos, used_ok u -> add_entry (u ++ r) id pos =
  match add_entry r id pos with None => None | Some r' => Some (u ++ r') end.
Proof.
  induction u as [|[i p] u IH]; intros r id pos H; cbn [app].
  - destruct (add_entry r id pos); reflexivity.
  - cbn [add_entry]. inversion H; subst. cbn [fst] in *. replace (i =? 0) with false by lia. rewrite IH by assumption.
    destruct (add_entry r id pos); reflexivity.
Qed.
Lemma add_entry_pad : forall u id pos, used_ok u -> (length u < 5)%nat -> add_entry (pad5 u) id pos = Some (pad5 (u ++ [(id, pos)])).
Proof.
  intros u id pos H HL. unfold pad5. rewrite add_entry_app by assumption. rewrite app_length. cbn [length].
  replace (5 - length u)%nat with (S (5 - (length u + 1))) by lia. cbn [repeat add_entry]. change (0 =? 0) with true. cbn iota. rewrite <- app_assoc. reflexivity.
Qed.
Lemma add_entry_full : forall u id pos, used_ok u -> length u = 5%nat -> add_entry (pad5 u) id pos = None.
Proof. intros u id pos H HL. unfold pad5. rewrite add_entry_app by assumption. rewrite HL. reflexivity. Qed.
Lemma seek_used_pad : forall u st, used_ok u -> seek_used (mkSH (pad5 u) st) = u.
Proof.
  intros u st H. unfold seek_used, pad5. cbn [sh_entries]. rewrite filter_app.
  replace (filter (fun e : Z * Z => negb (fst e =? 0)) (repeat (0, 0) (5 - length u))) with (@nil (Z * Z)).
  - rewrite app_nil_r. induction H as [|e u He H IH]; [reflexivity|]. cbn [filter]. replace (fst e =? 0) with false by lia. cbn [negb]. rewrite IH. reflexivity.
  - induction (5 - length u)%nat as [|n IH]; [reflexivity|]. cbn [repeat filter fst]. change (0 =? 0) with true. cbn [negb]. exact IH.
Qed.

Lemma set_seek_same : forall s h, sg_seek s = h -> sg_set_seek h s = s.
Proof. intros [] h <-. reflexivity. Qed.
Lemma set_seek_seek : forall s h h', sg_set_seek h (sg_set_seek h' s) = sg_set_seek h s.
Proof. reflexivity. Qed.

Lemma seek_here_run : forall s u st id w, sg_seek s = mkSH (pad5 u) st -> used_ok u -> (length u < 5)%nat ->
  0 <= w_pos w - sg_payload_pos s < 2 ^ 63 ->
  seek_entry_here s id w = Val ((true, sg_set_seek (mkSH (pad5 (u ++ [(id, w_pos w - sg_payload_pos s)])) st) s), w).
Proof.
  intros s u st id w Hs Hu HL Hp. unfold seek_entry_here, MaxOffset. rewrite bind_assoc, bind_position, bind_ret. unfold AddSeekEntry. rewrite Hs. cbn [sh_entries sh_start].
  change (2 ^ 63) with 9223372036854775808 in Hp. rewrite wrap64_small by lia. rewrite add_entry_pad by assumption. reflexivity.
Qed.

Lemma pp_info : forall x i, sg_payload_pos (sg_set_info i x) = sg_payload_pos x. Proof. intros [] i. reflexivity. Qed.
Lemma pp_seek : forall x i, sg_payload_pos (sg_set_seek i x) = sg_payload_pos x. Proof. intros [] i. reflexivity. Qed.
Lemma pp_wrote : forall x i, sg_payload_pos (sg_set_wrote_tracks i x) = sg_payload_pos x. Proof. intros [] i. reflexivity. Qed.

Lemma sk_seek : forall x h, sg_seek (sg_set_seek h x) = h. Proof. intros [] h. reflexivity. Qed.
Lemma sk_wrote : forall x i, sg_seek (sg_set_wrote_tracks i x) = sg_seek x. Proof. intros [] i. reflexivity. Qed.
Lemma setters_commute : forall s pp sp ez a1 a2 a3 a4 a5 a6 j1 j2,
  sg_set_header_written true (sg_set_seek a6 (sg_set_seek a5 (sg_set_wrote_tracks true (sg_set_seek a4 (sg_set_info j2 (sg_set_seek a3
    (sg_set_seek a1 (sg_set_info j1 (sg_set_payload_pos pp (sg_set_size_pos sp (sg_set_ebml_size ez (sg_set_dtv_written a2 s))))))))))))
  = sg_set_seek a6 (sg_set_header_written true (sg_set_wrote_tracks true (sg_set_info j2 (sg_set_payload_pos pp (sg_set_size_pos sp
      (sg_set_ebml_size ez (sg_set_dtv_written a2 s))))))).
Proof. intros [] *. vm_compute. reflexivity. Qed.

(* ---------- running serialisers ---------- *)

Lemma run_ser : forall m bs w, ser true m bs -> at_end w -> exists w', m w = Val (true, w') /\ appended w bs w'.
Proof.
  intros m bs w H He. destruct (H w (at_end_good _ He)) as (r & w' & p & E & Ha & [(HG & _ & ->)|(HB & Hn)]).
  - exists w'. hnf in HG. subst r. split; [exact E|]. apply advanced_appended; assumption.
  - destruct (Hn eq_refl). apply He.
Qed.
Lemma run_ser_v : forall v m bs w, ser v m bs -> v = true -> at_end w -> exists w', m w = Val (true, w') /\ appended w bs w'.
Proof. intros v m bs w H ->. apply run_ser. exact H. Qed.

(* ---------- values ---------- *)

Lemma rep_of : forall t, values_ok t -> weight t < 2 ^ 55 -> representable [t].
Proof.
  intros t H HW. split; [constructor; [exact H|constructor]|]. unfold weight_all. cbn [fold_right]. change (2 ^ 56) with 72057594037927936. pw. lia.
Qed.
Lemma info_values : forall i d, values_ok (info_tree i) -> values_ok (info_tree (si_set_duration d i)).
Proof.
  intros i d H. unfold info_tree in *. cbn [si_timecode_scale si_duration si_date_utc si_muxing_app si_writing_app si_set_duration] in *.
  cbn [values_ok] in *. destruct H as [H0 H]. split; [exact H0|]. apply values_fold. apply values_fold in H.
  inversion H as [|? ? H1 H2]; subst. constructor; [exact H1|]. apply Forall_app in H2 as [H2 H3]. apply Forall_app. split; [|exact H3].
  destruct (f64_pos d); [|constructor]. constructor; [|constructor]. cbn [values_ok leaf_ok]. split; [|exact I]. exists 2. unfold id_width, kMkvDuration. lia.
Qed.
Lemma info_values_pos : forall i d, values_ok (info_tree i) -> values_ok (info_tree (si_set_duration_pos d i)).
Proof. intros i d H. exact H. Qed.
Lemma weight_all_pos : forall ts, 0 <= weight_all ts.
Proof. apply weight_all_nonneg. Qed.
Lemma info_weight : forall i d, weight (info_tree (si_set_duration d i)) <= weight (info_tree i) + 24.
Proof.
  intros i d. unfold info_tree. cbn [si_timecode_scale si_duration si_date_utc si_muxing_app si_writing_app si_set_duration].
  cbn [weight fold_right]. 
  assert (HA : forall a b c, fold_right (fun k acc => weight k + acc) c (a ++ b) = fold_right (fun k acc => weight k + acc) 0 a + fold_right (fun k acc => weight k + acc) c b).
  { intros a b c. induction a as [|x a IH]; cbn [app fold_right]; [lia|]. rewrite IH. lia. }
  rewrite !(HA (opt (f64_pos d) _)), (HA (opt (f64_pos (si_duration i)) _)).
  assert (HO : forall b t, weight t = 24 -> 0 <= fold_right (fun k acc => weight k + acc) 0 (opt b t) <= 24). { intros [] t Ht; cbn [opt fold_right]; lia. }
  pose proof (HO (f64_pos d) (Leaf kMkvDuration (LFloat (f32_of_f64 d))) eq_refl).
  pose proof (HO (f64_pos (si_duration i)) (Leaf kMkvDuration (LFloat (f32_of_f64 (si_duration i)))) eq_refl). lia.
Qed.

Lemma doc_type_ok : forall l, forallb track_valid l = true -> exists b, DocTypeIsWebm l = Val b.
Proof.
  induction l as [|t l IH]; intros H; [exists true; reflexivity|]. cbn [forallb] in H. apply andb_true_iff in H as [H1 H2]. cbn [DocTypeIsWebm].
  unfold track_valid in H1. destruct (tk_codec_id t); [|rewrite andb_false_r in H1; discriminate]. destruct (existsb _ _); [auto|eauto].
Qed.
Definition doc_name (s : segment) : list Z := match DocTypeIsWebm (sg_tracks s) with Val true => kDocTypeWebm | _ => kDocTypeMatroska end.
Lemma doc_type_run : forall s w, forallb track_valid (sg_tracks s) = true -> doc_type s w = Val (doc_name s, w).
Proof.
  intros s w H. destruct (doc_type_ok _ H) as (b & E). unfold doc_type, doc_name, lift, bind. rewrite E. destruct b; reflexivity.
Qed.
Lemma ebml_rep : forall dt, bytes dt -> zlen dt <= 8 -> representable [ebml_header_tree 4 dt].
Proof.
  intros dt Hb Hl. apply rep_of.
  - cbn [ebml_header_tree values_ok fold_right uint leaf_ok]. unfold valid_id, is_u64.
    change (2 ^ 32) with 4294967296.
    repeat split; try lia; try assumption;
      first [exists 2; split; [lia|vm_compute; split; congruence] | exists 4; split; [lia|vm_compute; split; congruence]].
  - cbn [ebml_header_tree weight fold_right uint leaf_weight]. pw. lia.
Qed.
Lemma doc_name_ok : forall s, bytes (doc_name s) /\ zlen (doc_name s) <= 8.
Proof.
  intros s. unfold doc_name. assert (H : (bytes kDocTypeWebm /\ zlen kDocTypeWebm <= 8) /\ (bytes kDocTypeMatroska /\ zlen kDocTypeMatroska <= 8)).
  { unfold kDocTypeWebm, kDocTypeMatroska, bytes. repeat split; try (repeat constructor; unfold is_byte; lia); cbn; lia. }
  destruct (DocTypeIsWebm (sg_tracks s)) as [[]|]; apply H.
Qed.

(* ---------- the headers ---------- *)

Section Head.
  Variables (s : segment) (known : bool).
  Hypothesis Hr : ready s.
  Hypothesis HB : room s [] < 2 ^ 55.

  Definition ph : bool := negb (sg_live s) && known.
  Definition i1 : segment_info := if ph then si_set_duration (f64_of_Z 1) (sg_info s) else sg_info s.
  Definition hE : list Z := enc (ebml_header_tree 4 (doc_name s)).
  Definition hP : Z := zlen hE + 12.
  Definition hV : list Z := if ph then e_buf kMkvVoid (repeat 0 108) else [].
  Definition hI : list Z := enc (info_tree i1).
  Definition hT : list Z := enc (tracks_tree (sg_tracks s)).
  Definition hC : list Z := match sg_chapters s with [] => [] | _ => enc (chapters_tree (sg_chapters s)) end.
  Definition hG : list Z := match sg_tags s with [] => [] | _ => enc (tags_tree (sg_tags s)) end.
  Definition front : list Z := hV ++ hI ++ hT ++ hC ++ hG.
  Definition hd0 : list Z := hE ++ id_bytes kMkvSegment ++ unknown8 ++ front.
  Definition u2 : list (Z * Z) := [(kMkvInfo, zlen hV); (kMkvTracks, zlen hV + zlen hI)].
  Definition u3 : list (Z * Z) := u2 ++ match sg_chapters s with [] => [] | _ => [(kMkvChapters, zlen hV + zlen hI + zlen hT)] end.
  Definition u4 : list (Z * Z) := u3 ++ match sg_tags s with [] => [] | _ => [(kMkvTags, zlen hV + zlen hI + zlen hT + zlen hC)] end.
  Definition u5 : list (Z * Z) := u4 ++ [(kMkvCluster, zlen front)].
  Definition start0 : Z := if ph then hP else 0.
  Definition dpos : Z :=
    if f64_pos (si_duration i1)
    then hP + zlen hV + zlen (e_master kMkvInfo (zlen (enc_all (info_kids i1)))) + zlen (enc (uint kMkvTimecodeScale (si_timecode_scale i1)))
    else si_duration_pos i1.
  Definition i2 : segment_info := si_set_duration_pos dpos i1.
  Definition sh (u : list (Z * Z)) : seek_head := mkSH (pad5 u) start0.

  Lemma room_all : weight (info_tree (sg_info s)) + weight (tracks_tree (sg_tracks s)) + weight (chapters_tree (sg_chapters s)) +
    weight (tags_tree (sg_tags s)) + 2000 < 2 ^ 55.
  Proof. pose proof HB as H. unfold room, weight_all in H. cbn [fold_right] in H. lia. Qed.
  Lemma w_nonneg : 0 <= weight (info_tree (sg_info s)) /\ 0 <= weight (tracks_tree (sg_tracks s)) /\ 0 <= weight (chapters_tree (sg_chapters s)) /\
    0 <= weight (tags_tree (sg_tags s)).
  Proof. repeat split; apply weight_nonneg. Qed.
  Lemma i1_weight : weight (info_tree i1) <= weight (info_tree (sg_info s)) + 24.
  Proof. unfold i1. destruct ph; [apply info_weight|lia]. Qed.
  Lemma rep_info : representable [info_tree i1].
  Proof.
    pose proof room_all. pose proof w_nonneg. pose proof i1_weight. apply rep_of; [|lia]. destruct (r_info _ Hr) as (_ & _ & HV1). unfold i1. destruct ph; [apply info_values|]; exact HV1.
  Qed.
  Lemma rep_tracks : representable [tracks_tree (sg_tracks s)].
  Proof. pose proof room_all. pose proof w_nonneg. apply rep_of; [|lia]. apply (r_tracks _ Hr). Qed.
  Lemma rep_chapters : representable [chapters_tree (sg_chapters s)].
  Proof. pose proof room_all. pose proof w_nonneg. apply rep_of; [|lia]. apply (r_chapters _ Hr). Qed.
  Lemma rep_tags : representable [tags_tree (sg_tags s)].
  Proof. pose proof room_all. pose proof w_nonneg. apply rep_of; [|lia]. apply (r_tags _ Hr). Qed.
  Lemma rep_ebml : representable [ebml_header_tree 4 (doc_name s)].
  Proof. destruct (doc_name_ok s). apply ebml_rep; assumption. Qed.

  Lemma hE_bound : 1 <= zlen hE <= 300.
  Proof.
    unfold hE. pose proof (enc_pos (ebml_header_tree 4 (doc_name s))). pose proof (enc_weight (ebml_header_tree 4 (doc_name s))) as HW.
    cbn [ebml_header_tree weight fold_right uint leaf_weight] in HW. destruct (doc_name_ok s). lia.
  Qed.
  Lemma hV_len : zlen hV = if ph then 110 else 0.
  Proof. unfold hV. destruct ph; reflexivity. Qed.
  Lemma front_bound : 1 <= zlen front /\ zlen hd0 <= room s [] - 1000.
  Proof.
    unfold hd0, front. rewrite !zlen_app, hV_len. change (zlen (id_bytes kMkvSegment)) with 4. change (zlen unknown8) with 8.
    pose proof (enc_pos (info_tree i1)). pose proof (enc_weight (info_tree i1)). pose proof i1_weight. pose proof w_nonneg.
    pose proof (enc_weight (tracks_tree (sg_tracks s))). pose proof hE_bound.
    assert (0 <= zlen hC <= weight (chapters_tree (sg_chapters s))). { unfold hC. pose proof (enc_weight (chapters_tree (sg_chapters s))). pose proof (zlen_nonneg _ (enc (chapters_tree (sg_chapters s)))). destruct (sg_chapters s); [rewrite zlen_nil; lia|lia]. }
    assert (0 <= zlen hG <= weight (tags_tree (sg_tags s))). { unfold hG. pose proof (enc_weight (tags_tree (sg_tags s))). pose proof (zlen_nonneg _ (enc (tags_tree (sg_tags s)))). destruct (sg_tags s); [rewrite zlen_nil; lia|lia]. }
    unfold hI, hT. pose proof (zlen_nonneg _ (enc (tracks_tree (sg_tracks s)))). unfold room, weight_all. cbn [fold_right]. destruct ph; lia.
  Qed.
  Lemma used2 : used_ok u2. Proof. repeat constructor; cbn [fst]; unfold kMkvInfo, kMkvTracks; lia. Qed.
  Lemma used3 : used_ok u3. Proof. apply Forall_app. split; [exact used2|]. destruct (sg_chapters s); repeat constructor; cbn [fst]; unfold kMkvChapters; lia. Qed.
  Lemma used4 : used_ok u4. Proof. apply Forall_app. split; [exact used3|]. destruct (sg_tags s); repeat constructor; cbn [fst]; unfold kMkvTags; lia. Qed.
  Lemma used5 : used_ok u5. Proof. apply Forall_app. split; [exact used4|]. repeat constructor; cbn [fst]; unfold kMkvCluster; lia. Qed.
  Lemma len3 : (length u3 = 2 + match sg_chapters s with [] => 0 | _ => 1 end)%nat.
  Proof. unfold u3. rewrite app_length. destruct (sg_chapters s); reflexivity. Qed.
  Lemma len3_lt : (length u3 < 5)%nat.
  Proof. rewrite len3. destruct (sg_chapters s); lia. Qed.
  Lemma len4 : (length u4 = 2 + match sg_chapters s with [] => 0 | _ => 1 end + match sg_tags s with [] => 0 | _ => 1 end)%nat.
  Proof. unfold u4. rewrite app_length, len3. destruct (sg_tags s); reflexivity. Qed.
  Lemma len5 : (length u5 = 3 + match sg_chapters s with [] => 0 | _ => 1 end + match sg_tags s with [] => 0 | _ => 1 end)%nat.
  Proof. unfold u5. rewrite app_length, len4. destruct (sg_chapters s), (sg_tags s); reflexivity. Qed.

  (* the segment after the headers, before the cue track is chosen *)
  Definition after_header (u : list (Z * Z)) : segment :=
    sg_set_seek (sh u) (sg_set_header_written true (sg_set_wrote_tracks true (sg_set_info i2 (sg_set_payload_pos hP (sg_set_size_pos (zlen hE + 4)
      (sg_set_ebml_size (sint32 (zlen hE)) (sg_set_dtv_written 4 s))))))).

  Lemma pos_of : forall w bs w', at_end w -> appended w bs w' -> w_pos w' = w_pos w + zlen bs.
  Proof. intros w bs w' [_ H] HA. pose proof (appended_len _ _ _ HA). destruct HA as ((_ & H') & _). lia. Qed.
  Lemma rel_pos : forall w bs, at_end w -> w_file w = hE ++ id_bytes kMkvSegment ++ unknown8 ++ bs -> w_pos w - hP = zlen bs.
  Proof.
    intros w bs [_ H] HF. rewrite H, HF, !zlen_app. unfold hP. change (zlen (id_bytes kMkvSegment)) with 4. change (zlen unknown8) with 8. lia.
  Qed.

  Lemma WSH_run : forall w, new_file known w ->
    exists w', WriteSegmentHeader s w = Val ((true, after_header u4), w') /\ at_end w' /\ w_file w' = hd0 /\ w_seekable w' = known.
  Proof.
    intros w (HF & HP & HN & HK). assert (He : at_end w) by (split; [exact HN|rewrite HF, HP; reflexivity]).
    pose proof room_all as HRA. pose proof front_bound as [HFB1 HFB2]. pose proof hE_bound as HEB.
    unfold WriteSegmentHeader.
    replace (UpdateDocTypeVersion s) with s by (unfold UpdateDocTypeVersion; rewrite (r_dtv _ Hr); change (4 <? 4) with false; rewrite andb_false_r; reflexivity).
    rewrite (bind_run _ _ _ _ _ _ _ (doc_type_run s w ltac:(apply (r_tracks _ Hr)))). rewrite (r_dtv _ Hr).
    destruct (run_ser _ _ w (header_ser 4 (doc_name s) rep_ebml) He) as (w1 & E1 & A1). rewrite (check_true_run _ _ _ _ _ _ E1), bind_position.
    pose proof (pos_of _ _ _ He A1) as P1. rewrite HP in P1. fold hE in P1, A1.
    destruct (run_st _ _ w1 (emits_WriteID kMkvSegment) (appended_end _ _ _ A1)) as (w2 & E2 & A2). cbv zeta. rewrite (check_status_run _ _ _ _ _ _ E2), bind_position.
    pose proof (pos_of _ _ _ (appended_end _ _ _ A1) A2) as P2. change (zlen (id_bytes kMkvSegment)) with 4 in P2.
    destruct (run_st _ _ w2 (emits_SerializeInt kEbmlUnknownValue 8 ltac:(lia)) (appended_end _ _ _ A2)) as (w3 & E3 & A3). rewrite (check_status_run _ _ _ _ _ _ E3), bind_position.
    pose proof (pos_of _ _ _ (appended_end _ _ _ A2) A3) as P3. change (Z.to_nat 8) with 8%nat in *. fold unknown8 in A3, P3. change (zlen unknown8) with 8 in P3.
    rewrite bind_seekable.
    pose proof (appended_trans _ _ _ _ _ (appended_trans _ _ _ _ _ A1 A2) A3) as (He3 & F3 & S3). rewrite HF in F3. cbn [app] in F3. rewrite <- app_assoc in F3. rewrite S3, HK.
    rewrite P1, P2, P1, P3, P2, P1. change (0 + zlen hE) with (zlen hE).
    set (sA := sg_set_payload_pos (zlen hE + 4 + 8) (sg_set_size_pos (zlen hE + 4) (sg_set_ebml_size (sint32 (zlen hE)) (sg_set_dtv_written 4 s)))).
    change (sg_live sA) with (sg_live s). fold ph.
    (* seek head *)
    assert (HS : exists w4, (if ph then
          r <- SeekHead_Write (sg_seek (sg_set_info (si_set_duration (f64_of_Z 1) (sg_info sA)) sA));;
          (let '(ok, h) := r in ret (ok, sg_set_seek h (sg_set_info (si_set_duration (f64_of_Z 1) (sg_info sA)) sA)))
        else ret (true, sA)) w3 = Val ((true, sg_set_seek (sh []) (sg_set_info i1 sA)), w4) /\ appended w3 hV w4).
    { unfold sh, start0, i1, hV. destruct ph.
      - unfold SeekHead_Write. rewrite bind_assoc, bind_position. change (sg_seek (sg_set_info (si_set_duration (f64_of_Z 1) (sg_info sA)) sA)) with (sg_seek s).
        rewrite (r_seek _ Hr). change seek_total_size with 110.
        destruct (emits_WriteVoidElement 110 ltac:(lia) eq_refl) as [EV _]. change (Z.to_nat (110 - 1 - GetCodedUIntSize (110 - 1))) with 108%nat in EV.
        destruct (run_sz _ _ w3 EV He3) as (w4 & E4 & A4). rewrite bind_assoc, (bind_run _ _ _ _ _ _ _ E4). exists w4. split; [|exact A4].
        rewrite bind_ret. change (zlen (e_buf kMkvVoid (repeat 0 108))) with 110. change (110 =? 0) with false. cbn [negb sh_entries new_seek_head].
        unfold hP. replace (w_pos w3) with (zlen hE + 12) by lia. reflexivity.
      - exists w3. split; [|apply appended_nil; exact He3]. unfold sh, pad5. cbn [app length]. change (repeat (0, 0) (5 - 0)) with (sh_entries new_seek_head).
        change (mkSH (sh_entries new_seek_head) 0) with new_seek_head. rewrite set_seek_same; [destruct s; reflexivity|]. exact (r_seek _ Hr). }
    destruct HS as (w4 & E4 & A4). rewrite (bind_run _ _ _ _ _ _ _ E4). cbn [negb].
    pose proof (appended_end _ _ _ A4) as He4. pose proof A4 as (_ & F4 & S4). rewrite F3 in F4.
    set (sB := sg_set_seek (sh []) (sg_set_info i1 sA)).
    assert (PB : sg_payload_pos sB = hP) by (unfold sB, sA, hP; cbn; lia).
    assert (R4 : w_pos w4 - hP = zlen hV). { apply rel_pos; [exact He4|]. rewrite F4, <- !app_assoc. reflexivity. }
    pose proof (zlen_nonneg _ hV) as NV. pose proof (zlen_nonneg _ hI) as NI. pose proof (zlen_nonneg _ hT) as NT. pose proof (zlen_nonneg _ hC) as NC. pose proof (zlen_nonneg _ hG) as NG.
    assert (HFL : zlen hV + zlen hI + zlen hT + zlen hC + zlen hG < 2 ^ 55).
    { unfold hd0, front in HFB2. rewrite !zlen_app in HFB2. pose proof (zlen_nonneg _ (id_bytes kMkvSegment)). pose proof (zlen_nonneg _ unknown8). lia. }
    pw.
    rewrite (bind_run _ _ _ _ _ _ _ (seek_here_run sB [] start0 kMkvInfo w4 eq_refl ltac:(constructor) ltac:(cbn; lia) ltac:(rewrite PB, R4; lia))).
    cbn [negb app]. rewrite PB, R4.
    set (sC := sg_set_seek (mkSH (pad5 [(kMkvInfo, zlen hV)]) start0) sB). change (sg_info sC) with i1.
    (* info *)
    destruct (info_run i1 rep_info w4 (at_end_good _ He4)) as (r5 & d5 & w5 & p5 & E5 & A5' & HR5 & HD5). rewrite (bind_run _ _ _ _ _ _ _ E5).
    assert (r5 = true /\ p5 = hI /\ d5 = dpos) as (-> & -> & ->).
    { destruct HR5 as [(-> & _ & -> & HX)|(_ & HX)].
      - split; [reflexivity|]. split; [reflexivity|]. unfold dpos. destruct (f64_pos (si_duration i1)); [|auto]. rewrite (HX eq_refl). unfold dur_pos. lia.
      - destruct HX; [|apply He4]. unfold i1. destruct (r_info _ Hr) as (_ & X & _). destruct ph; exact X. }
    clear HR5 HD5. pose proof (advanced_appended _ _ _ He4 A5') as A5. cbn [negb]. fold i2.
    pose proof (appended_end _ _ _ A5) as He5. pose proof A5 as (_ & F5 & S5). rewrite F4 in F5.
    set (sD := sg_set_info i2 sC).
    assert (R5 : w_pos w5 - hP = zlen hV + zlen hI). { rewrite <- zlen_app. apply rel_pos; [exact He5|]. rewrite F5, <- !app_assoc. reflexivity. }
    assert (PD : sg_payload_pos sD = hP) by (unfold sD, sC; rewrite pp_info, pp_seek; exact PB).
    rewrite (bind_run _ _ _ _ _ _ _ (seek_here_run sD [(kMkvInfo, zlen hV)] start0 kMkvTracks w5 eq_refl ltac:(repeat constructor; cbn; unfold kMkvInfo; lia) ltac:(cbn; lia) ltac:(rewrite PD, R5; lia))).
    cbn [negb app]. rewrite PD, R5. fold u2. change (mkSH (pad5 u2) start0) with (sh u2).
    set (sE := sg_set_seek (sh u2) sD). change (sg_tracks sE) with (sg_tracks s).
    (* tracks *)
    destruct (run_ser_v _ _ _ w5 (tracks_ser _ rep_tracks) ltac:(apply (r_tracks _ Hr)) He5) as (w6 & E6 & A6). rewrite (bind_run _ _ _ _ _ _ _ E6). cbn [negb orb]. fold hT in A6.
    pose proof (appended_end _ _ _ A6) as He6. pose proof A6 as (_ & F6 & S6). rewrite F5 in F6.
    set (sF := sg_set_wrote_tracks true sE).
    assert (R6 : w_pos w6 - hP = zlen hV + zlen hI + zlen hT). { rewrite <- !zlen_app. apply rel_pos; [exact He6|]. rewrite F6, <- !app_assoc. reflexivity. }
    assert (PF : sg_payload_pos sF = hP) by (unfold sF, sE; rewrite pp_wrote, pp_seek; exact PD).
    (* chapters *)
    change (sg_chapters sF) with (sg_chapters s).
    assert (HS7 : exists w7, (if zlen (sg_chapters s) >? 0 then
          r <- seek_entry_here sF kMkvChapters;;
          (let '(ok, s) := r in if negb ok then ret (false, s) else ok <- Chapters_Write (sg_chapters s);; ret (ok, s))
        else ret (true, sF)) w6 = Val ((true, sg_set_seek (sh u3) sF), w7) /\ appended w6 hC w7).
    { unfold u3, hC. destruct (sg_chapters s) as [|ch0 chs] eqn:EC.
      - exists w6. rewrite app_nil_r. split; [|apply appended_nil; exact He6]. rewrite set_seek_same by (unfold sF, sE; rewrite sk_wrote, sk_seek; reflexivity). reflexivity.
      - replace (zlen (ch0 :: chs) >? 0) with true by (rewrite zlen_cons; pose proof (zlen_nonneg _ chs) as X; clear - X; lia).
        rewrite (bind_run _ _ _ _ _ _ _ (seek_here_run sF u2 start0 kMkvChapters w6 (eq_trans (sk_wrote sE true) (sk_seek sD (sh u2))) used2 ltac:(cbn; lia) ltac:(rewrite PF, R6; clear - HFL NV NI NT NC NG; lia))).
        cbn [negb]. rewrite PF, R6.
        pose proof rep_chapters as RC. pose proof (proj1 (r_chapters _ Hr)) as VC. rewrite EC in RC, VC.
        destruct (run_ser_v _ _ _ w6 (chapters_ser _ RC) VC He6) as (w7 & E7 & A7).
        change (sg_chapters (sg_set_seek (mkSH (pad5 (u2 ++ [(kMkvChapters, zlen hV + zlen hI + zlen hT)])) start0) sF)) with (sg_chapters s). rewrite EC.
        rewrite (bind_run _ _ _ _ _ _ _ E7). exists w7. split; [reflexivity|exact A7]. }
    destruct HS7 as (w7 & E7 & A7). rewrite (bind_run _ _ _ _ _ _ _ E7). cbn [negb].
    pose proof (appended_end _ _ _ A7) as He7. pose proof A7 as (_ & F7 & S7). rewrite F6 in F7.
    assert (R7 : w_pos w7 - hP = zlen hV + zlen hI + zlen hT + zlen hC). { rewrite <- !zlen_app. apply rel_pos; [exact He7|]. rewrite F7, <- !app_assoc. reflexivity. }
    set (sG := sg_set_seek (sh u3) sF).
    assert (PG : sg_payload_pos sG = hP) by (unfold sG; rewrite pp_seek; exact PF).
    (* tags *)
    change (sg_tags sG) with (sg_tags s).
    assert (HS8 : exists w8, (if zlen (sg_tags s) >? 0 then
          r <- seek_entry_here sG kMkvTags;;
          (let '(ok, s) := r in if negb ok then ret (false, s) else ok <- Tags_Write (sg_tags s);; ret (ok, s))
        else ret (true, sG)) w7 = Val ((true, sg_set_seek (sh u4) sG), w8) /\ appended w7 hG w8).
    { unfold u4, hG. destruct (sg_tags s) as [|tg0 tgs] eqn:ET.
      - exists w7. rewrite app_nil_r. split; [|apply appended_nil; exact He7]. rewrite set_seek_same by (unfold sG; rewrite sk_seek; reflexivity). reflexivity.
      - replace (zlen (tg0 :: tgs) >? 0) with true by (rewrite zlen_cons; pose proof (zlen_nonneg _ tgs) as X; clear - X; lia).
        rewrite (bind_run _ _ _ _ _ _ _ (seek_here_run sG u3 start0 kMkvTags w7 (sk_seek sF (sh u3)) used3 len3_lt ltac:(rewrite PG, R7; clear - HFL NV NI NT NC NG; lia))).
        cbn [negb]. rewrite PG, R7.
        pose proof rep_tags as RC. pose proof (proj1 (r_tags _ Hr)) as VC. rewrite ET in RC, VC.
        destruct (run_ser_v _ _ _ w7 (tags_ser _ RC) VC He7) as (w8 & E8 & A8).
        change (sg_tags (sg_set_seek (mkSH (pad5 (u3 ++ [(kMkvTags, zlen hV + zlen hI + zlen hT + zlen hC)])) start0) sG)) with (sg_tags s). rewrite ET.
        rewrite (bind_run _ _ _ _ _ _ _ E8). exists w8. split; [reflexivity|exact A8]. }
    destruct HS8 as (w8 & E8 & A8). rewrite (bind_run _ _ _ _ _ _ _ E8). cbn [negb].
    pose proof A8 as (He8 & F8 & S8). rewrite F7 in F8.
    exists w8. split; [|split; [exact He8|split; [|congruence]]].
    - assert (EE : sg_set_header_written true (sg_set_seek (sh u4) sG) = after_header u4).
      { unfold after_header, sG, sF, sE, sD, sC, sB, sA. replace (zlen hE + 4 + 8) with hP by (unfold hP; clear; lia). apply setters_commute. }
      rewrite EE. reflexivity.
    - rewrite F8. unfold hd0, front. rewrite <- !app_assoc. reflexivity.
  Qed.

  (* the track whose frames get cue points *)
  Definition cue_track_for : Z :=
    if sg_output_cues s && (sg_cues_track s =? 0)
    then match first_video (sg_tracks s), sg_tracks s with
         | Some t, t0 :: _ => if negb (tk_number t =? 0) then tk_number t else tk_number t0
         | None, t0 :: _ => tk_number t0
         | _, [] => 0
         end
    else sg_cues_track s.
  Definition after_check : segment := sg_set_cues_track cue_track_for (after_header u5).

  Lemma set_cues_same : forall x n, sg_cues_track x = n -> sg_set_cues_track n x = x.
  Proof. intros [] n <-. reflexivity. Qed.

  Lemma ah_seek : forall u v, sg_set_seek (mkSH (pad5 v) start0) (after_header u) = after_header v.
  Proof. intros u v. unfold after_header at 1. rewrite set_seek_seek. reflexivity. Qed.
  Lemma ah_output : forall u, sg_output_cues (after_header u) = sg_output_cues s. Proof. reflexivity. Qed.
  Lemma ah_track : forall u, sg_cues_track (after_header u) = sg_cues_track s. Proof. reflexivity. Qed.
  Lemma ah_tracks : forall u, sg_tracks (after_header u) = sg_tracks s. Proof. reflexivity. Qed.

  Lemma CHI_run : forall w, new_file known w ->
    exists w', CheckHeaderInfo s w = Val ((true, after_check), w') /\ at_end w' /\ w_file w' = hd0 /\ w_seekable w' = known.
  Proof.
    intros w HW. unfold CheckHeaderInfo. rewrite (r_header _ Hr). destruct (WSH_run w HW) as (w1 & E1 & He1 & F1 & S1).
    rewrite (bind_run _ _ _ _ _ _ _ E1). cbn [negb].
    assert (R1 : w_pos w1 - sg_payload_pos (after_header u4) = zlen front). { apply rel_pos; [exact He1|exact F1]. }
    pose proof front_bound as [HFB1 HFB2]. pose proof room_all as HRA. pose proof HB as HB'. pw.
    assert (HL : zlen front <= zlen hd0). { unfold hd0. rewrite !zlen_app. pose proof (zlen_nonneg _ hE). pose proof (zlen_nonneg _ (id_bytes kMkvSegment)). pose proof (zlen_nonneg _ unknown8). lia. }
    rewrite (bind_run _ _ _ _ _ _ _ (seek_here_run (after_header u4) u4 start0 kMkvCluster w1 eq_refl used4 ltac:(rewrite len4; destruct (sg_chapters s), (sg_tags s); lia) ltac:(rewrite R1; pw; lia))).
    cbn [negb]. rewrite R1. fold u5.
    rewrite ah_seek, ah_output, ah_track, ah_tracks.
    exists w1. split; [|auto]. unfold after_check, cue_track_for.
    destruct (sg_output_cues s && (sg_cues_track s =? 0)).
    - destruct (r_tracks _ Hr) as (HNE & _). destruct (first_video (sg_tracks s)) as [t|], (sg_tracks s) as [|t0 ts]; try congruence; try reflexivity.
      destruct (negb (tk_number t =? 0)); reflexivity.
    - rewrite set_cues_same by reflexivity. reflexivity.
  Qed.

  Lemma CHI_done : forall w, CheckHeaderInfo after_check w = Val ((true, after_check), w).
  Proof. reflexivity. Qed.
  Lemma AGF_first : forall f w w1, CheckHeaderInfo s w = Val ((true, after_check), w1) -> AddGenericFrame s f w = AddGenericFrame after_check f w1.
  Proof.
    intros f w w1 E. unfold AddGenericFrame at 1. rewrite (bind_run _ _ _ _ _ _ _ E). cbn [negb].
    unfold AddGenericFrame. rewrite (bind_run _ _ _ _ _ _ _ (CHI_done w1)). reflexivity.
  Qed.
End Head.
