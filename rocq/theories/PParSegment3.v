(* Proofs about mkvparser's Segment: a whole muxed file is read back. *)
From Coq Require Import ZifyBool ZifyNat.
From Verif Require Import Base EbmlSpec Ids ReaderSpec MMuxUtil MFloat MMuxBlock BlockSpec MMuxMeta MetaSpec MMuxSegment MuxFileSpec
  MParUtil PParUtil MParMeta MParBlock MParTrack MParCues MParCluster ClusterSpec PParCluster MParSegment ReadBackSpec ReadTrackSpec PParBlock PEbml PParMeta PParMeta2 PParTrack3
  CueReadSpec PParCues2 SegReadSpec PParSegment PParSegment2.

Section Heads.
  Context (r : reader) (HT : total_ok r) (HTA : r_total r = r_avail r) (HLL : r_avail r <= LLONG_MAX).

  (* the loop of ParseHeaders gets from s to s' *)
  Definition reach (s s' : pseg) : Prop := forall fuel, r_avail r - pg_pos s < Z.of_nat fuel ->
    exists f', r_avail r - pg_pos s' < Z.of_nat f' /\ headers_loop fuel r s = headers_loop f' r s'.
  Lemma reach_refl : forall s, reach s s.
  Proof. intros s fuel H. exists fuel. auto. Qed.
  Lemma reach_trans : forall a b c, reach a b -> reach b c -> reach a c.
  Proof. intros a b c H1 H2 fuel H. destruct (H1 fuel H) as (f & H3 & ->). exact (H2 f H3). Qed.

  Definition stop_ok (s : pseg) : Prop := pg_stop s < 0 \/ pg_stop s = r_avail r.

  Lemma reach_step : forall s id p bs s', is_element id p bs -> serves r (pg_pos s) bs -> id <> kMkvCluster -> stop_ok s ->
    (forall start, element_at r (pg_pos s) id start (zlen p) -> start + zlen p = pg_pos s + zlen bs -> serves r start p ->
       level1_element r id start (zlen p) s = Val (0, s')) ->
    reach s (pg_set_pos (pg_pos s + zlen bs) s').
  Proof.
    intros s id p bs s' He Hs Hid Hst H fuel Hf. pose proof (serves_avail _ _ _ Hs (is_element_ne _ _ _ He)) as HA. unfold stop_ok in Hst.
    exact (headers_step r HT fuel s id p bs s' He Hs Hid ltac:(lia) ltac:(lia) H Hf).
  Qed.

  Lemma one : forall t bs, encodes t bs -> encodes_all [t] bs.
  Proof. intros t bs H. rewrite <- (app_nil_r bs). constructor; [exact H|constructor]. Qed.

  Ltac at_end He Hs := pose proof (serves_avail _ _ _ Hs (is_element_ne _ _ _ He)).

  Lemma reach_info : forall s i bs, encodes (info_tree i) bs -> serves r (pg_pos s) bs -> stop_ok s -> readable_info i -> pg_info s = None ->
    reach s (pg_set_pos (pg_pos s + zlen bs) (pg_set_info (read_info i) s)).
  Proof.
    intros s i bs He Hs Hst HR HN. destruct (encodes_inv _ _ He) as (p & Hc & Hel). cbn [tid info_tree] in Hel. at_end Hel Hs.
    eapply reach_step; eauto; [discriminate|]. intros start H1 H2 H3. unfold level1_element. change (kMkvInfo =? kMkvInfo) with true. cbn iota. rewrite HN.
    destruct (info_read r i (pg_pos s) bs HR (one _ _ He) Hs ltac:(lia)) as (a & b & A1 & A2 & A3). destruct (element_at_det r _ _ _ _ _ _ _ H1 A1) as [-> ->]. rewrite A3. reflexivity.
  Qed.
  Lemma reach_tracks : forall s l bs, encodes (tracks_tree l) bs -> serves r (pg_pos s) bs -> stop_ok s -> representable [tracks_tree l] -> forallb track_valid l = true ->
    readable_tracks l -> pg_tracks s = None -> reach s (pg_set_pos (pg_pos s + zlen bs) (pg_set_tracks (read_tracks l) s)).
  Proof.
    intros s l bs He Hs Hst HP HV HR HN. destruct (encodes_inv _ _ He) as (p & Hc & Hel). cbn [tid tracks_tree] in Hel. at_end Hel Hs.
    eapply reach_step; eauto; [discriminate|]. intros start H1 H2 H3. unfold level1_element. change (kMkvTracks =? kMkvInfo) with false. change (kMkvTracks =? kMkvTracks) with true. cbn iota. rewrite HN.
    destruct (tracks_read r l (pg_pos s) bs HP HV HR (one _ _ He) Hs ltac:(lia)) as (a & b & A1 & A2 & A3). destruct (element_at_det r _ _ _ _ _ _ _ H1 A1) as [-> ->]. rewrite A3. reflexivity.
  Qed.
  Lemma reach_chapters : forall s l bs, encodes (chapters_tree l) bs -> serves r (pg_pos s) bs -> stop_ok s -> representable [chapters_tree l] -> forallb chapter_valid l = true ->
    Forall readable_chapter l -> pg_chapters s = None -> reach s (pg_set_pos (pg_pos s + zlen bs) (pg_set_chapters (read_chapters l) s)).
  Proof.
    intros s l bs He Hs Hst HP HV HR HN. destruct (encodes_inv _ _ He) as (p & Hc & Hel). cbn [tid chapters_tree] in Hel. at_end Hel Hs.
    eapply reach_step; eauto; [discriminate|]. intros start H1 H2 H3. unfold level1_element. change (kMkvChapters =? kMkvInfo) with false. change (kMkvChapters =? kMkvTracks) with false.
    change (kMkvChapters =? kMkvCues) with false. change (kMkvChapters =? kMkvSeekHead) with false. change (kMkvChapters =? kMkvChapters) with true. cbn iota. rewrite HN.
    destruct (chapters_read r l (pg_pos s) bs HP HV HR (one _ _ He) Hs ltac:(lia)) as (a & b & A1 & A2 & A3). destruct (element_at_det r _ _ _ _ _ _ _ H1 A1) as [-> ->]. rewrite A3. reflexivity.
  Qed.
  Lemma reach_tags : forall s l bs, encodes (tags_tree l) bs -> serves r (pg_pos s) bs -> stop_ok s -> forallb tag_valid l = true ->
    Forall readable_tag l -> pg_tags s = None -> reach s (pg_set_pos (pg_pos s + zlen bs) (pg_set_tags (read_tags l) s)).
  Proof.
    intros s l bs He Hs Hst HV HR HN. destruct (encodes_inv _ _ He) as (p & Hc & Hel). cbn [tid tags_tree] in Hel. at_end Hel Hs.
    eapply reach_step; eauto; [discriminate|]. intros start H1 H2 H3. unfold level1_element. change (kMkvTags =? kMkvInfo) with false. change (kMkvTags =? kMkvTracks) with false.
    change (kMkvTags =? kMkvCues) with false. change (kMkvTags =? kMkvSeekHead) with false. change (kMkvTags =? kMkvChapters) with false. change (kMkvTags =? kMkvTags) with true. cbn iota. rewrite HN.
    destruct (tags_read r l (pg_pos s) bs HV HR (one _ _ He) Hs ltac:(lia)) as (a & b & A1 & A2 & A3). destruct (element_at_det r _ _ _ _ _ _ _ H1 A1) as [-> ->]. rewrite A3. reflexivity.
  Qed.
  Lemma reach_void : forall s p bs, is_element kMkvVoid p bs -> serves r (pg_pos s) bs -> stop_ok s -> reach s (pg_set_pos (pg_pos s + zlen bs) s).
  Proof. intros s p bs He Hs Hst. apply (reach_step s kMkvVoid p bs s He Hs); [discriminate|exact Hst|]. intros start H1 H2 H3. reflexivity. Qed.
  Lemma reach_seek : forall s l bs, encodes (seek_head_tree l) bs -> serves r (pg_pos s) bs -> stop_ok s -> Forall (fun e => valid_id (fst e) /\ 0 <= snd e < 2 ^ 63) l -> zlen l <= INT_MAX ->
    pg_seek s = None -> exists h, map (fun e => (se_id e, se_pos e)) (psh_entries h) = l /\ reach s (pg_set_pos (pg_pos s + zlen bs) (pg_set_seek h s)).
  Proof.
    intros s l bs He Hs Hst HF HL HN. destruct (encodes_inv _ _ He) as (p & Hc & Hel). cbn [tid seek_head_tree] in Hel. at_end Hel Hs.
    destruct (elem_read_element r HT (pg_pos s) (-1) _ _ _ Hel Hs ltac:(lia)) as (l1 & l2 & [E1 E2 E3 E4 G1 G2 G3 G4 G5] & HK & Hsp).
    pose proof (zlen_nonneg _ p). destruct (SeekHead_read r HT l p (pg_pos s + l1 + l2) HF HL Hc Hsp ltac:(lia)) as (h & A1 & A2). exists h. split; [exact A2|].
    eapply reach_step; eauto; [discriminate|]. intros start H1 H2 H3. unfold level1_element. change (kMkvSeekHead =? kMkvInfo) with false. change (kMkvSeekHead =? kMkvTracks) with false.
    change (kMkvSeekHead =? kMkvCues) with false. change (kMkvSeekHead =? kMkvSeekHead) with true. cbn iota. rewrite HN.
    replace start with (pg_pos s + l1 + l2) by lia. rewrite A1. reflexivity.
  Qed.
  Lemma reach_cues : forall s qs bs, representable [cues_tree qs] -> forallb cue_valid qs = true -> Forall readable_cue qs -> encodes (cues_tree qs) bs -> serves r (pg_pos s) bs -> stop_ok s -> pg_cues s = None ->
    exists c, shows_cues r (Some qs) (Some c) /\ reach s (pg_set_pos (pg_pos s + zlen bs) (pg_set_cues c s)).
  Proof.
    intros s qs bs H1 H2 H3 He Hs Hst HN. destruct (encodes_inv _ _ He) as (p & Hc & Hel). cbn [tid cues_tree] in Hel. at_end Hel Hs.
    destruct (elem_read_element r HT (pg_pos s) (-1) _ _ _ Hel Hs ltac:(lia)) as (l1 & l2 & [E1 E2 E3 E4 G1 G2 G3 G4 G5] & HK & Hsp). pose proof (zlen_nonneg _ p).
    exists (cues_new (pg_pos s + l1 + l2) (zlen p)). split.
    - apply (shows_cues_new r qs (pg_pos s) bs); auto; [lia|apply G4; lia].
    - eapply reach_step; eauto; [discriminate|]. intros start A1 A2 A3. unfold level1_element. change (kMkvCues =? kMkvInfo) with false. change (kMkvCues =? kMkvTracks) with false.
      change (kMkvCues =? kMkvCues) with true. cbn iota. rewrite HN. replace start with (pg_pos s + l1 + l2) by lia. reflexivity.
  Qed.
End Heads.

(* the conditions under which the file of a segment is read back *)
Record loadable (sized : bool) (s : segment) (dt : list Z) (d : f64) (cues : option (list cue_point)) (entries : option (list (Z * Z))) (file : list Z) (l : MuxFileSpec.layout) : Prop := mkLoadable {
  ld_muxed : is_muxed sized s dt d cues file l;
  ld_doc : doc_type_of dt;
  ld_clusters : Forall (stored_cluster sized (si_timecode_scale (sg_info s))) (lo_clusters l);
  ld_short : Forall (short_frames (si_timecode_scale (sg_info s))) (lo_clusters l);
  ld_seek : match entries with
            | None => lo_seek l = []
            | Some es => is_seek_head l es /\ Forall (fun e => valid_id (fst e) /\ 0 <= snd e < 2 ^ 63) es /\ zlen es <= INT_MAX
            end;
  ld_scale : 1 <= si_timecode_scale (sg_info s);
  ld_info : readable_info (si_set_duration d (sg_info s));
  ld_tracks : representable [tracks_tree (sg_tracks s)] /\ forallb track_valid (sg_tracks s) = true /\ readable_tracks (sg_tracks s);
  ld_chapters : representable [chapters_tree (sg_chapters s)] /\ forallb chapter_valid (sg_chapters s) = true /\ Forall readable_chapter (sg_chapters s);
  ld_tags : forallb tag_valid (sg_tags s) = true /\ Forall readable_tag (sg_tags s);
  ld_cues : ends cues (lo_cues l);
  ld_end : ends_well sized cues (lo_clusters l);
  ld_size : zlen file <= LLONG_MAX
}.

Lemma whole_file : forall file, serves (file_reader file) 0 file.
Proof. intros file. pose proof (serves_file [] file []) as H. cbn [app] in H. rewrite app_nil_r in H. exact H. Qed.

(* what a parsed segment has after the headers *)
Definition heads (s : segment) (d : f64) (entries : option (list (Z * Z))) (s2 : pseg) : Prop :=
  pg_info s2 = Some (read_info (si_set_duration d (sg_info s))) /\ pg_tracks s2 = Some (read_tracks (sg_tracks s)) /\
  pg_chapters s2 = written_if (sg_chapters s) (read_chapters (sg_chapters s)) /\ pg_tags s2 = written_if (sg_tags s) (read_tags (sg_tags s)) /\
  shows_seek entries (pg_seek s2).

Theorem file_read : forall sized s dt d cues entries file l, loadable sized s dt d cues entries file l ->
  exists s0 s1, EBMLHeader_Parse (file_reader file) = Val (0, zlen (lo_ebml l), read_header 4 dt) /\
    CreateInstance (file_reader file) (zlen (lo_ebml l)) = Val (0, Some s0) /\
    Segment_Load (file_reader file) s0 = Val (0, s1) /\ shows_file (file_reader file) s d cues entries l s1.
Proof.
  intros sized s dt d cues entries file l [Hm Hdt Hcl Hsh Hseek Hsc HI HTr HCh HTg HCu HEW HLen].
  destruct Hm as (seg & Ef & Heb & Hseg & Hinf & Htra & Hcha & Htag & _ & _).
  set (r := file_reader file) in *. assert (HT : total_ok r) by (right; cbn; lia). assert (HTA : r_total r = r_avail r) by reflexivity.
  assert (HAv : r_avail r = zlen file) by reflexivity. assert (HLL : r_avail r <= LLONG_MAX) by lia.
  pose proof (whole_file file) as Hs. fold r in Hs. rewrite Ef in Hs. pose proof (serves_app_l _ _ _ _ Hs) as Hse. pose proof (serves_app_r _ _ _ _ Hs) as Hss. cbn [Z.add] in Hss. clear Hs.
  assert (HLf : zlen file = zlen (lo_ebml l) + zlen seg) by (rewrite Ef, zlen_app; reflexivity).
  pose proof (zlen_nonneg _ (lo_ebml l)) as Z1. pose proof (zlen_nonneg _ seg) as Z2.
  destruct (CreateInstance_read r HT sized (zlen (lo_ebml l)) (lo_body l) seg Hseg Hss ltac:(lia) HTA) as (start & Hst & Hst2 & Hsb & HCI).
  exists (new_pseg start (if sized then zlen (lo_body l) else -1)).
  assert (HEB : EBMLHeader_Parse r = Val (0, zlen (lo_ebml l), read_header 4 dt)).
  { apply header_read; auto; try lia; [| |apply one; exact Heb]; destruct Hdt as [->| ->]; vm_compute; congruence. }
  set (s0 := new_pseg start (if sized then zlen (lo_body l) else -1)) in *.
  pose proof (zlen_nonneg _ (lo_body l)) as ZB.
  assert (HstopG : forall x, pg_start x = start -> pg_size x = (if sized then zlen (lo_body l) else -1) -> stop_ok r x).
  { intros x E1 E2. unfold stop_ok, pg_stop. rewrite E1, E2. destruct sized; [replace (zlen (lo_body l) <? 0) with false by lia; lia|left; reflexivity]. }
  unfold lo_body, lo_front in Hsb. rewrite <- !app_assoc in Hsb.
  (* the seek head *)
  assert (R1 : exists s1, reach r s0 s1 /\ pg_pos s1 = start + zlen (lo_seek l) /\ pg_start s1 = start /\ pg_size s1 = pg_size s0 /\ shows_seek entries (pg_seek s1) /\
    pg_info s1 = None /\ pg_tracks s1 = None /\ pg_chapters s1 = None /\ pg_tags s1 = None /\ pg_cues s1 = None /\ pg_clusters s1 = [] /\ pg_unknown s1 = false).
  { destruct entries as [es|].
    - destruct Hseek as ((sh & vp & void & E1 & E2 & E3 & E4) & HF & HN). pose proof (serves_app_l _ _ _ _ Hsb) as Hsk. rewrite E1 in Hsk.
      destruct (reach_seek r HT HLL s0 es sh E3 (serves_app_l _ _ _ _ Hsk) (HstopG s0 eq_refl eq_refl) HF HN eq_refl) as (h & Hh & Hreach).
      eexists. split; [eapply reach_trans; [exact Hreach|]; refine (reach_void r HT HLL _ (repeat 0 vp) void E4 _ _); [exact (serves_app_r _ _ _ _ Hsk)|apply HstopG; reflexivity]|].
      cbn [pg_set_pos pg_set_seek pg_pos pg_start pg_size pg_seek pg_info pg_tracks pg_chapters pg_tags pg_cues pg_clusters pg_unknown s0 new_pseg shows_seek].
      split; [rewrite E1, zlen_app; lia|]. repeat split; auto.
    - exists s0. split; [apply reach_refl|]. rewrite Hseek, zlen_nil. cbn [s0 new_pseg pg_pos pg_start pg_size pg_seek pg_info pg_tracks pg_chapters pg_tags pg_cues pg_clusters pg_unknown shows_seek]. repeat split; auto. lia. }
  destruct R1 as (s1 & R1 & P1 & S1 & Z3 & K1 & N1 & N2 & N3 & N4 & N5 & N6 & N7). apply serves_app_r in Hsb. rewrite <- P1 in Hsb.
  (* info and tracks *)
  pose proof (reach_info r HT HLL s1 _ _ Hinf (serves_app_l _ _ _ _ Hsb) (HstopG s1 S1 Z3) HI N1) as R2. apply serves_app_r in Hsb.
  set (s2 := pg_set_pos (pg_pos s1 + zlen (lo_info l)) (pg_set_info (read_info (si_set_duration d (sg_info s))) s1)) in *.
  change (pg_pos s1 + zlen (lo_info l)) with (pg_pos s2) in Hsb. destruct HTr as (T1 & T2 & T3).
  pose proof (reach_tracks r HT HLL s2 _ _ Htra (serves_app_l _ _ _ _ Hsb) (HstopG s2 S1 Z3) T1 T2 T3 N2) as R3. apply serves_app_r in Hsb.
  set (s3 := pg_set_pos (pg_pos s2 + zlen (lo_tracks l)) (pg_set_tracks (read_tracks (sg_tracks s)) s2)) in *.
  change (pg_pos s2 + zlen (lo_tracks l)) with (pg_pos s3) in Hsb.
  (* chapters *)
  assert (R4 : exists s4, reach r s3 s4 /\ pg_pos s4 = pg_pos s3 + zlen (lo_chapters l) /\ pg_start s4 = start /\ pg_size s4 = pg_size s0 /\ pg_seek s4 = pg_seek s1 /\
    pg_info s4 = pg_info s3 /\ pg_tracks s4 = pg_tracks s3 /\ pg_chapters s4 = written_if (sg_chapters s) (read_chapters (sg_chapters s)) /\ pg_tags s4 = None /\ pg_cues s4 = None /\ pg_clusters s4 = [] /\ pg_unknown s4 = false).
  { destruct HCh as (C1 & C2 & C3). destruct (sg_chapters s) as [|ch chs] eqn:Ech; cbn [opt_element] in Hcha.
    - exists s3. split; [apply reach_refl|]. rewrite Hcha, zlen_nil. cbn [written_if]. repeat split; auto. lia.
    - eexists. split; [exact (reach_chapters r HT HLL s3 _ _ Hcha (serves_app_l _ _ _ _ Hsb) (HstopG s3 S1 Z3) C1 C2 C3 N3)|].
      cbn [written_if pg_set_pos pg_set_chapters pg_pos pg_start pg_size pg_seek pg_info pg_tracks pg_chapters pg_tags pg_cues pg_clusters pg_unknown]. repeat split; auto. }
  destruct R4 as (s4 & R4 & P4 & S4 & Z4 & K4 & I4 & T4 & C4 & M1 & M2 & M3 & M4). apply serves_app_r in Hsb. rewrite <- P4 in Hsb.
  (* tags *)
  assert (R5 : exists s5, reach r s4 s5 /\ pg_pos s5 = pg_pos s4 + zlen (lo_tags l) /\ pg_start s5 = start /\ pg_size s5 = pg_size s0 /\ pg_seek s5 = pg_seek s1 /\
    pg_info s5 = pg_info s3 /\ pg_tracks s5 = pg_tracks s3 /\ pg_chapters s5 = pg_chapters s4 /\ pg_tags s5 = written_if (sg_tags s) (read_tags (sg_tags s)) /\ pg_cues s5 = None /\ pg_clusters s5 = [] /\ pg_unknown s5 = false).
  { destruct HTg as (C1 & C2). destruct (sg_tags s) as [|tg tgs] eqn:Etg; cbn [opt_element] in Htag.
    - exists s4. split; [apply reach_refl|]. rewrite Htag, zlen_nil. cbn [written_if]. repeat split; auto. lia.
    - eexists. split; [exact (reach_tags r HT HLL s4 _ _ Htag (serves_app_l _ _ _ _ Hsb) (HstopG s4 S4 Z4) C1 C2 M1)|].
      cbn [written_if pg_set_pos pg_set_tags pg_pos pg_start pg_size pg_seek pg_info pg_tracks pg_chapters pg_tags pg_cues pg_clusters pg_unknown]. repeat split; auto. }
  destruct R5 as (s5 & R5 & P5 & S5 & Z5 & K5 & I5 & T5 & C5 & G5 & Q5 & L5 & U5). apply serves_app_r in Hsb. rewrite <- P5 in Hsb.
  assert (RR : reach r s0 s5). { eapply reach_trans; [exact R1|]. eapply reach_trans; [exact R2|]. eapply reach_trans; [exact R3|]. eapply reach_trans; [exact R4|exact R5]. }
  assert (HP5 : pg_pos s5 = start + zlen (lo_front l)).
  { unfold lo_front. rewrite !zlen_app, P5, P4. unfold s3, s2. cbn [pg_set_pos pg_pos]. rewrite P1. lia. }
  set (cb := concat (map mc_bytes (lo_clusters l))) in *.
  assert (HA5 : pg_pos s5 + zlen (cb ++ lo_cues l) = r_avail r).
  { rewrite HP5. unfold lo_body in Hst. fold cb in Hst. rewrite zlen_app in Hst. lia. }
  assert (HH5 : heads s d entries s5).
  { unfold heads. rewrite I5, T5, C5, C4, G5, K5. unfold s3, s2. cbn [pg_set_pos pg_set_info pg_set_tracks pg_info pg_tracks]. repeat split; auto. }
  pose proof (HstopG s5 S5 Z5) as Hstop5. pose proof (zlen_nonneg _ (lo_front l)) as ZF. pose proof (zlen_nonneg _ (cb ++ lo_cues l)) as ZC.
  (* the end of the headers *)
  assert (HPH : exists s6, ParseHeaders r s0 = Val (0, s6) /\ heads s d entries s6 /\ pg_clusters s6 = [] /\ pg_start s6 = start /\
    exists s7 pcs, load_all (load_fuel r) r s6 = Val (0, s7) /\ heads s d entries s7 /\ pg_start s7 = start /\ pg_clusters s7 = pcs /\
      shows_clusters r (si_timecode_scale (sg_info s)) (start + zlen (lo_front l)) (lo_clusters l) pcs /\ shows_cues r cues (pg_cues s7)).
  { assert (HPR : forall s6, (exists f, headers_loop (loop_fuel r (pg_pos s0)) r s0 = headers_loop f r s6 /\ headers_loop f r s6 = Val (inr s6)) -> heads s d entries s6 -> pg_pos s6 <= r_avail r ->
      ParseHeaders r s0 = Val (0, s6)).
    { intros s6 (f & E1 & E2) HH HP. unfold ParseHeaders. replace ((r_total r >? 0) && (r_avail r >? r_total r)) with false by lia.
      pose proof (HstopG s0 eq_refl eq_refl) as H0. unfold stop_ok in H0. pose proof (zlen_nonneg _ (lo_seek l)).
      replace ((pg_stop s0 >=? 0) && (r_total r >=? 0) && (pg_stop s0 >? r_total r) || (pg_stop s0 >=? 0) && (pg_pos s0 >? pg_stop s0)) with false by (change (pg_pos s0) with start; lia).
      rewrite E1, E2. replace ((pg_stop s0 >=? 0) && (pg_pos s6 >? pg_stop s0)) with false by lia. destruct HH as (-> & -> & _). reflexivity. }
    assert (HF0 : r_avail r - pg_pos s0 < Z.of_nat (loop_fuel r (pg_pos s0))) by (unfold loop_fuel; lia).
    destruct (RR _ HF0) as (f5 & Hf5 & E5). destruct f5 as [|f5]; [lia|].
    assert (HLA : forall s6, heads s d entries s6 -> pg_clusters s6 = [] -> pg_start s6 = start -> pg_size s6 = pg_size s0 -> pg_unknown s6 = false -> pg_cues s6 = None ->
      pg_pos s6 = pg_pos s5 ->
      exists s7 pcs, load_all (load_fuel r) r s6 = Val (0, s7) /\ heads s d entries s7 /\ pg_start s7 = start /\ pg_clusters s7 = pcs /\
      shows_clusters r (si_timecode_scale (sg_info s)) (start + zlen (lo_front l)) (lo_clusters l) pcs /\ shows_cues r cues (pg_cues s7)).
    { intros s6 HH H1 H2 H3 H4 H5 H6.
      assert (HNL : (length (lo_clusters l) < load_fuel r)%nat).
      { pose proof (count_clusters r (si_timecode_scale (sg_info s)) sized (lo_clusters l) (lo_cues l) _ Hcl Hsb) as HNC. fold cb in HNC.
        unfold load_fuel. rewrite zlen_app in HA5. pose proof (zlen_nonneg _ (lo_cues l)). unfold zlen in HNC at 1. lia. }
      destruct (load_all_read r HT HTA (si_timecode_scale (sg_info s)) Hsc sized cues (lo_cues l) HCu HLL (lo_clusters l) s6 s6 (load_fuel r) (loop_fuel r (pg_pos s6)) (load_fuel r) Hcl Hsh HEW) as (s7 & pcs & E & (X1 & X2 & X3 & X4 & X5 & X6) & Y1 & Y2 & Y3); auto.
      - rewrite H6. exact Hsb.
      - fold cb. rewrite H6. exact HA5.
      - apply HstopG; auto.
      - rewrite H2, H6. lia.
      - unfold LoadCluster. apply load_cluster_at; [exact HTA|]. rewrite H6. lia.
      - unfold loop_fuel. rewrite H6. lia.
      - exists s7, pcs. split; [exact E|]. split; [unfold heads; rewrite X2, X3, X4, X5, X6; exact HH|]. split; [congruence|]. split; [rewrite Y1, H1; reflexivity|].
        split; [|exact Y3]. rewrite <- HP5, <- H6. exact Y2. }
    destruct (lo_clusters l) as [|c cs] eqn:Ecs.
    - cbn [map concat] in cb. subst cb. cbn [app] in *. destruct cues as [qs|]; cbn [ends] in HCu.
      + destruct HCu as (D1 & D2 & D3 & D4).
        destruct (reach_cues r HT HLL s5 qs (lo_cues l) D1 D2 D3 D4 Hsb Hstop5 Q5) as (c0 & Hc0 & R6).
        set (s6 := pg_set_pos (pg_pos s5 + zlen (lo_cues l)) (pg_set_cues c0 s5)) in *. destruct (R6 _ Hf5) as (f6 & Hf6 & E6).
        assert (HE6 : pg_pos s6 = r_avail r) by exact HA5. destruct f6 as [|f6]; [lia|].
        exists s6. split; [|split; [exact HH5|split; [exact L5|split; [exact S5|]]]].
        * apply HPR; [exists (S f6); split; [rewrite E5, E6; reflexivity|apply headers_end; lia]|exact HH5|lia].
        * exists s6, []. split; [|split; [exact HH5|split; [exact S5|split; [exact L5|split; [reflexivity|exact Hc0]]]]].
          assert (HEL : LoadCluster r s6 = Val (1, s6)).
          { unfold LoadCluster, load_fuel. cbn [load_cluster]. unfold DoLoadCluster. replace (pg_pos s6 <? 0) with false by lia. replace ((r_total r >=? 0) && (r_avail r >? r_total r)) with false by lia.
            unfold loop_fuel. cbn [next_cluster]. replace ((r_total r >=? 0) && (pg_pos s6 >=? r_total r)) with true by lia. reflexivity. }
          unfold load_fuel. cbn [load_all]. rewrite HEL. reflexivity.
      + exists s5. rewrite HCu in HA5. rewrite zlen_nil in HA5. split; [|split; [exact HH5|split; [exact L5|split; [exact S5|]]]].
        * apply HPR; [exists (S f5); split; [exact E5|apply headers_end; lia]|exact HH5|lia].
        * apply HLA; auto.
    - exists s5. split; [|split; [exact HH5|split; [exact L5|split; [exact S5|]]]].
      + apply HPR; [|exact HH5|lia]. exists (S f5). split; [exact E5|]. inversion Hcl as [|? ? Hc0 _]; subst.
        unfold cb in Hsb, HA5. cbn [map concat] in Hsb, HA5. rewrite <- app_assoc in Hsb.
        pose proof Hc0 as (Htc0 & Hok0 & tcp & tce & blocks & Htp & Hte & HFb & He).
        destruct (sized_split sized kMkvCluster _ _ ltac:(unfold kMkvCluster; lia) He) as (w & size & Eb & Hw & Hsz & Hk & Hib).
        assert (HLc : zlen (mc_bytes c) = 4 + w + zlen (tce ++ concat blocks)) by (rewrite Eb, !zlen_app, be_bytes_zlen, vint_zlen_l by lia; lia).
        rewrite Eb, <- !app_assoc in Hsb.
        apply (headers_cluster r HT f5 s5 _ Hsb); [|exact HLL]. rewrite !zlen_app, HLc in HA5. pose proof (zlen_nonneg _ (tce ++ concat blocks)). pose proof (zlen_nonneg _ (concat (map mc_bytes cs))). pose proof (zlen_nonneg _ (lo_cues l)).
        unfold stop_ok in Hstop5. lia.
      + apply HLA; auto. }
  destruct HPH as (s6 & E6 & (HH1 & HH2 & _) & HC6 & HS6 & s7 & pcs & E7 & (J1 & J2 & J3 & J4 & J5) & J6 & J7 & J8 & J9).
  exists s7. split; [exact HEB|]. split; [exact HCI|]. split.
  - unfold Segment_Load. change (pg_clusters s0) with (@nil MParCluster.cluster). cbn iota. rewrite E6. change (0 <? 0) with false. change (0 >? 0) with false. cbn iota. rewrite HH1, HH2. exact E7.
  - constructor; auto. rewrite J6, J7. exact J8.
Qed.
