(* WebVTT cues through a file as chapters. *)
From Coq Require Import ZifyBool ZifyNat.
From Verif Require Import Base MVtt VttSpec PVtt PVtt2 PVtt3 VttMuxSpec MVttMux PVttMux PVttMux2 MMuxMeta MParMeta ReadBackSpec VttChapSpec MVttChap.

Lemma chapter_cues_ok : forall file qs, good_chapters file qs -> Forall (fun q => cue_ok (without_settings q) /\ title_fits q) qs.
Proof.
  intros file qs ((bom & txt & lines & EF & _ & HT & HPL & HL) & _ & H0 & HO & HTF & HTI). destruct (lines_from txt lines HT) as [NE HI].
  assert (OK : forall l, In l lines -> text_ok l).
  { intros l Hl. rewrite Forall_forall in HPL, NE. split; [exact (HPL l Hl)|]. split; [exact (NE l Hl)|]. intro K. apply H0. rewrite EF. apply in_or_app. right. apply in_or_app. right. exact (HI l Hl 0 K). }
  assert (HD : forall q, In q qs -> exists b, cue_block scaled b q /\ incl b lines).
  { destruct lines as [|head [|l body]]; [subst qs; intros q []|destruct HL as [_ ->]; intros q []|]. destruct HL as (_ & _ & HD). intros q Hq.
    destruct (doc_blocks _ _ _ HD q Hq) as (b & K1 & K2). exists b. split; [exact K1|]. apply incl_tl, incl_tl. exact K2. }
  apply Forall_forall. intros q Hq. rewrite Forall_forall in HTF, HTI. pose proof (HTF q Hq) as F1. split; [|exact (HTI q Hq)]. pose proof (order_in qs 0 q HO Hq) as F3.
  destruct (HD q Hq) as (b & (ids & tline & pl & EB & HID & HTL & EP & PN & PE) & HINC). destruct HTL as (b1 & s1 & b2 & b3 & s2 & stx & _ & S1 & _ & _ & S2 & SS & EL).
  unfold cue_ok, without_settings. cbn [q_id q_start q_stop q_settings q_payload].
  split; [|split; [constructor|split; [unfold settings_fit, settings_size; cbn; lia|split; [rewrite EP; exact PN|split; [|split; [|split; [|split; [|split; [|split; [exact F3|exact F1]]]]]]]]]].
  - destruct HID as [[_ K]|(K1 & K2 & K3)]; [left; exact K|right]. split; [|exact K3]. apply OK, HINC. rewrite EB, K1. apply in_or_app. left. left. reflexivity.
  - rewrite EP. apply Forall_forall. intros l Hl. rewrite Forall_forall in PE. split; [exact (PE l Hl)|]. apply OK, HINC. rewrite EB. apply in_or_app. right. right. exact Hl.
  - exact (stamp_proper _ _ S1).
  - exact (stamp_proper _ _ S2).
  - exact (stamp_round _ _ S1).
  - exact (stamp_round _ _ S2).
Qed.
Lemma chapters_proper : forall qs, Forall (fun q => cue_ok (without_settings q) /\ title_fits q) qs -> Forall qproper qs.
Proof. intros qs H. eapply Forall_impl; [|exact H]. intros q ((_ & _ & _ & _ & _ & P1 & P2 & _) & _). split; assumption. Qed.

(* loading *)
Lemma chapters_loop_ok : forall qs p t tm cues fuel, yields p qs -> (length qs < fuel)%nat -> Forall qproper qs -> in_order tm qs ->
  (forall u, proper u -> tm <= millis u -> time_lt u t = false) -> chapters_loop fuel p t cues = Val (true, cues ++ qs).
Proof.
  induction qs as [|q qs IH]; intros p t tm cues fuel HY Hf HP HO HT; (destruct fuel as [|fuel]; [cbn [length] in Hf; lia|]); cbn [chapters_loop].
  - inversion HY as [p0 HE|]; subst. destruct (HE cue0) as (q' & p' & E). rewrite E. cbn [obind]. change (1 <? 0) with false. change (1 >? 0) with true. rewrite app_nil_r. reflexivity.
  - inversion HY as [|p0 q0 qs0 p' HE HY']; subst. rewrite (HE cue0). cbn [obind]. change (0 <? 0) with false. change (0 >? 0) with false. cbv iota.
    apply Forall_cons_iff in HP. destruct HP as [[P1 P2] HP]. cbn [in_order] in HO. destruct HO as (O1 & O2 & O3).
    rewrite (HT _ P1 O1). destruct (proper_order _ _ P2 P1) as [L _]. rewrite L. destruct (Z.ltb_spec (millis (q_stop q)) (millis (q_start q))); [lia|].
    cbn [length] in Hf. rewrite (IH p' (q_start q) (millis (q_start q)) (cues ++ [q]) fuel HY' ltac:(lia) HP O3); [rewrite <- app_assoc; reflexivity|].
    intros u Hu Hm. destruct (proper_order _ _ Hu P1) as [L2 _]. rewrite L2. lia.
Qed.
Lemma load_chapters_ok : forall file qs, vtt_file scaled file qs -> bytes file -> Forall qproper qs -> in_order 0 qs -> LoadChapters (map Ch file) [] = Val (true, qs).
Proof.
  intros file qs HV HB HP HO. destruct (file_yields file qs HV) as (p & E & HY). unfold LoadChapters, ParseChapters. rewrite E. cbn [obind]. change (0 <? 0) with false. cbv iota.
  assert (HB' : Forall (fun c => 0 <= c < 256) file) by exact HB.
  destruct (Init_total _ (wf_chars file HB')) as (e & p' & E' & W & _). rewrite E in E'. injection E' as E1 E2. subst e p'.
  pose proof (yields_len p qs HY W) as HL. pose proof (pending_len p) as HL2.
  rewrite (chapters_loop_ok qs p time0 0 [] (fuel_of p) HY); [reflexivity|unfold fuel_of; lia|exact HP|exact HO|].
  intros u (U1 & _) _. unfold time_lt, time0. cbn [t_h t_m t_s t_ms]. destruct (t_h u <? -1) eqn:X1; [lia|]. destruct (t_h u >? -1) eqn:X2; [reflexivity|lia].
Qed.

(* titles *)
Lemma title_joined : forall ls, ls <> [] -> title_of ls = Val (joined ls).
Proof.
  induction ls as [|l r IH]; intro H; [congruence|]. destruct r as [|l' r]; [reflexivity|]. change (title_of (l :: l' :: r)) with (olet t := title_of (l' :: r) in Val (l ++ [kLF] ++ t)).
  rewrite IH by discriminate. reflexivity.
Qed.
Lemma joined_no0 : forall ls, Forall (fun l => l <> [] /\ text_ok l) ls -> ~ In 0 (joined ls).
Proof.
  induction ls as [|l r IH]; intro H; [intros []|]. apply Forall_cons_iff in H. destruct H as [[_ (_ & _ & H1)] H2]. destruct r as [|l' r]; [exact H1|].
  change (joined (l :: l' :: r)) with (l ++ [10] ++ joined (l' :: r)). intro K. apply in_app_or in K. destruct K as [K|[K|K]]; [exact (H1 K)|lia|exact (IH H2 K)].
Qed.
Lemma joined_ne : forall ls, ls <> [] -> Forall (fun l => l <> [] /\ text_ok l) ls -> joined ls <> [].
Proof.
  intros [|l [|l' r]] H HF; [congruence| |]; apply Forall_cons_iff in HF; destruct HF as [[H1 _] _]; [exact H1|].
  change (joined (l :: l' :: r)) with (l ++ [10] ++ joined (l' :: r)). intro K. apply app_eq_nil in K. destruct K as [K _]. exact (H1 K).
Qed.
Lemma joined_lines : forall ls, Forall (fun l => l <> [] /\ text_ok l) ls -> text_lines (joined ls) ls.
Proof.
  induction ls as [|l r IH]; intro H; [constructor|]. apply Forall_cons_iff in H. destruct H as [[H0 (_ & H1 & _)] H2]. destruct r as [|l' r]; [apply tl_last; assumption|].
  change (joined (l :: l' :: r)) with (l ++ [10] ++ joined (l' :: r)). apply tl_lf; [exact H1|exact (IH H2)].
Qed.

(* the chapter made of a cue *)
Definition chapter_of (scale uid : Z) (q : cue) : chapter :=
  mkChapter (match q_id q with [] => None | _ => Some (q_id q) end) (millis (q_start q) * 1000000 / scale) (millis (q_stop q) * 1000000 / scale) uid
    [mkDisplay (Some (joined (q_payload q))) None None].
Fixpoint chapters_of (scale : Z) (uids : list Z) (qs : list cue) : list chapter :=
  match qs with [] => [] | q :: r => chapter_of scale (hd 0 uids) q :: chapters_of scale (tl uids) r end.

Lemma add_chapter_ok : forall scale uid q, cue_ok (without_settings q) -> 0 < scale -> AddChapter scale uid q = Val (chapter_of scale uid q).
Proof.
  intros scale uid q (HI & _ & _ & HN & HP & P1 & P2 & _ & _ & Hle & Hf) Hs. cbn [without_settings q_id q_start q_stop q_payload] in *. unfold times_fit in Hf. cbn [without_settings q_stop] in Hf.
  change (2 ^ 63) with 9223372036854775808 in Hf. assert (0 <= millis (q_start q)) by (destruct P1 as (a1 & a2 & a3 & a4); unfold millis; lia).
  unfold AddChapter, chapter_of. rewrite (time_ns_ok _ P1), (time_ns_ok _ P2) by (change (2 ^ 63) with 9223372036854775808; lia). cbn [obind].
  unfold wrap64. rewrite !Z.mod_small by lia. unfold chapter_timecode. destruct (scale =? 0) eqn:E; [lia|]. cbn [obind]. rewrite (title_joined _ HN). cbn [obind].
  rewrite (c_str_id _ (joined_no0 _ HP)). destruct (q_id q) as [|c l] eqn:EI; [reflexivity|]. destruct HI as [K|[(_ & _ & K) _]]; [discriminate K|]. rewrite (c_str_id _ K). reflexivity.
Qed.
Lemma add_chapters_ok : forall scale qs uids, Forall (fun q => cue_ok (without_settings q) /\ title_fits q) qs -> 0 < scale -> AddChapters scale uids qs = Val (chapters_of scale uids qs).
Proof.
  intros scale qs. induction qs as [|q qs IH]; intros uids H Hs; [reflexivity|]. apply Forall_cons_iff in H. destruct H as [[H1 _] H2]. cbn [AddChapters chapters_of].
  rewrite (add_chapter_ok _ _ _ H1 Hs). cbn [obind]. rewrite (IH _ H2 Hs). reflexivity.
Qed.
Lemma chapters_valid : forall scale qs uids, forallb MetaSpec.chapter_valid (chapters_of scale uids qs) = true <-> Forall named qs.
Proof.
  intros scale qs. induction qs as [|q qs IH]; intro uids; [split; constructor|]. cbn [chapters_of forallb]. rewrite Bool.andb_true_iff, IH, Forall_cons_iff. unfold MetaSpec.chapter_valid, chapter_of, named.
  cbn [ch_id ch_displays forallb di_title]. destruct (q_id q); cbn; intuition congruence.
Qed.
Lemma chapters_readable : forall scale qs uids, Forall (fun q => cue_ok (without_settings q) /\ title_fits q) qs -> 0 < scale -> Forall readable_chapter (chapters_of scale uids qs).
Proof.
  intros scale qs. induction qs as [|q qs IH]; intros uids H Hs; [constructor|]. apply Forall_cons_iff in H. destruct H as [[(HI & _ & _ & HN & HP & P1 & P2 & _ & _ & Hle & Hf) H1] H2]. cbn [chapters_of]. constructor; [|exact (IH _ H2 Hs)].
  cbn [without_settings q_id q_start q_stop q_payload] in *. unfold times_fit in Hf. cbn [without_settings q_stop] in Hf.
  assert (0 <= millis (q_start q)) by (destruct P1 as (a1 & a2 & a3 & a4); unfold millis; lia).
  unfold readable_chapter, chapter_of. cbn [ch_id ch_start ch_end ch_displays]. split; [|split; [|split]].
  - destruct (q_id q) as [|c l] eqn:EI; cbn [short]; [exact I|]. destruct HI as [K|[((_ & K) & _) _]]; [discriminate K|lia].
  - assert (millis (q_start q) * 1000000 / scale <= millis (q_start q) * 1000000) by (apply Z.div_le_upper_bound; nia). lia.
  - assert (millis (q_stop q) * 1000000 / scale <= millis (q_stop q) * 1000000) by (apply Z.div_le_upper_bound; nia). lia.
  - constructor; [|constructor]. unfold readable_display. cbn [di_title di_language di_country short]. split; [exact H1|]. split; exact I.
Qed.

(* out again *)
Lemma chapter_cue_ok : forall scale uid q, cue_ok (without_settings q) -> 0 < scale -> (scale | 1000000) ->
  WriteChaptersCue scale (read_chapter (chapter_of scale uid q)) (mkPD (Some (joined (q_payload q))) None None) = Val (Some (unlines ([] :: out_lines (without_settings q)))).
Proof.
  intros scale uid q (HI & _ & _ & HN & HP & P1 & P2 & _ & _ & Hle & Hf) Hs [k Hk]. unfold times_fit in Hf. cbn [without_settings q_id q_start q_stop q_payload] in *.
  change (2 ^ 63) with 9223372036854775808 in Hf. assert (0 <= millis (q_start q)) by (destruct P1 as (a1 & a2 & a3 & a4); unfold millis; lia).
  assert (D : forall n, n * 1000000 / scale * scale = n * 1000000) by (intro n; rewrite Hk, Z.mul_assoc, Z.div_mul by lia; reflexivity).
  assert (G : forall n, 0 <= n -> n * 1000000 < 9223372036854775808 -> Atom_GetTime scale (n * 1000000 / scale) = Val (n * 1000000)).
  { intros n Hn Hn2. unfold Atom_GetTime. destruct (scale <? 1) eqn:X1; [lia|]. assert (0 <= n * 1000000 / scale) by (apply Z.div_pos; lia). destruct (n * 1000000 / scale <? 0) eqn:X2; [lia|].
    rewrite Z.mul_comm, D. apply s64_ok. lia. }
  unfold WriteChaptersCue, WriteChaptersCueTimings, read_chapter, chapter_of. cbn [ch_id ch_start ch_end ch_displays ch_uid pa_start pa_stop].
  rewrite (G (millis (q_start q)) ltac:(lia) ltac:(lia)). cbn [obind]. destruct (millis (q_start q) * 1000000 <? 0) eqn:X1; [lia|]. rewrite (G (millis (q_stop q)) ltac:(lia) ltac:(lia)). cbn [obind]. destruct (millis (q_stop q) * 1000000 <? 0) eqn:X2; [lia|]. cbn [obind].
  assert (EP : WriteChaptersCuePayload (mkPD (Some (joined (q_payload q))) None None) = Val (Some (unlines (q_payload q)))).
  { unfold WriteChaptersCuePayload, title_reader. cbn [pd_string]. cbv zeta. rewrite (c_str_id _ (joined_no0 _ HP)).
    assert (HA : at_lines (new_parser (map Ch (joined (q_payload q)))) (q_payload q)).
    { exists (joined (q_payload q)). split; [reflexivity|]. split; [exact (joined_lines _ HP)|]. eapply Forall_impl; [|exact HP]. intros l [_ K]. apply K. }
    apply payload_lines_ok; [exact HA|exact (at_lines_fuel _ _ HA)|lia|left; exact HN|exact HP]. }
  rewrite EP. cbn [obind]. unfold WriteChaptersCueIdentifier, out_lines, tl_of. cbn [pa_string_uid without_settings q_id q_start q_stop q_settings q_payload settings_items].
  destruct (q_id q) as [|c l] eqn:EI; cbn [read_str].
  - unfold unlines. cbn [flat_map app]. rewrite !app_nil_r, <- !app_assoc. cbn [app]. rewrite <- !app_assoc. reflexivity.
  - destruct HI as [K|[(_ & _ & K) _]]; [discriminate K|]. rewrite (c_str_id _ K). unfold unlines. cbn [flat_map app]. rewrite !app_nil_r, <- !app_assoc. cbn [app]. rewrite <- !app_assoc. reflexivity.
Qed.
Lemma chapters_text_ok : forall scale qs uids, Forall (fun q => cue_ok (without_settings q) /\ title_fits q) qs -> 0 < scale -> (scale | 1000000) ->
  chapters_text scale (map read_chapter (chapters_of scale uids qs)) = Val (Some (unlines (all_lines (map without_settings qs)))).
Proof.
  intros scale qs. induction qs as [|q qs IH]; intros uids H Hs Hk; [reflexivity|]. apply Forall_cons_iff in H. destruct H as [[H1 _] H2]. cbn [chapters_of map chapters_text].
  assert (ED : pa_displays (read_chapter (chapter_of scale (hd 0 uids) q)) = [mkPD (Some (joined (q_payload q))) None None]).
  { unfold read_chapter, chapter_of. cbn [pa_displays ch_displays map]. unfold read_display. cbn [di_title di_language di_country read_str].
    destruct H1 as (_ & _ & _ & HN & HP & _). cbn [without_settings q_payload] in *. pose proof (joined_ne _ HN HP). destruct (joined (q_payload q)); [congruence|reflexivity]. }
  rewrite ED. cbn [pd_language]. rewrite (chapter_cue_ok scale _ q H1 Hs Hk). cbn [obind]. rewrite (IH _ H2 Hs Hk). cbn [obind]. unfold all_lines. cbn [map flat_map]. rewrite <- unlines_app. reflexivity.
Qed.
Lemma demux_chapters_ok : forall scale qs uids, Forall (fun q => cue_ok (without_settings q) /\ title_fits q) qs -> 0 < scale -> (scale | 1000000) ->
  exists txt, demux_chapters scale (read_chapters (chapters_of scale uids qs)) = Val (Some txt) /\ vtt_file plain_fraction txt (map without_settings qs).
Proof.
  intros scale qs uids H Hs Hk.
  assert (HW : Forall cue_ok (map without_settings qs)) by (apply Forall_map; eapply Forall_impl; [|exact H]; intros q [K _]; exact K).
  destruct (demux_ok scale 0 _ HW Hs Hk) as (txt & E & V). exists txt. split; [|exact V]. revert E. unfold demux_track. rewrite (write_cues_ok scale 0 _ HW Hs Hk). cbn [obind]. intros <-.
  unfold demux_chapters, WriteChaptersFile, read_chapters. destruct qs as [|q qs]; [reflexivity|]. cbn [chapters_of]. change (chapter_of scale (hd 0 uids) q :: chapters_of scale (tl uids) qs) with (chapters_of scale uids (q :: qs)).
  rewrite (chapters_text_ok scale (q :: qs) uids H Hs Hk). reflexivity.
Qed.

(* any chapters *)
Lemma clean_ok : forall q, clean_cue q -> cue_ok q.
Proof.
  intros q (HI & HS & HN & HP & (A1 & A2 & A3 & A4 & A5) & (B1 & B2 & B3 & B4 & B5) & HL & HF). unfold cue_ok. rewrite HS.
  split; [exact HI|]. split; [constructor|]. split; [unfold settings_fit, settings_size; rewrite HS; cbn; lia|]. split; [exact HN|]. split; [exact HP|].
  split; [unfold proper; lia|]. split; [unfold proper; lia|]. split; [exact A5|]. split; [exact B5|]. split; assumption.
Qed.
(* what is below a millisecond does not matter *)
Lemma cue_time_floor : forall t, 0 <= t -> WriteCueTime t = WriteCueTime (t / 1000000 * 1000000).
Proof.
  intros t Ht. unfold WriteCueTime. rewrite (Z.quot_mul (t / 1000000) 1000000) by lia. rewrite (Z.quot_div_nonneg t 1000000) by lia. reflexivity.
Qed.
Lemma stands_cue_ok : forall scale a q d, clean_cue q -> stands_for scale a q -> pa_displays a = [d] -> 0 < scale ->
  WriteChaptersCue scale a d = Val (Some (unlines ([] :: out_lines q))).
Proof.
  intros scale a q d HC ((language & country & ED & _) & A1 & A2 & B1 & B2 & F1 & F2 & EU) Ed Hs. rewrite ED in Ed. injection Ed as <-.
  pose proof HC as (HI & HS & HN & HP & _). change (2 ^ 63) with 9223372036854775808 in *.
  assert (G : forall n, 0 <= n -> n * scale < 9223372036854775808 -> Atom_GetTime scale n = Val (n * scale)).
  { intros n Hn Hn2. unfold Atom_GetTime. destruct (scale <? 1) eqn:X1; [lia|]. destruct (n <? 0) eqn:X2; [lia|]. rewrite Z.mul_comm. apply s64_ok. nia. }
  unfold WriteChaptersCue, WriteChaptersCueTimings. rewrite (G _ A1 F1). cbn [obind]. destruct (pa_start a * scale <? 0) eqn:X1; [nia|].
  rewrite (G _ B1 F2). cbn [obind]. destruct (pa_stop a * scale <? 0) eqn:X2; [nia|]. cbn [obind].
  rewrite (cue_time_floor (pa_start a * scale)), (cue_time_floor (pa_stop a * scale)), A2, B2 by lia.
  assert (EP : WriteChaptersCuePayload (mkPD (Some (joined (q_payload q))) language country) = Val (Some (unlines (q_payload q)))).
  { unfold WriteChaptersCuePayload, title_reader. cbn [pd_string]. cbv zeta. rewrite (c_str_id _ (joined_no0 _ HP)).
    assert (HA : at_lines (new_parser (map Ch (joined (q_payload q)))) (q_payload q)).
    { exists (joined (q_payload q)). split; [reflexivity|]. split; [exact (joined_lines _ HP)|]. eapply Forall_impl; [|exact HP]. intros l [_ K]. apply K. }
    apply payload_lines_ok; [exact HA|exact (at_lines_fuel _ _ HA)|lia|left; exact HN|exact HP]. }
  rewrite EP. cbn [obind]. unfold WriteChaptersCueIdentifier, out_lines, tl_of. rewrite HS, EU. cbn [settings_items].
  destruct (q_id q) as [|c l] eqn:EI; cbv iota.
  - unfold unlines. cbn [flat_map app]. rewrite !app_nil_r, <- !app_assoc. cbn [app]. rewrite <- !app_assoc. reflexivity.
  - destruct HI as [K|[(_ & _ & K) _]]; [discriminate K|]. rewrite (c_str_id _ K). unfold unlines. cbn [flat_map app]. rewrite !app_nil_r, <- !app_assoc. cbn [app]. rewrite <- !app_assoc. reflexivity.
Qed.
Lemma stand_text_ok : forall scale l qs, 0 < scale -> stand_for scale l qs -> chapters_text scale l = Val (Some (unlines (all_lines qs))) /\ Forall cue_ok qs.
Proof.
  intros scale l qs Hs H. induction H as [|a l qs E H [IH1 IH2]|a q l qs HSF HC H [IH1 IH2]]; [split; [reflexivity|constructor]| |].
  - cbn [chapters_text]. rewrite E. split; assumption.
  - pose proof HSF as ((language & country & ED & HL) & _). cbn [chapters_text]. rewrite ED. cbn [pd_language].
    assert (EL : match language with Some s => negb (is_eng s) | None => false end = false) by (destruct HL as [->| ->]; reflexivity). rewrite EL.
    rewrite (stands_cue_ok scale a q _ HC HSF ED Hs). cbn [obind]. rewrite IH1. cbn [obind]. split; [unfold all_lines; cbn [flat_map]; rewrite <- unlines_app; reflexivity|].
    constructor; [exact (clean_ok q HC)|exact IH2].
Qed.
Lemma demux_any_ok : forall scale l qs, 0 < scale -> stand_for scale l qs -> exists txt, demux_chapters scale [l] = Val (Some txt) /\ vtt_file plain_fraction txt qs.
Proof.
  intros scale l qs Hs H. destruct (stand_text_ok scale l qs Hs H) as [E HW]. assert (H1 : (1 | 1000000)) by (exists 1000000; lia).
  destruct (demux_ok 1 0 _ HW ltac:(lia) H1) as (txt & ET & V). exists txt. split; [|exact V]. revert ET. unfold demux_track. rewrite (write_cues_ok 1 0 _ HW ltac:(lia) H1). cbn [obind]. intros <-.
  unfold demux_chapters, WriteChaptersFile. rewrite E. reflexivity.
Qed.
