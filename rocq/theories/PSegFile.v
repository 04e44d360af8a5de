(* A whole muxing session: headers, frames, Finalize. *)
From Coq Require Import ZifyBool ZifyNat Sorted.
From Verif Require Import Base EbmlSpec MWriter WriterSpec PWriter MMuxUtil PMuxUtil EbmlPropSpec PEbml Ids LacingSpec MMuxBlock BlockSpec
  PMuxBlock MFloat MMuxMeta MetaSpec PMeta PMetaObj PMetaObj2 MMuxSegment SegmentSpec MuxFileSpec PSegRun PSegCluster PSegAcc PSegStream PSegHead PSegFin CueReadSpec.

(* Finalize in two parts *)
Definition fin1 (s : segment) : W (bool * segment) :=
  r <- WriteFramesAll s;;
  let '(n, s) := r in
  if n <? 0 then ret (false, s) else
  if negb (sg_live s) || sg_accurate s then
    match sg_clusters s with
    | [] => ret (true, s)
    | c :: _ => r <- Cluster_Finalize c false 0;; let '(ok, c) := r in ret (ok, set_cluster c s)
    end
  else ret (true, s).
Definition fin3 (s : segment) : W (bool * segment) :=
  check_true (SeekHead_Finalize (sg_seek s)) (false, s) (
  seekable <- w_is_seekable;;
  if negb seekable then ret (true, s) else
  if sg_size_pos s =? -1 then ret (false, s) else
  segment_size <- MaxOffset s;;
  if segment_size <? 1 then ret (false, s) else
  pos <- w_position;;
  let s := UpdateDocTypeVersion s in
  r <- (if negb (sg_dtv s =? sg_dtv_written s) then
          check_status (w_seek 0) (false, s) (
          dt <- doc_type s;;
          check_true (WriteEbmlHeader (sg_dtv s) dt) (false, s) (
          here <- w_position;;
          if negb (here =? sg_ebml_size s) then ret (false, s)
          else ret (true, sg_set_dtv_written (sg_dtv s) s)))
        else ret (true, s));;
  let '(ok, s) := r in
  if negb ok then ret (false, s) else
  check_status (w_seek (sg_size_pos s)) (false, s) (
  check_status (WriteUIntSize segment_size 8) (false, s) (
  check_status (w_seek pos) (false, s) (
  ret (true, s))))).
Definition fin2 (s : segment) : W (bool * segment) :=
  if sg_live s then ret (true, s) else
  duration <- lift (segment_duration s);;
  let s := sg_set_info (si_set_duration duration (sg_info s)) s in
  check_true (SegmentInfo_Finalize (sg_info s)) (false, s) (
  r <- (if sg_output_cues s then seek_entry_here s kMkvCues else ret (true, s));;
  let '(ok, s) := r in
  if negb ok then ret (false, s) else
  pos <- w_position;;
  let s := sg_set_cluster_end pos s in
  check_true (if sg_output_cues s then Cues_Write (sg_cues s) else ret true) (false, s) (fin3 s)).

Lemma Finalize_eq : forall s w, Segment_Finalize s w =
  bind (fin1 s) (fun r => let '(ok, s) := r in if negb ok then ret (false, s) else fin2 s) w.
Proof.
  intros s w. unfold Segment_Finalize, fin1. rewrite bind_assoc. destruct (WriteFramesAll s w) as [[[n s1] w1]|] eqn:E; [|unfold bind; rewrite E; reflexivity].
  rewrite !(bind_run _ _ _ _ _ _ _ E).
  destruct (n <? 0); [reflexivity|]. destruct (negb (sg_live s1) || sg_accurate s1).
  - destruct (sg_clusters s1) as [|c r]; [reflexivity|]. rewrite !bind_assoc. reflexivity.
  - reflexivity.
Qed.

(* fields of changed segments *)
Lemma f_seek_info : forall i s, sg_seek (sg_set_info i s) = sg_seek s. Proof. intros i []. reflexivity. Qed.
Lemma f_info_info : forall i s, sg_info (sg_set_info i s) = i. Proof. intros i []. reflexivity. Qed.
Lemma f_out_info : forall i s, sg_output_cues (sg_set_info i s) = sg_output_cues s. Proof. intros i []. reflexivity. Qed.

(* what the last part needs to know of the segment *)
Record fin_state (s : segment) (h : seek_head) (pp sp : Z) (out : bool) (qs : list cue_point) : Prop := mkFS {
  fs_seek : sg_seek s = h; fs_pp : sg_payload_pos s = pp; fs_sp : sg_size_pos s = sp; fs_out : sg_output_cues s = out;
  fs_cues : sg_cues s = qs; fs_dtv : sg_dtv s = 4; fs_dtvw : sg_dtv_written s = 4
}.
Lemma fs_info : forall s h pp sp out qs i, fin_state s h pp sp out qs -> fin_state (sg_set_info i s) h pp sp out qs.
Proof. intros s h pp sp out qs i []. destruct s. constructor; assumption. Qed.
Lemma fs_set_seek : forall s h pp sp out qs h', fin_state s h pp sp out qs -> fin_state (sg_set_seek h' s) h' pp sp out qs.
Proof. intros s h pp sp out qs i []. destruct s. constructor; assumption || reflexivity. Qed.
Lemma fs_end : forall s h pp sp out qs i, fin_state s h pp sp out qs -> fin_state (sg_set_cluster_end i s) h pp sp out qs.
Proof. intros s h pp sp out qs i []. destruct s. constructor; assumption. Qed.

(* seek head and segment size *)
Lemma fin3_run : forall s w u E body0 b body1 (known : bool) out qs,
  fin_state s (mkSH (pad5 u) (if known then zlen E + 12 else 0)) (zlen E + 12) (zlen E + 4) out qs -> used_ok u -> seek_ok u ->
  at_end w -> w_seekable w = known -> w_file w = E ++ id_bytes kMkvSegment ++ unknown8 ++ b ++ body1 -> body0 = b ++ body1 ->
  (known = true -> zlen b = 110) -> 1 <= zlen body0 < 2 ^ 55 ->
  exists s' w' sv, fin3 s w = Val ((true, s'), w') /\ s' = s /\
    w_file w' = E ++ id_bytes kMkvSegment ++ (if known then vint 8 (zlen body0) else unknown8) ++ sv ++ body1 /\ at_end w' /\ w_seekable w' = known /\ zlen sv = zlen b /\
    (if known then exists vp void, sv = enc (seek_head_tree u) ++ void /\ is_element kMkvVoid (repeat 0 vp) void else sv = b).
Proof.
  intros s w u E body0 b body1 known out qs [S1 S2 S3 S4 S5 S6 S7] HU HS He HK HF HB0 Hb Hlen.
  unfold fin3. rewrite S1. pose proof (zlen_nonneg _ E) as HE0. pw.
  destruct known.
  - set (a := E ++ id_bytes kMkvSegment ++ unknown8).
    assert (HA : zlen a = zlen E + 12). { unfold a. rewrite !zlen_app, unknown8_zlen. change (zlen (id_bytes kMkvSegment)) with 4. lia. }
    rewrite <- HA. destruct (SH_run u w a body1 HU HS He HK b) as (vp & sv & void & w1 & E1 & He1 & K1 & F1 & L1 & EQ1 & V1).
    { rewrite HF. unfold a. rewrite <- !app_assoc. reflexivity. } { auto. }
    rewrite (check_true_run _ _ _ _ _ _ E1), bind_seekable, K1. cbn [negb]. rewrite S3.
    replace (zlen E + 4 =? -1) with false by lia. unfold MaxOffset. rewrite bind_assoc, bind_position, bind_ret, S2.
    assert (P1 : w_pos w1 - (zlen E + 12) = zlen body0). { destruct He1 as [_ P]. rewrite P, F1, !zlen_app, HB0, zlen_app, HA, L1, Hb by reflexivity. lia. }
    rewrite P1. replace (zlen body0 <? 1) with false by lia. rewrite bind_position. cbv zeta.
    replace (UpdateDocTypeVersion s) with s by (unfold UpdateDocTypeVersion; rewrite S6; change (4 <? 4) with false; rewrite andb_false_r; reflexivity).
    rewrite S6, S7. change (4 =? 4) with true. cbn [negb]. rewrite bind_ret. cbn [negb]. rewrite S3.
    assert (HV : vint_fits 8 (zlen body0)). { unfold vint_fits. change (2 ^ (7 * 8)) with 72057594037927936. lia. }
    destruct (patch_run (bool * segment) _ _ w1 (E ++ id_bytes kMkvSegment) unknown8 (sv ++ body1) (zlen E + 4) (ret (true, s)) (false, s) (emits_WriteUIntSize _ _ HV) He1)
      as (w2 & E2 & He2 & F2 & K2).
    { rewrite F1. unfold a. rewrite <- !app_assoc. reflexivity. } { rewrite zlen_app. reflexivity. } { rewrite vint8_zlen. reflexivity. }
    exists s, w2, sv. rewrite E2. split; [reflexivity|]. split; [reflexivity|]. split; [rewrite F2, <- !app_assoc; reflexivity|]. split; [exact He2|]. split; [congruence|]. split; [rewrite L1, Hb; reflexivity|]. exists vp, void. auto.
  - assert (E1 : SeekHead_Finalize (mkSH (pad5 u) 0) w = Val (true, w)) by (unfold SeekHead_Finalize; rewrite bind_seekable, HK; reflexivity).
    rewrite (check_true_run _ _ _ _ _ _ E1), bind_seekable, HK. cbn [negb]. exists s, w, b. split; [reflexivity|]. split; [reflexivity|]. auto.
Qed.

Section Run.
  Variables (s0 : segment) (known strict : bool).
  Hypothesis Hr : ready s0.
  Hypothesis HB : room s0 [] < 2 ^ 55.
  Hypothesis Hlive : sg_live s0 = false.

  Notation I0 := (i2 s0 known).
  Definition AC := all_closed I0 (sh s0 known (u5 s0 known)) (sg_tracks s0) (sg_chapters s0) (sg_tags s0) (sg_accurate s0) (sg_fixed s0) (sg_has_video s0)
    (sg_live s0) known (sg_cues_out_block s0) (sg_estimate s0) (hP s0) (zlen (hE s0) + 4) (sint32 (zlen (hE s0))) (hd0 s0 known) (sg_duration s0) strict.
  Definition IV := Inv I0 (sh s0 known (u5 s0 known)) (sg_tracks s0) (sg_chapters s0) (sg_tags s0) (sg_accurate s0) (sg_fixed s0) (sg_has_video s0)
    (sg_live s0) known (sg_cues_out_block s0) (sg_estimate s0) (hP s0) (zlen (hE s0) + 4) (sint32 (zlen (hE s0))) (hd0 s0 known) (sg_duration s0) strict.

  Lemma ph_known : forall k, ph s0 k = k. Proof. intros k. unfold ph. rewrite Hlive. reflexivity. Qed.
  Lemma scale_I0 : scale I0 = si_timecode_scale (sg_info s0).
  Proof. unfold scale, i2, i1. destruct (ph s0 known); reflexivity. Qed.
  Lemma scale_ok : 1 <= scale I0 < 18446744073709551616.
  Proof.
    rewrite scale_I0. destruct (r_info _ Hr) as (H1 & _ & H2). split; [exact H1|]. unfold info_tree in H2. cbn [values_ok fold_right] in H2.
    destruct H2 as (_ & H2 & _). cbn [uint values_ok leaf_ok] in H2. destruct H2 as (_ & H2). unfold is_u64 in H2. change (2 ^ 64) with 18446744073709551616 in H2. lia.
  Qed.
  Lemma trs_ok : Forall (fun t => 1 <= tk_number t <= 126) (sg_tracks s0). Proof. apply (r_tracks _ Hr). Qed.
  Lemma hP_ok : 0 <= hP s0 < zlen (hd0 s0 known).
  Proof.
    pose proof (front_bound s0 known) as [H1 _]. unfold hd0, hP. rewrite !zlen_app, unknown8_zlen. change (zlen (id_bytes kMkvSegment)) with 4.
    pose proof (zlen_nonneg _ (hE s0)). lia.
  Qed.

  (* the duration in the finished file *)
  Definition dF (d : f64) : f64 := if known then if f64_pos d then d else f64_of_Z 1 else si_duration (sg_info s0).
  Definition hIF (d : f64) : list Z := enc (info_tree (si_set_duration (dF d) (sg_info s0))).

  Lemma one_pos : f64_pos (f64_of_Z 1) = true. Proof. vm_compute. reflexivity. Qed.
  Lemma same_info : si_set_duration (si_duration (sg_info s0)) (sg_info s0) = sg_info s0.
  Proof. destruct (sg_info s0). reflexivity. Qed.

  Lemma SIF_run : forall d w rest, at_end w -> w_seekable w = known ->
    w_file w = hE s0 ++ id_bytes kMkvSegment ++ unknown8 ++ hV s0 known ++ hI s0 known ++ rest ->
    exists w', SegmentInfo_Finalize (si_set_duration d I0) w = Val (true, w') /\ at_end w' /\ w_seekable w' = known /\
      w_file w' = hE s0 ++ id_bytes kMkvSegment ++ unknown8 ++ hV s0 known ++ hIF d ++ rest /\ zlen (hIF d) = zlen (hI s0 known).
  Proof.
    intros d w rest He HK HF. unfold SegmentInfo_Finalize. change (si_duration (si_set_duration d I0)) with d. change (si_duration_pos (si_set_duration d I0)) with (dpos s0 known).
    unfold hIF, dF, hI, i1 in *. rewrite ph_known in *. destruct known eqn:Ek.
    2:{ exists w. rewrite same_info. split; [|auto]. destruct (f64_pos d); cbn [negb]; [|reflexivity]. rewrite bind_seekable, HK. reflexivity. }
    destruct (f64_pos d) eqn:Ed; cbn [negb].
    2:{ exists w. auto. }
    rewrite bind_seekable, HK. cbn [negb].
    destruct (info_split (si_set_duration (f64_of_Z 1) (sg_info s0)) one_pos) as [EA EK].
    destruct (info_split (si_set_duration d (sg_info s0)) Ed) as [EA' EK'].
    set (A := e_master kMkvInfo _ ++ _) in EA. set (A' := e_master kMkvInfo _ ++ _) in EA'.
    assert (AE : A' = A). { unfold A, A'. f_equal. f_equal. rewrite EK, EK', !enc_all_cons, !zlen_app, !dur_leaf_len. reflexivity. }
    rewrite AE in EA'. set (D := enc (dur_leaf (si_set_duration (f64_of_Z 1) (sg_info s0)))) in *. set (D' := enc (dur_leaf (si_set_duration d (sg_info s0)))) in *.
    set (R := enc_all (info_rest (si_set_duration (f64_of_Z 1) (sg_info s0)))) in *. change (enc_all (info_rest (si_set_duration d (sg_info s0)))) with R in EA'.
    assert (DP : dpos s0 true = zlen ((hE s0 ++ id_bytes kMkvSegment ++ unknown8 ++ hV s0 true) ++ A)).
    { unfold dpos, i1. rewrite ph_known. change (f64_pos (si_duration (si_set_duration (f64_of_Z 1) (sg_info s0)))) with true. unfold A, hP. rewrite !zlen_app, unknown8_zlen. change (zlen (id_bytes kMkvSegment)) with 4. lia. }
    assert (DP0 : 0 <= dpos s0 true) by (rewrite DP; apply zlen_nonneg). replace (dpos s0 true =? -1) with false by lia. rewrite bind_position.
    destruct He as [Hn Hp]. destruct (seek_run (dpos s0 true) w Hn) as (w1 & E1 & N1 & F1 & P1 & S1). rewrite (check_status_run _ _ _ _ _ _ E1).
    destruct (run_ser_over (WriteEbmlElementFloat kMkvDuration (f32_of_f64 d)) D' w1 ((hE s0 ++ id_bytes kMkvSegment ++ unknown8 ++ hV s0 true) ++ A) D (R ++ rest))
      as (w2 & E2 & N2 & F2 & P2 & S2); [apply s_float|exact N1|rewrite F1, HF, EA, <- !app_assoc; reflexivity|congruence|unfold D, D'; rewrite !dur_leaf_len; reflexivity|].
    rewrite (check_true_run _ _ _ _ _ _ E2). destruct (seek_run (w_pos w) w2 N2) as (w3 & E3 & N3 & F3 & P3 & S3). rewrite (check_status_run _ _ _ _ _ _ E3).
    exists w3. split; [reflexivity|].
    assert (HL : zlen (enc (info_tree (si_set_duration d (sg_info s0)))) = zlen (enc (info_tree (si_set_duration (f64_of_Z 1) (sg_info s0))))).
    { rewrite EA, EA', !zlen_app. unfold D, D'. rewrite !dur_leaf_len. reflexivity. }
    assert (HF3 : w_file w3 = hE s0 ++ id_bytes kMkvSegment ++ unknown8 ++ hV s0 true ++ enc (info_tree (si_set_duration d (sg_info s0))) ++ rest).
    { rewrite F3, F2, EA', <- !app_assoc. reflexivity. }
    split; [split; [exact N3|rewrite P3, Hp, HF3, HF, !zlen_app, HL; reflexivity]|]. split; [congruence|]. split; [exact HF3|exact HL].
  Qed.

  (* ---------- clusters and cues ---------- *)

  Notation CA := (closed_all I0 (sg_fixed s0) known).
  Notation DA := (done_all I0 (sg_accurate s0) (sg_fixed s0) known (hP s0) (hd0 s0 known)).
  Notation DG := (done_grp I0 (sg_accurate s0) (sg_fixed s0) (hP s0)).
  Notation CO := (cue_ok I0 (sg_accurate s0) (sg_cues_out_block s0)).

  Lemma closed_app : forall B R, CA (B ++ R) = CA R ++ CA B.
  Proof.
    induction B as [|[[c fs] ad] B IH]; intros R; cbn [app closed_all]; [rewrite app_nil_r; reflexivity|]. rewrite IH, app_assoc. reflexivity.
  Qed.
  Lemma done_split : forall G g, DA G -> In g G -> exists B R, G = B ++ g :: R /\ DG (hd0 s0 known ++ CA R) g.
  Proof.
    induction G as [|x G IH]; intros g HD HI; [destruct HI|]. destruct HD as [H1 H2]. destruct HI as [->|HI].
    - exists [], G. split; [reflexivity|exact H1].
    - destruct (IH g H2 HI) as (B & R & -> & H). exists (x :: B), R. split; [reflexivity|exact H].
  Qed.
  Lemma hd0_len : zlen (hd0 s0 known) = hP s0 + zlen (front s0 known).
  Proof. unfold hd0, hP. rewrite !zlen_app, unknown8_zlen. change (zlen (id_bytes kMkvSegment)) with 4. lia. Qed.

  Definition frame_of_cue (q : cue_point) (c : cluster) (fs ad : list frame) (g : frame) : Prop :=
    (if sg_accurate s0 then In g ad else 1 <= cue_block_number q /\ nth_error fs (Z.to_nat (cue_block_number q - 1)) = Some g) /\
    fr_track g = cue_track q /\ cue_time q = tcf I0 g.
  Lemma cue_place : forall G q, DA G -> CO G q -> exists B c fs ad R g, G = B ++ (c, fs, ad) :: R /\ DG (hd0 s0 known ++ CA R) (c, fs, ad) /\
    cue_cluster_pos q = zlen (front s0 known) + zlen (CA R) /\ frame_of_cue q c fs ad g /\ good_frame g /\ 0 <= cue_block_number q <= INT_MAX.
  Proof.
    intros G q HD ((_ & HU) & c & fs & ad & g & HI & HP & HF & HT). destruct (done_split G (c, fs, ad) HD HI) as (B & R & EG & HDG).
    exists B, c, fs, ad, R, g. split; [exact EG|]. split; [exact HDG|]. destruct HDG as (HC & _ & Hok & Hoka & _). destruct HC as (_ & _ & _ & _ & HC).
    split; [rewrite HP, HC, zlen_app, hd0_len; lia|]. split; [split; assumption|]. split; [|exact HU].
    unfold stored_ok in *. rewrite Forall_forall in Hok, Hoka. destruct (sg_accurate s0); [apply Hoka; exact HF|]. apply Hok. eapply nth_error_In. apply HF.
  Qed.
  Lemma cue_rep : forall G q, DA G -> CO G q -> zlen (hd0 s0 known ++ CA G) < 2 ^ 55 -> values_ok (cue_tree q) /\ weight (cue_tree q) <= 128 /\ cue_valid q = true.
  Proof.
    intros G q HD HC HL. destruct (cue_place G q HD HC) as (B & c & fs & ad & R & g & EG & HDG & HP & (_ & HT & HTm) & [Hg _] & HU). unfold INT_MAX in HU.
    destruct Hg as (_ & _ & _ & _ & _ & HTr & HTS & _). pose proof (front_bound s0 known) as [HF1 _].
    assert (HLE : zlen (CA R) <= zlen (CA G)). { rewrite EG. change (B ++ (c, fs, ad) :: R) with (B ++ [(c, fs, ad)] ++ R). rewrite app_assoc, closed_app, zlen_app. pose proof (zlen_nonneg _ (CA (B ++ [(c, fs, ad)]))). lia. }
    rewrite zlen_app, hd0_len in HL. pose proof (hP_ok) as HPP. pose proof (zlen_nonneg _ (CA R)).
    assert (HTC : 0 <= tcf I0 g < 2 ^ 63). { unfold tcf. pose proof scale_ok as HS. split; [apply Z.div_pos; lia|]. apply Z.le_lt_trans with (fr_timestamp g); [|apply HTS]. apply Z.div_le_upper_bound; [lia|]. nia. }
    split; [|split].
    - unfold cue_tree. rewrite HTm. unfold is_u64 in *. pw. change (2 ^ 64) with 18446744073709551616 in *. change (2 ^ 63) with 9223372036854775808 in *.
      destruct (cue_output_block_number q && (1 <? cue_block_number q)); cbn [opt uint values_ok fold_right leaf_ok]; unfold is_u64; change (2 ^ 64) with 18446744073709551616;
        repeat split; try lia; first [exists 2; split; [lia|vm_compute; split; congruence] | exists 1; split; [lia|vm_compute; split; congruence]].
    - unfold cue_tree. destruct (cue_output_block_number q && (1 <? cue_block_number q)); cbn [opt uint weight fold_right leaf_weight]; lia.
    - unfold cue_valid. lia.
  Qed.
  Lemma cue_read : forall G q, DA G -> CO G q -> zlen (hd0 s0 known ++ CA G) < 2 ^ 55 -> readable_cue q.
  Proof.
    intros G q HD HC HL. destruct (cue_place G q HD HC) as (B & c & fs & ad & R & g & EG & HDG & HP & (_ & HT & HTm) & [Hg _] & HU). unfold INT_MAX in HU.
    destruct Hg as (_ & _ & _ & _ & _ & HTr & HTS & _). pose proof (front_bound s0 known) as [HF1 _].
    assert (HLE : zlen (CA R) <= zlen (CA G)). { rewrite EG. change (B ++ (c, fs, ad) :: R) with (B ++ [(c, fs, ad)] ++ R). rewrite app_assoc, closed_app, zlen_app. pose proof (zlen_nonneg _ (CA (B ++ [(c, fs, ad)]))). lia. }
    rewrite zlen_app, hd0_len in HL. pose proof (hP_ok) as HPP. pose proof (zlen_nonneg _ (CA R)).
    assert (HTC : 0 <= tcf I0 g < 2 ^ 63). { unfold tcf. pose proof scale_ok as HS. split; [apply Z.div_pos; lia|]. apply Z.le_lt_trans with (fr_timestamp g); [|apply HTS]. apply Z.div_le_upper_bound; [lia|]. nia. }
    unfold readable_cue. rewrite HTm. pw. change (2 ^ 63) with 9223372036854775808 in *. lia.
  Qed.
  Lemma cues_rep : forall G qs, DA G -> Forall (CO G) qs -> zlen (hd0 s0 known ++ CA G) < 2 ^ 55 -> 128 * zlen qs + 16 < 2 ^ 55 ->
    representable [cues_tree qs] /\ forallb cue_valid qs = true /\ zlen (enc (cues_tree qs)) <= 128 * zlen qs + 16.
  Proof.
    intros G qs HD HQ HL HN.
    assert (H : Forall values_ok (map cue_tree qs) /\ weight_all (map cue_tree qs) <= 128 * zlen qs /\ forallb cue_valid qs = true).
    { clear HN. induction HQ as [|q qs Hq HQ (IH1 & IH2 & IH3)]; [split; [constructor|split; [cbn; lia|reflexivity]]|]. destruct (cue_rep G q HD Hq HL) as (V1 & V2 & V3).
      cbn [map forallb weight_all fold_right]. rewrite zlen_cons, V3, IH3. split; [constructor; assumption|]. split; [unfold weight_all in IH2; lia|reflexivity]. }
    destruct H as (H1 & H2 & H3). assert (HW : weight (cues_tree qs) <= 128 * zlen qs + 16) by (unfold cues_tree; cbn [weight]; unfold weight_all in H2; lia).
    split; [|split; [exact H3|]].
    - apply rep_of; [|lia]. unfold cues_tree. cbn [values_ok]. split; [exists 4; split; [lia|vm_compute; split; congruence]|]. apply values_fold. exact H1.
    - pose proof (enc_weight (cues_tree qs)). lia.
  Qed.

  (* ---------- the end of the file ---------- *)

  (* seek entries and bytes of the cues *)
  Definition uF (out : bool) (G : list grp) : list (Z * Z) :=
    u5 s0 known ++ (if out then [(kMkvCues, zlen (front s0 known) + zlen (CA G))] else []).
  Definition hQ (out : bool) (qs : list cue_point) : list Z := if out then enc (cues_tree qs) else [].
  Definition frontF (sv : list Z) (d : f64) : list Z := sv ++ hIF d ++ hT s0 ++ hC s0 ++ hG s0.
  Record final_file (w : wstate) (out : bool) (qs : list cue_point) (G : list grp) (sv : list Z) (d : f64) : Prop := mkFF {
    ff_file : w_file w = hE s0 ++ id_bytes kMkvSegment ++ (if known then vint 8 (zlen (frontF sv d ++ CA G ++ hQ out qs)) else unknown8) ++
                          frontF sv d ++ CA G ++ hQ out qs;
    ff_front : zlen (frontF sv d) = zlen (front s0 known);
    ff_seek : if known then zlen sv = 110 /\ exists vp void, sv = enc (seek_head_tree (uF out G)) ++ void /\ is_element kMkvVoid (repeat 0 vp) void else sv = [];
    ff_seek_ok : seek_ok (uF out G);
    ff_small : zlen (frontF sv d ++ CA G ++ hQ out qs) < 2 ^ 55
  }.

  Lemma u5_seek_ok : forall out G, zlen (front s0 known) + zlen (CA G) < 2 ^ 55 -> (length (uF out G) <= 5)%nat -> used_ok (uF out G) /\ seek_ok (uF out G).
  Proof.
    intros out G HL H5. pose proof (zlen_nonneg _ (CA G)) as N0. unfold front in HL. rewrite !zlen_app in HL.
    pose proof (zlen_nonneg _ (hV s0 known)) as N1. pose proof (zlen_nonneg _ (hI s0 known)) as N2. pose proof (zlen_nonneg _ (hT s0)) as N3. pose proof (zlen_nonneg _ (hC s0)) as N4. pose proof (zlen_nonneg _ (hG s0)) as N5.
    assert (H : Forall (fun e : Z * Z => 1 <= fst e < 2 ^ 32 /\ 0 <= snd e < 2 ^ 56) (uF out G)).
    { unfold uF, u5, u4, u3, u2. change (2 ^ 32) with 4294967296. change (2 ^ 56) with 72057594037927936. pw. unfold front. rewrite !zlen_app.
      rewrite !Forall_app. split; [split; [split; [split|]|]|].
      - repeat constructor; cbn [fst snd]; unfold kMkvInfo, kMkvTracks; lia.
      - destruct (sg_chapters s0); repeat constructor; cbn [fst snd]; unfold kMkvChapters; lia.
      - destruct (sg_tags s0); repeat constructor; cbn [fst snd]; unfold kMkvTags; lia.
      - repeat constructor; cbn [fst snd]; unfold kMkvCluster; lia.
      - destruct out; repeat constructor; cbn [fst snd]; unfold kMkvCues; lia. }
    split; [eapply Forall_impl; [|exact H]; intros e [He _]; lia|]. split; [|exact H]. split; [|exact H5].
    unfold uF. rewrite app_length, len5. lia.
  Qed.

  (* the segment itself when the file is finished *)
  Record final_seg (s : segment) (out : bool) (qs : list cue_point) (G : list grp) : Prop := mkFG {
    fg_cues : sg_cues s = qs; fg_clusters : sg_clusters s = map g_cl G; fg_seek : sg_seek s = sh s0 known (uF out G);
    fg_pp : sg_payload_pos s = hP s0; fg_sp : sg_size_pos s = zlen (hE s0) + 4;
    fg_end : sg_cluster_end s = hP s0 + zlen (front s0 known) + zlen (CA G)
  }.

  Lemma fin2_run : forall s w A G, AC s w A G -> zlen (w_file w) + 128 * zlen A + 16 < 2 ^ 55 ->
    exists b s' w', fin2 s w = Val ((b, s'), w') /\
      (b = false <-> sg_output_cues s = true /\ length (u5 s0 known) = 5%nat) /\
      (b = true -> at_end w' /\ final_seg s' (sg_output_cues s) (sg_cues s) G /\ exists sv d, final_file w' (sg_output_cues s) (sg_cues s) G sv d).
  Proof.
    intros s w A G HA HL. pose proof HA as [A1 A2 A3 A4 A5 A6 A7 A8 A9 A10 A11 A12]. pose proof A1 as [C1 C2 C3 C4 C5 C6 C7 C8 C9 C10 C11 C12 C13 C14 C15 C16 C17 C18].
    unfold fin2. rewrite C10, Hlive.
    destruct (segment_duration_ok s A6 A7) as (d & Ed). { rewrite C4. apply tracks_le; apply (r_tracks _ Hr). }
    unfold lift at 1. unfold bind at 1. rewrite Ed. cbv zeta.
    assert (FS : fin_state s (sh s0 known (u5 s0 known)) (hP s0) (zlen (hE s0) + 4) (sg_output_cues s) (sg_cues s)) by (constructor; assumption || reflexivity).
    rewrite f_info_info, C2. pose proof (fs_info _ _ _ _ _ _ (si_set_duration d I0) FS) as FSA. clear FS.
    assert (KA : sg_clusters (sg_set_info (si_set_duration d I0) s) = map g_cl G) by exact A12.
    set (sA := sg_set_info (si_set_duration d I0) s) in *. clearbody sA.
    set (rest := hT s0 ++ hC s0 ++ hG s0 ++ CA G).
    destruct (SIF_run d w rest A3 A4) as (w1 & E1 & He1 & K1 & F1 & L1).
    { rewrite A2. unfold hd0, front, rest. rewrite <- !app_assoc. reflexivity. }
    rewrite (check_true_run _ _ _ _ _ _ E1). rewrite (fs_out _ _ _ _ _ _ FSA).
    assert (HP1 : w_pos w1 - hP s0 = zlen (front s0 known) + zlen (CA G)).
    { rewrite (rel_pos s0 w1 (hV s0 known ++ hIF d ++ rest) He1 F1). unfold rest, front. rewrite !zlen_app, L1. lz. }
    rewrite A2 in HL. rewrite zlen_app, hd0_len in HL. pose proof (zlen_nonneg _ (CA G)) as N0. pose proof (zlen_nonneg _ A) as NA. pose proof (front_bound s0 known) as [NF _].
    pose proof hP_ok as NP. pw.
    set (out := sg_output_cues s) in *.
    (* the entry for the cues *)
    destruct (out && (length (u5 s0 known) =? 5)%nat) eqn:EO.
    { apply andb_true_iff in EO as [EO1 EO2]. apply Nat.eqb_eq in EO2. rewrite EO1.
      assert (EF : seek_entry_here sA kMkvCues w1 = Val ((false, sg_set_seek (sh s0 known (u5 s0 known)) sA), w1)).
      { unfold seek_entry_here, MaxOffset. rewrite bind_assoc, bind_position, bind_ret. unfold AddSeekEntry. rewrite (fs_seek _ _ _ _ _ _ FSA). unfold sh. cbn [sh_entries].
        rewrite add_entry_full by (apply used5 || exact EO2). reflexivity. }
      rewrite (bind_run _ _ _ _ _ _ _ EF). cbn [negb]. eexists false, _, w1. split; [reflexivity|]. split; [split; [intros _; split; [reflexivity|exact EO2]|reflexivity]|discriminate]. }
    assert (HNF : out = true -> (length (u5 s0 known) < 5)%nat).
    { intros X. rewrite X in EO. cbn [andb] in EO. apply Nat.eqb_neq in EO. pose proof (len5 s0 known) as X5. clear - EO X5. destruct (sg_chapters s0), (sg_tags s0); lia. }
    assert (HUL : (length (uF out G) <= 5)%nat).
    { unfold uF. rewrite app_length. destruct out; cbn [length]; [specialize (HNF eq_refl); lz|]. rewrite len5. destruct (sg_chapters s0), (sg_tags s0); lz. }
    destruct (u5_seek_ok out G ltac:(pw; lz) HUL) as [HUO HSO].
    assert (HS2 : exists sB, (if out then seek_entry_here sA kMkvCues else ret (true, sA)) w1 = Val ((true, sB), w1) /\
      fin_state sB (sh s0 known (uF out G)) (hP s0) (zlen (hE s0) + 4) out (sg_cues s) /\ sg_clusters sB = map g_cl G).
    { unfold uF. destruct out eqn:Eout.
      - eexists. split.
        + apply (seek_here_run sA (u5 s0 known) (start0 s0 known) kMkvCues w1); [apply (fs_seek _ _ _ _ _ _ FSA)|apply used5|apply HNF; reflexivity|].
          rewrite (fs_pp _ _ _ _ _ _ FSA), HP1. pw. lz.
        + rewrite (fs_pp _ _ _ _ _ _ FSA), HP1. split; [apply (fs_set_seek _ _ _ _ _ _ _ FSA)|exact KA].
      - exists sA. rewrite app_nil_r. split; [reflexivity|split; [exact FSA|exact KA]]. }
    destruct HS2 as (sB & E2 & FSB & KB). rewrite (bind_run _ _ _ _ _ _ _ E2). cbn [negb]. rewrite bind_position. cbv zeta.
    pose proof (fs_end _ _ _ _ _ _ (w_pos w1) FSB) as FSC. assert (KC : sg_clusters (sg_set_cluster_end (w_pos w1) sB) = map g_cl G /\ sg_cluster_end (sg_set_cluster_end (w_pos w1) sB) = w_pos w1) by (split; [exact KB|reflexivity]).
    set (sC := sg_set_cluster_end (w_pos w1) sB) in *. clearbody sC.
    rewrite (fs_out _ _ _ _ _ _ FSC), (fs_cues _ _ _ _ _ _ FSC).
    (* the cues *)
    destruct (cues_rep G (sg_cues s) A5 A8) as (RC & VC & LC). { rewrite zlen_app, hd0_len. pw. lz. } { pw. lz. }
    assert (HS3 : exists w2, (if out then Cues_Write (sg_cues s) else ret true) w1 = Val (true, w2) /\ appended w1 (hQ out (sg_cues s)) w2).
    { unfold hQ. destruct out; [|exists w1; split; [reflexivity|apply appended_nil; exact He1]].
      destruct (run_ser_v _ _ _ w1 (cues_ser _ RC) VC He1) as (w2 & X1 & X2). exists w2. auto. }
    destruct HS3 as (w2 & E3 & A3'). rewrite (check_true_run _ _ _ _ _ _ E3). destruct A3' as (He2 & F2 & K2). rewrite F1 in F2.
    assert (LQ : 0 <= zlen (hQ out (sg_cues s)) <= 128 * zlen (sg_cues s) + 16).
    { unfold hQ. pose proof (zlen_nonneg _ (sg_cues s)). destruct out; [split; [apply zlen_nonneg|exact LC]|rewrite zlen_nil; lz]. }
    set (body1 := hIF d ++ rest ++ hQ out (sg_cues s)). set (body0 := hV s0 known ++ body1).
    assert (HB0 : zlen body0 = zlen (front s0 known) + zlen (CA G) + zlen (hQ out (sg_cues s))).
    { unfold body0, body1, rest, front. rewrite !zlen_app, L1. lz. }
    assert (FSC' : fin_state sC (mkSH (pad5 (uF out G)) (if known then zlen (hE s0) + 12 else 0)) (zlen (hE s0) + 12) (zlen (hE s0) + 4) out (sg_cues s)).
    { unfold sh, start0 in FSC. rewrite ph_known in FSC. exact FSC. }
    destruct (fin3_run sC w2 (uF out G) (hE s0) body0 (hV s0 known) body1 known out (sg_cues s) FSC' HUO HSO He2) as (s3 & w3 & sv & E4 & ES3 & F3 & He3 & K3 & LS & SV).
    { congruence. } { rewrite F2. unfold body1. rewrite <- !app_assoc. reflexivity. } { reflexivity. }
    { intros X. rewrite hV_len, ph_known, X. reflexivity. } { pw. lz. }
    exists true, s3, w3. split; [exact E4|]. split; [split; [discriminate|]|].
    { intros [X1 X2]. rewrite X1 in EO. apply Nat.eqb_eq in X2. rewrite X2 in EO. discriminate. }
    intros _. split; [exact He3|]. split.
    { subst s3. destruct FSC as [G1 G2 G3 G4 G5 G6 G7]. destruct KC as [KC1 KC2]. constructor; try assumption. rewrite KC2. clear - HP1. lia. }
    exists sv, d.
    assert (EB : zlen (frontF sv d ++ CA G ++ hQ out (sg_cues s)) = zlen body0).
    { rewrite HB0. unfold frontF, front. rewrite !zlen_app, LS, L1. lz. }
    constructor.
    - rewrite EB, F3. unfold body1, rest, frontF. rewrite <- !app_assoc. reflexivity.
    - unfold frontF, front. rewrite !zlen_app, LS, L1. reflexivity.
    - destruct known; [|rewrite SV; unfold hV; rewrite ph_known; reflexivity]. split; [rewrite LS, hV_len, ph_known; reflexivity|exact SV].
    - exact HSO.
    - rewrite EB. pw. lz.
  Qed.

  (* ---------- the first part of Finalize ---------- *)

  Lemma fin1_run : forall s w A C G q st, needs_strict (sg_accurate s0) strict -> IV s w A C G q st -> zlen A <= INT_MAX -> zlen (hd0 s0 known) + weights C < 2 ^ 55 ->
    exists b s' w', fin1 s w = Val ((b, s'), w') /\ (G <> [] -> started G st \/ q <> [] -> b = true) /\
      (b = true -> exists G', AC s' w' A G' /\ (G <> [] -> G' <> []) /\ sg_output_cues s' = sg_output_cues s /\ zlen (w_file w') <= zlen (hd0 s0 known) + weights C).
  Proof.
    intros s w A C G q st Hacc HI Hn Hb. pose proof (i_core _ _ _ _ _ _ _ _ _ _ _ _ _ _ _ _ _ _ _ _ _ _ _ _ _ HI) as HC.
    pose proof (k_cfg _ _ _ _ _ _ _ _ _ _ _ _ _ _ _ _ _ _ _ _ _ HC) as HCF. pose proof (k_clusters _ _ _ _ _ _ _ _ _ _ _ _ _ _ _ _ _ _ _ _ _ HC) as HCL.
    pose proof (i_alloc _ _ _ _ _ _ _ _ _ _ _ _ _ _ _ _ _ _ _ _ _ _ _ _ _ HI) as HAL. pose proof (i_frames _ _ _ _ _ _ _ _ _ _ _ _ _ _ _ _ _ _ _ _ _ _ _ _ _ HI) as HFR.
    pose proof (c_live _ _ _ _ _ _ _ _ _ _ _ _ _ _ _ _ HCF) as HLV. rewrite Hlive in HLV.
    pose proof (k_shape _ _ _ _ _ _ _ _ _ _ _ _ _ _ _ _ _ _ _ _ _ HC) as HSH.
    unfold fin1. destruct G as [|[[c fs] ad] R].
    - unfold WriteFramesAll. destruct (sg_frames_alloc s) eqn:EA; cbn [negb].
      + rewrite HCL. cbn [map]. rewrite bind_ret. change (-1 <? 0) with true. eexists false, _, w. split; [reflexivity|]. split; [congruence|discriminate].
      + assert (q = []) as -> by (destruct q; [reflexivity|specialize (HAL ltac:(discriminate)); discriminate]).
        rewrite bind_ret. change (0 <? 0) with false. rewrite HLV. cbn [negb orb]. rewrite HCL. cbn [map]. exists true, s, w. split; [reflexivity|]. split; [congruence|].
        intros _. exists []. destruct HSH as (H1 & H2 & H3).
        split; [|split; [auto|split; [reflexivity|]]].
        * constructor; try assumption; try apply HC.
          -- rewrite H1. cbn [closed_all]. rewrite app_nil_r. reflexivity.
          -- exact I.
          -- pose proof (k_ncue _ _ _ _ _ _ _ _ _ _ _ _ _ _ _ _ _ _ _ _ _ HC) as X. cbn [addeds] in X. rewrite zlen_nil in X. pose proof (zlen_nonneg _ A). lz.
          -- pose proof (i_ret _ _ _ _ _ _ _ _ _ _ _ _ _ _ _ _ _ _ _ _ _ _ _ _ _ HI) as X. exact X.
          -- intros HS. destruct (i_strict _ _ _ _ _ _ _ _ _ _ _ _ _ _ _ _ _ _ _ _ _ _ _ _ _ HI HS) as (X1 & X2 & _). split; assumption.
          -- intros _. split; constructor.
        * pose proof (i_budget _ _ _ _ _ _ _ _ _ _ _ _ _ _ _ _ _ _ _ _ _ _ _ _ _ HI) as X. rewrite H3 in X. change (held_weight []) with 0 in X. change (weights []) with 0 in X. lz.
    - assert (HDEC : (started ((c, fs, ad) :: R) st \/ q <> []) \/ (q = [] /\ cl_header c = false /\ st = [])).
      { cbn [started]. destruct q; [|left; right; discriminate]. destruct (cl_header c); [left; left; left; reflexivity|]. destruct st; [right; auto|left; left; right; discriminate]. }
      destruct HDEC as [HS|(-> & HH & ->)].
      + destruct (FC_run _ _ _ _ _ _ _ _ _ _ _ _ _ _ _ _ _ _ scale_ok Hacc hP_ok s w A C _ q st HI ltac:(discriminate) HS Hn Hb)
          as (n & s1 & w1 & c1 & r & c' & w2 & G' & E1 & Hn1 & EC & E2 & HA & HO & HL & HNE).
        rewrite (bind_run _ _ _ _ _ _ _ E1). replace (n <? 0) with false by lz.
        pose proof (a_cfg _ _ _ _ _ _ _ _ _ _ _ _ _ _ _ _ _ _ _ _ _ _ HA) as HCF1. pose proof (c_live _ _ _ _ _ _ _ _ _ _ _ _ _ _ _ _ HCF1) as HLV1. rewrite Hlive in HLV1.
        change (sg_live (set_cluster c' s1)) with (sg_live s1) in HLV1. rewrite HLV1. cbn [negb orb]. rewrite EC, (bind_run _ _ _ _ _ _ _ E2).
        eexists true, _, w2. split; [reflexivity|]. split; [auto|]. intros _. exists G'. split; [exact HA|]. split; [auto|split; [exact HO|exact HL]].
      + assert (E1 : exists n s1, WriteFramesAll s w = Val ((n, s1), w) /\ 0 <= n /\ sg_clusters s1 = map g_cl ((c, fs, ad) :: R) /\ sg_live s1 = false).
        { unfold WriteFramesAll. destruct (sg_frames_alloc s); cbn [negb]; [|exists 0, s; repeat split; auto; lz].
          rewrite HCL. cbn [map]. rewrite HFR. cbn [map write_all_loop]. rewrite bind_ret. exists 0, (sg_set_frames [] s). split; [reflexivity|]. split; [lz|]. split; [exact HCL|exact HLV]. }
        destruct E1 as (n & s1 & E1 & Hn1 & EC & HL1). rewrite (bind_run _ _ _ _ _ _ _ E1). replace (n <? 0) with false by lz. rewrite HL1. cbn [negb orb]. rewrite EC. cbn [map].
        change (g_cl (c, fs, ad)) with c. rewrite (bind_run _ _ _ _ _ _ _ (CF_stuck _ _ _ _ _ _ _ _ _ _ _ _ false 0 HSH HH eq_refl)).
        eexists false, _, w. split; [reflexivity|]. split; [|discriminate]. intros _ [[X|X]|X]; congruence.
  Qed.

  (* ---------- the calls ---------- *)

  Lemma IV_start : forall w, at_end w -> w_file w = hd0 s0 known -> w_seekable w = known -> IV (after_check s0 known) w [] [] [] [] [].
  Proof.
    intros w He HF HK. constructor.
    - constructor.
      + constructor; try reflexivity. exact (r_dtv _ Hr).
      + exact HK.
      + exact (r_clusters _ Hr).
      + split; [exact HF|]. split; [exact He|reflexivity].
      + exact (r_arr1 _ Hr).
      + exact (r_arr2 _ Hr).
      + change (sg_cues (after_check s0 known)) with (sg_cues s0). rewrite (r_cues _ Hr). constructor.
      + change (sg_cues (after_check s0 known)) with (sg_cues s0). rewrite (r_cues _ Hr). cbn. lia.
    - exact (r_frames _ Hr).
    - congruence.
    - constructor.
    - exact I.
    - constructor.
    - rewrite HF. change (held_weight []) with 0. change (weights []) with 0. lia.
    - intros _. split; [constructor|]. split; [constructor|]. split; [constructor|]. split; [|constructor].
      intros b Hb0 _. change (sg_last_ts (after_check s0 known)) with (sg_last_ts s0). rewrite (r_last _ Hr). exact Hb0.
    - constructor.
    - constructor.
    - constructor.
    - intros _. split; [constructor|split; [constructor|exact I]].
  Qed.

  (* options do not matter *)
  Definition same_but_options (s s' : segment) : Prop :=
    exists f o t d z, s' = sg_set_force f (sg_set_output_cues o (sg_set_cues_track t (sg_set_max_dur d (sg_set_max_size z s)))).
  Lemma IV_options : forall s s' w A C G q st, IV s w A C G q st -> same_but_options s s' -> IV s' w A C G q st.
  Proof.
    intros s s' w A C G q st HI (f & o & t & d & z & ->). destruct HI as [K F AL GD FI RT BU ST LE HE LA OR]. constructor; try assumption.
    destruct K as [CF K2 K3 K4 K5 K6 K7 K8]. constructor; try assumption. destruct CF. constructor; assumption.
  Qed.
  Lemma sbo_force : forall s v, same_but_options s (sg_set_force v s).
  Proof. intros s v. exists v, (sg_output_cues s), (sg_cues_track s), (sg_max_dur s), (sg_max_size s). destruct s. reflexivity. Qed.
  Lemma sbo_out : forall s v, same_but_options s (sg_set_output_cues v s).
  Proof. intros s v. exists (sg_force s), v, (sg_cues_track s), (sg_max_dur s), (sg_max_size s). destruct s. reflexivity. Qed.
  Lemma sbo_cues : forall s n, same_but_options s (snd (CuesTrack s n)).
  Proof.
    intros s v. unfold CuesTrack. destruct (present _); cbn [snd].
    - exists (sg_force s), (sg_output_cues s), v, (sg_max_dur s), (sg_max_size s). destruct s. reflexivity.
    - exists (sg_force s), (sg_output_cues s), (sg_cues_track s), (sg_max_dur s), (sg_max_size s). destruct s. reflexivity.
  Qed.
  Lemma sbo_dur : forall s v, same_but_options s (sg_set_max_dur v s).
  Proof. intros s v. exists (sg_force s), (sg_output_cues s), (sg_cues_track s), v, (sg_max_size s). destruct s. reflexivity. Qed.
  Lemma sbo_size : forall s v, same_but_options s (sg_set_max_size v s).
  Proof. intros s v. exists (sg_force s), (sg_output_cues s), (sg_cues_track s), (sg_max_dur s), v. destruct s. reflexivity. Qed.

  (* what is known of the frames to come *)
  Definition fr_ok (f : frame) : Prop := frame_args f /\ (held_back s0 f = true -> IsValid f = true).
  Definition all_steady (A : list frame) (fs : list frame) : Prop := steady s0 (A ++ fs) /\ Forall (can_write s0) fs.

  Lemma steady_arrives : forall s w A C G q st f fs, IV s w A C G q st -> (strict = true -> all_steady A (f :: fs)) -> fr_ok f -> needs_strict (sg_accurate s0) strict ->
    arrives I0 (sg_tracks s0) (sg_accurate s0) (sg_has_video s0) strict A G q f /\ (strict = true -> gapok I0 G q (fr_timestamp f)).
  Proof.
    intros s w A C G q st f fs HI HS [HF1 HF2] Hacc.
    assert (HG : strict = true -> (match q with [] => True | x :: _ => tcf I0 f - tcf I0 (match G with [] => x | _ => last q x end) <= 32767 end) /\
      Forall (fun a => fr_timestamp a <= fr_timestamp f) A).
    { intros HX. destruct (HS HX) as [(S1 & S2 & S3) _]. destruct (i_strict _ _ _ _ _ _ _ _ _ _ _ _ _ _ _ _ _ _ _ _ _ _ _ _ _ HI HX) as (L1 & L2 & _ & _ & _).
      pose proof (i_lead _ _ _ _ _ _ _ _ _ _ _ _ _ _ _ _ _ _ _ _ _ _ _ _ _ HI) as HL. split.
      - destruct q as [|x q]; [exact I|]. unfold tcf. rewrite scale_I0.
        assert (HNE : A <> []). { intros ->. inversion L1 as [X|]. destruct (addeds G); discriminate. }
        destruct G as [|g G].
        + cbn [addeds app] in L1. destruct A as [|a A]; [congruence|]. inversion L1 as [|? ? ? ? Hc ? E1 E2]; subst.
          assert (ET : fr_timestamp x = fr_timestamp a) by apply Hc. rewrite ET. apply (S3 a A f fs); [reflexivity|]. apply HL. reflexivity.
        + destruct (exists_last HNE) as (A' & a & ->). rewrite <- app_assoc in S2. 
          assert (ET : fr_timestamp (last (x :: q) x) = fr_timestamp a).
          { assert (HN2 : x :: q <> []) by discriminate. destruct (exists_last HN2) as (q' & y & EQ). rewrite EQ in L1 |- *. rewrite last_last. rewrite app_assoc in L1.
            apply Forall2_app_inv_l in L1 as (l1 & l2 & X1 & X2 & X3). inversion X2 as [|? ? ? ? Hc X4]; subst. inversion X4; subst. apply app_inj_tail in X3 as [_ X3]. subst. apply Hc. }
          rewrite ET. apply (S2 A' a f fs). reflexivity.
      - apply sorted_app in S1 as (_ & _ & S1). apply Forall_forall. intros a Ha. apply S1; [exact Ha|left; reflexivity]. }
    assert (HGK : strict = true -> gapok I0 G q (fr_timestamp f)). { intros HX. destruct (HG HX) as [H1 _]. unfold gapok. destruct q; [exact I|]. exact H1. }
    split; [|exact HGK]. constructor; auto.
    - intros HX. apply (HG HX).
    - intros HX HW HN HQ. destruct (HG HX) as [H1 _]. destruct q as [|x q]; [congruence|]. rewrite HN in H1. exact H1.
  Qed.

  Lemma given_cons : forall f cs, given (AddF f :: cs) = f :: given cs. Proof. reflexivity. Qed.

  Lemma writable_of : forall f, can_write s0 f -> writable (sg_tracks s0) (sg_has_video s0) f.
  Proof.
    intros f (H1 & H2 & H3). split; [|split; [exact H2|exact H3]]. unfold GetTrackByNumber.
    apply existsb_exists in H1 as (t & Ht & E). destruct (find (fun t0 => tk_number t0 =? fr_track f) (sg_tracks s0)) eqn:EF; [reflexivity|].
    eapply find_none in EF; [|exact Ht]. cbv beta in EF. congruence.
  Qed.

  Definition in_order (a b : frame) : Prop := held_back s0 a = true \/ fr_timestamp a <= fr_timestamp b.
  Lemma fop_snoc : forall A f, ForallOrdPairs in_order A -> Forall (fun a => in_order a f) A -> ForallOrdPairs in_order (A ++ [f]).
  Proof.
    induction A as [|a A IH]; intros f H HF; cbn [app]; [repeat constructor|]. inversion H; subst. inversion HF; subst. constructor; [|auto]. apply Forall_app. split; [assumption|]. constructor; [assumption|constructor].
  Qed.
  Lemma calls_run : needs_strict (sg_accurate s0) strict -> forall cs s w A C G q st, IV s w A C G q st -> Forall fr_ok (given cs) ->
    (strict = true -> all_steady A (given cs) /\ started G st) -> zlen A + zlen (given cs) < INT_MAX -> zlen (hd0 s0 known) + weights (C ++ given cs) < 2 ^ 55 ->
    exists h s' w' G' q' st', run_calls cs s w = Val ((h, s'), w') /\ map fst h = given cs /\ IV s' w' (A ++ accepted h) (C ++ given cs) G' q' st' /\
      (strict = true -> accepted h = given cs /\ started G' st') /\
      (ForallOrdPairs in_order A -> ForallOrdPairs in_order (A ++ accepted h)).
  Proof.
    intros Hacc. induction cs as [|c cs IH]; intros s w A C G q st HI HF HS HN HB2.
    - exists [], s, w, G, q, st. split; [reflexivity|]. split; [reflexivity|]. cbn [given flat_map accepted filter map]. rewrite !app_nil_r. split; [exact HI|]. split; [|auto]. intros HX. split; [reflexivity|apply HS; exact HX].
    - destruct c as [f| |b|n|n|n].
      + rewrite given_cons in *. inversion HF as [|? ? HF1 HF2]; subst.
        destruct (steady_arrives s w A C G q st f (given cs) HI (fun HX => proj1 (HS HX)) HF1 Hacc) as [HA HGK].
        rewrite zlen_cons in HN. pose proof (zlen_nonneg _ (given cs)). pose proof (zlen_nonneg _ A).
        assert (HW1 : zlen (hd0 s0 known) + weights (C ++ [f]) < 2 ^ 55).
        { change (f :: given cs) with ([f] ++ given cs) in HB2. rewrite app_assoc, weights_app in HB2. pose proof (weights_nonneg (given cs)). lz. }
        destruct (AGF_run _ _ _ _ _ _ _ _ _ _ _ _ _ _ _ _ _ _ scale_ok trs_ok Hacc hP_ok s w A C G q st f HI HA ltac:(lz) HW1) as (b & s1 & w1 & G1 & q1 & st1 & E1 & HI1 & HB1 & HLT).
        destruct (IH s1 w1 (if b then A ++ [f] else A) (C ++ [f]) G1 q1 st1 HI1 HF2) as (h & s' & w' & G' & q' & st' & E2 & HM & HI' & HSt & HOP).
        { intros HX. destruct (HS HX) as [[HS1 HS2] HS3]. inversion HS2; subst. destruct (HB1 HX (writable_of f ltac:(assumption)) (HGK HX) HS3) as [-> HST].
          split; [|exact HST]. split; [|assumption]. rewrite <- app_assoc. exact HS1. }
        { destruct b; [rewrite zlen_app; change (zlen [f]) with 1|]; lz. }
        { rewrite <- app_assoc. exact HB2. }
        exists ((f, b) :: h), s', w', G', q', st'. split; [cbn [run_calls]; rewrite (bind_run _ _ _ _ _ _ _ E1); cbn [fst snd]; rewrite (bind_run _ _ _ _ _ _ _ E2); reflexivity|].
        split; [cbn [map fst]; rewrite HM; reflexivity|]. unfold accepted in *. cbn [filter snd].
        split.
        * replace (C ++ f :: given cs) with ((C ++ [f]) ++ given cs) by (rewrite <- app_assoc; reflexivity). destruct b; [|exact HI'].
          cbn [map fst]. replace (A ++ f :: map fst (filter snd h)) with ((A ++ [f]) ++ map fst (filter snd h)) by (rewrite <- app_assoc; reflexivity). exact HI'.
        * split; [|intros HO; destruct b; [|exact (HOP HO)]; cbn [map fst]; change (f :: map fst (filter snd h)) with ([f] ++ map fst (filter snd h)); rewrite app_assoc; apply HOP;
            apply fop_snoc; [exact HO|]; eapply Forall_impl; [|apply (i_last _ _ _ _ _ _ _ _ _ _ _ _ _ _ _ _ _ _ _ _ _ _ _ _ _ HI)]; intros a [Ha|Ha]; [left; exact Ha|right; specialize (HLT eq_refl); lz]].
          intros HX. destruct (HS HX) as [[HS1 HS2] HS3]. inversion HS2; subst. destruct (HB1 HX (writable_of f ltac:(assumption)) (HGK HX) HS3) as [-> _].
          destruct (HSt HX) as [HE HST]. split; [cbn [map fst]; rewrite HE; reflexivity|exact HST].
      + apply (IH _ w A C G q st); try assumption. eapply IV_options; [exact HI|apply sbo_force].
      + apply (IH _ w A C G q st); try assumption. eapply IV_options; [exact HI|apply sbo_out].
      + apply (IH _ w A C G q st); try assumption. eapply IV_options; [exact HI|apply sbo_cues].
      + apply (IH _ w A C G q st); try assumption. eapply IV_options; [exact HI|apply sbo_dur].
      + apply (IH _ w A C G q st); try assumption. eapply IV_options; [exact HI|apply sbo_size].
  Qed.
End Run.
