(* Clusters of the muxer on a writer that does not fail: what is in the file. *)
From Coq Require Import ZifyBool ZifyNat.
From Verif Require Import Base EbmlSpec MWriter WriterSpec PWriter MMuxUtil PMuxUtil Ids LacingSpec MMuxBlock BlockSpec
  PMuxBlock MMuxMeta MMuxSegment PSegRun.

(* ---------- bytes of clusters ---------- *)

Definition frame_weight (f : frame) : Z :=
  zlen (fr_data f) + match fr_additional f with None => 0 | Some a => zlen a end + 200.
Lemma frame_weight_pos : forall f, 200 <= frame_weight f.
Proof.
  intros f. unfold frame_weight. pose proof (zlen_nonneg _ (fr_data f)).
  destruct (fr_additional f) as [a|]; [pose proof (zlen_nonneg _ a)|]; lia.
Qed.

Lemma frame_bytes_bound : forall f rel scale, 1 <= fr_track f <= 126 ->
  1 <= zlen (frame_bytes f rel scale) <= frame_weight f - 40.
Proof.
  intros f rel scale HT. unfold frame_bytes, frame_weight. pose proof (zlen_nonneg _ (fr_data f)).
  assert (Hadd : 0 <= zlen (adds_bytes f) <= 65 + match fr_additional f with None => 0 | Some a => zlen a end).
  { unfold adds_bytes. destruct (fr_additional f) as [a|]; [|rewrite zlen_nil; lia].
    pose proof (e_buf_bound kMkvBlockAdditions (additions_payload f a)). pose proof (additions_bound f a).
    pose proof (zlen_nonneg _ (additions_payload f a)). lia. }
  assert (Ha : 0 <= match fr_additional f with None => 0 | Some a => zlen a end).
  { destruct (fr_additional f) as [a|]; [apply zlen_nonneg|lia]. }
  destruct (CanBeSimpleBlock f).
  - unfold simple_bytes. pose proof (e_buf_bound kMkvSimpleBlock (content_bytes f rel (simple_flags f))).
    rewrite content_zlen in * by lia. lia.
  - unfold group_bytes. pose proof (e_buf_bound kMkvBlockGroup (group_payload f rel scale)) as HB.
    assert (HG : 0 <= zlen (group_payload f rel scale) <= 136 + zlen (fr_data f) + match fr_additional f with None => 0 | Some a => zlen a end).
    { unfold group_payload. rewrite !zlen_app. pose proof (e_buf_bound kMkvBlock (content_bytes f rel 0)).
      pose proof (disc_bound f). pose proof (ref_bound f scale). pose proof (dur_bound f scale).
      rewrite content_zlen in * by lia. lia. }
    lia.
Qed.

Definition tc_width (fixed : bool) (tc : Z) : Z := if fixed then 8 else GetUIntSize tc.
Definition tc_bytes (fixed : bool) (tc : Z) : list Z := e_uintf kMkvTimecode tc (tc_width fixed tc).
Definition blk (scale tc : Z) (f : frame) : list Z := frame_bytes f (frame_rel f tc scale) scale.
Definition body (scale : Z) (fixed : bool) (tc : Z) (fs : list frame) : list Z :=
  tc_bytes fixed tc ++ flat_map (blk scale tc) fs.
Definition unknown8 : list Z := be_bytes 8 kEbmlUnknownValue.
Definition open_bytes (scale : Z) (fixed : bool) (tc : Z) (fs : list frame) : list Z :=
  id_bytes kMkvCluster ++ unknown8 ++ body scale fixed tc fs.
Definition closed_bytes (known : bool) (scale : Z) (fixed : bool) (tc : Z) (fs : list frame) : list Z :=
  id_bytes kMkvCluster ++ (if known then vint 8 (zlen (body scale fixed tc fs)) else unknown8) ++ body scale fixed tc fs.

Lemma tc_width_range : forall fixed tc, 1 <= tc_width fixed tc <= 8 /\ GetUIntSize tc <= tc_width fixed tc.
Proof. intros fixed tc. unfold tc_width. pose proof (GetUIntSize_range tc). destruct fixed; lia. Qed.
Lemma tc_bytes_zlen : forall (fixed : bool) tc, zlen (tc_bytes fixed tc) =
  EbmlElementSizeUIntFixed kMkvTimecode tc (if fixed then 8 else 0).
Proof.
  intros fixed tc. unfold tc_bytes. pose proof (tc_width_range fixed tc) as [H1 H2]. rewrite e_uintf_zlen by lia.
  unfold tc_width. destruct fixed; [reflexivity|]. unfold EbmlElementSizeUIntFixed.
  pose proof (GetUIntSize_range tc). destruct (Z.gtb_spec (GetUIntSize tc) 0); [reflexivity|lia].
Qed.
Lemma tc_bytes_bound : forall fixed tc, 3 <= zlen (tc_bytes fixed tc) <= 10.
Proof.
  intros fixed tc. unfold tc_bytes, e_uintf. pose proof (tc_width_range fixed tc) as [H1 H2].
  rewrite !zlen_app, id_bytes_zlen, size_bytes_zlen, be_bytes_zlen, GetCodedUIntSize_small by lia.
  change (GetUIntSize kMkvTimecode) with 1. lia.
Qed.
Lemma emits_tc : forall (fixed : bool) tc,
  emits_b (WriteEbmlElementUIntFixed kMkvTimecode tc (if fixed then 8 else 0)) (tc_bytes fixed tc).
Proof.
  intros fixed tc. unfold tc_bytes, tc_width. pose proof (GetUIntSize_range tc).
  destruct fixed; [apply (emits_WriteEbmlElementUIntFixed kMkvTimecode tc 8)|apply (emits_WriteEbmlElementUIntFixed kMkvTimecode tc 0)]; lia.
Qed.
Lemma unknown8_zlen : zlen unknown8 = 8.
Proof. reflexivity. Qed.
Lemma cluster_id_zlen : zlen (id_bytes kMkvCluster) = 4.
Proof. reflexivity. Qed.
Lemma vint8_zlen : forall v, zlen (vint 8 v) = 8.
Proof. intros v. unfold vint. rewrite be_bytes_zlen. reflexivity. Qed.
Lemma open_zlen : forall scale fixed tc fs, zlen (open_bytes scale fixed tc fs) = 12 + zlen (body scale fixed tc fs).
Proof. intros. unfold open_bytes. rewrite !zlen_app, cluster_id_zlen, unknown8_zlen. lia. Qed.
Lemma closed_zlen : forall k scale fixed tc fs, zlen (closed_bytes k scale fixed tc fs) = 12 + zlen (body scale fixed tc fs).
Proof. intros. unfold closed_bytes. rewrite !zlen_app, cluster_id_zlen. destruct k; rewrite ?vint8_zlen, ?unknown8_zlen; lia. Qed.
Lemma body_snoc : forall scale fixed tc fs f, body scale fixed tc (fs ++ [f]) = body scale fixed tc fs ++ blk scale tc f.
Proof. intros. unfold body. rewrite flat_map_app. cbn [flat_map]. rewrite app_nil_r, app_assoc. reflexivity. Qed.
Lemma open_snoc : forall scale fixed tc fs f, open_bytes scale fixed tc (fs ++ [f]) = open_bytes scale fixed tc fs ++ blk scale tc f.
Proof. intros. unfold open_bytes. rewrite body_snoc, <- !app_assoc. reflexivity. Qed.

(* ---------- an open cluster ---------- *)

(* the cluster c has written the frames fs after the file prefix pre *)
Definition open_file (c : cluster) (fs : list frame) (pre : list Z) : list Z :=
  if cl_header c then pre ++ open_bytes (cl_scale c) (cl_fixed c) (cl_tc c) fs else pre.
Record open_cl (c : cluster) (fs : list frame) (pre : list Z) (w : wstate) : Prop := mkOpen {
  oc_fin : cl_finalized c = false;
  oc_blocks : cl_blocks c = zlen fs;
  oc_size_pos : cl_size_pos c = if cl_header c then zlen pre + 4 else -1;
  oc_payload : cl_payload c = if cl_header c then zlen (body (cl_scale c) (cl_fixed c) (cl_tc c) fs) else 0;
  oc_nil : cl_header c = false -> fs = [];
  oc_file : w_file w = open_file c fs pre;
  oc_end : at_end w;
  oc_small : zlen (w_file w) < 2 ^ 55
}.

(* fields that writing a frame does not change *)
Definition same_cfg (c c' : cluster) : Prop :=
  cl_fixed c' = cl_fixed c /\ cl_cues_pos c' = cl_cues_pos c /\ cl_tc c' = cl_tc c /\ cl_scale c' = cl_scale c /\
  cl_write_last c' = cl_write_last c /\ cl_stored c' = cl_stored c.
Lemma same_cfg_refl : forall c, same_cfg c c.
Proof. intros c. repeat split. Qed.
Lemma same_cfg_trans : forall a b c, same_cfg a b -> same_cfg b c -> same_cfg a c.
Proof. unfold same_cfg. intros a b c H1 H2. intuition congruence. Qed.

Ltac pw := change (2 ^ 55) with 36028797018963968 in *; change (2 ^ 56) with 72057594037927936 in *; change (2 ^ 63) with 9223372036854775808 in *.

Lemma PreWriteBlock_run : forall c fs pre w, open_cl c fs pre w -> zlen (w_file w) + 22 < 2 ^ 55 ->
  exists c' w', PreWriteBlock c w = Val ((true, c'), w') /\ open_cl c' fs pre w' /\ cl_header c' = true /\
    same_cfg c c' /\ cl_last_ts c' = cl_last_ts c /\ w_seekable w' = w_seekable w /\
    zlen (w_file w') <= zlen (w_file w) + 22.
Proof.
  intros c fs pre w [Hfin Hbl Hsp Hpl Hnil Hfile Hend Hsm] Hb. unfold PreWriteBlock. rewrite Hfin.
  destruct (cl_header c) eqn:EH; cbn [negb].
  { exists c, w. split; [reflexivity|]. split; [constructor; rewrite ?EH; auto|]. repeat split; auto. lia. }
  unfold WriteClusterHeader. rewrite Hfin.
  destruct (run_st _ _ _ (emits_WriteID kMkvCluster) Hend) as (w1 & E1 & A1).
  rewrite (check_status_run _ _ _ _ _ _ E1), bind_position.
  destruct (run_st _ _ w1 (emits_SerializeInt kEbmlUnknownValue 8 ltac:(lia)) (appended_end _ _ _ A1)) as (w2 & E2 & A2).
  cbv zeta. rewrite (check_status_run _ _ _ _ _ _ E2).
  destruct (run_b _ _ w2 (emits_tc (cl_fixed c) (cl_tc c)) (appended_end _ _ _ A2)) as (w3 & E3 & A3).
  cbn [cl_fixed cl_set_size_pos cl_tc]. rewrite (check_true_run _ _ _ _ _ _ E3). unfold ret.
  pose proof (appended_trans _ _ _ _ _ (appended_trans _ _ _ _ _ A1 A2) A3) as (HE3 & F3 & S3).
  specialize (Hnil eq_refl). subst fs.
  assert (Hfile' : w_file w = pre) by (rewrite Hfile; unfold open_file; rewrite EH; reflexivity).
  assert (F3' : w_file w3 = pre ++ open_bytes (cl_scale c) (cl_fixed c) (cl_tc c) []).
  { rewrite F3, Hfile'. unfold open_bytes, body. cbn [flat_map]. rewrite app_nil_r, <- !app_assoc. reflexivity. }
  assert (HL : zlen (w_file w3) = zlen (w_file w) + 12 + zlen (tc_bytes (cl_fixed c) (cl_tc c))).
  { rewrite F3', Hfile', zlen_app, open_zlen. unfold body. cbn [flat_map]. rewrite app_nil_r. lia. }
  pose proof (tc_bytes_bound (cl_fixed c) (cl_tc c)) as HT.
  eexists; exists w3. split; [reflexivity|].
  split; [|split; [reflexivity|split; [repeat split|split; [reflexivity|split; [exact S3|lia]]]]].
  constructor; cbn [cl_finalized cl_set_header cl_set_payload cl_set_size_pos cl_blocks cl_size_pos cl_header cl_payload cl_scale cl_fixed cl_tc]; auto.
  - pose proof (appended_len _ _ _ A1) as HL1. destruct (appended_end _ _ _ A1) as [_ HP]. rewrite HP, HL1, Hfile', cluster_id_zlen. lia.
  - rewrite Hpl. unfold body. cbn [flat_map]. rewrite app_nil_r, <- tc_bytes_zlen, wrap64_small by lia. lia.
  - lia.
Qed.

(* a valid frame whose time fits is written *)
Lemma DoWriteFrame_run : forall c fs pre w f, open_cl c fs pre w -> frame_ok f -> IsValid f = true ->
  0 <= cl_tc c < 2 ^ 63 -> 1 <= cl_scale c -> 0 <= frame_rel f (cl_tc c) (cl_scale c) <= 32767 ->
  zlen fs < INT_MAX -> zlen (w_file w) + frame_weight f < 2 ^ 55 ->
  exists c' w', DoWriteFrame c f w = Val ((true, c'), w') /\ open_cl c' (fs ++ [f]) pre w' /\ cl_header c' = true /\
    same_cfg c c' /\ cl_last_ts c' = zm_set (fr_track f) (fr_timestamp f) (cl_last_ts c) /\
    w_seekable w' = w_seekable w /\ zlen (w_file w') <= zlen (w_file w) + frame_weight f.
Proof.
  intros c fs pre w f Ho Hok HV Htc Hsc Hrel Hn Hb. unfold DoWriteFrame. rewrite HV. cbn [negb].
  pose proof (frame_weight_pos f) as HW.
  destruct (PreWriteBlock_run _ _ _ _ Ho ltac:(lia)) as (c1 & w1 & E1 & Ho1 & H1 & HC1 & HL1 & S1 & B1).
  rewrite (bind_run _ _ _ _ _ _ _ E1). cbn [negb].
  pose proof HC1 as (C1 & C2 & C3 & C4 & C5 & C6).
  destruct Ho1 as [Hfin Hbl Hsp Hpl Hnil Hfile Hend Hsm].
  rewrite C3, C4.
  destruct (run_sz _ _ w1 (emits_WriteFrame f (cl_tc c) (cl_scale c) Hok HV Htc Hsc Hrel) Hend) as (w2 & E2 & A2).
  rewrite (bind_run _ _ _ _ _ _ _ E2).
  assert (HT : 1 <= fr_track f <= 126) by (destruct Hok as (_ & _ & _ & _ & _ & HT & _); exact HT).
  pose proof (frame_bytes_bound f (frame_rel f (cl_tc c) (cl_scale c)) (cl_scale c) HT) as HFB.
  replace (zlen (frame_bytes f (frame_rel f (cl_tc c) (cl_scale c)) (cl_scale c)) =? 0) with false by lia.
  rewrite Hbl. replace (zlen fs >=? INT_MAX) with false by lia.
  pose proof A2 as (HE2 & F2 & S2). pose proof (appended_len _ _ _ A2) as HL2.
  rewrite H1 in Hsp, Hpl.
  assert (Hbody : zlen (body (cl_scale c1) (cl_fixed c1) (cl_tc c1) fs) <= zlen (w_file w1)).
  { rewrite Hfile. unfold open_file. rewrite H1, zlen_app, open_zlen. pose proof (zlen_nonneg _ pre). lia. }
  pose proof (zlen_nonneg _ (body (cl_scale c1) (cl_fixed c1) (cl_tc c1) fs)) as HB0.
  eexists; exists w2. split; [reflexivity|].
  split; [|split; [exact H1|split; [exact HC1|split; [cbn; rewrite HL1; reflexivity|split; [congruence|lia]]]]].
  pw.
  constructor; cbn [cl_finalized cl_set_last_ts cl_set_blocks cl_set_header cl_set_payload cl_set_size_pos cl_blocks cl_size_pos cl_header cl_payload cl_scale cl_fixed cl_tc]; auto.
  - rewrite zlen_app. reflexivity.
  - rewrite H1. exact Hsp.
  - rewrite H1, Hpl, body_snoc, zlen_app. unfold blk. rewrite C3, C4 in *. rewrite wrap64_small by lia. reflexivity.
  - rewrite H1. discriminate.
  - unfold open_file. cbn [cl_header cl_set_last_ts cl_set_blocks cl_set_payload cl_scale cl_fixed cl_tc]. rewrite H1, open_snoc, F2, Hfile.
    unfold open_file, blk. rewrite H1, C3, C4, app_assoc. reflexivity.
  - pw. lia.
Qed.

(* a frame that does not fit writes at most the cluster header *)
Lemma DoWriteFrame_misfit : forall c fs pre w f, open_cl c fs pre w -> frame_ok f -> 
  0 <= cl_tc c < 2 ^ 63 -> 1 <= cl_scale c -> ~ (0 <= frame_rel f (cl_tc c) (cl_scale c) <= 32767) ->
  cl_header c = true ->
  DoWriteFrame c f w = Val ((false, c), w).
Proof.
  intros c fs pre w f Ho Hok Htc Hsc Hrel HH. unfold DoWriteFrame. destruct (IsValid f) eqn:HV; cbn [negb]; [|reflexivity].
  unfold PreWriteBlock. rewrite (oc_fin _ _ _ _ Ho), HH. cbn [negb]. rewrite bind_ret. cbn [negb].
  rewrite (bind_run _ _ _ _ _ _ _ (WriteFrame_refused f (cl_tc c) (cl_scale c) w Hok Htc Hsc (or_intror Hrel))). reflexivity.
Qed.

(* ---------- closing ---------- *)

Definition closes (c : cluster) : cluster := cl_set_finalized true c.

Lemma close_run : forall c fs pre w, open_cl c fs pre w -> cl_header c = true ->
  exists w', (seekable <- w_is_seekable;;
    if seekable then
      pos <- w_position;;
      check_status (w_seek (cl_size_pos c)) (false, c) (
      check_status (WriteUIntSize (cl_payload c) 8) (false, c) (
      check_status (w_seek pos) (false, c) (
      ret (true, cl_set_finalized true c))))
    else ret (true, cl_set_finalized true c)) w = Val ((true, closes c), w') /\
    at_end w' /\ w_seekable w' = w_seekable w /\
    w_file w' = pre ++ closed_bytes (w_seekable w) (cl_scale c) (cl_fixed c) (cl_tc c) fs.
Proof.
  intros c fs pre w [Hfin Hbl Hsp Hpl Hnil Hfile Hend Hsm] HH. rewrite HH in Hsp, Hpl. unfold open_file in Hfile. rewrite HH in Hfile.
  rewrite bind_seekable. destruct (w_seekable w) eqn:ES.
  - rewrite bind_position.
    pose proof (zlen_nonneg _ (body (cl_scale c) (cl_fixed c) (cl_tc c) fs)) as HB0.
    assert (HB : zlen (body (cl_scale c) (cl_fixed c) (cl_tc c) fs) < 2 ^ 55).
    { rewrite Hfile, zlen_app, open_zlen in Hsm. pose proof (zlen_nonneg _ pre). lia. }
    assert (HV : vint_fits 8 (cl_payload c)).
    { unfold vint_fits. rewrite Hpl. change (2 ^ (7 * 8)) with 72057594037927936. pw. lia. }
    destruct (patch_run (bool * cluster) _ _ w (pre ++ id_bytes kMkvCluster) unknown8 (body (cl_scale c) (cl_fixed c) (cl_tc c) fs)
                (cl_size_pos c) (ret (true, cl_set_finalized true c)) (false, c) (emits_WriteUIntSize _ _ HV) Hend)
      as (w' & E & HE & F & S).
    + rewrite Hfile. unfold open_bytes. rewrite <- !app_assoc. reflexivity.
    + rewrite Hsp, zlen_app, cluster_id_zlen. reflexivity.
    + rewrite vint8_zlen. reflexivity.
    + exists w'. rewrite E. split; [reflexivity|]. split; [exact HE|]. split; [congruence|].
      rewrite F. unfold closed_bytes. rewrite Hpl, <- !app_assoc. reflexivity.
  - exists w. split; [reflexivity|]. split; [exact Hend|]. split; [exact ES|]. exact Hfile.
Qed.
