(* C38, C39, C40, C49: VP9 headers, levels and CodecPrivate. *)
From Coq Require Import ZifyBool ZifyNat Floats.SpecFloat.
From Verif Require Import Base MFloat MVtt MVp9 Vp9Spec PVtt PVp9 PVp9b PVp9c PVp9d.

(* ---------- C38 ---------- *)

(* Every byte string: the parser returns without reading outside the frame.  The
   tile counts are those of before, or 1, 2 or 4 rows and 2^k columns with k within
   the limits for the width. *)
Theorem C38_every_frame_returns : forall frame h, exists ok h',
  ParseUncompressedHeader frame h = Val (ok, h') /\
  (hd_row_tiles h' = hd_row_tiles h /\ hd_column_tiles h' = hd_column_tiles h \/
   In (hd_row_tiles h') [1; 2; 4] /\ exists k least most, hd_column_tiles h' = 2 ^ k /\ least_tiles (hd_width h') least /\ most_tiles (hd_width h') most /\ least <= k <= most) /\
  (hd_width h' = hd_width h /\ hd_height h' = hd_height h /\ hd_display_width h' = hd_display_width h /\ hd_display_height h' = hd_display_height h \/
   1 <= hd_width h' <= 65536 /\ 1 <= hd_height h' <= 65536 /\ 1 <= hd_display_width h' <= 65536 /\ 1 <= hd_display_height h' <= 65536) /\
  (frame <> [] -> hd_frame_size h' = zlen frame).
Proof. intros frame h. destruct (parse_returns frame h) as (ok & h' & E & A & C & D). exists ok, h'. split; [exact E|]. split; [exact A|]. split; [exact C|exact D]. Qed.
Print Assumptions C38_every_frame_returns.

(* One parser over any sequence of frames: no tiles known, or at most 4 rows and 256
   columns. *)
Theorem C38_every_sequence_returns : forall frames dw dh, exists h', parse_all frames (new_header dw dh) = Val h' /\
  (hd_row_tiles h' = 0 /\ hd_column_tiles h' = 0 \/ In (hd_row_tiles h') [1; 2; 4] /\ exists k, hd_column_tiles h' = 2 ^ k /\ 0 <= k <= 8).
Proof.
  intros frames dw dh.
  set (P := fun h => (hd_width h = 0 \/ 1 <= hd_width h <= 65536) /\ (hd_row_tiles h = 0 /\ hd_column_tiles h = 0 \/ In (hd_row_tiles h) [1; 2; 4] /\ exists k, hd_column_tiles h = 2 ^ k /\ 0 <= k <= 8)).
  assert (K : forall l h, P h -> exists h', parse_all l h = Val h' /\ P h').
  { induction l as [|f l IH]; intros h [HW HT]; [exists h; split; [reflexivity|split; assumption]|]. cbn [parse_all]. destruct (parse_returns f h) as (ok & h1 & E & A & C & _). rewrite E. cbn [snd]. apply IH.
    assert (HW1 : hd_width h1 = 0 \/ 1 <= hd_width h1 <= 65536) by (destruct C as [(-> & _)|(C & _)]; [exact HW|right; exact C]). split; [exact HW1|].
    destruct A as [(-> & ->)|(A & k & least & most & EC & HL & HM & Hk)]; [exact HT|]. right. split; [exact A|]. exists k. split; [exact EC|]. assert (0 <= least) by apply HL. assert (most <= 8); [|lia].
    destruct HW1 as [HW1|HW1]; [|exact (most_small _ _ HW1 HM)]. rewrite HW1 in HM. destruct HM as (M1 & M2 & M3). destruct M3 as [->|M3]; [lia|]. change (superblocks 0) with 0 in M3. assert (0 < 2 ^ most) by (apply Z.pow_pos_nonneg; lia). lia. }
  destruct (K frames (new_header dw dh)) as (h' & E & _ & HT); [split; [left; reflexivity|left; split; reflexivity]|]. exists h'. split; [exact E|exact HT].
Qed.
Print Assumptions C38_every_sequence_returns.
Example C38_nonvacuous : ParseUncompressedHeader [130; 73; 131; 66; 64; 63; 240; 47; 246; 24; 71; 129; 128] (new_header 7 9) =
    Val (true, mkHd 13 0 1 0 0 8 2 0 1024 768 1024 768 1 4 1) /\
  ParseUncompressedHeader [130; 73; 131] (new_header 7 9) = Val (false, mkHd 3 0 1 0 0 0 0 0 0 0 7 9 0 0 0) /\
  least_tiles 1024 0 /\ most_tiles 1024 2.
Proof. split; [vm_compute; reflexivity|]. split; [vm_compute; reflexivity|]. unfold least_tiles, most_tiles, superblocks. cbn. lia. Qed.

(* ---------- C49 ---------- *)

(* A frame that starts with the header of a key frame (no segmentation) is accepted
   and every field but the tile counts is read; the tile counts too unless a
   quantizer delta is coded. *)
Theorem C49_key_frames_read : forall frame before hdr coded b rest,
  key_header hdr coded b -> bits_of_frame frame = b ++ rest -> hd_frame_size hdr = zlen frame ->
  exists h', ParseUncompressedHeader frame before = Val (true, h') /\
    (hd_profile h' = hd_profile hdr /\ hd_key h' = hd_key hdr /\ hd_altref h' = hd_altref hdr /\ hd_error_resilient h' = hd_error_resilient hdr /\
     hd_bit_depth h' = hd_bit_depth hdr /\ hd_color_space h' = hd_color_space hdr /\
     hd_width h' = hd_width hdr /\ hd_height h' = hd_height hdr /\ hd_display_width h' = hd_display_width hdr /\ hd_display_height h' = hd_display_height hdr /\
     hd_parallel h' = hd_parallel hdr) /\
    (coded = false -> h' = hdr).
Proof.
  intros frame before hdr coded b rest HK EB EN. destruct (parse_key frame before hdr coded b rest HK EB EN) as (h' & E & S & T). exists h'. split; [exact E|]. split; [|exact T].
  destruct S as (_ & S2 & S3 & S4 & S5 & S6 & S7 & _ & S9 & S10 & S11 & S12 & S13). repeat split; assumption.
Qed.
Print Assumptions C49_key_frames_read.

Definition key_example : list Z := [130; 73; 131; 66; 64; 63; 240; 47; 246; 24; 71; 129; 128].
Example C49_key_nonvacuous : exists b rest, key_header (mkHd 13 0 1 0 0 8 2 0 1024 768 1024 768 1 4 1) false b /\ bits_of_frame key_example = b ++ rest.
Proof.
  exists (bits 2 2 ++ profile_bits 0 ++ [0] ++ [0] ++ flag true ++ flag false ++ sync_bits ++ ([] ++ bits 3 2 ++ flag false) ++ (bits 16 1023 ++ bits 16 767 ++ [0]) ++ (flag true ++ flag true) ++ bits 2 0 ++
    (bits 6 12 ++ bits 3 1 ++ [0]) ++ (bits 8 60 ++ [0] ++ [0] ++ [0]) ++ [0] ++ (repeat 1 2 ++ [] ++ [0])), (repeat 0 6). split; [|vm_compute; reflexivity].
  apply (kh 13 0 true false 8 2 1024 768 1024 768 1 2 0 0 _ _ _ _ _ _ false).
  - lia.
  - constructor; [left; repeat split; lia|unfold field; cbn; lia|left; split; [lia|]; split; [reflexivity|exists false; reflexivity]].
  - apply (sb_same 1024 768); unfold field; cbn; lia.
  - apply (pb_off false true true). reflexivity.
  - unfold field; cbn; lia.
  - apply lf_off; unfold field; cbn; lia.
  - apply (qb 60 false false false); [unfold field; cbn; lia|constructor..].
  - apply (tb 1024 0 2 2 0 [0]); [unfold least_tiles, superblocks; cbn; lia|unfold most_tiles, superblocks; cbn; lia|lia|left; auto].
Qed.
(* With a quantizer delta the tile counts are wrong: the parser skips four bits of
   the delta where the format has five.  This frame has 1 row and 4 columns. *)
Theorem C49_quantizer_delta_refuted : exists frame b rest, key_header (mkHd 13 0 1 0 0 8 2 0 1024 768 1024 768 1 4 1) true b /\ bits_of_frame frame = b ++ rest /\
  ParseUncompressedHeader frame (new_header 0 0) = Val (true, mkHd 13 0 1 0 0 8 2 0 1024 768 1024 768 4 1 1).
Proof.
  exists [130; 73; 131; 66; 64; 63; 240; 47; 246; 24; 71; 147; 12].
  exists (bits 2 2 ++ profile_bits 0 ++ [0] ++ [0] ++ flag true ++ flag false ++ sync_bits ++ ([] ++ bits 3 2 ++ flag false) ++ (bits 16 1023 ++ bits 16 767 ++ [0]) ++ (flag true ++ flag true) ++ bits 2 0 ++
    (bits 6 12 ++ bits 3 1 ++ [0]) ++ (bits 8 60 ++ ([1] ++ bits 5 6) ++ [0] ++ [0]) ++ [0] ++ (repeat 1 2 ++ [] ++ [0])), (repeat 0 1). split; [|split; vm_compute; reflexivity].
  apply (kh 13 0 true false 8 2 1024 768 1024 768 1 2 0 0 _ _ _ _ _ _ true).
  - lia.
  - constructor; [left; repeat split; lia|unfold field; cbn; lia|left; split; [lia|]; split; [reflexivity|exists false; reflexivity]].
  - apply (sb_same 1024 768); unfold field; cbn; lia.
  - apply (pb_off false true true). reflexivity.
  - unfold field; cbn; lia.
  - apply lf_off; unfold field; cbn; lia.
  - apply (qb 60 true false false); [unfold field; cbn; lia|constructor; unfold field; cbn; lia|constructor..].
  - apply (tb 1024 0 2 2 0 [0]); [unfold least_tiles, superblocks; cbn; lia|unfold most_tiles, superblocks; cbn; lia|lia|left; auto].
Qed.
Print Assumptions C49_quantizer_delta_refuted.

(* Intra-only frames: every field; tile counts and parallel mode stay as they were. *)
Theorem C49_intra_frames_read : forall frame before p err depth space flags w h rw rh b rest,
  intra_header p err depth space flags w h rw rh b -> bits_of_frame frame = b ++ rest ->
  ParseUncompressedHeader frame before =
    Val (true, mkHd (zlen frame) p 0 1 (if err then 1 else 0) depth space flags w h rw rh (hd_row_tiles before) (hd_column_tiles before) (hd_parallel before)).
Proof. exact parse_intra. Qed.
Print Assumptions C49_intra_frames_read.
Example C49_intra_nonvacuous : exists b rest, intra_header 0 false 8 1 4 320 240 320 240 b /\ bits_of_frame [132; 169; 48; 104; 64; 128; 39; 224; 29; 224] = b ++ rest.
Proof.
  exists (bits 2 2 ++ profile_bits 0 ++ [0] ++ [1] ++ [0] ++ flag false ++ [1] ++ bits 2 1 ++ sync_bits ++ [] ++ bits 8 4 ++ (bits 16 319 ++ bits 16 239 ++ [0])), (repeat 0 4). split; [|vm_compute; reflexivity].
  apply (ih 0 false 8 1 4 320 240 320 240 1 []); [lia|reflexivity|unfold field; cbn; lia|left; auto|unfold field; cbn; lia|]. apply (sb_same 320 240); unfold field; cbn; lia.
Qed.

(* Inter frames: the refreshed references are read, and the size when the frame has
   one of its own. *)
Theorem C49_inter_frames_read : forall frame before p show err flags size b rest,
  inter_header p show err flags size b -> bits_of_frame frame = b ++ rest ->
  exists h', ParseUncompressedHeader frame before = Val (true, h') /\
    hd_frame_size h' = zlen frame /\ hd_profile h' = p /\ hd_key h' = 0 /\ hd_altref h' = (if show then 0 else 1) /\ hd_error_resilient h' = (if err then 1 else 0) /\
    hd_refresh h' = flags /\ hd_bit_depth h' = hd_bit_depth before /\
    (hd_width h', hd_height h', hd_display_width h', hd_display_height h') =
      match size with Some x => x | None => (hd_width before, hd_height before, hd_display_width before, hd_display_height before) end.
Proof.
  intros frame before p show err flags size b rest HK EB. pose proof (parse_inter frame before p show err flags size b rest HK EB) as H. destruct (match size with Some x => x | None => _ end) as [[[w h] rw] rh]. eexists. split; [exact H|]. repeat split.
Qed.
Print Assumptions C49_inter_frames_read.
Example C49_inter_nonvacuous : exists b rest, inter_header 0 true false 4 None b /\ bits_of_frame [134; 65; 9; 5] = b ++ rest.
Proof.
  exists (bits 2 2 ++ profile_bits 0 ++ [0] ++ [1] ++ flag true ++ flag false ++ [] ++ bits 2 1 ++ bits 8 4 ++ (bits 3 1 ++ flag false ++ bits 3 2 ++ flag false ++ bits 3 0 ++ flag true ++ []) ++ [0; 1]), []. split; [|vm_compute; reflexivity].
  apply (nh 0 true false 4 1 None); [lia|reflexivity|unfold field; cbn; lia|unfold field; cbn; lia| |constructor]. repeat (apply rf_one; [unfold field; cbn; lia|]). constructor.
Qed.

(* ---------- C39 ---------- *)

(* The statistics of a stream, all of them. *)
Theorem C39_statistics_exact : forall l, fair_stream l -> exists s, add_frames new_stats l = Val s /\
  s_max_size s = maximum (map area l) /\
  s_max_breadth s = maximum (map breadth_of l) /\
  s_max_luma s = maximum (map second_of (beginnings [] l)) /\
  s_max_cpb s = maximum (map four_of (beginnings [] l)) /\
  s_max_tiles s = maximum (map columns_of l) /\
  s_max_refreshed s = maximum (map (fun back => count_bits (stored back)) (beginnings [] l)) /\
  s_compressed s = total (map bytes_of l) /\
  s_uncompressed s = total (map (fun f => area f * hd_bit_depth (fst f) * 3 / 2) (filter (fun f => hd_altref (fst f) =? 0) l)) /\
  s_displayed s = zlen (filter (fun f => hd_altref (fst f) =? 0) l) /\
  GetMinimumAltrefDistance s = (if minimum (gaps None l) =? INT_MAX then -1 else minimum (gaps None l)) /\
  s_start s = hd (-1) (map snd l) /\ s_end s = last (map snd l) (-1).
Proof.
  intros l (HF & HS & HL). destruct (stream_inv l HF (fair_sorted l HS) HL) as (s & E & HI). exists s. split; [exact E|]. repeat split; try apply HI.
  - rewrite (si_uncompressed _ _ HI). f_equal. change (filter (fun f => hd_altref (fst f) =? 0) l) with (filter shown l). apply map_ext_in. intros f Hf. apply filter_In in Hf. destruct Hf as [Hf _]. rewrite Forall_forall in HF. destruct (HF f Hf) as (A & C & _ & _ & _ & D & _). unfold raw_bits. apply Z.quot_div_nonneg; [|lia]. unfold area. nia.
  - unfold GetMinimumAltrefDistance. rewrite (si_min _ _ HI). reflexivity.
  - rewrite (si_start _ _ HI). destruct l; reflexivity.
  - rewrite (si_end _ _ HI). destruct l as [|x l _] using rev_ind; [reflexivity|]. rewrite rev_app_distr, map_app. cbn [map]. rewrite last_last. reflexivity.
Qed.
Print Assumptions C39_statistics_exact.
Definition stream_example : list (header * Z) :=
  [(mkHd 9000 0 1 0 0 8 2 0 1920 1080 1920 1080 1 4 0, 0); (mkHd 3000 0 0 1 0 8 0 4 1920 1080 1920 1080 1 4 0, 0); (mkHd 500 0 0 0 0 8 0 1 1920 1080 1920 1080 1 4 0, 33000000);
   (mkHd 400 0 0 0 0 8 0 2 1920 1080 1920 1080 1 4 0, 1200000000); (mkHd 2000 0 0 1 0 8 0 4 1920 1080 1920 1080 1 4 0, 1200000000)].
Example C39_statistics_nonvacuous : fair_stream stream_example /\ second_of (rev stream_example) = 1920 * 1080 * 2 /\ maximum (map second_of (beginnings [] stream_example)) = 1920 * 1080 * 3 /\
  four_of (rev stream_example) = 5900 /\ gaps None stream_example = [2] /\ stored (rev stream_example) = 7.
Proof.
  split; [|vm_compute; auto 10]. apply fair_check. vm_compute. reflexivity.
Qed.

(* A level other than 0 (unknown) covers every statistic: it is at least the lowest
   level whose limit the statistic meets.  It is no higher than needed for one of
   them.  Its own row meets the picture size, breadth, tile columns, the distance of
   hidden frames and the compression ratio. *)
Theorem C39_level_covers : forall s, GetLevel s <> 0 -> exists r, In r vp9_levels /\ r_level r = GetLevel s /\
  (forall fits low, In fits [fits_rate s; fits_size s; fits_breadth s; fits_bitrate s; fits_cpb s; fits_tiles s; fits_refs s] -> lowest fits low -> r_level low <= GetLevel s) /\
  (exists fits, In fits [fits_rate s; fits_size s; fits_breadth s; fits_bitrate s; fits_cpb s; fits_tiles s; fits_refs s] /\ lowest fits r) /\
  (s_max_size s <= 35651584 -> s_max_size s <= r_size r) /\
  (s_max_breadth s <= 16832 -> s_max_breadth s <= r_breadth r) /\
  (s_max_tiles s <= 16 -> s_max_tiles s <= r_tiles r) /\
  r_altref r <= GetMinimumAltrefDistance s /\
  SFltb (GetCompressionRatio s) (f64_of_Z (r_ratio r)) = false.
Proof.
  change vp9_levels with Vp9LevelTable.
  intros s HL. destruct (level_state s) as (st & [H1 H2] & r & Hn & E). rewrite E in *. destruct (SFltb (GetCompressionRatio s) (f64_of_Z (r_ratio r))) eqn:ER; [congruence|]. destruct (GetMinimumAltrefDistance s <? r_altref r) eqn:EA; [congruence|].
  destruct H2 as [->|(r' & g & A & B & C & D)]; [cbn in HL; congruence|]. rewrite Hn in A. injection A as <-.
  assert (HC : forall fits, In fits [fits_rate s; fits_size s; fits_breadth s; fits_bitrate s; fits_cpb s; fits_tiles s; fits_refs s] <-> In fits (conditions s)) by (intros fits; unfold conditions; cbn [In]; tauto).
  assert (HIn : In r Vp9LevelTable) by (eapply nth_error_In; exact Hn). exists r. split; [exact HIn|]. split; [exact B|]. split; [intros fits low Hf Hlow; apply (H1 fits low); [apply HC; exact Hf|exact Hlow]|]. split; [exists g; split; [apply HC; exact C|exact D]|].
  assert (K : forall (f : stats -> row -> bool) (lim : row -> Z) v, In (f s) (conditions s) -> (forall x, f s x = (v <=? lim x)) -> (forall x y, In x Vp9LevelTable -> In y Vp9LevelTable -> r_level x <= r_level y -> lim x <= lim y) -> (exists x, In x Vp9LevelTable /\ v <= lim x) -> v <= lim r).
  { intros f lim v Hf Hv Hmono (x & Hx & Hvx). assert (EL : exists low, lowest (f s) low).
    { clear -Hx Hvx Hv. assert (G : forall a t, Vp9LevelTable = a ++ t -> Forall (fun y => f s y = false) a -> In x t -> exists low, lowest (f s) low).
      { intros a t. revert a. induction t as [|y t IH]; intros a EQ HA []; destruct (f s y) eqn:Ey.
        - exists y, a, t. auto.
        - subst y. rewrite Hv in Ey. lia.
        - exists y, a, t. auto.
        - apply (IH (a ++ [y])); [rewrite <- app_assoc; exact EQ|apply Forall_app; split; [exact HA|constructor; [exact Ey|constructor]]|assumption]. }
      apply (G [] Vp9LevelTable eq_refl (Forall_nil _) Hx). }
    destruct EL as (low & Hlow). pose proof (H1 (f s) low Hf Hlow) as Hle. assert (lim low <= lim r) by (apply Hmono; [exact (lowest_in _ _ Hlow)|exact HIn|lia]). destruct Hlow as (a & t & _ & Hfit & _). rewrite Hv in Hfit. lia. }
  assert (M : forall lim : row -> Z, forallb (fun x => forallb (fun y => negb (r_level x <=? r_level y) || (lim x <=? lim y)) Vp9LevelTable) Vp9LevelTable = true -> forall x y, In x Vp9LevelTable -> In y Vp9LevelTable -> r_level x <= r_level y -> lim x <= lim y).
  { intros lim HM x y Hx Hy Hxy. rewrite forallb_forall in HM. specialize (HM x Hx). rewrite forallb_forall in HM. specialize (HM y Hy). lia. }
  assert (HT : In (mkRow 62 4706009088 35651584 16832 480000 0 8 16 10 4) Vp9LevelTable) by (cbn [In Vp9LevelTable]; auto 20).
  split; [intros Hs; apply (K fits_size r_size (s_max_size s)); [cbn; auto 10|reflexivity|apply M; reflexivity|eexists; split; [exact HT|exact Hs]]|].
  split; [intros Hs; apply (K fits_breadth r_breadth (s_max_breadth s)); [cbn; auto 10|reflexivity|apply M; reflexivity|eexists; split; [exact HT|exact Hs]]|].
  split; [intros Hs; apply (K fits_tiles r_tiles (s_max_tiles s)); [cbn; auto 10|reflexivity|apply M; reflexivity|eexists; split; [exact HT|exact Hs]]|].
  split; [lia|exact ER].
Qed.
Print Assumptions C39_level_covers.

(* frames of one size, 30 a second, with a hidden frame in ten *)
Fixpoint stream (n : nat) (k t w h size columns refresh : Z) : list (header * Z) :=
  match n with
  | O => []
  | S n' => (mkHd size 0 (if k =? 0 then 1 else 0) (if k mod 10 =? 3 then 1 else 0) 0 8 2 (refresh * k mod 256) w h w h 1 columns 0, t) :: stream n' (k + 1) (t + 33333333) w h size columns refresh
  end.
Definition level_of (x : outcome stats) : option Z := match x with Val s => Some (GetLevel s) | UB => None end.
Example C39_level_nonvacuous : fair_stream (stream 60 0 0 320 240 300 1 0) /\ level_of (add_frames new_stats (stream 60 0 0 320 240 300 1 0)) = Some 20 /\
  level_of (add_frames new_stats (stream 60 0 0 1920 1080 20000 4 0)) = Some 40.
Proof. split; [apply fair_check; vm_compute; reflexivity|]. split; vm_compute; reflexivity. Qed.

(* without two hidden frames the level is always unknown *)
Theorem C39_few_hidden_frames_unknown : forall l s, fair_stream l -> gaps None l = [] -> add_frames new_stats l = Val s -> GetLevel s = 0.
Proof.
  intros l s HF HG HE. destruct (C39_statistics_exact l HF) as (s' & E & _ & _ & _ & _ & _ & _ & _ & _ & _ & HM & _). rewrite HE in E. injection E as <-. rewrite HG in HM. change (GetMinimumAltrefDistance s = -1) in HM.
  destruct (level_state s) as (st & _ & r & Hn & E). rewrite E, HM. destruct (SFltb _ _); [reflexivity|]. assert (HA : forallb (fun r => 0 <=? r_altref r) Vp9LevelTable = true) by reflexivity. rewrite forallb_forall in HA. specialize (HA r (nth_error_In _ _ Hn)). replace (-1 <? r_altref r) with true by lia. reflexivity.
Qed.
Print Assumptions C39_few_hidden_frames_unknown.
Example C39_few_hidden_nonvacuous : fair_stream (stream 12 0 0 320 240 300 1 0) /\ gaps None (stream 12 0 0 320 240 300 1 0) = [] /\ level_of (add_frames new_stats (stream 12 0 0 320 240 300 1 0)) = Some 0.
Proof. split; [apply fair_check; vm_compute; reflexivity|]. split; vm_compute; reflexivity. Qed.

(* A statistic above every limit is ignored: pictures 17000 wide (no level allows
   more than 16832) get level 1.1. *)
Theorem C39_beyond_every_level_refuted : exists l s, fair_stream l /\ add_frames new_stats l = Val s /\ s_max_breadth s = 17000 /\ Forall (fun r => r_breadth r < 17000) vp9_levels /\ GetLevel s = 11.
Proof.
  change vp9_levels with Vp9LevelTable.
  destruct (add_frames new_stats (stream 60 0 0 17000 4 100 1 0)) as [s|] eqn:E; [|vm_compute in E; discriminate]. exists (stream 60 0 0 17000 4 100 1 0), s. split; [apply fair_check; vm_compute; reflexivity|]. split; [exact E|].
  vm_compute in E. injection E as <-. split; [reflexivity|]. split; [repeat constructor|]. vm_compute. reflexivity.
Qed.
Print Assumptions C39_beyond_every_level_refuted.
(* The limit for reference frames falls as levels rise, and only level 1's limit is
   ever checked: a stream with 8 references gets level 5, which allows 4. *)
Theorem C39_reference_limit_refuted : exists l s, fair_stream l /\ add_frames new_stats l = Val s /\ s_max_refreshed s = 8 /\
  exists r, In r vp9_levels /\ r_level r = GetLevel s /\ r_refs r = 4.
Proof.
  change vp9_levels with Vp9LevelTable.
  destruct (add_frames new_stats (stream 60 0 0 4096 2160 100000 4 51)) as [s|] eqn:E; [|vm_compute in E; discriminate]. exists (stream 60 0 0 4096 2160 100000 4 51), s. split; [apply fair_check; vm_compute; reflexivity|]. split; [exact E|].
  vm_compute in E. injection E as <-. split; [reflexivity|]. exists (mkRow 50 311951360 8912896 8384 60000 36000 6 8 6 4). split; [cbn [In Vp9LevelTable]; auto 20|]. split; [vm_compute; reflexivity|reflexivity].
Qed.
Print Assumptions C39_reference_limit_refuted.
(* Pictures of 2^31 samples or more overflow an int. *)
Theorem C39_huge_pictures_refuted : forall s p t, 1 <= hd_width p -> 1 <= hd_height p -> 2 ^ 31 <= hd_width p * hd_height p -> AddFrame s p t = UB.
Proof. intros s p t Hw Hh H. unfold AddFrame, s32. replace ((- 2 ^ 31 <=? hd_width p * hd_height p) && (hd_width p * hd_height p <? 2 ^ 31)) with false by lia. reflexivity. Qed.
Print Assumptions C39_huge_pictures_refuted.

(* ---------- C40 ---------- *)

(* Every buffer below 2^31 - 2 bytes: no read outside it.  What it accepts is a list
   of features of length 1 (and up to two bytes that are ignored); each is legal or a
   level that follows a legal level; legal values of one feature agree and are
   stored; features without a legal value are reported as not present. *)
Theorem C40_private_safe_and_sound : forall data before, zlen data <= 2147483645 -> exists ok f, ParseVpxCodecPrivate data before = Val (ok, f) /\
  (ok = true -> exists l rest, data = private_bytes l ++ rest /\ l <> [] /\ zlen rest < 3 /\
     (forall a id v b, l = a ++ (id, v) :: b -> legal id v \/ id = 2 /\ exists w, In (2, w) a /\ legal 2 w) /\
     (forall id v w, In (id, v) l -> In (id, w) l -> legal id v -> legal id w -> v = w) /\
     (forall id, 1 <= id <= 4 -> (forall v, In (id, v) l -> legal id v -> feature f id = v) /\ ((forall v, In (id, v) l -> ~ legal id v) -> feature f id = INT_MAX))).
Proof.
  intros data before HL. unfold ParseVpxCodecPrivate. destruct (zlen data <? 3) eqn:E; [exists false, before; split; [reflexivity|discriminate]|].
  destruct (private_inv_run (length data) (S (length data)) data [] data no_features) as (ok & f & ER & HT); [lia|lia|reflexivity|lia|exact HL|exact priv_none|]. exists ok, f. split; [exact ER|]. intros Hok. destruct (HT Hok) as (l & rest & A & C & D & [P1 P2 P3]). exists l, rest. auto 10.
Qed.
Print Assumptions C40_private_safe_and_sound.
(* Every list of legal features that agree is accepted and stored. *)
Theorem C40_private_complete : forall l rest before, l <> [] -> zlen rest < 3 -> zlen (private_bytes l ++ rest) <= 2147483645 -> Forall (fun x => legal (fst x) (snd x)) l ->
  (forall id v w, In (id, v) l -> In (id, w) l -> v = w) -> exists f, ParseVpxCodecPrivate (private_bytes l ++ rest) before = Val (true, f) /\ holds l f.
Proof.
  intros l rest before Hne Hr HLen HLeg HC. unfold ParseVpxCodecPrivate. replace (zlen (private_bytes l ++ rest) <? 3) with false by (rewrite zlen_app, private_bytes_len; pose proof (zlen_nonneg rest); destruct l; [congruence|rewrite zlen_cons; pose proof (zlen_nonneg l); lia]).
  assert (HL' : forall id v, In (id, v) l -> legal id v) by (intros id v Hv; rewrite Forall_forall in HLeg; exact (HLeg _ Hv)).
  destruct (private_accepts l [] (S (length (private_bytes l ++ rest))) rest no_features) as (f & E & [P1 P2 P3]); [exact Hne| |exact Hr|exact HLen|exact priv_none|exact HL'|intros id v w A B _ _; exact (HC id v w A B)|].
  { pose proof (private_bytes_len l) as K. rewrite app_length. unfold zlen in K. lia. }
  exists f. split; [exact E|]. intros id Hid. destruct (P3 id Hid) as [A B]. split; [intros v Hv; apply A; [exact Hv|apply HL'; exact Hv]|]. intros HN. apply B. intros v Hv. exfalso. exact (HN v Hv).
Qed.
Print Assumptions C40_private_complete.
Example C40_nonvacuous : ParseVpxCodecPrivate [1; 1; 2; 2; 1; 41; 3; 1; 10; 4; 1; 1] no_features = Val (true, mkF 2 41 10 1) /\
  [1; 1; 2; 2; 1; 41; 3; 1; 10; 4; 1; 1] = private_bytes [(1, 2); (2, 41); (3, 10); (4, 1)] /\ Forall (fun x => legal (fst x) (snd x)) [(1, 2); (2, 41); (3, 10); (4, 1)] /\
  ParseVpxCodecPrivate [1; 1; 2; 1; 1; 3] no_features = Val (false, mkF 2 INT_MAX INT_MAX INT_MAX).
Proof. split; [vm_compute; reflexivity|]. split; [reflexivity|]. split; [|vm_compute; reflexivity]. unfold legal. repeat constructor; cbn; lia. Qed.
(* An illegal level after a legal one is accepted. *)
Theorem C40_second_level_refuted : ~ legal 2 99 /\ ParseVpxCodecPrivate (private_bytes [(2, 10); (2, 99)]) no_features = Val (true, mkF INT_MAX 10 INT_MAX INT_MAX).
Proof. split; [unfold legal; cbn; lia|vm_compute; reflexivity]. Qed.
Print Assumptions C40_second_level_refuted.
(* In a buffer of 2^31 - 2 or 2^31 - 1 bytes of good features the offset overflows. *)
Theorem C40_huge_buffers_refuted : forall n rest before, Z.of_nat n = 715827882 -> zlen rest < 3 -> ParseVpxCodecPrivate (private_bytes (repeat (1, 0) n) ++ rest) before = UB.
Proof.
  intros n rest before Hn Hr. unfold ParseVpxCodecPrivate. rewrite zlen_app, private_bytes_len. assert (EZ : forall m, zlen (repeat (1, 0) m) = Z.of_nat m) by (intros m; unfold zlen; rewrite repeat_length; reflexivity). rewrite EZ, Hn. pose proof (zlen_nonneg rest). replace (3 * 715827882 + zlen rest <? 3) with false by lia.
  assert (K : forall m k fuel f, (k + S m = n)%nat -> (m < fuel)%nat -> (f_profile f = INT_MAX \/ f_profile f = 0) -> private_loop fuel (private_bytes (repeat (1, 0) n) ++ rest) (zlen (private_bytes (repeat (1, 0) k))) f = UB).
  { induction m as [|m IH]; intros k fuel f Hk Hf Hp; (destruct fuel as [|fuel]; [lia|]).
    - assert (ED : private_bytes (repeat (1, 0) n) ++ rest = private_bytes (repeat (1, 0) k) ++ 1 :: 1 :: 0 :: rest). { replace n with (k + 1)%nat by lia. rewrite repeat_app. unfold private_bytes. rewrite flat_map_app, <- app_assoc. reflexivity. }
      rewrite ED, private_turn. rewrite one_feature_spec. cbn [negb orb Z.eqb Pos.eqb Z.leb Z.compare andb legalb Pos.compare Pos.compare_cont]. replace (conflict (feature f 1) 0) with false by (change (feature f 1) with (f_profile f); unfold conflict; lia). cbn [negb]. rewrite private_bytes_len, EZ.
      unfold s32. replace ((- 2 ^ 31 <=? 3 * Z.of_nat k + 6) && (3 * Z.of_nat k + 6 <? 2 ^ 31)) with false by lia. reflexivity.
    - assert (ED : private_bytes (repeat (1, 0) n) ++ rest = private_bytes (repeat (1, 0) k) ++ 1 :: 1 :: 0 :: (private_bytes (repeat (1, 0) (S m)) ++ rest)). { replace n with (k + (1 + S m))%nat by lia. rewrite !repeat_app. unfold private_bytes. rewrite !flat_map_app, <- !app_assoc. reflexivity. }
      rewrite ED, private_turn. rewrite one_feature_spec. cbn [negb orb Z.eqb Pos.eqb Z.leb Z.compare andb legalb Pos.compare Pos.compare_cont]. replace (conflict (feature f 1) 0) with false by (change (feature f 1) with (f_profile f); unfold conflict; lia). cbn [negb]. rewrite private_bytes_len, EZ. rewrite s32_ok by lia. cbn [obind].
      rewrite zlen_app, private_bytes_len, EZ. replace (3 <=? 3 * Z.of_nat (S m) + zlen rest) with true by lia. rewrite <- private_bytes_snoc, <- ED. replace (repeat (1, 0) k ++ [(1, 0)]) with (repeat (1, 0) (S k)) by (replace (S k) with (k + 1)%nat by lia; rewrite repeat_app; reflexivity).
      apply IH; [lia|lia|right; reflexivity]. }
  destruct n as [|n]; [lia|]. apply (K n 0%nat); [lia| |left; reflexivity]. rewrite app_length. pose proof (private_bytes_len (repeat (1, 0) (S n))) as KK. rewrite EZ in KK. unfold zlen in KK. lia.
Qed.
Print Assumptions C40_huge_buffers_refuted.
