(* The segment while frames are added: invariant and steps. *)
From Coq Require Import ZifyBool ZifyNat Sorted.
From Verif Require Import Base EbmlSpec MWriter WriterSpec PWriter MMuxUtil PMuxUtil Ids LacingSpec MMuxBlock BlockSpec
  PMuxBlock MFloat MMuxMeta MetaSpec MMuxSegment SegmentSpec PSegRun PSegCluster PSegAcc.

(* lia is slow with many boolean equations in the context *)
Ltac nobool := repeat match goal with
  | H : @eq bool _ _ |- _ => clear H
  | H : ~ _ |- _ => clear H
  | H : _ -> _ |- _ => clear H
  | H : _ \/ _ |- _ => clear H
  end.
Ltac lz := nobool; lia.

(* a cluster with the frames written to it and the frames added to it *)
Definition grp : Type := cluster * list frame * list frame.
Definition g_cl (g : grp) : cluster := fst (fst g).
Fixpoint addeds (G : list grp) : list frame :=
  match G with [] => [] | (_, _, ad) :: R => addeds R ++ ad end.

Definition anyf (f : frame) : Prop := True.
Lemma retained_snoc : forall P A L a l, retained P A L -> carries false a l -> retained P (A ++ [a]) (L ++ [l]).
Proof. intros P A L a l H Hc. induction H; cbn [app]; [apply ret_keep; [exact Hc|constructor]|apply ret_keep; assumption|apply ret_drop; assumption]. Qed.
Lemma retained_sub : forall (P : frame -> Prop) A L L', retained P A L -> retained P L L' -> (forall f g, carries false f g -> P g -> P f) -> retained P A L'.
Proof.
  intros P A L L' H HL HP. revert L' HL. induction H as [|a l A L Hc H IH|a A L Hl H IH]; intros L' HL.
  - exact HL.
  - inversion HL; subst; [constructor; [eapply carries_trans; eassumption|auto]|]. apply ret_drop; [eapply HP; eassumption|auto].
  - apply ret_drop; auto.
Qed.
Lemma retained_any : forall (P : frame -> Prop) A L, retained anyf A L -> Forall P A -> retained P A L.
Proof. intros P A L H. induction H; intros HF; inversion HF; subst; [constructor|apply ret_keep; auto|apply ret_drop; auto]. Qed.
Lemma retained_refl : forall P L, retained P L L.
Proof. induction L; constructor; auto using carries_refl. Qed.
Lemma retained_app : forall P A L B M, retained P A L -> retained P B M -> retained P (A ++ B) (L ++ M).
Proof. intros P A L B M H HB. induction H; cbn [app]; [exact HB|apply ret_keep; assumption|apply ret_drop; assumption]. Qed.
Lemma retained_len : forall P A L, retained P A L -> zlen L <= zlen A.
Proof. intros P A L H. induction H; rewrite ?zlen_cons; lia. Qed.
Lemma retained_weights : forall P A L, retained P A L -> weights L <= weights A.
Proof.
  intros P A L H. induction H as [|a l A L Hc H IH|a A L Hl H IH]; rewrite ?weights_cons; [lia| |pose proof (frame_weight_pos a); lia].
  assert (frame_weight l = frame_weight a). { unfold frame_weight. destruct Hc as (-> & -> & _). reflexivity. } lia.
Qed.

Section Stream.
  Variables (info : segment_info) (seekh : seek_head) (trs : list track) (chs : list chapter) (tgs : list tag).
  Variables (acc fixed hasv live known outblk est : bool) (ppos spos esz : Z) (hd : list Z) (dur : f64).
  Variable strict : bool.

  Definition scale : Z := si_timecode_scale info.
  Definition tcf (f : frame) : Z := fr_timestamp f / scale.

  Hypothesis Hscale : 1 <= scale < 18446744073709551616.
  Hypothesis Htrs : Forall (fun t => 1 <= tk_number t <= 126) trs.
  Definition needs_strict : Prop := acc = true -> strict = true.
  Hypothesis Hacc : needs_strict.
  Hypothesis Hppos : 0 <= ppos < zlen hd.

  (* fields that do not change while frames are added *)
  Record cfg_ok (s : segment) : Prop := mkCfg {
    c_hdr : sg_header_written s = true;
    c_info : sg_info s = info;
    c_seek : sg_seek s = seekh;
    c_trs : sg_tracks s = trs;
    c_chs : sg_chapters s = chs;
    c_tgs : sg_tags s = tgs;
    c_acc : sg_accurate s = acc;
    c_fixed : sg_fixed s = fixed;
    c_hasv : sg_has_video s = hasv;
    c_live : sg_live s = live;
    c_outblk : sg_cues_out_block s = outblk;
    c_est : sg_estimate s = est;
    c_ppos : sg_payload_pos s = ppos;
    c_spos : sg_size_pos s = spos;
    c_esz : sg_ebml_size s = esz;
    c_dtv : sg_dtv s = 4;
    c_dtvw : sg_dtv_written s = 4;
    c_dur : sg_duration s = dur
  }.

  Definition cl_cfg (c : cluster) (pre : list Z) : Prop :=
    cl_scale c = scale /\ cl_fixed c = fixed /\ cl_write_last c = acc /\ 0 <= cl_tc c < 2 ^ 63 /\
    cl_cues_pos c = zlen pre - ppos.
  Definition live_rel (c : cluster) (st : zmap (list frame)) (fs ad : list frame) : Prop :=
    if acc then acc_rel c st fs ad /\ sorted_ts ad else cl_stored c = [] /\ st = [] /\ fs = ad.
  Definition cluster_frames (ad fs : list frame) : Prop :=
    if acc then sorted_ts fs /\ (forall n, Forall2 (carries true) (filter (of_track n) ad) (filter (of_track n) fs)) else fs = ad.

  Fixpoint closed_all (R : list grp) : list Z :=
    match R with
    | [] => []
    | (c, fs, _) :: R' => closed_all R' ++ closed_bytes known scale fixed (cl_tc c) fs
    end.
  Definition done_grp (pre : list Z) (g : grp) : Prop :=
    let '(c, fs, ad) := g in
    cl_cfg c pre /\ cl_size_pos c = zlen pre + 4 /\ stored_ok scale (cl_tc c) fs /\ stored_ok scale (cl_tc c) ad /\ cluster_frames ad fs.
  Fixpoint done_all (R : list grp) : Prop :=
    match R with [] => True | g :: R' => done_grp (hd ++ closed_all R') g /\ done_all R' end.

  Definition shape (w : wstate) (G : list grp) (st : zmap (list frame)) : Prop :=
    match G with
    | [] => w_file w = hd /\ at_end w /\ st = []
    | (c, fs, ad) :: R =>
        open_cl c fs (hd ++ closed_all R) w /\ cl_cfg c (hd ++ closed_all R) /\ live_rel c st fs ad /\
        stored_ok scale (cl_tc c) ad /\ done_all R
    end.
  Definition started (G : list grp) (st : zmap (list frame)) : Prop :=
    match G with [] => True | (c, _, _) :: _ => cl_header c = true \/ st <> [] end.

  (* the timecodes of the clusters, the newest first *)
  Definition tcs (G : list grp) : list Z := map (fun g => cl_tc (g_cl g)) G.
  Definition order (G : list grp) : Prop := Sorted.StronglySorted (fun a b => b <= a) (tcs G).
  (* the clusters before the newest are not empty *)
  Definition full (G : list grp) : Prop := Forall (fun g : grp => snd g <> []) (tl G).
  (* a cluster nothing was added to has not been begun in the file *)
  Definition fresh (G : list grp) (st : zmap (list frame)) : Prop :=
    match G with [] => True | (_, _, ad) :: _ => ad = [] -> ~ started G st end.

  Definition cue_ok (G : list grp) (q : cue_point) : Prop :=
    (cue_output_block_number q = outblk /\ 0 <= cue_block_number q <= INT_MAX) /\
    exists c fs ad g, In (c, fs, ad) G /\ cue_cluster_pos q = cl_cues_pos c /\ 
      (if acc then In g ad else 1 <= cue_block_number q /\ nth_error fs (Z.to_nat (cue_block_number q - 1)) = Some g) /\
      fr_track g = cue_track q /\ cue_time q = tcf g.

  Record core (s : segment) (w : wstate) (G : list grp) (st : zmap (list frame)) : Prop := mkCore {
    k_cfg : cfg_ok s;
    k_seekable : w_seekable w = known;
    k_clusters : sg_clusters s = map g_cl G;
    k_shape : shape w G st;
    k_arr1 : zlen (sg_track_ts s) = 126;
    k_arr2 : zlen (sg_track_frames s) = 126;
    k_cues : Forall (cue_ok G) (sg_cues s);
    k_ncue : zlen (sg_cues s) <= zlen (addeds G)
  }.

  (* what the inner steps leave alone *)
  Definition quiet (s s' : segment) : Prop :=
    sg_frames s' = sg_frames s /\ sg_frames_alloc s' = sg_frames_alloc s /\ sg_force s' = sg_force s /\
    sg_max_dur s' = sg_max_dur s /\ sg_max_size s' = sg_max_size s /\ sg_output_cues s' = sg_output_cues s /\
    sg_cues_track s' = sg_cues_track s.
  Lemma quiet_refl : forall s, quiet s s.
  Proof. intros s. repeat split. Qed.
  Lemma quiet_trans : forall a b c, quiet a b -> quiet b c -> quiet a c.
  Proof. unfold quiet. intuition congruence. Qed.

  Lemma at_end_of_shape : forall w G st, shape w G st -> at_end w.
  Proof. intros w [|[[c fs] ad] R] st H; [apply H|]. destruct H as (H & _). apply H. Qed.

  (* ---------- clusters ---------- *)

  Lemma QW_ok : forall c fs ad R st w f, shape w ((c, fs, ad) :: R) st -> good_frame f -> fits scale (cl_tc c) f ->
    (acc = true -> sorted_ts (ad ++ [f])) -> zlen ad < INT_MAX -> zlen (w_file w) + held_weight st + frame_weight f < 2 ^ 55 ->
    exists c' ws st' w', QueueOrWriteFrame c f w = Val ((true, c'), w') /\ shape w' ((c', fs ++ ws, ad ++ [f]) :: R) st' /\
      same_cl c c' /\ w_seekable w' = w_seekable w /\ (cl_header c' = true \/ st' <> []) /\ (acc = false -> ws = [f] /\ cl_header c' = true) /\
      zlen (w_file w') + held_weight st' <= zlen (w_file w) + held_weight st + frame_weight f.
  Proof.
    intros c fs ad R st w f (Ho & Hc & HL & Hst & HD) Hg Hf HS Hn Hb.
    pose proof Hc as (K1 & K2 & K3 & K4 & K5). unfold live_rel in HL.
    assert (Hst' : stored_ok scale (cl_tc c) (ad ++ [f])) by (apply Forall_app; split; [exact Hst|constructor; [split; assumption|constructor]]).
    destruct acc eqn:Ea.
    - destruct HL as [HA HSa].
      destruct (Queue_acc_run c st fs ad _ w f K3 Ho HA (HS eq_refl) K4) as (st' & ws & c' & w' & E & Ho' & HA' & HC' & S' & H' & Hne & B'); auto.
      { rewrite K1. lz. } { rewrite K1. exact Hst'. }
      exists c', ws, st', w'. split; [exact E|]. pose proof HC' as (L1 & L2 & L3 & L4 & L5).
      split; [|split; [exact HC'|split; [exact S'|split; [right; exact Hne|split; [discriminate|exact B']]]]].
      split; [exact Ho'|]. split; [unfold cl_cfg; rewrite L1, L2, L3, L4, L5, Ea; repeat split; assumption || apply K4|].
      split; [unfold live_rel; rewrite Ea; split; [exact HA'|apply HS; reflexivity]|]. rewrite L3. split; assumption.
    - destruct HL as (L1 & -> & ->). change (held_weight []) with 0 in Hb.
      destruct (DoWriteFrame_run c ad _ w f Ho (proj1 Hg) (proj2 Hg) K4) as (c' & w' & E & Ho' & H' & HC' & _ & S' & B'); try (rewrite K1; lz || exact Hf); auto; try lz.
      exists c', [f], [], w'. pose proof HC' as (M1 & M2 & M3 & M4 & M5 & M6).
      split. { unfold QueueOrWriteFrame. rewrite (proj2 Hg), K3. exact E. }
      split; [|split; [apply same_cfg_cl; exact HC'|split; [exact S'|split; [left; exact H'|split; [auto|change (held_weight []) with 0; lz]]]]].
      split; [exact Ho'|]. split; [unfold cl_cfg; rewrite M1, M2, M3, M4, M5, Ea; repeat split; assumption || apply K4|].
      split; [unfold live_rel; rewrite Ea, M6; auto|]. rewrite M3. split; assumption.
  Qed.

  Lemma QW_misfit : forall c fs ad R st w f, shape w ((c, fs, ad) :: R) st -> good_frame f -> ~ fits scale (cl_tc c) f ->
    acc = false -> zlen (w_file w) + held_weight st + frame_weight f < 2 ^ 55 ->
    exists c' w', QueueOrWriteFrame c f w = Val ((false, c'), w') /\ shape w' ((c', fs, ad) :: R) st /\
      same_cl c c' /\ w_seekable w' = w_seekable w /\ cl_header c' = true /\
      zlen (w_file w') <= zlen (w_file w) + frame_weight f.
  Proof.
    intros c fs ad R st w f (Ho & Hc & HL & Hst & HD) Hg Hf Ea Hb.
    pose proof Hc as (K1 & K2 & K3 & K4 & K5). unfold live_rel in HL. rewrite Ea in HL. destruct HL as (L1 & -> & ->).
    change (held_weight []) with 0 in Hb. pose proof (frame_weight_pos f) as HW.
    unfold QueueOrWriteFrame. rewrite (proj2 Hg), K3, Ea. cbn [negb].
    unfold DoWriteFrame. rewrite (proj2 Hg). cbn [negb].
    destruct (PreWriteBlock_run _ _ _ _ Ho ltac:(lz)) as (c1 & w1 & E1 & Ho1 & H1 & HC1 & HL1 & S1 & B1).
    rewrite (bind_run _ _ _ _ _ _ _ E1). cbn [negb]. pose proof HC1 as (M1 & M2 & M3 & M4 & M5 & M6).
    assert (HR : WriteFrame f (cl_tc c1) (cl_scale c1) w1 = Val (0, w1)).
    { apply WriteFrame_refused; [apply Hg|rewrite M3; exact K4|rewrite M4, K1; lz|]. right. rewrite M3, M4, K1. exact Hf. }
    rewrite (bind_run _ _ _ _ _ _ _ HR). exists c1, w1. split; [reflexivity|].
    split; [|split; [apply same_cfg_cl; exact HC1|split; [exact S1|split; [exact H1|lz]]]].
    split; [exact Ho1|]. split; [unfold cl_cfg; rewrite M1, M2, M3, M4, M5; repeat split; assumption || apply K4|].
    split; [unfold live_rel; rewrite Ea, M6; auto|]. rewrite M3. split; assumption.
  Qed.

  Lemma QW_invalid : forall c f w, IsValid f = false -> QueueOrWriteFrame c f w = Val ((false, c), w).
  Proof. intros c f w H. unfold QueueOrWriteFrame. rewrite H. reflexivity. Qed.

  Lemma Forall2_map_l : forall (P : frame -> frame -> Prop) (h : frame -> frame) l l', Forall2 P (map h l) l' -> Forall2 (fun a b => P (h a) b) l l'.
  Proof. induction l as [|x l IH]; intros l' H; inversion H; subst; constructor; auto. Qed.
  Lemma Forall2_split_r : forall (P : frame -> frame -> Prop) a b l, Forall2 P (a ++ b) l -> exists l1 l2, l = l1 ++ l2 /\ Forall2 P a l1 /\ Forall2 P b l2.
  Proof. intros P a b l H. apply Forall2_app_inv_l in H as (l1 & l2 & H1 & H2 & ->). eauto. Qed.

  Lemma carries_copy_trans : forall f g, good_frame f -> carries true (CopyFrom f) g -> carries true f g.
  Proof. intros f g Hf H. eapply carries_trans; [apply CopyFrom_good; exact Hf|exact H]. Qed.
  Lemma Forall2_carries_copy : forall l l', Forall good_frame l -> Forall2 (carries true) (map CopyFrom l) l' -> Forall2 (carries true) l l'.
  Proof.
    induction l as [|x l IH]; intros l' HG H; inversion H; subst; constructor; inversion HG; subst; auto using carries_copy_trans.
  Qed.
  Lemma Forall2_carries_refl : forall l, Forall2 (carries true) l l.
  Proof. induction l; constructor; auto using carries_refl. Qed.

  Lemma CF_run : forall c fs ad R st w set_last d, shape w ((c, fs, ad) :: R) st -> w_seekable w = known ->
    cl_header c = true \/ st <> [] -> zlen ad <= INT_MAX -> zlen (w_file w) + held_weight st < 2 ^ 55 ->
    exists c' ws w', Cluster_Finalize c set_last d w = Val ((true, c'), w') /\
      w_file w' = hd ++ closed_all ((c', fs ++ ws, ad) :: R) /\ at_end w' /\ w_seekable w' = w_seekable w /\
      done_all ((c', fs ++ ws, ad) :: R) /\ same_cl c c' /\ zlen (w_file w') <= zlen (w_file w) + held_weight st.
  Proof.
    intros c fs ad R st w set_last d (Ho & Hc & HL & Hst & HD) HK Hs Hn Hb.
    pose proof Hc as (K1 & K2 & K3 & K4 & K5). unfold Cluster_Finalize. rewrite (oc_fin _ _ _ _ Ho), K3.
    assert (HM : exists ws c1 w1, (if acc then merge_stored (S (stored_count c)) c set_last d else ret (true, c)) w = Val ((true, c1), w1) /\
        open_cl c1 (fs ++ ws) (hd ++ closed_all R) w1 /\ same_cl c c1 /\ cl_header c1 = true /\ w_seekable w1 = w_seekable w /\
        stored_ok scale (cl_tc c) (fs ++ ws) /\ cluster_frames ad (fs ++ ws) /\ zlen (w_file w1) <= zlen (w_file w) + held_weight st).
    { unfold live_rel, cluster_frames in *. destruct acc eqn:Ea.
      - destruct HL as [HA HSa]. pose proof HA as [A1 A2 A3 A4 A5 A6].
        assert (Hgood : forall x, In x (map CopyFrom ad) -> good_frame x /\ fits scale (cl_tc c) x).
        { intros x Hx. apply in_map_iff in Hx as (y & <- & Hy). unfold stored_ok in Hst. rewrite Forall_forall in Hst. specialize (Hst _ Hy). split; [apply CopyFrom_good, Hst|apply Hst]. }
        destruct (merge_run (S (stored_count c)) c st fs (hd ++ closed_all R) w set_last d A1 A2) as (ws & c1 & w1 & E & Ho1 & HC1 & Hs1 & S1 & H1 & B1 & Hok1 & Hso1 & Hf1); auto.
        { rewrite (stored_total c st A1). lz. } { rewrite K1. exact (proj1 Hscale). }
        { intros n. rewrite K1. apply Forall_forall. intros x Hx. apply Hgood. eapply acc_from_added; [exact HA|right; exact Hx]. }
        { intros n. eapply acc_held_sorted; eassumption. }
        { lz. }
        exists ws, c1, w1. split; [exact E|]. split; [exact Ho1|]. split; [exact HC1|]. split; [apply H1; tauto|]. split; [exact S1|].
        rewrite K1 in Hok1. split; [|split; [|exact B1]].
        + apply Forall_app. split; [|exact Hok1]. apply Forall_forall. intros x Hx. apply Hgood. eapply acc_from_added with (n := 0); [exact HA|left; exact Hx].
        + assert (HF2 : forall n, Forall2 (carries true) (filter (of_track n) ad) (filter (of_track n) (fs ++ ws))).
          { intros n. apply Forall2_carries_copy.
            - apply Forall_forall. intros x Hx. apply filter_In in Hx as [Hx _]. unfold stored_ok in Hst. rewrite Forall_forall in Hst. apply Hst, Hx.
            - rewrite <- filter_copy, <- A3, filter_app. apply Forall2_app; [apply Forall2_carries_refl|apply Hf1]. }
          split; [|exact HF2]. apply sorted_app. split; [exact A4|]. split; [exact Hso1|]. intros x y Hx Hy.
          specialize (Hf1 (fr_track y)). apply filter_track_In in Hy.
          assert (HY : exists z, In z (held st (fr_track y)) /\ fr_timestamp z = fr_timestamp y).
          { clear - Hf1 Hy. induction Hf1 as [|a b la lb Hab HX IH]; [destruct Hy|]. destruct Hy as [->|Hy].
            - exists a. split; [left; reflexivity|]. symmetry. apply Hab.
            - destruct (IH Hy) as (z & Hz & Ez). exists z. split; [right; exact Hz|exact Ez]. }
          destruct HY as (z & Hz & <-). eapply A5; eassumption.
      - destruct HL as (L1 & -> & ->). exists [], c, w. rewrite app_nil_r. split; [reflexivity|]. split; [exact Ho|]. split; [repeat split|].
        split; [destruct Hs as [Hs|Hs]; [exact Hs|congruence]|]. split; [reflexivity|]. split; [exact Hst|]. split; [reflexivity|]. change (held_weight []) with 0. lz. }
    destruct HM as (ws & c1 & w1 & E1 & Ho1 & HC1 & H1 & S1 & Hok1 & Hcf & B1).
    rewrite (bind_run _ _ _ _ _ _ _ E1). cbn [negb].
    pose proof (oc_size_pos _ _ _ _ Ho1) as HSP. rewrite H1 in HSP. pose proof (zlen_nonneg _ (hd ++ closed_all R)) as Hp0.
    replace (cl_size_pos c1 =? -1) with false by lz.
    destruct (close_run c1 (fs ++ ws) _ w1 Ho1 H1) as (w2 & E2 & HE2 & S2 & F2).
    exists (closes c1), ws, w2. rewrite E2. split; [reflexivity|].
    pose proof HC1 as (M1 & M2 & M3 & M4 & M5).
    assert (HF : w_file w2 = hd ++ closed_all ((closes c1, fs ++ ws, ad) :: R)).
    { rewrite F2. cbn [closed_all]. unfold closes. cbn [cl_tc cl_set_finalized]. rewrite M1, M4, K1, K2, S1, HK, app_assoc. reflexivity. }
    split; [exact HF|]. split; [exact HE2|]. split; [congruence|].
    split.
    { cbn [done_all]. split; [|exact HD]. unfold done_grp, closes, cl_cfg. cbn [cl_tc cl_set_finalized cl_scale cl_fixed cl_write_last cl_cues_pos cl_size_pos].
      rewrite M1, M2, M3, M4, M5. repeat split; auto; try (apply K4); try lz. }
    split; [exact HC1|].
    assert (HLn : zlen (w_file w2) = zlen (w_file w1)).
    { rewrite F2, (oc_file _ _ _ _ Ho1). unfold open_file. rewrite H1, !zlen_app, closed_zlen, open_zlen. reflexivity. }
    rewrite HLn. exact B1.
  Qed.

  Lemma CF_stuck : forall c fs ad R st w set_last d, shape w ((c, fs, ad) :: R) st -> cl_header c = false -> st = [] ->
    Cluster_Finalize c set_last d w = Val ((false, c), w).
  Proof.
    intros c fs ad R st w set_last d (Ho & Hc & HL & Hst & HD) HH ->.
    pose proof Hc as (K1 & K2 & K3 & K4 & K5). unfold Cluster_Finalize. rewrite (oc_fin _ _ _ _ Ho), K3.
    pose proof (oc_size_pos _ _ _ _ Ho) as HSP. rewrite HH in HSP.
    unfold live_rel in HL. destruct acc.
    - destruct HL as [[A1 _ _ _ _ _] _]. cbn [merge_stored]. rewrite A1. cbn [some_map map]. rewrite bind_ret. cbn [negb].
      replace (cl_size_pos c =? -1) with true by lz. reflexivity.
    - rewrite bind_ret. cbn [negb]. replace (cl_size_pos c =? -1) with true by lz. reflexivity.
  Qed.

  (* ---------- writing one queued frame ---------- *)

  Lemma same_cl_refl : forall c, same_cl c c.
  Proof. intros c. repeat split. Qed.

  (* the head group may grow *)
  Lemma cue_ok_grow : forall c fs ad R c' ws ws' q, same_cl c c' -> cue_ok ((c, fs, ad) :: R) q -> cue_ok ((c', fs ++ ws, ad ++ ws') :: R) q.
  Proof.
    intros c fs ad R c' ws ws' q (S1 & S2 & S3 & S4 & S5) (H0 & c0 & fs0 & ad0 & g & Hin & H1 & H2 & H3). split; [exact H0|].
    destruct Hin as [Hin|Hin].
    - injection Hin as <- <- <-. exists c', (fs ++ ws), (ad ++ ws'), g. split; [left; reflexivity|]. split; [congruence|]. split; [|exact H3].
      destruct acc; [apply in_or_app; left; exact H2|]. destruct H2 as [H2 H4]. split; [exact H2|].
      rewrite nth_error_app1; [exact H4|]. apply nth_error_Some. congruence.
    - exists c0, fs0, ad0, g. split; [right; exact Hin|]. auto.
  Qed.
  Lemma cue_ok_cons : forall g G q, cue_ok G q -> cue_ok (g :: G) q.
  Proof. intros g0 G q (H0 & c & fs & ad & g & Hin & H). split; [exact H0|]. exists c, fs, ad, g. split; [right; exact Hin|exact H]. Qed.

  Lemma shape_pos : forall w c fs ad R st, shape w ((c, fs, ad) :: R) st -> 0 <= cl_cues_pos c < 2 ^ 55.
  Proof.
    intros w c fs ad R st (Ho & Hc & _). destruct Hc as (_ & _ & _ & _ & K). rewrite K.
    pose proof (oc_small _ _ _ _ Ho) as HB. rewrite (oc_file _ _ _ _ Ho) in HB. unfold open_file in HB.
    pose proof (zlen_nonneg _ (closed_all R)). rewrite zlen_app.
    destruct (cl_header c); rewrite ?zlen_app in HB; [pose proof (zlen_nonneg _ (open_bytes (cl_scale c) (cl_fixed c) (cl_tc c) fs))|]; lz.
  Qed.

  Lemma cfg_dtv : forall s, cfg_ok s -> cfg_ok (sg_set_dtv 4 s).
  Proof. intros s []. constructor; assumption || reflexivity. Qed.
  Lemma cfg_clusters : forall s v, cfg_ok s -> cfg_ok (sg_set_clusters v s).
  Proof. intros s v []. constructor; assumption. Qed.
  Lemma cfg_cues : forall s v, cfg_ok s -> cfg_ok (sg_set_new_cue false (sg_set_cues v s)).
  Proof. intros s v []. constructor; assumption. Qed.
  Lemma cfg_last : forall s v u, cfg_ok s -> cfg_ok (sg_set_track_ts u (sg_set_last_ts v s)).
  Proof. intros s v u []. constructor; assumption. Qed.

  Lemma udiv_scale : forall t, 0 <= t -> udiv t scale = Val (t / scale).
  Proof. intros t H. unfold udiv. replace (scale =? 0) with false by lz. reflexivity. Qed.

  Lemma arr_set_ok : forall (l : list Z) i v, zlen l = 126 -> 0 <= i < 126 -> exists l', arr_set l i v = Val l' /\ zlen l' = 126.
  Proof.
    intros l i v Hl Hi. unfold arr_set. replace ((0 <=? i) && (i <? zlen l)) with true by lz. eexists. split; [reflexivity|].
    rewrite !zlen_app, zlen_cons. unfold zlen in *. rewrite firstn_length, skipn_length. lz.
  Qed.
  Lemma arr_get_ok : forall (l : list Z) i, zlen l = 126 -> 0 <= i < 126 -> exists v, arr_get l i = Val v.
  Proof.
    intros l i Hl Hi. unfold arr_get. replace ((0 <=? i) && (i <? zlen l)) with true by lz. eauto.
  Qed.

  Lemma wrap64_u64 : forall v, is_u64 (wrap64 v).
  Proof. intros v. unfold wrap64, is_u64. apply Z.mod_pos_bound. reflexivity. Qed.
  Lemma blocks_int : forall w c fs ad R st, shape w ((c, fs, ad) :: R) st -> zlen ad <= INT_MAX -> 0 <= wrap64 (cl_blocks c) <= INT_MAX.
  Proof.
    intros w c fs ad R st (Ho & _ & HL & _) Hn. rewrite (oc_blocks _ _ _ _ Ho). pose proof (zlen_nonneg _ fs).
    assert (zlen fs <= INT_MAX). { unfold live_rel in HL. destruct acc; [destruct HL as [[_ _ _ _ _ X] _]; lz|]. destruct HL as (_ & _ & ->). exact Hn. }
    unfold INT_MAX in *. rewrite wrap64_small by (unfold is_u64; lz). lz.
  Qed.
  (* the cue point of a frame just added *)
  Lemma cue_new : forall s w c fs ad R st f, core s w ((c, fs, ad) :: R) st -> good_frame f ->
    (if acc then True else exists fs0, fs = fs0 ++ [f]) -> In f ad -> zlen ad <= INT_MAX -> zlen (sg_cues s) < zlen (addeds ((c, fs, ad) :: R)) ->
    exists s', (if sg_new_cue s && (sg_cues_track s =? fr_track f) then lift (AddCuePoint s (fr_timestamp f) (sg_cues_track s)) else ret (true, s)) w = Val ((true, s'), w) /\
      core s' w ((c, fs, ad) :: R) st /\ quiet s s' /\ sg_last_ts s' = sg_last_ts s.
  Proof.
    intros s w c fs ad R st f HC Hg Hfs Hin Hn Hnc. unfold lift. destruct (sg_new_cue s && (sg_cues_track s =? fr_track f)) eqn:E.
    2:{ exists s. split; [reflexivity|]. split; [exact HC|]. split; [apply quiet_refl|reflexivity]. }
    apply andb_true_iff in E as [E1 E2]. apply Z.eqb_eq in E2. pose proof HC as [K1 K2 K3 K4 K5 K6 K7 K8].
    pose proof (shape_pos _ _ _ _ _ _ K4) as HP. unfold AddCuePoint. rewrite K3. cbn [map g_cl fst]. rewrite (c_info _ K1). fold scale.
    destruct Hg as [Hok HV]. pose proof Hok as (_ & _ & _ & _ & _ & HT & HTS & _).
    rewrite udiv_scale by lz. eexists. split; [reflexivity|]. split; [|split; [repeat split|reflexivity]].
    constructor; try assumption; [apply cfg_cues; exact K1| |cbn [sg_cues sg_set_new_cue sg_set_cues]; rewrite zlen_app; change (zlen [?x]) with 1; lz].
    cbn [sg_cues sg_set_new_cue sg_set_cues]. apply Forall_app. split; [exact K7|].
    constructor; [|constructor]. split; [cbn [cue_output_block_number cue_block_number]; split; [apply (c_outblk _ K1)|apply (blocks_int _ _ _ _ _ _ K4 Hn)]|].
    exists c, fs, ad, f. split; [left; reflexivity|]. cbn [cue_cluster_pos cue_block_number cue_track cue_time].
    split. { apply wrap64_small. unfold is_u64. pw. lz. }
    split; [|split; [congruence|reflexivity]].
    destruct acc eqn:Ea; [exact Hin|]. destruct Hfs as [fs0 ->]. destruct K4 as (Ho & _ & HL & _). unfold live_rel in HL. rewrite Ea in HL.
    destruct HL as (_ & _ & HL). pose proof (oc_blocks _ _ _ _ Ho) as HB. rewrite HB. rewrite <- HL in Hn. rewrite zlen_app in *. change (zlen [f]) with 1 in *.
    pose proof (zlen_nonneg _ fs0). unfold INT_MAX in Hn. rewrite wrap64_small by (unfold is_u64; lz). split; [lz|].
    rewrite nth_error_app2 by (unfold zlen; lz). replace (Z.to_nat (zlen fs0 + 1 - 1) - length fs0)%nat with 0%nat by (unfold zlen; lz). reflexivity.
  Qed.

  Lemma core_cluster : forall s w c fs ad R st w' c' fs' ad' st', core s w ((c, fs, ad) :: R) st -> shape w' ((c', fs', ad') :: R) st' ->
    w_seekable w' = w_seekable w -> Forall (cue_ok ((c', fs', ad') :: R)) (sg_cues s) -> zlen ad <= zlen ad' -> core (set_cluster c' s) w' ((c', fs', ad') :: R) st'.
  Proof.
    intros s w c fs ad R st w' c' fs' ad' st' [K1 K2 K3 K4 K5 K6 K7 K8] HS HK HQ HN. constructor; try assumption; [apply cfg_clusters; exact K1|congruence| |cbn [sg_cues set_cluster sg_set_clusters addeds] in *; rewrite zlen_app in *; lz].
    unfold set_cluster. cbn [sg_clusters sg_set_clusters]. rewrite K3. reflexivity.
  Qed.
  Lemma cues_grow : forall c fs ad R c' ws ws' l, same_cl c c' -> Forall (cue_ok ((c, fs, ad) :: R)) l ->
    Forall (cue_ok ((c', fs ++ ws, ad ++ ws') :: R)) l.
  Proof. intros. eapply Forall_impl; [|eassumption]. intros q Hq. eapply cue_ok_grow; eassumption. Qed.
  Lemma core_dtv : forall s w G st (b : bool), core s w G st -> core (if b then sg_set_dtv 4 s else s) w G st.
  Proof. intros s w G st [|] H; [|exact H]. destruct H. constructor; try assumption. apply cfg_dtv; assumption. Qed.
  Lemma quiet_dtv : forall s (b : bool), quiet s (if b then sg_set_dtv 4 s else s).
  Proof. intros s [|]; repeat split. Qed.

  Lemma WQ_ok : forall s w c fs ad R st f, core s w ((c, fs, ad) :: R) st -> good_frame f -> fits scale (cl_tc c) f ->
    (acc = true -> sorted_ts (ad ++ [f])) -> zlen ad < INT_MAX -> zlen (w_file w) + held_weight st + frame_weight f < 2 ^ 55 ->
    exists s' c' ws st' w', write_queued s f w = Val ((true, s'), w') /\ core s' w' ((c', fs ++ ws, ad ++ [f]) :: R) st' /\
      quiet s s' /\ sg_last_ts s' = Z.max (sg_last_ts s) (fr_timestamp f) /\ same_cl c c' /\ started ((c', fs ++ ws, ad ++ [f]) :: R) st' /\
      zlen (w_file w') + held_weight st' <= zlen (w_file w) + held_weight st + frame_weight f.
  Proof.
    intros s w c fs ad R st f HC Hg Hf HS Hn Hb. unfold write_queued.
    set (s0 := if negb (fr_discard f =? 0) then sg_set_dtv 4 s else s).
    assert (HC0 : core s0 w ((c, fs, ad) :: R) st) by (apply core_dtv; exact HC).
    assert (HQ0 : quiet s s0) by apply quiet_dtv.
    assert (HL0 : sg_last_ts s0 = sg_last_ts s) by (unfold s0; destruct (negb (fr_discard f =? 0)); reflexivity).
    clearbody s0. rewrite (k_clusters _ _ _ _ HC0). cbn [map g_cl fst].
    destruct (QW_ok c fs ad R st w f (k_shape _ _ _ _ HC0) Hg Hf HS Hn Hb) as (c' & ws & st' & w' & E & HS' & SC & SK & ST & HA & B').
    rewrite (bind_run _ _ _ _ _ _ _ E). cbn [negb].
    assert (HC1 : core (set_cluster c' s0) w' ((c', fs ++ ws, ad ++ [f]) :: R) st').
    { eapply core_cluster; [exact HC0|exact HS'|exact SK| |rewrite zlen_app; pose proof (zlen_nonneg _ [f]); lz]. apply cues_grow with (c := c); [exact SC|apply HC0]. }
    assert (HN1 : zlen (sg_cues (set_cluster c' s0)) < zlen (addeds ((c', fs ++ ws, ad ++ [f]) :: R))).
    { pose proof (k_ncue _ _ _ _ HC0) as X. cbn [addeds sg_cues set_cluster sg_set_clusters] in *. rewrite !zlen_app in *. change (zlen [f]) with 1. lz. }
    assert (HQ1 : quiet s (set_cluster c' s0)) by (eapply quiet_trans; [exact HQ0|repeat split]).
    assert (HL1 : sg_last_ts (set_cluster c' s0) = sg_last_ts s) by (rewrite <- HL0; reflexivity).
    set (s1 := set_cluster c' s0) in *. clearbody s1.
    destruct (cue_new s1 w' c' (fs ++ ws) (ad ++ [f]) R st' f HC1 Hg) as (s2 & E2 & HC2 & HQ2 & HL2).
    { destruct acc; [exact I|]. destruct (HA eq_refl) as [-> _]. eauto. }
    { apply in_or_app. right. left. reflexivity. }
    { rewrite zlen_app. change (zlen [f]) with 1. lz. } { exact HN1. }
    rewrite (bind_run _ _ _ _ _ _ _ E2). cbn [negb].
    destruct Hg as [Hok HV]. pose proof Hok as (_ & _ & _ & _ & _ & HT & HTS & _).
    destruct (Z.gtb_spec (fr_timestamp f) (sg_last_ts s2)) as [HG|HG].
    - destruct (arr_set_ok (sg_track_ts s2) (fr_track f - 1) (fr_timestamp f) (k_arr1 _ _ _ _ HC2) ltac:(lz)) as (a & Ea & La).
      unfold lift at 1. unfold bind at 1. rewrite Ea.
      exists (sg_set_track_ts a (sg_set_last_ts (fr_timestamp f) s2)), c', ws, st', w'. split; [reflexivity|].
      split. { destruct HC2. constructor; try assumption. apply cfg_last; assumption. }
      split. { eapply quiet_trans; [exact HQ1|]. eapply quiet_trans; [exact HQ2|]. repeat split. }
      split. { cbn [sg_last_ts sg_set_track_ts sg_set_last_ts]. lz. }
      split; [exact SC|]. split; [exact ST|exact B'].
    - exists s2, c', ws, st', w'. split; [reflexivity|]. split; [exact HC2|]. split; [eapply quiet_trans; eassumption|].
      split; [lz|]. split; [exact SC|]. split; [exact ST|exact B'].
  Qed.

  Lemma WQ_misfit : forall s w c fs ad R st f, core s w ((c, fs, ad) :: R) st -> good_frame f -> ~ fits scale (cl_tc c) f ->
    acc = false -> zlen (w_file w) + held_weight st + frame_weight f < 2 ^ 55 ->
    exists s' c' w', write_queued s f w = Val ((false, s'), w') /\ core s' w' ((c', fs, ad) :: R) st /\
      quiet s s' /\ sg_last_ts s' = sg_last_ts s /\ same_cl c c' /\ started ((c', fs, ad) :: R) st /\
      zlen (w_file w') <= zlen (w_file w) + frame_weight f.
  Proof.
    intros s w c fs ad R st f HC Hg Hf Ha Hb. unfold write_queued.
    set (s0 := if negb (fr_discard f =? 0) then sg_set_dtv 4 s else s).
    assert (HC0 : core s0 w ((c, fs, ad) :: R) st) by (apply core_dtv; exact HC).
    assert (HQ0 : quiet s s0) by apply quiet_dtv.
    assert (HL0 : sg_last_ts s0 = sg_last_ts s) by (unfold s0; destruct (negb (fr_discard f =? 0)); reflexivity).
    clearbody s0. rewrite (k_clusters _ _ _ _ HC0). cbn [map g_cl fst].
    destruct (QW_misfit c fs ad R st w f (k_shape _ _ _ _ HC0) Hg Hf Ha Hb) as (c' & w' & E & HS' & SC & SK & ST & B').
    rewrite (bind_run _ _ _ _ _ _ _ E). cbn [negb].
    exists (set_cluster c' s0), c', w'. split; [reflexivity|].
    split. { eapply core_cluster; [exact HC0|exact HS'|exact SK| |lz]. rewrite <- (app_nil_r fs), <- (app_nil_r ad). apply cues_grow with (c := c); [exact SC|apply HC0]. }
    split; [eapply quiet_trans; [exact HQ0|repeat split]|]. split; [rewrite <- HL0; reflexivity|]. split; [exact SC|]. split; [left; exact ST|exact B'].
  Qed.

  (* ---------- the queue ---------- *)

  Lemma fits_dec : forall tc f, {fits scale tc f} + {~ fits scale tc f}.
  Proof. intros tc f. unfold fits. destruct (Z_le_dec 0 (frame_rel f tc scale)); [|right; lia]. destruct (Z_le_dec (frame_rel f tc scale) 32767); [left; lia|right; lia]. Qed.

  Lemma sorted_prefix : forall a b, sorted_ts (a ++ b) -> sorted_ts a.
  Proof. intros a b H. apply sorted_app in H. apply H. Qed.

  Lemma started_mono : forall c fs ad R st c' fs' ad' st', started ((c, fs, ad) :: R) st -> started ((c', fs', ad') :: R) st' \/ (cl_header c' = cl_header c /\ st' = st) -> started ((c', fs', ad') :: R) st'.
  Proof. intros c fs ad R st c' fs' ad' st' H [H'|[H1 H2]]; [exact H'|]. unfold started in *. rewrite H1, H2. exact H. Qed.

  Lemma WA_run : forall q s w c fs ad R st, core s w ((c, fs, ad) :: R) st -> Forall good_frame q ->
    (acc = true -> Forall (fits scale (cl_tc c)) q /\ sorted_ts (ad ++ q)) -> zlen ad + zlen q <= INT_MAX ->
    zlen (w_file w) + held_weight st + weights q < 2 ^ 55 ->
    exists s' c' ws q' st' w', write_all_loop s (map Some q) w = Val (s', w') /\ core s' w' ((c', fs ++ ws, ad ++ q') :: R) st' /\
      quiet s s' /\ retained anyf q q' /\ (Forall (fits scale (cl_tc c)) q -> q' = q) /\
      (forall b, sg_last_ts s <= b -> Forall (fun f => fr_timestamp f <= b) q -> sg_last_ts s' <= b) /\
      sg_last_ts s <= sg_last_ts s' /\ Forall (fun f => fr_timestamp f <= sg_last_ts s') q' /\
      same_cl c c' /\ (started ((c, fs, ad) :: R) st \/ q <> [] -> started ((c', fs ++ ws, ad ++ q') :: R) st') /\
      (q = [] -> c' = c /\ st' = st) /\
      zlen (w_file w') + held_weight st' <= zlen (w_file w) + held_weight st + weights q.
  Proof.
    induction q as [|f q IH]; intros s w c fs ad R st HC Hg Ha Hn Hb.
    - exists s, c, [], [], st, w. rewrite !app_nil_r. split; [reflexivity|]. split; [exact HC|]. split; [apply quiet_refl|]. split; [constructor|].
      split; [reflexivity|]. split; [intros b H _; exact H|]. split; [lz|]. split; [constructor|]. split; [apply same_cl_refl|].
      split; [intros [H|H]; [exact H|congruence]|]. split; [auto|]. change (weights []) with 0. lz.
    - inversion Hg as [|x l Hgf Hgq]; subst x l. rewrite weights_cons in *. rewrite zlen_cons in Hn. cbn [map write_all_loop].
      pose proof (zlen_nonneg _ q). pose proof (frame_weight_pos f). pose proof (retained_weights _ q q (retained_refl anyf q)) as _.
      assert (HW0 : 0 <= weights q) by (clear; induction q; [cbn; lia|rewrite weights_cons; pose proof (frame_weight_pos a); lia]).
      destruct (fits_dec (cl_tc c) f) as [Hf|Hf].
      + destruct (WQ_ok s w c fs ad R st f HC Hgf Hf) as (s1 & c1 & ws1 & st1 & w1 & E1 & HC1 & HQ1 & HL1 & SC1 & ST1 & B1); [|lz|lz|].
        { intros Ha'. destruct (Ha Ha') as [_ HS]. rewrite (app_assoc ad [f] q : ad ++ f :: q = _) in HS. exact (sorted_prefix _ _ HS). }
        rewrite (bind_run _ _ _ _ _ _ _ E1). cbn [snd]. pose proof SC1 as (_ & _ & ETC & _).
        destruct (IH s1 w1 c1 (fs ++ ws1) (ad ++ [f]) R st1 HC1 Hgq) as (s2 & c2 & ws2 & q2 & st2 & w2 & E2 & HC2 & HQ2 & HR2 & HF2 & HB2 & HM2 & HT2 & SC2 & ST2 & HN2 & B2).
        { intros Ha'. destruct (Ha Ha') as [HF HS]. rewrite ETC. inversion HF; subst. split; [assumption|]. rewrite <- app_assoc. exact HS. }
        { rewrite zlen_app. change (zlen [f]) with 1. lz. } { lz. }
        rewrite <- !app_assoc in HC2. cbn [app] in HC2. rewrite <- !app_assoc in ST2. cbn [app] in ST2.
        exists s2, c2, (ws1 ++ ws2), (f :: q2), st2, w2. split; [exact E2|]. split; [exact HC2|]. split; [eapply quiet_trans; eassumption|].
        split; [constructor; [apply carries_refl|exact HR2]|]. split. { intros HF. inversion HF; subst. rewrite HF2; [reflexivity|]. rewrite ETC. assumption. }
        split. { intros b H1 H2. inversion H2; subst. apply HB2; [lz|assumption]. }
        split; [lz|]. split; [constructor; [lz|exact HT2]|]. split; [eapply same_cl_trans; eassumption|].
        split; [intros _; apply ST2; left; exact ST1|]. split; [discriminate|lz].
      + assert (Ha0 : acc = false). { destruct acc; [|reflexivity]. destruct (Ha eq_refl) as [HF _]. inversion HF; subst. contradiction. }
        destruct (WQ_misfit s w c fs ad R st f HC Hgf Hf Ha0) as (s1 & c1 & w1 & E1 & HC1 & HQ1 & HL1 & SC1 & ST1 & B1); [lz|].
        rewrite (bind_run _ _ _ _ _ _ _ E1). cbn [snd].
        destruct (IH s1 w1 c1 fs ad R st HC1 Hgq) as (s2 & c2 & ws2 & q2 & st2 & w2 & E2 & HC2 & HQ2 & HR2 & HF2 & HB2 & HM2 & HT2 & SC2 & ST2 & HN2 & B2).
        { congruence. } { lz. } { lz. }
        exists s2, c2, ws2, q2, st2, w2. split; [exact E2|]. split; [exact HC2|]. split; [eapply quiet_trans; eassumption|].
        split; [constructor; first [exact HR2 | exact I]|]. split. { intros HF. inversion HF; subst. contradiction. }
        split. { intros b H1 H2. inversion H2; subst. apply HB2; [lz|assumption]. }
        split; [lz|]. split; [exact HT2|]. split; [eapply same_cl_trans; eassumption|].
        split; [intros _; apply ST2; left; exact ST1|]. split; [discriminate|lz].
  Qed.

  Lemma WL_run : forall rest prev s w c fs ad R st ts deleted shift, core s w ((c, fs, ad) :: R) st ->
    Forall good_frame (prev :: rest) -> Forall (fits scale (cl_tc c)) (prev :: rest) ->
    (acc = true -> sorted_ts (ad ++ prev :: rest)) -> zlen ad + zlen (prev :: rest) <= INT_MAX ->
    zlen (w_file w) + held_weight st + weights (prev :: rest) < 2 ^ 55 ->
    exists k s' c' ws st' w', (k <= length rest)%nat /\
      write_less_loop s (Some prev) (map Some rest) ts deleted shift w = Val ((s', (k + deleted)%nat, (k + shift)%nat), w') /\
      core s' w' ((c', fs ++ ws, ad ++ firstn k (prev :: rest)) :: R) st' /\ quiet s s' /\
      (forall b, sg_last_ts s <= b -> Forall (fun f => fr_timestamp f <= b) (prev :: rest) -> sg_last_ts s' <= b) /\
      sg_last_ts s <= sg_last_ts s' /\ Forall (fun f => fr_timestamp f <= sg_last_ts s') (firstn k (prev :: rest)) /\ same_cl c c' /\
      (started ((c, fs, ad) :: R) st -> started ((c', fs ++ ws, ad ++ firstn k (prev :: rest)) :: R) st') /\
      (k = 0%nat -> s' = s /\ c' = c /\ ws = [] /\ st' = st /\ w' = w) /\ (k <> 0%nat -> started ((c', fs ++ ws, ad ++ firstn k (prev :: rest)) :: R) st') /\
      (Forall (fun f => fr_timestamp f <= ts) rest -> k = length rest) /\
      zlen (w_file w') + held_weight st' + weights (skipn k (prev :: rest)) <= zlen (w_file w) + held_weight st + weights (prev :: rest).
  Proof.
    induction rest as [|cur rest IH]; intros prev s w c fs ad R st ts deleted shift HC Hg Hf HS Hn Hb.
    - exists 0%nat, s, c, [], st, w. cbn [map write_less_loop firstn length skipn]. rewrite !app_nil_r. split; [lz|]. split; [reflexivity|]. split; [exact HC|].
      split; [apply quiet_refl|]. split; [auto|]. split; [lz|]. split; [constructor|]. split; [apply same_cl_refl|]. split; [auto|]. split; [auto|]. split; [congruence|]. split; [auto|lz].
    - cbn [map write_less_loop]. destruct (Z.gtb_spec (fr_timestamp cur) ts) as [HT|HT].
      + exists 0%nat, s, c, [], st, w. cbn [firstn skipn]. rewrite !app_nil_r. split; [lz|]. split; [reflexivity|]. split; [exact HC|].
        split; [apply quiet_refl|]. split; [auto|]. split; [lz|]. split; [constructor|]. split; [apply same_cl_refl|]. split; [auto|]. split; [auto|]. split; [congruence|].
        split; [|lz]. intros HF. inversion HF; subst. lia.
      + inversion Hg as [|x l Hg1 Hg2]; subst x l. inversion Hf as [|x l Hf1 Hf2]; subst x l. rewrite (weights_cons prev) in *. rewrite zlen_cons in Hn.
        pose proof (zlen_nonneg _ (cur :: rest)). pose proof (weights_nonneg (cur :: rest)). pose proof (frame_weight_pos prev).
        destruct (WQ_ok s w c fs ad R st prev HC Hg1 Hf1) as (s1 & c1 & ws1 & st1 & w1 & E1 & HC1 & HQ1 & HL1 & SC1 & ST1 & B1); [|lz|lz|].
        { intros Ha'. specialize (HS Ha'). rewrite (app_assoc ad [prev] (cur :: rest) : ad ++ prev :: cur :: rest = _) in HS. exact (sorted_prefix _ _ HS). }
        rewrite (bind_run _ _ _ _ _ _ _ E1). pose proof SC1 as (_ & _ & ETC & _).
        destruct (IH cur s1 w1 c1 (fs ++ ws1) (ad ++ [prev]) R st1 ts (S deleted) (S shift) HC1 Hg2) as (k & s2 & c2 & ws2 & st2 & w2 & Hk & E2 & HC2 & HQ2 & HB2 & HM2 & HT2 & SC2 & ST2 & HZ2 & HP2 & HA2 & B2).
        { rewrite ETC. exact Hf2. } { intros Ha'. rewrite <- app_assoc. exact (HS Ha'). }
        { rewrite zlen_app. change (zlen [prev]) with 1. lz. } { lz. }
        rewrite <- !app_assoc in HC2, ST2, HP2. cbn [app] in HC2, ST2, HP2.
        exists (S k), s2, c2, (ws1 ++ ws2), st2, w2. cbn [length]. change (firstn (S k) (prev :: cur :: rest)) with (prev :: firstn k (cur :: rest)).
        change (skipn (S k) (prev :: cur :: rest)) with (skipn k (cur :: rest)).
        split; [lz|]. split. { rewrite E2. do 3 f_equal; [f_equal|]; lz. }
        split; [exact HC2|]. split; [eapply quiet_trans; eassumption|].
        split. { intros b H1' H2'. inversion H2'; subst. apply HB2; [lz|assumption]. }
        split; [lz|]. split; [constructor; [lz|exact HT2]|]. split; [eapply same_cl_trans; eassumption|].
        split; [intros _; apply ST2; exact ST1|]. split; [discriminate|]. split; [intros _; apply ST2; exact ST1|].
        split; [|lz]. intros HF. inversion HF; subst. f_equal. apply HA2. assumption.
  Qed.

  Definition qpre (G : list grp) (q : list frame) : Prop :=
    match G with [] => True | (c, _, ad) :: _ => Forall (fits scale (cl_tc c)) q /\ (acc = true -> sorted_ts (ad ++ q)) end.

  Lemma core_frames : forall s w G st v, core s w G st -> core (sg_set_frames v s) w G st.
  Proof. intros s w G st v []. constructor; try assumption. destruct k_cfg0. constructor; assumption. Qed.

  Lemma WFL_run : forall s w c fs ad R st q ts, core s w ((c, fs, ad) :: R) st -> sg_frames s = map Some q -> Forall good_frame q ->
    qpre ((c, fs, ad) :: R) q -> zlen ad + zlen q <= INT_MAX -> zlen (w_file w) + held_weight st + weights q < 2 ^ 55 ->
    exists q1 q2 s' c' ws st' w', q = q1 ++ q2 /\ WriteFramesLessThan s ts w = Val ((true, s'), w') /\
      core s' w' ((c', fs ++ ws, ad ++ q1) :: R) st' /\ quiet (sg_set_frames (map Some q2) s) s' /\
      (forall b, sg_last_ts s <= b -> Forall (fun f => fr_timestamp f <= b) q -> sg_last_ts s' <= b) /\
      sg_last_ts s <= sg_last_ts s' /\ Forall (fun f => fr_timestamp f <= sg_last_ts s') q1 /\ same_cl c c' /\
      (started ((c, fs, ad) :: R) st -> started ((c', fs ++ ws, ad ++ q1) :: R) st') /\
      (q1 = [] -> c' = c /\ ws = [] /\ st' = st /\ w' = w /\ sg_last_ts s' = sg_last_ts s) /\ (q1 <> [] -> started ((c', fs ++ ws, ad ++ q1) :: R) st') /\
      (Forall (fun f => fr_timestamp f <= ts) q -> (length q2 <= 1)%nat) /\
      zlen (w_file w') + held_weight st' + weights q2 <= zlen (w_file w) + held_weight st + weights q.
  Proof.
    intros s w c fs ad R st q ts HC HF Hg [Hf HS] Hn Hb. unfold WriteFramesLessThan. rewrite HF, (k_clusters _ _ _ _ HC). cbn [map g_cl fst].
    destruct q as [|f0 rest].
    - exists [], [], s, c, [], st, w. cbn [map]. rewrite !app_nil_r. split; [reflexivity|]. split; [reflexivity|]. split; [exact HC|].
      split. { repeat split. exact HF. } split; [auto|]. split; [lz|]. split; [constructor|]. split; [apply same_cl_refl|]. split; [auto|]. split; [auto|]. split; [congruence|].
      split; [cbn; lz|lz].
    - cbn [map].
      destruct (WL_run rest f0 s w c fs ad R st ts 0 0 HC Hg Hf HS Hn Hb) as (k & s2 & c2 & ws2 & st2 & w2 & Hk & E2 & HC2 & HQ2 & HB2 & HM2 & HT2 & SC2 & ST2 & HZ2 & HP2 & HA2 & B2).
      rewrite Nat.add_0_r in E2. rewrite (bind_run _ _ _ _ _ _ _ E2).
      exists (firstn k (f0 :: rest)), (skipn k (f0 :: rest)).
      assert (Hsk : skipn k (repeat None k ++ skipn k (Some f0 :: map Some rest)) = map Some (skipn k (f0 :: rest))).
      { rewrite skipn_app, repeat_length, Nat.sub_diag. rewrite skipn_all2 by (rewrite repeat_length; lia). cbn [app]. change (skipn 0 ?x) with x.
        change (Some f0 :: map Some rest) with (map Some (f0 :: rest)). apply skipn_map. }
      rewrite Hsk. eexists _, c2, ws2, st2, w2. split; [symmetry; apply firstn_skipn|]. split; [reflexivity|].
      split; [apply core_frames; exact HC2|]. split. { destruct HQ2 as (Q1 & Q2 & Q3 & Q4 & Q5 & Q6 & Q7). repeat split; assumption. }
      split; [exact HB2|]. split; [exact HM2|]. split; [exact HT2|]. split; [exact SC2|]. split; [exact ST2|].
      split. { intros HE. assert (k = 0%nat) as -> by (destruct k; [reflexivity|discriminate]). destruct (HZ2 eq_refl) as (-> & -> & -> & -> & ->). auto. }
      split. { intros HE. apply HP2. intros ->. apply HE. reflexivity. }
      split; [|exact B2]. intros HF'. inversion HF'; subst. rewrite HA2 by assumption. rewrite skipn_length. cbn [length]. lz.
  Qed.

  Lemma addeds_cons : forall c fs ad R, addeds ((c, fs, ad) :: R) = addeds R ++ ad.
  Proof. reflexivity. Qed.

  Definition make_tail (s1 : segment) (ts : Z) : W (bool * segment) :=
    (let s1 := if sg_output_cues s1 then sg_set_new_cue true s1 else s1 in
         let scale := si_timecode_scale (sg_info s1) in
         frame_timecode <- lift (udiv ts scale);;
         cluster_timecode <-
           match sg_frames s1 with
           | [] => ret frame_timecode
           | None :: _ => wub
           | Some f :: _ => tc <- lift (udiv (fr_timestamp f) scale);; ret (if tc <? frame_timecode then tc else frame_timecode)
           end;;
         offset <- MaxOffset s1;;
         ret (true, sg_set_clusters (new_cluster cluster_timecode offset scale (sg_accurate s1) (sg_fixed s1) :: sg_clusters s1) s1)).
  Lemma MNC_step0 : forall s s1 w w1 ts, WriteFramesLessThan s ts w = Val ((true, s1), w1) -> sg_clusters s1 = [] ->
    MakeNewCluster s ts w = make_tail s1 ts w1.
  Proof. intros s s1 w w1 ts E HC. unfold MakeNewCluster. rewrite (bind_run _ _ _ _ _ _ _ E). cbn [negb]. rewrite HC at 1. reflexivity. Qed.
  Lemma MNC_step1 : forall s s1 w w1 ts c r b c' w2, WriteFramesLessThan s ts w = Val ((true, s1), w1) -> sg_clusters s1 = c :: r ->
    Cluster_Finalize c true ts w1 = Val ((b, c'), w2) ->
    MakeNewCluster s ts w = if b then make_tail (set_cluster c' s1) ts w2 else Val ((false, set_cluster c' s1), w2).
  Proof.
    intros s s1 w w1 ts c r b c' w2 E HC E2. unfold MakeNewCluster. rewrite (bind_run _ _ _ _ _ _ _ E). cbn [negb]. rewrite HC at 1.
    rewrite bind_assoc, (bind_run _ _ _ _ _ _ _ E2), bind_ret. destruct b; reflexivity.
  Qed.

  Lemma MNC_run : forall s w G st q ts, core s w G st -> sg_frames s = map Some q -> Forall good_frame q -> qpre G q ->
    zlen (addeds G) + zlen q <= INT_MAX -> 0 <= ts < 2 ^ 63 -> zlen (w_file w) + held_weight st + weights q < 2 ^ 55 ->
    (exists s' w' G' q1 q2 c0, MakeNewCluster s ts w = Val ((true, s'), w') /\ q = q1 ++ q2 /\ core s' w' ((c0, [], []) :: G') [] /\
      addeds G' = addeds G ++ q1 /\ cl_header c0 = false /\
      cl_tc c0 = match q2 with [] => ts / scale | x :: _ => Z.min (tcf x) (ts / scale) end /\
      quiet (sg_set_frames (map Some q2) s) s' /\ (G = [] -> q1 = []) /\
      (G <> [] -> Forall (fun f => fr_timestamp f <= ts) q -> (length q2 <= 1)%nat) /\
      (forall b, sg_last_ts s <= b -> Forall (fun f => fr_timestamp f <= b) q -> sg_last_ts s' <= b) /\
      sg_last_ts s <= sg_last_ts s' /\ Forall (fun f => fr_timestamp f <= sg_last_ts s') q1 /\
      zlen (w_file w') + weights q2 <= zlen (w_file w) + held_weight st + weights q /\
      match G with [] => G' = [] | (c, fs, ad) :: R => exists c2 fs2, G' = (c2, fs2, ad ++ q1) :: R /\ cl_tc c2 = cl_tc c end /\ (G <> [] -> started G st \/ q1 <> [])) \/
    (exists s', MakeNewCluster s ts w = Val ((false, s'), w) /\ core s' w G st /\ quiet s s' /\ sg_last_ts s' = sg_last_ts s /\ ~ started G st).
  Proof.
    intros s w G st q ts HC HF Hg Hq Hn Hts Hb.
    (* creating the cluster *)
    assert (Hnew : forall s1 w1 G1 q2, done_all G1 -> w_file w1 = hd ++ closed_all G1 -> at_end w1 -> w_seekable w1 = known -> cfg_ok s1 -> sg_clusters s1 = map g_cl G1 ->
       zlen (sg_track_ts s1) = 126 -> zlen (sg_track_frames s1) = 126 -> Forall (cue_ok G1) (sg_cues s1) -> zlen (sg_cues s1) <= zlen (addeds G1) -> sg_frames s1 = map Some q2 -> Forall good_frame q2 -> zlen (w_file w1) < 2 ^ 55 ->
       exists s' c0, make_tail s1 ts w1 = Val ((true, s'), w1) /\
         core s' w1 ((c0, [], []) :: G1) [] /\ cl_header c0 = false /\ cl_tc c0 = match q2 with [] => ts / scale | x :: _ => Z.min (tcf x) (ts / scale) end /\
         quiet s1 s' /\ sg_last_ts s' = sg_last_ts s1).
    { intros s1 w1 G1 q2 HD HFl HE HK Hcfg HCl A1 A2 HQ HNc HFr Hg2 Hsm.
      set (s2 := if sg_output_cues s1 then sg_set_new_cue true s1 else s1).
      assert (X : cfg_ok s2 /\ sg_clusters s2 = map g_cl G1 /\ zlen (sg_track_ts s2) = 126 /\ zlen (sg_track_frames s2) = 126 /\ Forall (cue_ok G1) (sg_cues s2) /\ sg_frames s2 = map Some q2 /\ quiet s1 s2 /\ sg_last_ts s2 = sg_last_ts s1 /\ zlen (sg_cues s2) <= zlen (addeds G1)).
      { unfold s2. destruct (sg_output_cues s1); [|repeat split; assumption || (apply Hcfg)].
        split; [destruct Hcfg; constructor; assumption|]. repeat split; assumption. }
      unfold make_tail. fold s2. clearbody s2. destruct X as (X1 & X2 & X3 & X4 & X5 & X6 & X7 & X8 & X9). cbv zeta. rewrite (c_info _ X1). fold scale.
      rewrite udiv_scale by lz. unfold lift at 1. unfold bind at 1. rewrite X6.
      set (tc0 := match q2 with [] => ts / scale | x :: _ => Z.min (tcf x) (ts / scale) end).
      assert (HT0 : 0 <= ts / scale < 2 ^ 63). { split; [apply Z.div_pos; lz|]. eapply Z.le_lt_trans; [apply Z.div_le_upper_bound with (q := ts); nia|lz]. }
      assert (ETC : match map Some q2 with
           | [] => ret (ts / scale)
           | None :: _ => wub
           | Some f :: _ => tc <- lift (udiv (fr_timestamp f) scale);; ret (if tc <? ts / scale then tc else ts / scale)
           end w1 = Val (tc0, w1)).
      { unfold tc0. destruct q2 as [|x q2]; cbn [map]; [reflexivity|]. inversion Hg2 as [|? ? Hx]; subst. destruct Hx as [(_ & _ & _ & _ & _ & _ & HTS & _) _].
        rewrite udiv_scale by lz. unfold lift, bind, ret, tcf. f_equal. f_equal. destruct (Z.ltb_spec (fr_timestamp x / scale) (ts / scale)); lz. }
      rewrite (bind_run _ _ _ _ _ _ _ ETC). unfold MaxOffset. rewrite bind_assoc, bind_position, bind_ret.
      rewrite (c_ppos _ X1), (c_acc _ X1), (c_fixed _ X1).
      eexists _, (new_cluster tc0 (w_pos w1 - ppos) scale acc fixed). split; [reflexivity|].
      assert (HTC : 0 <= tc0 < 2 ^ 63). { unfold tc0. destruct q2 as [|x q2]; [exact HT0|]. inversion Hg2 as [|? ? Hx]; subst. destruct Hx as [(_ & _ & _ & _ & _ & _ & HTS & _) _].
        assert (0 <= tcf x) by (apply Z.div_pos; lz). lz. }
      split; [|split; [reflexivity|split; [reflexivity|split; [destruct X7 as (Q1 & Q2 & Q3 & Q4 & Q5 & Q6 & Q7); repeat split; assumption|exact X8]]]].
      constructor; try assumption; [destruct X1; constructor; assumption| | | |].
      { cbn [sg_clusters sg_set_clusters map]. rewrite X2. reflexivity. }
      { cbn [shape]. split; [|split; [|split; [|split; [constructor|exact HD]]]].
        - constructor; try reflexivity; try assumption.
        - unfold cl_cfg, new_cluster. cbn [cl_scale cl_fixed cl_write_last cl_tc cl_cues_pos]. repeat split; try apply HTC. rewrite (proj2 HE), HFl. reflexivity.
        - unfold live_rel. destruct acc; [|repeat split].
          split; [|constructor]. constructor; try reflexivity; try (intros; contradiction); [|constructor].
          repeat split; constructor. }
      { cbn [sg_cues sg_set_clusters]. eapply Forall_impl; [|exact X5]. intros x. apply cue_ok_cons. }
      { cbn [addeds sg_cues sg_set_clusters]. rewrite app_nil_r. exact X9. } }
    destruct G as [|[[c fs] ad] R].
    - assert (E : WriteFramesLessThan s ts w = Val ((true, s), w)).
      { unfold WriteFramesLessThan. rewrite (k_clusters _ _ _ _ HC). destruct (sg_frames s); reflexivity. }
      rewrite (MNC_step0 _ _ _ _ _ E (k_clusters _ _ _ _ HC)).
      pose proof HC as [K1 K2 K3 K4 K5 K6 K7 K8]. destruct K4 as (F1 & F2 & ->). change (held_weight []) with 0 in *. pose proof (weights_nonneg q).
      destruct (Hnew s w [] q I) as (s' & c0 & E' & HC' & HH & HT & HQ & HL); auto.
      { rewrite F1, app_nil_r. reflexivity. } { lz. }
      left. exists s', w, [], [], q, c0. split; [exact E'|]. split; [reflexivity|]. split; [exact HC'|]. split; [reflexivity|]. split; [exact HH|]. split; [exact HT|].
      split; [destruct HQ as (Q1 & Q2 & Q3 & Q4 & Q5 & Q6 & Q7); repeat split; try assumption; rewrite Q1; exact HF|].
      split; [auto|]. split; [congruence|]. split; [intros b Hb' _; rewrite HL; exact Hb'|]. split; [lz|]. split; [constructor|]. split; [lz|]. split; [reflexivity|congruence].
    - rewrite addeds_cons, zlen_app in Hn. pose proof (zlen_nonneg _ (addeds R)).
      destruct (WFL_run s w c fs ad R st q ts HC HF Hg Hq) as (q1 & q2 & s1 & c1 & ws1 & st1 & w1 & Eq & E1 & HC1 & HQ1 & HB1 & HM1 & HT1 & SC1 & ST1 & HZ1 & HP1 & HA1 & B1); [lz|lz|].
      pose proof (weights_nonneg q2). assert (HLq : zlen q1 <= zlen q) by (rewrite Eq, zlen_app; pose proof (zlen_nonneg _ q2); lz).
      assert (Hcase : started ((c1, fs ++ ws1, ad ++ q1) :: R) st1 \/ (cl_header c1 = false /\ st1 = [])).
      { unfold started. destruct (cl_header c1); [left; left; reflexivity|]. destruct st1; [right; auto|left; right; discriminate]. }
      destruct Hcase as [Hst|[Hh Hst]].
      + destruct (CF_run c1 (fs ++ ws1) (ad ++ q1) R st1 w1 true ts (k_shape _ _ _ _ HC1) (k_seekable _ _ _ _ HC1) Hst) as (c2 & ws2 & w2 & E2 & F2 & AE2 & SK2 & HD2 & SC2 & B2).
        { rewrite zlen_app. lz. } { lz. }
        rewrite (MNC_step1 _ _ _ _ _ _ _ _ _ _ E1 (k_clusters _ _ _ _ HC1) E2).
        destruct (Hnew (set_cluster c2 s1) w2 ((c2, (fs ++ ws1) ++ ws2, ad ++ q1) :: R) q2) as (s' & c0 & E' & HC' & HH & HT & HQ & HL); auto; try apply HC1.
        { rewrite SK2. apply HC1. } { apply cfg_clusters, HC1. } { unfold set_cluster. cbn [sg_clusters sg_set_clusters]. rewrite (k_clusters _ _ _ _ HC1). reflexivity. }
        { replace (ad ++ q1) with ((ad ++ q1) ++ []) by apply app_nil_r. cbn [sg_cues set_cluster sg_set_clusters]. eapply cues_grow; [exact SC2|apply HC1]. }
        { destruct HQ1 as (Q1 & _). exact Q1. }
        { rewrite Eq in Hg. apply Forall_app in Hg. apply Hg. } { lz. }
        left. exists s', w2, ((c2, (fs ++ ws1) ++ ws2, ad ++ q1) :: R), q1, q2, c0. split; [exact E'|]. split; [exact Eq|]. split; [exact HC'|].
        split. { rewrite !addeds_cons, app_assoc. reflexivity. } split; [exact HH|]. split; [exact HT|].
        split. { eapply quiet_trans; [exact HQ1|]. destruct HQ as (Q1 & Q2 & Q3 & Q4 & Q5 & Q6 & Q7). repeat split; assumption. }
        split; [discriminate|]. split; [auto|]. rewrite HL. change (sg_last_ts (set_cluster c2 s1)) with (sg_last_ts s1).
        split; [exact HB1|]. split; [exact HM1|]. split; [exact HT1|]. split; [lz|].
        split. { exists c2, ((fs ++ ws1) ++ ws2). split; [reflexivity|]. destruct SC2 as (_ & _ & -> & _). destruct SC1 as (_ & _ & -> & _). reflexivity. }
        intros _. destruct q1 as [|x q1]; [left|right; discriminate]. destruct (HZ1 eq_refl) as (EQ1 & _ & EQ2 & _). unfold started in *. rewrite <- EQ1, <- EQ2. exact Hst.
      + assert (q1 = []) as ->. { destruct q1 as [|x q1]; [reflexivity|]. exfalso. destruct (HP1 ltac:(discriminate)) as [X|X]; congruence. }
        destruct (HZ1 eq_refl) as (-> & -> & -> & -> & HLl). rewrite !app_nil_r in HC1.
        rewrite (MNC_step1 _ _ _ _ _ _ _ _ _ _ E1 (k_clusters _ _ _ _ HC1) (CF_stuck c fs ad R st w true ts (k_shape _ _ _ _ HC1) Hh Hst)).
        right. exists (set_cluster c s1). split; [reflexivity|]. split. { eapply core_cluster; [exact HC1|apply HC1|reflexivity|apply HC1|lz]. }
        split. { destruct HQ1 as (Q1 & Q2 & Q3 & Q4 & Q5 & Q6 & Q7). cbn [app] in Eq. subst q2. repeat split; try assumption. rewrite HF. exact Q1. }
        split; [exact HLl|]. unfold started. rewrite Hh, Hst. intros [X|X]; congruence.
  Qed.

  Lemma WFA_run : forall q s w c fs ad R st, core s w ((c, fs, ad) :: R) st -> sg_frames s = map Some q -> (q <> [] -> sg_frames_alloc s = true) ->
    Forall good_frame q -> (acc = true -> Forall (fits scale (cl_tc c)) q /\ sorted_ts (ad ++ q)) -> zlen ad + zlen q <= INT_MAX ->
    zlen (w_file w) + held_weight st + weights q < 2 ^ 55 ->
    exists n s' c' ws q' st' w', WriteFramesAll s w = Val ((n, s'), w') /\ 0 <= n /\ core s' w' ((c', fs ++ ws, ad ++ q') :: R) st' /\
      quiet (sg_set_frames [] s) s' /\ retained anyf q q' /\ (Forall (fits scale (cl_tc c)) q -> q' = q) /\
      (forall b, sg_last_ts s <= b -> Forall (fun f => fr_timestamp f <= b) q -> sg_last_ts s' <= b) /\
      sg_last_ts s <= sg_last_ts s' /\ Forall (fun f => fr_timestamp f <= sg_last_ts s') q' /\
      same_cl c c' /\ (started ((c, fs, ad) :: R) st \/ q <> [] -> started ((c', fs ++ ws, ad ++ q') :: R) st') /\
      zlen (w_file w') + held_weight st' <= zlen (w_file w) + held_weight st + weights q /\ (q = [] -> c' = c /\ st' = st).
  Proof.
    intros q s w c fs ad R st HC HF HA Hg Ha Hn Hb. unfold WriteFramesAll. destruct (sg_frames_alloc s) eqn:EA; cbn [negb].
    - rewrite (k_clusters _ _ _ _ HC). cbn [map]. rewrite HF.
      destruct (WA_run q s w c fs ad R st HC Hg Ha Hn Hb) as (s2 & c2 & ws2 & q2 & st2 & w2 & E2 & HC2 & HQ2 & HR2 & HF2 & HB2 & HM2 & HT2 & SC2 & ST2 & HN2 & B2).
      rewrite (bind_run _ _ _ _ _ _ _ E2). exists (zlen (map Some q)), (sg_set_frames [] s2), c2, ws2, q2, st2, w2. split; [reflexivity|]. split; [apply zlen_nonneg|].
      split; [apply core_frames; exact HC2|]. split; [destruct HQ2 as (Q1 & Q2 & Q3 & Q4 & Q5 & Q6 & Q7); repeat split; assumption|].
      split; [exact HR2|]. split; [exact HF2|]. split; [exact HB2|]. split; [exact HM2|]. split; [exact HT2|]. split; [exact SC2|]. split; [exact ST2|]. split; [exact B2|exact HN2].
    - assert (q = []) as -> by (destruct q; [reflexivity|specialize (HA ltac:(discriminate)); discriminate]).
      exists 0, s, c, [], [], st, w. rewrite !app_nil_r. split; [reflexivity|]. split; [lz|]. split; [exact HC|]. split; [repeat split; assumption|]. split; [constructor|]. split; [auto|].
      split; [auto|]. split; [lz|]. split; [constructor|]. split; [apply same_cl_refl|]. split; [intros [H|H]; [exact H|congruence]|]. change (weights []) with 0. split; [lz|auto].
  Qed.

  Definition fhd (q : list frame) (d : Z) : Z := match q with [] => d | x :: _ => tcf x end.
  (* the queue can be written without loss when a frame at ts arrives *)
  Definition easy (G : list grp) (q : list frame) (ts : Z) : Prop :=
    Forall (fun f => fr_timestamp f <= ts) q /\ (G = [] -> Forall (fits scale (fhd q 0)) q).
  (* a frame at ts fits the cluster that starts with what is left of the queue *)
  Definition gapok (G : list grp) (q : list frame) (ts : Z) : Prop :=
    match q with [] => True | x :: _ => ts / scale - tcf (match G with [] => x | _ => last q x end) <= 32767 end.
  Definition gate (G : list grp) (s : segment) (ts : Z) : Prop :=
    match G with [] => True | (c, _, _) :: _ => sg_force s = true \/ 0 <= ts / scale - cl_tc c <= 32767 end.

  Lemma TestFrame_run : forall s w G st n ts key v, core s w G st -> TrackIsVideo trs n = Val v -> gate G s ts -> 0 <= ts < 2 ^ 63 ->
    TestFrame s n ts key = Val 1 \/ (TestFrame s n ts key = Val 0 /\ exists c fs ad R, G = (c, fs, ad) :: R /\ 0 <= ts / scale - cl_tc c <= 32767).
  Proof.
    intros s w G st n ts key v HC HV HG Hts. unfold TestFrame. destruct (sg_force s) eqn:EF; [left; reflexivity|].
    rewrite (k_clusters _ _ _ _ HC). destruct G as [|[[c fs] ad] R]; cbn [map g_cl fst]; [left; reflexivity|].
    destruct HG as [HG|HG]; [congruence|]. pose proof HC as [K1 K2 K3 K4 K5 K6 K7 K8]. rewrite (c_info _ K1), (c_trs _ K1). fold scale.
    rewrite udiv_scale by lz. replace (ts / scale <? cl_tc c) with false by lz.
    destruct K4 as (_ & HCf & _). destruct HCf as (_ & _ & _ & HTC & _).
    rewrite sint64_id by (unfold is_s64; pw; lz). replace (ts / scale - cl_tc c >? kMaxBlockTimecode) with false by (unfold kMaxBlockTimecode; lz).
    assert (HX : (if key then TrackIsVideo trs n else Val false) = Val (if key then v else false)) by (destruct key; [exact HV|reflexivity]).
    rewrite HX. destruct (if key then v else false); [left; reflexivity|].
    destruct (_ && _); [left; reflexivity|]. destruct (_ && _); [left; reflexivity|]. right. split; [reflexivity|]. exists c, fs, ad, R. split; [reflexivity|exact HG].
  Qed.

  Lemma last_app1 : forall A (l : list A) x d, last (l ++ [x]) d = x.
  Proof. intros. apply last_last. Qed.

  Lemma core_force : forall s w G st v, core s w G st -> core (sg_set_force v s) w G st.
  Proof. intros s w G st v []. constructor; try assumption. destruct k_cfg0. constructor; assumption. Qed.

  Definition all_tail (s : segment) : W (bool * segment) :=
    r <- WriteFramesAll s;; let '(n, s) := r in if n <? 0 then ret (false, s) else ret (true, s).
  Lemma DN_step1 : forall k s n ts key w, TestFrame s n ts key = Val 1 ->
    DoNewClusterProcessing (S k) s n ts key w =
    (r <- MakeNewCluster (sg_set_force false s) ts;; let '(ok, s) := r in if negb ok then ret (false, s) else all_tail s) w.
  Proof. intros k s n ts key w E. cbn [DoNewClusterProcessing]. rewrite E. reflexivity. Qed.
  Lemma DN_step0 : forall k s n ts key w, TestFrame s n ts key = Val 0 ->
    DoNewClusterProcessing (S k) s n ts key w = all_tail (sg_set_force false s) w.
  Proof. intros k s n ts key w E. cbn [DoNewClusterProcessing]. rewrite E. reflexivity. Qed.

  Lemma DN_run : forall s w G st q n ts key v, core s w G st -> sg_frames s = map Some q -> (q <> [] -> sg_frames_alloc s = true) ->
    Forall good_frame q -> qpre G q -> (acc = true -> easy G q ts /\ sorted_ts q) -> gate G s ts -> TrackIsVideo trs n = Val v ->
    zlen (addeds G) + zlen q <= INT_MAX -> 0 <= ts < 2 ^ 63 -> zlen (w_file w) + held_weight st + weights q < 2 ^ 55 ->
    (exists s' w' c fs ad R st' q', DoNewClusterProcessing 4 s n ts key w = Val ((true, s'), w') /\ core s' w' ((c, fs, ad) :: R) st' /\
      addeds ((c, fs, ad) :: R) = addeds G ++ q' /\ retained anyf q q' /\ (easy G q ts -> q' = q) /\
      quiet (sg_set_force false (sg_set_frames [] s)) s' /\ cl_tc c <= ts / scale /\ (easy G q ts -> gapok G q ts -> ts / scale - cl_tc c <= 32767) /\
      (forall b, sg_last_ts s <= b -> Forall (fun f => fr_timestamp f <= b) q -> sg_last_ts s' <= b) /\
      sg_last_ts s <= sg_last_ts s' /\ Forall (fun f => fr_timestamp f <= sg_last_ts s') q' /\
      zlen (w_file w') + held_weight st' <= zlen (w_file w) + held_weight st + weights q /\
      (easy G q ts -> Forall (fun f => fr_timestamp f <= ts) (addeds G) -> fresh G st -> order G -> full G ->
        order ((c, fs, ad) :: R) /\ full ((c, fs, ad) :: R) /\ fresh ((c, fs, ad) :: R) st' /\ (ad = [] -> ts / scale - cl_tc c <= 32767))) \/
    (exists s', DoNewClusterProcessing 4 s n ts key w = Val ((false, s'), w) /\ core s' w G st /\ quiet (sg_set_force false s) s' /\
      sg_last_ts s' = sg_last_ts s /\ G <> [] /\ ~ started G st).
  Proof.
    intros s w G st q n ts key v HC HF HA Hg Hq Ha HG HV Hn Hts Hb.
    destruct (TestFrame_run s w G st n ts key v HC HV HG Hts) as [ET|(ET & c & fs & ad & R & -> & HT)].
    - rewrite (DN_step1 _ _ _ _ _ _ ET). set (s0 := sg_set_force false s). assert (HC0 : core s0 w G st) by (apply core_force; exact HC).
      destruct (MNC_run s0 w G st q ts HC0 HF Hg Hq Hn Hts Hb) as
        [(s1 & w1 & G1 & q1 & q2 & c0 & E1 & Eq & HC1 & EA1 & HH & HT & HQ1 & HG1 & HL1 & HB1 & HM1 & HT1 & B1 & HTG & HSG)|(s1 & E1 & HC1 & HQ1 & HL1 & HS1)].
      2:{ right. rewrite (bind_run _ _ _ _ _ _ _ E1). cbn [negb]. exists s1. split; [reflexivity|]. split; [exact HC1|]. split; [exact HQ1|]. split; [exact HL1|].
          split; [|exact HS1]. intros ->. apply HS1. exact I. }
      left. rewrite (bind_run _ _ _ _ _ _ _ E1). cbn [negb]. destruct HQ1 as (Q1 & Q2 & Q3 & Q4 & Q5 & Q6 & Q7).
      assert (Hg' : Forall good_frame q1 /\ Forall good_frame q2) by (rewrite Eq in Hg; apply Forall_app; exact Hg). destruct Hg' as [Hgq1 Hgq2].
      (* what is left of the queue fits the new cluster *)
      assert (Hfit : easy G q ts -> Forall (fits scale (cl_tc c0)) q2).
      { intros [HE1 HE2]. destruct q2 as [|x q2]; [constructor|]. 
        assert (Hx : fr_timestamp x <= ts). { rewrite Eq in HE1. apply Forall_app in HE1 as [_ HE1]. inversion HE1; assumption. }
        assert (Htx : tcf x <= ts / scale) by (apply Z.div_le_mono; lz). rewrite HT, Z.min_l by exact Htx.
        destruct G as [|g G0].
        - rewrite (HG1 eq_refl) in Eq. cbn [app] in Eq. specialize (HE2 eq_refl). rewrite Eq in HE2. exact HE2.
        - specialize (HL1 ltac:(discriminate) HE1). destruct q2; [|cbn [length] in HL1; lz]. constructor; [|constructor].
          unfold fits, frame_rel. fold (tcf x). lz. }
      destruct (WFA_run q2 s1 w1 c0 [] [] G1 [] HC1 Q1) as (m & s2 & c2 & ws2 & q2' & st2 & w2 & E2 & Hm & HC2 & HQ2 & HR2 & HF2 & HB2 & HM2 & HT2 & SC2 & ST2 & B2 & HN2).
      { intros Hne. rewrite Q2. apply HA. intros ->. destruct q1, q2; cbn in Eq; congruence. }
      { exact Hgq2. }
      { intros Ha'. destruct (Ha Ha') as [He Hs]. split; [apply Hfit; exact He|]. rewrite Eq in Hs. apply sorted_app in Hs. apply Hs. }
      { change (zlen []) with 0. rewrite Eq, zlen_app in Hn. pose proof (zlen_nonneg _ (addeds G)). pose proof (zlen_nonneg _ q1). lz. }
      { change (held_weight []) with 0. lz. }
      unfold all_tail. rewrite (bind_run _ _ _ _ _ _ _ E2). replace (m <? 0) with false by lz.
      destruct SC2 as (_ & _ & SC2 & _).
      exists s2, w2, c2, ([] ++ ws2), ([] ++ q2'), G1, st2, (q1 ++ q2'). split; [reflexivity|]. split; [exact HC2|].
      split. { rewrite addeds_cons, EA1, app_nil_l, app_assoc. reflexivity. }
      split. { rewrite Eq. apply retained_app; [apply retained_refl|exact HR2]. }
      split. { intros He. rewrite Eq. f_equal. apply HF2, Hfit, He. }
      split. { destruct HQ2 as (P1 & P2 & P3 & P4 & P5 & P6 & P7). exact (conj P1 (conj (eq_trans P2 Q2) (conj (eq_trans P3 Q3) (conj (eq_trans P4 Q4) (conj (eq_trans P5 Q5) (conj (eq_trans P6 Q6) (eq_trans P7 Q7))))))). }
      split. { rewrite SC2, HT. destruct q2; lz. }
      split. { intros [HE1 HE2] HGp. rewrite SC2, HT. destruct q2 as [|x q2]; [lz|].
               assert (Hx : tcf x <= ts / scale). { apply Z.div_le_mono; [lz|]. rewrite Eq in HE1. apply Forall_app in HE1 as [_ HE1]. inversion HE1; assumption. }
               rewrite Z.min_l by exact Hx. destruct G as [|g G0].
               - rewrite (HG1 eq_refl) in Eq. cbn [app] in Eq. rewrite Eq in HGp. exact HGp.
               - specialize (HL1 ltac:(discriminate) HE1). destruct q2; [|cbn [length] in HL1; lz]. rewrite Eq in HGp. unfold gapok in HGp.
                 destruct (q1 ++ [x]) as [|y l] eqn:E; [destruct q1; discriminate|]. rewrite <- E, last_app1 in HGp. exact HGp. }
      split. { intros b Hb1 Hb2. rewrite Eq in Hb2. apply HB2; [apply HB1; [exact Hb1|rewrite Eq; exact Hb2]|]. apply Forall_app in Hb2. apply Hb2. }
      change (sg_last_ts s0) with (sg_last_ts s) in HM1. split; [lz|]. split. { apply Forall_app. split; [|exact HT2]. eapply Forall_impl; [|exact HT1]. intros a Ha0; cbv beta in *; lz. }
      change (held_weight []) with 0 in B2. split; [lz|]. intros He HAd HFr HO HFu. rewrite (HF2 (Hfit He)) in *.
      assert (HTG' : tcs G1 = tcs G). { destruct G as [|[[cg fg] ag] Rg]; [rewrite HTG; reflexivity|]. destruct HTG as (c3 & fs3 & -> & HTG). unfold tcs. cbn [map g_cl fst]. rewrite HTG. reflexivity. }
      split; [|split; [|split]].
      { unfold order, tcs. cbn [map g_cl fst]. fold (tcs G1). rewrite HTG'. constructor; [exact HO|]. rewrite SC2.
        destruct G as [|[[cg fg] ag] Rg]; [constructor|]. destruct Hq as [Hq1 _].
        assert (Hhd : cl_tc cg <= ts / scale).
        { assert (Hbig : forall a, fits scale (cl_tc cg) a -> fr_timestamp a <= ts -> cl_tc cg <= ts / scale).
          { intros a Hfa Hta. unfold fits, frame_rel in Hfa. assert (fr_timestamp a / scale <= ts / scale) by (apply Z.div_le_mono; lz). lz. }
          destruct (HSG ltac:(discriminate)) as [Hst|Hne].
          - destruct ag as [|a ag]; [destruct (HFr eq_refl Hst)|]. destruct (k_shape _ _ _ _ HC) as (_ & _ & _ & Hso & _). apply Hbig with (a := a).
            + apply Forall_inv in Hso. apply Hso.
            + rewrite addeds_cons in HAd. apply Forall_app in HAd as [_ HAd]. apply Forall_inv in HAd. exact HAd.
          - destruct q1 as [|a q1]; [congruence|]. rewrite Eq in Hq1. apply Hbig with (a := a).
            + apply Forall_inv in Hq1. exact Hq1.
            + destruct He as [He _]. rewrite Eq in He. apply Forall_inv in He. exact He. }
        assert (H0 : cl_tc cg <= cl_tc c0).
        { rewrite HT. destruct q2 as [|x q2]; [exact Hhd|]. rewrite Eq in Hq1. apply Forall_app in Hq1 as [_ Hq1]. apply Forall_inv in Hq1.
          unfold fits, frame_rel in Hq1. fold (tcf x) in Hq1. lz. }
        unfold order, tcs in HO. cbn [map g_cl fst] in HO. inversion HO as [|? ? _ HFa]; subst. constructor; [exact H0|].
        eapply Forall_impl; [|exact HFa]. intros z Hz; cbv beta in *; lz. }
      { unfold full in *. cbn [tl]. destruct G as [|[[cg fg] ag] Rg]; [rewrite HTG; constructor|]. destruct HTG as (c3 & fs3 & -> & _). constructor; [|exact HFu]. cbn [snd].
        intros Hx. apply app_eq_nil in Hx as [-> ->]. destruct (HSG ltac:(discriminate)) as [Hst|Hne]; [exact (HFr eq_refl Hst)|congruence]. }
      { cbn [fresh]. intros Hx. cbn [app] in Hx. destruct (HN2 Hx) as [-> ->]. unfold started. rewrite HH. intros [X|X]; congruence. }
      { intros Hx. cbn [app] in Hx. rewrite SC2, HT, Hx. lz. }
    - left. rewrite (DN_step0 _ _ _ _ _ _ ET). set (s0 := sg_set_force false s). assert (HC0 : core s0 w ((c, fs, ad) :: R) st) by (apply core_force; exact HC).
      destruct Hq as [Hq1 Hq2].
      rewrite addeds_cons, zlen_app in Hn. pose proof (zlen_nonneg _ (addeds R)).
      destruct (WFA_run q s0 w c fs ad R st HC0 HF HA Hg) as (m & s2 & c2 & ws2 & q2' & st2 & w2 & E2 & Hm & HC2 & HQ2 & HR2 & HF2 & HB2 & HM2 & HT2 & SC2 & ST2 & B2 & HN2); [auto|lz|lz|].
      unfold all_tail. rewrite (bind_run _ _ _ _ _ _ _ E2). replace (m <? 0) with false by lz. destruct SC2 as (_ & _ & SC2 & _).
      exists s2, w2, c2, (fs ++ ws2), (ad ++ q2'), R, st2, q2'. split; [reflexivity|]. split; [exact HC2|]. split. { rewrite !addeds_cons, app_assoc. reflexivity. }
      split; [exact HR2|]. split. { intros _. apply HF2. exact Hq1. } split; [exact HQ2|]. rewrite SC2. split; [lz|]. split; [intros; lz|]. split; [exact HB2|].
      change (sg_last_ts s0) with (sg_last_ts s) in HM2. split; [exact HM2|]. split; [exact HT2|]. split; [exact B2|]. intros He HAd HFr HO HFu. split; [|split; [exact HFu|split]].
      { unfold order, tcs in *. cbn [map g_cl fst] in *. rewrite SC2. exact HO. }
      { cbn [fresh] in *. rewrite (HF2 Hq1). intros Hx. apply app_eq_nil in Hx as [Hx1 Hx2]. destruct (HN2 Hx2) as [-> ->]. unfold started in *. exact (HFr Hx1). }
      { intros _. lz. }
  Qed.

  (* ---------- adding a frame ---------- *)

  Definition frame_wf (f : frame) : Prop :=
    bytes (fr_data f) /\ zlen (fr_data f) <= INT_MAX - 4 /\
    match fr_additional f with None => True | Some a => bytes a /\ 1 <= zlen a < 2 ^ 32 end /\
    is_u64 (fr_add_id f) /\ is_u64 (fr_duration f) /\ 0 <= fr_timestamp f < 2 ^ 63 /\
    is_s64 (fr_discard f) /\ is_s64 (fr_ref f).
  Definition audio (f : frame) : bool := match GetTrackByNumber trs (fr_track f) with Some t => tk_type t =? kAudioType | None => false end.
  (* frames of this kind are queued *)
  Definition waits (f : frame) : bool := hasv && audio f.
  (* frames that can be written; a missing reference is supplied for frames that do not wait *)
  Definition writable (f : frame) : Prop :=
    present (GetTrackByNumber trs (fr_track f)) = true /\ fr_data f <> [] /\ (waits f = true -> IsValid f = true).

  Definition lossless (A : list frame) (s : segment) (G : list grp) (q : list frame) : Prop :=
    Forall2 (carries false) A (addeds G ++ q) /\ sorted_ts (addeds G ++ q) /\
    Forall (fun f => fr_timestamp f <= sg_last_ts s) (addeds G) /\
    (forall b, 0 <= b -> Forall (fun f => fr_timestamp f <= b) (addeds G) -> sg_last_ts s <= b) /\
    (G = [] -> Forall (fits scale (fhd q 0)) q).
  Record Inv (s : segment) (w : wstate) (A C : list frame) (G : list grp) (q : list frame) (st : zmap (list frame)) : Prop := mkInv {
    i_core : core s w G st;
    i_frames : sg_frames s = map Some q;
    i_alloc : q <> [] -> sg_frames_alloc s = true;
    i_good : Forall good_frame q;
    i_fits : match G with [] => True | (c, _, _) :: _ => Forall (fits scale (cl_tc c)) q end;
    i_ret : retained (fun f => waits f = true) A (addeds G ++ q);
    i_budget : zlen (w_file w) + held_weight st + weights q <= zlen hd + weights C;
    i_strict : strict = true -> lossless A s G q;
    i_lead : G = [] -> Forall (fun f => waits f = true) A;
    i_held : Forall (fun f => waits f = true) q;
    i_last : Forall (fun a => waits a = true \/ fr_timestamp a <= sg_last_ts s) A;
    i_order : strict = true -> order G /\ full G /\ fresh G st
  }.

  Lemma present_track : forall f, present (GetTrackByNumber trs (fr_track f)) = true ->
    1 <= fr_track f <= 126 /\ (exists v, TrackIsVideo trs (fr_track f) = Val v) /\ TrackIsAudio trs (fr_track f) = Val (audio f).
  Proof.
    intros f H. unfold TrackIsVideo, TrackIsAudio, audio. destruct (GetTrackByNumber trs (fr_track f)) as [t|] eqn:E; [|discriminate].
    unfold GetTrackByNumber in E. apply find_some in E as [E1 E2]. rewrite Forall_forall in Htrs. specialize (Htrs _ E1). split; [lia|]. eauto.
  Qed.

  Lemma good_of_wf : forall f, frame_wf f -> 1 <= fr_track f <= 126 -> fr_data f <> [] -> IsValid f = true -> good_frame f.
  Proof.
    intros f (H1 & H2 & H3 & H4 & H5 & H6 & H7 & H8) HT HN HV. split; [|exact HV]. unfold frame_ok.
    assert (1 <= zlen (fr_data f)) by (destruct (fr_data f); [congruence|rewrite zlen_cons; pose proof (zlen_nonneg _ l); lia]).
    repeat split; auto; try apply H4; try apply H5; try apply H6; try apply H7; try apply H8; lia.
  Qed.

  Lemma Forall2_bound : forall A L b, Forall2 (carries false) A L -> Forall (fun f => fr_timestamp f <= b) A -> Forall (fun f => fr_timestamp f <= b) L.
  Proof.
    intros A L b H. induction H as [|x y A L Hxy H IH]; intros HF; [constructor|]. inversion HF; subst. constructor; [|auto].
    destruct Hxy as (_ & _ & _ & _ & _ & -> & _). assumption.
  Qed.

  Lemma sorted_snoc : forall l f, sorted_ts l -> Forall (fun g => fr_timestamp g <= fr_timestamp f) l -> sorted_ts (l ++ [f]).
  Proof.
    intros l f H HF. apply sorted_app. split; [exact H|]. split; [constructor; constructor|]. intros x y Hx [<-|[]]. rewrite Forall_forall in HF. auto.
  Qed.
  Lemma count_frame_run : forall s w n, zlen (sg_track_frames s) = 126 -> 1 <= n <= 126 ->
    exists a, count_frame s n w = Val (sg_set_track_frames a s, w) /\ zlen a = 126.
  Proof.
    intros s w n H Hn. unfold count_frame. destruct (arr_get_ok _ (n - 1) H ltac:(lz)) as (v & E).
    destruct (arr_set_ok (sg_track_frames s) (n - 1) (wrap64 (v + 1)) H ltac:(lz)) as (a & E2 & L). exists a.
    unfold lift, bind. rewrite E, E2. auto.
  Qed.
  Lemma core_counts : forall s w G st a, core s w G st -> zlen a = 126 -> core (sg_set_track_frames a s) w G st.
  Proof. intros s w G st a [] H. constructor; try assumption. destruct k_cfg0. constructor; assumption. Qed.
  Lemma core_lasts : forall s w G st a t d, core s w G st -> zlen a = 126 -> core (sg_set_last_dur d (sg_set_track_ts a (sg_set_last_ts t s))) w G st.
  Proof. intros s w G st a t d [] H. constructor; try assumption. destruct k_cfg0. constructor; assumption. Qed.
  Lemma core_alloc : forall s w G st, core s w G st -> core (sg_set_frames_alloc true s) w G st.
  Proof. intros s w G st []. constructor; try assumption. destruct k_cfg0. constructor; assumption. Qed.

  Lemma weights_one : forall f, weights [f] = frame_weight f.
  Proof. intros f. rewrite weights_cons. change (weights []) with 0. lia. Qed.

  (* the frame that is written for f *)
  Definition choose (s : segment) (f : frame) : W frame :=
    if negb (CanBeSimpleBlock f) && negb (fr_is_key f) && negb (fr_ref_set f) then
      t <- lift (arr_get (sg_track_ts s) (fr_track f - 1));; ret (set_reference_block_timestamp (CopyFrom f) t)
    else ret f.
  Lemma choose_run : forall s w f, frame_wf f -> zlen (sg_track_ts s) = 126 -> 1 <= fr_track f <= 126 ->
    exists g, choose s f w = Val (g, w) /\ carries false f g /\ frame_wf g /\ frame_weight g = frame_weight f /\ fr_track g = fr_track f /\
      fr_timestamp g = fr_timestamp f /\ fr_duration g = fr_duration f /\ (fr_data f <> [] -> IsValid g = true) /\ (fr_data f = [] -> IsValid g = false).
  Proof.
    intros s w f Hwf HA HT. unfold choose.
    assert (HV : forall g, fr_data g = fr_data f -> fr_additional g = fr_additional f -> fr_track g = fr_track f ->
      negb (CanBeSimpleBlock g) && negb (fr_is_key g) && negb (fr_ref_set g) = false -> (fr_data f <> [] -> IsValid g = true) /\ (fr_data f = [] -> IsValid g = false)).
    { intros g E1 E2 E3 E4. unfold IsValid, kMaxTrackNumber. rewrite E1, E2, E3, E4. split.
      - intros Hn. replace (zlen (fr_data f) =? 0) with false by (destruct (fr_data f); [congruence|rewrite zlen_cons; pose proof (zlen_nonneg _ l); lia]).
        destruct Hwf as (_ & _ & Hadd & _). replace (match fr_additional f with Some a => zlen a =? 0 | None => false end) with false by (destruct (fr_additional f); [lia|reflexivity]).
        replace ((fr_track f =? 0) || (fr_track f >? 126)) with false by lia. reflexivity.
      - intros ->. reflexivity. }
    destruct (negb (CanBeSimpleBlock f) && negb (fr_is_key f) && negb (fr_ref_set f)) eqn:E.
    - destruct (arr_get_ok _ (fr_track f - 1) HA ltac:(lz)) as (t & Et). unfold lift, bind. rewrite Et.
      exists (set_reference_block_timestamp (CopyFrom f) t). split; [reflexivity|].
      pose proof Hwf as (W1 & W2 & W3 & W4 & W5 & W6 & W7 & W8).
      assert (EA : fr_additional (CopyFrom f) = fr_additional f). { unfold CopyFrom. cbn [fr_additional]. destruct (fr_additional f) as [a|]; [|reflexivity]. replace (zlen a >? 0) with true by lia. reflexivity. }
      apply andb_true_iff in E as [E E3]. apply andb_true_iff in E as [E1 E2]. apply negb_true_iff in E3.
      split.
      { unfold carries, set_reference_block_timestamp. cbn [fr_data fr_additional fr_add_id fr_is_key fr_track fr_timestamp fr_discard fr_duration fr_ref_set fr_ref]. rewrite EA.
        repeat split; auto; try congruence. intros Hn. unfold CopyFrom. cbn [fr_add_id]. destruct (fr_additional f) as [a|]; [|congruence]. replace (zlen a >? 0) with true by lia. reflexivity. }
      split.
      { unfold frame_wf, set_reference_block_timestamp. cbn [fr_data fr_additional fr_add_id fr_is_key fr_track fr_timestamp fr_discard fr_duration fr_ref_set fr_ref]. rewrite EA.
        repeat split; auto; try apply W5; try apply W6; try apply W7; try (apply sint64_s64); unfold CopyFrom; cbn [fr_add_id];
          destruct (match fr_additional f with Some a => if zlen a >? 0 then Some a else None | None => None end); try apply W4; unfold is_u64; lia. }
      split. { unfold frame_weight, set_reference_block_timestamp. cbn [fr_data fr_additional]. rewrite EA. reflexivity. }
      split; [reflexivity|]. split; [reflexivity|]. split; [reflexivity|]. apply HV; auto. unfold set_reference_block_timestamp. cbn [fr_ref_set negb]. apply andb_false_r.
    - exists f. split; [reflexivity|]. split; [apply carries_refl|]. split; [exact Hwf|]. split; [reflexivity|]. split; [reflexivity|]. split; [reflexivity|]. split; [reflexivity|].
      apply HV; auto.
  Qed.

  Definition forced (s : segment) (f : frame) : segment :=
    let s := if negb (fr_discard f =? 0) then sg_set_dtv 4 s else s in
    match sg_clusters s with
    | [] => s
    | last :: _ => if wrap64 (tcf f - cl_tc last) >? kMaxBlockTimecode then sg_set_force true s else s
    end.
  Definition direct (s : segment) (f : frame) : W (bool * segment) :=
    r <- DoNewClusterProcessing 4 s (fr_track f) (fr_timestamp f) (fr_is_key f);;
    let '(ok, s) := r in
    if negb ok then ret (false, s) else
    match sg_clusters s with
    | [] => ret (false, s)
    | c :: _ =>
        g <- choose s f;;
        r <- QueueOrWriteFrame c g;;
        let '(ok, c) := r in
        let s := set_cluster c s in
        if negb ok then ret (false, s) else
        r <- (if sg_new_cue s && (sg_cues_track s =? fr_track g)
              then lift (AddCuePoint s (fr_timestamp g) (sg_cues_track s)) else ret (true, s));;
        let '(ok, s) := r in
        if negb ok then ret (false, s) else
        a <- lift (arr_set (sg_track_ts s) (fr_track g - 1) (fr_timestamp g));;
        let s := sg_set_last_dur (fr_duration g) (sg_set_track_ts a (sg_set_last_ts (fr_timestamp g) s)) in
        s <- count_frame s (fr_track g);;
        ret (true, s)
    end.
  Definition enqueue (s : segment) (f : frame) : W (bool * segment) :=
    s <- count_frame (sg_set_frames_alloc true (sg_set_frames (sg_frames s ++ [Some (CopyFrom f)]) s)) (fr_track f);; ret (true, s).

  Lemma AGF_eq : forall s w f, cfg_ok s -> 0 <= fr_timestamp f ->
    AddGenericFrame s f w =
    if fr_timestamp f <? sg_last_ts s then Val ((false, s), w)
    else if negb (present (GetTrackByNumber trs (fr_track f))) then Val ((false, s), w)
    else if waits f && negb (sg_force (forced s f)) then enqueue (forced s f) f w
    else direct (forced s f) f w.
  Proof.
    intros s w f HC HT. unfold AddGenericFrame, CheckHeaderInfo. rewrite (c_hdr _ HC), bind_ret. cbn [negb].
    destruct (fr_timestamp f <? sg_last_ts s); [reflexivity|]. rewrite (c_trs _ HC). destruct (present (GetTrackByNumber trs (fr_track f))) eqn:EP; [|reflexivity]. cbn [negb].
    destruct (present_track f EP) as (_ & _ & HA). unfold forced.
    set (s0 := if negb (fr_discard f =? 0) then sg_set_dtv 4 s else s).
    assert (HC0 : cfg_ok s0) by (unfold s0; destruct (negb (fr_discard f =? 0)); [apply cfg_dtv|]; exact HC). clearbody s0.
    set (s1 := match sg_clusters s0 with [] => s0 | last :: _ => if wrap64 (tcf f - cl_tc last) >? kMaxBlockTimecode then sg_set_force true s0 else s0 end).
    assert (E1 : match sg_clusters s0 with
       | [] => ret s0
       | last :: _ => frame_timecode <- lift (udiv (fr_timestamp f) (si_timecode_scale (sg_info s0)));;
           ret (if wrap64 (frame_timecode - cl_tc last) >? kMaxBlockTimecode then sg_set_force true s0 else s0)
       end w = Val (s1, w)).
    { unfold s1. destruct (sg_clusters s0); [reflexivity|]. rewrite (c_info _ HC0). fold scale. rewrite udiv_scale by exact HT. reflexivity. }
    rewrite (bind_run _ _ _ _ _ _ _ E1).
    assert (HC1 : cfg_ok s1). { unfold s1. destruct (sg_clusters s0); [exact HC0|]. destruct (_ >? _); [|exact HC0]. destruct HC0. constructor; assumption. }
    clearbody s1. rewrite (c_hasv _ HC1), (c_trs _ HC1).
    assert (E2 : lift (if hasv then TrackIsAudio trs (fr_track f) else Val false) w = Val (waits f, w)).
    { unfold lift, waits. destruct hasv; [rewrite HA|]; reflexivity. }
    rewrite (bind_run _ _ _ _ _ _ _ E2). destruct (waits f && negb (sg_force s1)); reflexivity.
  Qed.

  Lemma forced_core : forall s w G st f, core s w G st -> core (forced s f) w G st.
  Proof.
    intros s w G st f H. unfold forced. set (s0 := if negb (fr_discard f =? 0) then sg_set_dtv 4 s else s).
    assert (H0 : core s0 w G st) by (apply core_dtv; exact H). clearbody s0. destruct (sg_clusters s0); [exact H0|]. destruct (_ >? _); [|exact H0]. apply core_force. exact H0.
  Qed.
  Lemma forced_same : forall s f, sg_frames (forced s f) = sg_frames s /\ sg_frames_alloc (forced s f) = sg_frames_alloc s /\ sg_last_ts (forced s f) = sg_last_ts s.
  Proof.
    intros s f. unfold forced. destruct (negb (fr_discard f =? 0)); [change (sg_clusters (sg_set_dtv 4 s)) with (sg_clusters s)|];
      destruct (sg_clusters s); try (repeat split); destruct (_ >? _); repeat split.
  Qed.
  Lemma forced_gate : forall s w G st f, core s w G st -> 0 <= fr_timestamp f < 2 ^ 63 -> gate G (forced s f) (fr_timestamp f).
  Proof.
    intros s w G st f H HT. destruct G as [|[[c fs] ad] R]; [exact I|]. unfold gate, forced.
    set (s0 := if negb (fr_discard f =? 0) then sg_set_dtv 4 s else s).
    assert (H0 : core s0 w ((c, fs, ad) :: R) st) by (apply core_dtv; exact H). clearbody s0. rewrite (k_clusters _ _ _ _ H0). cbn [map g_cl fst].
    destruct (Z.gtb_spec (wrap64 (tcf f - cl_tc c)) kMaxBlockTimecode) as [Hw|Hw]; [left; reflexivity|]. right.
    destruct (k_shape _ _ _ _ H0) as (_ & (_ & _ & _ & HTC & _) & _). 
    assert (HTF : 0 <= tcf f < 2 ^ 63). { unfold tcf. split; [apply Z.div_pos; lz|]. eapply Z.le_lt_trans; [apply Z.div_le_upper_bound with (q := fr_timestamp f); nia|lz]. }
    fold (tcf f). unfold wrap64, kMaxBlockTimecode in Hw. pw. clear - Hw HTC HTF.
    destruct (Z_lt_dec (tcf f - cl_tc c) 0) as [L|L].
    - replace (tcf f - cl_tc c) with (tcf f - cl_tc c + 18446744073709551616 + (-1) * 18446744073709551616) in Hw by ring.
      rewrite Z.mod_add, Z.mod_small in Hw by lia. lia.
    - rewrite Z.mod_small in Hw by lia. lia.
  Qed.
  Lemma forced_nofit : forall s w c fs ad R st f, core s w ((c, fs, ad) :: R) st -> 0 <= fr_timestamp f < 2 ^ 63 -> sg_force (forced s f) = false ->
    fits scale (cl_tc c) f.
  Proof.
    intros s w c fs ad R st f H HT HF. pose proof (forced_gate s w _ st f H HT) as HG. destruct HG as [HG|HG]; [congruence|]. exact HG.
  Qed.

  (* what is asked of a frame given to AddGenericFrame *)
  Record arrives (A : list frame) (G : list grp) (q : list frame) (f : frame) : Prop := mkArr {
    ar_wf : frame_wf f;
    ar_valid : waits f = true -> IsValid f = true;
    ar_order : strict = true -> Forall (fun a => fr_timestamp a <= fr_timestamp f) A;
    ar_lead : strict = true -> waits f = true -> G = [] -> q <> [] -> tcf f - fhd q 0 <= 32767;
    ar_gap : acc = true -> gapok G q (fr_timestamp f)
  }.

  Lemma valid_data : forall f, IsValid f = true -> fr_data f <> [].
  Proof. intros f H E. unfold IsValid in H. rewrite E in H. discriminate. Qed.
  Lemma copy_ts : forall f, fr_timestamp (CopyFrom f) = fr_timestamp f.
  Proof. reflexivity. Qed.
  Lemma fhd_app : forall q x d, q <> [] -> fhd (q ++ [x]) d = fhd q d.
  Proof. intros [|y q] x d H; [congruence|reflexivity]. Qed.
  Lemma Forall_le_trans : forall (l : list frame) a b, Forall (fun f => fr_timestamp f <= a) l -> a <= b -> Forall (fun f => fr_timestamp f <= b) l.
  Proof. intros l a b H Hab. eapply Forall_impl; [|exact H]. intros x Hx; cbv beta in *; lia. Qed.
  Lemma waits_carried : forall f g, carries false f g -> waits g = true -> waits f = true.
  Proof. intros f g (_ & _ & _ & _ & HT & _). unfold waits, audio. rewrite HT. auto. Qed.
  Lemma qpre_of : forall s w A C G q st, Inv s w A C G q st -> qpre G q.
  Proof.
    intros s w A C G q st HI. unfold qpre. pose proof (i_fits _ _ _ _ _ _ _ HI) as HF. destruct G as [|[[c fs] ad] R]; [exact I|]. split; [exact HF|].
    intros Ha. destruct (i_strict _ _ _ _ _ _ _ HI (Hacc Ha)) as (_ & HS & _). rewrite addeds_cons, <- app_assoc in HS. apply sorted_app in HS. apply HS.
  Qed.
  Lemma easy_of : forall s w A C G q st ts, Inv s w A C G q st -> strict = true -> Forall (fun a => fr_timestamp a <= ts) A ->
    easy G q ts /\ sorted_ts q /\ Forall (fun a => fr_timestamp a <= ts) (addeds G ++ q).
  Proof.
    intros s w A C G q st ts HI HS HO. destruct (i_strict _ _ _ _ _ _ _ HI HS) as (L1 & L2 & L3 & L4 & L5).
    pose proof (Forall2_bound _ _ _ L1 HO) as HB. pose proof HB as HB'. apply Forall_app in HB' as [_ HB']. split; [split; assumption|]. split; [|exact HB].
    apply sorted_app in L2. apply L2.
  Qed.

  Lemma enqueue_run : forall s w A C G q st f, Inv s w A C G q st -> arrives A G q f -> present (GetTrackByNumber trs (fr_track f)) = true -> waits f = true ->
    sg_force (forced s f) = false ->
    exists s', enqueue (forced s f) f w = Val ((true, s'), w) /\ Inv s' w (A ++ [f]) (C ++ [f]) G (q ++ [CopyFrom f]) st.
  Proof.
    intros s w A C G q st f HI HA HP HW HF. destruct HA as [Hwf Hv Hord Hlead Hgap]. destruct (present_track f HP) as (HT & _ & _).
    pose proof (good_of_wf f Hwf HT (valid_data f (Hv HW)) (Hv HW)) as Hg. destruct (CopyFrom_good f Hg) as (Hgc & Hcar & Hwt).
    pose proof (forced_core s w G st f (i_core _ _ _ _ _ _ _ HI)) as HC. destruct (forced_same s f) as (F1 & F2 & F3).
    assert (HTS : 0 <= fr_timestamp f < 2 ^ 63) by apply Hwf.
    unfold enqueue. set (s1 := sg_set_frames_alloc true (sg_set_frames (sg_frames (forced s f) ++ [Some (CopyFrom f)]) (forced s f))).
    assert (HC1 : core s1 w G st) by (apply core_alloc, core_frames; exact HC).
    destruct (count_frame_run s1 w (fr_track f) (k_arr2 _ _ _ _ HC1) HT) as (a & E & La). rewrite (bind_run _ _ _ _ _ _ _ E).
    exists (sg_set_track_frames a s1). split; [reflexivity|]. constructor.
    - apply core_counts; assumption.
    - cbn [sg_frames sg_set_track_frames s1 sg_set_frames_alloc sg_set_frames]. rewrite F1, (i_frames _ _ _ _ _ _ _ HI), map_app. reflexivity.
    - reflexivity.
    - apply Forall_app. split; [apply HI|]. constructor; [exact Hgc|constructor].
    - pose proof (i_fits _ _ _ _ _ _ _ HI) as HFt. destruct G as [|[[c fs] ad] R]; [exact I|]. apply Forall_app. split; [exact HFt|]. constructor; [|constructor].
      unfold fits, frame_rel. rewrite copy_ts. exact (forced_nofit s w c fs ad R st f (i_core _ _ _ _ _ _ _ HI) HTS HF).
    - rewrite app_assoc. apply retained_snoc; [apply HI|exact Hcar].
    - rewrite !weights_app, !weights_one, Hwt. pose proof (i_budget _ _ _ _ _ _ _ HI). lz.
    - intros HS. destruct (i_strict _ _ _ _ _ _ _ HI HS) as (L1 & L2 & L3 & L4 & L5). unfold lossless. rewrite !app_assoc.
      destruct (easy_of _ _ _ _ _ _ _ _ HI HS (Hord HS)) as ((He1 & He2) & Hsq & Hbd).
      split; [apply Forall2_app; [exact L1|constructor; [exact Hcar|constructor]]|].
      split; [apply sorted_snoc; [exact L2|exact Hbd]|].
      change (sg_last_ts (sg_set_track_frames a s1)) with (sg_last_ts (forced s f)). rewrite F3. split; [exact L3|]. split; [exact L4|].
      intros HG. specialize (L5 HG). destruct q as [|y q].
      + cbn [app fhd]. constructor; [|constructor]. unfold fits, frame_rel. fold (tcf (CopyFrom f)). lz.
      + rewrite fhd_app by discriminate. apply Forall_app. split; [exact L5|]. constructor; [|constructor]. specialize (Hlead HS HW HG ltac:(discriminate)).
        cbn [fhd] in *. unfold fits, frame_rel. rewrite copy_ts. fold (tcf f). inversion He1; subst.
        assert (tcf y <= tcf f) by (apply Z.div_le_mono; lz). lz.
    - intros HG. apply Forall_app. split; [apply HI; exact HG|]. constructor; [exact HW|constructor].
    - apply Forall_app. split; [apply HI|]. constructor; [exact HW|constructor].
    - change (sg_last_ts (sg_set_track_frames a s1)) with (sg_last_ts (forced s f)). rewrite F3. apply Forall_app. split; [apply HI|]. constructor; [left; exact HW|constructor].
    - apply HI.
  Qed.

  Lemma direct_run : forall s w A C G q st f, Inv s w A C G q st -> arrives A G q f -> present (GetTrackByNumber trs (fr_track f)) = true ->
    zlen A < INT_MAX -> zlen hd + weights (C ++ [f]) < 2 ^ 55 -> sg_last_ts s <= fr_timestamp f ->
    exists b s' w' G' q' st', direct (forced s f) f w = Val ((b, s'), w') /\ Inv s' w' (if (b : bool) then A ++ [f] else A) (C ++ [f]) G' q' st' /\
      (strict = true -> fr_data f <> [] -> gapok G q (fr_timestamp f) -> started G st -> b = true) /\
      (b = true -> started G' st').
  Proof.
    intros s w A C G q st f HI HA HP Hn Hb Hge. destruct HA as [Hwf Hv Hord Hlead Hgap]. destruct (present_track f HP) as (HT & (v & HV) & _).
    pose proof (forced_core s w G st f (i_core _ _ _ _ _ _ _ HI)) as HC. destruct (forced_same s f) as (F1 & F2 & F3).
    assert (HTS : 0 <= fr_timestamp f < 2 ^ 63) by apply Hwf.
    pose proof (forced_gate s w G st f (i_core _ _ _ _ _ _ _ HI) HTS) as HG.
    pose proof (i_budget _ _ _ _ _ _ _ HI) as HB. rewrite weights_app, weights_one in Hb. pose proof (frame_weight_pos f) as HW.
    pose proof (retained_len _ _ _ (i_ret _ _ _ _ _ _ _ HI)) as HRL. rewrite zlen_app in HRL.
    unfold direct.
    destruct (DN_run (forced s f) w G st q (fr_track f) (fr_timestamp f) (fr_is_key f) v HC) as
      [(s1 & w1 & c & fs & ad & R & st1 & q' & E1 & HC1 & EA & HR & HE & HQ1 & HT1 & HGp & HM1 & HM2 & HM3 & B1 & HOr)|(s1 & E1 & HC1 & HQ1 & HL1 & HNE & HS1)].
    { rewrite F1. apply HI. } { rewrite F2. apply HI. } { apply HI. } { eapply qpre_of; exact HI. }
    { intros Ha. destruct (easy_of _ _ _ _ _ _ _ _ HI (Hacc Ha) (Hord (Hacc Ha))) as (X1 & X2 & _). auto. }
    { exact HG. } { exact HV. } { lz. } { exact HTS. } { lz. }
    2:{ rewrite (bind_run _ _ _ _ _ _ _ E1). cbn [negb]. exists false, s1, w, G, q, st. split; [reflexivity|]. destruct HQ1 as (Q1 & Q2 & _).
        split. { constructor; try apply HI; try exact HC1.
          - rewrite Q1. etransitivity; [exact F1|apply HI].
          - rewrite Q2. intros Hq. etransitivity; [exact F2|]. apply HI. exact Hq.
          - rewrite weights_app, weights_one. lz.
          - intros HS. destruct (i_strict _ _ _ _ _ _ _ HI HS) as (L1 & L2 & L3 & L4 & L5). unfold lossless. rewrite HL1, F3. auto.
          - rewrite HL1, F3. apply HI. }
        split; [intros _ _ _ X; contradiction|discriminate]. }
    rewrite (bind_run _ _ _ _ _ _ _ E1). cbn [negb]. rewrite (k_clusters _ _ _ _ HC1). cbn [map g_cl fst].
    destruct HQ1 as (Q1 & Q2 & _). cbn [sg_frames sg_set_force sg_set_frames] in Q1.
    destruct (choose_run s1 w1 f Hwf (k_arr1 _ _ _ _ HC1) HT) as (g & Eg & Hcar & Hwg & Hwt & Etr & Ets & Edu & HV1 & HV0).
    rewrite (bind_run _ _ _ _ _ _ _ Eg). rewrite Etr, Ets, Edu.
    assert (Hret : retained (fun f => waits f = true) A (addeds ((c, fs, ad) :: R))).
    { rewrite EA. eapply retained_sub; [apply HI|apply retained_app; [apply retained_refl|apply retained_any; [exact HR|apply HI]]|exact waits_carried]. }
    pose proof (retained_len _ _ _ Hret) as HRL1. rewrite addeds_cons, zlen_app in HRL1. pose proof (zlen_nonneg _ (addeds R)) as HZ.
    (* in order *)
    assert (Hstr : strict = true -> Forall2 (carries false) A (addeds ((c, fs, ad) :: R)) /\ sorted_ts (addeds ((c, fs, ad) :: R)) /\
        Forall (fun x => fr_timestamp x <= sg_last_ts s1) (addeds ((c, fs, ad) :: R)) /\
        (forall b, 0 <= b -> Forall (fun x => fr_timestamp x <= b) (addeds ((c, fs, ad) :: R)) -> sg_last_ts s1 <= b) /\
        Forall (fun x => fr_timestamp x <= fr_timestamp f) (addeds ((c, fs, ad) :: R)) /\ easy G q (fr_timestamp f)).
    { intros HS. destruct (i_strict _ _ _ _ _ _ _ HI HS) as (L1 & L2 & L3 & L4 & L5). destruct (easy_of _ _ _ _ _ _ _ _ HI HS (Hord HS)) as (He & Hsq & Hbd).
      rewrite F3 in *. rewrite EA. rewrite (HE He) in *. split; [exact L1|]. split; [exact L2|]. split; [apply Forall_app; split; [eapply Forall_le_trans; [exact L3|exact HM2]|exact HM3]|].
      split. { intros b H0 HFb. apply Forall_app in HFb as [HFb1 HFb2]. apply HM1; [apply L4; assumption|exact HFb2]. } split; assumption. }
    assert (Hord2 : strict = true -> order ((c, fs, ad) :: R) /\ full ((c, fs, ad) :: R) /\ fresh ((c, fs, ad) :: R) st1 /\ (ad = [] -> fr_timestamp f / scale - cl_tc c <= 32767)).
    { intros HS. destruct (easy_of _ _ _ _ _ _ _ _ HI HS (Hord HS)) as (He & _ & Hbd). apply Forall_app in Hbd as [Hbd _].
      destruct (i_order _ _ _ _ _ _ _ HI HS) as (HO & HFu & HF). exact (HOr He Hbd HF HO HFu). }
    (* refused: nothing added *)
    assert (Hfail : forall c' w2, shape w2 ((c', fs, ad) :: R) st1 -> same_cl c c' -> w_seekable w2 = w_seekable w1 ->
        (strict = true -> fresh ((c', fs, ad) :: R) st1) ->
        zlen (w_file w2) + held_weight st1 <= zlen (w_file w1) + held_weight st1 + frame_weight f ->
        Inv (set_cluster c' s1) w2 A (C ++ [f]) ((c', fs, ad) :: R) [] st1).
    { intros c' w2 HS2 SC2 SK2 HFr2 B2. constructor.
      - eapply core_cluster; [exact HC1|exact HS2|exact SK2| |lz]. rewrite <- (app_nil_r fs), <- (app_nil_r ad). apply cues_grow with (c := c); [exact SC2|apply HC1].
      - exact Q1. - congruence. - constructor. - constructor. - rewrite app_nil_r. exact Hret.
      - rewrite weights_app, weights_one. change (weights []) with 0. lz.
      - intros HS. destruct (Hstr HS) as (L1 & L2 & L3 & L4 & L5 & L6). unfold lossless. rewrite !app_nil_r. split; [exact L1|]. split; [exact L2|].
        split; [exact L3|]. split; [exact L4|discriminate].
      - discriminate. - constructor. - eapply Forall_impl; [|apply (i_last _ _ _ _ _ _ _ HI)]. intros a [Ha|Ha]; [left; exact Ha|right]. change (sg_last_ts (set_cluster c' s1)) with (sg_last_ts s1). rewrite F3 in HM2. lz.
      - intros HS. destruct (Hord2 HS) as (HO & HFu & _ & _). split; [|split; [exact HFu|exact (HFr2 HS)]]. unfold order, tcs in *. cbn [map g_cl fst] in *. destruct SC2 as (_ & _ & -> & _). exact HO. }
    destruct (list_eq_dec Z.eq_dec (fr_data f) []) as [Hd|Hd].
    { rewrite (bind_run _ _ _ _ _ _ _ (QW_invalid c g w1 (HV0 Hd))). cbn [negb]. eexists false, _, w1, ((c, fs, ad) :: R), [], st1. split; [reflexivity|].
      split; [apply Hfail; [apply HC1|apply same_cl_refl|reflexivity|intros HS; apply Hord2; exact HS|lz]|]. split; [intros _ X; contradiction|discriminate]. }
    assert (Hgg : good_frame g). { apply good_of_wf; [exact Hwg|lz| |apply HV1; exact Hd]. destruct Hcar as (-> & _). exact Hd. }
    destruct (fits_dec (cl_tc c) g) as [Hf|Hf].
    - destruct (QW_ok c fs ad R st1 w1 g (k_shape _ _ _ _ HC1) Hgg Hf) as (c2 & ws & st2 & w2 & E2 & HS2 & SC2 & SK2 & ST2 & HA2 & B2); [|lz|lz|].
      { intros Ha. destruct (Hstr (Hacc Ha)) as (L1 & L2 & L3 & L4 & L5 & L6). rewrite addeds_cons in L2, L5. apply sorted_app in L2. apply Forall_app in L5.
        apply sorted_snoc; [apply L2|rewrite Ets; apply L5]. }
      rewrite (bind_run _ _ _ _ _ _ _ E2). cbn [negb].
      assert (HC2 : core (set_cluster c2 s1) w2 ((c2, fs ++ ws, ad ++ [g]) :: R) st2).
      { eapply core_cluster; [exact HC1|exact HS2|exact SK2| |rewrite zlen_app; pose proof (zlen_nonneg _ [g]); lz]. apply cues_grow with (c := c); [exact SC2|apply HC1]. }
      destruct (cue_new (set_cluster c2 s1) w2 c2 (fs ++ ws) (ad ++ [g]) R st2 g HC2 Hgg) as (s3 & E3 & HC3 & HQ3 & HL3).
      { destruct acc; [exact I|]. destruct (HA2 eq_refl) as [-> _]. eauto. }
      { apply in_or_app. right. left. reflexivity. }
      { rewrite zlen_app. change (zlen [g]) with 1. lz. }
      { pose proof (k_ncue _ _ _ _ HC1) as X. cbn [addeds sg_cues set_cluster sg_set_clusters] in *. rewrite !zlen_app in *. change (zlen [g]) with 1. lz. }
      rewrite Etr, Ets in E3. rewrite (bind_run _ _ _ _ _ _ _ E3). cbn [negb].
      destruct (arr_set_ok (sg_track_ts s3) (fr_track f - 1) (fr_timestamp f) (k_arr1 _ _ _ _ HC3) ltac:(lz)) as (a & Ea & La).
      assert (El : lift (arr_set (sg_track_ts s3) (fr_track f - 1) (fr_timestamp f)) w2 = Val (a, w2)) by (unfold lift; rewrite Ea; reflexivity).
      rewrite (bind_run _ _ _ _ _ _ _ El).
      set (s4 := sg_set_last_dur (fr_duration f) (sg_set_track_ts a (sg_set_last_ts (fr_timestamp f) s3))).
      assert (HC4 : core s4 w2 ((c2, fs ++ ws, ad ++ [g]) :: R) st2) by (apply core_lasts; assumption).
      destruct (count_frame_run s4 w2 (fr_track f) (k_arr2 _ _ _ _ HC4) HT) as (a' & E5 & La'). rewrite (bind_run _ _ _ _ _ _ _ E5).
      eexists true, _, w2, ((c2, fs ++ ws, ad ++ [g]) :: R), [], st2. split; [reflexivity|]. split; [|split; [reflexivity|intros _; exact ST2]].
      destruct HQ3 as (P1 & _). constructor.
      + apply core_counts; assumption.
      + cbn [sg_frames sg_set_track_frames s4 sg_set_last_dur sg_set_track_ts sg_set_last_ts]. rewrite P1. exact Q1.
      + congruence. + constructor. + constructor.
      + rewrite app_nil_r, addeds_cons, app_assoc. apply retained_snoc; [exact Hret|exact Hcar].
      + rewrite weights_app, weights_one. change (weights []) with 0. lz.
      + intros HS. destruct (Hstr HS) as (L1 & L2 & L3 & L4 & L5 & L6). unfold lossless. change (sg_last_ts (sg_set_track_frames a' s4)) with (fr_timestamp f).
        rewrite app_nil_r, addeds_cons, app_assoc. rewrite <- (addeds_cons c fs ad R).
        split; [apply Forall2_app; [exact L1|constructor; [exact Hcar|constructor]]|]. split; [apply sorted_snoc; [exact L2|rewrite Ets; exact L5]|].
        split; [apply Forall_app; split; [exact L5|constructor; [lz|constructor]]|]. split; [|discriminate].
        intros b _ HFb. apply Forall_app in HFb as [_ HFb]. inversion HFb; subst. lz.
      + discriminate.
      + constructor.
      + change (sg_last_ts (sg_set_track_frames a' s4)) with (fr_timestamp f). apply Forall_app. split; [|constructor; [right; lz|constructor]].
        eapply Forall_impl; [|apply (i_last _ _ _ _ _ _ _ HI)]. intros x [Hx|Hx]; [left; exact Hx|right; lz].
      + intros HS. destruct (Hord2 HS) as (HO & HFu & _ & _). split; [|split; [exact HFu|]]. { unfold order, tcs in *. cbn [map g_cl fst] in *. destruct SC2 as (_ & _ & -> & _). exact HO. }
        cbn [fresh]. intros X. apply app_eq_nil in X as [_ X]. discriminate.
    - assert (Hnf : strict = true -> gapok G q (fr_timestamp f) -> False).
      { intros HS HGk. destruct (Hstr HS) as (_ & _ & _ & _ & _ & He). specialize (HGp He HGk). apply Hf. unfold fits, frame_rel. rewrite Ets. lz. }
      assert (Ha0 : acc = false). { destruct acc eqn:Ea; [|reflexivity]. exfalso. apply Hnf; [apply Hacc; exact Ea|apply Hgap; reflexivity]. }
      destruct (QW_misfit c fs ad R st1 w1 g (k_shape _ _ _ _ HC1) Hgg Hf Ha0) as (c2 & w2 & E2 & HS2 & SC2 & SK2 & ST2 & B2); [lz|].
      rewrite (bind_run _ _ _ _ _ _ _ E2). cbn [negb]. eexists false, _, w2, ((c2, fs, ad) :: R), [], st1. split; [reflexivity|].
      split; [apply Hfail; [exact HS2|exact SC2|exact SK2| |lz]|].
      { intros HS. destruct (Hord2 HS) as (_ & _ & _ & HX). cbn [fresh]. intros Hnil. exfalso. apply Hf. specialize (HX Hnil). unfold fits, frame_rel. rewrite Ets. lz. }
      split; [|discriminate]. intros HS _ HGk _. exfalso. apply Hnf; assumption.
  Qed.

  Lemma AGF_run : forall s w A C G q st f, Inv s w A C G q st -> arrives A G q f -> zlen A < INT_MAX -> zlen hd + weights (C ++ [f]) < 2 ^ 55 ->
    exists b s' w' G' q' st', AddGenericFrame s f w = Val ((b, s'), w') /\ Inv s' w' (if (b : bool) then A ++ [f] else A) (C ++ [f]) G' q' st' /\
      (strict = true -> writable f -> gapok G q (fr_timestamp f) -> started G st -> b = true /\ started G' st') /\
      (b = true -> sg_last_ts s <= fr_timestamp f).
  Proof.
    intros s w A C G q st f HI HA Hn Hb. pose proof HA as [Hwf Hv Hord Hlead Hgap]. assert (HTS : 0 <= fr_timestamp f < 2 ^ 63) by apply Hwf.
    rewrite AGF_eq by (apply HI || lz).
    assert (Hskip : Inv s w A (C ++ [f]) G q st). { constructor; try apply HI. rewrite weights_app, weights_one. pose proof (i_budget _ _ _ _ _ _ _ HI). pose proof (frame_weight_pos f). lz. }
    destruct (Z.ltb_spec (fr_timestamp f) (sg_last_ts s)) as [Hlt|Hge].
    { exists false, s, w, G, q, st. split; [reflexivity|]. split; [exact Hskip|].
      assert (Hx : strict = true -> False). { intros HS. destruct (i_strict _ _ _ _ _ _ _ HI HS) as (L1 & L2 & L3 & L4 & L5).
        destruct (easy_of _ _ _ _ _ _ _ _ HI HS (Hord HS)) as (_ & _ & Hbd). apply Forall_app in Hbd as [Hbd _]. specialize (L4 (fr_timestamp f) (proj1 HTS) Hbd). lz. }
      split; [intros HS; destruct (Hx HS)|discriminate]. }
    destruct (present (GetTrackByNumber trs (fr_track f))) eqn:HP; cbn [negb].
    2:{ exists false, s, w, G, q, st. split; [reflexivity|]. split; [exact Hskip|]. split; [intros _ (X & _); congruence|discriminate]. }
    destruct (waits f && negb (sg_force (forced s f))) eqn:EW.
    - apply andb_true_iff in EW as [HW HF]. apply negb_true_iff in HF.
      destruct (enqueue_run s w A C G q st f HI HA HP HW HF) as (s' & E & HI'). rewrite E.
      exists true, s', w, G, (q ++ [CopyFrom f]), st. split; [reflexivity|]. split; [exact HI'|]. auto.
    - destruct (direct_run s w A C G q st f HI HA HP Hn Hb Hge) as (b & s' & w' & G' & q' & st' & E & HI' & Hok & Hst). rewrite E.
      exists b, s', w', G', q', st'. split; [reflexivity|]. split; [exact HI'|].
      split; [|intros _; exact Hge]. intros HS (_ & Hd & _) HGk Hs. assert (b = true) as -> by (apply Hok; assumption). auto.
  Qed.

  (* ---------- the clusters at the end ---------- *)

  Record all_closed (s : segment) (w : wstate) (A : list frame) (G : list grp) : Prop := mkAll {
    a_cfg : cfg_ok s;
    a_file : w_file w = hd ++ closed_all G;
    a_end : at_end w;
    a_seekable : w_seekable w = known;
    a_done : done_all G;
    a_arr1 : zlen (sg_track_ts s) = 126;
    a_arr2 : zlen (sg_track_frames s) = 126;
    a_cues : Forall (cue_ok G) (sg_cues s);
    a_ncue : zlen (sg_cues s) <= zlen A;
    a_ret : retained (fun f => waits f = true) A (addeds G);
    a_strict : strict = true -> Forall2 (carries false) A (addeds G) /\ sorted_ts (addeds G);
    a_clusters : sg_clusters s = map g_cl G;
    a_order : strict = true -> order G /\ Forall (fun g : grp => snd g <> []) G
  }.

  Lemma FC_run : forall s w A C G q st, Inv s w A C G q st -> G <> [] -> started G st \/ q <> [] -> zlen A <= INT_MAX -> zlen hd + weights C < 2 ^ 55 ->
    exists n s1 w1 c r c' w2 G', WriteFramesAll s w = Val ((n, s1), w1) /\ 0 <= n /\ sg_clusters s1 = c :: r /\ Cluster_Finalize c false 0 w1 = Val ((true, c'), w2) /\
      all_closed (set_cluster c' s1) w2 A G' /\ sg_output_cues s1 = sg_output_cues s /\ zlen (w_file w2) <= zlen hd + weights C /\ G' <> [].
  Proof.
    intros s w A C G q st HI HG Hs Hn Hb. destruct G as [|[[c fs] ad] R]; [congruence|].
    pose proof (i_core _ _ _ _ _ _ _ HI) as HC. pose proof (i_budget _ _ _ _ _ _ _ HI) as HB.
    pose proof (retained_len _ _ _ (i_ret _ _ _ _ _ _ _ HI)) as HRL. rewrite addeds_cons, !zlen_app in HRL. pose proof (zlen_nonneg _ (addeds R)).
    destruct (qpre_of _ _ _ _ _ _ _ HI) as [Hq1 Hq2].
    destruct (WFA_run q s w c fs ad R st HC (i_frames _ _ _ _ _ _ _ HI) (i_alloc _ _ _ _ _ _ _ HI) (i_good _ _ _ _ _ _ _ HI))
      as (n & s1 & c1 & ws & q' & st1 & w1 & E1 & Hn1 & HC1 & HQ1 & HR1 & HF1 & _ & _ & _ & SC1 & ST1 & B1 & _); [auto|lz|lz|].
    rewrite (HF1 Hq1) in *. clear HF1.
    destruct (CF_run c1 (fs ++ ws) (ad ++ q) R st1 w1 false 0 (k_shape _ _ _ _ HC1) (k_seekable _ _ _ _ HC1)) as (c2 & ws2 & w2 & E2 & F2 & AE2 & SK2 & HD2 & SC2 & B2).
    { apply ST1. destruct Hs as [Hs|Hs]; auto. } { rewrite zlen_app. lz. } { lz. }
    exists n, s1, w1, c1, (map g_cl R), c2, w2, ((c2, (fs ++ ws) ++ ws2, ad ++ q) :: R).
    split; [exact E1|]. split; [exact Hn1|]. split; [apply HC1|]. split; [exact E2|].
    assert (EA : addeds ((c2, (fs ++ ws) ++ ws2, ad ++ q) :: R) = addeds ((c, fs, ad) :: R) ++ q) by (rewrite !addeds_cons, app_assoc; reflexivity).
    split; [|split; [destruct HQ1 as (_ & _ & _ & _ & _ & Q & _); exact Q|split; [lz|discriminate]]].
    constructor; try assumption; try apply HC1.
    - apply cfg_clusters, HC1.
    - rewrite SK2. apply HC1.
    - replace (ad ++ q) with ((ad ++ q) ++ []) by apply app_nil_r. cbn [sg_cues set_cluster sg_set_clusters]. eapply cues_grow; [exact SC2|apply HC1].
    - cbn [sg_cues set_cluster sg_set_clusters]. pose proof (k_ncue _ _ _ _ HC1) as X. rewrite addeds_cons, !zlen_app in X. lz.
    - rewrite EA. apply HI.
    - intros HS. destruct (i_strict _ _ _ _ _ _ _ HI HS) as (L1 & L2 & _). rewrite EA. auto.
    - unfold set_cluster. cbn [sg_clusters sg_set_clusters map]. rewrite (k_clusters _ _ _ _ HC1). reflexivity.
    - intros HS. destruct (i_order _ _ _ _ _ _ _ HI HS) as (HO & HFu & HFr). split.
      + unfold order, tcs in *. cbn [map g_cl fst] in *. destruct SC1 as (_ & _ & E1' & _). destruct SC2 as (_ & _ & E2' & _). rewrite E2', E1'. exact HO.
      + constructor; [|exact HFu]. cbn [snd]. intros Hx. apply app_eq_nil in Hx as [-> ->]. destruct Hs as [Hs|Hs]; [exact (HFr eq_refl Hs)|congruence].
  Qed.
End Stream.
