(* The finished file has the layout required by MuxFileSpec. *)
From Coq Require Import ZifyBool ZifyNat Sorted.
From Verif Require Import Base EbmlSpec MWriter WriterSpec PWriter MMuxUtil PMuxUtil EbmlPropSpec PEbml Ids LacingSpec MMuxBlock BlockSpec
  PMuxBlock MFloat MMuxMeta MetaSpec PMeta PMetaObj PMetaObj2 MMuxSegment SegmentSpec MuxFileSpec PSegRun PSegCluster PSegAcc PSegStream
  PSegHead PSegFin PSegFile ClusterSpec CueReadSpec SegReadSpec.

Lemma filter_Forall2 : forall (P : frame -> bool) (R : frame -> frame -> Prop) a b,
  (forall x y, R x y -> P x = P y) -> Forall2 R a b -> Forall2 R (filter P a) (filter P b).
Proof.
  intros P R a b HP H. induction H as [|x y a b Hxy H IH]; [constructor|]. cbn [filter]. rewrite <- (HP x y Hxy). destruct (P x); [constructor|]; assumption.
Qed.
Lemma Forall2_trans : forall (A B C : Type) (P : A -> B -> Prop) (Q : B -> C -> Prop) (R : A -> C -> Prop),
  (forall x y z, P x y -> Q y z -> R x z) -> forall a b c, Forall2 P a b -> Forall2 Q b c -> Forall2 R a c.
Proof.
  intros A B C P Q R HT a b c H. revert c. induction H as [|x y a b Hxy H IH]; intros c HQ; inversion HQ; subst; constructor; eauto.
Qed.
Lemma carries_track : forall b n x y, carries b x y -> of_track n x = of_track n y.
Proof. intros b n x y (_ & _ & _ & _ & H & _). unfold of_track. rewrite H. reflexivity. Qed.
Lemma Forall2_In_r : forall (A B : Type) (R : A -> B -> Prop) a b y, Forall2 R a b -> In y b -> exists x, In x a /\ R x y.
Proof.
  intros A B R a b y H. induction H as [|x z a b Hxy H IH]; intros HI; [destruct HI|]. destruct HI as [->|HI]; [exists x; split; [left; reflexivity|exact Hxy]|].
  destruct (IH HI) as (x' & H1 & H2). exists x'. split; [right; exact H1|exact H2].
Qed.
Lemma Forall2_In_l : forall (A B : Type) (R : A -> B -> Prop) a b x, Forall2 R a b -> In x a -> exists y, In y b /\ R x y.
Proof.
  intros A B R a b x H. induction H as [|z y a b Hxy H IH]; intros HI; [destruct HI|]. destruct HI as [->|HI]; [exists y; split; [left; reflexivity|exact Hxy]|].
  destruct (IH HI) as (y' & H1 & H2). exists y'. split; [right; exact H1|exact H2].
Qed.

Lemma if_true : forall (b : bool) (P Q : Prop), (if b then P else Q) -> b = true -> P.
Proof. intros b P Q H ->. exact H. Qed.

(* The state of a segment whose Finalize has written a file with cues to a
   seekable writer.  pre is the part of the seek head before the entries of the
   first cluster and the cues. *)
Definition all_clusters (l : layout) : list Z := concat (map mc_bytes (lo_clusters l)).
Definition fin_entries (l : layout) (pre : list (Z * Z)) : list (Z * Z) :=
  pre ++ [(kMkvCluster, zlen (lo_front l)); (kMkvCues, zlen (lo_front l) + zlen (all_clusters l))].
Record finished (s2 : segment) (file : list Z) (l : layout) (qs : list cue_point) (pre : list (Z * Z)) : Prop := mkFinished {
  fi_file : file = lo_ebml l ++ id_bytes kMkvSegment ++ vint 8 (zlen (lo_body l)) ++ lo_body l;
  fi_cues : sg_cues s2 = qs;
  fi_seek : sg_seek s2 = mkSH (pad5 (fin_entries l pre)) (zlen (lo_ebml l) + 12);
  fi_pp : sg_payload_pos s2 = zlen (lo_ebml l) + 12;
  fi_sp : sg_size_pos s2 = zlen (lo_ebml l) + 4;
  fi_end : sg_cluster_end s2 = zlen (lo_ebml l) + 12 + zlen (lo_front l) + zlen (all_clusters l);
  fi_first : lo_clusters l <> [] -> exists c r, rev (sg_clusters s2) = c :: r /\ cl_size_pos c = zlen (lo_ebml l) + 12 + zlen (lo_front l) + 4;
  fi_none : lo_clusters l = [] -> sg_clusters s2 = [];
  fi_used : used_ok (fin_entries l pre);
  fi_ok : seek_ok (fin_entries l pre);
  fi_ids : Forall (fun e => fst e <> kMkvCluster /\ fst e <> kMkvCues) pre;
  fi_pre : forall sv rest, zlen sv = 110 ->
    Forall (fun e => starts_at (sv ++ lo_info l ++ lo_tracks l ++ lo_chapters l ++ lo_tags l ++ rest) (fst e) (snd e)) pre;
  fi_len : zlen (lo_seek l) = 110;
  fi_small : zlen (lo_front l) + zlen (all_clusters l) + 128 * zlen qs + 16 < 2 ^ 55;
  fi_rep : Forall (fun q => values_ok (cue_tree q) /\ weight (cue_tree q) <= 128 /\ cue_valid q = true) qs
}.

(* What a reader of the finished file needs to know beyond its layout. *)
Definition file_parts (sized out : bool) (s : segment) (file : list Z) (cues : option (list cue_point)) (l : layout) : Prop :=
  Forall (stored_cluster sized (si_timecode_scale (sg_info s))) (lo_clusters l) /\
  (if sized then exists entries, is_seek_head l entries /\ Forall (fun e => valid_id (fst e) /\ 0 <= snd e < 2 ^ 63) entries /\ zlen entries <= 5 /\
     (lo_clusters l <> [] -> Forall (fun e => starts_at (lo_body l) (fst e) (snd e)) entries) /\ map fst entries = seek_ids s out
   else lo_seek l = []) /\
  match cues with
  | None => True
  | Some qs => representable [cues_tree qs] /\ forallb cue_valid qs = true /\ Forall readable_cue qs
  end /\
  representable [tracks_tree (sg_tracks s)] /\ representable [chapters_tree (sg_chapters s)] /\
  zlen file < 2 ^ 62.

Section Layout.
  Variables (s0 : segment) (known strict : bool).
  Hypothesis Hr : ready s0.
  Hypothesis HB : room s0 [] < 2 ^ 55.
  Hypothesis Hlive : sg_live s0 = false.
  Notation I0 := (i2 s0 known).
  Notation CA := (closed_all I0 (sg_fixed s0) known).
  Notation DA := (done_all I0 (sg_accurate s0) (sg_fixed s0) known (hP s0) (hd0 s0 known)).
  Notation DG := (done_grp I0 (sg_accurate s0) (sg_fixed s0) (hP s0)).
  Notation CO := (cue_ok I0 (sg_accurate s0) (sg_cues_out_block s0)).
  Notation sc := (si_timecode_scale (sg_info s0)).

  Definition mc_of (g : grp) : mcluster :=
    let '(c, fs, _) := g in mkMC (cl_tc c) fs (closed_bytes known (scale I0) (sg_fixed s0) (cl_tc c) fs).
  Definition mcs (G : list grp) : list mcluster := map mc_of (rev G).

  Lemma mcs_cons : forall g G, mcs (g :: G) = mcs G ++ [mc_of g].
  Proof. intros g G. unfold mcs. cbn [rev]. rewrite map_app. reflexivity. Qed.
  Lemma mcs_order : forall G, order G -> StronglySorted Z.le (map mc_tc (mcs G)).
  Proof.
    induction G as [|[[c fs] ad] G IH]; intros H; [constructor|]. unfold order, tcs in H. cbn [map g_cl fst] in H. inversion H as [|? ? H1 H2]; subst.
    rewrite mcs_cons, map_app. cbn [map mc_of mc_tc]. specialize (IH H1).
    assert (HF : Forall (fun z => z <= cl_tc c) (map mc_tc (mcs G))).
    { unfold mcs. rewrite map_map, map_rev. apply Forall_rev. rewrite Forall_map in *. eapply Forall_impl; [|exact H2]. intros [[x y] z] Hx. exact Hx. }
    clear - IH HF. induction IH as [|a l Hl IHl Ha]; [constructor; constructor|]. inversion HF; subst. cbn [app]. constructor; [auto|]. apply Forall_app. split; [exact Ha|constructor; [assumption|constructor]].
  Qed.
  Lemma mcs_full : forall G, DA G -> Forall (fun g : grp => snd g <> []) G -> Forall (fun c => mc_frames c <> []) (mcs G).
  Proof.
    intros G HD HF. unfold mcs. rewrite Forall_map. apply Forall_rev. induction HF as [|[[c fs] ad] G Hg HF IH]; [constructor|]. destruct HD as [(_ & _ & _ & _ & HC) HD].
    constructor; [|exact (IH HD)]. cbn [mc_of mc_frames snd] in *. unfold cluster_frames in HC. destruct (sg_accurate s0); [|congruence].
    intros ->. destruct ad as [|a ad]; [congruence|]. destruct HC as [_ HC]. specialize (HC (fr_track a)). cbn [filter] in HC. unfold of_track at 1 in HC. rewrite Z.eqb_refl in HC. inversion HC.
  Qed.
  Lemma mcs_app : forall B R, mcs (B ++ R) = mcs R ++ mcs B.
  Proof. intros B R. unfold mcs. rewrite rev_app_distr, map_app. reflexivity. Qed.
  Lemma mcs_bytes : forall G, concat (map mc_bytes (mcs G)) = CA G.
  Proof.
    induction G as [|[[c fs] ad] G IH]; [reflexivity|]. rewrite mcs_cons, map_app, concat_app, IH. cbn [map concat mc_of mc_bytes closed_all]. rewrite app_nil_r. reflexivity.
  Qed.
  Lemma mcs_frames : forall G, sg_accurate s0 = false -> DA G -> concat (map mc_frames (mcs G)) = addeds G.
  Proof.
    induction G as [|[[c fs] ad] G IH]; intros Ha HD; [reflexivity|]. destruct HD as [(_ & _ & _ & _ & HF) HD]. unfold cluster_frames in HF. rewrite Ha in HF. subst fs.
    rewrite mcs_cons, map_app, concat_app, IH by assumption. cbn [map concat mc_of mc_frames addeds]. rewrite app_nil_r. reflexivity.
  Qed.

  Lemma CA_part : forall G c fs ad, In (c, fs, ad) G -> zlen (closed_bytes known (scale I0) (sg_fixed s0) (cl_tc c) fs) <= zlen (CA G).
  Proof.
    induction G as [|[[c' fs'] ad'] G IH]; intros c fs ad HI; [destruct HI|]. cbn [closed_all]. rewrite zlen_app. destruct HI as [HE|HI].
    - inversion HE; subst. pose proof (zlen_nonneg _ (CA G)). lia.
    - specialize (IH _ _ _ HI). pose proof (zlen_nonneg _ (closed_bytes known (scale I0) (sg_fixed s0) (cl_tc c') fs')). lia.
  Qed.

  Lemma block_ok : forall tc f, good_frame f -> fits sc tc f -> is_block sc tc f (blk sc tc f).
  Proof.
    intros tc f [Hok HV] Hf. exists (frame_rel f tc sc). split; [exact Hf|]. split; [unfold frame_rel; lia|].
    pose proof (frame_bytes_spec f (frame_rel f tc sc) sc Hok Hf (proj1 (r_info _ Hr))) as HS. unfold blk. destruct (CanBeSimpleBlock f) eqn:EC; [left|right; exact HS].
    split; [exact HS|]. unfold CanBeSimpleBlock in EC. destruct (fr_additional f); [discriminate|]. cbn [andb] in EC. split; [reflexivity|]. lia.
  Qed.

  Lemma unknown_eq : unknown8 = [1; 255; 255; 255; 255; 255; 255; 255]. Proof. vm_compute. reflexivity. Qed.
  Lemma sized_intro : forall id (k : bool) p, valid_id id -> zlen p < 2 ^ 55 -> is_sized_element k id p (id_bytes id ++ (if k then vint 8 (zlen p) else unknown8) ++ p).
  Proof.
    intros id k p Hid HL. pose proof (zlen_nonneg _ p). destruct k; cbn [is_sized_element].
    - exists (id_bytes id), 8. split; [apply id_bytes_spec; exact Hid|]. split; [|reflexivity]. split; [lia|]. change (2 ^ (7 * 8)) with 72057594037927936. pw. lia.
    - exists (id_bytes id). split; [apply id_bytes_spec; exact Hid|]. rewrite unknown_eq. reflexivity.
  Qed.
  Lemma cluster_ok : forall c fs ad pre, DG pre (c, fs, ad) -> zlen (closed_bytes known (scale I0) (sg_fixed s0) (cl_tc c) fs) < 2 ^ 55 -> is_cluster known sc (mc_of (c, fs, ad)).
  Proof.
    intros c fs ad pre (HC & _ & Hok & _ & _) HL. destruct HC as (_ & _ & _ & HT & _). unfold closed_bytes in HL. rewrite (scale_I0 s0 known) in *.
    unfold mc_of. rewrite (scale_I0 s0 known). unfold is_cluster. cbn [mc_tc mc_frames mc_bytes].
    pose proof (tc_width_range (sg_fixed s0) (cl_tc c)) as [W1 W2].
    exists (be_bytes (Z.to_nat (tc_width (sg_fixed s0) (cl_tc c))) (cl_tc c)), (tc_bytes (sg_fixed s0) (cl_tc c)), (map (blk sc (cl_tc c)) fs).
    split; [apply uint_payload_ok; [unfold is_u64; change (2 ^ 64) with 18446744073709551616; change (2 ^ 63) with 9223372036854775808 in HT; lia|exact W1|exact W2]|].
    split; [apply e_uintf_element; [exists 1; split; [lia|vm_compute; split; congruence]|exact W1]|].
    split.
    - clear HL. induction Hok as [|f fs [H1 H2] Hok IH]; [constructor|]. constructor; [apply block_ok; assumption|exact IH].
    - rewrite <- flat_map_concat_map. fold (body sc (sg_fixed s0) (cl_tc c) fs). unfold closed_bytes. apply sized_intro; [exists 4; split; [lia|vm_compute; split; congruence]|].
      rewrite !zlen_app in HL. pose proof (zlen_nonneg _ (id_bytes kMkvCluster)).
      pose proof (zlen_nonneg _ (if known then vint 8 (zlen (body sc (sg_fixed s0) (cl_tc c) fs)) else unknown8)). lia.
  Qed.
  Lemma clusters_ok : forall G, DA G -> zlen (CA G) < 2 ^ 55 -> Forall (is_cluster known sc) (mcs G).
  Proof.
    intros G HD HL. unfold mcs. apply Forall_map. apply Forall_rev. rewrite Forall_forall. intros [[c fs] ad] HI.
    destruct (done_split s0 known G (c, fs, ad) HD HI) as (B & R & _ & HG). eapply cluster_ok; [exact HG|]. pose proof (CA_part G c fs ad HI). lia.
  Qed.

  Lemma stored_cluster_ok : forall c fs ad pre, DG pre (c, fs, ad) -> zlen (closed_bytes known (scale I0) (sg_fixed s0) (cl_tc c) fs) < 2 ^ 55 -> stored_cluster known sc (mc_of (c, fs, ad)).
  Proof.
    intros c fs ad pre (HC & _ & Hok & _ & _) HL. destruct HC as (_ & _ & _ & HT & _). unfold closed_bytes in HL. rewrite (scale_I0 s0 known) in *.
    unfold mc_of. rewrite (scale_I0 s0 known). unfold stored_cluster. cbn [mc_tc mc_frames mc_bytes].
    pose proof (tc_width_range (sg_fixed s0) (cl_tc c)) as [W1 W2].
    split; [exact HT|]. split. { eapply Forall_impl; [|exact Hok]. intros f [[H1 _] _]. exact H1. }
    exists (be_bytes (Z.to_nat (tc_width (sg_fixed s0) (cl_tc c))) (cl_tc c)), (tc_bytes (sg_fixed s0) (cl_tc c)), (map (blk sc (cl_tc c)) fs).
    split; [apply uint_payload_ok; [unfold is_u64; change (2 ^ 64) with 18446744073709551616; change (2 ^ 63) with 9223372036854775808 in HT; lia|exact W1|exact W2]|].
    split; [apply e_uintf_element; [exists 1; split; [lia|vm_compute; split; congruence]|exact W1]|].
    split.
    - clear HL. induction Hok as [|f fs [[H1 H1'] H2] Hok IH]; [constructor|]. constructor; [|exact IH].
      exact (frame_bytes_spec f (frame_rel f (cl_tc c) sc) sc H1 H2 (proj1 (r_info _ Hr))).
    - rewrite <- flat_map_concat_map. fold (body sc (sg_fixed s0) (cl_tc c) fs). unfold closed_bytes. apply sized_intro; [exists 4; split; [lia|vm_compute; split; congruence]|].
      rewrite !zlen_app in HL. pose proof (zlen_nonneg _ (id_bytes kMkvCluster)).
      pose proof (zlen_nonneg _ (if known then vint 8 (zlen (body sc (sg_fixed s0) (cl_tc c) fs)) else unknown8)). lia.
  Qed.
  Lemma stored_clusters_ok : forall G, DA G -> zlen (CA G) < 2 ^ 55 -> Forall (stored_cluster known sc) (mcs G).
  Proof.
    intros G HD HL. unfold mcs. apply Forall_map. apply Forall_rev. rewrite Forall_forall. intros [[c fs] ad] HI.
    destruct (done_split s0 known G (c, fs, ad) HD HI) as (B & R & _ & HG). eapply stored_cluster_ok; [exact HG|]. pose proof (CA_part G c fs ad HI). lia.
  Qed.

  (* ---------- frames ---------- *)
  Lemma frames_track : forall G, DA G -> forall n, Forall2 (carries (sg_accurate s0)) (filter (of_track n) (addeds G)) (filter (of_track n) (concat (map mc_frames (mcs G)))).
  Proof.
    intros G HD n. pose proof (fun E => mcs_frames G E HD) as Hm. destruct (sg_accurate s0) eqn:Ea; [clear Hm|].
    2:{ rewrite (Hm eq_refl). induction (filter (of_track n) (addeds G)); constructor; auto using carries_refl. }
    induction G as [|[[c fs] ad] G IH]; [constructor|]. destruct HD as [(_ & _ & _ & _ & HF) HD]. unfold cluster_frames in HF.
    rewrite mcs_cons, map_app, concat_app. cbn [map concat mc_of mc_frames addeds]. rewrite app_nil_r, !filter_app. apply Forall2_app; [exact (IH HD)|]. apply HF.
  Qed.
  Lemma frames_back : forall G g, DA G -> In g (concat (map mc_frames (mcs G))) -> exists a, In a (addeds G) /\ fr_timestamp g = fr_timestamp a.
  Proof.
    intros G g HD HI. pose proof (frames_track G HD (fr_track g)) as HF.
    destruct (Forall2_In_r _ _ _ _ _ g HF) as (a & H1 & H2). { apply filter_In. split; [exact HI|]. unfold of_track. lia. }
    apply filter_In in H1. exists a. split; [apply H1|]. apply H2.
  Qed.
  Lemma frames_sorted : forall G, DA G -> sorted_ts (addeds G) -> sorted_ts (concat (map mc_frames (mcs G))).
  Proof.
    intros G HD HS. pose proof (fun E => mcs_frames G E HD) as Hm. destruct (sg_accurate s0) eqn:Ea; [clear Hm; revert HD HS|rewrite (Hm eq_refl); exact HS].
    induction G as [|[[c fs] ad] G IH]; intros HD HS; [constructor|]. pose proof HD as [(_ & _ & _ & _ & HF) HD']. unfold cluster_frames in HF.
    rewrite mcs_cons, map_app, concat_app. cbn [map concat mc_of mc_frames]. rewrite app_nil_r. cbn [addeds] in HS. apply sorted_app in HS as (S1 & S2 & S3).
    apply sorted_app. split; [auto|]. split; [apply HF|]. intros x y Hx Hy.
    rewrite <- Ea in HD'. destruct (frames_back G x HD' Hx) as (a & Ha & ->).
    destruct HF as [_ HF]. destruct (Forall2_In_r _ _ _ _ _ y (HF (fr_track y))) as (b & Hb & Hc). { apply filter_In. split; [exact Hy|unfold of_track; lia]. }
    apply filter_In in Hb as [Hb _]. destruct Hc as (_ & _ & _ & _ & _ & -> & _). apply S3; assumption.
  Qed.

  (* ---------- the layout ---------- *)
  Definition lay (out : bool) (qs : list cue_point) (G : list grp) (sv : list Z) (d : f64) : layout :=
    mkLayout (hE s0) sv (hIF s0 known d) (hT s0) (hC s0) (hG s0) (mcs G) (hQ out qs).

  Lemma lay_front : forall out qs G sv d, lo_front (lay out qs G sv d) = frontF s0 known sv d.
  Proof. reflexivity. Qed.
  Lemma lay_body : forall out qs G sv d, lo_body (lay out qs G sv d) = frontF s0 known sv d ++ CA G ++ hQ out qs.
  Proof. intros. unfold lo_body. rewrite lay_front. cbn [lay lo_clusters lo_cues]. rewrite mcs_bytes. reflexivity. Qed.

  Lemma info_rep : forall d, representable [info_tree (si_set_duration (dF s0 known d) (sg_info s0))].
  Proof.
    intros d. pose proof (room_all s0 HB). pose proof (w_nonneg s0). pose proof (info_weight (sg_info s0) (dF s0 known d)). apply rep_of; [|lia]. apply info_values. apply (r_info _ Hr).
  Qed.

  Lemma lay_muxed : forall w A s G sv d, AC s0 known strict s w A G -> forall w2 out, final_file s0 known w2 out (sg_cues s) G sv d -> 
    zlen (w_file w) + 128 * zlen A + 16 < 2 ^ 55 ->
    is_muxed known s0 (doc_name s0) (dF s0 known d) (if out then Some (sg_cues s) else None) (w_file w2) (lay out (sg_cues s) G sv d).
  Proof.
    intros w A s G sv d HA w2 out [F1 F2 F3 F4 F5] HL. pose proof HA as [A1 A2 A3 A4 A5 A6 A7 A8 A9 A10 A11 A12 A13].
    eexists. split; [exact F1|]. split; [apply enc_spec; apply rep_ebml|]. split; [rewrite lay_body; apply sized_intro; [exists 4; split; [lia|vm_compute; split; congruence]|exact F5]|].
    split; [apply enc_spec; apply info_rep|]. split; [apply enc_spec; apply (rep_tracks s0 Hr HB)|].
    split. { cbn [lay lo_chapters]. unfold opt_element, hC. pose proof (enc_spec _ (rep_chapters s0 Hr HB)) as HE. destruct (sg_chapters s0); [reflexivity|exact HE]. }
    split. { cbn [lay lo_tags]. unfold opt_element, hG. pose proof (enc_spec _ (rep_tags s0 Hr HB)) as HE. destruct (sg_tags s0); [reflexivity|exact HE]. }
    split. { cbn [lay lo_clusters]. apply clusters_ok; [exact A5|]. rewrite !zlen_app in F5. pose proof (zlen_nonneg _ (frontF s0 known sv d)). pose proof (zlen_nonneg _ (hQ out (sg_cues s))). lia. }
    cbn [lay lo_cues]. unfold hQ. destruct out; [|reflexivity]. apply enc_spec. rewrite A2 in HL. pose proof (zlen_nonneg _ A). pose proof (zlen_nonneg _ (sg_cues s)).
    pose proof (zlen_nonneg _ (hd0 s0 known ++ CA G)). eapply (cues_rep s0 known); try eassumption; lia.
  Qed.

  Lemma lay_seek : forall out qs G sv d w2, final_file s0 known w2 out qs G sv d -> known = true -> is_seek_head (lay out qs G sv d) (uF s0 known out G).
  Proof.
    intros out qs G sv d w2 [F1 F2 F3 F4 F5] HK. apply if_true in F3; [|exact HK]. destruct F3 as (HL & vp & void & -> & HV).
    exists (enc (seek_head_tree (uF s0 known out G))), vp, void. split; [reflexivity|]. split; [exact HL|]. split; [apply enc_spec; apply seek_head_rep; exact F4|exact HV].
  Qed.

  Lemma enc_elem : forall id kids, representable [Master id kids] -> exists p, is_element id p (enc (Master id kids)).
  Proof. intros id kids H. apply enc_spec in H. inversion H; subst. eauto. Qed.
  Lemma enc_elem' : forall t id kids, t = Master id kids -> representable [t] -> exists p, is_element id p (enc t).
  Proof. intros t id kids -> H. apply enc_elem. exact H. Qed.

  Lemma lay_entries : forall out qs G sv d w2, final_file s0 known w2 out qs G sv d -> known = true -> DA G -> G <> [] ->
    (out = true -> representable [cues_tree qs]) ->
    Forall (fun e => starts_at (lo_body (lay out qs G sv d)) (fst e) (snd e)) (uF s0 known out G).
  Proof.
    intros out qs G sv d w2 [F1 F2 F3 F4 F5] HK HD HNE HQ. assert (HSV : zlen sv = 110) by (apply if_true in F3; [apply F3|exact HK]).
    assert (HVL : zlen (hV s0 known) = 110). { rewrite hV_len, (ph_known s0 Hlive), HK. reflexivity. }
    assert (HIL : zlen (hIF s0 known d) = zlen (hI s0 known)). { unfold frontF, front in F2. rewrite !zlen_app in F2. lia. }
    rewrite lay_body. unfold uF, u5, u4, u3, u2. rewrite !Forall_app. unfold frontF in *.
    split; [split; [split; [split|]|]|].
    - constructor; [|constructor; [|constructor]]; cbn [fst snd].
      + destruct (enc_elem' _ _ _ eq_refl (info_rep d)) as (p & Hp). exists sv, p, (hIF s0 known d), ((hT s0 ++ hC s0 ++ hG s0) ++ CA G ++ hQ out qs).
        split; [rewrite <- !app_assoc; reflexivity|]. split; [lia|exact Hp].
      + destruct (enc_elem' _ _ _ eq_refl (rep_tracks s0 Hr HB)) as (p & Hp). exists (sv ++ hIF s0 known d), p, (hT s0), ((hC s0 ++ hG s0) ++ CA G ++ hQ out qs).
        split; [rewrite <- !app_assoc; reflexivity|]. split; [rewrite zlen_app; lia|exact Hp].
    - destruct (sg_chapters s0) eqn:EC; [constructor|]. constructor; [|constructor]. cbn [fst snd].
      destruct (enc_elem' _ _ _ eq_refl (rep_chapters s0 Hr HB)) as (p & Hp). exists (sv ++ hIF s0 known d ++ hT s0), p, (hC s0), (hG s0 ++ CA G ++ hQ out qs).
      split; [rewrite <- !app_assoc; reflexivity|]. split; [rewrite !zlen_app; lia|]. unfold hC. rewrite EC in *. exact Hp.
    - destruct (sg_tags s0) eqn:EC; [constructor|]. constructor; [|constructor]. cbn [fst snd].
      destruct (enc_elem' _ _ _ eq_refl (rep_tags s0 Hr HB)) as (p & Hp). exists (sv ++ hIF s0 known d ++ hT s0 ++ hC s0), p, (hG s0), (CA G ++ hQ out qs).
      split; [rewrite <- !app_assoc; reflexivity|]. split; [rewrite !zlen_app; lia|]. unfold hG. rewrite EC in *. exact Hp.
    - constructor; [|constructor]. cbn [fst snd]. destruct (exists_last HNE) as (B & [[c fs] ad] & EG).
      assert (HCA : CA G = closed_bytes known (scale I0) (sg_fixed s0) (cl_tc c) fs ++ CA B). { rewrite EG, closed_app. reflexivity. }
      assert (HCL : is_cluster known sc (mc_of (c, fs, ad))).
      { assert (HIn : In (c, fs, ad) G) by (rewrite EG; apply in_or_app; right; left; reflexivity).
        destruct (done_split s0 known G (c, fs, ad) HD HIn) as (? & ? & _ & HG1). eapply cluster_ok; [exact HG1|]. pose proof (CA_part G c fs ad HIn).
        rewrite !zlen_app in F5. pose proof (zlen_nonneg _ sv). pose proof (zlen_nonneg _ (hIF s0 known d)). pose proof (zlen_nonneg _ (hT s0)). pose proof (zlen_nonneg _ (hC s0)). pose proof (zlen_nonneg _ (hG s0)). pose proof (zlen_nonneg _ (hQ out qs)). lia. }
      destruct HCL as (tcp & t & bl & _ & _ & _ & HEl). cbn [mc_bytes mc_of] in HEl. unfold is_sized_element in HEl. apply if_true in HEl; [|exact HK].
      exists (frontF s0 known sv d), (t ++ concat bl), (closed_bytes known (scale I0) (sg_fixed s0) (cl_tc c) fs), (CA B ++ hQ out qs).
      split; [rewrite HCA; unfold frontF; rewrite <- !app_assoc; reflexivity|]. split; [exact F2|exact HEl].
    - destruct out; [|constructor]. constructor; [|constructor]. cbn [fst snd]. destruct (enc_elem' _ _ _ eq_refl (HQ eq_refl)) as (p & Hp).
      exists (frontF s0 known sv d ++ CA G), p, (hQ true qs), []. split; [unfold frontF; rewrite app_nil_r, <- !app_assoc; reflexivity|]. split; [rewrite (zlen_app _ (frontF s0 known sv d)); unfold frontF; lia|exact Hp].
  Qed.

  Lemma lay_cue : forall out qs G sv d w2 q, final_file s0 known w2 out qs G sv d -> DA G -> CO G q ->
    if sg_accurate s0 then exists f, locates_cluster sc (lay out qs G sv d) q f else exists f, locates sc (lay out qs G sv d) q f.
  Proof.
    intros out qs G sv d w2 q [F1 F2 F3 F4 F5] HD HQ. destruct (cue_place s0 known Hlive G q HD HQ) as (B & c & fs & ad & R & g & EG & HDG & HP & (HF & HT & HTm) & Hg & _).
    assert (EL : mcs G = mcs R ++ mc_of (c, fs, ad) :: mcs B).
    { rewrite EG, mcs_app. change ((c, fs, ad) :: R) with ([(c, fs, ad)] ++ R). rewrite mcs_app, <- app_assoc. reflexivity. }
    unfold tcf in HTm. rewrite (scale_I0 s0 known) in HTm. destruct HDG as (_ & _ & _ & _ & HCF). unfold cluster_frames in HCF. destruct (sg_accurate s0) eqn:Ea.
    - destruct HCF as [_ HCF]. destruct (Forall2_In_l _ _ _ _ _ g (HCF (fr_track g))) as (g' & HI & HC). { apply filter_In. split; [exact HF|unfold of_track; lia]. }
      apply filter_In in HI as [HI _]. exists g', (mcs R), (mc_of (c, fs, ad)), (mcs B). split; [exact EL|]. split; [rewrite HP, lay_front, mcs_bytes; lia|]. split; [exact HI|].
      destruct HC as (_ & _ & _ & _ & HC1 & HC2 & _). rewrite HC1, HC2. split; assumption.
    - exists g, (mcs R), (mc_of (c, fs, ad)), (mcs B). split; [exact EL|]. split; [rewrite HP, lay_front, mcs_bytes; lia|]. split; [apply HF|]. split; [apply HF|]. split; assumption.
  Qed.

  Lemma front_entries : forall sv d rest, zlen sv = 110 -> known = true -> zlen (hIF s0 known d) = zlen (hI s0 known) ->
    Forall (fun e => starts_at (sv ++ hIF s0 known d ++ hT s0 ++ hC s0 ++ hG s0 ++ rest) (fst e) (snd e)) (u4 s0 known).
  Proof.
    intros sv d rest HSV HK HIL. assert (HVL : zlen (hV s0 known) = 110). { rewrite hV_len, (ph_known s0 Hlive), HK. reflexivity. }
    unfold u4, u3, u2. rewrite !Forall_app. split; [split|].
    - constructor; [|constructor; [|constructor]]; cbn [fst snd].
      + destruct (enc_elem' _ _ _ eq_refl (info_rep d)) as (p & Hp). exists sv, p, (hIF s0 known d), (hT s0 ++ hC s0 ++ hG s0 ++ rest).
        split; [reflexivity|]. split; [lia|exact Hp].
      + destruct (enc_elem' _ _ _ eq_refl (rep_tracks s0 Hr HB)) as (p & Hp). exists (sv ++ hIF s0 known d), p, (hT s0), (hC s0 ++ hG s0 ++ rest).
        split; [rewrite <- !app_assoc; reflexivity|]. split; [rewrite zlen_app; lia|exact Hp].
    - destruct (sg_chapters s0) eqn:EC; [constructor|]. constructor; [|constructor]. cbn [fst snd].
      destruct (enc_elem' _ _ _ eq_refl (rep_chapters s0 Hr HB)) as (p & Hp). exists (sv ++ hIF s0 known d ++ hT s0), p, (hC s0), (hG s0 ++ rest).
      split; [rewrite <- !app_assoc; reflexivity|]. split; [rewrite !zlen_app; lia|]. unfold hC. rewrite EC in *. exact Hp.
    - destruct (sg_tags s0) eqn:EC; [constructor|]. constructor; [|constructor]. cbn [fst snd].
      destruct (enc_elem' _ _ _ eq_refl (rep_tags s0 Hr HB)) as (p & Hp). exists (sv ++ hIF s0 known d ++ hT s0 ++ hC s0), p, (hG s0), rest.
      split; [rewrite <- !app_assoc; reflexivity|]. split; [rewrite !zlen_app; lia|]. unfold hG. rewrite EC in *. exact Hp.
  Qed.

  Lemma done_first : forall B g, DA (B ++ [g]) -> DG (hd0 s0 known ++ CA []) g.
  Proof. induction B as [|x B IH]; intros g [H1 H2]; [exact H1|exact (IH g H2)]. Qed.

  Lemma lay_finished : forall w A s G sv d w2 s2, AC s0 known strict s w A G -> final_file s0 known w2 true (sg_cues s) G sv d -> final_seg s0 known s2 true (sg_cues s) G ->
    zlen (w_file w) + 128 * zlen A + 16 < 2 ^ 55 -> known = true -> finished s2 (w_file w2) (lay true (sg_cues s) G sv d) (sg_cues s) (u4 s0 known).
  Proof.
    intros w A s G sv d w2 s2 HA HF HG HL HK. pose proof HA as [A1 A2 A3 A4 A5 A6 A7 A8 A9 A10 A11 A12 A13]. pose proof HF as [F1 F2 F3 F4 F5]. destruct HG as [G1 G2 G3 G4 G5 G6].
    assert (HSV : zlen sv = 110) by (apply if_true in F3; [apply F3|exact HK]).
    assert (HVL : zlen (hV s0 known) = 110). { rewrite hV_len, (ph_known s0 Hlive), HK. reflexivity. }
    assert (HIL : zlen (hIF s0 known d) = zlen (hI s0 known)). { unfold frontF, front in F2. rewrite !zlen_app in F2. lia. }
    set (l := lay true (sg_cues s) G sv d).
    assert (EFR : zlen (lo_front l) = zlen (front s0 known)) by exact F2.
    assert (ECL : all_clusters l = CA G) by (unfold all_clusters; cbn [l lay lo_clusters]; apply mcs_bytes).
    assert (EEN : fin_entries l (u4 s0 known) = uF s0 known true G). { unfold fin_entries, uF, u5. rewrite EFR, ECL, <- app_assoc. reflexivity. }
    pose proof (zlen_nonneg _ (sg_cues s)) as NQ. pose proof (zlen_nonneg _ (hE s0)) as NE. pose proof (zlen_nonneg _ (front s0 known)) as NF. pose proof (zlen_nonneg _ (CA G)) as NC.
    assert (EP : hP s0 = zlen (lo_ebml l) + 12) by reflexivity.
    constructor.
    - rewrite F1. unfold l. rewrite lay_body. rewrite HK at 1. reflexivity.
    - exact G1.
    - rewrite G3, EEN. unfold sh, start0. rewrite (ph_known s0 Hlive), HK. reflexivity.
    - exact G4.
    - exact G5.
    - rewrite G6, EFR, ECL, EP. lia.
    - intros HNE. assert (HG : G <> []) by (intros ->; apply HNE; reflexivity). destruct (exists_last HG) as (B & [[c fs] ad] & EG).
      exists c, (rev (map g_cl B)). split; [rewrite G2, EG, map_app, rev_app_distr; reflexivity|].
      rewrite EG in A5. pose proof (done_first B (c, fs, ad) A5) as (_ & HD & _). rewrite HD. cbn [closed_all]. rewrite app_nil_r, (hd0_len s0 known Hlive), EP, EFR. lia.
    - cbn [l lay lo_clusters]. rewrite G2. destruct G as [|g G']; [reflexivity|]. unfold mcs. cbn [rev map]. rewrite map_app. intros HH. destruct (map _ (rev G')); discriminate HH.
    - rewrite EEN. pose proof F4 as [_ HF4]. eapply Forall_impl; [|exact HF4]. cbn beta. intros e [He _]. lia.
    - rewrite EEN. exact F4.
    - unfold u4, u3, u2. rewrite !Forall_app. split; [split|].
      + repeat constructor; cbn [fst]; unfold kMkvInfo, kMkvTracks, kMkvCluster, kMkvCues; lia.
      + destruct (sg_chapters s0); repeat constructor; cbn [fst]; unfold kMkvChapters, kMkvCluster, kMkvCues; lia.
      + destruct (sg_tags s0); repeat constructor; cbn [fst]; unfold kMkvTags, kMkvCluster, kMkvCues; lia.
    - intros sv' rest HS'. exact (front_entries sv' d rest HS' HK HIL).
    - exact HSV.
    - rewrite EFR, ECL. rewrite A2, zlen_app, (hd0_len s0 known Hlive), EP in HL. pose proof (zlen_nonneg _ (lo_ebml l)). lia.
    - eapply Forall_impl; [|exact A8]. intros q Hq. eapply (cue_rep s0 known); try eassumption. rewrite A2 in HL. pose proof (zlen_nonneg _ A). lia.
  Qed.

  Lemma entry_ids : forall out G, Forall (fun e : Z * Z => valid_id (fst e)) (uF s0 known out G).
  Proof.
    intros out G. unfold uF, u5, u4, u3, u2. rewrite !Forall_app.
    split; [split; [split; [split|]|]|].
    - repeat constructor; exists 4; split; try lia; vm_compute; split; congruence.
    - destruct (sg_chapters s0); repeat constructor; exists 4; split; try lia; vm_compute; split; congruence.
    - destruct (sg_tags s0); repeat constructor; exists 4; split; try lia; vm_compute; split; congruence.
    - repeat constructor; exists 4; split; try lia; vm_compute; split; congruence.
    - destruct out; repeat constructor; exists 4; split; try lia; vm_compute; split; congruence.
  Qed.
  Lemma lay_parts : forall w A s G sv d w2 out, AC s0 known strict s w A G -> final_file s0 known w2 out (sg_cues s) G sv d ->
    zlen (w_file w) + 128 * zlen A + 16 < 2 ^ 55 ->
    file_parts known out s0 (w_file w2) (if out then Some (sg_cues s) else None) (lay out (sg_cues s) G sv d).
  Proof.
    intros w A s G sv d w2 out HA HF HL. pose proof HA as [A1 A2 A3 A4 A5 A6 A7 A8 A9 A10 A11 A12 A13]. pose proof HF as [F1 F2 F3 F4 F5].
    rewrite A2 in HL. pose proof (zlen_nonneg _ (sg_cues s)) as NQ. pose proof (zlen_nonneg _ (hd0 s0 known ++ CA G)) as NH. pose proof (zlen_nonneg _ A) as NA.
    destruct (cues_rep s0 known Hr Hlive G (sg_cues s) A5 A8) as (HRp & HCV & _); [lia|lia|].
    assert (HCA : zlen (CA G) < 2 ^ 55). { rewrite zlen_app in HL. pose proof (zlen_nonneg _ (hd0 s0 known)). lia. }
    split; [apply stored_clusters_ok; assumption|]. split; [|split; [|split; [|split]]].
    - destruct known eqn:EK; [|exact F3]. rewrite <- EK in *. exists (uF s0 known out G). split; [eapply lay_seek; eassumption|].
      destruct F4 as [[F41 F42] F43]. split; [|split; [unfold zlen; lia|split]].
      + pose proof (entry_ids out G) as HI. rewrite Forall_forall in HI, F43 |- *. intros e He. split; [apply HI; exact He|]. destruct (F43 e He) as [_ X]. change (2 ^ 56) with 72057594037927936 in X. change (2 ^ 63) with 9223372036854775808. lia.
      + intros HC. eapply lay_entries; try eassumption; [intros ->; apply HC; reflexivity|intros _; exact HRp].
      + unfold seek_ids, uF, u5, u4, u3, u2. rewrite !map_app. destruct (sg_chapters s0), (sg_tags s0), out; reflexivity.
    - destruct out; [|exact I]. split; [exact HRp|]. split; [exact HCV|]. eapply Forall_impl; [|exact A8]. intros q Hq. eapply (cue_read s0 known); try eassumption. lia.
    - apply rep_tracks; assumption.
    - apply rep_chapters; assumption.
    - rewrite F1, !zlen_app. pose proof (hE_bound s0) as HEB. change (zlen (id_bytes kMkvSegment)) with 4. rewrite !zlen_app in F5. pw.
      destruct known; rewrite ?vint8_zlen, ?unknown8_zlen; lia.
  Qed.

  (* ---------- from the first call to Finalize ---------- *)
  Lemma room_frames : forall fs, room s0 fs = room s0 [] + weights fs + 200 * zlen fs.
  Proof.
    clear Hr HB Hlive. intros fs. unfold room. cbn [fold_right]. set (W := weight_all _). assert (H : fold_right (fun f n => frame_room f + n) 0 fs = weights fs + 200 * zlen fs); [|lia].
    induction fs as [|f fs IH]; [reflexivity|]. cbn [fold_right weights]. rewrite zlen_cons. fold (weights fs). rewrite IH. unfold frame_room, frame_weight. lia.
  Qed.
  Lemma accepted_len : forall h, zlen (accepted h) <= zlen h.
  Proof. induction h as [|[f b] h IH]; [cbn; lia|]. unfold accepted in *. cbn [filter snd]. rewrite zlen_cons. destruct b; cbn [map]; rewrite ?zlen_cons; lia. Qed.

  Definition outcome_ok (out : bool) (A : list frame) (file : list Z) (s2 : segment) : Prop :=
    exists d cues l, is_muxed known s0 (doc_name s0) d cues file l /\
      match cues with
      | None => out = false
      | Some qs => out = true /\ Forall (fun q => if sg_accurate s0 then exists f, locates_cluster sc l q f else exists f, locates sc l q f) qs
      end /\
      (known = true -> exists entries, is_seek_head l entries /\ (lo_clusters l <> [] -> Forall (fun e => starts_at (lo_body l) (fst e) (snd e)) entries) /\
        map fst entries = seek_ids s0 out) /\
      (sg_accurate s0 = false -> retained (fun f => held_back s0 f = true) A (lo_frames l)) /\
      (strict = true -> sorted_ts (lo_frames l) /\ (forall n, Forall2 (carries (sg_accurate s0)) (filter (of_track n) A) (filter (of_track n) (lo_frames l))) /\
        (sg_accurate s0 = false -> Forall2 (carries false) A (lo_frames l)) /\ (A <> [] -> lo_clusters l <> []) /\
        StronglySorted Z.le (map mc_tc (lo_clusters l)) /\ Forall (fun c => mc_frames c <> []) (lo_clusters l)) /\
      (known = true -> match cues with None => True | Some qs => exists pre, finished s2 file l qs pre /\ map fst (fin_entries l pre) = seek_ids s0 true end) /\
      file_parts known out s0 file cues l.

  Lemma mux_run : needs_strict (sg_accurate s0) strict -> forall cs f cs' w, cs = AddF f :: cs' -> new_file known w -> Forall (fr_ok s0) (given cs) -> fits_file s0 (given cs) ->
    (strict = true -> steady s0 (given cs) /\ Forall (can_write s0) (given cs)) ->
    exists h s1 w1 b s2 w2, run_calls cs s0 w = Val ((h, s1), w1) /\ map fst h = given cs /\ Segment_Finalize s1 w1 = Val ((b, s2), w2) /\
      ForallOrdPairs (in_order s0) (accepted h) /\
      (strict = true -> accepted h = given cs /\
        (existsb (fun f => negb (held_back s0 f)) (given cs) = true -> sg_output_cues s1 = false \/ sg_chapters s0 = [] \/ sg_tags s0 = [] -> b = true)) /\
      (b = true -> outcome_ok (sg_output_cues s1) (accepted h) (w_file w2) s2).
  Proof.
    intros Hacc cs f cs' w Ecs HW HF [HR HN] HS. destruct (CHI_run s0 known Hr HB w HW) as (wa & Ea & He & Fa & Ka).
    assert (ER : run_calls cs s0 w = run_calls cs (after_check s0 known) wa).
    { rewrite Ecs. cbn [run_calls]. unfold bind at 1 3. rewrite (AGF_first s0 known f w wa Ea). reflexivity. }
    rewrite room_frames in HR. pose proof (front_bound s0 known) as [_ HH]. pose proof (weights_nonneg (given cs)). pose proof (zlen_nonneg _ (given cs)).
    destruct (calls_run s0 known strict Hr Hlive Hacc cs (after_check s0 known) wa [] [] [] [] [] (IV_start s0 known strict Hr Hlive wa He Fa Ka) HF) as (h & s1 & w1 & G & q & st & E1 & HM & HI & HST & HOP).
    { intros HX. destruct (HS HX). split; [split; assumption|exact I]. }
    { rewrite zlen_nil. lia. }
    { cbn [app]. lia. }
    cbn [app] in HI. assert (HAL : zlen (accepted h) <= zlen (given cs)). { rewrite <- HM. pose proof (accepted_len h) as HX. unfold zlen in *. rewrite map_length. exact HX. }
    destruct (fin1_run s0 known strict Hr Hlive s1 w1 (accepted h) (given cs) G q st Hacc HI) as (b1 & sa & wf & E2 & HT & HA); [lia|lia|].
    rewrite <- ER in E1. exists h, s1, w1.
    assert (HLEAD : strict = true -> existsb (fun f => negb (held_back s0 f)) (given cs) = true -> G <> [] /\ (started G st \/ q <> [])).
    { intros HX HE. destruct (HST HX) as [HA1 HS1]. split; [|left; exact HS1]. intros ->. 
      pose proof (i_lead _ _ _ _ _ _ _ _ _ _ _ _ _ _ _ _ _ _ _ _ _ _ _ _ _ HI eq_refl) as HL. rewrite HA1 in HL. apply existsb_exists in HE as (g & Hg & HE). rewrite Forall_forall in HL. specialize (HL g Hg).
      change (held_back s0 g = true) in HL. rewrite HL in HE. discriminate. }
    rewrite Finalize_eq, (bind_run _ _ _ _ _ _ _ E2). destruct b1.
    2:{ exists false, sa, wf. split; [exact E1|]. split; [exact HM|]. split; [reflexivity|]. split; [apply HOP; constructor|]. split; [|discriminate]. intros HX. split; [apply (HST HX)|]. intros HE. destruct (HLEAD HX HE) as [H1 H2]. specialize (HT H1 H2). discriminate. }
    destruct (HA eq_refl) as (G' & HAC & HNE & HO & HLW). cbn [negb].
    destruct (fin2_run s0 known strict Hr Hlive sa wf (accepted h) G' HAC) as (b & s2 & w2 & E3 & HB3 & HFF); [lia|].
    exists b, s2, w2. split; [exact E1|]. split; [exact HM|]. split; [exact E3|]. split; [apply HOP; constructor|]. rewrite HO in *. split.
    { intros HX. split; [apply (HST HX)|]. intros HE HC. destruct b; [reflexivity|]. destruct (proj1 HB3 eq_refl) as [H1 H2]. rewrite len5 in H2. destruct HC as [HC|[HC|HC]]; [congruence|rewrite HC in H2; destruct (sg_tags s0); discriminate|rewrite HC in H2; destruct (sg_chapters s0); discriminate]. }
    intros ->. destruct (HFF eq_refl) as (_ & HFG & sv & d & HF2). pose proof HAC as [A1 A2 A3 A4 A5 A6 A7 A8 A9 A10 A11 A12 A13].
    assert (HBIG : zlen (w_file wf) + 128 * zlen (accepted h) + 16 < 2 ^ 55) by lia.
    assert (HCR : representable [cues_tree (sg_cues sa)]).
    { rewrite A2 in HBIG. clear - A5 A8 A9 HBIG Hr Hlive. pose proof (zlen_nonneg _ (sg_cues sa)). pose proof (zlen_nonneg _ (hd0 s0 known ++ CA G')).
      destruct (cues_rep s0 known Hr Hlive G' (sg_cues sa) A5 A8) as (HRp & _); [lia|lia|exact HRp]. }
    set (l := lay (sg_output_cues s1) (sg_cues sa) G' sv d).
    exists (dF s0 known d), (if sg_output_cues s1 then Some (sg_cues sa) else None), l.
    split; [eapply lay_muxed; [exact HAC|exact HF2|exact HBIG]|].
    assert (HEMP : lo_clusters l <> [] -> G' <> []). { intros HC ->. apply HC. reflexivity. }
    split.
    { destruct (sg_output_cues s1) eqn:EO; [|reflexivity]. split; [reflexivity|]. eapply Forall_impl; [|exact A8]. intros c Hc. eapply lay_cue; eassumption. }
    split.
    { intros HK. exists (uF s0 known (sg_output_cues s1) G'). split; [eapply lay_seek; eassumption|]. split.
      - intros HC. eapply lay_entries; try eassumption; [auto|]. intros _. exact HCR.
      - unfold seek_ids, uF, u5, u4, u3, u2. rewrite !map_app. destruct (sg_chapters s0), (sg_tags s0), (sg_output_cues s1); reflexivity. }
    assert (HLF : lo_frames l = concat (map mc_frames (mcs G'))) by reflexivity.
    split.
    { intros Hna. rewrite HLF, mcs_frames by assumption. exact A10. }
    split.
    2:{ split; [|eapply lay_parts; eassumption]. intros HK. destruct (sg_output_cues s1) eqn:EO; [|exact I]. exists (u4 s0 known). split; [eapply lay_finished; eassumption|].
        unfold seek_ids, fin_entries, u4, u3, u2. rewrite !map_app. destruct (sg_chapters s0), (sg_tags s0); reflexivity. }
    intros HX. destruct (A11 HX) as [H1 H2]. rewrite HLF. split; [apply frames_sorted; assumption|]. split; [|split; [|split]].
    - intros n. eapply Forall2_trans; [|apply filter_Forall2; [|exact H1]|apply frames_track; exact A5].
      + intros x y z. apply carries_trans.
      + intros x y Hxy. eapply carries_track. exact Hxy.
    - intros Hna. rewrite mcs_frames by assumption. exact H1.
    - intros HNA HC. change (lo_clusters l) with (mcs G') in HC. destruct G' as [|g G']; [|rewrite mcs_cons in HC; destruct (mcs G'); discriminate].
      cbn [addeds] in H1. inversion H1. subst. congruence.
    - change (lo_clusters l) with (mcs G'). destruct (A13 HX) as [HOr HFu]. split; [apply mcs_order; exact HOr|apply mcs_full; assumption].
  Qed.
End Layout.

(* ---------- options before the first frame ---------- *)

Definition same_cfg (s s' : segment) : Prop :=
  sg_info s' = sg_info s /\ sg_tracks s' = sg_tracks s /\ sg_chapters s' = sg_chapters s /\ sg_tags s' = sg_tags s /\
  sg_live s' = sg_live s /\ sg_accurate s' = sg_accurate s /\ sg_has_video s' = sg_has_video s.
Lemma same_refl : forall s, same_cfg s s. Proof. intros s. repeat split. Qed.
Lemma opt_ready : forall s s', same_but_options s s' -> ready s -> ready s' /\ same_cfg s s'.
Proof. intros s s' (f & o & t & d & z & ->) []. split; [constructor; assumption|repeat split]. Qed.
Lemma same_trans : forall a b c, same_cfg a b -> same_cfg b c -> same_cfg a c.
Proof.
  intros a b c (A1 & A2 & A3 & A4 & A5 & A6 & A7) (B1 & B2 & B3 & B4 & B5 & B6 & B7). unfold same_cfg. repeat split; congruence.
Qed.
Lemma first_call : forall cs s w, ready s -> given cs <> [] ->
  exists s1 f cs', run_calls cs s w = run_calls (AddF f :: cs') s1 w /\ given cs = given (AddF f :: cs') /\ ready s1 /\ same_cfg s s1.
Proof.
  induction cs as [|c cs IH]; intros s w Hr HN; [contradiction HN; reflexivity|].
  assert (Hopt : forall s', same_but_options s s' -> given (c :: cs) = given cs -> run_calls (c :: cs) s w = run_calls cs s' w ->
    exists s1 f cs', run_calls (c :: cs) s w = run_calls (AddF f :: cs') s1 w /\ given (c :: cs) = given (AddF f :: cs') /\ ready s1 /\ same_cfg s s1).
  { intros s' Hs Hg He. destruct (opt_ready s s' Hs Hr) as [Hr' Hc]. rewrite Hg in HN. destruct (IH s' w Hr' HN) as (s1 & f & cs' & E & G & R1 & C1).
    exists s1, f, cs'. split; [congruence|]. split; [congruence|]. split; [exact R1|eapply same_trans; eassumption]. }
  destruct c as [f| |b|n|n|n].
  - exists s, f, cs. split; [reflexivity|]. split; [reflexivity|]. split; [exact Hr|apply same_refl].
  - apply (Hopt _ (sbo_force s true)); reflexivity.
  - apply (Hopt _ (sbo_out s b)); reflexivity.
  - apply (Hopt _ (sbo_cues s n)); reflexivity.
  - apply (Hopt _ (sbo_dur s n)); reflexivity.
  - apply (Hopt _ (sbo_size s n)); reflexivity.
Qed.

Lemma doc_name_of : forall s, doc_type_of (doc_name s).
Proof. intros s. unfold doc_name, doc_type_of. destruct (DocTypeIsWebm (sg_tracks s)) as [[]|]; auto. Qed.

(* everything that is known about a session *)
Definition good_parts (s : segment) (seekable strict out : bool) (A : list frame) (file : list Z) (dt : list Z) (d : f64) (cues : option (list cue_point)) (l : layout) : Prop :=
  doc_type_of dt /\ is_muxed seekable s dt d cues file l /\
    match cues with
    | None => out = false
    | Some qs => out = true /\ Forall (fun q => if sg_accurate s then exists f, locates_cluster (si_timecode_scale (sg_info s)) l q f
                                                else exists f, locates (si_timecode_scale (sg_info s)) l q f) qs
    end /\
    (seekable = true -> exists entries, is_seek_head l entries /\
      (lo_clusters l <> [] -> Forall (fun e => starts_at (lo_body l) (fst e) (snd e)) entries) /\ map fst entries = seek_ids s out) /\
    (sg_accurate s = false -> retained (fun f => held_back s f = true) A (lo_frames l)) /\
    (strict = true -> sorted_ts (lo_frames l) /\
      (forall n, Forall2 (carries (sg_accurate s)) (filter (of_track n) A) (filter (of_track n) (lo_frames l))) /\
      (sg_accurate s = false -> Forall2 (carries false) A (lo_frames l)) /\ (A <> [] -> lo_clusters l <> []) /\
      StronglySorted Z.le (map mc_tc (lo_clusters l)) /\ Forall (fun c => mc_frames c <> []) (lo_clusters l)).
Definition good_outcome (s : segment) (seekable strict out : bool) (A : list frame) (file : list Z) : Prop :=
  exists dt d cues l, good_parts s seekable strict out A file dt d cues l.

Theorem session_run_state : forall s seekable strict cs w, session s seekable cs w -> (sg_accurate s = true -> strict = true) -> (strict = true -> orderly s cs) ->
  exists h s1 w1 b s2 w2, run_calls cs s w = Val ((h, s1), w1) /\ Segment_Finalize s1 w1 = Val ((b, s2), w2) /\ map fst h = given cs /\
    ForallOrdPairs (fun a b => held_back s a = true \/ fr_timestamp a <= fr_timestamp b) (accepted h) /\
    (strict = true -> accepted h = given cs /\
      (existsb (fun f => negb (held_back s f)) (given cs) = true -> sg_output_cues s1 = false \/ sg_chapters s = [] \/ sg_tags s = [] -> b = true)) /\
    (b = true -> exists dt d cues l, good_parts s seekable strict (sg_output_cues s1) (accepted h) (w_file w2) dt d cues l /\
      (seekable = true -> match cues with None => True | Some qs => exists pre, finished s2 (w_file w2) l qs pre /\ map fst (fin_entries l pre) = seek_ids s true end) /\
      file_parts seekable (sg_output_cues s1) s (w_file w2) cues l).
Proof.
  intros s seekable strict cs w [Hr Hf Hn Hs Ha Hh [HF1 HF2]] Hst Hord.
  destruct (first_call cs s w Hr Hs) as (s0 & f & cs' & ER & EG & Hr0 & (C1 & C2 & C3 & C4 & C5 & C6 & C7)).
  assert (HHB : forall g, held_back s0 g = held_back s g). { intros g. unfold held_back. rewrite C2, C7. reflexivity. }
  assert (HRoom : forall l, room s0 l = room s l). { intros l. unfold room. rewrite C1, C2, C3, C4. reflexivity. }
  assert (HR0 : room s0 [] < 2 ^ 55).
  { rewrite room_frames in HF1. rewrite HRoom. pose proof (weights_nonneg (given cs)). pose proof (zlen_nonneg _ (given cs)). lia. }
  destruct (mux_run s0 seekable strict Hr0 HR0) with (cs := AddF f :: cs') (f := f) (cs' := cs') (w := w) as (h & s1 & w1 & b & s2 & w2 & E1 & E2 & E3 & HO & HS1 & HB1).
  { rewrite C5. exact Hf. }
  { unfold needs_strict. rewrite C6. exact Hst. }
  { reflexivity. } { exact Hn. }
  { rewrite <- EG. clear - Ha Hh HHB. induction Ha as [|g l Hg Ha IH]; [constructor|]. inversion Hh; subst. constructor; [|auto]. split; [exact Hg|]. rewrite HHB. assumption. }
  { rewrite <- EG. split; [rewrite HRoom; exact HF1|exact HF2]. }
  { intros HX. rewrite <- EG. destruct (Hord HX) as [O1 O2]. split.
    - unfold steady in *. rewrite C1. destruct O1 as (S1 & S2 & S3). split; [exact S1|]. split; [exact S2|]. intros a hd g af Ef HFh. apply (S3 a hd g af Ef). eapply Forall_impl; [|exact HFh]. intros x Hx. rewrite <- HHB. exact Hx.
    - eapply Forall_impl; [|exact O2]. intros g Hg. unfold can_write in *. rewrite C2, HHB. exact Hg. }
  rewrite <- EG in *. exists h, s1, w1, b, s2, w2. split; [rewrite ER; exact E1|]. split; [exact E3|]. split; [exact E2|]. split.
  { clear - HO HHB. induction HO as [|a l Ha HO IH]; constructor; [|exact IH]. eapply Forall_impl; [|exact Ha]. intros x [Hx|Hx]; [left; rewrite <- HHB; exact Hx|right; exact Hx]. }
  split.
  { intros HX. destruct (HS1 HX) as [S1 S2]. split; [exact S1|]. rewrite C3, C4 in S2. intros HE. apply S2. rewrite <- HE. clear - HHB. induction (given cs) as [|x l IH]; [reflexivity|]. cbn [existsb]. rewrite HHB, IH. reflexivity. }
  intros HX. destruct (HB1 HX) as (d & cues & l & M1 & M2 & M3 & M4 & M5 & M6 & M7).
  exists (doc_name s0), d, cues, l. split; [|split; [unfold seek_ids in *; rewrite C3, C4 in M6; exact M6|unfold file_parts, seek_ids in *; rewrite C1, C2, C3, C4 in M7; exact M7]]. clear M6 M7. split; [apply doc_name_of|]. unfold is_muxed, seek_ids in *. rewrite C1, C2, C3, C4 in *. rewrite C6 in *.
  split; [exact M1|]. split; [exact M2|]. split; [exact M3|]. split; [|exact M5].
  intros HA. specialize (M4 HA). clear - M4 HHB. induction M4; constructor; auto. rewrite <- HHB. assumption.
Qed.
Theorem session_run : forall s seekable strict cs w, session s seekable cs w -> (sg_accurate s = true -> strict = true) -> (strict = true -> orderly s cs) ->
  exists h s1 b file, muxes s cs w h s1 b file /\ map fst h = given cs /\
    ForallOrdPairs (fun a b => held_back s a = true \/ fr_timestamp a <= fr_timestamp b) (accepted h) /\
    (strict = true -> accepted h = given cs /\
      (existsb (fun f => negb (held_back s f)) (given cs) = true -> sg_output_cues s1 = false \/ sg_chapters s = [] \/ sg_tags s = [] -> b = true)) /\
    (b = true -> good_outcome s seekable strict (sg_output_cues s1) (accepted h) file).
Proof.
  intros s seekable strict cs w HS H1 H2. destruct (session_run_state s seekable strict cs w HS H1 H2) as (h & s1 & w1 & b & s2 & w2 & E1 & E2 & R1 & R2 & R3 & R4).
  exists h, s1, b, (w_file w2). split; [exists w1, s2, w2; auto|]. split; [exact R1|]. split; [exact R2|]. split; [exact R3|].
  intros Hb. destruct (R4 Hb) as (dt & d & cues & l & P & _). exists dt, d, cues, l. exact P.
Qed.
