(* Reading back the tracks: projection, settings, entries. *)
From Coq Require Import ZifyBool ZifyNat Floats.SpecFloat.
From Verif Require Import Base EbmlSpec MFloat Ids MMuxMeta MParUtil MParMeta MParTrack MetaSpec ReaderSpec ReadBackSpec ReadTrackSpec PParUtil PEbml PParMeta PParMeta2 PParDur PParFloat PParTrack.

Section Settings.
Context (r : reader).

Lemma pose_parse : forall u p q, readable_pose u -> leaf_payload (LFloat u) p -> serves r q p -> Pose_Parse r q (zlen p) = Val (Some u).
Proof.
  intros u p q Hp Hc Hs. pose proof Hp as [Hu Hpl]. pose proof (plain_range _ Hpl). unfold Pose_Parse.
  assert (F : nonfinite32 u = false) by (apply finite_pattern; lia).
  rewrite (float_parse r u p q d_zero ltac:(lia) F Hc Hs), pose_is_float by assumption. cbn [Z.ltb Z.compare orb]. cbn iota. rewrite narrow_widen by (lia || exact F). reflexivity.
Qed.

Lemma projection_parse : forall j p q, readable_projection j -> content (projection_tree j) p -> serves r q p -> q + zlen p <= LLONG_MAX ->
  Projection_Parse r q (zlen p) = Val (true, read_projection j).
Proof.
  intros [ty ya pi ro pv] p q (H1 & H2 & H3 & H4 & H5) He Hs HL. cbn [content projection_tree pj_type pj_private pj_yaw pj_pitch pj_roll] in *.
  unfold Projection_Parse, as_bool. unfold read_projection. cbn [pj_type pj_private pj_yaw pj_pitch pj_roll].
  rewrite (Z.mod_small ty) in He by lia.
  rewrite (walk_payload_runs r ZPass (projection_element r) _ p q pp_init (mkPP ty match pv with [] => None | b => Some b end ya pi ro) He); auto; [destruct pv; reflexivity|].
  unfold pp_init.
  match goal with |- runs _ _ _ (?a :: ?b) _ _ => change (a :: b) with ([a] ++ b) end.
  apply (runs_app _ (mkPP ty None 0x7F7FFFFF 0x7F7FFFFF 0x7F7FFFFF)).
  { apply runs_one. intros p' q' [Hc _] Hs' _. right. split; [auto|]. cbn [tid uint]. unfold projection_element. rewrite Z.eqb_refl, (UnserializeUInt_payload _ _ _ _ Hc Hs').
    rewrite sint64_small by lia. destruct (Z.ltb_spec ty 0); [lia|]. unfold wraps. change (2 ^ 32) with 4294967296. change (2 ^ (32 - 1)) with 2147483648. rewrite Z.mod_small by lia. destruct (Z.ltb_spec ty 2147483648); [reflexivity|lia]. }
  apply (runs_app _ (mkPP ty match pv with [] => None | b => Some b end 0x7F7FFFFF 0x7F7FFFFF 0x7F7FFFFF)).
  { destruct pv as [|b pv]; [constructor|]. replace (0 <? zlen (b :: pv)) with true by (rewrite zlen_cons; pose proof (zlen_nonneg _ pv); lia). cbn [opt]. set (k := b :: pv) in *.
    apply runs_one. intros p' q' Hc Hs' _. cbn [content leaf_payload] in Hc. subst p'. right. split; [auto|]. cbn [tid].
    change (projection_element r kMkvProjectionPrivate q' (zlen k) (mkPP ty None 0x7F7FFFFF 0x7F7FFFFF 0x7F7FFFFF)) with
      (if alloc_fails (zlen k) then Val (Ret (-1) (mkPP ty None 0x7F7FFFFF 0x7F7FFFFF 0x7F7FFFFF)) else
        match r_read r q' (zlen k) with inl _ => Val (Ret (-1) (mkPP ty None 0x7F7FFFFF 0x7F7FFFFF 0x7F7FFFFF)) | inr buf => Val (Next (mkPP ty (Some buf) 0x7F7FFFFF 0x7F7FFFFF 0x7F7FFFFF)) end).
    rewrite alloc_ok, (serves_read _ _ _ Hs') by (discriminate || assumption). reflexivity. }
  set (o := match pv with [] => None | _ => _ end). clearbody o.
  match goal with |- runs _ _ _ [?a; ?b; ?c] _ _ => change [a; b; c] with ([a] ++ [b] ++ [c]) end.
  apply (runs_app _ (mkPP ty o ya 0x7F7FFFFF 0x7F7FFFFF)).
  { apply runs_one. intros p' q' Hc Hs' _. right. split; [auto|]. cbn [tid].
    unfold projection_element. change (kMkvProjectionPoseYaw =? kMkvProjectionType) with false. change (kMkvProjectionPoseYaw =? kMkvProjectionPrivate) with false. cbn iota. rewrite (pose_parse ya p' q' H3 Hc Hs'). reflexivity. }
  apply (runs_app _ (mkPP ty o ya pi 0x7F7FFFFF)).
  { apply runs_one. intros p' q' Hc Hs' _. right. split; [auto|]. cbn [tid].
    unfold projection_element. change (kMkvProjectionPosePitch =? kMkvProjectionType) with false. change (kMkvProjectionPosePitch =? kMkvProjectionPrivate) with false. cbn iota. rewrite (pose_parse pi p' q' H4 Hc Hs'). reflexivity. }
  apply runs_one. intros p' q' Hc Hs' _. right. split; [auto|]. cbn [tid].
  unfold projection_element. change (kMkvProjectionPoseRoll =? kMkvProjectionType) with false. change (kMkvProjectionPoseRoll =? kMkvProjectionPrivate) with false. cbn iota. rewrite (pose_parse ro p' q' H5 Hc Hs'). reflexivity.
Qed.

Lemma rate_parse : forall S d p q old (set : f64 -> S), readable_rate d -> leaf_payload (LFloat (f32_of_f64 d)) p -> serves r q p ->
  rate_field r q (zlen p) old set = Val (Next (set (read_rate d))).
Proof.
  intros S d p q old set Hd Hc Hs. unfold readable_rate in Hd. unfold rate_field, read_rate. set (u := f32_of_f64 d) in *.
  assert (F : nonfinite32 u = false) by (apply finite_pattern; [lia|rewrite Z.mod_small; lia]).
  rewrite (float_parse r u p q old ltac:(lia) F Hc Hs). cbn [Z.ltb Z.compare]. unfold SFleb. rewrite zero_bits, compare_bits32 by lia.
  destruct (Z.compare_spec u 0); try lia. reflexivity.
Qed.

Definition video_u64 (v : video) : Prop := match vi_colour v with None => True | Some c => colour_u64 c end.

Lemma video_parse : forall v p q, readable_video v -> video_u64 v -> content (video_tree v) p -> serves r q p -> q + zlen p <= LLONG_MAX ->
  Video_Parse r q (zlen p) = Val (0, read_video v).
Proof.
  intros [dh dw ph pw cl cr ct cb fr he sm am wi cs co pj] p q (H1 & H2 & H3 & H4 & H5 & H6 & H7 & H8 & H9) Hu He Hs HL. unfold video_u64 in Hu. unfold size_or_absent in *.
  unfold read_video, video_tree in *. cbn [content pv_width pv_height vi_display_height vi_display_width vi_pixel_height vi_pixel_width vi_crop_left vi_crop_right vi_crop_top vi_crop_bottom vi_frame_rate vi_height vi_stereo_mode vi_alpha_mode vi_width vi_colour_space vi_colour vi_projection] in *.
  set (w := if 0 <? pw then pw else wi) in *. set (h := if 0 <? ph then ph else he) in *. clearbody w h.
  unfold Video_Parse. apply (walk_payload_runs r ZPass (video_element r) _ p q _ _ He); auto. unfold pv_init.
  match goal with |- runs _ _ _ (?a :: ?b :: ?c) _ _ => change (a :: b :: c) with ([a] ++ [b] ++ c) end.
  apply (runs_app _ (mkPV w 0 0 0 0 0 d_zero None None None)).
  { apply (runs_uint r (video_element r) (fun x => mkPV x 0 0 0 0 0 d_zero None None None) _ w (fun x => x <=? 0) 0); [lia|lia|reflexivity]. }
  apply (runs_app _ (mkPV w h 0 0 0 0 d_zero None None None)).
  { apply (runs_uint r (video_element r) (fun x => mkPV w x 0 0 0 0 d_zero None None None) _ h (fun x => x <=? 0) 0); [lia|lia|reflexivity]. }
  apply (runs_app _ (mkPV w h dw 0 0 0 d_zero None None None)).
  { apply (runs_pos r (video_element r) (fun x => mkPV w h x 0 0 0 d_zero None None None) _ dw (fun x => x <=? 0)); [lia|lia|reflexivity]. }
  apply (runs_app _ (mkPV w h dw dh 0 0 d_zero None None None)).
  { apply (runs_pos r (video_element r) (fun x => mkPV w h dw x 0 0 d_zero None None None) _ dh (fun x => x <=? 0)); [lia|lia|reflexivity]. }
  do 4 (apply (runs_app _ (mkPV w h dw dh 0 0 d_zero None None None)); [apply runs_opt; [intros _; apply runs_skip; reflexivity|reflexivity]|]).
  apply (runs_app _ (mkPV w h dw dh 0 sm d_zero None None None)).
  { apply (runs_pos r (video_element r) (fun x => mkPV w h dw dh 0 x d_zero None None None) _ sm (fun x => x <? 0)); [lia|lia|reflexivity]. }
  apply (runs_app _ (mkPV w h dw dh 0 sm d_zero None None None)); [apply runs_opt; [intros _; apply runs_skip; reflexivity|reflexivity]|].
  apply (runs_app _ (mkPV w h dw dh 0 sm d_zero cs None None)).
  { destruct cs as [b|]; cbn [str]; [|constructor]. apply runs_one. intros p' q' Hc Hs' _. cbn [content leaf_payload] in Hc. subst p'. right. split; [auto|]. cbn [tid].
    change (video_element r kMkvColourSpace q' (zlen b) (mkPV w h dw dh 0 sm d_zero None None None)) with
      (let '(status, x) := UnserializeString r q' (zlen b) in on_negative status (mkPV w h dw dh 0 sm d_zero x None None)).
    rewrite UnserializeString_payload by assumption. reflexivity. }
  apply (runs_app _ (mkPV w h dw dh 0 sm (if f64_pos fr then read_rate fr else S754_zero false) cs None None)).
  { apply runs_opt; intros E; rewrite E; [|reflexivity]. apply runs_one. intros p' q' Hc Hs' _. right. split; [auto|]. cbn [tid].
    exact (rate_parse _ fr p' q' d_zero (fun x => mkPV w h dw dh 0 sm x cs None None) (H6 E) Hc Hs'). }
  set (ra := if f64_pos fr then read_rate fr else S754_zero false).
  apply (runs_app _ (mkPV w h dw dh 0 sm ra cs match co with None => None | Some c => read_colour c end None)).
  { destruct co as [c|]; [|constructor]. unfold colour_trees. destruct (colour_kids c) as [|t ts] eqn:Ek.
    - cbn [nonempty_master]. replace (read_colour c) with (@None p_colour) by (unfold read_colour; rewrite Ek; reflexivity). constructor.
    - cbn [nonempty_master]. apply runs_master; [auto|]. intros p' q' He' Hs' HL'. rewrite <- Ek in He'.
      destruct (colour_parse r c p' q' H8 Hu ltac:(rewrite Ek; discriminate) He' Hs' HL') as (x & Ex & ->).
      match goal with |- video_element r kMkvColour ?q ?n (mkPV ?a ?b ?c ?d ?e ?f ?g ?h ?i ?j) = _ => change (video_element r kMkvColour q n (mkPV a b c d e f g h i j)) with
        (match Colour_Parse r q n with UB => UB | Val (ok, x) => if ok then Val (Next (mkPV a b c d e f g h (Some x) j)) else Val (Ret E_FILE_FORMAT_INVALID (mkPV a b c d e f g h i j)) end) end.
      rewrite Ex. reflexivity. }
  destruct pj as [j|]; [|constructor]. unfold projection_tree at 1. apply runs_master; [auto|]. intros p' q' He' Hs' HL'.
  match goal with |- video_element r kMkvProjection ?q ?n (mkPV ?a ?b ?c ?d ?e ?f ?g ?h ?i ?j) = _ => change (video_element r kMkvProjection q n (mkPV a b c d e f g h i j)) with
    (match Projection_Parse r q n with UB => UB | Val (ok, x) => if ok then Val (Next (mkPV a b c d e f g h i (Some x))) else Val (Ret E_FILE_FORMAT_INVALID (mkPV a b c d e f g h i j)) end) end.
  rewrite (projection_parse j p' q' H9 He' Hs' HL'). reflexivity.
Qed.

Lemma audio_parse : forall a p q, readable_audio a -> content (audio_tree a) p -> serves r q p -> q + zlen p <= LLONG_MAX ->
  Audio_Parse r q (zlen p) = Val (0, read_audio a).
Proof.
  intros [bd ch ra] p q (H1 & H2 & H3) He Hs HL. unfold audio_tree, read_audio in *. cbn [content au_bit_depth au_channels au_sample_rate] in *.
  unfold Audio_Parse. apply (walk_payload_runs r ZPass (audio_element r) _ p q _ _ He); auto. unfold pau_init.
  match goal with |- runs _ _ _ (?a :: ?b :: ?c) _ _ => change (a :: b :: c) with ([a] ++ [b] ++ c) end.
  apply (runs_app _ (mkPAu (read_rate ra) 1 0)).
  { apply runs_one. intros p' q' Hc Hs' _. right. split; [auto|]. cbn [tid]. exact (rate_parse _ ra p' q' (f64_of_Z 8000) (fun x => mkPAu x 1 0) H1 Hc Hs'). }
  apply (runs_app _ (mkPAu (read_rate ra) ch 0)).
  { apply (runs_uint r (audio_element r) (fun x => mkPAu (read_rate ra) x 0) _ ch (fun x => x <=? 0) 1); [lia|lia|reflexivity]. }
  apply (runs_pos r (audio_element r) (fun x => mkPAu (read_rate ra) ch x) _ bd (fun x => x <=? 0)); [lia|lia|reflexivity].
Qed.

(* ---------- the loop with a condition on the state ---------- *)

Section Cond.
Context {S : Type} (h : Z -> Z -> Z -> S -> outcome (step S)).
Definition leads (t : tree) (P Q : S -> Prop) : Prop := forall p q s, P s ->
  content t p -> serves r q p -> q + zlen p <= LLONG_MAX -> exists s', h (tid t) q (zlen p) s = Val (Next s') /\ Q s'.
Inductive chain : list tree -> (S -> Prop) -> (S -> Prop) -> Prop :=
| chain_nil : forall (P Q : S -> Prop), (forall s, P s -> Q s) -> chain [] P Q
| chain_cons : forall t ts P Q R, leads t P Q -> chain ts Q R -> chain (t :: ts) P R.
Lemma chain_weaken : forall b (P Q R : S -> Prop), (forall s, P s -> Q s) -> chain b Q R -> chain b P R.
Proof.
  intros b P Q R H C. inversion C as [? ? H1|t ts ? Q1 ? H1 H2]; subst; [apply chain_nil; auto|]. apply (chain_cons _ _ _ Q1); [|exact H2]. intros p q s Ps. apply H1. auto.
Qed.
Lemma chain_app : forall a b P Q R, chain a P Q -> chain b Q R -> chain (a ++ b) P R.
Proof. induction 1; intros; cbn [app]; [eapply chain_weaken; eauto|]. econstructor; eauto. Qed.
Lemma runs_chain : forall ts s s', runs r ZPass h ts s s' -> chain ts (eq s) (eq s').
Proof.
  induction 1 as [|t ts s s' s'' H _ IH]; [apply chain_nil; auto|]. apply (chain_cons _ _ _ (eq s')); [|exact IH].
  intros p q x <- Hc Hs HL. destruct (H p q Hc Hs HL) as [(_ & E & _)|(_ & E)]; [discriminate|]. exists s'. auto.
Qed.
Lemma walk_chain : forall ts bs, encodes_all ts bs -> forall P Q, chain ts P Q -> forall fuel pos s, P s -> serves r pos bs -> pos + zlen bs <= LLONG_MAX -> zlen bs <= Z.of_nat fuel ->
  exists s', walk fuel r ZPass h pos (pos + zlen bs) s = Val (0, s') /\ Q s'.
Proof.
  induction 1 as [|t ts a b Ha Hb IH]; intros P Q HF fuel pos s Ps Hs Hl Hfuel.
  - inversion HF as [? ? H1|]; subst. exists s. split; [|exact (H1 s Ps)]. replace (pos + zlen (@nil Z)) with pos by (rewrite zlen_nil; lia). apply walk_end.
  - inversion HF as [|? ? ? P1 ? Hf HF']; subst.
    destruct (encodes_inv _ _ Ha) as (p & Hc & ib & w & Hib & (Hw & Hfit) & Ea).
    assert (Lib : 1 <= zlen ib). { destruct Hib as (iw & [Hiw _] & ->). unfold zlen. rewrite be_bytes_length. lia. }
    assert (Lv : zlen (vint w (zlen p)) = w). { unfold vint, zlen. rewrite be_bytes_length. lia. }
    assert (La : zlen a = zlen ib + w + zlen p). { rewrite Ea, !zlen_app, Lv. lia. }
    pose proof (zlen_nonneg _ p) as Hp0. pose proof (zlen_nonneg _ b) as Hb0. rewrite zlen_app in *.
    pose proof Hs as [Hpos _].
    assert (Hsa : serves r pos a) by exact (serves_app_l _ _ _ _ Hs).
    assert (Hsb : serves r (pos + zlen a) b) by exact (serves_app_r _ _ _ _ Hs).
    assert (Hh : ParseElementHeader r pos (pos + (zlen a + zlen b)) = (0, pos + zlen ib + w, tid t, zlen p)).
    { apply ParseElementHeader_element; auto; try lia. apply (serves_app_l _ _ _ p). rewrite <- app_assoc, <- Ea. exact Hsa. }
    assert (Hsp : serves r (pos + zlen ib + w) p).
    { rewrite Ea in Hsa. apply serves_app_r in Hsa. apply serves_app_r in Hsa. rewrite Lv in Hsa. exact Hsa. }
    destruct fuel as [|fuel]; [lia|]. cbn [walk]. destruct (Z.leb_spec (pos + (zlen a + zlen b)) pos); [lia|].
    rewrite Hh. change (0 <? 0) with false. cbn iota.
    replace (pos + (zlen a + zlen b)) with (pos + zlen a + zlen b) by lia. rewrite !andb_false_r.
    destruct (Hf p (pos + zlen ib + w) s Ps Hc Hsp ltac:(lia)) as (s1 & -> & P1s).
    destruct (Z.gtb_spec (pos + zlen ib + w + zlen p) LLONG_MAX); [lia|]. destruct (Z.gtb_spec (pos + zlen ib + w + zlen p) (pos + zlen a + zlen b)); [lia|].
    replace (pos + zlen ib + w + zlen p) with (pos + zlen a) by lia. apply (IH P1); auto; lia.
Qed.
End Cond.
End Settings.
