(* The objects that the callback parser hands to its user. *)
From Coq Require Import ZifyBool ZifyNat.
From Verif Require Import Base Ids MFloat WpSpec WpDocSpec WpMuxSpec MMuxMeta MetaSpec DomSpec DomMuxSpec MWpTree MDom PDom.

(* Whatever children an element has, in whatever order: every field of its object
   shows the last such element of the file, a list all of them in order, with
   is_present() true; and the default, with is_present() false, if there is none.
   Display size and output frequency fall back to pixel size and sampling frequency. *)
Theorem C69_objects : forall s kids id n, assoc id (val_children s) = Some n ->
  exists shown, field id (object s kids) = Some shown /\ shows (struct_id s) id kids shown.
Proof. exact object_shows. Qed.
Print Assumptions C69_objects.

(* the display width twice, the second time without payload, the pixel width in between *)
Example C69_ex :
  let kids := [(0x54B0, 1, DVal (VInt 7)); (0xB0, 2, DVal (VInt 640)); (0x54B0, 0, DVal (VInt 0)); (0x54BA, 1, DVal (VInt 0)); (0xBA, 1, DVal (VInt 3))] in
  field 0x54B0 (object VVideo kids) = Some (One (DVal (VInt 640)) true) /\
  field 0x54BA (object VVideo kids) = Some (One (DVal (VInt 0)) true) /\
  field 0x53B8 (object VVideo kids) = Some (One (DVal (VInt 0)) false) /\
  field 0x437C (object VDisplay []) = Some (Many [(DVal (VBytes eng), false)]) /\
  field 0x437C (object VDisplay [(0x437C, 3, DVal (VBytes und)); (0x437C, 3, DVal (VBytes eng))]) =
    Some (Many [(DVal (VBytes und), true); (DVal (VBytes eng), true)]).
Proof. vm_compute. repeat split. Qed.

(* ---------- tracks written by the muxer ---------- *)

Lemma last_filter : forall id kids, last_of id kids = match rev (filter (kid_is id) kids) with k :: _ => Some k | [] => None end.
Proof.
  intros id kids. unfold last_of. induction kids as [|k ks IH] using rev_ind; [reflexivity|].
  rewrite filter_app, !rev_app_distr. cbn [filter rev app find]. destruct (kid_is id k); cbn [rev app]; [reflexivity|exact IH].
Qed.
Lemma filter_kids : forall parent id ts kids, read_of parent ts kids -> type_in parent id <> None ->
  (filter (fun t => tree_id t =? id) ts = [] -> filter (kid_is id) kids = []) /\
  (forall v, filter (fun t => tree_id t =? id) ts = [uint id v] -> exists sz, 0 < sz /\ filter (kid_is id) kids = [(id, sz, DVal (VInt v))]) /\
  (forall u, filter (fun t => tree_id t =? id) ts = [Leaf id (LFloat u)] -> filter (kid_is id) kids = [(id, 4, DVal (VFloat 4 (u mod 2 ^ 32)))]).
Proof.
  intros parent id ts kids H K. unfold read_of in H.
  assert (G : Forall2 (fun t (k : kid) => fst (fst k) = tree_id t /\
             match t with
             | Leaf _ (LUint v) => snd k = DVal (VInt v) /\ 0 < snd (fst k)
             | Leaf _ (LFloat u) => snd k = DVal (VFloat 4 (u mod 2 ^ 32)) /\ snd (fst k) = 4
             | _ => True
             end) (filter (fun t => tree_id t =? id) ts) (filter (kid_is id) kids)).
  { revert kids H. induction ts as [|t ts IH]; intros kids H; cbn [filter] in *; [inversion H; constructor|].
    destruct (Z.eqb_spec (tree_id t) id) as [E|E].
    - rewrite E in H. destruct (type_in parent id); [|contradiction]. inversion H as [|x k l ks HR HF]; subst. cbn [filter].
      unfold kid_is at 1. destruct HR as [H1 H2]. rewrite H1, Z.eqb_refl. constructor; [split; assumption|exact (IH _ HF)].
    - destruct (type_in parent (tree_id t)); [|exact (IH _ H)]. inversion H as [|x k l ks HR HF]; subst. cbn [filter].
      unfold kid_is at 1. destruct HR as [H1 _]. rewrite H1. destruct (Z.eqb_spec (tree_id t) id); [contradiction|]. exact (IH _ HF). }
  clear H. split; [|split].
  - intros E. rewrite E in G. inversion G. reflexivity.
  - intros v E. rewrite E in G. inversion G as [|x k l ks HR HF Ex Ek]. inversion HF. destruct k as ((i, sz), d). unfold uint in HR. cbn [fst snd tree_id] in HR. destruct HR as (X1 & X2 & X3). subst i d. exists sz. split; [exact X3|reflexivity].
  - intros u E. rewrite E in G. inversion G as [|x k l ks HR HF Ex Ek]. inversion HF. destruct k as ((i, sz), d). cbn [fst snd tree_id] in HR. destruct HR as (X1 & X2 & X3). subst i d sz. reflexivity.
Qed.

Lemma filter_opt : forall f b t, filter f (opt b t) = opt (b && f t) t.
Proof. intros f [|] t; cbn [opt filter andb]; [destruct (f t); reflexivity|reflexivity]. Qed.

Lemma video_ids : forall v id, ~ In id [kMkvColourSpace; kMkvColour; kMkvProjection] ->
  filter (fun t => tree_id t =? id) (children_of (video_tree v)) =
  filter (fun t => tree_id t =? id)
    (uint kMkvPixelWidth (if 0 <? vi_pixel_width v then vi_pixel_width v else vi_width v) ::
     uint kMkvPixelHeight (if 0 <? vi_pixel_height v then vi_pixel_height v else vi_height v) ::
     opt (0 <? vi_display_width v) (uint kMkvDisplayWidth (vi_display_width v)) ++
     opt (0 <? vi_display_height v) (uint kMkvDisplayHeight (vi_display_height v)) ++
     opt (0 <? vi_crop_left v) (uint kMkvPixelCropLeft (vi_crop_left v)) ++
     opt (0 <? vi_crop_right v) (uint kMkvPixelCropRight (vi_crop_right v)) ++
     opt (0 <? vi_crop_top v) (uint kMkvPixelCropTop (vi_crop_top v)) ++
     opt (0 <? vi_crop_bottom v) (uint kMkvPixelCropBottom (vi_crop_bottom v)) ++
     opt (0 <? vi_stereo_mode v) (uint kMkvStereoMode (vi_stereo_mode v)) ++
     opt (0 <? vi_alpha_mode v) (uint kMkvAlphaMode (vi_alpha_mode v)) ++
     opt (f64_pos (vi_frame_rate v)) (Leaf kMkvFrameRate (LFloat (f32_of_f64 (vi_frame_rate v))))).
Proof.
  intros v id H. unfold video_tree. cbn [children_of]. cbv zeta. rewrite !app_comm_cons, !filter_app.
  assert (X : filter (fun t => tree_id t =? id) (str kMkvColourSpace (vi_colour_space v)) = []).
  { destruct (vi_colour_space v); [|reflexivity]. cbn [str filter tree_id]. destruct (Z.eqb_spec kMkvColourSpace id) as [E|E]; [exfalso; apply H; left; exact E|reflexivity]. }
  assert (Y : filter (fun t => tree_id t =? id) (match vi_colour v with None => [] | Some c => colour_trees c end) = []).
  { destruct (vi_colour v) as [c|]; [|reflexivity]. unfold colour_trees, nonempty_master. destruct (colour_kids c) as [|k ks]; [reflexivity|]. cbn [filter tree_id]. destruct (Z.eqb_spec kMkvColour id) as [E|E]; [exfalso; apply H; right; left; exact E|reflexivity]. }
  assert (Z' : filter (fun t => tree_id t =? id) (match vi_projection v with None => [] | Some p => [projection_tree p] end) = []).
  { destruct (vi_projection v) as [p|]; [|reflexivity]. unfold projection_tree. cbn [filter tree_id]. destruct (Z.eqb_spec kMkvProjection id) as [E|E]; [exfalso; apply H; right; right; left; exact E|reflexivity]. }
  rewrite X, Y, Z'. rewrite !app_nil_r. reflexivity.
Qed.

(* A video track written by the muxer is shown with the display size it was given,
   with its pixel size if it was given none. *)
Theorem C69_muxed_display_size : forall v kids, read_of kMkvVideo (children_of (video_tree v)) kids ->
  field kMkvDisplayWidth (object VVideo kids) =
    Some (One (DVal (VInt (if 0 <? vi_display_width v then vi_display_width v
                           else if 0 <? vi_pixel_width v then vi_pixel_width v else vi_width v))) (0 <? vi_display_width v)) /\
  field kMkvDisplayHeight (object VVideo kids) =
    Some (One (DVal (VInt (if 0 <? vi_display_height v then vi_display_height v
                           else if 0 <? vi_pixel_height v then vi_pixel_height v else vi_height v))) (0 <? vi_display_height v)).
Proof.
  intros v kids H.
  assert (P : forall id other (w pw : Z) n, assoc id (val_children VVideo) = Some n -> lender 0xE0 id = Some other ->
    type_in 0xE0 id = Some (TScalar (TUint 0)) -> type_in 0xE0 other = Some (TScalar (TUint 0)) ->
    repeats 0xE0 id = false -> repeats 0xE0 other = false ->
    filter (fun t => tree_id t =? id) (children_of (video_tree v)) = opt (0 <? w) (uint id w) ->
    filter (fun t => tree_id t =? other) (children_of (video_tree v)) = [uint other pw] ->
    field id (object VVideo kids) = Some (One (DVal (VInt (if 0 <? w then w else pw))) (0 <? w))).
  { intros id other w pw n Hn HL T1 T2 R1 R2 F1 F2. destruct (C69_objects VVideo kids id n Hn) as (sl & E & ty & T & S).
    change (struct_id VVideo) with 0xE0 in *. rewrite HL in S. rewrite T1 in T. injection T as <-. rewrite E. f_equal.
    destruct (filter_kids _ id _ _ H ltac:(change kMkvVideo with 0xE0; congruence)) as (A0 & A1 & _).
    destruct (filter_kids _ other _ _ H ltac:(change kMkvVideo with 0xE0; congruence)) as (_ & B1 & _).
    destruct (B1 _ F2) as (sz2 & _ & B). unfold given_with_content, plain_field in S. rewrite R1 in S. rewrite !last_filter in S.
    destruct (0 <? w) eqn:Ew; cbn [opt] in F1.
    - destruct (A1 _ F1) as (sz & Hsz & A). rewrite A in S. cbn [rev app fst snd] in S. replace (0 <? sz) with true in S by lia. exact S.
    - rewrite (A0 F1) in S. cbn [rev] in S. destruct S as (ty' & T' & ->). rewrite T2 in T'. injection T' as <-.
      rewrite R2, B. reflexivity. }
  split.
  - apply (P kMkvDisplayWidth kMkvPixelWidth _ _ _ eq_refl); try reflexivity; rewrite video_ids by (cbn [In]; intros [E|[E|[E|[]]]]; discriminate E);
      cbn [filter]; rewrite !filter_app, !filter_opt; cbn [uint tree_id]; unfold kMkvPixelWidth, kMkvPixelHeight, kMkvDisplayWidth, kMkvDisplayHeight, kMkvPixelCropLeft, kMkvPixelCropRight, kMkvPixelCropTop, kMkvPixelCropBottom, kMkvStereoMode, kMkvAlphaMode, kMkvFrameRate; cbn [Z.eqb Pos.eqb]; rewrite ?Bool.andb_false_r, ?Bool.andb_true_r; cbn [opt app]; rewrite ?app_nil_r; reflexivity.
  - apply (P kMkvDisplayHeight kMkvPixelHeight _ _ _ eq_refl); try reflexivity; rewrite video_ids by (cbn [In]; intros [E|[E|[E|[]]]]; discriminate E);
      cbn [filter]; rewrite !filter_app, !filter_opt; cbn [uint tree_id]; unfold kMkvPixelWidth, kMkvPixelHeight, kMkvDisplayWidth, kMkvDisplayHeight, kMkvPixelCropLeft, kMkvPixelCropRight, kMkvPixelCropTop, kMkvPixelCropBottom, kMkvStereoMode, kMkvAlphaMode, kMkvFrameRate; cbn [Z.eqb Pos.eqb]; rewrite ?Bool.andb_false_r, ?Bool.andb_true_r; cbn [opt app]; rewrite ?app_nil_r; reflexivity.
Qed.
Print Assumptions C69_muxed_display_size.

(* An audio track written by the muxer is shown with the rate it was given as its
   output frequency. *)
Theorem C69_muxed_output_frequency : forall a kids, read_of kMkvAudio (children_of (audio_tree a)) kids ->
  exists rate, field kMkvSamplingFrequency (object VAudio kids) = Some (One (DVal rate) true) /\
    field 0x78B5 (object VAudio kids) = Some (One (DVal rate) false) /\ rate = VFloat 4 (f32_of_f64 (au_sample_rate a) mod 2 ^ 32).
Proof.
  intros a kids H. eexists. split; [|split; [|reflexivity]].
  - destruct (C69_objects VAudio kids kMkvSamplingFrequency _ eq_refl) as (sl & E & ty & T & S).
    destruct (filter_kids _ kMkvSamplingFrequency _ _ H ltac:(discriminate)) as (_ & _ & A1). specialize (A1 (f32_of_f64 (au_sample_rate a))).
    assert (F : filter (fun t => tree_id t =? kMkvSamplingFrequency) (children_of (audio_tree a)) = [Leaf kMkvSamplingFrequency (LFloat (f32_of_f64 (au_sample_rate a)))]) by (unfold audio_tree; cbn [children_of]; destruct (0 <? au_bit_depth a); reflexivity).
    specialize (A1 F). change (lender (struct_id VAudio) kMkvSamplingFrequency) with (@None Z) in S. cbn beta iota in S. unfold plain_field in S.
    change (repeats (struct_id VAudio) kMkvSamplingFrequency) with false in S. rewrite last_filter, A1 in S. cbn [rev app snd] in S. rewrite E, S. reflexivity.
  - destruct (C69_objects VAudio kids 0x78B5 _ eq_refl) as (sl & E & ty & T & S).
    destruct (filter_kids _ kMkvSamplingFrequency _ _ H ltac:(discriminate)) as (_ & _ & A1). specialize (A1 (f32_of_f64 (au_sample_rate a))).
    destruct (filter_kids _ 0x78B5 _ _ H ltac:(discriminate)) as (A0 & _ & _).
    assert (F : filter (fun t => tree_id t =? kMkvSamplingFrequency) (children_of (audio_tree a)) = [Leaf kMkvSamplingFrequency (LFloat (f32_of_f64 (au_sample_rate a)))]) by (unfold audio_tree; cbn [children_of]; destruct (0 <? au_bit_depth a); reflexivity).
    assert (F0 : filter (fun t => tree_id t =? 0x78B5) (children_of (audio_tree a)) = []) by (unfold audio_tree; cbn [children_of]; destruct (0 <? au_bit_depth a); reflexivity).
    specialize (A1 F). specialize (A0 F0). change (lender (struct_id VAudio) 0x78B5) with (Some 0xB5) in S. cbn beta iota in S.
    unfold given_with_content in S. rewrite last_filter, A0 in S. cbn [rev] in S. destruct S as (ty' & _ & ->). rewrite E.
    unfold plain_field. change (repeats (struct_id VAudio) 0xB5) with false. cbn beta iota. rewrite last_filter. change 0xB5 with kMkvSamplingFrequency. rewrite A1. reflexivity.
Qed.
Print Assumptions C69_muxed_output_frequency.

(* a video track of 640 by 480 pixels to be shown 800 wide *)
Definition ex_wide : video := mkVideo 0 800 0 0 0 0 0 0 (f64_of_Z 30) 480 1 0 640 (Some [85]) None None.
Definition ex_wide_kids : list kid :=
  [(kMkvPixelWidth, 2, DVal (VInt 640)); (kMkvPixelHeight, 2, DVal (VInt 480)); (kMkvDisplayWidth, 2, DVal (VInt 800));
   (kMkvStereoMode, 1, DVal (VInt 1)); (kMkvFrameRate, 4, DVal (VFloat 4 0x41F00000))].
Example C69_muxed_ex : read_of kMkvVideo (children_of (video_tree ex_wide)) ex_wide_kids /\
  field kMkvDisplayWidth (object VVideo ex_wide_kids) = Some (One (DVal (VInt 800)) true) /\
  field kMkvDisplayHeight (object VVideo ex_wide_kids) = Some (One (DVal (VInt 480)) false).
Proof.
  split; [|vm_compute; split; reflexivity]. unfold read_of.
  match goal with |- Forall2 _ ?l _ => let x := eval vm_compute in l in change l with x end.
  repeat (constructor; [split; [reflexivity|split; reflexivity]|]). constructor.
Qed.
