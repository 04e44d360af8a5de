(* Tracks, chapters, tags and segment information (C11). *)
From Coq Require Import ZifyBool ZifyNat.
From Verif Require Import Base EbmlSpec MWriter WriterSpec MMuxUtil PWriter PMuxUtil MFloat Ids MMuxMeta MetaSpec PMuxBlock PMeta PMetaObj.

Ltac big := change (2 ^ 63) with 9223372036854775808; lia.

(* ---------- video and audio settings ---------- *)

Section Video.
Variable v : video.
Definition video_kids : list tree :=
  match video_tree v with Master _ k => k | _ => [] end.
Definition video_valid : bool := match vi_colour v with None => true | Some c => Colour_Valid c end.

Lemma video_payload : representable video_kids -> VideoPayloadSize v = zlen (enc_all video_kids).
Proof.
  intros H. apply size_is; [assumption|usize|]. unfold VideoPayloadSize. rewrite !gtb_ltb.
  unfold video_kids, video_tree in *.
  remember (match vi_colour v with None => [] | Some c => colour_trees c end) as X eqn:EX.
  remember (match vi_projection v with None => [] | Some p => [projection_tree p] end) as X0 eqn:EX0.
  rsplit.
  assert (EC : cong (opt_map Colour_Size (vi_colour v)) (zlen (enc_all X))).
  { rewrite EX in *. destruct (vi_colour v) as [c|]; [|apply cong_refl]. cbn [opt_map]. rewrite colour_size by assumption. apply cong_refl. }
  assert (EP : cong (opt_map Projection_Size (vi_projection v)) (zlen (enc_all X0))).
  { rewrite EX0 in *. destruct (vi_projection v) as [q|]; [|apply cong_refl]. cbn [opt_map]. rewrite enc_all_1, projection_size by assumption. apply cong_refl. }
  csum; try first [exact EC | exact EP | apply c_opt, (c_float _ (f32_of_f64 (vi_frame_rate v))) | cpiece]. encz.
Qed.

Lemma video_ser_body : representable video_kids ->
  ser video_valid (write_seq
           [WriteEbmlElementUInt kMkvPixelWidth (if vi_pixel_width v >? 0 then vi_pixel_width v else vi_width v);
            WriteEbmlElementUInt kMkvPixelHeight (if vi_pixel_height v >? 0 then vi_pixel_height v else vi_height v);
            opt_w (vi_display_width v >? 0) (WriteEbmlElementUInt kMkvDisplayWidth (vi_display_width v));
            opt_w (vi_display_height v >? 0) (WriteEbmlElementUInt kMkvDisplayHeight (vi_display_height v));
            opt_w (vi_crop_left v >? 0) (WriteEbmlElementUInt kMkvPixelCropLeft (vi_crop_left v));
            opt_w (vi_crop_right v >? 0) (WriteEbmlElementUInt kMkvPixelCropRight (vi_crop_right v));
            opt_w (vi_crop_top v >? 0) (WriteEbmlElementUInt kMkvPixelCropTop (vi_crop_top v));
            opt_w (vi_crop_bottom v >? 0) (WriteEbmlElementUInt kMkvPixelCropBottom (vi_crop_bottom v));
            opt_w (vi_stereo_mode v >? 0) (WriteEbmlElementUInt kMkvStereoMode (vi_stereo_mode v));
            opt_w (vi_alpha_mode v >? 0) (WriteEbmlElementUInt kMkvAlphaMode (vi_alpha_mode v));
            opt_w (present (vi_colour_space v)) (WriteEbmlElementCStr kMkvColourSpace (vi_colour_space v));
            opt_w (f64_pos (vi_frame_rate v)) (WriteEbmlElementFloat kMkvFrameRate (f32_of_f64 (vi_frame_rate v)));
            opt_write Colour_Write (vi_colour v);
            opt_write Projection_Write (vi_projection v)]) (enc_all video_kids).
Proof.
  intros H. unfold video_kids, video_tree in *. rewrite !gtb_ltb. rsplit. do 12 swrite.
  eapply ser_eq; [apply ser_cons; [|apply ser_last]| |reflexivity].
  - instantiate (1 := video_valid). unfold video_valid. destruct (vi_colour v) as [c|]; [apply colour_ser; assumption|apply ser_ret_true].
  - instantiate (1 := true). destruct (vi_projection v) as [q|]; [|apply ser_ret_true].
    cbn [opt_write]. rewrite enc_all_1. apply projection_ser. assumption.
  - apply andb_true_r.
Qed.
End Video.

Section Audio.
Variable a : audio.
Definition audio_kids : list tree := match audio_tree a with Master _ k => k | _ => [] end.
Lemma audio_payload : representable audio_kids -> AudioPayloadSize a = zlen (enc_all audio_kids).
Proof.
  intros H. apply size_is; [assumption|usize|]. unfold AudioPayloadSize. rewrite !gtb_ltb.
  csum; [apply (c_float _ (f32_of_f64 (au_sample_rate a)))|cpiece|cpiece|]. unfold audio_kids, audio_tree. encz.
Qed.
Lemma audio_ser_body : representable audio_kids ->
  ser true (write_seq
           [WriteEbmlElementFloat kMkvSamplingFrequency (f32_of_f64 (au_sample_rate a));
            WriteEbmlElementUInt kMkvChannels (au_channels a);
            opt_w (au_bit_depth a >? 0) (WriteEbmlElementUInt kMkvBitDepth (au_bit_depth a))]) (enc_all audio_kids).
Proof.
  intros H. unfold audio_kids, audio_tree. rewrite !gtb_ltb. do 2 swrite. apply ser_last, s_opt, s_uint.
Qed.
End Audio.

(* ---------- tracks ---------- *)

Lemma poscheck_ser : ser true (stop_position <- w_position;; ret (negb (stop_position <? 0))) [].
Proof.
  intros s Hs. pose proof Hs as ((Hp & _) & _). exists true, s, [].
  unfold bind, w_position, ret. replace (w_pos s <? 0) with false by lia.
  split; [reflexivity|]. split; [apply advanced_nil; assumption|]. left. split; [reflexivity|auto].
Qed.


Section Track.
Variable t : track.
Definition nzu (id x : Z) : list tree := opt (negb (x =? 0)) (uint id x).
Definition fields : list tree := (uint kMkvTrackNumber (tk_number t) ::
     uint kMkvTrackUID (tk_uid t) ::
     uint kMkvTrackType (tk_type t) ::
     nzu kMkvMaxBlockAdditionID (tk_max_block_additional_id t) ++
     nzu kMkvCodecDelay (tk_codec_delay t) ++
     nzu kMkvSeekPreRoll (tk_seek_pre_roll t) ++
     nzu kMkvDefaultDuration (tk_default_duration t) ++
     str kMkvCodecID (tk_codec_id t) ++
     str kMkvCodecPrivate (tk_codec_private t) ++
     str kMkvLanguage (tk_language t) ++
     str kMkvName (tk_name t)).
Definition encs : list tree := nonempty_master kMkvContentEncodings (map encoding_tree (tk_encodings t)).
Definition kind : list tree := match tk_kind t with KPlain => [] | KVideo v => [video_tree v] | KAudio a => [audio_tree a] end.

Lemma track_tree_eq : track_tree t = Master kMkvTrackEntry (fields ++ encs ++ kind).
Proof. unfold track_tree, fields, nzu. cbn [app]. rewrite <- !app_assoc. reflexivity. Qed.

Lemma track_fields : representable fields -> track_fields_size t = zlen (enc_all fields).
Proof.
  intros H. apply size_is; [assumption|usize|]. unfold track_fields_size, nz. csum; try cpiece.
  unfold fields, nzu. encz.
Qed.

Lemma encodings_total : representable encs ->
  content_encodings_size t = zlen (enc_all (map encoding_tree (tk_encodings t))).
Proof.
  intros H. apply nonempty_kids in H. apply size_sum_map_eq; [assumption|]. intros. apply encoding_size. assumption.
Qed.
Lemma encs_size : representable encs ->
  opt_sz (nonempty (tk_encodings t)) (wrap64 (EbmlMasterElementSize kMkvContentEncodings (content_encodings_size t)
     + content_encodings_size t)) = zlen (enc_all encs).
Proof.
  intros H. pose proof (encodings_total H) as E. unfold encs in *. destruct (tk_encodings t) as [|e l] eqn:EL; [reflexivity|].
  cbn [nonempty opt_sz map nonempty_master] in *. apply size_is; [assumption|usize|].
  rewrite enc_all_1. apply cong_wrap. apply c_master. exact E.
Qed.
Lemma base_size : representable (fields ++ encs) -> Track_PayloadSize_base t = zlen (enc_all (fields ++ encs)).
Proof.
  intros H. apply size_is; [assumption|usize|]. pose proof H as H2. apply representable_app in H2. destruct H2 as [H1 H2].
  unfold Track_PayloadSize_base. rewrite (encs_size H2), (track_fields H1). apply cong_wrap. rewrite enc_all_app, zlen_app. apply cong_refl.
Qed.
Lemma track_payload : representable (fields ++ encs ++ kind) -> Track_PayloadSize t = zlen (enc_all (fields ++ encs ++ kind)).
Proof.
  intros H. rewrite app_assoc in H |- *. pose proof H as H2. apply representable_app in H2. destruct H2 as [H1 H2].
  unfold Track_PayloadSize. rewrite (base_size H1). unfold kind in *. destruct (tk_kind t) as [|v|a].
  - rewrite app_nil_r. reflexivity.
  - apply size_is; [assumption|usize|]. rewrite (enc_all_app (fields ++ encs)), zlen_app, enc_all_1. apply cong_wrap, cong_add; [apply cong_refl|].
    apply cong_wrap. apply (c_master' _ _ (video_kids v)). apply video_payload. eapply representable_kids. exact H2.
  - apply size_is; [assumption|usize|]. rewrite (enc_all_app (fields ++ encs)), zlen_app, enc_all_1. apply cong_wrap, cong_add; [apply cong_refl|].
    apply cong_wrap. apply (c_master' _ _ (audio_kids a)). apply audio_payload. eapply representable_kids. exact H2.
Qed.
Lemma track_size : representable [track_tree t] -> Track_Size t = zlen (enc (track_tree t)).
Proof.
  intros H. rewrite <- enc_all_1. apply size_is; [assumption|usize|]. rewrite enc_all_1. unfold Track_Size. apply cong_wrap.
  rewrite track_tree_eq in *. apply c_master'. apply track_payload. eapply representable_kids. exact H.
Qed.

Lemma list_eqb_spec : forall a b, list_eqb a b = if list_eq_dec Z.eq_dec a b then true else false.
Proof.
  induction a as [|x a IH]; intros [|y b]; cbn [list_eqb]; try reflexivity.
  rewrite IH. destruct (Z.eqb_spec x y) as [E|E]; cbn [andb].
  - subst y. destruct (list_eq_dec Z.eq_dec a b) as [E|N]; destruct (list_eq_dec Z.eq_dec (x :: a) (x :: b)) as [E2|N2]; try reflexivity; congruence.
  - destruct (list_eq_dec Z.eq_dec (x :: a) (y :: b)) as [E2|N2]; [congruence|reflexivity].
Qed.

Definition base_valid : bool :=
  negb (tk_type t =? 0) &&
  match tk_codec_id t with
  | None => false
  | Some c => if list_eq_dec Z.eq_dec c [86; 95; 65; 86; 49]
              then match tk_codec_private t with None => false | Some _ => true end else true
  end &&
  match tk_codec_private t with Some [] => false | _ => true end &&
  forallb encoding_valid (tk_encodings t).

Lemma base_ser : representable (fields ++ encs ++ kind) ->
  ser base_valid (Track_Write_base t)
      (e_master kMkvTrackEntry (zlen (enc_all (fields ++ encs ++ kind))) ++ enc_all (fields ++ encs)).
Proof.
  intros H. unfold Track_Write_base, base_valid. pose proof H as H0. pose proof (representable_enc _ H) as HB.
  pose proof (zlen_nonneg _ (enc_all (fields ++ encs ++ kind))) as HZ.
  apply representable_app in H0. destruct H0 as [HF HEK]. apply representable_app in HEK. destruct HEK as [HE HKi].
  destruct (Z.eqb_spec (tk_type t) 0) as [E0|E0]; cbn [orb negb andb]; [apply ser_ret_false|].
  destruct (tk_codec_id t) as [cid|] eqn:EC; cbn [present negb andb is_av1]; [|apply ser_ret_false].
  rewrite list_eqb_spec. unfold kAv1CodecId.
  match goal with |- context [if ?b && ?c then ret false else ?k] =>
    assert (G : ser (match tk_codec_private t with Some [] => false | _ => true end && forallb encoding_valid (tk_encodings t)) k
      (e_master kMkvTrackEntry (zlen (enc_all (fields ++ encs ++ kind))) ++ enc_all (fields ++ encs))) end.
  { change (match tk_codec_private t with Some [] => false | _ => true end && forallb encoding_valid (tk_encodings t)) with
      (true && (match tk_codec_private t with Some [] => false | _ => true end && forallb encoding_valid (tk_encodings t))).
    apply ser_write_cons.
    - rewrite <- (track_payload H). apply ser_emits, emits_WriteEbmlMasterElement. rewrite (track_payload H).
      change (2 ^ 56 - 2) with 72057594037927934. lia.
    - rewrite enc_all_app. apply ser_write_cons.
      + pose proof (representable_enc _ HF). apply ser_checked; [|apply track_fields; assumption|big].
        unfold fields, nzu, nz in HF |- *. rsplit. rewrite EC in *. do 7 swrite.
        change (opt_w true) with (opt_w (present (Some cid))). apply ser_cons_t; [apply (s_ocstr _ (Some cid)); assumption|].
        eapply ser_eq; [apply ser_cons; [apply s_optr; assumption|swrite; apply ser_last, s_ocstr; assumption]|apply andb_true_r|reflexivity].
      + eapply ser_eq; [apply (ser_write_cons (forallb encoding_valid (tk_encodings t)) true); [|apply ser_one, poscheck_ser]|apply andb_true_r|apply app_nil_r].
        pose proof (encodings_total HE) as ET.
        unfold encs in *. destruct (tk_encodings t) as [|e l]; [apply ser_ret_true|].
        cbn [nonempty opt_w].
        change (nonempty_master kMkvContentEncodings (map encoding_tree (e :: l))) with [Master kMkvContentEncodings (map encoding_tree (e :: l))] in *.
        rewrite enc_all_1. apply s_master_seq; [eapply representable_kids; exact HE|exact ET|].
        apply ser_map_trees; [eapply representable_kids; exact HE|]. intros. apply encoding_ser. assumption. }
  destruct (list_eq_dec Z.eq_dec cid [86; 95; 65; 86; 49]) as [EV|EV]; cbn [andb]; [|exact G].
  destruct (tk_codec_private t) as [cp|]; cbn [present negb andb]; [exact G|apply ser_ret_false].
Qed.

Lemma track_valid_eq : track_valid t = base_valid && match tk_kind t with KVideo v => video_valid v | _ => true end.
Proof. reflexivity. Qed.

Lemma track_ser : representable [track_tree t] -> ser (track_valid t) (Track_Write t) (enc (track_tree t)).
Proof.
  intros H. rewrite track_valid_eq, track_tree_eq in *. apply representable_kids in H.
  pose proof (base_ser H) as HBS. pose proof H as H0. apply representable_app in H0. destruct H0 as [HF HEK].
  apply representable_app in HEK. destruct HEK as [HE HKi].
  assert (E : enc (Master kMkvTrackEntry (fields ++ encs ++ kind)) =
    (e_master kMkvTrackEntry (zlen (enc_all (fields ++ encs ++ kind))) ++ enc_all (fields ++ encs)) ++ enc_all kind).
  { rewrite enc_master. unfold e_buf, e_master. rewrite !enc_all_app, <- !app_assoc. reflexivity. }
  rewrite E. unfold Track_Write, kind in *. destruct (tk_kind t) as [|v|a].
  - rewrite andb_true_r. unfold enc_all at 3. cbn [map concat]. rewrite app_nil_r. exact HBS.
  - apply ser_write_cons; [exact HBS|]. rewrite enc_all_1. pose proof (representable_kids _ _ HKi) as HV.
    change (video_tree v) with (Master kMkvVideo (video_kids v)). pose proof (representable_enc _ HV).
    apply s_master_seq; [exact HV|apply video_payload; exact HV|]. apply ser_last, ser_checked; [|apply video_payload; exact HV|].
    + apply video_ser_body. exact HV.
    + unfold video_kids, video_tree. change (2 ^ 63) with 9223372036854775808. lia.
  - eapply ser_eq; [apply ser_write_cons; [exact HBS|]|reflexivity|reflexivity]. rewrite enc_all_1. pose proof (representable_kids _ _ HKi) as HV.
    change (audio_tree a) with (Master kMkvAudio (audio_kids a)). pose proof (representable_enc _ HV).
    apply s_master_seq; [exact HV|apply audio_payload; exact HV|]. apply ser_last, ser_checked; [|apply audio_payload; exact HV|].
    + apply audio_ser_body. exact HV.
    + unfold audio_kids, audio_tree. change (2 ^ 63) with 9223372036854775808. lia.
Qed.
End Track.

Lemma tracks_payload : forall l, representable (map track_tree l) -> tracks_payload_size l = zlen (enc_all (map track_tree l)).
Proof. intros. apply size_sum_map_eq; [assumption|]. intros. apply track_size. assumption. Qed.
Lemma tracks_ser : forall l, representable [tracks_tree l] ->
  ser (forallb track_valid l) (Tracks_Write l) (enc (tracks_tree l)).
Proof.
  intros l H. pose proof (representable_kids _ _ H) as HK. pose proof (representable_enc _ HK).
  apply s_master_seq; [assumption|apply tracks_payload; assumption|]. apply ser_last. apply ser_checked.
  - apply ser_map_trees; [assumption|]. intros. apply track_ser. assumption.
  - apply tracks_payload; assumption.
  - big.
Qed.

(* ---------- chapters ---------- *)

Lemma display_payload : forall d k, display_tree d = Master kMkvChapterDisplay k -> representable k ->
  Display_payload d = zlen (enc_all k).
Proof.
  intros d k E H. injection E as <-. apply size_is; [assumption|usize|]. unfold Display_payload. csum; try cpiece. encz.
Qed.
Lemma display_size : forall d, representable [display_tree d] -> Display_Size d = zlen (enc (display_tree d)).
Proof.
  intros d H. rewrite <- enc_all_1. apply size_is; [assumption|usize|]. rewrite enc_all_1. apply cong_wrap, c_master.
  apply (display_payload d _ eq_refl). eapply representable_kids. exact H.
Qed.
Lemma display_ser : forall d, representable [display_tree d] ->
  ser (present (di_title d)) (nonzero (WriteDisplay d)) (enc (display_tree d)).
Proof.
  intros d H. pose proof (representable_kids _ _ H) as HK. pose proof (rep1 _ H). apply ser_nonzero; [|apply enc_pos].
  apply ser_checked_sz; [|apply display_size; assumption|big].
  apply s_master_seq; [assumption|apply (display_payload d _ eq_refl); assumption|]. rsplit.
  eapply ser_eq; [apply ser_cons; [apply s_cstr; assumption|swrite; apply ser_last, s_ocstr; assumption]|apply andb_true_r|reflexivity].
Qed.

Lemma atom_payload : forall c k, chapter_tree c = Master kMkvChapterAtom k -> representable k ->
  Atom_payload c = zlen (enc_all k).
Proof.
  intros c k E H. injection E as <-. apply size_is; [assumption|usize|]. unfold Atom_payload. rsplit.
  match goal with H : representable (map display_tree _) |- _ => rename H into HD end.
  eapply cong_trans; [apply size_sum_zsum|]. cbn [zsum fold_right].
  rewrite enc_all_app, !enc_all_cons, !zlen_app.
  apply cong_add; [apply c_cstr|]. apply cong_add; [apply c_uint|]. apply cong_add; [apply c_uint|]. apply cong_add; [apply c_uint|].
  eapply cong_trans; [unfold cong; symmetry; apply size_sum_zsum|]. apply size_sum_map.
  intros x Hx. apply display_size. eapply representable_in; eassumption.
Qed.
Lemma atom_size : forall c, representable [chapter_tree c] -> Atom_Size c = zlen (enc (chapter_tree c)).
Proof.
  intros c H. rewrite <- enc_all_1. apply size_is; [assumption|usize|]. rewrite enc_all_1. apply cong_wrap, c_master.
  apply (atom_payload c _ eq_refl). eapply representable_kids. exact H.
Qed.
Lemma atom_ser : forall c, representable [chapter_tree c] ->
  ser (chapter_valid c) (nonzero (WriteAtom c)) (enc (chapter_tree c)).
Proof.
  intros c H. pose proof (representable_kids _ _ H) as HK. pose proof (rep1 _ H). apply ser_nonzero; [|apply enc_pos].
  apply ser_checked_sz; [|apply atom_size; assumption|big].
  apply s_master_seq; [assumption|apply (atom_payload c _ eq_refl); assumption|]. rsplit. unfold chapter_valid.
  apply ser_cons; [apply s_cstr; assumption|]. do 3 swrite.
  apply ser_map_trees; [assumption|]. intros. apply display_ser. assumption.
Qed.

Lemma edition_payload : forall l, representable (map chapter_tree l) -> Edition_payload l = zlen (enc_all (map chapter_tree l)).
Proof. intros. apply size_sum_map_eq; [assumption|]. intros. apply atom_size. assumption. Qed.
Lemma edition_size : forall l, representable [Master kMkvEditionEntry (map chapter_tree l)] ->
  Edition_Size l = zlen (enc (Master kMkvEditionEntry (map chapter_tree l))).
Proof.
  intros l H. rewrite <- enc_all_1. apply size_is; [assumption|usize|]. rewrite enc_all_1. apply cong_wrap, c_master.
  apply edition_payload. eapply representable_kids. exact H.
Qed.

(* the final position check of Chapters::Write and Tags::Write *)
Lemma ser_stop_check : forall v m bs size, ser v m bs -> size = zlen bs -> zlen bs < 2 ^ 63 ->
  ser v (start <- w_position;; check_true m false (stop <- w_position;;
     ret (negb ((stop >=? start) && negb (wrap64 (stop - start) =? size))))) bs.
Proof.
  intros v m bs size H Hsz Hb s Hs. destruct (H s Hs) as (r & s' & p & E & Adv & HR).
  unfold bind, w_position, check_true, bind. rewrite E.
  destruct HR as [(HG & Hv & Hpp)|(HB & Hn)].
  - unfold b_ok in HG. subst r. pose proof Adv as (_ & HP & _). pose proof (zlen_nonneg _ bs).
    subst size p. replace (w_pos s' - w_pos s) with (zlen bs) by lia.
    rewrite wrap64_small by (change (2 ^ 63) with 9223372036854775808 in Hb; lia).
    rewrite Z.eqb_refl. cbn [negb]. rewrite andb_false_r.
    exists true, s', bs. split; [reflexivity|]. split; [assumption|]. left. split; [reflexivity|auto].
  - unfold b_bad in HB. subst r. exists false, s', p. split; [reflexivity|]. split; [assumption|]. right; split; [reflexivity|assumption].
Qed.

Lemma chapters_ser : forall l, representable [chapters_tree l] ->
  ser (forallb chapter_valid l) (Chapters_Write l) (enc (chapters_tree l)).
Proof.
  intros l H. pose proof (representable_kids _ _ H) as HE. pose proof (representable_kids _ _ HE) as HK.
  pose proof (rep1 _ HE).
  apply s_master_seq; [assumption|rewrite enc_all_1; apply edition_size; assumption|]. apply ser_last. rewrite enc_all_1.
  apply ser_stop_check; [|apply edition_size; assumption|big]. apply ser_nonzero; [|apply enc_pos].
  apply ser_checked_sz; [|apply edition_size; assumption|big].
  apply s_master_seq; [assumption|apply edition_payload; assumption|].
  apply ser_map_trees; [assumption|]. intros. apply atom_ser. assumption.
Qed.

(* ---------- tags ---------- *)

Lemma stag_payload : forall t k, simple_tag_tree t = Master kMkvSimpleTag k -> representable k ->
  SimpleTag_payload t = zlen (enc_all k).
Proof.
  intros d k E H. injection E as <-. apply size_is; [assumption|usize|]. unfold SimpleTag_payload. csum; try cpiece. encz.
Qed.
Lemma stag_size : forall t, representable [simple_tag_tree t] -> SimpleTag_Size t = zlen (enc (simple_tag_tree t)).
Proof.
  intros t H. rewrite <- enc_all_1. apply size_is; [assumption|usize|]. rewrite enc_all_1. apply cong_wrap, c_master.
  apply (stag_payload t _ eq_refl). eapply representable_kids. exact H.
Qed.
Lemma stag_ser : forall t, representable [simple_tag_tree t] ->
  ser (present (st_name t) && present (st_string t)) (nonzero (SimpleTag_Write t)) (enc (simple_tag_tree t)).
Proof.
  intros t H. pose proof (representable_kids _ _ H) as HK. pose proof (rep1 _ H). apply ser_nonzero; [|apply enc_pos].
  apply ser_checked_sz; [|apply stag_size; assumption|big].
  apply s_master_seq; [assumption|apply (stag_payload t _ eq_refl); assumption|]. rsplit.
  apply ser_cons; [apply s_cstr; assumption|]. apply ser_last, s_cstr. assumption.
Qed.
Lemma tag_payload : forall t, representable (map simple_tag_tree t) -> Tag_payload t = zlen (enc_all (map simple_tag_tree t)).
Proof. intros. apply size_sum_map_eq; [assumption|]. intros. apply stag_size. assumption. Qed.
Lemma tag_size : forall t, representable [tag_tree t] -> Tag_Size t = zlen (enc (tag_tree t)).
Proof.
  intros l H. rewrite <- enc_all_1. apply size_is; [assumption|usize|]. rewrite enc_all_1. apply cong_wrap, c_master.
  apply tag_payload. eapply representable_kids. exact H.
Qed.
Lemma tag_ser : forall t, representable [tag_tree t] -> ser (tag_valid t) (nonzero (Tag_Write t)) (enc (tag_tree t)).
Proof.
  intros t H. pose proof (representable_kids _ _ H) as HK. pose proof (rep1 _ H). apply ser_nonzero; [|apply enc_pos].
  apply ser_checked_sz; [|apply tag_size; assumption|big].
  apply s_master_seq; [assumption|apply tag_payload; assumption|].
  apply ser_map_trees; [assumption|]. intros. apply stag_ser. assumption.
Qed.
Lemma tags_payload : forall l, representable (map tag_tree l) -> Tags_payload l = zlen (enc_all (map tag_tree l)).
Proof. intros. apply size_sum_map_eq; [assumption|]. intros. apply tag_size. assumption. Qed.
Lemma tags_ser : forall l, representable [tags_tree l] ->
  ser (forallb tag_valid l) (Tags_Write l) (enc (tags_tree l)).
Proof.
  intros l H. pose proof (representable_kids _ _ H) as HK. pose proof (representable_enc _ HK).
  apply s_master_seq; [assumption|apply tags_payload; assumption|]. apply ser_last.
  apply ser_stop_check; [|apply tags_payload; assumption|big].
  apply ser_map_trees; [assumption|]. intros. apply tag_ser. assumption.
Qed.

(* ---------- segment information ---------- *)

Section Info.
Variable i : segment_info.
Definition info_kids : list tree := match info_tree i with Master _ k => k | _ => [] end.
Lemma date_set_eq : date_set i = negb (si_date_utc i =? - 2 ^ 63).
Proof. reflexivity. Qed.
Lemma info_payload : representable info_kids -> SegmentInfo_payload i = zlen (enc_all info_kids).
Proof.
  intros H. apply size_is; [assumption|usize|]. unfold SegmentInfo_payload.
  csum; try first [apply c_opt, (c_float _ (f32_of_f64 (si_duration i))) | apply c_opt, (c_date _ (si_date_utc i)) | cpiece].
  unfold info_kids, info_tree. rewrite <- date_set_eq. encz.
Qed.
Lemma info_size : representable [info_tree i] ->
  wrap64 (EbmlMasterElementSize kMkvInfo (SegmentInfo_payload i) + SegmentInfo_payload i) = zlen (enc (info_tree i)).
Proof.
  intros H. rewrite <- enc_all_1. apply size_is; [assumption|usize|]. rewrite enc_all_1. apply cong_wrap.
  apply (c_master kMkvInfo _ info_kids). apply info_payload. eapply representable_kids. exact H.
Qed.

(* the position of the Duration element *)
Definition dur_pos (s : wstate) : Z :=
  w_pos s + zlen (e_master kMkvInfo (zlen (enc_all info_kids))) + zlen (enc (uint kMkvTimecodeScale (si_timecode_scale i))).

Lemma info_run : representable [info_tree i] -> forall s, good s ->
  exists r d s' p, SegmentInfo_Write i s = Val ((r, d), s') /\ advanced s p s' /\
    ((r = true /\ info_valid i = true /\ p = enc (info_tree i) /\ (f64_pos (si_duration i) = true -> d = dur_pos s))
     \/ (r = false /\ (info_valid i = true -> ~ no_fail s))) /\
    (f64_pos (si_duration i) = false -> d = si_duration_pos i).
Proof.
  intros H s Hs. pose proof (representable_kids _ _ H) as HK. change (representable info_kids) in HK.
  pose proof (info_payload HK) as ES. pose proof (representable_enc _ HK) as HB. unfold SegmentInfo_Write, info_valid.
  assert (HF : forall d : Z, (f64_pos (si_duration i) = false -> d = si_duration_pos i) ->
    exists r d' s' p, @ret (bool * Z) (false, d) s = Val ((r, d'), s') /\ advanced s p s' /\
    ((r = true /\ false = true /\ p = enc (info_tree i) /\ (f64_pos (si_duration i) = true -> d' = dur_pos s))
     \/ (r = false /\ (false = true -> ~ no_fail s))) /\ (f64_pos (si_duration i) = false -> d' = si_duration_pos i)).
  { intros d Hd. exists false, d, s, []. split; [reflexivity|]. split; [apply advanced_nil; assumption|].
    split; [|exact Hd]. right. split; [reflexivity|discriminate]. }
  destruct (present (si_muxing_app i)) eqn:EM; cbn [negb orb andb]; [|apply HF; auto].
  destruct (present (si_writing_app i)) eqn:EW; cbn [negb orb andb]; [|apply HF; auto]. clear HF.
  (* master header *)
  pose proof (zlen_nonneg _ (enc_all info_kids)) as HZ0.
  destruct (emits_WriteEbmlMasterElement kMkvInfo (SegmentInfo_payload i) ltac:(rewrite ES; change (2 ^ 56 - 2) with 72057594037927934; lia) s Hs)
    as (r1 & s1 & p1 & q1 & E1 & Eb1 & A1 & R1).
  unfold check_true at 1. unfold bind at 1. rewrite E1. unfold b_ok, b_bad in R1.
  destruct R1 as [[-> ->]|[-> Hn]]; cycle 1.
  { exists false, (si_duration_pos i), s1, p1. split; [reflexivity|]. split; [assumption|]. split; [|auto]. right. auto. }
  rewrite app_nil_r in Eb1. subst p1.
  pose proof (advanced_good _ _ _ Hs A1) as G1. pose proof A1 as (_ & P1 & _). pose proof Hs as ((Hp0 & _) & _).
  unfold bind at 1, w_position at 1. pose proof (zlen_nonneg _ (e_master kMkvInfo (SegmentInfo_payload i))) as HZ1.
  replace (w_pos s1 <? 0) with false by lia.
  (* timecode scale *)
  destruct (emits_WriteEbmlElementUInt kMkvTimecodeScale (si_timecode_scale i) s1 G1) as (r2 & s2 & p2 & q2 & E2 & Eb2 & A2 & R2).
  unfold check_true at 1. unfold bind at 1. rewrite E2. unfold b_ok, b_bad in R2.
  assert (NF1 : no_fail s -> no_fail s1) by (intros; eapply advanced_no_fail; eauto).
  destruct R2 as [[-> ->]|[-> Hn]]; cycle 1.
  { exists false, (si_duration_pos i), s2, (e_master kMkvInfo (SegmentInfo_payload i) ++ p2). split; [reflexivity|].
    split; [eapply advanced_trans; eauto; apply Hs|]. split; [|auto]. right. split; [reflexivity|]. intros _ NF. auto. }
  rewrite app_nil_r in Eb2. subst p2. pose proof (advanced_good _ _ _ G1 A2) as G2. pose proof A2 as (_ & P2 & _).
  assert (NF2 : no_fail s -> no_fail s2) by (intros; eapply advanced_no_fail; eauto).
  unfold bind at 1, w_position at 1. cbv zeta.
  set (dpos := if f64_pos (si_duration i) then w_pos s2 else si_duration_pos i).
  assert (HD0 : f64_pos (si_duration i) = false -> dpos = si_duration_pos i) by (unfold dpos; intros ->; reflexivity).
  assert (HD1 : f64_pos (si_duration i) = true -> dpos = dur_pos s).
  { unfold dpos, dur_pos. intros ->. rewrite <- ES, P2, P1. reflexivity. }
  clearbody dpos.
  pose proof (advanced_trans _ _ _ _ _ ltac:(apply Hs) A1 A2) as A02.
  (* duration *)
  set (durs := opt (f64_pos (si_duration i)) (Leaf kMkvDuration (LFloat (f32_of_f64 (si_duration i))))).
  assert (S3 : ser true (opt_w (f64_pos (si_duration i)) (WriteEbmlElementFloat kMkvDuration (f32_of_f64 (si_duration i)))) (enc_all durs))
    by (apply s_opt, s_float).
  destruct (S3 s2 G2) as (r3 & s3 & p3 & E3 & A3 & R3).
  unfold check_true at 1. unfold bind at 1. rewrite E3. unfold b_ok, b_bad in R3.
  pose proof (advanced_trans _ _ _ _ _ ltac:(apply Hs) A02 A3) as A03.
  destruct R3 as [(-> & _ & ->)|[-> Hn]]; cycle 1.
  { eexists false, dpos, s3, _. split; [reflexivity|].
    split; [exact A03|]. split; [|auto]. right. split; [reflexivity|]. intros _ NF. apply Hn; auto. }
  pose proof (advanced_good _ _ _ G2 A3) as G3. pose proof A3 as (_ & P3 & _).
  assert (NF3 : no_fail s -> no_fail s3) by (intros; eapply advanced_no_fail; eauto).
  (* date: the result is ignored *)
  set (dates := opt (negb (si_date_utc i =? - 2 ^ 63)) (Leaf kMkvDateUTC (LDate (si_date_utc i)))).
  assert (S4 : emits_b (opt_w (date_set i) (WriteEbmlDateElement kMkvDateUTC (si_date_utc i))) (enc_all dates)).
  { unfold dates. rewrite <- date_set_eq. destruct (date_set i); cbn [opt opt_w]; [|apply emits_true].
    rewrite enc_all_1. apply emits_WriteEbmlDateElement. }
  destruct (S4 s3 G3) as (r4 & s4 & p4 & q4 & E4 & Eb4 & A4 & R4).
  unfold bind at 1. rewrite E4. unfold b_ok, b_bad in R4.
  pose proof (advanced_trans _ _ _ _ _ ltac:(apply Hs) A03 A4) as A04.
  pose proof (advanced_good _ _ _ G3 A4) as G4. pose proof A4 as (_ & P4 & _).
  assert (NF4 : no_fail s -> no_fail s4) by (intros; eapply advanced_no_fail; eauto).
  (* the two application names *)
  assert (S5 : ser true (write_seq [WriteEbmlElementCStr kMkvMuxingApp (si_muxing_app i);
                         WriteEbmlElementCStr kMkvWritingApp (si_writing_app i)])
     (enc_all (str kMkvMuxingApp (si_muxing_app i) ++ str kMkvWritingApp (si_writing_app i)))).
  { unfold info_kids, info_tree in HK. rsplit.
    pose proof (s_cstr kMkvMuxingApp (si_muxing_app i) ltac:(assumption)) as K1. rewrite EM in K1.
    pose proof (s_cstr kMkvWritingApp (si_writing_app i) ltac:(assumption)) as K2. rewrite EW in K2.
    apply ser_cons_t; [exact K1|apply ser_last; exact K2]. }
  destruct (S5 s4 G4) as (r5 & s5 & p5 & E5 & A5 & R5).
  unfold check_true at 1. unfold bind at 1. rewrite E5. unfold b_ok, b_bad in R5.
  pose proof (advanced_trans _ _ _ _ _ ltac:(apply Hs) A04 A5) as A05.
  destruct R5 as [(-> & _ & ->)|[-> Hn]]; cycle 1.
  { eexists false, dpos, s5, _. split; [reflexivity|].
    split; [exact A05|]. split; [|auto]. right. split; [reflexivity|]. intros _ NF. apply Hn; auto. }
  pose proof A5 as (_ & P5 & _).
  assert (EK : enc_all info_kids = enc (uint kMkvTimecodeScale (si_timecode_scale i)) ++ enc_all durs ++ enc_all dates ++
    enc_all (str kMkvMuxingApp (si_muxing_app i) ++ str kMkvWritingApp (si_writing_app i))).
  { unfold info_kids, info_tree. fold durs dates. rewrite enc_all_cons, !enc_all_app. reflexivity. }
  unfold bind, w_position, ret. eexists _, dpos, s5, _. split; [reflexivity|]. split; [exact A05|]. split; [|exact HD0].
  rewrite ES, sint64_id by lia.
  assert (LK : zlen (enc_all info_kids) = zlen (enc (uint kMkvTimecodeScale (si_timecode_scale i))) + zlen (enc_all durs) + zlen p4 + zlen q4 +
     zlen (enc_all (str kMkvMuxingApp (si_muxing_app i) ++ str kMkvWritingApp (si_writing_app i)))).
  { rewrite EK, Eb4, !zlen_app. lia. }
  assert (P25 : w_pos s5 - w_pos s1 = zlen (enc_all info_kids) - zlen q4).
  { rewrite LK, P5, P4, P3, P2. change (e_uint kMkvTimecodeScale (si_timecode_scale i)) with (enc (uint kMkvTimecodeScale (si_timecode_scale i))). lia. }
  pose proof (zlen_nonneg _ q4) as HQ. pose proof (zlen_nonneg _ p4) as HP4.
  assert (HP5 : 0 <= w_pos s5).
  { pose proof (advanced_good _ _ _ G4 A5) as ((X & _) & _). exact X. }
  replace (w_pos s5 <? 0) with false by lia. cbn [orb]. rewrite negb_involutive.
  destruct (Z.eqb_spec (w_pos s5 - w_pos s1) (zlen (enc_all info_kids))) as [EQ|NE].
  - left. split; [reflexivity|]. split; [reflexivity|]. split; [|exact HD1].
    assert (EQ4 : q4 = []) by (destruct q4; [reflexivity|rewrite zlen_cons in *; pose proof (zlen_nonneg _ q4); lia]). subst q4. rewrite app_nil_r in Eb4. rewrite <- Eb4.
    change (info_tree i) with (Master kMkvInfo info_kids). rewrite enc_master. unfold e_buf. rewrite <- ES, EK. unfold e_master. rewrite <- !app_assoc. reflexivity.
  - right. split; [reflexivity|]. intros _ NF. destruct R4 as [[_ ->]|[_ Hn]]; [|apply Hn; auto].
    rewrite zlen_nil in P25. lia.
Qed.

Lemma info_ser : representable [info_tree i] ->
  ser (info_valid i) (r <- SegmentInfo_Write i;; ret (fst r)) (enc (info_tree i)).
Proof.
  intros H s Hs. destruct (info_run H s Hs) as (r & d & s' & p & E & A & R & _).
  exists r, s', p. unfold bind. rewrite E. split; [reflexivity|]. split; [assumption|]. unfold b_ok, b_bad.
  destruct R as [(-> & V & -> & _)|(-> & Hn)]; auto.
Qed.
End Info.
