From Coq Require Import ZifyBool ZifyNat.
From Verif Require Import Base Ids MMuxMeta MParUtil MParMeta MParTrack ReaderSpec ReadTrackSpec ProjSpec MProj PParUtil PParDur PHdr.

(* private data that has been read is not empty *)
Definition good_projection (p : p_projection) : Prop := pp_private p <> Some [].

Lemma projection_keeps : forall r, wf_reader r -> forall id pos size p p', good_projection p ->
  projection_element r id pos size p = Val (Next p') -> good_projection p'.
Proof.
  intros r (_ & Hav & _) id pos size [ty pv ya pi ro] p' HG H. unfold good_projection in *. cbn [pp_private] in *.
  unfold projection_element in H. destruct (id =? kMkvProjectionType).
  - destruct (UnserializeUInt r pos size) as [v|]; [|discriminate]. destruct (v <? 0); [discriminate|]. injection H as <-. exact HG.
  - destruct (id =? kMkvProjectionPrivate).
    + destruct pv as [b|]; [discriminate|]. destruct (alloc_fails size) eqn:Ea; [discriminate|].
      destruct (r_read r pos size) as [st|buf] eqn:Er; [discriminate|]. injection H as <-. cbn [pp_private]. intros E. injection E as ->.
      unfold alloc_fails in Ea. unfold r_read in Er. destruct (negb _); [discriminate|].
      destruct ((pos <? 0) || (size <? 0)) eqn:Ep; [discriminate|]. destruct (Z.eqb_spec size 0) as [->|Hz]; [discriminate|].
      destruct (Z.leb_spec (pos + size) (r_avail r)) as [Hl|]; [|discriminate]. injection Er as Er.
      assert (L : zlen (zslice (r_data r) pos size) = size) by (apply zslice_length; lia). rewrite Er in L. unfold zlen in L. cbn [length] in L. lia.
    + destruct (Pose_Parse r pos size) as [[v|]|]; try discriminate.
      destruct (id =? kMkvProjectionPoseYaw); [injection H as <-; exact HG|]. destruct (id =? kMkvProjectionPosePitch); [injection H as <-; exact HG|].
      destruct (id =? kMkvProjectionPoseRoll); [injection H as <-; exact HG|discriminate].
Qed.
Lemma projection_ret : forall r id pos size p st p', good_projection p -> projection_element r id pos size p = Val (Ret st p') -> st <> 0.
Proof.
  intros r id pos size [ty pv ya pi ro] st p' _ H. unfold projection_element in H.
  destruct (id =? kMkvProjectionType).
  - destruct (UnserializeUInt r pos size) as [v|]; [|discriminate]. destruct (v <? 0); [injection H as <- _; discriminate|discriminate].
  - destruct (id =? kMkvProjectionPrivate).
    + destruct pv; [injection H as <- _; discriminate|]. destruct (alloc_fails size); [injection H as <- _; discriminate|].
      destruct (r_read r pos size); [injection H as <- _; discriminate|discriminate].
    + destruct (Pose_Parse r pos size) as [[v|]|]; try discriminate; [|injection H as <- _; discriminate].
      destruct (id =? kMkvProjectionPoseYaw); [discriminate|]. destruct (id =? kMkvProjectionPosePitch); [discriminate|].
      destruct (id =? kMkvProjectionPoseRoll); [discriminate|]. injection H as <- _. discriminate.
Qed.
Lemma projection_good : forall r start size p, wf_reader r -> Projection_Parse r start size = Val (true, p) -> good_projection p.
Proof.
  intros r start size p HW H. apply as_bool_true in H. unfold walk_payload in H. destruct (_ >? LLONG_MAX); [discriminate|].
  refine (walk_keeps _ r ZPass (projection_element r) good_projection (projection_keeps r HW) (projection_ret r) _ _ _ _ _ _ H).
  unfold good_projection, pp_init. cbn [pp_private]. discriminate.
Qed.

Lemma copied_projection_shows : forall p, good_projection p -> exists q, copied_projection p = Some q /\ projection_after p (read_projection q).
Proof.
  intros [ty pv ya pi ro] HG. unfold good_projection in HG. cbn [pp_private] in HG.
  unfold copied_projection, CopyVideoProjection, pose_present, projection_after, pose_after, type_after, kTypeNotPresent.
  cbn [pp_type pp_private pp_yaw pp_pitch pp_roll].
  destruct pv as [[|b bs]|]; [congruence| |].
  - replace (zlen (b :: bs) >? 0) with true by (unfold zlen; cbn [length]; lia). unfold SetProjectionPrivate.
    replace (zlen (b :: bs) =? 0) with false by (unfold zlen; cbn [length]; lia).
    destruct (ty =? -1), (f32_eq ya 2139095039), (f32_eq pi 2139095039), (f32_eq ro 2139095039); cbn [negb];
      (eexists; split; [unfold SetProjection, set_type, set_pose_yaw, set_pose_pitch, set_pose_roll, new_projection, SetProjectionPrivate; cbn [pj_private pj_type pj_yaw pj_pitch pj_roll];
        replace (zlen (b :: bs) =? 0) with false by (unfold zlen; cbn [length]; lia); reflexivity|repeat split]).
  - destruct (ty =? -1), (f32_eq ya 2139095039), (f32_eq pi 2139095039), (f32_eq ro 2139095039); cbn [negb];
      (eexists; split; [reflexivity|repeat split]).
Qed.
