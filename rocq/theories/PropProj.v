(* Copying the projection of a track from one file to another. *)
From Coq Require Import ZifyBool ZifyNat Floats.SpecFloat.
From Verif Require Import Base Ids MFloat MWriter MMuxUtil MMuxMeta MParUtil MParMeta MParTrack EbmlSpec WriterSpec ReaderSpec MetaSpec ReadBackSpec ReadTrackSpec.
From Verif Require Import ProjSpec MProj PProj PMeta PropMeta PropParMeta PropParTrack.

(* Whatever projection mkvparser accepts, from any file: copying it succeeds, and
   the copy shows to a reader every value that the file gives, and defaults for the
   others. *)
Theorem C70_copy_says_the_same : forall r start size p, wf_reader r -> Projection_Parse r start size = Val (true, p) ->
  exists q, copied_projection p = Some q /\ projection_after p (read_projection q).
Proof. intros r start size p HW H. exact (copied_projection_shows p (projection_good r start size p HW H)). Qed.
Print Assumptions C70_copy_says_the_same.

(* From file to file: the projection p is read from one file and copied to video
   tracks among others, the tracks are written, and whoever reads the new file is
   shown what the first file said. *)
Theorem C70_from_file_to_file : forall r start size p, wf_reader r -> Projection_Parse r start size = Val (true, p) ->
  forall l s s', good s -> representable [tracks_tree l] -> readable_tracks l -> Tracks_Write l s = Val (true, s') ->
  exists bs, advanced s bs s' /\
    forall r' pos, serves r' pos bs -> pos + zlen bs <= LLONG_MAX ->
      exists start' size' found, element_at r' pos kMkvTracks start' size' /\
        Tracks_Parse r' start' size' = Val (0, found) /\
        forall k t v, nth_error l k = Some t -> tk_kind t = KVideo v -> vi_projection v = copied_projection p ->
          exists pt pv shown, nth_error found k = Some pt /\ pt_kind pt = PVideo pv /\
            pv_projection pv = Some shown /\ projection_after p shown.
Proof.
  intros r start size p HWf HC l s s' Hg Hr Hl HW.
  destruct (C55_tracks_read_back l s s' Hg Hr Hl HW) as (bs & Ha & H). exists bs. split; [exact Ha|].
  intros r' pos Hs HL. destruct (H r' pos Hs HL) as (start' & size' & He & _ & HP).
  exists start', size', (read_tracks l). split; [exact He|]. split; [exact HP|].
  intros k t v Hk Hkind Hpr. destruct (C70_copy_says_the_same r start size p HWf HC) as (q & Eq & Hq). rewrite Eq in Hpr.
  exists (read_track t), (read_video v), (read_projection q). split; [exact (map_nth_error read_track k l Hk)|].
  split; [unfold read_track; cbn [pt_kind]; rewrite Hkind; reflexivity|]. split; [|exact Hq].
  unfold read_video. cbn [pv_projection]. rewrite Hpr. reflexivity.
Qed.
Print Assumptions C70_from_file_to_file.

(* a cube map with private data and two angles, 90 and -30 degrees *)
Definition ex_cube : list Z :=
  [0x76; 0x71; 0x81; 2; 0x76; 0x72; 0x83; 0; 0; 7; 0x76; 0x73; 0x84; 0x42; 0xB4; 0; 0; 0x76; 0x75; 0x84; 0xC1; 0xF0; 0; 0].
Definition ex_cube_parsed : p_projection := mkPP 2 (Some [0; 0; 7]) 0x42B40000 0x7F7FFFFF 0xC1F00000.
Definition ex_projected (p : p_projection) : track :=
  mkTrack (KVideo (mkVideo 0 0 0 0 0 0 0 0 (f64_of_Z 30) 480 0 0 640 None None (copied_projection p)))
    (Some [86; 95; 86; 80; 57]) None None None 0 1 1 5 0 0 0 [].
Example C70_ex : wf_reader (file_reader ex_cube) /\
  Projection_Parse (file_reader ex_cube) 0 (zlen ex_cube) = Val (true, ex_cube_parsed) /\
  copied_projection ex_cube_parsed = Some (mkProj 2 0x42B40000 0 0xC1F00000 [0; 0; 7]) /\
  representable [tracks_tree [ex_audio; ex_projected ex_cube_parsed]] /\ readable_tracks [ex_audio; ex_projected ex_cube_parsed] /\
  (exists s', Tracks_Write [ex_audio; ex_projected ex_cube_parsed] (mkW [] 0 true []) = Val (true, s')).
Proof.
  split; [split; [repeat constructor|]; vm_compute; intuition discriminate|]. split; [vm_compute; reflexivity|]. split; [vm_compute; reflexivity|]. split; [rep|].
  split; [|eexists; vm_compute; reflexivity]. split.
  - assert (E : copied_projection ex_cube_parsed = Some (mkProj 2 0x42B40000 0 0xC1F00000 [0; 0; 7])) by (vm_compute; reflexivity).
    unfold ex_audio, ex_projected. rewrite E. clear E. fits.
  - vm_compute. repeat (constructor; [cbn [In]; intuition discriminate|]). constructor.
Qed.

(* Not every projection that can be read can be read again: a type of 2^31 is
   accepted (as an enumeration of 32 bits it is negative), the copy is written with a
   type of 64 bits that mkvparser refuses, and with it all the tracks. *)
Definition ex_bad_type : list Z := [0x76; 0x71; 0x84; 0x80; 0; 0; 0].
Theorem C70_copy_can_be_read_refuted : exists p s',
  Projection_Parse (file_reader ex_bad_type) 0 (zlen ex_bad_type) = Val (true, p) /\
  Tracks_Write [ex_projected p] (mkW [] 0 true []) = Val (true, s') /\
  element_at (file_reader (w_file s')) 0 kMkvTracks 5 72 /\
  Tracks_Parse (file_reader (w_file s')) 5 72 = Val (-2, []).
Proof.
  eexists. eexists. split; [vm_compute; reflexivity|]. split; [vm_compute; reflexivity|].
  split; [vm_compute; repeat split; reflexivity|vm_compute; reflexivity].
Qed.
Print Assumptions C70_copy_can_be_read_refuted.
