(* C11: every metadata object is written with its announced size and as the
   element tree the format prescribes. *)
From Coq Require Import ZifyBool ZifyNat Floats.SpecFloat.
From Verif Require Import Base EbmlSpec MWriter WriterSpec MFloat Ids MMuxUtil MMuxMeta MetaSpec PMeta PMetaObj PMetaObj2.

Ltac wx := apply writes_exactly_intro; rewrite ?enc_all_1.

Theorem C11_ebml_header : forall version doc_type, representable [ebml_header_tree version doc_type] ->
  writes_tree true (WriteEbmlHeader version doc_type) [ebml_header_tree version doc_type].
Proof. intros v d H. eexists. wx; [apply header_ser; exact H|exact H|reflexivity]. Qed.
Print Assumptions C11_ebml_header.

Theorem C11_cue_point : forall c, representable [cue_tree c] ->
  writes_exactly (cue_valid c) (CuePoint_Size c) (CuePoint_Write c) [cue_tree c].
Proof. intros c H. wx; [apply cue_ser; exact H|exact H|intros _; apply cue_size; exact H]. Qed.
Print Assumptions C11_cue_point.

Theorem C11_cues : forall l, representable [cues_tree l] ->
  writes_exactly (forallb cue_valid l) (Cues_Size l) (Cues_Write l) [cues_tree l].
Proof. intros c H. wx; [apply cues_ser; exact H|exact H|intros _; apply cues_size; exact H]. Qed.
Print Assumptions C11_cues.

Theorem C11_content_encoding : forall c, representable [encoding_tree c] ->
  writes_exactly (encoding_valid c) (ContentEncoding_Size c) (ContentEncoding_Write c) [encoding_tree c].
Proof. intros c H. wx; [apply encoding_ser; exact H|exact H|intros _; apply encoding_size; exact H]. Qed.
Print Assumptions C11_content_encoding.

Theorem C11_colour : forall c, representable (colour_trees c) ->
  writes_exactly (Colour_Valid c) (Colour_Size c) (Colour_Write c) (colour_trees c).
Proof. intros c H. wx; [apply colour_ser; exact H|exact H|intros _; apply colour_size; exact H]. Qed.
Print Assumptions C11_colour.

Theorem C11_projection : forall p, representable [projection_tree p] ->
  writes_exactly true (Projection_Size p) (Projection_Write p) [projection_tree p].
Proof. intros c H. wx; [apply projection_ser; exact H|exact H|intros _; apply projection_size; exact H]. Qed.
Print Assumptions C11_projection.

(* plain, video (with colour and projection) and audio tracks *)
Theorem C11_track : forall t, representable [track_tree t] ->
  writes_exactly (track_valid t) (Track_Size t) (Track_Write t) [track_tree t].
Proof. intros c H. wx; [apply track_ser; exact H|exact H|intros _; apply track_size; exact H]. Qed.
Print Assumptions C11_track.

Theorem C11_tracks : forall l, representable [tracks_tree l] ->
  writes_tree (forallb track_valid l) (Tracks_Write l) [tracks_tree l].
Proof. intros l H. eexists. wx; [apply tracks_ser; exact H|exact H|reflexivity]. Qed.
Print Assumptions C11_tracks.

Theorem C11_chapters : forall l, representable [chapters_tree l] ->
  writes_tree (forallb chapter_valid l) (Chapters_Write l) [chapters_tree l].
Proof. intros l H. eexists. wx; [apply chapters_ser; exact H|exact H|reflexivity]. Qed.
Print Assumptions C11_chapters.

Theorem C11_tags : forall l, representable [tags_tree l] ->
  writes_tree (forallb tag_valid l) (Tags_Write l) [tags_tree l].
Proof. intros l H. eexists. wx; [apply tags_ser; exact H|exact H|reflexivity]. Qed.
Print Assumptions C11_tags.

(* SegmentInfo::Write, although it ignores the result of writing the date *)
Theorem C11_info : forall i, representable [info_tree i] ->
  writes_tree (info_valid i) (r <- SegmentInfo_Write i;; ret (fst r)) [info_tree i].
Proof. intros i H. eexists. wx; [apply info_ser; exact H|exact H|reflexivity]. Qed.
Print Assumptions C11_info.

(* ---------- instances ---------- *)

(* a decision procedure for the side condition *)
Definition id_okb (id : Z) : bool :=
  ((128 <=? id) && (id <=? 254)) || ((16385 <=? id) && (id <=? 32766)) ||
  ((2097153 <=? id) && (id <=? 4194302)) || ((268435457 <=? id) && (id <=? 536870910)).
Definition leaf_okb (l : leaf) : bool :=
  match l with
  | LUint v => (0 <=? v) && (v <? 18446744073709551616)
  | LFloat _ => true
  | LDate v => (-9223372036854775808 <=? v) && (v <? 9223372036854775808)
  | LBytes bs => forallb (fun b => (0 <=? b) && (b <? 256)) bs && (zlen bs <? 2 ^ 32)
  end.
Fixpoint values_okb (t : tree) : bool :=
  match t with
  | Leaf id l => id_okb id && leaf_okb l
  | Master id kids => id_okb id && fold_right (fun k acc => values_okb k && acc) true kids
  end.
Lemma id_okb_ok : forall id, id_okb id = true -> valid_id id.
Proof.
  intros id H. unfold id_okb in H.
  apply orb_prop in H. destruct H as [H|H]; [apply orb_prop in H; destruct H as [H|H]; [apply orb_prop in H; destruct H as [H|H]|]|].
  - exists 1. unfold id_width. simpl (2 ^ _). lia.
  - exists 2. unfold id_width. simpl (2 ^ _). lia.
  - exists 3. unfold id_width. simpl (2 ^ _). lia.
  - exists 4. unfold id_width. simpl (2 ^ _). lia.
Qed.
Lemma values_okb_ok : forall t, values_okb t = true -> values_ok t.
Proof.
  induction t as [id l|id kids IH] using tree_ind2; cbn [values_okb values_ok]; intros H; apply andb_prop in H; destruct H as [H1 H2];
    (split; [apply id_okb_ok; exact H1|]).
  - destruct l as [v|u|v|bs]; cbn [leaf_okb leaf_ok] in *; [unfold is_u64; lia|exact I|unfold is_s64; lia|].
    apply andb_prop in H2. destruct H2 as [H2 H3]. split; [|lia]. apply Forall_forall. intros x Hx.
    rewrite forallb_forall in H2. specialize (H2 x Hx). unfold is_byte. lia.
  - induction kids as [|k kids IHk]; cbn [fold_right] in *; [exact I|]. apply andb_prop in H2. destruct H2 as [H2 H3].
    split; [apply (Forall_inv IH); exact H2|]. apply IHk; [exact (Forall_inv_tail IH)|exact H3].
Qed.
Lemma rep_check : forall ts, forallb values_okb ts = true -> (weight_all ts <=? 2 ^ 56 - 2) = true -> representable ts.
Proof.
  intros ts H1 H2. split; [|lia]. apply Forall_forall. intros t Ht. rewrite forallb_forall in H1. apply values_okb_ok, H1, Ht.
Qed.
Ltac rep := apply rep_check; vm_compute; reflexivity.

Definition ex_cues : list cue_point :=
  [mkCue 0 1 500 1 true; mkCue 5000 1 70000 300 true].
Example C11_ex_cues : representable [cues_tree ex_cues] /\ forallb cue_valid ex_cues = true.
Proof. split; [rep|reflexivity]. Qed.
(* an invalid cue point (track number 0) is refused *)
Example C11_ex_bad_cue : representable [cue_tree (mkCue 5 0 9 1 true)] /\ cue_valid (mkCue 5 0 9 1 true) = false.
Proof. split; [rep|reflexivity]. Qed.

(* an HDR video track with encryption, and an audio track *)
Definition ex_mastering : mastering :=
  mkMM 0x447A0000 0x3C23D70A (Some (0x3F2E147B, 0x3E958106)) None None (Some (0x3EA01A37, 0x3EA872B0)).
Definition none64 : Z := 2 ^ 64 - 1.
Definition ex_colour : colour :=
  mkColour 9 10 none64 none64 none64 none64 none64 none64 1 16 9 1000 400 (Some ex_mastering).
Definition ex_video : track :=
  mkTrack (KVideo (mkVideo 0 0 0 0 0 0 0 0 (f64_of_Z 30) 1080 0 0 1920 None (Some ex_colour) (Some (mkProj 1 0 0 0 [0; 0; 0; 1]))))
    (Some [86; 95; 86; 80; 57]) (Some [1; 1; 2]) (Some [101; 110; 103]) None
    0 1 1 77 0 0 33333333 [mkCE 5 (Some [1; 2; 3; 4]) 0 1 1 1].
Definition ex_audio : track :=
  mkTrack (KAudio (mkAudio 16 2 (f64_of_Z 48000))) (Some [65; 95; 79; 80; 85; 83]) None None (Some [97])
    0 2 2 78 6500000 80000000 0 [].
Example C11_ex_tracks : representable [tracks_tree [ex_video; ex_audio]] /\
  forallb track_valid [ex_video; ex_audio] = true /\ Track_Size ex_video = 212.
Proof. split; [rep|]. split; vm_compute; reflexivity. Qed.
Example C11_ex_chapters :
  let l := [mkChapter (Some [99; 49]) 0 5000000000 42 [mkDisplay (Some [73; 110]) (Some [101; 110; 103]) None]] in
  representable [chapters_tree l] /\ forallb chapter_valid l = true.
Proof. split; [rep|vm_compute; reflexivity]. Qed.
Example C11_ex_tags :
  let l := [[mkSTag (Some [65]) (Some [66; 67])]; []] in
  representable [tags_tree l] /\ forallb tag_valid l = true.
Proof. split; [rep|vm_compute; reflexivity]. Qed.
Example C11_ex_info :
  let i := mkSI (f64_of_Z 1234) (Some [108; 105; 98]) 1000000 (Some [97]) 12345 (-1) in
  representable [info_tree i] /\ info_valid i = true.
Proof. split; [rep|vm_compute; reflexivity]. Qed.
