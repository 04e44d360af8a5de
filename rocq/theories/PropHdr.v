(* Copying the colour information of a track from one file to another. *)
From Coq Require Import ZifyBool ZifyNat Floats.SpecFloat.
From Verif Require Import Base Ids MFloat MWriter MMuxUtil MMuxMeta MParUtil MParMeta MParTrack EbmlSpec WriterSpec ReaderSpec MetaSpec ReadBackSpec ReadTrackSpec.
From Verif Require Import HdrSpec MHdr PHdr PMeta PropMeta PropParMeta PropParTrack.

(* Whatever colour element mkvparser accepts, from any file: the copy that a track
   gets says the same to a reader, value by value, and nothing else.  Values that
   the file does not give are not made up, values that it gives are not lost. *)
Theorem C68_copy_says_the_same : forall r start size c, Colour_Parse r start size = Val (true, c) ->
  copy_shows c (read_colour (copied c)).
Proof. intros r start size c H. exact (copied_shows c (colour_good r start size c H)). Qed.
Print Assumptions C68_copy_says_the_same.

(* From file to file: the colour c is read from one file, copied to a video track
   among others, the tracks are written, and whoever reads the new file is shown
   what the first file said. *)
Theorem C68_from_file_to_file : forall r start size c, Colour_Parse r start size = Val (true, c) ->
  forall l s s', good s -> representable [tracks_tree l] -> readable_tracks l -> Tracks_Write l s = Val (true, s') ->
  exists bs, advanced s bs s' /\
    forall r' pos, serves r' pos bs -> pos + zlen bs <= LLONG_MAX ->
      exists start' size' found, element_at r' pos kMkvTracks start' size' /\
        Tracks_Parse r' start' size' = Val (0, found) /\
        forall k t v, nth_error l k = Some t -> tk_kind t = KVideo v -> vi_colour v = Some (copied c) ->
          exists pt pv, nth_error found k = Some pt /\ pt_kind pt = PVideo pv /\ copy_shows c (pv_colour pv).
Proof.
  intros r start size c HC l s s' Hg Hr Hl HW.
  destruct (C55_tracks_read_back l s s' Hg Hr Hl HW) as (bs & Ha & H). exists bs. split; [exact Ha|].
  intros r' pos Hs HL. destruct (H r' pos Hs HL) as (start' & size' & He & _ & HP).
  exists start', size', (read_tracks l). split; [exact He|]. split; [exact HP|].
  intros k t v Hk Hkind Hco. exists (read_track t), (read_video v). split; [exact (map_nth_error read_track k l Hk)|].
  split; [unfold read_track; cbn [pt_kind]; rewrite Hkind; reflexivity|].
  unfold read_video. cbn [pv_colour]. rewrite Hco. exact (C68_copy_says_the_same r start size c HC).
Qed.
Print Assumptions C68_from_file_to_file.

(* a colour element with five numbers and mastering metadata: matrix 1, range 2,
   transfer 16, primaries 9, a brightest pixel of 1000, luminances and two chromaticities *)
Definition ex_bytes : list Z :=
  [0x55; 0xB1; 0x81; 1; 0x55; 0xB9; 0x81; 2; 0x55; 0xBA; 0x81; 16; 0x55; 0xBB; 0x81; 9; 0x55; 0xBC; 0x82; 3; 232;
   0x55; 0xD0; 0x80 + 42;
     0x55; 0xD9; 0x84; 0x44; 0x7A; 0; 0;   0x55; 0xDA; 0x84; 0x3C; 0x23; 0xD7; 0x0A;
     0x55; 0xD1; 0x84; 0x3F; 0x2E; 0x14; 0x7B;   0x55; 0xD2; 0x84; 0x3E; 0x99; 0x99; 0x9A;
     0x55; 0xD7; 0x84; 0x3E; 0xA0; 0x1A; 0x37;   0x55; 0xD8; 0x84; 0x3E; 0xA8; 0x72; 0xB0].
Definition ex_parsed : p_colour :=
  mkPC 1 LLONG_MAX LLONG_MAX LLONG_MAX LLONG_MAX LLONG_MAX LLONG_MAX LLONG_MAX 2 16 9 1000 LLONG_MAX
    (Some (mkPM 0x447A0000 0x3C23D70A (Some (0x3F2E147B, 0x3E99999A)) None None (Some (0x3EA01A37, 0x3EA872B0)))).
Definition ex_copy_video (c : p_colour) : track :=
  mkTrack (KVideo (mkVideo 0 0 0 0 0 0 0 0 (f64_of_Z 30) 480 0 0 640 None (Some (copied c)) None))
    (Some [86; 95; 86; 80; 57]) None None None 0 1 1 5 0 0 0 [].
Example C68_ex : Colour_Parse (file_reader ex_bytes) 0 (zlen ex_bytes) = Val (true, ex_parsed) /\
  read_colour (copied ex_parsed) = Some ex_parsed /\
  representable [tracks_tree [ex_audio; ex_copy_video ex_parsed]] /\ readable_tracks [ex_audio; ex_copy_video ex_parsed] /\
  (exists s', Tracks_Write [ex_audio; ex_copy_video ex_parsed] (mkW [] 0 true []) = Val (true, s')).
Proof.
  split; [vm_compute; reflexivity|]. split; [vm_compute; reflexivity|]. split; [rep|]. split; [|eexists; vm_compute; reflexivity].
  split.
  - assert (E : copied ex_parsed = mkColour 1 (2 ^ 64 - 1) (2 ^ 64 - 1) (2 ^ 64 - 1) (2 ^ 64 - 1) (2 ^ 64 - 1) (2 ^ 64 - 1) (2 ^ 64 - 1) 2 16 9 1000 (2 ^ 64 - 1)
      (Some (mkMM 0x447A0000 0x3C23D70A (Some (0x3F2E147B, 0x3E99999A)) None None (Some (0x3EA01A37, 0x3EA872B0))))) by (vm_compute; reflexivity).
    unfold ex_audio, ex_copy_video. rewrite E. clear E. fits.
  - vm_compute. repeat (constructor; [cbn [In]; intuition discriminate|]). constructor.
Qed.

(* Not every colour that can be read can be written: mkvparser does not mind a
   minimum luminance above the maximum, and a track with it is refused. *)
Definition ex_dark : list Z := [0x55; 0xD0; 0x80 + 14; 0x55; 0xD9; 0x84; 0x3F; 0x80; 0; 0; 0x55; 0xDA; 0x84; 0x40; 0; 0; 0].
Theorem C68_copy_can_be_written_refuted : exists bytes c s',
  Colour_Parse (file_reader bytes) 0 (zlen bytes) = Val (true, c) /\
  Tracks_Write [ex_copy_video c] (mkW [] 0 true []) = Val (false, s').
Proof. exists ex_dark. eexists _, _. split; [vm_compute; reflexivity|]. vm_compute. reflexivity. Qed.
Print Assumptions C68_copy_can_be_written_refuted.
