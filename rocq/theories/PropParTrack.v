(* Tracks written by mkvmuxer and read back by mkvparser; tracks of any file. *)
From Coq Require Import ZifyBool ZifyNat Floats.SpecFloat.
From Verif Require Import Base Ids MFloat MWriter MMuxUtil MMuxMeta MParUtil MParMeta MParTrack EbmlSpec WriterSpec ReaderSpec MetaSpec ReadBackSpec ReadTrackSpec.
From Verif Require Import PMeta PParUtil PParMeta PParTrack3 PParTrack4 PropMeta PropParMeta.

(* ---------- the round trip ---------- *)

(* All tracks are reported, in their order, with all settings they were written
   with: numbers, strings, codec private data, encryption, sizes, colour and
   mastering metadata, projection, and rates as the nearest binary32 numbers. *)
Theorem C55_tracks_read_back : forall l s s', good s -> representable [tracks_tree l] -> readable_tracks l ->
  Tracks_Write l s = Val (true, s') ->
  exists bs, advanced s bs s' /\
    forall r pos, serves r pos bs -> pos + zlen bs <= LLONG_MAX ->
      exists start size, element_at r pos kMkvTracks start size /\ start + size = pos + zlen bs /\
        Tracks_Parse r start size = Val (0, read_tracks l).
Proof.
  intros l s s' Hg Hr Hl HW. destruct (C11_tracks l Hr) as [size H]. destruct (H s Hg) as (b & s2 & E & Hok & _).
  rewrite HW in E. injection E as <- <-. destruct (Hok eq_refl) as (Hv & bs & He & _ & Ha).
  exists bs. split; [exact Ha|]. intros r pos Hs HL. exact (tracks_read r l pos bs Hr Hv Hl He Hs HL).
Qed.
Print Assumptions C55_tracks_read_back.

Definition ex_colour : colour :=
  mkColour 1 8 (2 ^ 64 - 1) (2 ^ 64 - 1) 0 0 1 1 2 1 9 1000 (2 ^ 64 - 1)
    (Some (mkMM 0x461C3C00 0x3C23D70A (Some (0x3F2E147B, 0x3E99999A)) None (Some (0, 0x3F800000)) None)).
Definition ex_video : track :=
  mkTrack (KVideo (mkVideo 0 640 0 0 0 4 0 0 (f64_of_Z 30) 480 1 0 640 (Some [85]) (Some ex_colour)
                    (Some (mkProj 1 0x80000000 0x42B40000 0xC2B40000 [1; 2]))))
    (Some [86; 95; 86; 80; 57]) (Some [1; 2; 3]) (Some [101; 110; 103]) (Some [99; 97; 109]) 4 1 1 (2 ^ 63 + 5) 7 8 33333333
    [mkCE 5 (Some [107; 101; 121]) 0 1 1 1].
Definition ex_audio : track :=
  mkTrack (KAudio (mkAudio 16 2 (f64_of_Z 48000))) (Some [65; 95; 79; 80; 85; 83]) None None None 0 2 2 77 6500000 80000000 0 [].
Definition ex_sub : track :=
  mkTrack KPlain (Some [68; 95]) None (Some []) None 0 100 0x21 78 0 0 0 [].
Ltac fits :=
  lazymatch goal with
  | |- True => exact I
  | |- _ /\ _ => split; fits
  | |- _ \/ _ => (left; solve [fits]) || (right; solve [fits])
  | |- Forall _ [] => constructor
  | |- Forall _ (_ :: _) => constructor; fits
  | |- Forall ?P ?l => let x := eval hnf in l in change (Forall P x); fits
  | |- ~ _ => let F := fresh in intros F; vm_compute in F; intuition discriminate
  | |- _ = _ -> False => vm_compute; discriminate
  | |- _ -> _ => let F := fresh in intros F; fits
  | |- _ = _ => (vm_compute; reflexivity) || (exfalso; lia)
  | |- _ <= _ => vm_compute; discriminate
  | |- _ < _ => vm_compute; reflexivity
  | |- _ => progress hnf; fits
  end.

(* two video and audio tracks with all kinds of settings, and a metadata track *)
Example C55_ex : representable [tracks_tree [ex_video; ex_audio; ex_sub]] /\ readable_tracks [ex_video; ex_audio; ex_sub] /\
  good (mkW [] 0 true []) /\ (exists s', Tracks_Write [ex_video; ex_audio; ex_sub] (mkW [] 0 true []) = Val (true, s')).
Proof.
  split; [rep|]. split; [|split; [split; [vm_compute; split; discriminate|constructor]|eexists; vm_compute; reflexivity]].
  split.
  - unfold ex_video, ex_audio, ex_sub, ex_colour. fits.
  - vm_compute. repeat (constructor; [cbn [In]; intuition discriminate|]). constructor.
Qed.

(* Not every valid track is: the muxer takes a maximum luminance of 9999.99f, which
   as a number is more than the 9999.99 the parser takes. *)
Definition ex_bright : track :=
  mkTrack (KVideo (mkVideo 0 0 0 0 0 0 0 0 (S754_zero false) 480 0 0 640 None
      (Some (mkColour 1 (2 ^ 64 - 1) (2 ^ 64 - 1) (2 ^ 64 - 1) (2 ^ 64 - 1) (2 ^ 64 - 1) (2 ^ 64 - 1) (2 ^ 64 - 1) (2 ^ 64 - 1) (2 ^ 64 - 1) (2 ^ 64 - 1) (2 ^ 64 - 1) (2 ^ 64 - 1)
        (Some (mkMM 0x461C3FF6 0x3C23D70A None None None None)))) None))
    (Some [86; 95; 86; 80; 57]) None None None 0 1 1 5 0 0 0 [].
Theorem C55_bright_track_read_refuted : exists t s' start size status,
  Tracks_Write [t] (mkW [] 0 true []) = Val (true, s') /\
  element_at (file_reader (w_file s')) 0 kMkvTracks start size /\
  Tracks_Parse (file_reader (w_file s')) start size = Val (status, []) /\ status <> 0.
Proof.
  exists ex_bright. eexists _, _, _, _. split; [vm_compute; reflexivity|]. split; [vm_compute; reflexivity|]. split; [vm_compute; reflexivity|]. discriminate.
Qed.
Print Assumptions C55_bright_track_read_refuted.

(* The encryption of a subtitle track is written and not reported. *)
Definition ex_encrypted : track :=
  mkTrack KPlain (Some [83; 95]) None None None 0 3 0x11 78 0 0 0 [mkCE 5 (Some [107]) 0 1 1 1].
Theorem C55_encryption_read_refuted : exists t s' start size x,
  Tracks_Write [t] (mkW [] 0 true []) = Val (true, s') /\ tk_encodings t <> [] /\
  element_at (file_reader (w_file s')) 0 kMkvTracks start size /\
  Tracks_Parse (file_reader (w_file s')) start size = Val (0, [x]) /\ pt_encodings x = [].
Proof.
  exists ex_encrypted. eexists _, _, _, _. split; [vm_compute; reflexivity|]. split; [discriminate|]. split; [vm_compute; reflexivity|]. split; vm_compute; reflexivity.
Qed.
Print Assumptions C55_encryption_read_refuted.

(* ---------- any file ---------- *)

Theorem C52_tracks_parser_returns : forall r, bounded_source r -> forall pos size, 0 <= pos -> pos + size <= LLONG_MAX ->
  exists x, Tracks_Parse r pos size = Val x.
Proof. intros r (Hwf & Hav & Hneg) pos size Hp HL. apply Tracks_returns; auto. Qed.
Print Assumptions C52_tracks_parser_returns.

(* Whatever the file, the tracks that are accepted have distinct numbers from 1 to
   127, settings that fit their types and no negative sizes, and are found by their
   numbers. *)
Theorem C56_tracks_sound : forall r pos size l, bounded_source r -> 0 <= pos -> Tracks_Parse r pos size = Val (0, l) ->
  sound_tracks l /\ forall n t, GetTrackByNumber l n = Some t <-> In t l /\ ti_number (pt_info t) = n.
Proof. intros r pos size l (Hwf & Hav & _) Hp H. pose proof (Tracks_sound r pos size l Hwf Hav Hp H) as S. split; [exact S|]. intros n t. apply by_number. exact S. Qed.
Print Assumptions C56_tracks_sound.

(* an audio track, encrypted, whose content encodings cannot be parsed (a scope of 0)
   is reported, as one that is not encrypted *)
Definition ex_broken : list Z :=
  [0xAE; 0x98; 0xD7; 0x81; 1; 0x83; 0x81; 2; 0xE1; 0x83; 0x9F; 0x81; 2;
   0x6D; 0x80; 0x8A; 0x62; 0x40; 0x87; 0x50; 0x32; 0x81; 0; 0x50; 0x35; 0x80].
Theorem C56_broken_encryption_refuted : exists r size t, bounded_source r /\
  Tracks_Parse r 0 size = Val (0, [t]) /\ pt_encodings t = [] /\
  (exists start n status l, Encodings_Parse r start n = Val (status, l) /\ status <> 0 /\ 0 <= start /\ start + n = size).
Proof.
  exists (file_reader ex_broken). eexists _, _. split.
  - split; [|split; [vm_compute; discriminate|]].
    + split; [repeat constructor; unfold is_byte; lia|]. vm_compute. repeat split; discriminate.
    + intros pos len st. unfold r_read, file_reader. cbn [r_err r_avail r_short]. change (negb (0 =? 0)) with false. cbn iota.
      destruct (_ || _); [intros E; injection E as <-; lia|]. destruct (len =? 0); [discriminate|]. destruct (_ <=? _); [discriminate|]. intros E; injection E as <-; lia.
  - split; [|split]. 
    + instantiate (2 := 26). vm_compute. reflexivity.
    + reflexivity.
    + exists 16, 10, (-1), []. vm_compute. repeat split; try discriminate; reflexivity.
Qed.
Print Assumptions C56_broken_encryption_refuted.

Example C56_ex : exists t, Tracks_Parse (file_reader [0xAE; 0x8B; 0xD7; 0x81; 1; 0x83; 0x81; 2; 0xE1; 0x83; 0x9F; 0x81; 2]) 0 13 = Val (0, [t]) /\
  GetTrackByNumber [t] 1 = Some t /\ GetTrackByNumber [t] 2 = None.
Proof. eexists. split; [vm_compute; reflexivity|]. split; reflexivity. Qed.
