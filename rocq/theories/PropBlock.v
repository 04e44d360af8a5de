(* Properties C23, C24: mkvparser splits blocks into frames. *)
From Verif Require Import Base EbmlSpec LacingSpec MParUtil ReaderSpec PParUtil MParBlock PParBlock.

(* ---- C23 ---- *)

(* Whatever the bytes are, an accepted block has 1 to 256 non-empty frames that
   follow each other from some point behind the 4-byte header up to the end of the
   block exactly. *)
Theorem C23_frames_tile_block : forall r start size b, wf_reader r -> 0 <= start ->
  Block_Parse r start size = Val (Some b) ->
  1 <= bl_track b /\ bl_frames b <> [] /\ zlen (bl_frames b) <= 256 /\
  exists p, start + 4 <= p /\
    tiles p (start + size) (map (fun f => (bf_pos f, bf_len f)) (bl_frames b)).
Proof. exact Block_tiles. Qed.
Print Assumptions C23_frames_tile_block.

(* an EBML-laced block of three frames of 2, 3 and 1 bytes behind two junk bytes *)
Definition ex_block : list Z := [0x81; 0x00; 0x0A; 0x86; 2; 0x82; 0xC0; 1; 2; 3; 4; 5; 6].
Example C23_ex : wf_reader (file_reader ([9; 9] ++ ex_block)) /\
  Block_Parse (file_reader ([9; 9] ++ ex_block)) 2 13 =
    Val (Some (mkBlock 1 10 0x86 [mkBFrame 9 2; mkBFrame 11 3; mkBFrame 14 1])).
Proof.
  split; [|vm_compute; reflexivity]. unfold wf_reader, file_reader, LLONG_MAX; cbn.
  repeat split; try (repeat constructor; unfold is_byte; lia); unfold zlen; cbn; lia.
Qed.

(* ---- C24 ---- *)

(* Every block coded as the format prescribes is accepted, and reading its frames
   gives back the frames that were coded (EBML lacing: two frames or more). *)
Theorem C24_lacing_decoded : forall r start track time flags lac frames bs,
  block_content track time flags lac frames bs ->
  (lac = LEbml -> (2 <= length frames)%nat) ->
  bytes bs -> serves r start bs -> zlen bs <= LLONG_MAX ->
  exists b, Block_Parse r start (zlen bs) = Val (Some b) /\
    bl_track b = track /\ bl_timecode b = time /\ bl_flags b = flags /\
    map (Frame_Read r) (bl_frames b) = map inr frames.
Proof. exact Block_complete. Qed.
Print Assumptions C24_lacing_decoded.

(* Conversely, what is accepted is coded as prescribed and the frames read are
   those of the coding. *)
Theorem C24_accepted_is_wellformed : forall r start bs b, wf_reader r -> bytes bs -> serves r start bs ->
  Block_Parse r start (zlen bs) = Val (Some b) -> ~ ebml_single bs ->
  exists lac frames, block_content (bl_track b) (bl_timecode b) (bl_flags b) lac frames bs /\
    map (Frame_Read r) (bl_frames b) = map inr frames.
Proof. exact Block_sound. Qed.
Print Assumptions C24_accepted_is_wellformed.

Example C24_ex : block_content 1 10 0x86 LEbml [[1; 2]; [3; 4; 5]; [6]] ex_block.
Proof.
  exists 1, [2; 0x82; 0xC0]. repeat (split; [vm_compute; intuition congruence|]).
  split; [repeat constructor; discriminate|]. split; [|vm_compute; reflexivity].
  change (map zlen [[1; 2]; [3; 4; 5]; [6]]) with (2 :: [3] ++ [1]).
  change [2; 130; 192] with ((zlen [3] + 1) :: vint 1 2 ++ (delta_code 1 (3 - 2) ++ [])).
  apply lh_ebml; try (cbn; lia). constructor; [|constructor]. unfold delta_fits. cbn. lia.
Qed.

(* A one-frame EBML-laced block (legal: count byte 0, no sizes) is misread: the
   first byte of the frame is taken for a size and cut off. *)
Theorem C24_single_ebml_refuted : exists track time flags frame bs b,
  block_content track time flags LEbml [frame] bs /\ bytes bs /\
  Block_Parse (file_reader bs) 0 (zlen bs) = Val (Some b) /\
  map (Frame_Read (file_reader bs)) (bl_frames b) <> map inr [frame].
Proof. exact Block_single_ebml. Qed.
Print Assumptions C24_single_ebml_refuted.

(* ... or the block is refused. *)
Theorem C24_single_ebml_refused_refuted : exists track time flags frame bs,
  block_content track time flags LEbml [frame] bs /\ bytes bs /\
  Block_Parse (file_reader bs) 0 (zlen bs) = Val None.
Proof. exact Block_single_ebml_refused. Qed.
Print Assumptions C24_single_ebml_refused_refuted.

(* The absolute time of a block: sum of cluster and block timecode, scaled to
   nanoseconds; -1 when that is negative or does not fit 64 bits. *)
Theorem C24_block_time : forall b tc0 scale,
  0 <= tc0 -> -32768 <= bl_timecode b <= 32767 -> 1 <= scale <= LLONG_MAX ->
  Block_GetTime b tc0 scale =
    let t := tc0 + bl_timecode b in
    if (0 <=? t) && (t * scale <=? LLONG_MAX) then t * scale else -1.
Proof. exact Block_time. Qed.
Print Assumptions C24_block_time.
Example C24_block_time_ex : Block_GetTime (mkBlock 1 (-5) 0x80 []) 100 1000000 = 95000000 /\
  Block_GetTime (mkBlock 1 (-5) 0x80 []) 3 1000000 = -1.
Proof. vm_compute. auto. Qed.
