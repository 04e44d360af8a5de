(* Property C10: what the muxer writes for a frame. *)
From Verif Require Import Base EbmlSpec LacingSpec MWriter WriterSpec MMuxUtil MMuxBlock Ids BlockSpec PMuxBlock.

(* ---- C10 ---- *)

(* A valid frame whose time fits its cluster is written as one SimpleBlock or
   BlockGroup that carries exactly the frame.  If no write fails the reported
   size is the number of bytes written; if one fails the reported size is 0 and
   a prefix of those bytes was written. *)
Theorem C10_write_frame : forall f cluster_timecode scale,
  frame_ok f -> IsValid f = true -> 0 <= cluster_timecode < 2 ^ 63 -> 1 <= scale ->
  let rel := frame_rel f cluster_timecode scale in
  0 <= rel <= 32767 ->
  exists bs,
    (if CanBeSimpleBlock f then is_simple_block f rel bs else is_block_group f rel scale bs) /\
    emits_sz (WriteFrame f cluster_timecode scale) bs.
Proof.
  intros f ct scale Hok HV Hct Hs rel Hrel. exists (frame_bytes f rel scale). split.
  - apply frame_bytes_spec; assumption.
  - apply emits_WriteFrame; assumption.
Qed.
Print Assumptions C10_write_frame.

(* A frame that is not valid or whose time does not fit writes nothing. *)
Theorem C10_refused_writes_nothing : forall f cluster_timecode scale s,
  frame_ok f -> 0 <= cluster_timecode < 2 ^ 63 -> 1 <= scale ->
  IsValid f = false \/ ~ (0 <= frame_rel f cluster_timecode scale <= 32767) ->
  WriteFrame f cluster_timecode scale s = Val (0, s).
Proof. exact WriteFrame_refused. Qed.
Print Assumptions C10_refused_writes_nothing.

(* which frames are valid *)
Theorem C10_valid_frames : forall f, frame_ok f ->
  IsValid f = negb (negb (CanBeSimpleBlock f) && negb (fr_is_key f) && negb (fr_ref_set f)).
Proof. exact IsValid_spec. Qed.
Print Assumptions C10_valid_frames.

(* The claim fails for the largest frames the API takes: 2^31-4 to 2^31-1 bytes
   in a SimpleBlock is undefined behaviour. *)
Theorem C10_huge_frame_refuted : exists f, IsValid f = true /\ zlen (fr_data f) = INT_MAX /\
  WriteFrame f 0 1000000 (mkW [] 0 true []) = UB.
Proof.
  exists (mkFrame (repeat 0 (Z.to_nat INT_MAX)) None 0 0 false true 1 0 0 0 false).
  assert (HL : zlen (repeat 0 (Z.to_nat INT_MAX)) = INT_MAX).
  { unfold zlen. rewrite repeat_length. apply Z2Nat.id. unfold INT_MAX. lia. }
  split; [|split; [exact HL|]].
  - unfold IsValid. cbn [fr_data fr_additional fr_track]. rewrite HL. reflexivity.
  - apply WriteFrame_huge; cbn [fr_additional fr_discard fr_duration fr_track fr_timestamp fr_data]; auto; unfold INT_MAX in *; lia.
Qed.
Print Assumptions C10_huge_frame_refuted.

(* a non-key frame with additional data, padding and a duration, 7 ms into its cluster *)
Definition ex_frame : frame :=
  mkFrame [1; 2; 3] (Some [9; 9]) 1 5000000 true false 2 107000000 (-4) 100000000 true.
Example C10_ex : frame_ok ex_frame /\ IsValid ex_frame = true /\ frame_rel ex_frame 100 1000000 = 7.
Proof.
  split; [|split; vm_compute; reflexivity].
  unfold frame_ok, ex_frame, bytes, is_byte, is_u64, is_s64, zlen, INT_MAX; cbn [fr_data fr_additional fr_add_id fr_duration fr_track fr_timestamp fr_discard fr_ref].
  repeat split; try (repeat constructor; lia); cbn; lia.
Qed.
Example C10_ex_bytes : exists s, WriteFrame ex_frame 100 1000000 (mkW [] 0 true []) = Val (33, s) /\
  w_file s = [0xA0; 0x9F; 0xA1; 0x87; 0x82; 0; 7; 0; 1; 2; 3;
              0x75; 0xA1; 0x89; 0xA6; 0x87; 0xEE; 0x81; 1; 0xA5; 0x82; 9; 9;
              0x75; 0xA2; 0x81; 0xFC; 0xFB; 0x81; 0x64; 0x9B; 0x81; 5].
Proof. eexists. split; vm_compute; reflexivity. Qed.
