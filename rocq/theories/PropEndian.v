(* C72: byte order. *)
From Coq Require Import ZifyBool ZifyNat.
From Verif Require Import Base EndianSpec MEndian PEndian.

(* On both kinds of machine host_to_bigendian makes a number of eight bytes whose bytes
   in memory are those of its argument, the most significant first, and
   bigendian_to_host gives back the number such bytes stand for. *)
Theorem C72_eight_bytes : forall order, order = little 8 \/ order = big 8 ->
  (forall v, 0 <= v < 2 ^ 64 -> memory order (host_to_bigendian64 order v) = big_endian 8 v) /\
  (forall bs, bytes bs -> length bs = 8%nat -> bigendian_to_host64 order (load order bs) = value_of bs).
Proof. intros order HE. split; [intros v Hv; exact (to64 order v HE Hv)|intros bs HB HL; exact (from64 order bs HE HB HL)]. Qed.
Print Assumptions C72_eight_bytes.

Example C72_eight_ex : memory (little 8) (host_to_bigendian64 (little 8) 0x0102030405060708) = [1; 2; 3; 4; 5; 6; 7; 8] /\
  bigendian_to_host64 (little 8) (load (little 8) [1; 2; 3; 4; 5; 6; 7; 8]) = 0x0102030405060708.
Proof. split; vm_compute; reflexivity. Qed.

(* Four bytes: right on a big endian machine. On a little endian machine right exactly
   for the numbers whose two high bytes are their two low bytes. *)
Theorem C72_four_bytes :
  (forall v, 0 <= v < 2 ^ 32 -> memory (big 4) (host_to_bigendian32 (big 4) v) = big_endian 4 v) /\
  (forall v, 0 <= v < 2 ^ 32 ->
     (memory (little 4) (host_to_bigendian32 (little 4) v) = big_endian 4 v <-> byte_of v 1 = byte_of v 3 /\ byte_of v 2 = byte_of v 0)).
Proof. split; [intros v _; exact (to32_big v)|exact to32_iff]. Qed.
Print Assumptions C72_four_bytes.

Theorem C72_four_bytes_refuted : exists v, 0 <= v < 2 ^ 32 /\
  memory (little 4) (host_to_bigendian32 (little 4) v) <> big_endian 4 v /\
  (* and the number cannot be had back: another one becomes the same *)
  exists w, 0 <= w < 2 ^ 32 /\ w <> v /\ host_to_bigendian32 (little 4) w = host_to_bigendian32 (little 4) v.
Proof.
  exists 256. split; [lia|]. split; [vm_compute; discriminate|]. exists 0. split; [lia|]. split; [lia|]. vm_compute. reflexivity.
Qed.
Print Assumptions C72_four_bytes_refuted.

(* What webm_info prints of a frame of a partially encrypted stream, on any machine of
   the two kinds: it never reads outside the frame, it prints one number for every
   partition announced whose offset is inside the frame, in order, and it returns the
   bytes used if all are, and zero otherwise.  The number is the offset on a big endian
   machine; on a little endian one it is made of the first and the last byte only. *)
Theorem C72_offsets_shown : forall frame, bytes frame -> (9 <= length frame)%nat ->
  forall order, order = little 4 \/ order = big 4 ->
  exists shown, PrintSubSampleEncryption order frame (Z.of_nat (length frame)) =
    Some (shown, if partition_count frame <=? offsets_inside frame then 9 + 4 * partition_count frame else 0) /\
  Z.of_nat (length shown) = Z.min (partition_count frame) (offsets_inside frame) /\
  forall i, (i < length shown)%nat -> exists a b c d, offset_bytes frame i = [a; b; c; d] /\
    (order = big 4 -> nth_error shown i = Some (value_of [a; b; c; d])) /\
    (order = little 4 -> nth_error shown i = Some (value_of [a; d; a; d])).
Proof.
  intros frame HB HL order HE. eexists. split; [exact (print_sub_ok order frame HB HL)|].
  rewrite map_length, seq_length.
  assert (P0 : is_byte (partition_count frame)). { unfold bytes in HB. rewrite Forall_forall in HB. apply HB. apply nth_In. lia. }
  assert (P1 : 0 <= offsets_inside frame) by (apply Z.div_pos; lia). unfold is_byte in P0.
  split; [lia|]. intros i Hi.
  assert (HI : (9 + 4 * i + 4 <= length frame)%nat).
  { assert (Z.of_nat i + 1 <= offsets_inside frame) by lia. unfold offsets_inside in H. pose proof (Z.mul_div_le (Z.of_nat (length frame) - 9) 4 ltac:(lia)). lia. }
  destruct (offset_bytes_four frame i HB HI) as (a & b & c & d & E & Ba & Bb & Bc & Bd). exists a, b, c, d. split; [exact E|].
  rewrite nth_error_map, (nth_error_nth' _ 0%nat) by (rewrite seq_length; exact Hi). rewrite seq_nth by exact Hi. cbn [Nat.add option_map]. rewrite E.
  split; intro EO; rewrite EO; f_equal; [apply from32_big|apply from32_little; assumption].
Qed.
Print Assumptions C72_offsets_shown.

Theorem C72_short_frame : forall order frame, (length frame < 9)%nat -> PrintSubSampleEncryption order frame (Z.of_nat (length frame)) = Some ([], 0).
Proof. exact print_sub_short. Qed.
Print Assumptions C72_short_frame.

(* Two partitions at 256 and 65541: webm_info shows 0 and 327685. *)
Definition two_partitions : list Z := [1; 2; 3; 4; 5; 6; 7; 8; 2; 0; 0; 1; 0; 0; 1; 0; 5; 99; 98].
Example C72_offsets_ex : bytes two_partitions /\ partition_count two_partitions = 2 /\ offsets_inside two_partitions = 2 /\
  map (fun i => value_of (offset_bytes two_partitions i)) [0; 1]%nat = [256; 65541] /\
  PrintSubSampleEncryption (big 4) two_partitions 19 = Some ([256; 65541], 17) /\
  PrintSubSampleEncryption (big 4) (firstn 16 two_partitions) 16 = Some ([256], 0).
Proof. split; [apply Forall_forall; intros x Hx; cbn in Hx; unfold is_byte; lia|]. repeat split; vm_compute; reflexivity. Qed.
Theorem C72_offsets_refuted : exists frame, bytes frame /\ partition_count frame = 2 /\
  map (fun i => value_of (offset_bytes frame i)) [0; 1]%nat = [256; 65541] /\
  PrintSubSampleEncryption (little 4) frame (Z.of_nat (length frame)) = Some ([0; 327685], 17).
Proof. exists two_partitions. split; [exact (proj1 C72_offsets_ex)|]. repeat split; vm_compute; reflexivity. Qed.
Print Assumptions C72_offsets_refuted.
