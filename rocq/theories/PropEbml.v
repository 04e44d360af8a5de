(* Properties C01-C08, C21, C22: EBML primitives of the muxer and of mkvparser. *)
From Verif Require Import Base EbmlSpec MWriter WriterSpec MMuxUtil PMuxUtil PWriter.
From Verif Require Import MParUtil ReaderSpec EbmlPropSpec PParUtil PEbml.

(* ---- C01 ---- *)

(* The size writer emits the canonical shortest coding, whatever the writer does. *)
Theorem C01_size_canonical : forall v, 0 <= v <= 2 ^ 56 - 2 ->
  vint_shortest (GetCodedUIntSize v) v /\
  emits_st (WriteUInt v) (vint (GetCodedUIntSize v) v).
Proof. exact (fun v H => conj (GetCodedUIntSize_shortest v H) (emits_WriteUInt v H)). Qed.
Print Assumptions C01_size_canonical.
Example C01_size_canonical_ex : 0 <= 16383 <= 2 ^ 56 - 2 /\
  vint (GetCodedUIntSize 16383) 16383 = [0x20; 0x3F; 0xFF].
Proof. vm_compute. intuition discriminate. Qed.

(* Any legal coding, canonical or not, reads back as the value and its width. *)
Theorem C01_size_read : forall r pos w v rest, vint_fits w v ->
  serves r pos (vint w v ++ rest) -> ReadUInt r pos = (v, w).
Proof. exact ReadUInt_size. Qed.
Print Assumptions C01_size_read.
Example C01_size_read_ex : vint_fits 2 5 /\
  serves (file_reader ([7; 7] ++ vint 2 5 ++ [9])) (zlen [7; 7]) (vint 2 5).
Proof. split; [unfold vint_fits; cbn; lia|apply serves_file]. Qed.

(* Writing to the end of any file and parsing the file at that place. *)
Theorem C01_size_end_to_end : forall v f rest, 0 <= v <= 2 ^ 56 - 2 ->
  exists s', WriteUInt v (fresh_writer f) = Val (0, s') /\
    zlen (w_file s') = zlen f + GetCodedUIntSize v /\
    ReadUInt (file_reader (w_file s' ++ rest)) (zlen f) = (v, GetCodedUIntSize v).
Proof. exact WriteUInt_ReadUInt. Qed.
Print Assumptions C01_size_end_to_end.

(* Larger values are refused and nothing is written. *)
Theorem C01_size_too_big : forall v s, 2 ^ 56 - 2 < v -> WriteUInt v s = Val (-1, s).
Proof. exact WriteUInt_too_big. Qed.
Print Assumptions C01_size_too_big.

(* ---- C02 ---- *)

Theorem C02_fixed_width : forall v size, is_u64 v -> 1 <= size <= 8 ->
  (vint_fits size v -> emits_st (WriteUIntSize v size) (vint size v)) /\
  (~ vint_fits size v -> forall s, WriteUIntSize v size s = Val (-1, s)).
Proof. exact WriteUIntSize_spec. Qed.
Print Assumptions C02_fixed_width.
Example C02_fixed_width_ex : vint_fits 8 5 /\ ~ vint_fits 1 127.
Proof. unfold vint_fits. cbn. lia. Qed.

(* Width 0 selects the shortest width ... *)
Theorem C02_auto_width : forall v, 0 <= v <= 2 ^ 56 - 2 ->
  emits_st (WriteUIntSize v 0) (vint (GetCodedUIntSize v) v).
Proof. exact emits_WriteUIntSize0. Qed.
Print Assumptions C02_auto_width.

(* ... but a value that fits no width is not reported as a failure: the width
   search runs into undefined behaviour. *)
Theorem C02_auto_width_refuted : exists v, is_u64 v /\ forall s, WriteUIntSize v 0 s = UB.
Proof. exact WriteUIntSize0_ub_ex. Qed.
Print Assumptions C02_auto_width_refuted.

(* ---- C03 ---- *)

Theorem C03_id_roundtrip : forall w id, id_width w id ->
  emits_st (WriteID id) (be_bytes (Z.to_nat w) id) /\
  forall r pos rest, serves r pos (be_bytes (Z.to_nat w) id ++ rest) -> ReadID r pos = (id, w).
Proof. exact ID_roundtrip. Qed.
Print Assumptions C03_id_roundtrip.
Example C03_id_roundtrip_ex : id_width 4 0x1F43B675 /\ id_width 3 0x2AD7B1 /\ id_width 1 0xA3.
Proof. unfold id_width. cbn. lia. Qed.

(* ---- C04, C05, C06: leaf elements ---- *)

(* Every leaf writer emits exactly one well-formed element whose content is the
   (for integers: shortest, or fixed-width) coding of the value, and the size
   announced for it is the number of bytes emitted. *)
Theorem C04_C05_C06_leaf_elements : forall op, op_valid op ->
  emits_b (op_run op) (op_bytes op) /\
  zlen (op_bytes op) = op_size op /\
  is_element (op_id op) (op_payload op) (op_bytes op) /\
  op_payload_ok op.
Proof. exact elem_op_correct. Qed.
Print Assumptions C04_C05_C06_leaf_elements.
Example leaf_elements_ex :
  op_valid (OpUInt 0x2AD7B1 1000000 0) /\ op_valid (OpUInt 0xE7 5 8) /\
  op_valid (OpInt 0x75A2 (-70000)) /\ op_valid (OpFloat 0xB5 0x47BB8000) /\
  op_valid (OpString 0x4282 [119; 101; 98; 109]) /\ op_valid (OpBuf 0x63A2 [1; 2; 3]) /\
  op_valid (OpDate 0x4461 (-1)).
Proof.
  unfold op_valid, valid_id, is_u64, is_s64, bytes; cbn [op_id].
  repeat split; try (exists 3; unfold id_width; cbn; lia); try (exists 1; unfold id_width; cbn; lia);
  try (exists 2; unfold id_width; cbn; lia); try lia; try (vm_compute; congruence);
  repeat constructor; unfold is_byte; try lia.
Qed.

(* Reading back: unsigned, below 2^63. *)
Theorem C04_uint_read : forall id v n r pos stop, op_valid (OpUInt id v n) -> v < 2 ^ 63 ->
  let bs := op_bytes (OpUInt id v n) in
  serves r pos bs -> pos + zlen bs <= LLONG_MAX -> (stop < 0 \/ pos + zlen bs <= stop) ->
  exists pos1 size, ParseElementHeader r pos stop = (0, pos1, id, size) /\
    pos1 + size = pos + zlen bs /\ UnserializeUInt r pos1 size = Val v.
Proof. exact read_uint_element. Qed.
Print Assumptions C04_uint_read.

(* A value with the top bit set reads back as an error code. *)
Theorem C04_uint_high_bit_refuted : exists v, is_u64 v /\
  forall r pos, let p := op_payload (OpUInt 0xE7 v 0) in
  serves r pos p -> UnserializeUInt r pos (zlen p) = Val E_FILE_FORMAT_INVALID.
Proof. exact uint_alias_ex. Qed.
Print Assumptions C04_uint_high_bit_refuted.

(* A value that does not fit the fixed width is refused, but only after the
   element ID has been written. *)
Theorem C04_fixed_misfit_leaves_id : forall id v n s, valid_id id -> is_u64 v ->
  1 <= n <= 8 -> 2 ^ (8 * n) <= v -> good s -> no_fail s ->
  exists s', WriteEbmlElementUIntFixed id v n s = Val (false, s') /\ advanced s (id_bytes id) s'.
Proof. exact WriteEbmlElementUIntFixed_misfit. Qed.
Print Assumptions C04_fixed_misfit_leaves_id.

(* Signed integers (and dates) read back unchanged. *)
Theorem C05_int_read : forall r pos bs v, sint_payload v bs -> serves r pos bs ->
  UnserializeInt r pos (zlen bs) = Val (0, v).
Proof. exact UnserializeInt_payload. Qed.
Print Assumptions C05_int_read.
Example C05_int_read_ex : sint_payload (-2) [0xFF; 0xFE] /\
  serves (file_reader ([] ++ [0xFF; 0xFE] ++ [])) (zlen (@nil Z)) [0xFF; 0xFE].
Proof.
  split; [|apply serves_file]. split; [|split; [cbn; lia|reflexivity]].
  repeat constructor; unfold is_byte; lia.
Qed.

(* Floats read back as the same bit pattern; infinities and NaNs are refused. *)
Theorem C06_float_read : forall r pos bs, bytes bs -> (zlen bs = 4 \/ zlen bs = 8) ->
  serves r pos bs ->
  UnserializeFloat r pos (zlen bs) =
    Val (if (if zlen bs =? 4 then nonfinite32 (be_val bs) else nonfinite64 (be_val bs))
         then E_FILE_FORMAT_INVALID else 0, be_val bs).
Proof. exact UnserializeFloat_payload. Qed.
Print Assumptions C06_float_read.

(* Strings (up to the parser's limit) read back verbatim. *)
Theorem C06_string_read : forall r pos bs, zlen bs <= kStringElementSizeLimit ->
  serves r pos bs -> UnserializeString r pos (zlen bs) = (0, Some bs).
Proof. exact UnserializeString_payload. Qed.
Print Assumptions C06_string_read.

(* A 4 GiB string is reported as written although its content is missing. *)
Theorem C06_huge_string_refuted : forall id bs s, zlen bs = 2 ^ 32 -> good s -> no_fail s ->
  exists s', WriteEbmlElementString id bs s = Val (true, s') /\ advanced s (e_master id (2 ^ 32)) s'.
Proof. exact WriteEbmlElementString_4G. Qed.
Print Assumptions C06_huge_string_refuted.

(* ---- C07 ---- *)

Theorem C07_void_exact : forall size, 2 <= size < 2 ^ 31 -> void_gap size = false ->
  exists n, let bs := e_buf kMkvVoid (repeat 0 n) in
    is_element kMkvVoid (repeat 0 n) bs /\ zlen bs = size /\ emits_sz (WriteVoidElement size) bs.
Proof. exact void_written. Qed.
Print Assumptions C07_void_exact.
Example C07_void_exact_ex : void_gap 2 = false /\ void_gap 127 = false /\ void_gap 130 = false /\ void_gap 5000 = false.
Proof. repeat split; reflexivity. Qed.

Theorem C07_void_refused : forall size s, 1 <= size < 2 ^ 31 -> void_gap size = true ->
  WriteVoidElement size s = Val (0, s).
Proof. exact WriteVoidElement_gap. Qed.
Print Assumptions C07_void_refused.

(* Totality fails: a 128-byte Void element exists but the call refuses to write it. *)
Theorem C07_void_total_refuted : exists size payload bs,
  is_element kMkvVoid payload bs /\ zlen bs = size /\ forall s, WriteVoidElement size s = Val (0, s).
Proof. exact void_total_ex. Qed.
Print Assumptions C07_void_total_refuted.

(* Size 0 fails after having written the Void ID. *)
Theorem C07_void_zero_refuted : forall f, exists s',
  WriteVoidElement 0 (fresh_writer f) = Val (0, s') /\ w_file s' = f ++ [0xEC].
Proof. exact void_zero. Qed.
Print Assumptions C07_void_zero_refuted.

(* ---- C08 ---- *)

(* For every failure schedule: success means the whole element was stored;
   without failures the call succeeds; on failure only a prefix was stored. *)
Theorem C08_success_means_written : forall op s s', op_valid op -> good s ->
  op_run op s = Val (true, s') -> advanced s (op_bytes op) s'.
Proof. exact op_run_success. Qed.
Print Assumptions C08_success_means_written.

Theorem C08_no_failure_no_error : forall op s, op_valid op -> good s -> no_fail s ->
  exists r s', op_run op s = Val (r, s') /\ b_ok r /\ advanced s (op_bytes op) s'.
Proof. exact (fun op s V G N => emits_no_fail _ _ _ _ _ s (proj1 (elem_op_correct op V)) G N). Qed.
Print Assumptions C08_no_failure_no_error.
Example C08_ex : good (mkW [1; 2] 2 true [WOk; WFail (-1) 0]) /\
  op_run (OpUInt 0xE7 5 0) (mkW [1; 2] 2 true [WOk; WFail (-1) 0]) =
    Val (false, mkW [1; 2; 0xE7] 3 true []).
Proof.
  split; [|vm_compute; reflexivity]. unfold good. cbn. split; [unfold zlen; cbn; lia|].
  repeat constructor.
Qed.

(* The writer contract says 0 means success; a writer that signals failure with
   a positive status is ignored by the integer serialiser. *)
Theorem C08_positive_status_refuted : exists s s',
  good (mkW (w_file s) (w_pos s) (w_seekable s) []) /\
  ~ no_fail s /\ WriteEbmlElementUInt 0xE7 5 s = Val (true, s') /\
  w_file s' <> w_file s ++ op_bytes (OpUInt 0xE7 5 0).
Proof. exact write_positive_status. Qed.
Print Assumptions C08_positive_status_refuted.

(* ---- C21 ---- *)

Theorem C21_read_uint_bounds : forall r pos v len, wf_reader r -> 0 <= pos ->
  ReadUInt r pos = (v, len) ->
  (v < 0 /\ len = 1) \/
  (1 <= len <= 8 /\ 0 <= v < 2 ^ (7 * len) /\ pos + len <= r_avail r).
Proof. exact ReadUInt_range. Qed.
Print Assumptions C21_read_uint_bounds.

Theorem C21_read_id_bounds : forall r pos v len, wf_reader r -> 0 <= pos ->
  ReadID r pos = (v, len) ->
  (v < 0) \/ (id_width len v /\ pos + len <= r_avail r).
Proof. exact ReadID_range. Qed.
Print Assumptions C21_read_id_bounds.

Theorem C21_uint_length : forall r pos w v rest, wf_reader r ->
  r_total r = -1 \/ r_avail r <= r_total r ->
  vint_fits w v -> serves r pos (vint w v ++ rest) -> pos < r_avail r ->
  GetUIntLength r pos = (0, w).
Proof. intros r pos w v rest _. apply GetUIntLength_vint. Qed.
Print Assumptions C21_uint_length.
Example C21_ex : wf_reader (file_reader [0x40; 0x05; 0xEC]) /\
  ReadUInt (file_reader [0x40; 0x05; 0xEC]) 0 = (5, 2) /\ ReadUInt (file_reader [0x40]) 0 = (-1, 1).
Proof.
  split; [|vm_compute; auto]. unfold wf_reader, file_reader, LLONG_MAX; cbn.
  repeat split; try (repeat constructor; unfold is_byte; lia); unfold zlen; cbn; lia.
Qed.

(* ---- C22 ---- *)

Theorem C22_header_progress : forall r pos stop pos' id size, wf_reader r -> 0 <= pos ->
  ParseElementHeader r pos stop = (0, pos', id, size) ->
  2 <= pos' - pos <= 12 /\ (0 <= stop -> pos' <= stop) /\ pos' <= r_avail r /\
  valid_id id /\ 0 <= size < 2 ^ 56.
Proof. exact ParseElementHeader_range. Qed.
Print Assumptions C22_header_progress.

(* A walk over n siblings consumed at least 2n of the available bytes. *)
Theorem C22_walk_bound : forall r stop pos n pos', wf_reader r -> 0 <= pos ->
  walk r stop pos n pos' -> (n <> O) -> pos + 2 * Z.of_nat n <= r_avail r.
Proof. exact walk_bound. Qed.
Print Assumptions C22_walk_bound.
Example C22_walk_ex : walk (file_reader [0xEC; 0x81; 0; 0xEC; 0x80]) (-1) 0 2 5.
Proof.
  eapply walk_S; [vm_compute; reflexivity|]. eapply walk_S; [vm_compute; reflexivity|]. constructor.
Qed.

(* The header of every well-formed element is read as its ID and content size. *)
Theorem C22_header_read : forall r pos stop ib w id n,
  is_id_bytes id ib -> 1 <= w <= 8 -> 0 <= n < 2 ^ (7 * w) ->
  serves r pos (ib ++ vint w n) ->
  pos + zlen ib + w <= LLONG_MAX ->
  (stop < 0 \/ pos + zlen ib + w <= stop) ->
  ParseElementHeader r pos stop = (0, pos + zlen ib + w, id, n).
Proof. exact ParseElementHeader_element. Qed.
Print Assumptions C22_header_read.
