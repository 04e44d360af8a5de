(* Model of mkvmuxer/mkvmuxerutil.cc: EBML sizes and element writers.
   The null checks of the writer argument are not modelled (the writer is
   always present), and IMkvWriter::ElementStartNotify (a no-op in MkvWriter,
   mkvwriter.cc:96) is omitted. *)
From Verif Require Import Base MWriter.

(* mkvmuxerutil.cc:184-200 *)
Definition GetCodedUIntSize (value : Z) : Z :=
  if value <? 127 then 1
  else if value <? 16383 then 2
  else if value <? 2097151 then 3
  else if value <? 268435455 then 4
  else if value <? 34359738367 then 5
  else if value <? 4398046511103 then 6
  else if value <? 562949953421311 then 7
  else 8.

(* mkvmuxerutil.cc:202-218 *)
Definition GetUIntSize (value : Z) : Z :=
  if value <? 256 then 1
  else if value <? 65536 then 2
  else if value <? 16777216 then 3
  else if value <? 4294967296 then 4
  else if value <? 1099511627776 then 5
  else if value <? 281474976710656 then 6
  else if value <? 72057594037927936 then 7
  else 8.

(* mkvmuxerutil.cc:220-225; value ^ -1 is the bitwise complement *)
Definition GetIntSize (value : Z) : Z :=
  let v := if value <? 0 then Z.lxor value (-1) else value in
  GetUIntSize (wrap64 (2 * v)).

(* mkvmuxerutil.cc:227-235 *)
Definition EbmlMasterElementSize (type value : Z) : Z :=
  GetUIntSize type + GetCodedUIntSize value.

(* mkvmuxerutil.cc:237-248 *)
Definition EbmlElementSizeInt (type value : Z) : Z :=
  GetUIntSize type + GetIntSize value + 1.

(* mkvmuxerutil.cc:254-265 *)
Definition EbmlElementSizeUIntFixed (type value fixed_size : Z) : Z :=
  wrap64 (wrap64 (GetUIntSize type + (if fixed_size >? 0 then fixed_size else GetUIntSize value)) + 1).

(* mkvmuxerutil.cc:250-252 *)
Definition EbmlElementSizeUInt (type value : Z) : Z := EbmlElementSizeUIntFixed type value 0.

(* mkvmuxerutil.cc:267-278 *)
Definition EbmlElementSizeFloat (type : Z) : Z := GetUIntSize type + 4 + 1.

(* mkvmuxerutil.cc:280-294; the string is given by its bytes before the NUL *)
Definition EbmlElementSizeString (type : Z) (value : list Z) : Z :=
  wrap64 (GetUIntSize type + zlen value + GetCodedUIntSize (zlen value)).

(* mkvmuxerutil.cc:296-310; value != NULL, size = number of bytes *)
Definition EbmlElementSizeBuf (type : Z) (value : list Z) : Z :=
  wrap64 (GetUIntSize type + zlen value + GetCodedUIntSize (zlen value)).

(* mkvmuxerutil.cc:312-323, kDateElementSize = 8 (line 33) *)
Definition EbmlDateElementSize (type : Z) : Z := GetUIntSize type + 8 + 1.

(* mkvmuxerutil.cc:329-340: i runs from 1 to size; byte_count = size - i counts
   down to 0.  Only a negative status stops the loop. *)
Fixpoint SerializeInt_loop (value : Z) (remaining : nat) : W Z :=
  match remaining with
  | O => ret 0
  | S byte_count =>
      let b := wrap8 (Z.shiftr value (8 * Z.of_nat byte_count)) in
      status <- w_write [b];;
      if status <? 0 then ret status else SerializeInt_loop value byte_count
  end.

(* mkvmuxerutil.cc:325-343; value is an int64 parameter *)
Definition SerializeInt (value size : Z) : W Z :=
  if (size <? 1) || (size >? 8) then ret (-1)
  else SerializeInt_loop (sint64 value) (Z.to_nat size).

(* mkvmuxerutil.cc:345-371; f is represented by its IEEE-754 bit pattern u32 *)
Definition SerializeFloat (u32 : Z) : W Z := SerializeInt_loop u32 4.

(* mkvmuxerutil.cc:394-405: the width search of WriteUIntSize with size == 0.
   bit = 1LL << (size*7) and bit - 2 are int64 computations: for size 9 the
   subtraction overflows, for size 10 the shift is out of range. *)
Fixpoint coded_width_search (value size : Z) (fuel : nat) : outcome Z :=
  match fuel with
  | O => UB
  | S fuel' =>
      if size >? 8 then UB
      else if value <=? Z.shiftl 1 (size * 7) - 2 then Val size
      else coded_width_search value (size + 1) fuel'
  end.

(* mkvmuxerutil.cc:382-414 *)
Definition WriteUIntSize (value size : Z) : W Z :=
  if (size <? 0) || (size >? 8) then ret (-1)
  else if size >? 0 then
    let bit := Z.shiftl 1 (size * 7) in
    if value >? bit - 2 then ret (-1)
    else SerializeInt (Z.lor value bit) size
  else
    match coded_width_search value 1 9 with
    | UB => wub
    | Val size' =>
        if size' >? 8 then ret 0
        else SerializeInt (Z.lor value (Z.shiftl 1 (size' * 7))) size'
    end.

(* mkvmuxerutil.cc:373-380 *)
Definition WriteUInt (value : Z) : W Z := WriteUIntSize value (GetCodedUIntSize value).

(* mkvmuxerutil.cc:416-425 *)
Definition WriteID (type : Z) : W Z := SerializeInt type (GetUIntSize type).

(* `if (call) return false;` with a status-returning call, e.g. mkvmuxerutil.cc:427-438 *)
Definition check_status {A} (m : W Z) (bad : A) (k : W A) : W A :=
  st <- m;; if st =? 0 then k else ret bad.

(* `if (!call) return bad;` with a bool-returning call, e.g. mkvmuxer.cc:2978-3001 *)
Definition check_true {A} (m : W bool) (bad : A) (k : W A) : W A :=
  b <- m;; if b then k else ret bad.

(* mkvmuxerutil.cc:427-438 *)
Definition WriteEbmlMasterElement (type size : Z) : W bool :=
  check_status (WriteID type) false (
  check_status (WriteUInt size) false (
  ret true)).

(* mkvmuxerutil.cc:444-465 *)
Definition WriteEbmlElementUIntFixed (type value fixed_size : Z) : W bool :=
  check_status (WriteID type) false (
  let size := GetUIntSize value in
  if (fixed_size >? 0) && (size >? fixed_size) then ret false
  else
    let size := if fixed_size >? 0 then fixed_size else size in
    check_status (WriteUInt size) false (
    check_status (SerializeInt value (sint32 size)) false (
    ret true))).

(* mkvmuxerutil.cc:440-442 *)
Definition WriteEbmlElementUInt (type value : Z) : W bool := WriteEbmlElementUIntFixed type value 0.

(* mkvmuxerutil.cc:467-482 *)
Definition WriteEbmlElementInt (type value : Z) : W bool :=
  check_status (WriteID type) false (
  let size := GetIntSize value in
  check_status (WriteUInt size) false (
  check_status (SerializeInt value size) false (
  ret true))).

(* mkvmuxerutil.cc:484-498 *)
Definition WriteEbmlElementFloat (type u32 : Z) : W bool :=
  check_status (WriteID type) false (
  check_status (WriteUInt 4) false (
  check_status (SerializeFloat u32) false (
  ret true))).

(* mkvmuxerutil.cc:500-515 *)
Definition WriteEbmlElementString (type : Z) (value : list Z) : W bool :=
  check_status (WriteID type) false (
  check_status (WriteUInt (zlen value)) false (
  check_status (w_write_u32 value) false (
  ret true))).

(* mkvmuxerutil.cc:517-532; value != NULL *)
Definition WriteEbmlElementBuf (type : Z) (value : list Z) : W bool :=
  if zlen value <? 1 then ret false else
  check_status (WriteID type) false (
  check_status (WriteUInt (zlen value)) false (
  check_status (w_write_u32 value) false (
  ret true))).

(* mkvmuxerutil.cc:534-548 *)
Definition WriteEbmlDateElement (type value : Z) : W bool :=
  check_status (WriteID type) false (
  check_status (WriteUInt 8) false (
  check_status (SerializeInt value 8) false (
  ret true))).

(* mkvmuxerutil.cc:593-597: one zero byte at a time *)
Fixpoint write_zeros (n : nat) : W Z :=
  match n with
  | O => ret 0
  | S n' => st <- w_write [0];; if st =? 0 then write_zeros n' else ret st
  end.

(* webmids.h:23 *)
Definition kMkvVoid : Z := 0xEC.

(* mkvmuxerutil.cc:571-605; all arithmetic on uint64.  The loop counter is an
   int32: a void_entry_size whose int32 conversion is not positive writes
   nothing. *)
Definition WriteVoidElement (size : Z) : W Z :=
  let void_entry_size := wrap64 (size - 1 - GetCodedUIntSize (wrap64 (size - 1))) in
  let void_size := wrap64 (EbmlMasterElementSize kMkvVoid void_entry_size + void_entry_size) in
  if negb (void_size =? size) then ret 0
  else
    payload_position <- w_position;;
    if payload_position <? 0 then ret 0 else
    check_status (WriteID kMkvVoid) 0 (
    check_status (WriteUInt void_entry_size) 0 (
    check_status (write_zeros (Z.to_nat (sint32 void_entry_size))) 0 (
    stop_position <- w_position;;
    if (stop_position <? 0) || negb (stop_position - payload_position =? sint64 void_size)
    then ret 0 else ret void_size))).

(* mkvmuxerutil.cc:614-642 (non-Windows, non-Android branch): the seven results
   of rand_r are an explicit argument. *)
Definition MakeUID (rands : list Z) : Z :=
  fold_left (fun uid nn => Z.lor (wrap64 (Z.shiftl uid 8)) (Z.land 255 (Z.shiftr nn 4)))
            (firstn 7 rands) 0.
