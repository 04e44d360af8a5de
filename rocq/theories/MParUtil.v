(* Model of the reading primitives of mkvparser/mkvparser.cc (lines 62-431).
   A null pReader is not modelled. *)
From Verif Require Import Base.

(* mkvparser.h:15-17 *)
Definition E_PARSE_FAILED : Z := -1.
Definition E_FILE_FORMAT_INVALID : Z := -2.
Definition E_BUFFER_NOT_FULL : Z := -3.

(* mkvparser::IMkvReader (mkvparser.h:19-26).  r_data is the source, of which
   the first r_avail bytes are currently available; r_total is the total length
   reported (-1: unknown); r_short is the status of a read beyond the available
   bytes (MkvReader: -1, mkvreader.cc:100-139; a positive status is interpreted
   as underflow by the parser); r_err gives the status of reads that fail for
   any other reason (0: none). *)
Record reader := mkReader {
  r_data : list Z;
  r_avail : Z;
  r_total : Z;
  r_short : Z;
  r_err : Z -> Z -> Z
}.

(* The file reader of mkvreader.cc:87-139 over an intact file. *)
Definition file_reader (data : list Z) : reader :=
  mkReader data (zlen data) (zlen data) (-1) (fun _ _ => 0).

(* the bytes pos .. pos+len-1, as fread gives them: mkvreader.cc:128-139 *)
Definition zslice (l : list Z) (pos len : Z) : list Z :=
  firstn (Z.to_nat len) (skipn (Z.to_nat pos) l).

(* IMkvReader::Read(pos, len, buf): status or the bytes (mkvreader.cc:100-139) *)
Definition r_read (r : reader) (pos len : Z) : Z + list Z :=
  if negb (r_err r pos len =? 0) then inl (r_err r pos len)
  else if (pos <? 0) || (len <? 0) then inl (-1)
  else if len =? 0 then inr []
  else if pos + len <=? r_avail r then inr (zslice (r_data r) pos len)
  else inl (r_short r).

(* Read(pos, 1, &b), e.g. mkvparser.cc:68, 90, 125, 189 *)
Definition r_byte (r : reader) (pos : Z) : Z + Z :=
  match r_read r pos 1 with
  | inl st => inl st
  | inr bs => inr (hd 0 bs)
  end.

(* mkvparser.cc:79-84: m = 0x80; while (!(b & m)) { m >>= 1; ++len; }.
   Runs at most 8 times for a non-zero byte; fuel exhaustion gives 0. *)
Fixpoint marker_scan (fuel : nat) (b m len : Z) : Z * Z :=
  match fuel with
  | O => (0, len)
  | S f => if negb (Z.land b m =? 0) then (m, len)
           else marker_scan f b (Z.shiftr m 1) (len + 1)
  end.

(* mkvparser.cc:89-106: the remaining len-1 bytes of ReadUInt.  Returns
   (result, len). *)
Fixpoint ReadUInt_loop (r : reader) (n : nat) (pos result len : Z) : Z * Z :=
  match n with
  | O => (result, len)
  | S n' =>
      match r_byte r pos with
      | inl status =>
          if status <? 0 then (status, 1) else (E_BUFFER_NOT_FULL, 1)
      | inr b => ReadUInt_loop r n' (pos + 1) (sint64 (Z.lor (Z.shiftl result 8) b)) len
      end
  end.

(* mkvparser.cc:62-109; returns (result, len).  For pos < 0 the code leaves len
   unassigned; the model returns 0 for it. *)
Definition ReadUInt (r : reader) (pos : Z) : Z * Z :=
  if pos <? 0 then (E_FILE_FORMAT_INVALID, 0)
  else
    match r_byte r pos with
    | inl status => if status <? 0 then (status, 1) else (E_BUFFER_NOT_FULL, 1)
    | inr b =>
        if b =? 0 then (E_FILE_FORMAT_INVALID, 1)
        else
          let '(m, len) := marker_scan 8 b 128 1 in
          let result := Z.land b (Z.lnot m) in
          ReadUInt_loop r (Z.to_nat (len - 1)) (pos + 1) result len
    end.

(* mkvparser.cc:139-146: first set bit among the four high bits *)
Fixpoint ReadID_scan (fuel : nat) (b bit_pos : Z) : option Z :=
  match fuel with
  | O => None
  | S f => if negb (Z.land (Z.shiftr 128 bit_pos) b =? 0) then Some bit_pos
           else ReadID_scan f b (bit_pos + 1)
  end.

(* mkvparser.cc:156-166: remaining bytes of the ID *)
Fixpoint ReadID_loop (r : reader) (n : nat) (pos ebml_id : Z) : Z :=
  match n with
  | O => ebml_id
  | S n' =>
      match r_byte r pos with
      | inl status => if status <? 0 then E_FILE_FORMAT_INVALID else E_BUFFER_NOT_FULL
      | inr b => ReadID_loop r n' (pos + 1) (Z.lor (Z.shiftl ebml_id 8) b)
      end
  end.

(* mkvparser.cc:118-170; returns (id, len).  On failure the code leaves len
   unassigned; the model returns 0 for it. *)
Definition ReadID (r : reader) (pos : Z) : Z * Z :=
  if pos <? 0 then (E_FILE_FORMAT_INVALID, 0)
  else
    match r_byte r pos with
    | inl status =>
        if status <? 0 then (E_FILE_FORMAT_INVALID, 0) else (E_BUFFER_NOT_FULL, 0)
    | inr b =>
        if b =? 0 then (E_FILE_FORMAT_INVALID, 0)
        else
          match ReadID_scan 4 b 0 with
          | None => (E_FILE_FORMAT_INVALID, 0)
          | Some bit_pos =>
              let id := ReadID_loop r (Z.to_nat bit_pos) (pos + 1) b in
              if id <? 0 then (id, 0) else (id, bit_pos + 1)
          end
    end.

(* mkvparser.cc:172-205; returns (status, len) *)
Definition GetUIntLength (r : reader) (pos : Z) : Z * Z :=
  if pos <? 0 then (E_FILE_FORMAT_INVALID, 0)
  else if (r_total r >=? 0) && (r_avail r >? r_total r) then (E_FILE_FORMAT_INVALID, 0)
  else if pos >=? r_avail r then (pos, 1)
  else
    match r_byte r pos with
    | inl status => (status, 1)
    | inr b => if b =? 0 then (E_FILE_FORMAT_INVALID, 1)
               else (0, snd (marker_scan 8 b 128 1))
    end.

(* mkvparser.cc:215-227.  Only negative statuses are errors; with a positive
   status the byte is used uninitialised (undefined behaviour). *)
Fixpoint UnserializeUInt_loop (r : reader) (n : nat) (pos result : Z) : outcome Z :=
  match n with
  | O => Val result
  | S n' =>
      match r_byte r pos with
      | inl status => if status <? 0 then Val status else UB
      | inr b => UnserializeUInt_loop r n' (pos + 1) (sint64 (Z.lor (Z.shiftl result 8) b))
      end
  end.

(* mkvparser.cc:209-230 *)
Definition UnserializeUInt (r : reader) (pos size : Z) : outcome Z :=
  if (pos <? 0) || (size <=? 0) || (size >? 8) then Val E_FILE_FORMAT_INVALID
  else UnserializeUInt_loop r (Z.to_nat size) pos 0.

(* mkvparser.cc:306-318, on an unsigned long long accumulator *)
Fixpoint UnserializeInt_loop (r : reader) (n : nat) (pos result : Z) : outcome (Z * Z) :=
  match n with
  | O => Val (0, sint64 result)
  | S n' =>
      match r_byte r pos with
      | inl status => if status <? 0 then Val (status, 0) else UB
      | inr b => UnserializeInt_loop r n' (pos + 1) (wrap64 (Z.lor (Z.shiftl result 8) b))
      end
  end.

(* mkvparser.cc:292-322; returns (status, result_ref).  first_byte is
   initialised, so a positive status there leaves it 0. *)
Definition UnserializeInt (r : reader) (pos size : Z) : outcome (Z * Z) :=
  if (pos <? 0) || (size <? 1) || (size >? 8) then Val (E_FILE_FORMAT_INVALID, 0)
  else
    match r_byte r pos with
    | inl status =>
        if status <? 0 then Val (status, 0)
        else UnserializeInt_loop r (Z.to_nat (size - 1)) (pos + 1) 0
    | inr b => UnserializeInt_loop r (Z.to_nat (size - 1)) (pos + 1) (wrap64 (sint8 b))
    end.

(* IEEE-754: infinity or NaN (mkvparser.cc:286 isinf/isnan): all exponent bits
   set.  A 4-byte float is converted to double, which preserves both. *)
Definition nonfinite32 (u : Z) : bool := Z.land (Z.shiftr u 23) 255 =? 255.
Definition nonfinite64 (u : Z) : bool := Z.land (Z.shiftr u 52) 2047 =? 2047.

(* mkvparser.cc:255-262, 274-281: ff |= buf[i]; ff <<= 8 *)
Fixpoint float_bits (acc : Z) (buf : list Z) : Z :=
  match buf with
  | [] => acc
  | [b] => Z.lor acc b
  | b :: rest => float_bits (Z.shiftl (Z.lor acc b) 8) rest
  end.

(* mkvparser.cc:232-290; returns (status, size in bytes, bit pattern).  A
   positive read status leaves buf uninitialised. *)
Definition UnserializeFloat (r : reader) (pos size : Z) : outcome (Z * Z) :=
  if (pos <? 0) || (negb (size =? 4) && negb (size =? 8)) then Val (E_FILE_FORMAT_INVALID, 0)
  else
    match r_read r pos size with
    | inl status => if status <? 0 then Val (status, 0) else UB
    | inr buf =>
        let bits := float_bits 0 buf in
        if size =? 4 then
          if nonfinite32 bits then Val (E_FILE_FORMAT_INVALID, bits) else Val (0, bits)
        else
          if nonfinite64 bits then Val (E_FILE_FORMAT_INVALID, bits) else Val (0, bits)
    end.

(* mkvparser.cc:26 *)
Definition kStringElementSizeLimit : Z := 20000000.

(* mkvparser.cc:324-352; returns (status, str), str = NULL as None.  Allocation
   failure is not modelled. *)
Definition UnserializeString (r : reader) (pos size : Z) : Z * option (list Z) :=
  if (size >=? LLONG_MAX) || (size <? 0) || (size >? kStringElementSizeLimit)
  then (E_FILE_FORMAT_INVALID, None)
  else
    match r_read r pos size with
    | inl status => (status, None)
    | inr buf => (0, Some buf)
    end.

(* mkvparser.cc:354-393; returns (status, pos, id, size) with the values the
   reference arguments have on return *)
Definition ParseElementHeader (r : reader) (pos stop : Z) : Z * Z * Z * Z :=
  if (stop >=? 0) && (pos >=? stop) then (E_FILE_FORMAT_INVALID, pos, 0, 0)
  else
    let '(id, len) := ReadID r pos in
    if id <? 0 then (E_FILE_FORMAT_INVALID, pos, id, 0)
    else
      let pos := pos + len in
      if (stop >=? 0) && (pos >=? stop) then (E_FILE_FORMAT_INVALID, pos, id, 0)
      else
        let '(size, len) := ReadUInt r pos in
        if (size <? 0) || (len <? 1) || (len >? 8) then (E_FILE_FORMAT_INVALID, pos, id, size)
        else if wrap64 (pos + len) >? LLONG_MAX then (E_FILE_FORMAT_INVALID, pos, id, size)
        else
          let pos := pos + len in
          if (stop >=? 0) && (pos >? stop) then (E_FILE_FORMAT_INVALID, pos, id, size)
          else (0, pos, id, size).
