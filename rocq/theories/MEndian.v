(* Model of common/webm_endian.cc.  The architecture is a parameter. *)
From Verif Require Import Base EndianSpec.

(* uint32_t arithmetic: webm_endian.cc:34-35 *)
Definition u32 (v : Z) : Z := v mod 2 ^ 32.
(* swap32_check_little_endian: webm_endian.cc:18-36 *)
Definition swap32_check_little_endian (order : list nat) (value : Z) : Z :=
  let c := memory order 0x01234567 in
  if nth 3 c 0 =? 0x67 then value
  else if negb (nth 0 c 0 =? 0x67) then 0
  else Z.lor (Z.lor (Z.lor (u32 (Z.shiftl value 24)) (Z.land (u32 (Z.shiftl value 8)) 0x0000FF00))
                    (Z.land (Z.shiftr value 8) 0x00FF0000)) (Z.shiftr value 24).
(* swap64_check_little_endian: webm_endian.cc:41-63 *)
Definition swap64_check_little_endian (order : list nat) (value : Z) : Z :=
  let c := memory order 0x0123456789ABCDEF in
  if nth 7 c 0 =? 0xEF then value
  else if negb (nth 0 c 0 =? 0xEF) then 0
  else Z.lor (Z.lor (Z.lor (Z.lor (Z.lor (Z.lor (Z.lor
         (wrap64 (Z.shiftl value 56))
         (Z.land (wrap64 (Z.shiftl value 40)) 0x00FF000000000000))
         (Z.land (wrap64 (Z.shiftl value 24)) 0x0000FF0000000000))
         (Z.land (wrap64 (Z.shiftl value 8)) 0x000000FF00000000))
         (Z.land (Z.shiftr value 8) 0x00000000FF000000))
         (Z.land (Z.shiftr value 24) 0x0000000000FF0000))
         (Z.land (Z.shiftr value 40) 0x000000000000FF00))
         (Z.shiftr value 56).
(* webm_endian.cc:69-71 *)
Definition host_to_bigendian32 := swap32_check_little_endian.
(* webm_endian.cc:73-75 *)
Definition bigendian_to_host32 := swap32_check_little_endian.
(* webm_endian.cc:77-79 *)
Definition host_to_bigendian64 := swap64_check_little_endian.
(* webm_endian.cc:81-83 *)
Definition bigendian_to_host64 := swap64_check_little_endian.

(* a number of four bytes from memory (memcpy into a uint32_t): webm_info.cc:829-830 *)
Definition load (order : list nat) (bs : list Z) : Z :=
  fold_right (fun p a => snd p * 2 ^ (8 * Z.of_nat (fst p)) + a) 0 (combine order bs).
(* The loop over the partitions: webm_info.cc:824-834.  data is a position in the frame;
   the outcome None is a read outside the frame; otherwise the offsets printed and the
   value returned.  The text around the offsets is left out. *)
Fixpoint print_partitions (order : list nat) (frame : list Z) (data : nat) (size read_end : Z) (n : nat) : option (list Z * Z) :=
  match n with
  | O => Some ([], read_end)
  | S n' =>
      let read_end := read_end + 4 in
      if size <? read_end then Some ([], 0)
      else let bs := firstn 4 (skipn data frame) in
           if (length bs <? 4)%nat then None
           else match print_partitions order frame (data + 4) size read_end n' with
                | Some (offs, r) => Some (bigendian_to_host32 order (load order bs) :: offs, r)
                | None => None
                end
  end.
(* PrintSubSampleEncryption: webm_info.cc:809-837 *)
Definition PrintSubSampleEncryption (order : list nat) (frame : list Z) (size : Z) : option (list Z * Z) :=
  let read_end := 8 in
  if size <? read_end then Some ([], 0)
  else let read_end := read_end + 1 in
       if size <? read_end then Some ([], 0)
       else match nth_error frame 8 with
            | None => None
            | Some num_partitions => print_partitions order frame 9 size read_end (Z.to_nat num_partitions)
            end.
