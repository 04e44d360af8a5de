(* Numbers in memory. *)
From Verif Require Import Base.

(* An architecture, for numbers of n bytes: which byte of the number, counted from the
   least significant, stands at which place in memory. *)
Definition little (n : nat) : list nat := seq 0 n.
Definition big (n : nat) : list nat := rev (seq 0 n).
Definition byte_of (v : Z) (i : nat) : Z := v / 2 ^ (8 * Z.of_nat i) mod 256.
Definition memory (order : list nat) (v : Z) : list Z := map (byte_of v) order.
(* the bytes of v, the most significant first *)
Definition big_endian (n : nat) (v : Z) : list Z := map (byte_of v) (rev (seq 0 n)).
(* the number whose bytes, the most significant first, are bs *)
Definition value_of (bs : list Z) : Z := fold_left (fun a b => 256 * a + b) bs 0.

(* A frame of a partially encrypted stream, after the signal byte: eight bytes of
   initialization vector, the number of partitions, and four bytes, the most significant
   first, for the offset of each. *)
Definition partition_count (frame : list Z) : Z := nth 8 frame 0.
Definition offset_bytes (frame : list Z) (i : nat) : list Z := firstn 4 (skipn (9 + 4 * i) frame).
(* how many offsets the frame has room for *)
Definition offsets_inside (frame : list Z) : Z := (Z.of_nat (length frame) - 9) / 4.
