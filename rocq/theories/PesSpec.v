(* Independent vocabulary for the PES / TS properties. *)
From Verif Require Import Base.

(* an occurrence of the start code prefix 00 00 01 at offset i *)
Definition start_code_at (l : list Z) (i : Z) : Prop :=
  exists a b, l = a ++ [0; 0; 1] ++ b /\ zlen a = i.

Definition no_start_code (l : list Z) : Prop := forall i, ~ start_code_at l i.

(* the payload begins with 01 or 00 01 *)
Definition starts_like_code (l : list Z) : Prop :=
  exists b, l = 1 :: b \/ l = 0 :: 1 :: b.

(* 00 00 01 or 00 00 03 occurs *)
Definition has_escapable (l : list Z) : Prop :=
  exists a b x, l = a ++ [0; 0; x] ++ b /\ (x = 1 \/ x = 3).

(* 00 00 00 01 or 00 00 00 03 occurs *)
Definition has_long_zero_run (l : list Z) : Prop :=
  exists a b x, l = a ++ [0; 0; 0; x] ++ b /\ (x = 1 \/ x = 3).

(* ISO 13818-1 2.4.3.6: the five bytes of a PTS-only field *)
Definition pts_field (p : Z) : list Z :=
  [ 0x21 + 2 * ((p / 2 ^ 30) mod 8);
    (p / 2 ^ 22) mod 256;
    1 + 2 * ((p / 2 ^ 15) mod 128);
    (p / 2 ^ 7) mod 256;
    1 + 2 * (p mod 128) ].

(* ISO 13818-1 2.4.3.2: what a demultiplexer reads from one TS packet:
   payload_unit_start, continuity counter, payload *)
Record ts_view := mkTsView { tv_start : bool; tv_cc : Z; tv_payload : list Z }.

Definition ts_demux (p : list Z) : option ts_view :=
  match p with
  | 0x47 :: b1 :: b2 :: b3 :: rest =>
      if negb (zlen p =? 188) then None
      else
        let pusi := (b1 / 64) mod 2 =? 1 in
        let cc := b3 mod 16 in
        match (b3 / 16) mod 4 with
        | 1 => Some (mkTsView pusi cc rest)
        | 3 => match rest with
               | alen :: after =>
                   if zlen after <? alen then None
                   else Some (mkTsView pusi cc (skipn (Z.to_nat alen) after))
               | [] => None
               end
        | _ => None
        end
  | _ => None
  end.

(* a sequence of TS packets read by a demultiplexer *)
Fixpoint ts_demux_all (ps : list (list Z)) : option (list ts_view) :=
  match ps with
  | [] => Some []
  | p :: ps' => match ts_demux p, ts_demux_all ps' with
                | Some v, Some vs => Some (v :: vs)
                | _, _ => None
                end
  end.

(* continuity counters go up by one modulo 16 *)
Fixpoint continuous (ccs : list Z) : Prop :=
  match ccs with
  | a :: ((b :: _) as t) => b = (a + 1) mod 16 /\ continuous t
  | _ => True
  end.

(* consecutive ranges (offset, length) starting at off *)
Fixpoint consecutive (off : Z) (rs : list (Z * Z)) : Prop :=
  match rs with
  | [] => True
  | (o, n) :: rs' => o = off /\ 0 <= n /\ consecutive (off + n) rs'
  end.

(* VP9 annex B: a frame carries a superframe index when its last byte is
   110ssnnn and the byte where the index would begin repeats it *)
Definition sf_marker (f : list Z) : Prop := (last f 0) / 32 = 6.
Definition sf_count (f : list Z) : Z := (last f 0) mod 8 + 1.
Definition sf_bytes (f : list Z) : Z := ((last f 0) / 8) mod 4 + 1.
Definition sf_index_size (f : list Z) : Z := 2 + sf_bytes f * sf_count f.

(* the 33-bit time stamps the code can carry: below 2^31, and the bits 22..29
   are contained in the bits 7..14 *)
Definition pts_clean (p : Z) : Prop :=
  p < 2 ^ 31 /\ Z.land ((p / 2 ^ 22) mod 256) ((p / 2 ^ 7) mod 256) = (p / 2 ^ 22) mod 256.

(* the frame data that the parser puts back together *)
Definition payload_ok (p : list Z) : Prop :=
  1 <= zlen p /\ (if zlen p <=? 32768 then ~ has_long_zero_run p else ~ has_escapable p).

(* a little-endian number *)
Fixpoint le_val (l : list Z) : Z := match l with [] => 0 | b :: l' => b + 256 * le_val l' end.

(* n consecutive fields of w bytes each *)
Fixpoint le_fields (n : nat) (w : nat) (l : list Z) : list Z :=
  match n with O => [] | S n' => le_val (firstn w l) :: le_fields n' w (skipn w l) end.

