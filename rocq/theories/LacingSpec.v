(* Independent specification of the Matroska (Simple)Block content and of its
   lacing (RFC 9559, sections 10.2 and 10.3). *)
From Verif Require Import Base EbmlSpec.

(* Xiph: as many 255 as fit, then the rest *)
Definition xiph_code (n : Z) : list Z := repeat 255 (Z.to_nat (n / 255)) ++ [n mod 255].

(* EBML: signed difference to the previous size, biased by 2^(7w-1)-1.  The two
   ends of the range are included (an all-ones code is accepted as a value). *)
Definition delta_code (w d : Z) : list Z := vint w (d + (2 ^ (7 * w - 1) - 1)).
Definition delta_fits (w d : Z) : Prop :=
  1 <= w <= 8 /\ 0 <= d + (2 ^ (7 * w - 1) - 1) < 2 ^ (7 * w).

(* sizes after the first one, coded as differences *)
Inductive delta_codes : Z -> list Z -> list Z -> Prop :=
| dc_nil : forall prev, delta_codes prev [] []
| dc_cons : forall prev n ns w bs, delta_fits w (n - prev) -> delta_codes n ns bs ->
    delta_codes prev (n :: ns) (delta_code w (n - prev) ++ bs).

Inductive lacing := LNone | LXiph | LFixed | LEbml.

Definition lacing_bits (l : lacing) : Z :=
  match l with LNone => 0 | LXiph => 1 | LFixed => 2 | LEbml => 3 end.

(* head is the lacing header for frames of the given sizes *)
Inductive lace_head : lacing -> list Z -> list Z -> Prop :=
| lh_none : forall n, lace_head LNone [n] []
| lh_xiph : forall ns n, zlen ns <= 255 ->
    lace_head LXiph (ns ++ [n]) (zlen ns :: concat (map xiph_code ns))
| lh_fixed : forall n k, (1 <= k <= 256)%nat ->
    lace_head LFixed (repeat n k) [Z.of_nat k - 1]
| lh_ebml1 : forall n, lace_head LEbml [n] [0]
| lh_ebml : forall n ns m w bs, 1 <= w <= 8 -> 0 <= n < 2 ^ (7 * w) -> zlen ns <= 254 ->
    delta_codes n ns bs ->
    lace_head LEbml (n :: ns ++ [m]) ((zlen ns + 1) :: vint w n ++ bs).

(* bs is the content of a (Simple)Block with this track number, relative time,
   flags byte and frames.  The track number may use any width. *)
Definition block_content (track time flags : Z) (lac : lacing) (frames : list (list Z)) (bs : list Z) : Prop :=
  exists w head,
    1 <= w <= 8 /\ 1 <= track < 2 ^ (7 * w) /\
    - 32768 <= time < 32768 /\
    is_byte flags /\ (flags / 2) mod 4 = lacing_bits lac /\
    Forall (fun f => f <> []) frames /\
    lace_head lac (map zlen frames) head /\
    bs = vint w track ++ be_bytes 2 time ++ [flags] ++ head ++ concat frames.

(* frames laid out one after the other from pos to stop, none empty *)
Fixpoint tiles (pos stop : Z) (fs : list (Z * Z)) : Prop :=
  match fs with
  | [] => pos = stop
  | (p, n) :: fs' => p = pos /\ 1 <= n /\ tiles (pos + n) stop fs'
  end.

(* a block marked EBML-laced whose frame count byte says one frame *)
Definition ebml_single (bs : list Z) : Prop :=
  exists w track time flags rest,
    1 <= w <= 8 /\ 0 <= track < 2 ^ (7 * w) /\ (flags / 2) mod 4 = 3 /\
    bs = vint w track ++ be_bytes 2 time ++ [flags; 0] ++ rest.
