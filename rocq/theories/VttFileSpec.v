(* The blocks of a WebM file, for extracting its WebVTT text. *)
From Verif Require Import Base VttMuxSpec.

(* A block: its track, whether it is in a block group, and what it holds. *)
Record block_entry := mkBE { be_track : Z; be_group : bool; be_block : meta_block }.
Definition blocks_of (n : Z) (bs : list block_entry) : list meta_block := map be_block (filter (fun b => be_track b =? n) bs).
