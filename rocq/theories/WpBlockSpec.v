(* The (Simple)Block contents that the callback parser takes: those of LacingSpec.v,
   and also track number 0 and empty frames before the last one. *)
From Verif Require Import Base EbmlSpec LacingSpec.

Definition accepted_content (track time flags : Z) (lac : lacing) (frames : list (list Z)) (bs : list Z) : Prop :=
  exists w head,
    1 <= w <= 8 /\ 0 <= track < 2 ^ (7 * w) /\
    - 32768 <= time < 32768 /\
    is_byte flags /\ (flags / 2) mod 4 = lacing_bits lac /\
    last frames [] <> [] /\
    lace_head lac (map zlen frames) head /\
    bs = vint w track ++ be_bytes 2 time ++ [flags] ++ head ++ concat frames.
