(* What mkvparser must report for Cues written by mkvmuxer, and which states of a
   Cues object a program can see. *)
From Verif Require Import Base MMuxMeta MParUtil MParCues.

(* cue point number i of the file: time, track, position of the cluster; the block
   number as written, 1 if it was left out *)
Definition reads_cue (i : Z) (c : cue_point) (p : p_cue) : Prop :=
  cp_index p = i /\ cp_timecode p = cue_time c /\
  cp_tps p = [mkTP (cue_track c) (cue_cluster_pos c)
                   (if cue_output_block_number c && (1 <? cue_block_number c) then cue_block_number c else 1)].
(* all numbers below 2^63 *)
Definition readable_cue (c : cue_point) : Prop :=
  cue_time c < 2 ^ 63 /\ cue_track c < 2 ^ 63 /\ cue_cluster_pos c < 2 ^ 63 /\ cue_block_number c < 2 ^ 63.

(* n calls of LoadCuePoint, all returning true *)
Inductive loads (r : reader) : nat -> p_cues -> p_cues -> Prop :=
| loads_0 : forall c, loads r 0 c c
| loads_S : forall n c c' c'', LoadCuePoint r c = Val (true, c') -> loads r n c' c'' -> loads r (S n) c c''.

(* the states reached from a new Cues object by calls of LoadCuePoint *)
Inductive cues_state (r : reader) (start size : Z) : p_cues -> Prop :=
| cs_new : cues_state r start size (cues_new start size)
| cs_load : forall c b c', cues_state r start size c -> LoadCuePoint r c = Val (b, c') -> cues_state r start size c'.
