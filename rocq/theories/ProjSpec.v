(* What a reader is to be shown of a projection after it has been copied into
   another file. *)
From Verif Require Import Base MMuxMeta MParTrack.

(* FLT_MAX, as a number, stands for a pose that the file does not give; the default is 0 *)
Definition pose_after (v : Z) : Z := if f32_eq v 0x7F7FFFFF then 0 else v.
(* -1 stands for a type that the file does not give; the default is 0, rectangular *)
Definition type_after (t : Z) : Z := if t =? -1 then 0 else t.
(* Every value that the first file gives is shown again, the private data byte for
   byte, and the others show their defaults. *)
Definition projection_after (p shown : p_projection) : Prop :=
  pp_type shown = type_after (pp_type p) /\ pp_private shown = pp_private p /\
  pp_yaw shown = pose_after (pp_yaw p) /\ pp_pitch shown = pose_after (pp_pitch p) /\ pp_roll shown = pose_after (pp_roll p).
