(* Copying a projection from the parser's objects to the muxer's:
   CopyVideoProjection of mkvmuxer_sample.cc and the setters of mkvmuxer it uses.
   Allocations do not fail; absent private data (a null pointer) is the empty list. *)
From Verif Require Import Base MMuxMeta MParTrack.

(* Projection(): mkvmuxer.h:615-621 *)
Definition new_projection : projection := mkProj 0 0 0 0 [].
(* set_type, set_pose_yaw, set_pose_pitch, set_pose_roll: mkvmuxer.h:631-637 *)
Definition set_type (t : Z) (p : projection) : projection := mkProj t (pj_yaw p) (pj_pitch p) (pj_roll p) (pj_private p).
Definition set_pose_yaw (v : Z) (p : projection) : projection := mkProj (pj_type p) v (pj_pitch p) (pj_roll p) (pj_private p).
Definition set_pose_pitch (v : Z) (p : projection) : projection := mkProj (pj_type p) (pj_yaw p) v (pj_roll p) (pj_private p).
Definition set_pose_roll (v : Z) (p : projection) : projection := mkProj (pj_type p) (pj_yaw p) (pj_pitch p) v (pj_private p).
(* Projection::SetProjectionPrivate: mkvmuxer.cc:1368-1390.  None: false.  size_t
   has 64 bits, so that the length always fits. *)
Definition SetProjectionPrivate (data : list Z) (p : projection) : option projection :=
  if zlen data =? 0 then None else Some (mkProj (pj_type p) (pj_yaw p) (pj_pitch p) (pj_roll p) data).
(* VideoTrack::SetProjection: mkvmuxer.cc:1594-1613; the projection the track then
   has.  None: false. *)
Definition SetProjection (p : projection) : option projection :=
  match (match pj_private p with
         | [] => Some new_projection
         | data => SetProjectionPrivate data new_projection
         end) with
  | None => None
  | Some q => Some (set_pose_roll (pj_roll p) (set_pose_pitch (pj_pitch p) (set_pose_yaw (pj_yaw p) (set_type (pj_type p) q))))
  end.

(* kTypeNotPresent: mkvparser.h:478; kValueNotPresent: mkvparser.cc:29 *)
Definition kTypeNotPresent : Z := -1.
Definition pose_present (v : Z) : bool := negb (f32_eq v 0x7F7FFFFF).
(* CopyVideoProjection: mkvmuxer_sample.cc:162-187.  None: false. *)
Definition CopyVideoProjection (p : p_projection) (q : projection) : option projection :=
  let q := if negb (pp_type p =? kTypeNotPresent) then set_type (pp_type p) q else q in
  match (match pp_private p with
         | None => Some q
         | Some data => if zlen data >? 0 then SetProjectionPrivate data q else Some q
         end) with
  | None => None
  | Some q =>
      let q := if pose_present (pp_yaw p) then set_pose_yaw (pp_yaw p) q else q in
      let q := if pose_present (pp_pitch p) then set_pose_pitch (pp_pitch p) q else q in
      Some (if pose_present (pp_roll p) then set_pose_roll (pp_roll p) q else q)
  end.
(* the two steps by which a program copies the projection of a track, without
   options that change it: mkvmuxer_sample.cc:471-523 *)
Definition copied_projection (p : p_projection) : option projection :=
  match CopyVideoProjection p new_projection with
  | None => None
  | Some q => SetProjection q
  end.
