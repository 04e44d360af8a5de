(* What seeking in a track must find. *)
From Coq Require Import Sorted.
From Verif Require Import Base MParUtil MParBlock MParMeta MParTrack MParCluster MParSegment MParWalk WalkSpec.

(* Clusters are given by their timecodes and the entries they show.  The time of a
   block in nanoseconds; all blocks with their places and times. *)
Definition block_time (scale tc : Z) (e : bentry) : Z := (tc + bl_timecode (en_block e)) * scale.
Definition at_times (scale tc : Z) (l : list (Z * Z * bentry)) : list (Z * Z * bentry * Z) :=
  map (fun p => (p, block_time scale tc (snd p))) l.
Fixpoint timed (scale ci : Z) (cs : list (Z * list bentry)) : list (Z * Z * bentry * Z) :=
  match cs with [] => [] | (tc, es) :: cs => at_times scale tc (number ci 0 es) ++ timed scale (ci + 1) cs end.

(* the blocks of the track at which it can be entered; the first block of the track of
   each cluster, with the time of the cluster *)
Definition entrances (t : p_track) (scale : Z) (cs : list (Z * list bentry)) : list (Z * Z * bentry * Z) :=
  filter (fun x => of_this_track t (fst x) && entry_point t (fst x)) (timed scale 0 cs).
Fixpoint heads (t : p_track) (scale ci : Z) (cs : list (Z * list bentry)) : list (Z * Z * bentry * Z) :=
  match cs with
  | [] => []
  | (tc, es) :: cs =>
      match filter (of_this_track t) (number ci 0 es) with [] => [] | p :: _ => [(p, tc * scale)] end ++ heads t scale (ci + 1) cs
  end.

(* the last of them that is not later than the time *)
Definition last_until (time : Z) (l : list (Z * Z * bentry * Z)) : option (Z * Z * bentry) :=
  option_map fst (hd_error (rev (filter (fun x => snd x <=? time) l))).

(* Seeking to a time that is not after the first block where the track can be entered
   finds that block.  Otherwise: in a video track the last key frame that is not later;
   in other tracks the first block in the last cluster that has a block of the track and
   is not later. *)
Definition sought (t : p_track) (scale time : Z) (cs : list (Z * list bentry)) : option (Z * Z * bentry) :=
  match entrances t scale cs with
  | [] => None
  | (p, first) :: _ =>
      if time <=? first then Some p
      else last_until time (match pt_kind t with PVideo _ => entrances t scale cs | _ => heads t scale 0 cs end)
  end.

(* A well-ordered file: the clusters by time, no block before the start of its cluster,
   in a video track each block not before the previous one of the track, and all times
   below 2^63 ns. *)
Record in_order (t : p_track) (scale : Z) (cs : list (Z * list bentry)) : Prop := mkInOrder {
  io_clusters : StronglySorted (fun a b => fst a <= fst b) cs;
  io_times : Forall (fun c => 0 <= fst c /\ fst c * scale <= LLONG_MAX /\
               Forall (fun e => 0 <= bl_timecode (en_block e) /\ block_time scale (fst c) e <= LLONG_MAX) (snd c)) cs;
  io_blocks : match pt_kind t with
              | PVideo _ => StronglySorted (fun a b => snd a <= snd b) (filter (fun x => of_this_track t (fst x)) (timed scale 0 cs))
              | _ => True
              end
}.

(* the clusters show these timecodes and entries *)
Definition shows_times (r : reader) (c : cluster) (x : Z * list bentry) : Prop :=
  (exists c', Cluster_GetTimeCode r c = Some (Val (fst x, c'))) /\ lists r c (snd x).

(* what Seek returns: the block, or the end-of-stream entry *)
Definition seek_answer (x : option (Z * Z * bentry)) : walk_entry :=
  match x with Some (ci, ei, e) => WE_entry ci ei e | None => WE_eos end.
