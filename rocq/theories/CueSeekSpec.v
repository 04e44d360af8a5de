(* What going to a cue point must find. *)
From Verif Require Import Base MParUtil MParBlock MParTrack MParCues MParCluster MParSegment MParWalk MParCueSeek.

(* time of an entry of a cluster with timecode tc, in timecode units; the entry is of
   that track and that time *)
Definition entry_tc (tc : Z) (e : bentry) : Z := tc + bl_timecode (en_block e).
Definition is_cued (track time tc : Z) (e : bentry) : bool := (bl_track (en_block e) =? track) && (entry_tc tc e =? time).
(* decoding can start there: in audio everywhere, in video at a key frame *)
Definition can_start (tracks : list p_track) (track : Z) (e : bentry) : bool :=
  match find (fun t => ti_number (pt_info t) =? track) tracks with
  | Some t => if ti_type (pt_info t) =? 2 then true else (ti_type (pt_info t) =? 1) && Block_IsKey (en_block e)
  | None => false
  end.
(* the first element that is ok, and its index *)
Fixpoint first_from {A : Type} (ok : A -> bool) (k : Z) (l : list A) : option (Z * A) :=
  match l with [] => None | a :: l => if ok a then Some (k, a) else first_from ok (k + 1) l end.

(* without a (right) number: the first entry of the track that is not before the time,
   if it is of that time and decoding can start there *)
Definition cued_by_time (tracks : list p_track) (track time tc : Z) (es : list bentry) : option (Z * bentry) :=
  match first_from (fun e => (bl_track (en_block e) =? track) && (time <=? entry_tc tc e)) 0 es with
  | Some (k, e) => if (entry_tc tc e =? time) && can_start tracks track e then Some (k, e) else None
  | None => None
  end.
(* The entry with the number in the cue point, counted from 1, if it is of the track and
   the time; nothing if there are not so many entries. *)
Definition cued (tracks : list p_track) (time : Z) (tp : track_pos) (tc : Z) (es : list bentry) : option (Z * bentry) :=
  if tp_block tp <=? 0 then cued_by_time tracks (tp_track tp) time tc es
  else
    match nth_error es (Z.to_nat (tp_block tp - 1)) with
    | None => None
    | Some e => if is_cued (tp_track tp) time tc e then Some (tp_block tp - 1, e) else cued_by_time tracks (tp_track tp) time tc es
    end.

(* what may be returned for any data: nothing, or an entry of the cluster at the
   position in the cue point, of that track and that time *)
Definition answers (r : reader) (s : pseg) (time : Z) (tp : track_pos) (x : cue_entry) : Prop :=
  match x with
  | CE_entry ci ei e => exists c, cluster_at s ci = Some c /\ cl_start c = pg_start s + tp_pos tp /\ 0 <= ei /\ entry_at c ei = Some e /\ is_cued (tp_track tp) time (cl_timecode c) e = true
  | CE_new c ei e => cl_start c = pg_start s + tp_pos tp /\ 0 <= ei /\ entry_at c ei = Some e /\ is_cued (tp_track tp) time (cl_timecode c) e = true
  | CE_null _ => True
  end.

(* what GetBlock returns for the cluster with index k *)
Definition cue_answer (k : Z) (o : option (Z * bentry)) : cue_entry := match o with Some (ei, e) => CE_entry k ei e | None => CE_null None end.
