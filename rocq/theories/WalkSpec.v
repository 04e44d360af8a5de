(* What going through the blocks of a track must show. *)
From Verif Require Import Base MParUtil MParBlock MParMeta MParTrack MParCluster ClusterSpec MParSegment MParWalk.

(* Going through the cluster with its own GetFirst and GetNext shows these entries. *)
Definition lists (r : reader) (c : cluster) (es : list bentry) : Prop :=
  match es with
  | [] => exists c', Cluster_GetFirst r c = Some (Val (0, None, c'))
  | e :: es => exists c1 c2, Cluster_GetFirst r c = Some (Val (0, Some e, c1)) /\ next_entries r c1 0 es c2
  end.

(* the entries of the clusters in the order of the file, each with the index of its
   cluster and its index there *)
Fixpoint number (ci ei : Z) (es : list bentry) : list (Z * Z * bentry) :=
  match es with [] => [] | e :: es => (ci, ei, e) :: number ci (ei + 1) es end.
Fixpoint places (ci : Z) (css : list (list bentry)) : list (Z * Z * bentry) :=
  match css with [] => [] | es :: css => number ci 0 es ++ places (ci + 1) css end.

(* what is left of a list from the first element on that is ok *)
Fixpoint since {A : Type} (ok : A -> bool) (l : list A) : list A :=
  match l with [] => [] | a :: l' => if ok a then l else since ok l' end.

(* the block has the number of the track; a track can be entered at the block: any
   block, or for video a key frame *)
Definition of_this_track (t : p_track) (p : Z * Z * bentry) : bool := bl_track (en_block (snd p)) =? ti_number (pt_info t).
Definition entry_point (t : p_track) (p : Z * Z * bentry) : bool :=
  match pt_kind t with PVideo _ => Block_IsKey (en_block (snd p)) | _ => true end.
(* what a caller of GetFirst and then GetNext must see of the track *)
Definition blocks_of_track (t : p_track) (css : list (list bentry)) : list (Z * Z * bentry) :=
  since (entry_point t) (filter (of_this_track t) (places 0 css)).

(* the entries that GetNext returns one after the other behind the given one, up to
   the end-of-stream entry; then those that GetFirst and GetNext return *)
Inductive walk_from (r : reader) (t : p_track) : pseg -> Z -> Z -> list (Z * Z * bentry) -> pseg -> Prop :=
| wf_end : forall s ci ei s', Track_GetNext r s t ci ei = Val (1, WE_eos, s') -> walk_from r t s ci ei [] s'
| wf_more : forall s ci ei ci' ei' e s1 l s', Track_GetNext r s t ci ei = Val (0, WE_entry ci' ei' e, s1) ->
    walk_from r t s1 ci' ei' l s' -> walk_from r t s ci ei ((ci', ei', e) :: l) s'.
Definition walk (r : reader) (t : p_track) (s : pseg) (l : list (Z * Z * bentry)) (s' : pseg) : Prop :=
  match l with
  | [] => Track_GetFirst r s t = Val (1, WE_eos, s')
  | (ci, ei, e) :: l => exists s1, Track_GetFirst r s t = Val (0, WE_entry ci ei e, s1) /\ walk_from r t s1 ci ei l s'
  end.

(* Clusters without a block of the track do not follow one another too often: at most
   98 of them, not counting empty ones, between two clusters with one, and at most 99
   clusters in front of the one with the first block where the track can be entered. *)
Definition has {A : Type} (ok : A -> bool) (es : list A) : bool := existsb ok es.
Definition not_empty {A : Type} (es : list A) : bool := match es with [] => false | _ => true end.
Definition no_gap_over {A : Type} (n : nat) (ok : A -> bool) (css : list (list A)) : Prop :=
  forall mid es b, css = mid ++ es :: b -> Forall (fun x => has ok x = false) mid -> has ok es = true ->
    (length (filter not_empty mid) <= n)%nat.
Definition spaced {A : Type} (on enters : A -> bool) (css : list (list A)) : Prop :=
  no_gap_over 99 (fun a => on a && enters a) css /\
  forall a es b, css = a ++ es :: b -> has on es = true -> no_gap_over 98 on b.
Definition close_together (t : p_track) (css : list (list bentry)) : Prop :=
  spaced (fun e => of_this_track t (0, 0, e)) (fun e => entry_point t (0, 0, e)) css.

(* ---------- any data ---------- *)

(* What the two functions may return: an entry of the track together with success, the
   end-of-stream entry with 1, or an error. *)
Definition returned (t : p_track) (s : pseg) (st : Z) (w : walk_entry) : Prop :=
  match w with
  | WE_entry ci ei e => st = 0 /\ of_this_track t (ci, ei, e) = true /\ 0 <= ei /\ exists c, cluster_at s ci = Some c /\ entry_at c ei = Some e
  | WE_eos => st = 1
  | WE_null => st < 0
  end.
