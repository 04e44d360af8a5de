(* How a Segment's cluster table may be used, and what it must look like. *)
From Verif Require Import Base MParTable.

Section Spec.
Context {A : Type}.

(* The table holds the loaded clusters L and behind them the preloaded ones P. *)
Definition holds (t : table A) (L P : list (centry A)) : Prop :=
  t_count t = Z.of_nat (length L) /\ t_preload t = Z.of_nat (length P) /\
  t_size t = Z.of_nat (length (t_arr t)) /\
  exists rest, t_arr t = map Some (L ++ P) ++ rest.

Fixpoint increasing (l : list Z) : Prop :=
  match l with
  | x :: (y :: _) as r => x < y /\ increasing r
  | _ => True
  end.

(* in file order, the indexes being 0, 1, 2, ... *)
Definition loaded_ok (L : list (centry A)) : Prop :=
  increasing (map ce_pos L) /\ forall i c, nth_error L i = Some c -> ce_index c = Z.of_nat i.
(* sorted by position, marked as not loaded *)
Definition preloaded_ok (P : list (centry A)) : Prop :=
  increasing (map ce_pos P) /\ Forall (fun c => ce_index c = -1) P.

(* The tables a program can build.  [last] is where sequential loading has got to:
   it finds clusters at increasing positions, and comes back to the same one after
   refusing it.  Positions are requested in any order, whether or not there is a
   cluster (they come from the Cues of the file). *)
Inductive reached : table A -> Z -> Prop :=
| re_new : reached table_new (-1)
| re_load : forall t last off blocks obj done t', reached t last -> last < off ->
    load_found t off blocks obj = Val (done, t') ->
    reached t' (match done with Some _ => off | None => last end)
| re_request : forall t last pos obj k t', reached t last ->
    FindOrPreloadCluster t pos obj = Val (k, t') -> reached t' last
| re_next : forall t last off obj k t', reached t last -> 0 <= off ->
    preload_next t off obj = Val (k, t') -> reached t' last.

(* The same for a file whose positions are right: [clusters] are the positions of
   the clusters with blocks.  Sequential loading stops at each of them, only they
   are requested, and the cluster looked for behind a preloaded one lies behind it. *)
Inductive reached_in (clusters : Z -> Prop) : table A -> Z -> Prop :=
| ri_new : reached_in clusters table_new (-1)
| ri_load : forall t last off blocks obj done t', reached_in clusters t last -> last < off ->
    (forall x, last < x < off -> ~ clusters x) -> (blocks = true <-> clusters off) ->
    load_found t off blocks obj = Val (done, t') ->
    reached_in clusters t' (match done with Some _ => off | None => last end)
| ri_request : forall t last pos obj k t', reached_in clusters t last -> clusters pos ->
    FindOrPreloadCluster t pos obj = Val (k, t') -> reached_in clusters t' last
| ri_next : forall t last off obj k t' i c, reached_in clusters t last -> clusters off ->
    t_count t <= i < t_count t + t_preload t -> cell (t_arr t) i = Val c -> ce_pos c < off ->
    preload_next t off obj = Val (k, t') -> reached_in clusters t' last.
End Spec.

(* k is where time x is found among the times ts: the last one not after x; the
   first one if x is not after that *)
Definition found_by_time (ts : list Z) (x k : Z) : Prop :=
  exists t0 tk, nth_error ts 0 = Some t0 /\ 0 <= k /\ nth_error ts (Z.to_nat k) = Some tk /\
    (if x <=? t0 then k = 0
     else tk <= x /\ forall i t, k < i -> nth_error ts (Z.to_nat i) = Some t -> x < t).
(* not decreasing *)
Fixpoint sorted (l : list Z) : Prop :=
  match l with
  | x :: (y :: _) as r => x <= y /\ sorted r
  | _ => True
  end.
