(* The cluster table of mkvparser's Segment: C25 (clusters) and C26. *)
From Coq Require Import Lia.
From Verif Require Import Base MParTable TableSpec PParTable.

(* C26: however clusters were loaded and requested, the loaded part is in file order
   with the indexes 0, 1, 2, ..., and the preloaded part is sorted by position. *)
Theorem C26_table_ordered : forall (A : Type) (t : table A) last, reached t last ->
  exists L P, holds t L P /\ loaded_ok L /\ preloaded_ok P /\ forall c, In c L -> ce_pos c <= last.
Proof. intros A. exact reached_ordered. Qed.
Print Assumptions C26_table_ordered.

(* ... and the next operation, whichever it is, does not leave the array *)
Theorem C26_operations_defined : forall (A : Type) (t : table A) last, reached t last ->
  (forall off blocks obj, last < off -> exists x, load_found t off blocks obj = Val x) /\
  (forall pos obj, exists x, FindOrPreloadCluster t pos obj = Val x) /\
  (forall off obj, exists x, preload_next t off obj = Val x).
Proof. intros A. exact reached_defined. Qed.
Print Assumptions C26_operations_defined.

(* If the positions asked for are right, then over the whole table positions
   increase: no cluster appears twice; nothing but clusters is in the table; all
   clusters up to the loading position are loaded; none behind it is. *)
Theorem C26_no_cluster_twice : forall (A : Type) (clusters : Z -> Prop), (forall x, clusters x -> 0 <= x) ->
  forall (t : table A) last, reached_in clusters t last ->
  exists L P, holds t L P /\ loaded_ok L /\ preloaded_ok P /\ increasing (map ce_pos (L ++ P)) /\
    (forall c, In c (L ++ P) -> clusters (ce_pos c)) /\
    (forall x, clusters x -> x <= last -> In x (map ce_pos L)) /\
    (forall c, In c L -> ce_pos c <= last) /\ (forall c, In c P -> last < ce_pos c).
Proof.
  intros A cl Hp t last H. destruct (reached_in_ordered cl Hp t last H) as (L & P & Hh & H1 & H2 & H3 & H4 & H5 & H6 & H7).
  exists L, P. split; [exact Hh|]. split; [exact H1|]. split; [exact H2|]. split; [exact H3|]. split; [exact H4|]. split; [exact H7|]. split; [exact H5|exact H6].
Qed.
Print Assumptions C26_no_cluster_twice.

(* ... and asking for a cluster gives that cluster *)
Theorem C26_request_found : forall (A : Type) (clusters : Z -> Prop), (forall x, clusters x -> 0 <= x) ->
  forall (t : table A) last pos obj, reached_in clusters t last -> clusters pos ->
  exists i t' c, FindOrPreloadCluster t pos obj = Val (Some i, t') /\ cell (t_arr t') i = Val c /\ ce_pos c = pos.
Proof. intros A. exact request_found. Qed.
Print Assumptions C26_request_found.

Lemma entries_of : forall (l : list (centry unit)), map snd (flat_map (fun o => match o with Some c => [(ce_index c, ce_pos c)] | None => [] end) (map Some l)) = map ce_pos l.
Proof. induction l as [|c l IH]; [reflexivity|]. cbn [map flat_map app snd]. rewrite IH. reflexivity. Qed.

(* run a history *)
Definition load_at (off : Z) (t : table unit) : table unit :=
  match load_found t off true tt with Val (_, t') => t' | UB => t end.
Definition ask (pos : Z) (t : table unit) : table unit :=
  match FindOrPreloadCluster t pos tt with Val (_, t') => t' | UB => t end.
(* what is in the table *)
Definition entries (t : table unit) : list (Z * Z) :=
  flat_map (fun o => match o with Some c => [(ce_index c, ce_pos c)] | None => [] end)
    (firstn (Z.to_nat (t_count t + t_preload t)) (t_arr t)).

Lemma load_reached : forall t last off t', reached t last -> last < off -> load_found t off true tt = Val (Some true, t') -> reached t' off.
Proof. intros t last off t' H Hl E. exact (re_load t last off true tt (Some true) t' H Hl E). Qed.
Lemma load_reached_in : forall cl t last off t', reached_in cl t last -> last < off -> (forall x, last < x < off -> ~ cl x) -> cl off ->
  load_found t off true tt = Val (Some true, t') -> reached_in cl t' off.
Proof. intros cl t last off t' H Hl Hg Hc E. exact (ri_load cl t last off true tt (Some true) t' H Hl Hg (conj (fun _ => Hc) (fun _ => eq_refl)) E). Qed.

(* Positions that are not those of clusters (from wrong Cues) put a cluster into the
   table twice: 30 is loaded, is not found by the binary search because of the wrong
   positions before it in the loading order, and is preloaded again. *)
Definition wrong : table unit :=
  ask 30 (load_at 30 (ask 28 (ask 26 (ask 24 (ask 22 (ask 20 (load_at 10 table_new))))))).
Lemma wrong_reached : reached wrong 30.
Proof.
  unfold wrong. set (t1 := load_at 10 table_new).
  assert (H1 : reached t1 10) by (apply (load_reached table_new (-1)); [constructor|lia|vm_compute; reflexivity]).
  set (t2 := ask 28 (ask 26 (ask 24 (ask 22 (ask 20 t1))))).
  assert (Hask : forall t last p, reached t last -> reached (ask p t) last).
  { intros t last p H. unfold ask. destruct (FindOrPreloadCluster t p tt) as [[k t']|] eqn:E; [|exact H]. exact (re_request t last p tt k t' H E). }
  assert (H2 : reached t2 10) by (unfold t2; repeat apply Hask; exact H1).
  apply Hask. apply (load_reached t2 10); [exact H2|lia|]. vm_compute. reflexivity.
Qed.
Theorem C26_any_positions_refuted : exists (t : table unit) last L P, reached t last /\ holds t L P /\ ~ NoDup (map ce_pos (L ++ P)).
Proof.
  destruct (reached_ordered wrong 30 wrong_reached) as (L & P & Hh & _). exists wrong, 30, L, P. split; [exact wrong_reached|]. split; [exact Hh|].
  assert (E : map ce_pos (L ++ P) = map snd (entries wrong)).
  { unfold entries. destruct Hh as (H1 & H2 & H3 & rest & Ha). rewrite Ha, H1, H2.
    replace (Z.to_nat (Z.of_nat (length L) + Z.of_nat (length P))) with (length (map Some (L ++ P)) + 0)%nat by (rewrite map_length, app_length; lia).
    rewrite firstn_app_2. cbn [firstn]. rewrite app_nil_r, entries_of. reflexivity. }
  rewrite E. replace (map snd (entries wrong)) with [10; 30; 20; 22; 24; 26; 28; 30] by (vm_compute; reflexivity).
  intros H. apply NoDup_cons_iff in H. destruct H as [_ H]. apply NoDup_cons_iff in H. destruct H as [H _]. apply H. cbn [In]. auto 10.
Qed.
Print Assumptions C26_any_positions_refuted.

(* two clusters requested out of order before they are loaded *)
Example right_history : exists t, reached_in (fun x => In x [10; 30; 50; 70]) t 30 /\ entries t = [(0, 10); (1, 30); (-1, 50); (-1, 70)].
Proof.
  set (cl := fun x => In x [10; 30; 50; 70]). set (t1 := load_at 10 table_new).
  assert (H1 : reached_in cl t1 10).
  { apply (load_reached_in cl table_new (-1)); [constructor|lia| |left; reflexivity|vm_compute; reflexivity]. intros x Hx. cbn [In cl]. intros H. unfold cl in H. cbn [In] in H. lia. }
  assert (Hask : forall t last p, cl p -> reached_in cl t last -> reached_in cl (ask p t) last).
  { intros t last p Hp H. unfold ask. destruct (FindOrPreloadCluster t p tt) as [[k t']|] eqn:E; [|exact H]. exact (ri_request cl t last p tt k t' H Hp E). }
  set (t2 := ask 30 (ask 50 (ask 70 t1))).
  assert (H2 : reached_in cl t2 10) by (unfold t2; repeat apply Hask; try exact H1; unfold cl; cbn [In]; auto).
  exists (load_at 30 t2). split; [|vm_compute; reflexivity].
  apply (load_reached_in cl t2 10); [exact H2|lia| |unfold cl; cbn [In]; auto|vm_compute; reflexivity]. intros x Hx H. unfold cl in H. cbn [In] in H. lia.
Qed.

(* C25: among the loaded clusters of any table, whose times are ts, FindCluster gives
   one of them, not later than asked for unless it is the first; and if the times are
   sorted, exactly the last one not later. *)
Theorem C25_find_cluster : forall (A : Type) (t : table A) last, reached t last ->
  exists L P, holds t L P /\
  forall (time : centry A -> outcome Z) ts x, L <> [] -> map time L = map Val ts ->
  exists k, FindCluster t time x = Val (Some k) /\ 0 <= k < Z.of_nat (length L) /\
    (k = 0 \/ exists t, nth_error ts (Z.to_nat k) = Some t /\ t <= x) /\
    (sorted ts -> found_by_time ts x k).
Proof.
  intros A t last H. destruct (reached_ordered t last H) as (L & P & Hh & _). exists L, P. split; [exact Hh|].
  intros time ts x. exact (find_cluster_ok t L P time ts x Hh).
Qed.
Print Assumptions C25_find_cluster.

Example find_cluster_case : exists (t : table unit) last L P ts, reached t last /\ holds t L P /\ L <> [] /\
  map (fun c => Val (ce_pos c * 100)) L = map Val ts /\ sorted ts /\ FindCluster t (fun c => Val (ce_pos c * 100)) 3500 = Val (Some 1).
Proof.
  set (t := load_at 50 (load_at 30 (load_at 10 table_new))).
  assert (H : reached t 50).
  { unfold t. apply (load_reached (load_at 30 (load_at 10 table_new)) 30); [|lia|vm_compute; reflexivity].
    apply (load_reached (load_at 10 table_new) 10); [|lia|vm_compute; reflexivity].
    apply (load_reached table_new (-1)); [constructor|lia|vm_compute; reflexivity]. }
  exists t, 50, [mkEnt 0 10 tt; mkEnt 1 30 tt; mkEnt 2 50 tt], [], [1000; 3000; 5000]. split; [exact H|]. split.
  { split; [vm_compute; reflexivity|]. split; [vm_compute; reflexivity|]. split; [vm_compute; reflexivity|]. exists (repeat None 2045). vm_compute. reflexivity. }
  split; [discriminate|]. split; [reflexivity|]. split; [cbn [sorted]; lia|]. vm_compute. reflexivity.
Qed.
