(* Proofs about walking over the blocks of a track: one cluster. *)
From Coq Require Import ZifyBool ZifyNat.
From Verif Require Import Base ReaderSpec Ids MParUtil MParBlock MParMeta MParTrack MParCluster ClusterSpec ClusterSafeSpec PClusterSafe MParSegment MParWalk WalkSpec.

Lemma Parse_loop_done : forall fuel r start esize stop pos p es, Parse_loop fuel r start esize stop pos = Some (PN_done p es) ->
  (esize < 0 <-> stop < 0) -> (0 <= esize -> stop = start + esize) ->
  (stop < 0 -> p = start + es) /\ (0 <= stop -> es = esize /\ (stop <= p \/ forall f, Parse_loop (S f) r start esize stop p = Some (PN_done p es))).
Proof.
  induction fuel as [|fuel IH]; intros r start esize stop pos p es H H1 H2; [discriminate|]. cbn [Parse_loop] in H.
  destruct ((stop >=? 0) && (pos >=? stop)) eqn:B1.
  { injection H as <- <-. split; [lia|]. intros _. split; [reflexivity|]. left. lia. }
  destruct ((r_total r >=? 0) && (pos >=? r_total r)) eqn:B2.
  { injection H as <- <-. split; [intros Hs; replace (esize <? 0) with true by lia; lia|]. intros Hs. replace (esize <? 0) with false by lia.
    split; [reflexivity|]. right. intros f. cbn [Parse_loop]. rewrite B1, B2. replace (esize <? 0) with false by lia. reflexivity. }
  destruct (read_id_field r pos stop) as [st|[id len]] eqn:E1; [discriminate|].
  destruct ((id =? kMkvCluster) || (id =? kMkvCues)) eqn:B3.
  { injection H as <- <-. split; [intros Hs; replace (esize <? 0) with true by lia; lia|]. intros Hs. replace (esize <? 0) with false by lia.
    split; [reflexivity|]. right. intros f. cbn [Parse_loop]. rewrite B1, B2, E1, B3. replace (esize <? 0) with false by lia. reflexivity. }
  cbv zeta in H. destruct (read_uint_field r (pos + len) stop) as [st|[size l2]]; [discriminate|].
  destruct (size =? unknown_size l2); [discriminate|]. destruct ((stop >=? 0) && (pos + len + l2 >? stop)); [discriminate|].
  destruct (size =? 0); [exact (IH _ _ _ _ _ _ _ H H1 H2)|].
  destruct ((stop >=? 0) && (pos + len + l2 + size >? stop)) eqn:B4.
  { destruct ((id =? kMkvBlockGroup) || (id =? kMkvSimpleBlock)); [discriminate|]. injection H as <- <-. split; [lia|]. intros _. split; [reflexivity|]. left. lia. }
  destruct ((stop <? 0) && (r_total r >=? 0) && (pos + len + l2 + size >? r_total r)) eqn:B5.
  { injection H as <- <-. split; lia. }
  destruct ((stop <? 0) && (pos + len + l2 + size >? r_avail r)); [discriminate|].
  destruct (id =? kMkvBlockGroup); [discriminate|]. destruct (id =? kMkvSimpleBlock); [discriminate|]. exact (IH _ _ _ _ _ _ _ H H1 H2).
Qed.

(* once a cluster has been read to its end, it stays so *)
Lemma Parse_end_again : forall r c c', intact r -> cl_inv r c -> Cluster_Parse r c = Some (Val (1, c')) -> Cluster_Parse r c' = Some (Val (1, c')).
Proof.
  intros r c0 c' HI Hc0 H. unfold Cluster_Parse in H.
  destruct (Cluster_Load_total r c0 HI Hc0) as (st & c & E & Hc & Hst & Hs0 & He0 & Htc & Hold). rewrite E in H. clear E.
  destruct (Z.ltb_spec st 0); [injection H as -> <-; lia|]. assert (st = 0) by lia. subst st. specialize (Htc eq_refl).
  pose proof Hc as (Hs & Hi). replace (cl_timecode c <? 0) with false in Hi by lia. destruct Hi as (Hpos & Hes & Hent & Hav).
  destruct ((cl_pos c <? cl_start c) || (cl_timecode c <? 0)) eqn:B0; [discriminate|]. cbv zeta in H.
  destruct ((_ >=? 0) && (cl_pos c >=? _)) eqn:B1.
  { injection H as <-. unfold Cluster_Parse, Cluster_Load. replace (cl_timecode c >=? 0) with true by lia. change (0 <? 0) with false. cbv iota zeta. rewrite B0, B1. reflexivity. }
  destruct ((r_total r >=? 0) && (r_avail r >? r_total r)) eqn:ET; [discriminate|].
  set (stop := if cl_esize c <? 0 then -1 else cl_start c + cl_esize c) in *.
  assert (Hstop : (cl_esize c = -1 /\ stop = -1) \/ (0 <= cl_esize c /\ stop = cl_start c + cl_esize c /\ cl_pos c <= stop)).
  { unfold stop. destruct Hes as [Hes|Hes]; [left; rewrite Hes; auto|right; replace (cl_esize c <? 0) with false by lia; lia]. }
  destruct (Parse_loop_total (loop_fuel r (cl_pos c)) r (cl_start c) (cl_esize c) stop (cl_pos c) HI ltac:(lia) ltac:(lia) (loop_fuel_enough _ _) ltac:(lia) ltac:(lia) ltac:(lia)) as (x & EX & Hx).
  rewrite EX in H. destruct x as [st|p es|group p sz].
  - injection H as -> <-. lia.
  - destruct (Parse_loop_done _ _ _ _ _ _ _ _ EX ltac:(lia) ltac:(lia)) as [D1 D2]. destruct Hx as (Hp & Hstp & Hpe & He1).
    replace (es <? 1) with false in H by lia. replace ((stop >=? 0) && (p >? stop)) with false in H by lia.
    cbn [set_pos set_esize cl_entries cl_start cl_pos cl_timecode cl_esize] in H.
    assert (HC : c' = set_pos (set_esize c es) p).
    { destruct (rev _) as [|e l]; [congruence|]. destruct ((r_total r >=? 0) && (en_start e >? r_total r)); [discriminate|].
      destruct ((stop >=? 0) && (en_start e + en_size e >? stop)); [discriminate|].
      destruct ((r_total r >=? 0) && (en_start e + en_size e >? r_total r)); [discriminate|]. congruence. }
    unfold Cluster_Parse, Cluster_Load. subst c'. cbn [set_pos set_esize cl_entries cl_start cl_pos cl_timecode cl_esize].
    replace (cl_timecode c >=? 0) with true by lia. change (0 <? 0) with false. cbv iota zeta. cbn [set_pos set_esize cl_entries cl_start cl_pos cl_timecode cl_esize].
    replace ((p <? cl_start c) || (cl_timecode c <? 0)) with false by lia. replace (es <? 0) with false by lia.
    destruct (Z.ltb_spec stop 0) as [Hn|Hn].
    + specialize (D1 Hn). replace ((cl_start c + es >=? 0) && (p >=? cl_start c + es)) with true by lia. reflexivity.
    + destruct (D2 Hn) as [-> [D|D]].
      * replace ((cl_start c + cl_esize c >=? 0) && (p >=? cl_start c + cl_esize c)) with true by lia. reflexivity.
      * replace (cl_start c + cl_esize c) with stop by lia. destruct ((stop >=? 0) && (p >=? stop)); [reflexivity|]. rewrite ET.
        unfold loop_fuel. rewrite D. replace (cl_esize c <? 1) with false by lia. replace ((stop >=? 0) && (p >? stop)) with false by lia.
        change (set_pos (set_esize (set_pos (set_esize c (cl_esize c)) p) (cl_esize c)) p) with (set_pos (set_esize c (cl_esize c)) p).
        cbn [set_pos set_esize cl_entries cl_start cl_pos cl_timecode cl_esize] in *. exact H.
  - exfalso. pose proof (Cluster_Parse_total r c HI Hc) as (st & c2 & E & _).
    destruct group.
    + unfold ParseBlockGroup in H. rewrite ET in H. cbv zeta in H.
      destruct ((r_total r >=? 0) && (p + sz >? r_total r)); [discriminate|]. destruct (Z.gtb_spec (p + sz) (r_avail r)); [discriminate|].
      destruct (PBG_loop_total (loop_fuel r p) r p (p + sz) 0 HI ltac:(lia) (loop_fuel_enough _ _)) as (x & EP & Hx2). rewrite EP in H.
      destruct x as [st'|[pos' disc]]; [injection H as -> <-; lia|]. destruct (Z.eqb_spec pos' (p + sz)); cbn [negb] in H; [|discriminate]. subst pos'.
      destruct (CreateBlockGroup _ _ _ _ _) as [[[st2 c3]|]|] eqn:EC in H; try discriminate.
      unfold CreateBlockGroup in EC. cbv zeta in EC.
      destruct (CBG_after_PBG _ r p (p + sz) _ _ HI ltac:(lia) ltac:(lia) ltac:(lia) EP eq_refl (loop_fuel r p) p 1 0 (-1) (-1) (-1) ltac:(lia) ltac:(lia) ltac:(lia)) as (x & EX2 & Hx3).
      rewrite EX2 in EC. destruct x as [st'|[[[[[q pv] nx] du] bp] bs]].
      { injection EC as <- <-. destruct (negb (st' =? 0)) eqn:BB; [injection H as -> <-; lia|discriminate]. }
      assert (Hst2 : st2 <= 0).
      { unfold E_FILE_FORMAT_INVALID in EC. destruct (bp <? 0); [injection EC as <- <-; lia|]. destruct (negb (q =? p + sz)); [injection EC as <- <-; lia|].
        destruct (Block_Parse_val r bp bs HI) as [[b|] EB]; rewrite EB in EC; injection EC as <- <-; lia. }
      destruct (negb (st2 =? 0)); [injection H as -> <-; lia|discriminate].
    + unfold ParseSimpleBlock in H. rewrite ET in H. cbv zeta in H.
      pose proof (check_block_nonpos r p (p + sz) HI ltac:(lia)).
      replace (check_block r p (p + sz) >? 0) with false in H by lia.
      destruct (Z.ltb_spec (check_block r p (p + sz)) 0); [injection H as Hq _; lia|].
      unfold CreateSimpleBlock in H. destruct (Block_Parse_val r p sz HI) as [[b|] EB]; rewrite EB in H; discriminate.
Qed.

(* ---------- the entries a cluster has and those still to be parsed ---------- *)

Inductive plays (r : reader) : cluster -> list bentry -> Prop :=
| pl_end : forall c c', Cluster_Parse r c = Some (Val (1, c')) -> entries c' = entries c -> plays r c []
| pl_more : forall c e c' es, Cluster_Parse r c = Some (Val (0, c')) -> entries c' = entries c ++ [e] -> plays r c' es -> plays r c (e :: es).

Record holds (r : reader) (tc : Z) (all : list bentry) (c : cluster) : Prop := mkHolds {
  ho_inv : cl_inv r c;
  ho_tc : exists c', Cluster_GetTimeCode r c = Some (Val (tc, c'));
  ho_pos : 0 <= tc;
  ho_rest : exists rest, all = entries c ++ rest /\ plays r c rest
}.

Lemma entry_count_entries : forall c, (0 <= entry_count c -> entry_count c = zlen (entries c)) /\ (entry_count c <= 0 -> entries c = []) /\ (1 <= zlen (entries c) -> entry_count c = zlen (entries c)).
Proof.
  intros c. unfold entry_count, entries. destruct (cl_entries c) as [es|]; [|split; [lia|split; [reflexivity|]]].
  - split; [reflexivity|]. split; [|reflexivity]. destruct es; [reflexivity|]. rewrite zlen_cons. pose proof (zlen_nonneg _ es). lia.
  - rewrite zlen_nil. lia.
Qed.
Lemma entry_at_entries : forall c i, entry_at c i = nth_error (entries c) (Z.to_nat i).
Proof. intros c i. unfold entry_at, entries. destruct (cl_entries c); [reflexivity|]. destruct (Z.to_nat i); reflexivity. Qed.

Lemma firstn_S_nth : forall A (l : list A) n x, nth_error l n = Some x -> firstn (S n) l = firstn n l ++ [x].
Proof. induction l as [|a l IH]; intros [|n] x H; cbn [nth_error] in H; try discriminate. - injection H as ->. reflexivity. - cbn [firstn app]. rewrite <- (IH _ _ H). reflexivity. Qed.

(* Parse on a cluster with a timecode keeps it *)
Lemma Load_timecode : forall r c tc c', intact r -> cl_inv r c -> 0 <= tc -> Cluster_GetTimeCode r c = Some (Val (tc, c')) ->
  Cluster_Load r c = Some (Val (0, c')) /\ cl_timecode c' = tc /\ cl_inv r c' /\ cl_start c' = cl_start c /\ entries c' = entries c /\ Cluster_Parse r c = Cluster_Parse r c'.
Proof.
  intros r c tc c' HI Hc Ht E. unfold Cluster_GetTimeCode in E.
  destruct (Cluster_Load_total r c HI Hc) as (st & c1 & E1 & Hc1 & Hst & Hs0 & He0 & Htc & Hold). rewrite E1 in E.
  destruct (Z.ltb_spec st 0). { injection E as -> ->. lia. }
  assert (st = 0) by lia. subst st. injection E as <- <-. split; [exact E1|]. split; [reflexivity|]. split; [exact Hc1|]. split; [exact Hs0|].
  split; [unfold entries; rewrite He0; reflexivity|]. unfold Cluster_Parse. rewrite E1. replace (Cluster_Load r c1) with (Some (Val (0, c1))); [reflexivity|].
  unfold Cluster_Load. replace (cl_timecode c1 >=? 0) with true by lia. reflexivity.
Qed.

Definition keeps_tc (c : cluster) (tc : Z) (x : option (outcome (Z * cluster))) : Prop :=
  match x with Some (Val (_, c')) => cl_timecode c' = tc | _ => True end.
Ltac tc_step := first [reflexivity | exact I | match goal with
  | |- keeps_tc _ _ (if ?b then _ else _) => destruct b
  | |- keeps_tc _ _ (match ?x with _ => _ end) => destruct x
  | |- keeps_tc _ _ (Some (if ?b then _ else _)) => destruct b
  | |- keeps_tc _ _ (Some (match ?x with _ => _ end)) => destruct x
  end].
Lemma create_group_tc : forall r c p sz d, keeps_tc c (cl_timecode c) (CreateBlockGroup r c p sz d).
Proof.
  intros r c p sz d. unfold CreateBlockGroup. cbv zeta. destruct (CreateBlockGroup_loop _ _ _ _ _ _ _ _ _) as [[[st|[[[[[a b] d'] e] f] g]]|]|]; try exact I; repeat tc_step.
Qed.
Lemma Parse_timecode : forall r c, 0 <= cl_timecode c -> keeps_tc c (cl_timecode c) (Cluster_Parse r c).
Proof.
  intros r c Ht. unfold Cluster_Parse, Cluster_Load. replace (cl_timecode c >=? 0) with true by lia. change (0 <? 0) with false. cbv iota zeta.
  destruct ((cl_pos c <? cl_start c) || (cl_timecode c <? 0)); [reflexivity|].
  destruct ((_ >=? 0) && (cl_pos c >=? _)); [reflexivity|]. destruct ((r_total r >=? 0) && (r_avail r >? r_total r)) eqn:ET; [reflexivity|].
  destruct (Parse_loop _ _ _ _ _ _) as [[st|p es|[|] p sz]|]; [reflexivity| | | |exact I].
  - repeat tc_step.
  - unfold ParseBlockGroup. rewrite ET. cbv zeta. tc_step; [reflexivity|]. tc_step; [reflexivity|]. destruct (ParseBlockGroup_loop _ _ _ _ _) as [[[st|[q d]]|]|]; try exact I; [reflexivity|]. tc_step; [reflexivity|].
    pose proof (create_group_tc r c p sz d) as K. destruct (CreateBlockGroup r c p sz d) as [[[st c']|]|]; try exact I. cbn [keeps_tc] in K. destruct (negb _); cbn [keeps_tc set_pos cl_timecode]; exact K.
  - unfold ParseSimpleBlock. rewrite ET. cbv zeta. tc_step; [exact I|]. tc_step; [reflexivity|]. unfold CreateSimpleBlock. destruct (Block_Parse r p sz) as [[bl|]|]; try exact I; destruct (negb _); reflexivity.
Qed.

Lemma holds_parse : forall r tc all c st c', intact r -> holds r tc all c -> Cluster_Parse r c = Some (Val (st, c')) -> 0 <= st ->
  holds r tc all c' /\ cl_start c' = cl_start c /\ cl_timecode c' = tc /\
  (st = 0 -> exists e, entries c' = entries c ++ [e]) /\ (st <> 0 -> st = 1 /\ entries c' = all /\ entries c = all).
Proof.
  intros r tc all c st c' HI [Hc (c1 & Htc) Ht (rest & -> & Hp)] E Hst.
  destruct (Load_timecode r c tc c1 HI Hc Ht Htc) as (L1 & L2 & L3 & L4 & L5 & L6).
  assert (HT : cl_timecode c' = tc). { pose proof (Parse_timecode r c1 ltac:(lia)) as K. rewrite <- L6, E in K. cbn [keeps_tc] in K. lia. }
  destruct (Cluster_Parse_total r c HI Hc) as (st2 & c2 & E2 & P1 & P2 & P3 & P4 & P5). assert (st2 = st /\ c2 = c') as [-> ->] by (split; congruence).
  assert (HT2 : exists c'', Cluster_GetTimeCode r c' = Some (Val (tc, c''))).
  { unfold Cluster_GetTimeCode, Cluster_Load. replace (cl_timecode c' >=? 0) with true by lia. change (0 <? 0) with false. cbv iota. rewrite HT. eauto. }
  inversion Hp as [c0 c2 EA EB|c0 e c2 es EA EB EC]; subst c0.
  - assert (st = 1 /\ c2 = c') as [-> ->] by (split; congruence). rewrite app_nil_r in *. split; [|split; [exact P3|split; [exact HT|split; [lia|intros _; auto]]]].
    constructor; auto. exists []. rewrite app_nil_r. split; [congruence|]. econstructor; [exact (Parse_end_again r c c' HI Hc E)|reflexivity].
  - assert (st = 0 /\ c2 = c') as [-> ->] by (split; congruence). split; [|split; [exact P3|split; [exact HT|split; [intros _; eauto|lia]]]].
    constructor; auto. exists es. rewrite EB, <- app_assoc. split; [subst rest; reflexivity|exact EC].
Qed.

Lemma holds_run : forall r tc all c, intact r -> holds r tc all c -> exists st c', Cluster_Parse r c = Some (Val (st, c')) /\ 0 <= st.
Proof. intros r tc all c HI [Hc _ _ (rest & _ & Hp)]. inversion Hp; eauto with zarith. Qed.

Lemma holds_prefix : forall r tc all c, holds r tc all c -> exists rest, all = entries c ++ rest.
Proof. intros r tc all c [_ _ _ (rest & -> & _)]. eauto. Qed.

Lemma inv_count : forall r c, cl_inv r c -> zlen (entries c) <= Z.max 0 (r_avail r - cl_start c + 1).
Proof.
  intros r c (Hs & Hi). destruct (Z.ltb_spec (cl_timecode c) 0).
  - destruct Hi as (_ & Hp & He & Hn). unfold entries. rewrite Hn. unfold zlen; cbn. lia.
  - destruct Hi as (_ & He & Hw & Ha). eapply entries_count_bound; eauto.
Qed.
Lemma holds_count : forall r tc all c, intact r -> holds r tc all c -> zlen all <= Z.max 0 (r_avail r - cl_start c + 1).
Proof.
  intros r tc all c HI [Hc _ _ (rest & -> & Hp)]. induction Hp as [c c' E1 E2|c e c' es E1 E2 Hp IH].
  - rewrite app_nil_r. apply inv_count; exact Hc.
  - destruct (Cluster_Parse_total r c HI Hc) as (st2 & c2 & E3 & P1 & P2 & P3 & P4 & P5). assert (c2 = c') as -> by congruence.
    specialize (IH P1). rewrite E2, <- app_assoc, P3 in IH. exact IH.
Qed.

Lemma holds_first : forall r tc all c, intact r -> holds r tc all c ->
  exists c', Cluster_GetFirst r c = Some (Val (0, hd_error all, c')) /\ holds r tc all c' /\ cl_start c' = cl_start c /\ (all <> [] -> 1 <= zlen (entries c')) /\
    (entries c = [] -> cl_timecode c' = tc).
Proof.
  intros r tc all c HI H. unfold Cluster_GetFirst. destruct (entry_count_entries c) as (N1 & N2 & N3).
  destruct (Z.leb_spec (entry_count c) 0) as [HC|HC].
  - specialize (N2 HC). destruct (holds_run r tc all c HI H) as (st & c' & E & Hst). rewrite E.
    destruct (holds_parse r tc all c st c' HI H E Hst) as (H' & HS & HT & P0 & P1). exists c'. destruct (Z.ltb_spec st 0); [lia|].
    destruct (entry_count_entries c') as (M1 & M2 & M3). destruct (Z.leb_spec (entry_count c') 0) as [HC'|HC'].
    + specialize (M2 HC'). assert (all = []).
      { destruct (Z.eq_dec st 0) as [->|Hn]; [destruct (P0 eq_refl) as (e & Ee); rewrite M2 in Ee; destruct (entries c); discriminate|]. destruct (P1 Hn) as (_ & <- & _). exact M2. }
      subst all. split; [reflexivity|]. split; [exact H'|]. split; [exact HS|]. split; [congruence|auto].
    + rewrite entry_at_entries. destruct (holds_prefix _ _ _ _ H') as (rest & Ea). destruct (entries c') as [|e es] eqn:Ee.
      { rewrite M1 in HC' by lia. rewrite zlen_nil in HC'. lia. }
      subst all. split; [reflexivity|]. split; [exact H'|]. split; [exact HS|]. split; [intros _; rewrite zlen_cons; pose proof (zlen_nonneg _ es); lia|auto].
  - exists c. rewrite entry_at_entries. destruct (holds_prefix _ _ _ _ H) as (rest & Ea). destruct (entries c) as [|e es] eqn:Ee.
    { rewrite N1 in HC by lia. rewrite zlen_nil in HC. lia. }
    subst all. split; [reflexivity|]. split; [exact H|]. split; [reflexivity|]. split; [intros _; rewrite zlen_cons; pose proof (zlen_nonneg _ es); lia|discriminate].
Qed.

Lemma holds_next : forall r tc all c i, intact r -> holds r tc all c -> 0 <= i < zlen (entries c) ->
  exists c', Cluster_GetNext r c i = Some (Val (0, nth_error all (Z.to_nat (i + 1)), c')) /\ holds r tc all c' /\ cl_start c' = cl_start c /\
    zlen (entries c) <= zlen (entries c') /\ (i + 1 < zlen all -> i + 1 < zlen (entries c')).
Proof.
  intros r tc all c i HI H Hi. unfold Cluster_GetNext. destruct (entry_count_entries c) as (N1 & N2 & N3). rewrite N3 by lia.
  replace ((i <? 0) || (i >=? zlen (entries c))) with false by lia. cbv zeta. destruct (Z.geb_spec (i + 1) (zlen (entries c))) as [HC|HC].
  - destruct (holds_run r tc all c HI H) as (st & c' & E & Hst). rewrite E.
    destruct (holds_parse r tc all c st c' HI H E Hst) as (H' & HS & HT & P0 & P1). exists c'. destruct (Z.ltb_spec st 0); [lia|].
    destruct (Z.eq_dec st 0) as [->|Hn].
    + change (0 >? 0) with false. cbv iota. destruct (P0 eq_refl) as (e & Ee). destruct (entry_count_entries c') as (M1 & M2 & M3).
      assert (HL : zlen (entries c') = zlen (entries c) + 1) by (rewrite Ee, zlen_app; reflexivity). rewrite M3 by lia.
      destruct (Z.geb_spec (i + 1) (zlen (entries c'))); [lia|]. rewrite entry_at_entries.
      destruct (holds_prefix _ _ _ _ H') as (rest & ->). split; [|split; [exact H'|split; [exact HS|lia]]].
      do 4 f_equal. symmetry. apply nth_error_app1. unfold zlen in *. lia.
    + destruct (P1 Hn) as (-> & A1 & A2). change (1 >? 0) with true. cbv iota. split; [|split; [exact H'|split; [exact HS|rewrite A1, A2; lia]]].
      do 4 f_equal. symmetry. apply nth_error_None. rewrite <- A2. unfold zlen in *. lia.
  - exists c. rewrite entry_at_entries. destruct (holds_prefix _ _ _ _ H) as (rest & ->). split; [|split; [exact H|split; [reflexivity|lia]]].
    do 4 f_equal. symmetry. apply nth_error_app1. unfold zlen in *. lia.
Qed.

(* ---------- from what the cluster's own functions show ---------- *)

Lemma parse_more : forall r c st c', intact r -> cl_inv r c -> Cluster_Parse r c = Some (Val (st, c')) -> cl_inv r c' /\ cl_start c' = cl_start c /\ st <= 1 /\
  (st = 0 -> exists e, entries c' = entries c ++ [e]) /\ (st <> 0 -> entries c' = entries c).
Proof.
  intros r c st c' HI Hc E. destruct (Cluster_Parse_total r c HI Hc) as (st2 & c2 & E2 & P1 & P2 & P3 & P4 & P5). assert (st2 = st /\ c2 = c') as [-> ->] by (split; congruence).
  split; [exact P1|]. split; [exact P3|]. split; [exact P2|]. split; [intros Hs; destruct (P4 Hs) as (e & He & _); eauto|exact P5].
Qed.

Lemma next_plays : forall r c i es c', intact r -> next_entries r c i es c' -> cl_inv r c -> 0 <= i < zlen (entries c) ->
  exists rest, plays r c rest /\ firstn (Z.to_nat (i + 1)) (entries c) ++ es = entries c ++ rest.
Proof.
  intros r c i es c' HI H. induction H as [c i c' E|c i e es c1 c' E H IH]; intros Hc Hi; unfold Cluster_GetNext in E;
    destruct (entry_count_entries c) as (N1 & N2 & N3); rewrite N3 in E by lia; replace ((i <? 0) || (i >=? zlen (entries c))) with false in E by lia; cbv zeta in E;
    destruct (Z.geb_spec (i + 1) (zlen (entries c))) as [HC|HC].
  - destruct (Cluster_Parse r c) as [[[st c2]|]|] eqn:EP; try discriminate. destruct (parse_more r c st c2 HI Hc EP) as (_ & _ & S1 & S2 & S3).
    destruct (Z.ltb_spec st 0). { injection E as -> _. lia. } destruct (Z.gtb_spec st 0).
    + assert (st = 1) by lia. subst st. exists []. split; [econstructor; [exact EP|apply S3; lia]|]. rewrite firstn_all2 by (unfold zlen in *; lia). reflexivity.
    + assert (st = 0) by lia. subst st. destruct (S2 eq_refl) as (e & Ee). destruct (entry_count_entries c2) as (M1 & M2 & M3).
      assert (HL : zlen (entries c2) = zlen (entries c) + 1) by (rewrite Ee, zlen_app; reflexivity). rewrite M3 in E by lia.
      destruct (Z.geb_spec (i + 1) (zlen (entries c2))); [lia|]. rewrite entry_at_entries in E. injection E as E _.
      apply nth_error_None in E. unfold zlen in *. lia.
  - rewrite entry_at_entries in E. injection E as E _. apply nth_error_None in E. unfold zlen in *. lia.
  - destruct (Cluster_Parse r c) as [[[st c2]|]|] eqn:EP; try discriminate. destruct (parse_more r c st c2 HI Hc EP) as (I1 & _ & S1 & S2 & S3).
    destruct (Z.ltb_spec st 0). { discriminate E. } destruct (Z.gtb_spec st 0); [discriminate E|].
    assert (st = 0) by lia. subst st. destruct (S2 eq_refl) as (e' & Ee). destruct (entry_count_entries c2) as (M1 & M2 & M3).
    assert (HL : zlen (entries c2) = zlen (entries c) + 1) by (rewrite Ee, zlen_app; reflexivity). rewrite M3 in E by lia.
    destruct (Z.geb_spec (i + 1) (zlen (entries c2))); [lia|]. rewrite entry_at_entries in E. injection E as E <-.
    destruct (IH I1 ltac:(lia)) as (rest & R1 & R2).
    assert (HF : forall k, (k >= Z.to_nat (zlen (entries c)))%nat -> firstn k (entries c) = entries c) by (intros k Hk; apply firstn_all2; unfold zlen in *; lia).
    rewrite (firstn_all2 (entries c2)) in R2 by (unfold zlen in *; lia). rewrite (firstn_all2 (entries c)) by (unfold zlen in *; lia).
    apply app_inv_head in R2. subst rest. exists (e' :: es).
    split; [econstructor; [exact EP|exact Ee|exact R1]|].
    rewrite Ee, nth_error_app2 in E by (unfold zlen in *; lia). replace (Z.to_nat (i + 1) - length (entries c))%nat with 0%nat in E by (unfold zlen in *; lia). injection E as ->. reflexivity.
  - rewrite entry_at_entries in E. injection E as E <-. destruct (IH Hc ltac:(lia)) as (rest & R1 & R2). exists rest. split; [exact R1|]. rewrite <- R2.
    replace (Z.to_nat (i + 1 + 1)) with (S (Z.to_nat (i + 1))) by lia. rewrite (firstn_S_nth _ _ _ _ E). rewrite <- app_assoc. reflexivity.
Qed.

Lemma parse_tc : forall r c st c', intact r -> cl_inv r c -> Cluster_Parse r c = Some (Val (st, c')) -> 0 <= st ->
  exists tc c1, Cluster_GetTimeCode r c = Some (Val (tc, c1)) /\ 0 <= tc.
Proof.
  intros r c st c' HI Hc E Hst. unfold Cluster_Parse in E. unfold Cluster_GetTimeCode.
  destruct (Cluster_Load_total r c HI Hc) as (st1 & c1 & E1 & Hc1 & Hst1 & Hs0 & He0 & Htc & Hold). rewrite E1 in E |- *.
  destruct (Z.ltb_spec st1 0); [injection E as -> _; lia|]. exists (cl_timecode c1), c1. split; [reflexivity|]. apply Htc. lia.
Qed.

Lemma lists_holds : forall r c es, intact r -> cl_inv r c -> lists r c es -> exists tc, holds r tc es c.
Proof.
  intros r c es HI Hc H. destruct (entry_count_entries c) as (N1 & N2 & N3). destruct es as [|e es]; cbn [lists] in H.
  - destruct H as (c' & E). unfold Cluster_GetFirst in E. destruct (Z.leb_spec (entry_count c) 0) as [HC|HC].
    + destruct (Cluster_Parse r c) as [[[st c2]|]|] eqn:EP; try discriminate. destruct (parse_more r c st c2 HI Hc EP) as (I1 & _ & S1 & S2 & S3).
      destruct (Z.ltb_spec st 0); [injection E as -> _; lia|]. destruct (parse_tc r c st c2 HI Hc EP ltac:(lia)) as (tc & c1 & T1 & T2).
      exists tc. constructor; eauto. exists []. rewrite app_nil_r. specialize (N2 HC). split; [congruence|].
      destruct (Z.eq_dec st 0) as [->|Hn]; [|assert (st = 1) by lia; subst st; econstructor; [exact EP|apply S3; lia]].
      exfalso. destruct (S2 eq_refl) as (e & Ee). destruct (entry_count_entries c2) as (M1 & M2 & M3).
      assert (HL : zlen (entries c2) = 1) by (rewrite Ee, N2; reflexivity). rewrite M3 in E by lia. rewrite HL in E. change (1 <=? 0) with false in E. cbv iota in E.
      rewrite entry_at_entries, Ee, N2 in E. discriminate.
    + exfalso. rewrite entry_at_entries in E. injection E as E _. destruct (entries c) eqn:X; [rewrite N1, zlen_nil in HC by lia; lia|discriminate].
  - destruct H as (c1 & c2 & E & HN). unfold Cluster_GetFirst in E. destruct (Z.leb_spec (entry_count c) 0) as [HC|HC].
    + destruct (Cluster_Parse r c) as [[[st c3]|]|] eqn:EP; try discriminate. destruct (parse_more r c st c3 HI Hc EP) as (I1 & _ & S1 & S2 & S3).
      destruct (Z.ltb_spec st 0); [discriminate E|]. destruct (parse_tc r c st c3 HI Hc EP ltac:(lia)) as (tc & c4 & T1 & T2).
      exists tc. constructor; eauto. specialize (N2 HC). destruct (entry_count_entries c3) as (M1 & M2 & M3).
      destruct (Z.leb_spec (entry_count c3) 0); [discriminate E|]. rewrite entry_at_entries in E. injection E as E <-.
      destruct (Z.eq_dec st 0) as [->|Hn]; [|rewrite S3, N2 in E by exact Hn; discriminate]. destruct (S2 eq_refl) as (e' & Ee). rewrite N2 in Ee. cbn [app] in Ee.
      destruct (next_plays r c3 0 es c2 HI HN I1) as (rest & R1 & R2); [rewrite Ee; change (zlen [e']) with 1; lia|].
      rewrite Ee in R2, E. cbn in R2, E. injection E as ->. injection R2 as ->. exists (e :: rest). rewrite N2. split; [reflexivity|]. econstructor; [exact EP|rewrite N2; exact Ee|exact R1].
    + rewrite entry_at_entries in E. injection E as E <-.
      assert (HT : 0 <= cl_timecode c). { destruct Hc as (_ & Hi). destruct (Z.ltb_spec (cl_timecode c) 0); [|lia]. destruct Hi as (_ & _ & _ & X). unfold entries in E. rewrite X in E. discriminate. }
      exists (cl_timecode c). constructor; auto.
      * unfold Cluster_GetTimeCode, Cluster_Load. replace (cl_timecode c >=? 0) with true by lia. change (0 <? 0) with false. cbv iota. eauto.
      * destruct (next_plays r c 0 es c2 HI HN Hc) as (rest & R1 & R2); [rewrite <- N1 by lia; lia|]. exists rest. split; [|exact R1]. rewrite <- R2.
        destruct (entries c) as [|x l]; [discriminate|]. cbn in E |- *. injection E as ->. reflexivity.
Qed.

(* ---------- looking for an entry in a cluster ---------- *)

Fixpoint find_at (ok : bentry -> bool) (i : Z) (es : list bentry) : option (Z * bentry) :=
  match es with [] => None | e :: es => if ok e then Some (i, e) else find_at ok (i + 1) es end.

Lemma scan_run : forall r tc all ok, intact r -> forall post fuel c pre e, holds r tc all c -> all = pre ++ e :: post -> zlen pre < zlen (entries c) ->
  (length post < fuel)%nat ->
  exists c', scan fuel r ok c (zlen pre) e = Val (0, find_at ok (zlen pre) (e :: post), c') /\ holds r tc all c' /\ cl_start c' = cl_start c /\
    zlen (entries c) <= zlen (entries c') /\ match find_at ok (zlen pre) (e :: post) with Some (k, x) => 0 <= k < zlen (entries c') /\ nth_error all (Z.to_nat k) = Some x | None => True end.
Proof.
  intros r tc all ok HI. induction post as [|e2 post IH]; intros fuel c pre e H Ha Hp Hf; (destruct fuel as [|fuel]; [cbn in Hf; lia|]); cbn [scan find_at]; pose proof (zlen_nonneg _ pre) as Hz.
  - destruct (ok e) eqn:Eo.
    + exists c. split; [reflexivity|]. split; [exact H|]. split; [reflexivity|]. split; [lia|]. split; [lia|]. subst all. rewrite nth_error_app2 by (unfold zlen; lia).
      replace (Z.to_nat (zlen pre) - length pre)%nat with 0%nat by (unfold zlen; lia). reflexivity.
    + destruct (holds_next r tc all c (zlen pre) HI H ltac:(lia)) as (c' & E & H' & HS & HL & _). rewrite E. change (0 <? 0) with false. cbv iota.
      replace (nth_error all (Z.to_nat (zlen pre + 1))) with (@None bentry).
      * exists c'. auto.
      * symmetry. apply nth_error_None. subst all. rewrite app_length. cbn [length]. unfold zlen. lia.
  - destruct (ok e) eqn:Eo.
    + exists c. split; [reflexivity|]. split; [exact H|]. split; [reflexivity|]. split; [lia|]. split; [lia|]. subst all. rewrite nth_error_app2 by (unfold zlen; lia).
      replace (Z.to_nat (zlen pre) - length pre)%nat with 0%nat by (unfold zlen; lia). reflexivity.
    + destruct (holds_next r tc all c (zlen pre) HI H ltac:(lia)) as (c' & E & H' & HS & HL & HM). rewrite E. change (0 <? 0) with false. cbv iota.
      assert (EN : nth_error all (Z.to_nat (zlen pre + 1)) = Some e2).
      { subst all. rewrite nth_error_app2 by (unfold zlen; lia). replace (Z.to_nat (zlen pre + 1) - length pre)%nat with 1%nat by (unfold zlen; lia). reflexivity. }
      rewrite EN. destruct (IH fuel c' (pre ++ [e]) e2 H') as (c2 & E2 & H2 & S2 & L2 & M2).
      * rewrite <- app_assoc. exact Ha.
      * rewrite zlen_app. change (zlen [e]) with 1. apply HM. subst all. rewrite zlen_app, !zlen_cons. pose proof (zlen_nonneg _ post). lia.
      * cbn in Hf. lia.
      * rewrite zlen_app in E2, M2. change (zlen [e]) with 1 in E2, M2. exists c2. split; [exact E2|]. split; [exact H2|]. split; [congruence|]. split; [lia|]. exact M2.
Qed.

(* the fuel of the model is enough *)
Lemma scan_enough : forall r tc all c pre e post, intact r -> holds r tc all c -> all = pre ++ e :: post -> (length post < scan_fuel r c)%nat.
Proof.
  intros r tc all c pre e post HI H Ha. pose proof (holds_count r tc all c HI H) as HC. unfold scan_fuel. subst all. rewrite zlen_app, zlen_cons in HC.
  pose proof (zlen_nonneg _ pre). pose proof (zlen_nonneg _ post). unfold zlen in *. lia.
Qed.
