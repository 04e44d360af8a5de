(* Proofs about walking over the blocks of a track: a loaded segment is parsed to its end. *)
From Coq Require Import ZifyBool ZifyNat Sorted.
From Verif Require Import Base ReaderSpec Ids MParUtil MParBlock MParMeta MParTrack MParCues MParCluster ClusterSpec ClusterSafeSpec PClusterSafe MParSegment SegSafeSpec PSegSafe MParWalk WalkSpec PParWalk PParWalk2 PParWalk4.

Section Done.
  Context (r : reader).

  Definition same_place (s s' : pseg) : Prop := pg_start s' = pg_start s /\ pg_size s' = pg_size s.
  Lemma field_len_neg : forall pos stop st, field_len r pos stop = inl st -> st < 0.
  Proof.
    intros pos stop st H. unfold field_len in H. destruct (pos + 1 >? r_avail r); [injection H as <-; reflexivity|]. destruct (GetUIntLength r pos) as [res len].
    destruct (Z.ltb_spec res 0); [injection H as <-; lia|]. destruct (res >? 0); [injection H as <-; reflexivity|]. destruct ((stop >=? 0) && _); [injection H as <-; reflexivity|].
    destruct (pos + len >? r_avail r); [injection H as <-; reflexivity|discriminate].
  Qed.
  Lemma read_uint_neg : forall pos stop st, read_uint_field r pos stop = inl st -> st < 0.
  Proof.
    intros pos stop st H. unfold read_uint_field in H. destruct (field_len r pos stop) eqn:E; [injection H as <-; exact (field_len_neg _ _ _ E)|].
    destruct (ReadUInt r pos) as [v len]. destruct (Z.ltb_spec v 0); [injection H as <-; lia|discriminate].
  Qed.
  (* the segment's end is not behind the source's *)
  Definition inside (s : pseg) : Prop := 0 <= pg_start s /\ (0 <= r_total r -> 0 <= pg_size s -> pg_start s + pg_size s <= r_total r).
  Lemma done_total : forall s, inside s -> (r_total r >=? 0) && (pg_pos s >=? r_total r) = true -> DoneParsing r s = true.
  Proof. intros s [H1 H2] H. unfold DoneParsing. destruct (Z.ltb_spec (pg_size s) 0); [destruct (Z.ltb_spec (r_total r) 0); lia|]. lia. Qed.
  Lemma done_stop : forall s, (pg_stop s >=? 0) && (pg_pos s >=? pg_stop s) = true -> DoneParsing r s = true.
  Proof. intros s H. unfold DoneParsing, pg_stop in *. destruct (Z.ltb_spec (pg_size s) 0); lia. Qed.

  Lemma next_cluster_done : forall fuel s x, next_cluster fuel r s = Val x -> inside s ->
    match x with
    | LN_status st s' => same_place s s' /\ (st = 1 -> DoneParsing r s' = true) /\ st <= 1
    | LN_cluster s' _ _ _ => same_place s s'
    end.
  Proof.
    induction fuel as [|fuel IH]; intros s x H Hi; [discriminate H|]. cbn [next_cluster] in H. cbv zeta in H.
    destruct ((r_total r >=? 0) && (pg_pos s >=? r_total r)) eqn:E1; [injection H as <-; split; [split; reflexivity|split; [intros _; exact (done_total s Hi E1)|lia]]|].
    destruct ((pg_stop s >=? 0) && (pg_pos s >=? pg_stop s)) eqn:E2; [injection H as <-; split; [split; reflexivity|split; [intros _; exact (done_stop s E2)|lia]]|]. 
    destruct (field_len r (pg_pos s) (pg_stop s)) eqn:E3; [injection H as <-; pose proof (field_len_neg _ _ _ E3); split; [split; reflexivity|split; [intros X; exfalso; lia|lia]]|].
    destruct (ReadID r (pg_pos s)) as [id len]. destruct (id <? 0); [injection H as <-; split; [split; reflexivity|split; [intros X; exfalso; revert X; unfold E_FILE_FORMAT_INVALID; lia|unfold E_FILE_FORMAT_INVALID; lia]]|].
    destruct (read_uint_field r (pg_pos s + len) (pg_stop s)) as [st|[size len2]] eqn:E4; [injection H as <-; pose proof (read_uint_neg _ _ _ E4); split; [split; reflexivity|split; [intros X; exfalso; lia|lia]]|].
    assert (BAD : forall y, Val (LN_status E_FILE_FORMAT_INVALID s) = Val y -> match y with
      | LN_status st s' => same_place s s' /\ (st = 1 -> DoneParsing r s' = true) /\ st <= 1
      | LN_cluster s' _ _ _ => same_place s s' end).
    { intros y Hy. injection Hy as <-. split; [split; reflexivity|unfold E_FILE_FORMAT_INVALID; split; [intros X; exfalso; lia|lia]]. }
    assert (GO : forall s0, same_place s s0 -> next_cluster fuel r s0 = Val x -> match x with
      | LN_status st s' => same_place s s' /\ (st = 1 -> DoneParsing r s' = true) /\ st <= 1
      | LN_cluster s' _ _ _ => same_place s s' end).
    { intros s0 [Q1 Q2] Hn. assert (Hi0 : inside s0) by (unfold inside in *; rewrite Q1, Q2; exact Hi). specialize (IH s0 x Hn Hi0). unfold same_place in *. destruct x; rewrite Q1, Q2 in IH; exact IH. }
    destruct (size =? 0); [refine (GO _ _ H); split; reflexivity|]. destruct ((pg_stop s >=? 0) && _ && _); [exact (BAD _ H)|]. destruct (id =? kMkvCues).
    { destruct (size =? unknown_size len2); [exact (BAD _ H)|]. refine (GO _ _ H). destruct (pg_cues s); split; reflexivity. }
    destruct (negb (id =? kMkvCluster)); [destruct (size =? unknown_size len2); [exact (BAD _ H)|]; refine (GO _ _ H); split; reflexivity|].
    injection H as <-. split; reflexivity.
  Qed.

  Lemma DoLoad_done : forall s st s', DoLoadCluster r s = Val (st, s') -> inside s -> same_place s s' /\ (st = 1 -> DoneParsing r s' = true).
  Proof.
    intros s st s' H Hi. unfold DoLoadCluster in H. destruct (pg_pos s <? 0).
    - unfold DoLoadClusterUnknownSize in H. destruct (_ || _); [injection H as <- <-; split; [split; reflexivity|discriminate]|]. destruct (rev (pg_clusters s)) as [|c cl]; [injection H as <- <-; split; [split; reflexivity|discriminate]|].
      destruct (Cluster_Parse r c) as [[[st1 c']|]|]; try discriminate H. cbv zeta in H. destruct (Z.ltb_spec st1 0); [injection H as <- <-; split; [split; reflexivity|lia]|].
      destruct (st1 =? 0); [injection H as <- <-; split; [split; reflexivity|lia]|]. destruct (cl_esize c' <? 0); injection H as <- <-; (split; [split; reflexivity|]); [discriminate|lia].
    - destruct (_ && _); [injection H as <- <-; split; [split; reflexivity|discriminate]|]. destruct (next_cluster (loop_fuel r (pg_pos s)) r s) as [x|] eqn:E; [|discriminate H]. pose proof (next_cluster_done _ _ _ E Hi) as X.
      destruct x as [st1 s1|s1 idpos pos size].
      + injection H as <- <-. destruct X as (X1 & X2 & _). auto.
      + destruct X as [X1 X2]. destruct (HasBlockEntries r s1 (idpos - pg_start s1)) as [st1|]; [|discriminate H]. cbv zeta in H. destruct (Z.ltb_spec st1 0); [injection H as <- <-; split; [split; assumption|lia]|].
        assert (Hi1 : inside s1) by (unfold inside in *; rewrite X1, X2; exact Hi).
        destruct (st1 =? 0).
        * set (p := if size >=? 0 then pos + size else pos) in *. destruct ((r_total r >=? 0) && (p >=? r_total r)) eqn:E2; [injection H as <- <-; split; [split; assumption|]|].
          { intros _. apply done_total; [exact Hi1|]. cbn [pg_set_pos pg_pos]. lia. }
          destruct ((pg_stop s1 >=? 0) && (p >=? pg_stop s1)) eqn:E3; injection H as <- <-; (split; [split; assumption|]); [|lia].
          intros _. apply done_stop. change (pg_stop (pg_set_pos (pg_stop s1) s1)) with (pg_stop s1). cbn [pg_set_pos pg_pos]. lia.
        * destruct (size >=? 0); [destruct (_ && _)|]; injection H as <- <-; (split; [split; assumption|discriminate]).
  Qed.
  Lemma inside_same : forall s s', same_place s s' -> inside s -> inside s'.
  Proof. intros s s' [A B] H. unfold inside in *. rewrite A, B. exact H. Qed.
  Lemma same_place_trans : forall a b c, same_place a b -> same_place b c -> same_place a c.
  Proof. intros a b c [A1 A2] [B1 B2]. split; congruence. Qed.
  Lemma load_cluster_done : forall fuel s st s', load_cluster fuel r s = Val (st, s') -> inside s -> same_place s s' /\ (st = 1 -> DoneParsing r s' = true) /\ st <= 1.
  Proof.
    induction fuel as [|fuel IH]; intros s st s' H Hi; [discriminate H|]. cbn [load_cluster] in H. destruct (DoLoadCluster r s) as [[st1 s1]|] eqn:E; [|discriminate H].
    destruct (DoLoad_done _ _ _ E Hi) as [X1 X2]. destruct (Z.leb_spec st1 1); [injection H as <- <-; auto|].
    destruct (IH _ _ _ H (inside_same _ _ X1 Hi)) as (Y1 & Y2 & Y3). split; [exact (same_place_trans _ _ _ X1 Y1)|auto].
  Qed.
  Lemma load_all_done : forall fuel s s', load_all fuel r s = Val (0, s') -> inside s -> DoneParsing r s' = true.
  Proof.
    induction fuel as [|fuel IH]; intros s s' H Hi; [discriminate H|]. cbn [load_all] in H. destruct (LoadCluster r s) as [[st1 s1]|] eqn:E; [|discriminate H].
    destruct (load_cluster_done _ _ _ _ E Hi) as (X1 & X2 & X3). destruct (Z.ltb_spec st1 0); [injection H as -> ->; lia|]. destruct (Z.geb_spec st1 1); [injection H as <-; apply X2; lia|].
    exact (IH _ _ H (inside_same _ _ X1 Hi)).
  Qed.

  Lemma level1_place : forall id pos size s st s', level1_element r id pos size s = Val (st, s') -> same_place s s'.
  Proof.
    intros id pos size s st s' H. unfold level1_element, keep in H.
    repeat match type of H with
    | context [match ?x with _ => _ end] => destruct x; try discriminate H
    end; injection H as <- <-; split; reflexivity.
  Qed.
  Lemma headers_place : forall fuel s x, headers_loop fuel r s = Val x -> same_place s (match x with inl (_, s') => s' | inr s' => s' end).
  Proof.
    induction fuel as [|fuel IH]; intros s x H; [discriminate H|]. cbn [headers_loop] in H. cbv zeta in H.
    assert (R0 : same_place s s) by (split; reflexivity).
    destruct ((r_total r >=? 0) && _); [injection H as <-; exact R0|]. destruct ((pg_stop s >=? 0) && _); [injection H as <-; exact R0|]. destruct (pg_pos s + 1 >? LLONG_MAX); [injection H as <-; exact R0|].
    destruct (head_len r (pg_pos s) (pg_stop s)); [injection H as <-; exact R0|]. destruct (ReadID r (pg_pos s)) as [id len]. destruct (id <? 0); [injection H as <-; exact R0|]. destruct (id =? kMkvCluster); [injection H as <-; exact R0|].
    destruct (head_len r (pg_pos s + len) (pg_stop s)); [injection H as <-; exact R0|]. destruct (ReadUInt r (pg_pos s + len)) as [size len2].
    destruct (_ || _); [injection H as <-; exact R0|]. destruct (_ >? LLONG_MAX); [injection H as <-; exact R0|]. destruct (_ && _); [injection H as <-; exact R0|]. destruct (_ >? r_avail r); [injection H as <-; exact R0|].
    destruct (level1_element r id _ size s) as [[st s1]|] eqn:E; [|discriminate H]. pose proof (level1_place _ _ _ _ _ _ E) as X. destruct (negb (st =? 0)); [injection H as <-; exact X|].
    pose proof (IH _ _ H) as Y. exact (same_place_trans s s1 _ X Y).
  Qed.
  Lemma Load_done : forall s s1, 0 <= pg_start s -> Segment_Load r s = Val (0, s1) -> DoneParsing r s1 = true.
  Proof.
    intros s s1 Hs H. unfold Segment_Load in H. destruct (pg_clusters s); [|discriminate H]. destruct (ParseHeaders r s) as [[st s2]|] eqn:E; [|discriminate H].
    destruct (Z.ltb_spec st 0); [injection H as -> ->; lia|]. destruct (Z.gtb_spec st 0); [discriminate H|]. destruct (pg_info s2); [|discriminate H]. destruct (pg_tracks s2); [|discriminate H].
    assert (st = 0) by lia. subst st. apply (load_all_done _ _ _ H). unfold ParseHeaders in E. cbv zeta in E. destruct ((r_total r >? 0) && _); [discriminate E|].
    destruct ((pg_stop s >=? 0) && (r_total r >=? 0) && (pg_stop s >? r_total r) || (pg_stop s >=? 0) && (pg_pos s >? pg_stop s)) eqn:E1; [discriminate E|].
    destruct (headers_loop (loop_fuel r (pg_pos s)) r s) as [x|] eqn:E2; [|discriminate E]. pose proof (headers_place _ _ _ E2) as X.
    assert (Hx : same_place s s2).
    { destruct x as [[st0 s9]|s9]; [injection E as -> ->; exact X|]. destruct ((pg_stop s >=? 0) && (pg_pos s9 >? pg_stop s)); [discriminate E|]. destruct (pg_info s9); [|discriminate E]. destruct (pg_tracks s9); [|discriminate E]. injection E as <-. exact X. }
    apply (inside_same s s2 Hx). split; [exact Hs|]. intros A B. unfold pg_stop in E1. replace (pg_size s <? 0) with false in E1 by lia. lia.
  Qed.
End Done.
