(* Loading any data returns. *)
From Coq Require Import ZifyBool ZifyNat Sorted.
From Verif Require Import Base EbmlSpec ReaderSpec Ids MMuxUtil MParUtil PParUtil MParMeta MParBlock MParTrack MParCues MParCluster ClusterSpec
  ClusterSafeSpec PClusterSafe PParMeta PParMeta2 PParTrack4 ReadTrackSpec MParSegment SegSafeSpec.

Section Safe.
  Context (r : reader) (HI : intact r) (HAV : r_avail r <= 2 ^ 62).

  Lemma intact_neg : forall pos len st, r_read r pos len = inl st -> st < 0.
  Proof.
    intros pos len st H. destruct HI as (_ & _ & Hsh & He). unfold r_read in H. rewrite He in H. change (negb (0 =? 0)) with false in H. cbn iota in H.
    destruct ((pos <? 0) || (len <? 0)); [injection H as <-; lia|]. destruct (len =? 0); [discriminate|]. destruct (pos + len <=? r_avail r); [discriminate|]. injection H as <-. exact Hsh.
  Qed.
  Lemma Hwf : wf_reader r.
  Proof. exact (proj1 HI). Qed.

  Lemma avail_nonneg : 0 <= r_avail r.
  Proof. pose proof (proj1 (proj2 (proj1 HI))). lia. Qed.
  Lemma total_fine : (r_total r >=? 0) && (r_avail r >? r_total r) = false.
  Proof. destruct HI as (_ & [H|H] & _); lia. Qed.

  (* ---------- the invariant ---------- *)

  (* where the next cluster can start *)
  Definition front (s : pseg) : Z :=
    if pg_pos s <? 0 then match rev (pg_clusters s) with c :: _ => cl_start c + 1 | [] => 0 end else pg_pos s.
  Record seg_inv (s : pseg) : Prop := mkInv {
    si_start : 0 <= pg_start s <= r_avail r;
    si_size : pg_size s = -1 \/ 0 <= pg_size s;
    si_pos : 0 <= pg_pos s -> pg_start s <= pg_pos s;
    si_open : pg_pos s < 0 -> pg_unknown s = true /\ pg_clusters s <> [];
    si_clusters : Forall (fun c => reachable r c /\ pg_start s <= cl_start c < r_avail r) (pg_clusters s);
    si_sorted : StronglySorted (fun a b => cl_start a < cl_start b) (pg_clusters s);
    si_front : Forall (fun c => cl_start c < front s) (pg_clusters s)
  }.
  Definition same_parts (s s' : pseg) : Prop :=
    pg_start s' = pg_start s /\ pg_size s' = pg_size s /\ pg_info s' = pg_info s /\ pg_tracks s' = pg_tracks s.
  Lemma same_parts_refl : forall s, same_parts s s.
  Proof. intros s. repeat split. Qed.
  Lemma same_parts_trans : forall a b c, same_parts a b -> same_parts b c -> same_parts a c.
  Proof. unfold same_parts. intuition congruence. Qed.

  (* moving forwards over elements that are not clusters *)
  Lemma inv_forward : forall s s', seg_inv s -> 0 <= pg_pos s -> pg_pos s <= pg_pos s' -> pg_start s' = pg_start s -> pg_size s' = pg_size s ->
    pg_clusters s' = pg_clusters s -> seg_inv s'.
  Proof.
    intros s s' [H1 H2 H3 H4 H5 H6 H7] Hp Hle E1 E2 E3. constructor; rewrite ?E1, ?E2, ?E3; auto; try lia.
    eapply Forall_impl; [|exact H7]. intros c Hc. cbn beta in *. unfold front in *. replace (pg_pos s <? 0) with false in Hc by lia. replace (pg_pos s' <? 0) with false by lia. lia.
  Qed.

  (* ---------- finding a cluster ---------- *)

  Lemma next_cluster_ok : forall fuel s, seg_inv s -> 0 <= pg_pos s -> enough r (pg_pos s) fuel ->
    exists x, next_cluster fuel r s = Val x /\
      match x with
      | LN_status st s' => (st = 1 \/ st < 0) /\ seg_inv s' /\ pg_pos s <= pg_pos s' /\ pg_clusters s' = pg_clusters s /\ same_parts s s'
      | LN_cluster s' idpos pos size =>
          seg_inv s' /\ pg_pos s <= pg_pos s' /\ pg_clusters s' = pg_clusters s /\ same_parts s s' /\ idpos = pg_pos s' /\
          idpos + 2 <= pos <= r_avail r /\ -1 <= size /\ (r_total r >= 0 -> idpos < r_total r) /\ (pg_stop s' >= 0 -> idpos < pg_stop s')
      end.
  Proof.
    induction fuel as [|fuel IH]; intros s Hi Hp Hf; [destruct Hf; lia|]. cbn [next_cluster].
    pose proof (same_parts_refl s) as SR.
    assert (Hfail : forall st, st = 1 \/ st < 0 -> exists x, Val (LN_status st s) = Val x /\ match x with LN_status st s' => (st = 1 \/ st < 0) /\ seg_inv s' /\ pg_pos s <= pg_pos s' /\ pg_clusters s' = pg_clusters s /\ same_parts s s'
      | LN_cluster s' idpos pos size =>
          seg_inv s' /\ pg_pos s <= pg_pos s' /\ pg_clusters s' = pg_clusters s /\ same_parts s s' /\ idpos = pg_pos s' /\
          idpos + 2 <= pos <= r_avail r /\ -1 <= size /\ (r_total r >= 0 -> idpos < r_total r) /\ (pg_stop s' >= 0 -> idpos < pg_stop s') end).
    { intros st Hst. eexists. split; [reflexivity|]. cbn iota. split; [exact Hst|]. split; [exact Hi|]. split; [lia|]. split; [reflexivity|exact SR]. }
    destruct ((r_total r >=? 0) && (pg_pos s >=? r_total r)) eqn:T1; [apply Hfail; auto|].
    destruct ((pg_stop s >=? 0) && (pg_pos s >=? pg_stop s)) eqn:T2; [apply Hfail; auto|].
    destruct (field_len r (pg_pos s) (pg_stop s)) as [st|w] eqn:EF; [apply Hfail; right; eapply field_len_neg; eauto|].
    destruct (ReadID r (pg_pos s)) as [id len] eqn:EI. destruct (Z.ltb_spec id 0); [apply Hfail; right; unfold E_FILE_FORMAT_INVALID; lia|].
    destruct (ReadID_range _ _ _ _ Hwf Hp EI) as [|[[Hw _] Ha]]; [lia|]. cbv zeta.
    destruct (read_uint_field r (pg_pos s + len) (pg_stop s)) as [st|[size len2]] eqn:EU; [apply Hfail; right; eapply uint_field_neg; [exact HI| |exact EU]; lia|].
    destruct (uint_field_range r _ _ _ _ HI EU ltac:(lia)) as (L2 & Hsz & Ha2 & _).
    assert (HGO : forall s', pg_start s' = pg_start s -> pg_size s' = pg_size s -> pg_info s' = pg_info s -> pg_tracks s' = pg_tracks s -> pg_clusters s' = pg_clusters s ->
      pg_pos s + len + len2 <= pg_pos s' ->
      exists x, next_cluster fuel r s' = Val x /\ match x with LN_status st s' => (st = 1 \/ st < 0) /\ seg_inv s' /\ pg_pos s <= pg_pos s' /\ pg_clusters s' = pg_clusters s /\ same_parts s s'
      | LN_cluster s' idpos pos size =>
          seg_inv s' /\ pg_pos s <= pg_pos s' /\ pg_clusters s' = pg_clusters s /\ same_parts s s' /\ idpos = pg_pos s' /\
          idpos + 2 <= pos <= r_avail r /\ -1 <= size /\ (r_total r >= 0 -> idpos < r_total r) /\ (pg_stop s' >= 0 -> idpos < pg_stop s') end).
    { intros s' X1 X2 X3 X4 X5 X6. destruct (IH s') as (x & Ex & Hx).
      - eapply inv_forward; eauto; lia.
      - lia.
      - destruct Hf as [Hf1 Hf2]. unfold enough. destruct fuel; lia.
      - exists x. split; [exact Ex|]. assert (SP : same_parts s s') by (repeat split; assumption).
        destruct x; [destruct Hx as (Y1 & Y2 & Y3 & Y4 & Y5); split; [exact Y1|]; split; [exact Y2|]; split; [lia|]; split; [congruence|eapply same_parts_trans; eauto]
                    |destruct Hx as (Y2 & Y3 & Y4 & Y5 & Y6); split; [exact Y2|]; split; [lia|]; split; [congruence|]; split; [eapply same_parts_trans; eauto|exact Y6]]. }
    destruct (Z.eqb_spec size 0); [apply HGO; cbn [pg_set_pos pg_start pg_size pg_info pg_tracks pg_clusters pg_pos]; auto; lia|].
    destruct ((pg_stop s >=? 0) && negb (size =? unknown_size len2) && (pg_pos s + len + len2 + size >? pg_stop s)); [apply Hfail; right; unfold E_FILE_FORMAT_INVALID; lia|].
    destruct (id =? kMkvCues).
    { destruct (size =? unknown_size len2); [apply Hfail; right; unfold E_FILE_FORMAT_INVALID; lia|].
      destruct (pg_cues s); apply HGO; cbn [pg_set_pos pg_set_cues pg_start pg_size pg_info pg_tracks pg_clusters pg_pos]; auto; lia. }
    destruct (negb (id =? kMkvCluster)).
    { destruct (size =? unknown_size len2); [apply Hfail; right; unfold E_FILE_FORMAT_INVALID; lia|].
      apply HGO; cbn [pg_set_pos pg_start pg_size pg_info pg_tracks pg_clusters pg_pos]; auto; lia. }
    eexists. split; [reflexivity|]. cbn iota. split; [exact Hi|]. split; [lia|]. split; [reflexivity|]. split; [exact SR|]. split; [reflexivity|].
    destruct (size =? unknown_size len2); lia.
  Qed.

  Lemma entries_loop_ok : forall fuel stop pos, 0 <= pos -> enough r pos fuel -> exists st, entries_loop fuel r stop pos = Val st /\ st <= 1.
  Proof.
    induction fuel as [|fuel IH]; intros stop pos Hp Hf; [destruct Hf; lia|]. cbn [entries_loop]. unfold E_FILE_FORMAT_INVALID.
    destruct ((stop >=? 0) && (pos >=? stop)); [exists 0; split; [reflexivity|lia]|].
    destruct (read_id_field r pos stop) as [st|[id len]] eqn:EI; [exists st; split; [reflexivity|]; pose proof (id_field_neg r pos stop st HI Hp EI); lia|].
    destruct (id_field_range r pos stop id len HI EI Hp) as (L1 & _ & A1 & _).
    destruct ((id =? kMkvCluster) || (id =? kMkvCues)); [exists 0; split; [reflexivity|lia]|]. cbv zeta.
    destruct ((stop >=? 0) && (pos + len >=? stop)); [eexists; split; [reflexivity|lia]|].
    destruct (read_uint_field r (pos + len) stop) as [st|[size len2]] eqn:EU; [exists st; split; [reflexivity|]; pose proof (uint_field_neg r (pos + len) stop st HI ltac:(lia) EU); lia|].
    destruct (uint_field_range r _ _ _ _ HI EU ltac:(lia)) as (L2 & Hsz & A2 & _).
    destruct ((stop >=? 0) && (pos + len + len2 >? stop)); [eexists; split; [reflexivity|lia]|].
    assert (HG : forall p, pos + len + len2 <= p -> exists st, entries_loop fuel r stop p = Val st /\ st <= 1).
    { intros p Hle. apply IH; [lia|]. destruct Hf as [Hf1 Hf2]. unfold enough. destruct fuel; lia. }
    destruct (size =? 0); [apply HG; lia|]. destruct (size =? unknown_size len2); [eexists; split; [reflexivity|lia]|].
    destruct ((stop >=? 0) && (pos + len + len2 + size >? stop)); [eexists; split; [reflexivity|lia]|].
    destruct ((id =? kMkvBlockGroup) || (id =? kMkvSimpleBlock)); [eexists; split; [reflexivity|lia]|]. apply HG. lia.
  Qed.
  Lemma entries_len_st : forall pos stop st, entries_len r pos stop = inl st -> st <= 0.
  Proof.
    intros pos stop st E. unfold entries_len in E. unfold E_BUFFER_NOT_FULL, E_FILE_FORMAT_INVALID in E.
    destruct (pos + 1 >? r_avail r); [injection E as <-; lia|]. destruct (GetUIntLength r pos) as [res len]. destruct (Z.ltb_spec res 0); [injection E as <-; lia|].
    destruct (res >? 0); [injection E as <-; lia|]. destruct ((stop >=? 0) && (pos + len >? stop)); [injection E as <-; lia|].
    destruct ((r_total r >=? 0) && (pos + len >? r_total r)); [injection E as <-; lia|]. destruct (pos + len >? r_avail r); [injection E as <-; lia|discriminate].
  Qed.
  Lemma HasBlockEntries_ok : forall s off, 0 <= off -> 0 <= pg_start s -> exists st, HasBlockEntries r s off = Val st /\ st <= 1.
  Proof.
    intros s off Ho Hs. unfold HasBlockEntries. unfold E_PARSE_FAILED, E_FILE_FORMAT_INVALID. replace (off <? 0) with false by lia. rewrite total_fine. cbv zeta.
    destruct ((r_total r >=? 0) && (pg_start s + off >=? r_total r)); [eexists; split; [reflexivity|lia]|].
    destruct (entries_len r (pg_start s + off) (pg_stop s)) as [st|w] eqn:E1; [exists st; split; [reflexivity|]; apply entries_len_st in E1; lia|].
    destruct (ReadID r (pg_start s + off)) as [id len] eqn:EI. destruct (Z.ltb_spec id 0); [eexists; split; [reflexivity|lia]|].
    destruct (ReadID_range r (pg_start s + off) id len Hwf ltac:(lia) EI) as [|[[Hw _] Ha]]; [lia|].
    destruct (negb (id =? kMkvCluster)); [eexists; split; [reflexivity|lia]|].
    destruct (entries_len r (pg_start s + off + len) (pg_stop s)) as [st|w2] eqn:E2; [exists st; split; [reflexivity|]; apply entries_len_st in E2; lia|].
    destruct (ReadUInt r (pg_start s + off + len)) as [size len2] eqn:EU. destruct (Z.ltb_spec size 0); [eexists; split; [reflexivity|lia]|].
    destruct (ReadUInt_range r (pg_start s + off + len) size len2 Hwf ltac:(lia) EU) as [|(L2 & Hv & A2)]; [lia|].
    destruct (size =? 0); [eexists; split; [reflexivity|lia]|]. destruct (size =? unknown_size len2); [apply entries_loop_ok; [lia|apply loop_fuel_enough]|].
    destruct ((pg_stop s >=? 0) && (pg_start s + off + len + len2 + size >? pg_stop s)); [eexists; split; [reflexivity|lia]|].
    destruct ((r_total r >=? 0) && (pg_start s + off + len + len2 + size >? r_total r)); [eexists; split; [reflexivity|lia]|].
    apply entries_loop_ok; [lia|apply loop_fuel_enough].
  Qed.

  (* ---------- DoLoadCluster ---------- *)

  Lemma sorted_snoc : forall l (c : cluster), StronglySorted (fun a b => cl_start a < cl_start b) l -> Forall (fun a => cl_start a < cl_start c) l ->
    StronglySorted (fun a b => cl_start a < cl_start b) (l ++ [c]).
  Proof.
    induction l as [|a l IH]; intros c HS HF; cbn [app]; [repeat constructor|]. inversion HS; subst. inversion HF; subst. constructor; [apply IH; assumption|].
    apply Forall_app. split; [assumption|]. constructor; [assumption|constructor].
  Qed.
  Lemma Load_found : forall s idpos p u, seg_inv s -> 0 <= pg_pos s -> idpos = pg_pos s -> idpos < r_avail r ->
    (0 <= p -> idpos < p) -> (p < 0 -> u = true) ->
    seg_inv (pg_set_pos p (pg_set_clusters (pg_clusters s ++ [new_cluster idpos]) u s)) /\
    idpos < front (pg_set_pos p (pg_set_clusters (pg_clusters s ++ [new_cluster idpos]) u s)).
  Proof.
    intros s idpos p u [H1 H2 H3 H4 H5 H6 H7] Hp -> HL Hu1 Hu2. set (s' := pg_set_pos _ _).
    assert (HF : pg_pos s < front s').
    { unfold front, s'. cbn [pg_set_pos pg_set_clusters pg_pos pg_clusters]. destruct (Z.ltb_spec p 0); [|lia]. rewrite rev_app_distr. cbn [rev app new_cluster cl_start]. lia. }
    assert (HB : Forall (fun c => cl_start c < pg_pos s) (pg_clusters s)).
    { eapply Forall_impl; [|exact H7]. intros c Hc. cbn beta in *. unfold front in Hc. replace (pg_pos s <? 0) with false in Hc by lia. exact Hc. }
    split; [|exact HF]. constructor; unfold s'; cbn [pg_set_pos pg_set_clusters pg_start pg_size pg_pos pg_clusters pg_unknown]; auto.
    - lia.
    - intros Hn. split; [auto|]. destruct (pg_clusters s); discriminate.
    - apply Forall_app. split; [exact H5|]. constructor; [|constructor]. cbn [new_cluster cl_start]. split; [constructor; lia|lia].
    - apply sorted_snoc; [exact H6|]. exact HB.
    - fold s'. apply Forall_app. split; [eapply Forall_impl; [|exact HB]; intros c Hc; cbn beta in *; lia|]. constructor; [|constructor]. cbn [new_cluster cl_start]. exact HF.
  Qed.

  Lemma DoLoad_ok : forall s, seg_inv s -> 0 <= pg_pos s -> exists st s', DoLoadCluster r s = Val (st, s') /\ seg_inv s' /\ same_parts s s' /\ st <= 2 /\
    (st = 2 -> 0 <= pg_pos s' /\ pg_pos s < pg_pos s' /\ pg_pos s < r_avail r) /\
    (st = 0 -> front s < front s' /\ front s < r_avail r).
  Proof.
    intros s Hi Hp. unfold DoLoadCluster. replace (pg_pos s <? 0) with false by lia. rewrite total_fine.
    destruct (next_cluster_ok (loop_fuel r (pg_pos s)) s Hi Hp (loop_fuel_enough r _)) as ([st s'|s' idpos pos size] & -> & Hx).
    { destruct Hx as (X1 & X2 & X3 & X4 & X5). exists st, s'. split; [reflexivity|]. split; [exact X2|]. split; [exact X5|]. lia. }
    destruct Hx as (X1 & X2 & X3 & X4 & X5 & X6 & X7 & X8 & X9). pose proof X1 as [Y1 Y2 Y3 Y4 Y5 Y6 Y7].
    destruct (HasBlockEntries_ok s' (idpos - pg_start s') ltac:(lia) ltac:(lia)) as (status & -> & Hst).
    assert (HFR : front s = pg_pos s) by (unfold front; replace (pg_pos s <? 0) with false by lia; reflexivity).
    destruct (Z.ltb_spec status 0). { exists status, s'. split; [reflexivity|]. split; [exact X1|]. split; [exact X4|]. lia. }
    cbv zeta. assert (HSP : forall p, same_parts s (pg_set_pos p s')) by (intros p; exact X4).
    destruct (Z.eqb_spec status 0).
    - set (p := if size >=? 0 then pos + size else pos). assert (Hpp : pos <= p) by (unfold p; destruct (Z.geb_spec size 0); lia).
      assert (HG : forall q, idpos <= q -> seg_inv (pg_set_pos q s')).
      { intros q Hq. apply (inv_forward s' _ X1); cbn [pg_set_pos pg_pos pg_start pg_size pg_clusters]; auto; lia. }
      destruct ((r_total r >=? 0) && (p >=? r_total r)) eqn:T1.
      { eexists _, _. split; [reflexivity|]. split; [apply HG; lia|]. split; [apply HSP|]. lia. }
      destruct ((pg_stop s' >=? 0) && (p >=? pg_stop s')) eqn:T2.
      { eexists _, _. split; [reflexivity|]. split; [apply HG; lia|]. split; [apply HSP|]. lia. }
      eexists _, _. split; [reflexivity|]. split; [apply HG; lia|]. split; [apply HSP|]. split; [lia|]. split; [|lia].
      intros _. cbn [pg_set_pos pg_pos]. lia.
    - destruct (Z.geb_spec size 0).
      + destruct (Load_found s' idpos (pos + size) (pg_unknown s') X1 ltac:(lia) X5 ltac:(lia) ltac:(lia) ltac:(lia)) as [F1 F2].
        destruct ((pg_stop s' >? 0) && _).
        * eexists _, _. split; [reflexivity|]. split; [exact F1|]. split; [exact X4|]. unfold E_FILE_FORMAT_INVALID. lia.
        * eexists _, _. split; [reflexivity|]. split; [exact F1|]. split; [exact X4|]. split; [lia|]. split; [lia|]. intros _. lia.
      + destruct (Load_found s' idpos (- pos) true X1 ltac:(lia) X5 ltac:(lia) ltac:(lia) ltac:(auto)) as [F1 F2].
        eexists _, _. split; [reflexivity|]. cbn [pg_set_clusters pg_clusters]. 
        change (pg_set_pos (- pos) (pg_set_clusters (pg_clusters s' ++ [new_cluster idpos]) true (pg_set_clusters (pg_clusters s' ++ [new_cluster idpos]) (pg_unknown s') s')))
          with (pg_set_pos (- pos) (pg_set_clusters (pg_clusters s' ++ [new_cluster idpos]) true s')).
        split; [exact F1|]. split; [exact X4|]. split; [lia|]. split; [lia|]. intros _. lia.
  Qed.

  (* the number of entries of the last cluster *)
  Definition count (s : pseg) : Z := match rev (pg_clusters s) with c :: _ => zlen (entries c) | [] => 0 end.
  Lemma set_last_app : forall A (l : list A) a x, set_last (l ++ [a]) x = l ++ [x].
  Proof. induction l as [|b l IH]; intros a x; [reflexivity|]. cbn [app set_last]. rewrite IH. destruct (l ++ [a]) eqn:E; [destruct l; discriminate|reflexivity]. Qed.
  Lemma replace_last : forall l c c', cl_start c' = cl_start c -> reachable r c' ->
    Forall (fun c => reachable r c) (l ++ [c]) -> StronglySorted (fun a b => cl_start a < cl_start b) (l ++ [c]) ->
    StronglySorted (fun a b => cl_start a < cl_start b) (l ++ [c']).
  Proof.
    intros l c c' E Hr _ HS. revert HS. induction l as [|a l IH]; cbn [app]; intros HS; [repeat constructor|]. inversion HS; subst. constructor; [apply IH; assumption|].
    match goal with H : Forall _ (l ++ [c]) |- _ => apply Forall_app in H as [F1 F2]; inversion F2; subst end. apply Forall_app. split; [assumption|]. constructor; [rewrite E; assumption|constructor].
  Qed.

  Lemma DoUnknown_ok : forall s, seg_inv s -> pg_pos s < 0 -> exists st s', DoLoadCluster r s = Val (st, s') /\ seg_inv s' /\ same_parts s s' /\ (st < 0 \/ st = 2) /\
    (st = 2 -> front s <= front s' /\ ((pg_pos s' = pg_pos s /\ count s' = count s + 1) \/ 0 <= pg_pos s')).
  Proof.
    intros s Hi Hp. pose proof Hi as [Y1 Y2 Y3 Y4 Y5 Y6 Y7]. destruct (Y4 Hp) as [Hu Hne].
    unfold DoLoadCluster. replace (pg_pos s <? 0) with true by lia. unfold DoLoadClusterUnknownSize. rewrite Hu. replace ((pg_pos s >=? 0) || negb true) with false by lia.
    destruct (exists_last Hne) as (l & c & El). assert (Erev : rev (pg_clusters s) = c :: rev l) by (rewrite El, rev_app_distr; reflexivity). rewrite Erev.
    assert (Hc : reachable r c /\ pg_start s <= cl_start c < r_avail r). { rewrite Forall_forall in Y5. apply Y5. rewrite El. apply in_or_app. right. left. reflexivity. }
    destruct Hc as [Hc Hcs]. destruct (Cluster_Parse_total r c HI (reachable_inv r c HI Hc)) as (st & c' & EP & (K1 & K2 & K3 & K4 & K5)). rewrite EP.
    assert (Hc' : reachable r c') by exact (re_parse r c st c' Hc EP).
    set (s1 := pg_set_clusters (set_last (pg_clusters s) c') true s).
    assert (E1 : pg_clusters s1 = l ++ [c']) by (unfold s1; cbn [pg_set_clusters pg_clusters]; rewrite El; apply set_last_app).
    assert (Fr1 : front s1 = front s).
    { unfold front. rewrite E1, Erev, rev_app_distr. cbn [rev app]. unfold s1. cbn [pg_set_clusters pg_pos]. rewrite K3. reflexivity. }
    assert (C5 : Forall (fun c => reachable r c /\ pg_start s <= cl_start c < r_avail r) (l ++ [c'])).
    { rewrite El in Y5. apply Forall_app in Y5 as [F1 F2]. apply Forall_app. split; [exact F1|]. constructor; [|constructor]. split; [exact Hc'|lia]. }
    assert (C6 : StronglySorted (fun a b => cl_start a < cl_start b) (l ++ [c'])).
    { rewrite El in Y6. eapply replace_last; eauto. rewrite <- El. eapply Forall_impl; [|exact Y5]. intros x [Hx _]. exact Hx. }
    assert (C7 : Forall (fun c => cl_start c < front s) (l ++ [c'])).
    { rewrite El in Y7. apply Forall_app in Y7 as [F1 F2]. apply Forall_app. split; [exact F1|]. inversion F2; subst. constructor; [|constructor]. lia. }
    assert (I1 : seg_inv s1).
    { constructor; rewrite ?E1, ?Fr1; auto. unfold s1. cbn [pg_set_clusters pg_pos pg_unknown]. intros _. split; [reflexivity|]. fold s1. destruct l; discriminate. }
    destruct (Z.ltb_spec st 0). { exists st, s1. split; [reflexivity|]. split; [exact I1|]. split; [repeat split|]. lia. }
    destruct (Z.eqb_spec st 0) as [->|].
    { exists 2, s1. split; [reflexivity|]. split; [exact I1|]. split; [repeat split|]. split; [lia|]. intros _. split; [lia|]. left. split; [reflexivity|].
      unfold count. rewrite Erev, E1, rev_app_distr. cbn [rev app]. destruct (K4 eq_refl) as (e & -> & _). rewrite zlen_app. reflexivity. }
    destruct (Z.ltb_spec (cl_esize c') 0). { eexists _, s1. split; [reflexivity|]. split; [exact I1|]. split; [repeat split|]. unfold E_FILE_FORMAT_INVALID. lia. }
    destruct K1 as [K11 K12]. destruct (cl_timecode c' <? 0); [lia|]. assert (HE : cl_start c' < cl_start c' + cl_esize c') by lia.
    eexists _, _. split; [reflexivity|]. set (s2 := pg_set_pos _ _).
    assert (Fr2 : front s < front s2 + 1).
    { unfold front at 2. unfold s2. cbn [pg_set_pos pg_pos]. replace (cl_start c' + cl_esize c' <? 0) with false by lia. unfold front. replace (pg_pos s <? 0) with true by lia. rewrite Erev. lia. }
    split; [|split; [repeat split|]].
    - constructor; unfold s2; cbn [pg_set_pos pg_set_clusters pg_start pg_size pg_pos pg_clusters pg_unknown]; try rewrite E1; auto; try lia.
      { change (pg_start s1) with (pg_start s). lia. }
      rewrite <- E1. fold s2. eapply Forall_impl; [|rewrite E1; exact C7]. cbn beta. intros a Ha. lia.
    - split; [lia|]. intros _. split; [lia|]. right. unfold s2. cbn [pg_set_pos pg_pos]. lia.
  Qed.

  (* ---------- LoadCluster ---------- *)

  Definition load_post (s : pseg) (st : Z) (s' : pseg) : Prop :=
    seg_inv s' /\ same_parts s s' /\ st <= 1 /\ (st = 0 -> front s < front s' /\ front s < r_avail r).
  Lemma load_known : forall fuel s, seg_inv s -> 0 <= pg_pos s -> enough r (pg_pos s) fuel -> exists st s', load_cluster fuel r s = Val (st, s') /\ load_post s st s'.
  Proof.
    induction fuel as [|fuel IH]; intros s Hi Hp Hf; [destruct Hf; lia|]. cbn [load_cluster].
    destruct (DoLoad_ok s Hi Hp) as (st & s' & -> & X1 & X2 & X3 & X4 & X5). destruct (Z.leb_spec st 1).
    - exists st, s'. split; [reflexivity|]. split; [exact X1|]. split; [exact X2|]. split; [lia|exact X5].
    - destruct (X4 ltac:(lia)) as (Z1 & Z2 & Z3). destruct (IH s' X1 Z1) as (st2 & s2 & -> & W1 & W2 & W3 & W4).
      { destruct Hf as [Hf1 Hf2]. unfold enough. destruct fuel; lia. }
      exists st2, s2. split; [reflexivity|]. split; [exact W1|]. split; [eapply same_parts_trans; eauto|]. split; [exact W3|]. intros E. specialize (W4 E).
      unfold front in W4 at 1 3. unfold front at 1 3. replace (pg_pos s <? 0) with false by lia. replace (pg_pos s' <? 0) with false in W4 by lia. lia.
  Qed.
  Lemma load_open : forall n fuel s, seg_inv s -> pg_pos s < 0 -> r_avail r + 1 - count s < Z.of_nat n -> (n + S (Z.to_nat (r_avail r + 1)) <= fuel)%nat ->
    exists st s', load_cluster fuel r s = Val (st, s') /\ load_post s st s'.
  Proof.
    pose proof avail_nonneg as HA0.
    assert (HCB : forall s, seg_inv s -> count s <= r_avail r + 1).
    { intros s [Y1 Y2 Y3 Y4 Y5 Y6 Y7]. unfold count. destruct (rev (pg_clusters s)) as [|c l] eqn:E; [lia|].
      rewrite Forall_forall in Y5. destruct (Y5 c) as [Hc Hs]; [apply in_rev; rewrite E; left; reflexivity|]. pose proof (reachable_count r c HI Hc). lia. }
    induction n as [|n IH]; intros fuel s Hi Hp Hn Hf; [pose proof (HCB s Hi); lia|]. destruct fuel as [|fuel]; [lia|]. cbn [load_cluster].
    destruct (DoUnknown_ok s Hi Hp) as (st & s' & -> & X1 & X2 & X3 & X4). destruct (Z.leb_spec st 1).
    - exists st, s'. split; [reflexivity|]. split; [exact X1|]. split; [exact X2|]. lia.
    - destruct (X4 ltac:(lia)) as (X5 & X6).
      assert (HR : exists st2 s2, load_cluster fuel r s' = Val (st2, s2) /\ load_post s' st2 s2).
      { destruct X6 as [[P1 P2]|P1].
        - apply IH; auto; lia.
        - apply load_known; auto. unfold enough. lia. }
      destruct HR as (st2 & s2 & -> & W1 & W2 & W3 & W4). exists st2, s2. split; [reflexivity|]. split; [exact W1|]. split; [eapply same_parts_trans; eauto|]. split; [exact W3|].
      intros E. specialize (W4 E). lia.
  Qed.
  Theorem LoadCluster_ok : forall s, seg_inv s -> exists st s', LoadCluster r s = Val (st, s') /\ load_post s st s'.
  Proof.
    intros s Hi. unfold LoadCluster, load_fuel. pose proof avail_nonneg as HA0. destruct (Z.ltb_spec (pg_pos s) 0).
    - apply (load_open (S (S (Z.to_nat (r_avail r + 1))))); auto; [|lia]. assert (0 <= count s) by (unfold count; destruct (rev _); [lia|apply zlen_nonneg]). lia.
    - apply load_known; auto. unfold enough. lia.
  Qed.

  (* ---------- Load ---------- *)

  Lemma load_all_ok : forall fuel s, seg_inv s -> enough r (front s) fuel -> exists st s', load_all fuel r s = Val (st, s') /\ seg_inv s' /\ same_parts s s'.
  Proof.
    induction fuel as [|fuel IH]; intros s Hi Hf; [destruct Hf; lia|]. cbn [load_all]. destruct (LoadCluster_ok s Hi) as (st & s' & -> & X1 & X2 & X3 & X4).
    destruct (Z.ltb_spec st 0); [eauto|]. destruct (Z.geb_spec st 1); [eauto|]. destruct (X4 ltac:(lia)) as [X5 X6].
    destruct (IH s' X1) as (st2 & s2 & -> & W1 & W2). { destruct Hf as [Hf1 Hf2]. unfold enough. destruct fuel; lia. }
    exists st2, s2. split; [reflexivity|]. split; [exact W1|eapply same_parts_trans; eauto].
  Qed.

  (* ---------- the headers ---------- *)

  Lemma GetUIntLength_neg : forall pos, pos < 0 -> GetUIntLength r pos = (E_FILE_FORMAT_INVALID, 0).
  Proof. intros pos H. unfold GetUIntLength. replace (pos <? 0) with true by lia. reflexivity. Qed.
  Lemma ParseEntry_returns : forall start size, exists x, ParseEntry r start size = Val x.
  Proof.
    intros start size. unfold ParseEntry. cbv zeta. destruct (size <=? 0); [eauto|]. destruct (ReadID r start) as [a la]. destruct (a <? 0); [eauto|].
    destruct (negb _); [eauto|]. destruct (_ >? _); [eauto|]. destruct (ReadUInt r (start + la)) as [b lb]. destruct (b <=? 0); [eauto|]. destruct (_ >? _); [eauto|].
    destruct (_ >? _); [eauto|]. destruct (ReadID r _) as [c lc]. destruct (c <=? 0); [eauto|]. destruct (negb _); [eauto|]. destruct (ReadID r _) as [d ld].
    destruct (negb _); [eauto|]. destruct (_ >? _); [eauto|]. destruct (ReadUInt r _) as [e le]. destruct (e <=? 0); [eauto|]. destruct (_ >? _); [eauto|]. destruct (_ >? _); [eauto|].
    destruct (UInt_returns r intact_neg (start + la + lb + b + ld + le) e) as [v ->]. destruct (v <? 0); [eauto|]. destruct (negb _); eauto.
  Qed.
  Lemma SeekHead_returns : forall pos size, 0 <= pos -> pos + size <= LLONG_MAX -> exists x, SeekHead_Parse r pos size = Val x.
  Proof.
    intros pos size Hp HL. unfold SeekHead_Parse.
    destruct (payload_returns r Hwf HAV intact_neg _ ZPass seek_count pos size (0, 0)) as [[st n] ->]; auto.
    { intros id p n0 [a b] _ _. unfold seek_count. repeat match goal with |- context [if ?b then _ else _] => destruct b end; eauto. }
    destruct (negb _); [eauto|].
    destruct (payload_returns r Hwf HAV intact_neg _ ZPass (seek_element r) pos size (pos, mkPSH [] [])) as [[st2 [ip h]] ->]; [|lia|lia|eauto].
    intros id p n0 [ip h] _ _. unfold seek_element. cbv zeta. destruct (id =? kMkvSeek); [|destruct (id =? kMkvVoid); eauto].
    destruct (ParseEntry_returns p n0) as [[[a b]|] ->]; eauto.
  Qed.

  (* the tracks come from a Tracks element of the file *)
  Definition tracks_from (s : pseg) (st : Z) : Prop := forall l, pg_tracks s = Some l -> exists pos size, 0 <= pos /\ Tracks_Parse r pos size = Val (st, l).
  Lemma level1_ok : forall id pos size s, 0 <= pos -> pos + size <= LLONG_MAX -> exists st s', level1_element r id pos size s = Val (st, s') /\
    pg_start s' = pg_start s /\ pg_size s' = pg_size s /\ pg_clusters s' = pg_clusters s /\ pg_pos s' = pg_pos s /\ pg_unknown s' = pg_unknown s /\
    (st = 0 -> tracks_from s 0 -> tracks_from s' 0).
  Proof.
    intros id pos size s Hp HL. unfold level1_element.
    destruct (id =? kMkvInfo).
    { destruct (pg_info s); [eauto 12|]. destruct (SegmentInfo_returns r Hwf HAV intact_neg pos size Hp HL) as [[st x] ->]. cbn [keep]. eexists _, _. repeat (split; [reflexivity|]). auto. }
    destruct (id =? kMkvTracks).
    { destruct (pg_tracks s) eqn:ET; [eauto 12|]. destruct (Tracks_returns r Hwf HAV intact_neg pos size Hp HL) as [[st x] E]. rewrite E. cbn [keep]. eexists _, _. repeat (split; [reflexivity|]).
      intros -> _ l Hl. cbn [pg_set_tracks pg_tracks] in Hl. injection Hl as <-. exists pos, size. split; [exact Hp|exact E]. }
    destruct (id =? kMkvCues). { destruct (pg_cues s); eexists _, _; repeat (split; [reflexivity|]); auto. }
    destruct (id =? kMkvSeekHead).
    { destruct (pg_seek s); [eauto 12|]. destruct (SeekHead_returns pos size Hp HL) as [[st x] ->]. cbn [keep]. eexists _, _. repeat (split; [reflexivity|]). auto. }
    destruct (id =? kMkvChapters).
    { destruct (pg_chapters s); [eauto 12|]. destruct (Chapters_returns r Hwf HAV intact_neg pos size Hp HL) as [[st x] ->]. cbn [keep]. eexists _, _. repeat (split; [reflexivity|]). auto. }
    destruct (id =? kMkvTags); [|eauto 12].
    destruct (pg_tags s); [eauto 12|]. destruct (Tags_returns r Hwf HAV intact_neg pos size Hp HL) as [[st x] ->]. cbn [keep]. eexists _, _. repeat (split; [reflexivity|]). auto.
  Qed.

  Definition headers_post (s s' : pseg) : Prop := seg_inv s' /\ pg_pos s <= pg_pos s' /\ pg_clusters s' = pg_clusters s.
  Lemma headers_ok : forall fuel s, seg_inv s -> 0 <= pg_pos s -> enough r (pg_pos s) fuel -> exists x, headers_loop fuel r s = Val x /\
    match x with inl (st, s') => st <> 0 /\ headers_post s s' | inr s' => headers_post s s' /\ (tracks_from s 0 -> tracks_from s' 0) end.
  Proof.
    pose proof avail_nonneg as HA0.
    assert (HLN : forall p stop st, 0 <= p -> head_len r p stop = inl st -> st <> 0).
    { intros p stop st Hp E. unfold head_len in E. destruct (p + 1 >? r_avail r); [injection E as <-; lia|]. destruct (GetUIntLength r p) as [res len].
      destruct (Z.ltb_spec res 0); [injection E as <-; lia|]. destruct (Z.gtb_spec res 0); [injection E as <-; lia|].
      destruct (_ && _); [injection E as <-; unfold E_FILE_FORMAT_INVALID; lia|]. destruct (Z.gtb_spec (p + len) (r_avail r)); [injection E as <-; lia|discriminate E]. }
    induction fuel as [|fuel IH]; intros s Hi Hp Hf; [destruct Hf; lia|]. cbn [headers_loop]. cbv zeta.
    assert (P0 : headers_post s s) by (split; [exact Hi|split; [lia|reflexivity]]).
    destruct ((r_total r >=? 0) && _); [eexists; split; [reflexivity|]; cbn iota; auto|].
    destruct ((pg_stop s >=? 0) && _); [eexists; split; [reflexivity|]; cbn iota; auto|].
    destruct (_ >? LLONG_MAX); [eexists; split; [reflexivity|]; cbn iota; split; [discriminate|exact P0]|].
    destruct (head_len r (pg_pos s) (pg_stop s)) as [st|w] eqn:EH1; [eexists; split; [reflexivity|]; cbn iota; split; [exact (HLN _ _ _ Hp EH1)|exact P0]|].
    destruct (ReadID r (pg_pos s)) as [id len] eqn:EI. destruct (Z.ltb_spec id 0); [eexists; split; [reflexivity|]; cbn iota; split; [discriminate|exact P0]|].
    destruct (ReadID_range r (pg_pos s) id len Hwf Hp EI) as [|[[Hw _] Ha]]; [lia|].
    destruct (id =? kMkvCluster); [eexists; split; [reflexivity|]; cbn iota; auto|].
    destruct (head_len r (pg_pos s + len) (pg_stop s)) as [st|w2] eqn:EH2; [eexists; split; [reflexivity|]; cbn iota; split; [refine (HLN _ _ _ _ EH2); lia|exact P0]|].
    destruct (ReadUInt r (pg_pos s + len)) as [size len2] eqn:EU. destruct ((size <? 0) || (len2 <? 1) || (len2 >? 8)) eqn:EB.
    { eexists; split; [reflexivity|]; cbn iota; split; [|exact P0]. destruct (ReadUInt_range r (pg_pos s + len) size len2 Hwf ltac:(lia) EU) as [|(L2 & Hv & A2)]; lia. }
    assert (0 <= size /\ 1 <= len2 <= 8) by lia.
    destruct (Z.gtb_spec (pg_pos s + len + len2 + size) LLONG_MAX); [eexists; split; [reflexivity|]; cbn iota; split; [discriminate|exact P0]|].
    destruct ((pg_stop s >=? 0) && _); [eexists; split; [reflexivity|]; cbn iota; split; [discriminate|exact P0]|].
    destruct (Z.gtb_spec (pg_pos s + len + len2 + size) (r_avail r)); [eexists; split; [reflexivity|]; cbn iota; split; [lia|exact P0]|].
    destruct (level1_ok id (pg_pos s + len + len2) size s ltac:(lia) ltac:(lia)) as (st & s1 & -> & L1 & L2 & L3 & L4 & L5 & L6).
    assert (I1 : seg_inv s1) by (eapply inv_forward; eauto; lia).
    destruct (Z.eqb_spec st 0) as [->|]; cbn [negb].
    - set (s2 := pg_set_pos _ s1). destruct (IH s2) as (x & -> & Hx).
      + eapply (inv_forward s1); auto; unfold s2; cbn [pg_set_pos pg_pos]; lia.
      + unfold s2. cbn [pg_set_pos pg_pos]. lia.
      + unfold s2. cbn [pg_set_pos pg_pos]. destruct Hf as [Hf1 Hf2]. unfold enough. destruct fuel; lia.
      + exists x. split; [reflexivity|].
        assert (HP : forall s', headers_post s2 s' -> headers_post s s').
        { intros s' (Q1 & Q2 & Q3). split; [exact Q1|]. unfold s2 in Q2, Q3. cbn [pg_set_pos pg_pos pg_clusters] in Q2, Q3. split; [lia|congruence]. }
        destruct x as [[st s']|s']; [destruct Hx as [Hnz Hx]; split; [exact Hnz|apply HP; exact Hx]|]. destruct Hx as [Hx HT]. split; [apply HP; exact Hx|]. intros T. apply HT. apply (L6 eq_refl T).
    - eexists. split; [reflexivity|]. cbn iota. split; [assumption|]. split; [exact I1|]. split; [lia|exact L3].
  Qed.
  Theorem ParseHeaders_ok : forall s, seg_inv s -> exists st s', ParseHeaders r s = Val (st, s') /\ seg_inv s' /\ pg_clusters s' = pg_clusters s /\
    (0 <= pg_pos s -> 0 <= pg_pos s') /\
    (st = 0 -> (exists i, pg_info s' = Some i) /\ (exists l, pg_tracks s' = Some l) /\ (tracks_from s 0 -> tracks_from s' 0)).
  Proof.
    intros s Hi. unfold ParseHeaders. cbv zeta. unfold E_FILE_FORMAT_INVALID.
    destruct ((r_total r >? 0) && _). { eexists _, _. split; [reflexivity|]. split; [exact Hi|]. split; [reflexivity|]. split; [auto|lia]. }
    destruct (_ || _). { eexists _, _. split; [reflexivity|]. split; [exact Hi|]. split; [reflexivity|]. split; [auto|lia]. }
    destruct (Z.ltb_spec (pg_pos s) 0) as [Hp|Hp].
    - assert (EH : exists x, headers_loop (loop_fuel r (pg_pos s)) r s = Val x /\ (x = inl (E_FILE_FORMAT_INVALID, s) \/ x = inr s)).
      { unfold loop_fuel. cbn [headers_loop]. cbv zeta.
        destruct ((r_total r >=? 0) && _); [eauto|]. destruct ((pg_stop s >=? 0) && _); [eauto|]. destruct (_ >? LLONG_MAX); [eauto|].
        assert (head_len r (pg_pos s) (pg_stop s) = inl E_FILE_FORMAT_INVALID) as ->; [|eauto].
        unfold head_len. pose proof avail_nonneg. replace (pg_pos s + 1 >? r_avail r) with false by lia. rewrite GetUIntLength_neg by lia. reflexivity. }
      destruct EH as (x & -> & [->| ->]).
      + eexists _, _. split; [reflexivity|]. split; [exact Hi|]. split; [reflexivity|]. split; [auto|]. unfold E_FILE_FORMAT_INVALID. lia.
      + destruct (_ && _). { eexists _, _. split; [reflexivity|]. split; [exact Hi|]. split; [reflexivity|]. split; [auto|lia]. }
        destruct (pg_info s) eqn:E1; [destruct (pg_tracks s) eqn:E2|];
        (eexists _, _; split; [reflexivity|]; split; [exact Hi|]; split; [reflexivity|]; split; [auto|]); [|lia|lia].
        intros _. split; [eauto|]. split; [eauto|]. auto.
    - destruct (headers_ok (loop_fuel r (pg_pos s)) s Hi Hp (loop_fuel_enough r _)) as (x & -> & Hx). destruct x as [[st s']|s'].
      + destruct Hx as (Hst & Q1 & Q2 & Q3). exists st, s'. split; [reflexivity|]. split; [exact Q1|]. split; [exact Q3|]. split; [lia|]. lia.
      + destruct Hx as ((Q1 & Q2 & Q3) & QT).
        destruct (_ && _). { eexists _, _. split; [reflexivity|]. split; [exact Q1|]. split; [exact Q3|]. split; [lia|lia]. }
        destruct (pg_info s') eqn:E1; [destruct (pg_tracks s') eqn:E2|];
        (eexists _, _; split; [reflexivity|]; split; [exact Q1|]; split; [exact Q3|]; split; [lia|]); [|lia|lia].
        intros _. split; [eauto|]. split; [eauto|]. auto.
  Qed.

  (* ---------- the whole ---------- *)

  Definition usable (s : pseg) : Prop := (exists i, pg_info s = Some i) /\ exists l, pg_tracks s = Some l /\ sound_tracks l.
  Theorem Segment_Load_ok : forall s, seg_inv s -> exists st s', Segment_Load r s = Val (st, s') /\ seg_inv s' /\ (st = 0 -> pg_tracks s = None -> usable s').
  Proof.
    intros s Hi. unfold Segment_Load. unfold E_FILE_FORMAT_INVALID, E_PARSE_FAILED, E_BUFFER_NOT_FULL. destruct (pg_clusters s) eqn:EC.
    - destruct (ParseHeaders_ok s Hi) as (st & s' & -> & X1 & X2 & X3 & X4).
      destruct (Z.ltb_spec st 0). { exists st, s'. split; [reflexivity|]. split; [exact X1|]. lia. }
      destruct (Z.gtb_spec st 0). { eexists _, s'. split; [reflexivity|]. split; [exact X1|]. lia. }
      destruct (X4 ltac:(lia)) as ((i & Ei) & (l & El) & HT). rewrite Ei, El.
      destruct (load_all_ok (load_fuel r) s' X1) as (st2 & s2 & -> & W1 & W2).
      { unfold load_fuel, enough, front. pose proof avail_nonneg. destruct (pg_pos s' <? 0) eqn:EP; [|lia].
        assert (Hn : pg_pos s' < 0) by lia. destruct (si_open s' X1 Hn) as [_ Hne]. rewrite X2 in Hne. destruct Hne. exact EC. }
      exists st2, s2. split; [reflexivity|]. split; [exact W1|]. intros _ HN. destruct W2 as (_ & _ & W3 & W4). split; [exists i; congruence|]. exists l. split; [congruence|].
      assert (T0 : tracks_from s 0) by (intros l0 HTl; congruence). destruct (HT T0 l El) as (pos & size & Hp & HTr). exact (Tracks_sound r pos size l Hwf HAV Hp HTr).
    - eexists _, s. split; [reflexivity|]. split; [exact Hi|]. lia.
  Qed.

  Lemma create_ok : forall fuel pos, 0 <= pos -> enough r pos fuel -> exists st o, create_loop fuel r pos = Val (st, o) /\
    match o with Some s => st = 0 /\ seg_inv s /\ pg_tracks s = None | None => True end.
  Proof.
    induction fuel as [|fuel IH]; intros pos Hp Hf; [destruct Hf; lia|]. cbn [create_loop]. cbv zeta.
    destruct ((r_total r >=? 0) && (pos >=? r_total r)); [eexists _, None; split; [reflexivity|exact I]|]. destruct (GetUIntLength r pos) as [res w]. destruct (negb (res =? 0)); [eexists _, None; split; [reflexivity|exact I]|]. destruct ((r_total r >=? 0) && (pos + w >? r_total r)); [eexists _, None; split; [reflexivity|exact I]|]. destruct (pos + w >? r_avail r); [eexists _, None; split; [reflexivity|exact I]|].
    destruct (ReadID r pos) as [id len] eqn:EI. destruct (Z.ltb_spec id 0); [eexists _, None; split; [reflexivity|exact I]|]. destruct (ReadID_range r pos id len Hwf Hp EI) as [|[[Hw _] Ha]]; [lia|].
    destruct (GetUIntLength r (pos + len)) as [res2 w2]. destruct (negb (res2 =? 0)); [eexists _, None; split; [reflexivity|exact I]|]. destruct ((r_total r >=? 0) && (pos + len + w2 >? r_total r)); [eexists _, None; split; [reflexivity|exact I]|]. destruct (pos + len + w2 >? r_avail r); [eexists _, None; split; [reflexivity|exact I]|].
    destruct (ReadUInt r (pos + len)) as [size len2] eqn:EU. destruct (Z.ltb_spec size 0); [eexists _, None; split; [reflexivity|exact I]|].
    destruct (ReadUInt_range r (pos + len) size len2 Hwf ltac:(lia) EU) as [|(L2 & Hv & A2)]; [lia|].
    destruct (id =? kMkvSegment).
    { eexists _, _. split; [reflexivity|]. cbn iota. split; [reflexivity|]. split; [|reflexivity].
      constructor; cbn [new_pseg pg_start pg_size pg_pos pg_clusters pg_unknown]; try lia; try apply Forall_nil; try apply SSorted_nil.
      destruct (size =? unknown_size len2); [lia|]. destruct (r_total r <? 0); [lia|]. destruct (_ >? r_total r); lia. }
    destruct (size =? unknown_size len2); [eexists _, None; split; [reflexivity|exact I]|]. destruct ((r_total r >=? 0) && (pos + len + len2 + size >? r_total r)); [eexists _, None; split; [reflexivity|exact I]|]. destruct (Z.gtb_spec (pos + len + len2 + size) (r_avail r)); [eexists _, None; split; [reflexivity|exact I]|]. apply IH; [lia|]. destruct Hf as [Hf1 Hf2]. unfold enough. destruct fuel; lia.
  Qed.
  Theorem CreateInstance_ok : forall pos, exists st o, CreateInstance r pos = Val (st, o) /\ match o with Some s => st = 0 /\ seg_inv s /\ pg_tracks s = None | None => True end.
  Proof.
    intros pos. unfold CreateInstance. destruct (Z.ltb_spec pos 0); [eexists _, None; split; [reflexivity|exact I]|]. destruct (_ <? 0); [eexists _, None; split; [reflexivity|exact I]|]. destruct (_ && _); [eexists _, None; split; [reflexivity|exact I]|]. apply create_ok; [lia|apply loop_fuel_enough].
  Qed.

  (* the length GetUIntLength reports is the one the reads use *)
  Lemma scan_same : forall b k, is_byte b -> ReadID_scan 4 b 0 = Some k -> snd (marker_scan 8 b 128 1) = k + 1.
  Proof.
    assert (H : forallb (fun b => match ReadID_scan 4 b 0 with Some k => snd (marker_scan 8 b 128 1) =? k + 1 | None => true end) (map Z.of_nat (seq 0 256)) = true) by (vm_compute; reflexivity).
    rewrite forallb_forall in H. intros b k Hb E. specialize (H b). rewrite E in H. apply Z.eqb_eq, H. apply in_map_iff. exists (Z.to_nat b). unfold is_byte in Hb. split; [lia|apply in_seq; lia].
  Qed.
  Lemma field_start : forall pos stop w, field_len r pos stop = inr w -> 0 <= pos < r_avail r /\
    exists b, r_byte r pos = inr b /\ is_byte b /\ b <> 0 /\ w = snd (marker_scan 8 b 128 1) /\ (0 <= stop -> pos + w <= stop).
  Proof.
    intros pos stop w EF. unfold field_len in EF. destruct (Z.gtb_spec (pos + 1) (r_avail r)); [discriminate EF|]. unfold GetUIntLength in EF.
    destruct (Z.ltb_spec pos 0); [discriminate EF|]. rewrite total_fine in EF. destruct (Z.geb_spec pos (r_avail r)); [lia|].
    destruct (proj1 (intact_byte r pos HI ltac:(lia)) ltac:(lia)) as (b & EB). pose proof (r_byte_wf r pos b Hwf EB) as Hb.
    split; [lia|]. rewrite EB in EF. exists b. split; [exact EB|]. split; [apply Hb|]. destruct (Z.eqb_spec b 0); [discriminate EF|]. split; [assumption|].
    change (0 <? 0) with false in EF. change (0 >? 0) with false in EF. cbn iota in EF. destruct ((stop >=? 0) && (pos + snd (marker_scan 8 b 128 1) >? stop)) eqn:Es; [discriminate EF|].
    destruct (_ >? r_avail r); [discriminate EF|]. assert (w = snd (marker_scan 8 b 128 1)) by congruence. split; [assumption|]. lia.
  Qed.
  Lemma field_id_len : forall pos stop w id len, field_len r pos stop = inr w -> ReadID r pos = (id, len) -> 0 <= id -> 0 <= stop -> pos + len <= stop.
  Proof.
    intros pos stop w id len EF EI Hid Hs. destruct (field_start pos stop w EF) as (Hp & b & EB & Hb & Hb0 & -> & HW). unfold ReadID in EI. replace (pos <? 0) with false in EI by lia.
    rewrite EB in EI. replace (b =? 0) with false in EI by lia. destruct (ReadID_scan 4 b 0) as [k|] eqn:ES.
    - cbv zeta in EI. pose proof (scan_same b k Hb ES) as E. destruct (Z.ltb_spec (ReadID_loop r (Z.to_nat k) (pos + 1) b) 0) as [Hn|Hn]; injection EI as E1 E2; [lia|]. specialize (HW Hs). lia.
    - injection EI as E1 _. unfold E_FILE_FORMAT_INVALID in E1. lia.
  Qed.
  Lemma ReadUInt_loop_len : forall n pos v len v' len', ReadUInt_loop r n pos v len = (v', len') -> 0 <= v' -> len' = len.
  Proof.
    induction n as [|n IH]; intros pos v len v' len' E H; cbn [ReadUInt_loop] in E; [congruence|]. destruct (r_byte r pos) as [st|b]; [|eapply IH; eauto].
    destruct (Z.ltb_spec st 0); injection E as E1 _; [lia|]. unfold E_BUFFER_NOT_FULL in E1. lia.
  Qed.
  Lemma field_uint_len : forall pos stop size len, read_uint_field r pos stop = inr (size, len) -> 0 <= stop -> pos + len <= stop.
  Proof.
    intros pos stop size len E Hs. unfold read_uint_field in E. destruct (field_len r pos stop) as [st|w] eqn:EF; [discriminate E|].
    destruct (ReadUInt r pos) as [v l] eqn:EU. destruct (Z.ltb_spec v 0); [discriminate E|]. injection E as <- <-.
    destruct (field_start pos stop w EF) as (Hp & b & EB & Hb & Hb0 & -> & HW). unfold ReadUInt in EU. replace (pos <? 0) with false in EU by lia.
    rewrite EB in EU. replace (b =? 0) with false in EU by lia. destruct (marker_scan 8 b 128 1) as [m l0] eqn:EM. cbn [snd] in HW. apply ReadUInt_loop_len in EU; [|lia]. subst l. apply HW. exact Hs.
  Qed.
  Theorem ParseCues_ok : forall s off, seg_inv s -> pg_start s + off <= LLONG_MAX -> exists st s', ParseCues r s off = Val (st, s') /\ seg_inv s' /\ pg_tracks s' = pg_tracks s /\ pg_info s' = pg_info s.
  Proof.
    intros s off Hi HL. unfold ParseCues. cbv zeta. destruct (pg_cues s); [eauto 8|]. destruct (Z.ltb_spec off 0); [eauto 8|]. rewrite total_fine.
    replace (pg_start s + off >? LLONG_MAX) with false by lia. destruct (_ || _); [eauto 8|]. pose proof (si_start s Hi) as Hs0.
    destruct (field_len r (pg_start s + off) (pg_stop s)) as [st|w] eqn:EF; [eauto 8|]. destruct (ReadID r (pg_start s + off)) as [id len] eqn:EI.
    destruct (Z.eqb_spec id kMkvCues) as [->|]; cbn [negb]; [|eauto 8].
    assert (Hk : 0 <= kMkvCues) by (vm_compute; discriminate).
    pose proof (field_id_len _ _ _ _ _ EF EI Hk) as HF. destruct (ReadID_range r (pg_start s + off) kMkvCues len Hwf ltac:(lia) EI) as [|[[Hw _] Ha]]; [lia|].
    destruct ((pg_stop s >=? 0) && (pg_start s + off + len >? pg_stop s)) eqn:EA; [lia|]. destruct (read_uint_field r (pg_start s + off + len) (pg_stop s)) as [st|[size len2]] eqn:EU; [eauto 8|].
    pose proof (field_uint_len _ _ _ _ EU) as HU. destruct (size =? 0); [eauto 8|]. destruct ((pg_stop s >=? 0) && (pg_start s + off + len + len2 >? pg_stop s)) eqn:EA2; [lia|].
    destruct ((pg_stop s >=? 0) && (pg_start s + off + len + len2 + size >? pg_stop s)); [eauto 8|]. destruct (pg_start s + off + len + len2 + size >? r_total r); [eauto 8|]. destruct (pg_start s + off + len + len2 + size >? r_avail r); [eauto 8|].
    eexists _, _. split; [reflexivity|]. split; [|split; reflexivity]. destruct Hi. constructor; assumption.
  Qed.
  Lemma seg_state_inv : forall s, seg_state r s -> seg_inv s.
  Proof.
    intros s H. induction H.
    - destruct (CreateInstance_ok pos) as (st & o & E & Ho). assert (o = Some s) by congruence. subst o. apply Ho.
    - destruct (ParseHeaders_ok s IHseg_state) as (st1 & s1 & E & X & _). assert (s' = s1) by congruence. subst s'. exact X.
    - destruct (LoadCluster_ok s IHseg_state) as (st1 & s1 & E & X & _). assert (s' = s1) by congruence. subst s'. exact X.
    - destruct (Segment_Load_ok s IHseg_state) as (st1 & s1 & E & X & _). assert (s' = s1) by congruence. subst s'. exact X.
    - destruct (Z.leb_spec (pg_start s + off) LLONG_MAX) as [HL|HL].
      + destruct (ParseCues_ok s off IHseg_state HL) as (st1 & s1 & E & X & _). assert (s' = s1) by congruence. subst s'. exact X.
      + unfold ParseCues in H0. destruct (pg_cues s); [injection H0 as _ <-; exact IHseg_state|]. destruct (off <? 0); [injection H0 as _ <-; exact IHseg_state|]. rewrite total_fine in H0.
        replace (pg_start s + off >? LLONG_MAX) with true in H0 by lia. discriminate H0.
  Qed.

End Safe.
