(* Proofs about mkvparser's Segment: loading the clusters of a muxed file. *)
From Coq Require Import ZifyBool ZifyNat.
From Verif Require Import Base EbmlSpec Ids ReaderSpec MMuxUtil MFloat MMuxBlock BlockSpec MMuxMeta MetaSpec MMuxSegment MuxFileSpec
  MParUtil PParUtil MParMeta MParBlock MParTrack MParCues MParCluster ClusterSpec PParCluster MParSegment ReadBackSpec PParBlock PEbml PParMeta PParMeta2
  CueReadSpec PParCues2 SegReadSpec PParSegment.

Section Load.
  Context (r : reader) (HT : total_ok r) (HTA : r_total r = r_avail r) (scale : Z) (Hsc : 1 <= scale).

  (* the parts of a stored cluster *)
  Record parts (sized : bool) (c : mcluster) (w size : Z) (tcp tce : list Z) (f : frame) (fs : list frame) (b : list Z) (blocks : list (list Z)) : Prop := mkParts {
    pa_frames : mc_frames c = f :: fs;
    pa_bytes : mc_bytes c = be_bytes 4 kMkvCluster ++ vint w size ++ tce ++ concat (b :: blocks);
    pa_tc : 0 <= mc_tc c < 2 ^ 63;
    pa_tcp : uint_payload (mc_tc c) tcp;
    pa_tce : is_element kMkvTimecode tcp tce;
    pa_blocks : Forall2 (fun f b => written_as f (frame_rel f (mc_tc c) scale) scale b) (f :: fs) (b :: blocks);
    pa_w : 1 <= w <= 8;
    pa_szb : 0 < size < 2 ^ (7 * w);
    pa_sz : if sized then size = zlen (tce ++ concat (b :: blocks)) /\ vint_fits w size else size = 2 ^ (7 * w) - 1;
    pa_ok : Forall frame_ok (f :: fs);
    pa_id : is_id_bytes kMkvCluster (be_bytes 4 kMkvCluster);
    pa_b : 1 <= zlen b; pa_t : 1 <= zlen tce;
    pa_len : zlen (mc_bytes c) = 4 + w + zlen (tce ++ concat (b :: blocks))
  }.

  Lemma stored_parts : forall sized c, stored_cluster sized scale c -> mc_frames c <> [] -> exists w size tcp tce f fs b blocks, parts sized c w size tcp tce f fs b blocks.
  Proof.
    intros sized c (Htc & Hok & tcp & tce & blocks & Htp & Hte & HF & He) Hne. destruct (mc_frames c) as [|f fs] eqn:Ef; [congruence|].
    inversion HF as [|? b ? bl Hb HF']; subst.
    destruct (sized_split sized kMkvCluster _ _ ltac:(unfold kMkvCluster; lia) He) as (w & size & Eb & Hw & Hsz & Hk & Hib).
    exists w, size, tcp, tce, f, fs, b, bl.
    assert (HLt : 1 <= zlen tce) by (apply ne_zlen; eapply is_element_ne; eauto).
    assert (HLb : 1 <= zlen b). { destruct (written_element _ _ _ _ Hb) as (id & p & _ & _ & Hx). apply ne_zlen. eapply is_element_ne; eauto. }
    constructor; auto.
    - destruct sized; [|pose proof (Z.pow_le_mono_r 2 7 (7 * w) ltac:(lia) ltac:(lia)); change (2 ^ 7) with 128 in *; lia].
      destruct Hk as [-> _]. split; [|lia]. rewrite zlen_app. pose proof (zlen_nonneg _ (concat (b :: bl))). lia.
    - rewrite Eb, !zlen_app, be_bytes_zlen, vint_zlen_l by lia. lia.
  Qed.

  Lemma at_cluster : forall sized c pos w size tcp tce f fs b blocks stop, parts sized c w size tcp tce f fs b blocks ->
    serves r pos (mc_bytes c) -> (stop < 0 \/ pos + zlen (mc_bytes c) <= stop) ->
    exists n, elem_read r pos stop kMkvCluster size n 4 w /\ pos + zlen (mc_bytes c) <= r_avail r /\ serves r (pos + 4 + w) (tce ++ concat (b :: blocks)).
  Proof.
    intros sized c pos w size tcp tce f fs b blocks stop P Hs Hst. destruct P as [P1 P2 P3 P4 P5 P6 P7 P8 P9 P10 P11 P12 P13 P14].
    pose proof (zlen_nonneg _ (tce ++ concat (b :: blocks))). eexists. split; [|split].
    - rewrite P2 in Hs. refine (elem_read_vint r HT pos stop kMkvCluster (be_bytes 4 kMkvCluster) w size _ P11 P7 _ Hs _); [lia|].
      change (zlen (be_bytes 4 kMkvCluster)) with 4. lia.
    - apply serves_avail; [exact Hs|]. rewrite P2. discriminate.
    - rewrite P2 in Hs. apply serves_app_r in Hs. apply serves_app_r in Hs. rewrite vint_zlen_l in Hs by lia. exact Hs.
  Qed.

  Lemma next_cluster_found : forall sized c s w size tcp tce f fs b blocks fuel, parts sized c w size tcp tce f fs b blocks ->
    serves r (pg_pos s) (mc_bytes c) -> (pg_stop s < 0 \/ pg_pos s + zlen (mc_bytes c) <= pg_stop s) ->
    next_cluster (S fuel) r s = Val (LN_cluster s (pg_pos s) (pg_pos s + 4 + w) (if sized then size else -1)).
  Proof.
    intros sized c s w size tcp tce f fs b blocks fuel P Hs Hst. destruct (at_cluster _ _ _ _ _ _ _ _ _ _ _ _ P Hs Hst) as (n & [E1 E2 E3 E4 G1 G2 G3 G4 G5] & HA & _).
    pose proof (pa_len _ _ _ _ _ _ _ _ _ _ P) as HL. pose proof (pa_szb _ _ _ _ _ _ _ _ _ _ P) as Hsz. pose proof (pa_sz _ _ _ _ _ _ _ _ _ _ P) as Hk.
    pose proof (zlen_nonneg _ (tce ++ concat (b :: blocks))). cbn [next_cluster].
    replace ((r_total r >=? 0) && (pg_pos s >=? r_total r)) with false by lia. replace ((pg_stop s >=? 0) && (pg_pos s >=? pg_stop s)) with false by lia.
    destruct (id_field_len _ _ _ _ E1) as (w1 & ->). rewrite E2. change (kMkvCluster <? 0) with false. cbv zeta. cbn iota. rewrite E3.
    replace (size =? 0) with false by lia. rewrite unknown_size_pow by lia. change (kMkvCluster =? kMkvCues) with false. change (negb (kMkvCluster =? kMkvCluster)) with false.
    destruct sized.
    - destruct Hk as [Hk [_ Hf]]. replace (size =? 2 ^ (7 * w) - 1) with false by lia.
      replace ((pg_stop s >=? 0) && negb false && (pg_pos s + 4 + w + size >? pg_stop s)) with false by lia. reflexivity.
    - replace (size =? 2 ^ (7 * w) - 1) with true by lia. replace ((pg_stop s >=? 0) && negb true && (pg_pos s + 4 + w + size >? pg_stop s)) with false by (destruct (pg_stop s >=? 0); reflexivity).
      reflexivity.
  Qed.

  Lemma HasBlockEntries_read : forall sized c s pos w size tcp tce f fs b blocks, parts sized c w size tcp tce f fs b blocks ->
    serves r pos (mc_bytes c) -> (pg_stop s < 0 \/ pos + zlen (mc_bytes c) <= pg_stop s) -> pg_start s <= pos ->
    HasBlockEntries r s (pos - pg_start s) = Val 1.
  Proof.
    intros sized c s pos w size tcp tce f fs b blocks P Hs Hst Hpos. destruct (at_cluster _ _ _ _ _ _ _ _ _ _ _ _ P Hs Hst) as (n & [E1 E2 E3 E4 G1 G2 G3 G4 G5] & HA & Hs2).
    pose proof P as [P1 P2 P3 P4 P5 P6 P7 P8 P9 P10 P11 P12 P13 P14]. pose proof Hs as [Hp0 _].
    pose proof (zlen_nonneg _ (concat blocks)) as HZ. cbn [concat] in *. rewrite !zlen_app in *.
    unfold HasBlockEntries. replace (pos - pg_start s <? 0) with false by lia. replace ((r_total r >=? 0) && (r_avail r >? r_total r)) with false by lia.
    cbv zeta. replace (pg_start s + (pos - pg_start s)) with pos by lia. replace ((r_total r >=? 0) && (pos >=? r_total r)) with false by lia.
    destruct (id_field_len _ _ _ _ E1) as (w1 & F1). destruct (field_head r HT _ _ _ F1) as [_ ->].
    rewrite E2. change (kMkvCluster <? 0) with false. change (negb (kMkvCluster =? kMkvCluster)) with false. cbn iota.
    destruct (uint_field_len _ _ _ _ E3) as (w2 & F2). destruct (field_head r HT _ _ _ F2) as [_ ->].
    rewrite E4. replace (size <? 0) with false by lia. replace (size =? 0) with false by lia. rewrite unknown_size_pow by lia.
    assert (HE : forall stop, (stop < 0 \/ stop = pos + zlen (mc_bytes c)) -> entries_loop (loop_fuel r (pos + 4 + w)) r stop (pos + 4 + w) = Val 1).
    { intros stop Hstop. assert (ELF : exists n, loop_fuel r (pos + 4 + w) = S (S n)). { unfold loop_fuel. exists (pred (Z.to_nat (r_avail r - (pos + 4 + w)))). lia. }
      destruct ELF as (m & ->). set (p1 := pos + 4 + w) in *. cbn [entries_loop].
      replace ((stop >=? 0) && (p1 >=? stop)) with false by lia.
      destruct (elem_read_element r HT p1 stop _ _ _ P5 (serves_app_l _ _ _ _ Hs2) ltac:(lia)) as (l1 & l2 & [I1 I2 I3 I4 J1 J2 J3 J4 J5] & IK & _).
      destruct P4 as (_ & HTL & _). rewrite I1. change ((kMkvTimecode =? kMkvCluster) || (kMkvTimecode =? kMkvCues)) with false. cbv zeta. cbn iota.
      replace ((stop >=? 0) && (p1 + l1 >=? stop)) with false by lia. rewrite I3. replace ((stop >=? 0) && (p1 + l1 + l2 >? stop)) with false by lia.
      replace (zlen tcp =? 0) with false by lia. rewrite IK. replace ((stop >=? 0) && (p1 + l1 + l2 + zlen tcp >? stop)) with false by lia.
      change ((kMkvTimecode =? kMkvBlockGroup) || (kMkvTimecode =? kMkvSimpleBlock)) with false. cbn iota.
      replace (p1 + l1 + l2 + zlen tcp) with (p1 + zlen tce) by lia.
      replace ((stop >=? 0) && (p1 + zlen tce >=? stop)) with false by lia.
      inversion P6 as [|? ? ? ? Hwb HF']; subst. destruct (written_element _ _ _ _ Hwb) as (id & p & Hidb & Hpne & Heb). pose proof (ne_zlen _ Hpne) as HPL.
      pose proof (serves_app_r _ _ _ _ Hs2) as Hs4. apply serves_app_l in Hs4.
      destruct (elem_read_element r HT (p1 + zlen tce) stop id p b Heb Hs4 ltac:(lia)) as (k1 & k2 & [A1 A2 A3 A4 B1 B2 B3 B4 B5] & AK & _).
      rewrite A1. replace ((id =? kMkvCluster) || (id =? kMkvCues)) with false by (destruct Hidb as [->| ->]; reflexivity).
      replace ((stop >=? 0) && (p1 + zlen tce + k1 >=? stop)) with false by lia. rewrite A3.
      replace ((stop >=? 0) && (p1 + zlen tce + k1 + k2 >? stop)) with false by lia. replace (zlen p =? 0) with false by lia. rewrite AK.
      replace ((stop >=? 0) && (p1 + zlen tce + k1 + k2 + zlen p >? stop)) with false by lia.
      replace ((id =? kMkvBlockGroup) || (id =? kMkvSimpleBlock)) with true by (destruct Hidb as [->| ->]; reflexivity). reflexivity. }
    destruct sized.
    - destruct P9 as [Hk [_ Hf]]. replace (size =? 2 ^ (7 * w) - 1) with false by lia.
      replace ((pg_stop s >=? 0) && (pos + 4 + w + size >? pg_stop s)) with false by lia.
      replace ((r_total r >=? 0) && (pos + 4 + w + size >? r_total r)) with false by lia. apply HE. right. lia.
    - replace (size =? 2 ^ (7 * w) - 1) with true by lia. apply HE. left. lia.
  Qed.

  (* DoLoadCluster for a position that is not negative, with the fuel of its loop *)
  Definition load_at (m : nat) (s : pseg) : outcome (Z * pseg) :=
    match next_cluster m r s with
    | UB => UB
    | Val (LN_status st s) => Val (st, s)
    | Val (LN_cluster s idpos pos size) =>
        match HasBlockEntries r s (idpos - pg_start s) with
        | UB => UB
        | Val status =>
            if status <? 0 then Val (status, s)
            else
              let stop := pg_stop s in
              if status =? 0 then
                let pos := if size >=? 0 then pos + size else pos in
                if (r_total r >=? 0) && (pos >=? r_total r) then Val (1, pg_set_pos (r_total r) s)
                else if (stop >=? 0) && (pos >=? stop) then Val (1, pg_set_pos stop s)
                else Val (2, pg_set_pos pos s)
              else
                let s := pg_set_clusters (pg_clusters s ++ [new_cluster idpos]) (pg_unknown s) s in
                if size >=? 0 then
                  let s := pg_set_pos (pos + size) s in
                  if (stop >? 0) && (pg_pos s >? stop) then Val (E_FILE_FORMAT_INVALID, s)
                  else Val (0, s)
                else Val (0, pg_set_pos (- pos) (pg_set_clusters (pg_clusters s) true s))
        end
    end.
  Definition loads_at (fuel m : nat) (s : pseg) : outcome (Z * pseg) :=
    match fuel with
    | O => UB
    | S f =>
        match load_at m s with
        | UB => UB
        | Val (result, s) => if result <=? 1 then Val (result, s) else load_cluster f r s
        end
    end.
  Lemma load_cluster_at : forall fuel s, 0 <= pg_pos s -> load_cluster fuel r s = loads_at fuel (loop_fuel r (pg_pos s)) s.
  Proof.
    intros [|fuel] s Hp; [reflexivity|]. cbn [load_cluster loads_at]. unfold DoLoadCluster, load_at. replace (pg_pos s <? 0) with false by lia.
    replace ((r_total r >=? 0) && (r_avail r >? r_total r)) with false by lia. reflexivity.
  Qed.

  (* ---------- clusters without a frame ---------- *)

  Record hollow (sized : bool) (c : mcluster) (w size : Z) (tcp tce : list Z) : Prop := mkHollow {
    ho_bytes : mc_bytes c = be_bytes 4 kMkvCluster ++ vint w size ++ tce;
    ho_tcp : 1 <= zlen tcp;
    ho_tce : is_element kMkvTimecode tcp tce;
    ho_w : 1 <= w <= 8;
    ho_szb : 0 < size < 2 ^ (7 * w);
    ho_sz : if sized then size = zlen tce /\ vint_fits w size else size = 2 ^ (7 * w) - 1;
    ho_id : is_id_bytes kMkvCluster (be_bytes 4 kMkvCluster);
    ho_t : 1 <= zlen tce;
    ho_len : zlen (mc_bytes c) = 4 + w + zlen tce
  }.
  Lemma hollow_parts : forall sized c, stored_cluster sized scale c -> mc_frames c = [] -> exists w size tcp tce, hollow sized c w size tcp tce.
  Proof.
    intros sized c (Htc & Hok & tcp & tce & blocks & Htp & Hte & HF & He) Hne. rewrite Hne in HF. inversion HF; subst. cbn [concat] in He. rewrite app_nil_r in He.
    destruct (sized_split sized kMkvCluster _ _ ltac:(unfold kMkvCluster; lia) He) as (w & size & Eb & Hw & Hsz & Hk & Hib).
    exists w, size, tcp, tce. assert (HLt : 1 <= zlen tce) by (apply ne_zlen; eapply is_element_ne; eauto).
    constructor; auto.
    - destruct Htp as (_ & X & _). lia.
    - destruct sized; [|pose proof (Z.pow_le_mono_r 2 7 (7 * w) ltac:(lia) ltac:(lia)); change (2 ^ 7) with 128 in *; lia].
      destruct Hk as [-> _]. split; [lia|]. lia.
    - rewrite Eb, !zlen_app, be_bytes_zlen, vint_zlen_l by lia. lia.
  Qed.
  Lemma at_hollow : forall sized c pos w size tcp tce stop, hollow sized c w size tcp tce ->
    serves r pos (mc_bytes c) -> (stop < 0 \/ pos + zlen (mc_bytes c) <= stop) ->
    exists n, elem_read r pos stop kMkvCluster size n 4 w /\ pos + zlen (mc_bytes c) <= r_avail r /\ serves r (pos + 4 + w) tce.
  Proof.
    intros sized c pos w size tcp tce stop P Hs Hst. destruct P as [P2 P4 P5 P7 P8 P9 P11 P13 P14].
    eexists. split; [|split].
    - rewrite P2 in Hs. refine (elem_read_vint r HT pos stop kMkvCluster (be_bytes 4 kMkvCluster) w size _ P11 P7 _ Hs _); [lia|].
      change (zlen (be_bytes 4 kMkvCluster)) with 4. lia.
    - apply serves_avail; [exact Hs|]. rewrite P2. discriminate.
    - rewrite P2 in Hs. apply serves_app_r in Hs. apply serves_app_r in Hs. rewrite vint_zlen_l in Hs by lia. exact Hs.
  Qed.
  Lemma next_cluster_hollow : forall sized c s w size tcp tce fuel, hollow sized c w size tcp tce ->
    serves r (pg_pos s) (mc_bytes c) -> (pg_stop s < 0 \/ pg_pos s + zlen (mc_bytes c) <= pg_stop s) ->
    next_cluster (S fuel) r s = Val (LN_cluster s (pg_pos s) (pg_pos s + 4 + w) (if sized then size else -1)).
  Proof.
    intros sized c s w size tcp tce fuel P Hs Hst. destruct (at_hollow _ _ _ _ _ _ _ _ P Hs Hst) as (n & [E1 E2 E3 E4 G1 G2 G3 G4 G5] & HA & _).
    destruct P as [P2 P4 P5 P7 Hsz Hk P11 P13 HL]. cbn [next_cluster].
    replace ((r_total r >=? 0) && (pg_pos s >=? r_total r)) with false by lia. replace ((pg_stop s >=? 0) && (pg_pos s >=? pg_stop s)) with false by lia.
    destruct (id_field_len _ _ _ _ E1) as (w1 & ->). rewrite E2. change (kMkvCluster <? 0) with false. cbv zeta. cbn iota. rewrite E3.
    replace (size =? 0) with false by lia. rewrite unknown_size_pow by lia. change (kMkvCluster =? kMkvCues) with false. change (negb (kMkvCluster =? kMkvCluster)) with false.
    destruct sized.
    - destruct Hk as [Hk [_ Hf]]. replace (size =? 2 ^ (7 * w) - 1) with false by lia.
      replace ((pg_stop s >=? 0) && negb false && (pg_pos s + 4 + w + size >? pg_stop s)) with false by lia. reflexivity.
    - replace (size =? 2 ^ (7 * w) - 1) with true by lia. replace ((pg_stop s >=? 0) && negb true && (pg_pos s + 4 + w + size >? pg_stop s)) with false by (destruct (pg_stop s >=? 0); reflexivity).
      reflexivity.
  Qed.

  (* an ID that tells the end of a cluster of unknown size *)
  Definition ended (pos : Z) : Prop :=
    exists id, (id = kMkvCluster \/ id = kMkvCues) /\ is_id_bytes id (be_bytes 4 id) /\ serves r pos (be_bytes 4 id).
  Lemma HasBlockEntries_hollow : forall sized c s pos w size tcp tce, hollow sized c w size tcp tce ->
    serves r pos (mc_bytes c) -> (pg_stop s < 0 \/ pos + zlen (mc_bytes c) <= pg_stop s) -> pg_start s <= pos ->
    (sized = false -> ended (pos + zlen (mc_bytes c))) -> HasBlockEntries r s (pos - pg_start s) = Val 0.
  Proof.
    intros sized c s pos w size tcp tce P Hs Hst Hpos Hend. destruct (at_hollow _ _ _ _ _ _ _ _ P Hs Hst) as (n & [E1 E2 E3 E4 G1 G2 G3 G4 G5] & HA & Hs2).
    pose proof P as [P2 P4 P5 P7 P8 P9 P11 P13 P14]. pose proof Hs as [Hp0 _].
    unfold HasBlockEntries. replace (pos - pg_start s <? 0) with false by lia. replace ((r_total r >=? 0) && (r_avail r >? r_total r)) with false by lia.
    cbv zeta. replace (pg_start s + (pos - pg_start s)) with pos by lia. replace ((r_total r >=? 0) && (pos >=? r_total r)) with false by lia.
    destruct (id_field_len _ _ _ _ E1) as (w1 & F1). destruct (field_head r HT _ _ _ F1) as [_ ->].
    rewrite E2. change (kMkvCluster <? 0) with false. change (negb (kMkvCluster =? kMkvCluster)) with false. cbn iota.
    destruct (uint_field_len _ _ _ _ E3) as (w2 & F2). destruct (field_head r HT _ _ _ F2) as [_ ->].
    rewrite E4. replace (size <? 0) with false by lia. replace (size =? 0) with false by lia. rewrite unknown_size_pow by lia.
    assert (HE : forall stop, (stop < 0 /\ ended (pos + zlen (mc_bytes c)) \/ stop = pos + zlen (mc_bytes c)) -> entries_loop (loop_fuel r (pos + 4 + w)) r stop (pos + 4 + w) = Val 0).
    { intros stop Hstop. assert (ELF : exists n, loop_fuel r (pos + 4 + w) = S (S n)). { unfold loop_fuel. exists (pred (Z.to_nat (r_avail r - (pos + 4 + w)))). lia. }
      destruct ELF as (m & ->). set (p1 := pos + 4 + w) in *. cbn [entries_loop].
      replace ((stop >=? 0) && (p1 >=? stop)) with false by lia.
      destruct (elem_read_element r HT p1 stop _ _ _ P5 Hs2 ltac:(lia)) as (l1 & l2 & [I1 I2 I3 I4 J1 J2 J3 J4 J5] & IK & _).
      rewrite I1. change ((kMkvTimecode =? kMkvCluster) || (kMkvTimecode =? kMkvCues)) with false. cbv zeta. cbn iota.
      replace ((stop >=? 0) && (p1 + l1 >=? stop)) with false by lia. rewrite I3. replace ((stop >=? 0) && (p1 + l1 + l2 >? stop)) with false by lia.
      replace (zlen tcp =? 0) with false by lia. rewrite IK. replace ((stop >=? 0) && (p1 + l1 + l2 + zlen tcp >? stop)) with false by lia.
      change ((kMkvTimecode =? kMkvBlockGroup) || (kMkvTimecode =? kMkvSimpleBlock)) with false. cbn iota.
      replace (p1 + l1 + l2 + zlen tcp) with (pos + zlen (mc_bytes c)) by lia.
      destruct Hstop as [[Hneg (id & Hid & Hib & Hsi)]| ->].
      - replace ((stop >=? 0) && (pos + zlen (mc_bytes c) >=? stop)) with false by lia.
        destruct (id4 id _ Hib ltac:(destruct Hid as [->| ->]; unfold kMkvCluster, kMkvCues; lia)) as [_ HW4].
        destruct (read_id_field_bytes r (pos + zlen (mc_bytes c)) stop 4 id [] HT HW4 ltac:(rewrite app_nil_r; exact Hsi) ltac:(lia)) as [-> _].
        replace ((id =? kMkvCluster) || (id =? kMkvCues)) with true by (destruct Hid as [->| ->]; reflexivity). reflexivity.
      - replace ((pos + zlen (mc_bytes c) >=? 0) && (pos + zlen (mc_bytes c) >=? pos + zlen (mc_bytes c))) with true by lia. reflexivity. }
    destruct sized.
    - destruct P9 as [Hk [_ Hf]]. replace (size =? 2 ^ (7 * w) - 1) with false by lia.
      replace ((pg_stop s >=? 0) && (pos + 4 + w + size >? pg_stop s)) with false by lia.
      replace ((r_total r >=? 0) && (pos + 4 + w + size >? r_total r)) with false by lia. apply HE. right. lia.
    - replace (size =? 2 ^ (7 * w) - 1) with true by lia. apply HE. left. split; [lia|apply Hend; reflexivity].
  Qed.

  (* the two ways a cluster without a frame is passed *)
  Lemma hollow_sized : forall c s w size tcp tce m fuel, hollow true c w size tcp tce ->
    serves r (pg_pos s) (mc_bytes c) -> (pg_stop s < 0 \/ pg_stop s = r_avail r) -> 0 <= pg_start s <= pg_pos s ->
    loads_at (S (S fuel)) (S m) s = load_cluster (S fuel) r (pg_set_pos (pg_pos s + zlen (mc_bytes c)) s).
  Proof.
    intros c s w size tcp tce m fuel P Hs Hst Hpos. pose proof P as [P2 P4 P5 P7 P8 P9 P11 P13 P14].
    assert (HA : pg_pos s + zlen (mc_bytes c) <= r_avail r) by (apply serves_avail; [exact Hs|rewrite P2; discriminate]).
    unfold loads_at at 1, load_at. rewrite (next_cluster_hollow _ _ _ _ _ _ _ _ P Hs) by lia. rewrite (HasBlockEntries_hollow _ _ _ _ _ _ _ _ P Hs) by (lia || discriminate).
    change (0 <? 0) with false. change (0 =? 0) with true. cbv zeta. cbn iota. replace (size >=? 0) with true by lia.
    replace (pg_pos s + 4 + w + size) with (pg_pos s + zlen (mc_bytes c)) by lia. set (q := pg_pos s + zlen (mc_bytes c)) in *.
    destruct ((r_total r >=? 0) && (q >=? r_total r)) eqn:E1.
    - change (1 <=? 1) with true. cbn iota. replace (r_total r) with q by lia. rewrite load_cluster_at by (cbn [pg_set_pos pg_pos]; lia).
      cbn [pg_set_pos pg_pos]. unfold loads_at, load_at, loop_fuel. cbn [next_cluster]. cbn [pg_set_pos pg_pos].
      replace ((r_total r >=? 0) && (q >=? r_total r)) with true by lia. reflexivity.
    - replace ((pg_stop s >=? 0) && (q >=? pg_stop s)) with false by lia. change (2 <=? 1) with false. reflexivity.
  Qed.
  Lemma hollow_open : forall c s w size tcp tce m fuel, hollow false c w size tcp tce -> ended (pg_pos s + zlen (mc_bytes c)) ->
    serves r (pg_pos s) (mc_bytes c) -> (pg_stop s < 0 \/ pg_stop s = r_avail r) -> 0 <= pg_start s <= pg_pos s ->
    exists m', r_avail r - (pg_pos s + zlen (mc_bytes c)) < Z.of_nat m' /\
    loads_at (S (S fuel)) (S m) s = loads_at (S fuel) m' (pg_set_pos (pg_pos s + zlen (mc_bytes c)) s).
  Proof.
    intros c s w size tcp tce m fuel P Hend Hs Hst Hpos. pose proof P as [P2 P4 P5 P7 P8 P9 P11 P13 P14].
    destruct (at_hollow _ _ _ _ _ _ _ (pg_stop s) P Hs ltac:(pose proof (serves_avail r (pg_pos s) (mc_bytes c) Hs ltac:(rewrite P2; discriminate)); lia)) as (_ & _ & HA & Hs2).
    assert (EQ : exists n, loop_fuel r (pg_pos s + 4 + w) = S n /\ r_avail r - (pg_pos s + zlen (mc_bytes c)) < Z.of_nat n).
    { unfold loop_fuel. eexists. split; [reflexivity|]. lia. }
    destruct EQ as (n & EQ & HN). exists n. split; [exact HN|].
    unfold loads_at at 1, load_at. rewrite (next_cluster_hollow _ _ _ _ _ _ _ _ P Hs) by lia. rewrite (HasBlockEntries_hollow _ _ _ _ _ _ _ _ P Hs) by (lia || auto).
    change (0 <? 0) with false. change (0 =? 0) with true. cbv zeta. cbn iota. change (-1 >=? 0) with false. cbn iota.
    replace ((r_total r >=? 0) && (pg_pos s + 4 + w >=? r_total r)) with false by lia. replace ((pg_stop s >=? 0) && (pg_pos s + 4 + w >=? pg_stop s)) with false by lia.
    change (2 <=? 1) with false. cbn iota. rewrite load_cluster_at by (cbn [pg_set_pos pg_pos]; lia). cbn [pg_set_pos pg_pos]. rewrite EQ.
    cbn [loads_at]. 
    assert (HX : next_cluster (S n) r (pg_set_pos (pg_pos s + 4 + w) s) = next_cluster n r (pg_set_pos (pg_pos s + zlen (mc_bytes c)) s)); [|unfold load_at; rewrite HX; reflexivity].
    destruct (elem_read_element r HT (pg_pos s + 4 + w) (pg_stop s) _ _ _ P5 Hs2 ltac:(lia)) as (l1 & l2 & [I1 I2 I3 I4 J1 J2 J3 J4 J5] & IK & _).
    cbn [next_cluster]. cbn [pg_set_pos pg_pos]. change (pg_stop (pg_set_pos (pg_pos s + 4 + w) s)) with (pg_stop s).
    replace ((r_total r >=? 0) && (pg_pos s + 4 + w >=? r_total r)) with false by lia. replace ((pg_stop s >=? 0) && (pg_pos s + 4 + w >=? pg_stop s)) with false by lia.
    destruct (id_field_len _ _ _ _ I1) as (w1 & ->). rewrite I2. change (kMkvTimecode <? 0) with false. cbv zeta. cbn iota. rewrite I3.
    replace (zlen tcp =? 0) with false by lia. rewrite IK. change (kMkvTimecode =? kMkvCues) with false. change (negb (kMkvTimecode =? kMkvCluster)) with true.
    replace ((pg_stop s >=? 0) && negb false && (pg_pos s + 4 + w + l1 + l2 + zlen tcp >? pg_stop s)) with false by lia. cbn iota.
    replace (pg_pos s + 4 + w + l1 + l2 + zlen tcp) with (pg_pos s + zlen (mc_bytes c)) by lia. reflexivity.
  Qed.

  (* ---------- clusters with frames ---------- *)

  (* the state after a cluster was found *)
  Definition found (sized : bool) (s : pseg) (w n : Z) : pseg :=
    let s1 := pg_set_clusters (pg_clusters s ++ [new_cluster (pg_pos s)]) (negb sized) s in
    pg_set_pos (if sized then pg_pos s + n else - (pg_pos s + 4 + w)) s1.

  Lemma DoLoadCluster_found : forall sized c s w size tcp tce f fs b blocks m, parts sized c w size tcp tce f fs b blocks ->
    serves r (pg_pos s) (mc_bytes c) -> (pg_stop s < 0 \/ pg_pos s + zlen (mc_bytes c) <= pg_stop s) -> 0 <= pg_start s <= pg_pos s -> pg_unknown s = false ->
    load_at (S m) s = Val (0, found sized s w (zlen (mc_bytes c))).
  Proof.
    intros sized c s w size tcp tce f fs b blocks m P Hs Hst Hpos Hu. unfold load_at.
    rewrite (next_cluster_found _ _ _ _ _ _ _ _ _ _ _ _ P Hs Hst). rewrite (HasBlockEntries_read _ _ _ _ _ _ _ _ _ _ _ _ P Hs Hst) by lia.
    change (1 <? 0) with false. change (1 =? 0) with false. cbv zeta. cbn iota. pose proof (pa_szb _ _ _ _ _ _ _ _ _ _ P). pose proof (pa_sz _ _ _ _ _ _ _ _ _ _ P) as Hk.
    pose proof (pa_len _ _ _ _ _ _ _ _ _ _ P) as HL. unfold found. destruct sized.
    - destruct Hk as [Hk _]. replace (size >=? 0) with true by lia. cbn [pg_set_pos pg_set_clusters pg_pos pg_clusters pg_unknown pg_start pg_size pg_info pg_tracks pg_cues pg_seek pg_chapters pg_tags].
      replace ((pg_stop s >? 0) && (pg_pos s + 4 + w + size >? pg_stop s)) with false by lia. rewrite Hu. cbn [negb].
      replace (pg_pos s + 4 + w + size) with (pg_pos s + zlen (mc_bytes c)) by lia. reflexivity.
    - reflexivity.
  Qed.

  (* ---------- what a cluster shows ---------- *)

  Lemma ne_zlen' : forall A (l : list A), l <> [] -> 1 <= zlen l.
  Proof. intros A l H. destruct l; [congruence|]. rewrite zlen_cons. pose proof (zlen_nonneg _ l). lia. Qed.

  Definition within (stop : Z) (e : bentry) : Prop := en_start e + en_size e <= stop /\ en_start e <= stop.

  Lemma next_parsed : forall start stop tc, 0 <= tc -> 0 <= start < stop -> stop <= r_avail r ->
    forall es pre, pre <> [] -> Forall (within stop) (pre ++ es) ->
    next_entries r (mkCluster start stop (stop - start) tc (Some (pre ++ es))) (zlen pre - 1) es (mkCluster start stop (stop - start) tc (Some (pre ++ es))).
  Proof.
    intros start stop tc Htc Hst HA. induction es as [|e es IH]; intros pre Hne HW; pose proof (ne_zlen' _ pre Hne) as HL.
    - rewrite app_nil_r in *. apply ne_end. unfold Cluster_GetNext. cbn [entry_count cl_entries].
      replace ((zlen pre - 1 <? 0) || (zlen pre - 1 >=? zlen pre)) with false by lia. cbv zeta. replace (zlen pre - 1 + 1 >=? zlen pre) with true by lia.
      destruct (Cluster_Parse_end r start stop true tc pre HT Htc Hst ltac:(discriminate) HA HW) as (c' & EP & Ec). cbn iota in EP. rewrite EP, Ec. reflexivity.
    - replace (pre ++ e :: es) with ((pre ++ [e]) ++ es) in * by (rewrite <- app_assoc; reflexivity).
      eapply ne_cons; [|replace (zlen pre - 1 + 1) with (zlen (pre ++ [e]) - 1) by (rewrite zlen_app; change (zlen [e]) with 1; lia); apply IH; [destruct pre; discriminate|exact HW]].
      unfold Cluster_GetNext. cbn [entry_count cl_entries]. rewrite !zlen_app. change (zlen [e]) with 1. pose proof (zlen_nonneg _ es).
      replace ((zlen pre - 1 <? 0) || (zlen pre - 1 >=? zlen pre + 1 + zlen es)) with false by lia. cbv zeta.
      replace (zlen pre - 1 + 1 >=? zlen pre + 1 + zlen es) with false by lia. cbn [entry_at cl_entries].
      rewrite <- app_assoc, nth_error_app2 by (unfold zlen; lia). replace (Z.to_nat (zlen pre - 1 + 1) - length pre)%nat with O by (unfold zlen; lia). reflexivity.
  Qed.

  Lemma shows_parsed : forall c start stop es, 0 <= mc_tc c -> 0 <= start < stop -> stop <= r_avail r -> mc_frames c <> [] ->
    Forall2 (entry_carries r (mc_tc c) scale) (mc_frames c) es -> Forall (within stop) es ->
    shows r scale c (mkCluster start stop (stop - start) (mc_tc c) (Some es)).
  Proof.
    intros c start stop es Htc Hst HA Hne HF HW. destruct es as [|e es]; [inversion HF; congruence|]. split.
    - eexists. unfold Cluster_GetTimeCode, Cluster_Load. cbn [cl_timecode]. replace (mc_tc c >=? 0) with true by lia. change (0 <? 0) with false. cbn iota. reflexivity.
    - eexists. exists e, es. eexists. split; [|split; [|exact HF]].
      + unfold Cluster_GetFirst. cbn [entry_count cl_entries]. rewrite zlen_cons. pose proof (zlen_nonneg _ es). replace (1 + zlen es <=? 0) with false by lia. reflexivity.
      + exact (next_parsed start stop (mc_tc c) Htc Hst HA es [e] ltac:(discriminate) HW).
  Qed.

  Definition short_frames (c : mcluster) : Prop := Forall (fun f => fr_duration f / scale < 2 ^ 63) (mc_frames c).

  Lemma shows_new : forall sized c pos, stored_cluster sized scale c -> mc_frames c <> [] -> short_frames c -> serves r pos (mc_bytes c) ->
    (sized = false -> follows_unknown r (pos + zlen (mc_bytes c))) -> shows r scale c (new_cluster pos).
  Proof.
    intros sized c pos Hc Hne Hd Hs Hf. destruct (stored_parts _ _ Hc Hne) as (w & size & tcp & tce & f & fs & b & blocks & P).
    pose proof P as [P1 P2 P3 P4 P5 P6 P7 P8 P9 P10 P11 P12 P13 P14].
    assert (HL : Cluster_Load r (new_cluster pos) = Some (Val (0, mkCluster pos (pos + 4 + w + zlen tce) (if sized then 4 + w + zlen (tce ++ concat (b :: blocks)) else -1) (mc_tc c) None))).
    { eapply Cluster_Load_muxed; eauto. rewrite <- P2. exact Hs. }
    split; [eexists; unfold Cluster_GetTimeCode; rewrite HL; change (0 <? 0) with false; cbn iota; reflexivity|].
    destruct (cluster_roundtrip r pos (mc_tc c) scale (mc_frames c) (pos + zlen (mc_bytes c)) HT P3 Hsc) as (c1 & e & es & c2 & A1 & A2 & A3 & _).
    - rewrite P1. discriminate.
    - rewrite P1. unfold short_frames in Hd. rewrite P1 in Hd. clear - P10 Hd. induction P10; [constructor|]. inversion Hd; subst. constructor; auto.
    - exists w, size, tcp, tce, (b :: blocks). split; [rewrite <- P2; exact Hs|]. split; [exact P4|]. split; [exact P5|]. split; [rewrite P1; exact P6|]. split; [lia|]. split; [exact P7|].
      destruct sized; [left; exact P9|right; split; [exact P9|apply Hf; reflexivity]].
    - exists c1, e, es, c2. auto.
  Qed.

  (* ---------- a cluster of unknown size is parsed by the next call ---------- *)

  Lemma set_last_app : forall A (l : list A) x y, set_last (l ++ [x]) y = l ++ [y].
  Proof. induction l as [|a l IH]; intros x y; [reflexivity|]. cbn [app set_last]. destruct (l ++ [x]) eqn:E; [destruct l; discriminate|]. rewrite <- E, IH. reflexivity. Qed.

  Lemma unknown_step : forall s fuel old c c', pg_pos s < 0 -> pg_unknown s = true -> pg_clusters s = old ++ [c] ->
    Cluster_Parse r c = Some (Val (0, c')) -> load_cluster (S fuel) r s = load_cluster fuel r (pg_set_clusters (old ++ [c']) true s).
  Proof.
    intros s fuel old c c' Hp Hu Hc HP. cbn [load_cluster]. unfold DoLoadCluster. replace (pg_pos s <? 0) with true by lia. unfold DoLoadClusterUnknownSize.
    rewrite Hu. replace ((pg_pos s >=? 0) || negb true) with false by (cbn [negb]; lia). rewrite Hc, rev_app_distr. cbn [rev app]. rewrite HP. cbv zeta.
    change (0 <? 0) with false. change (0 =? 0) with true. cbn iota. change (2 <=? 1) with false. cbn iota. rewrite set_last_app. reflexivity.
  Qed.
  Lemma unknown_done : forall s fuel old c c', pg_pos s < 0 -> pg_unknown s = true -> pg_clusters s = old ++ [c] ->
    Cluster_Parse r c = Some (Val (1, c')) -> 0 <= cl_esize c' ->
    load_cluster (S fuel) r s = load_cluster fuel r (pg_set_pos (cl_start c' + cl_esize c') (pg_set_clusters (old ++ [c']) false s)).
  Proof.
    intros s fuel old c c' Hp Hu Hc HP He. cbn [load_cluster]. unfold DoLoadCluster. replace (pg_pos s <? 0) with true by lia. unfold DoLoadClusterUnknownSize.
    rewrite Hu. replace ((pg_pos s >=? 0) || negb true) with false by (cbn [negb]; lia). rewrite Hc, rev_app_distr. cbn [rev app]. rewrite HP. cbv zeta.
    change (1 <? 0) with false. change (1 =? 0) with false. cbn iota. replace (cl_esize c' <? 0) with false by lia. change (2 <=? 1) with false. cbn iota. rewrite set_last_app. reflexivity.
  Qed.

  Lemma unknown_frames : forall start stop tc old, 0 <= tc -> 0 <= start < stop -> stop <= r_avail r -> follows_unknown r stop ->
    forall fs blocks, Forall2 (fun f b => written_as f (frame_rel f tc scale) scale b) fs blocks ->
    forall pos es s fuel, Forall frame_ok fs -> Forall (fun f => fr_duration f / scale < 2 ^ 63) fs ->
    serves r pos (concat blocks) -> pos + zlen (concat blocks) = stop -> start <= pos -> Forall (within pos) es ->
    pg_pos s < 0 -> pg_unknown s = true -> pg_clusters s = old ++ [mkCluster start pos (-1) tc (Some es)] -> (length fs < fuel)%nat ->
    exists es', Forall2 (entry_carries r tc scale) fs es' /\ Forall (within stop) (es ++ es') /\
      load_cluster fuel r s = load_cluster (fuel - length fs - 1) r
        (pg_set_pos stop (pg_set_clusters (old ++ [mkCluster start stop (stop - start) tc (Some (es ++ es'))]) false s)).
  Proof.
    intros start stop tc old Htc Hst HA Hfo fs blocks H. induction H as [|f b fs blocks Hw HF IH]; intros pos es s fuel Hok Hd Hs Hpos Hsp HW Hp Hu Hc Hfu.
    - cbn [concat] in *. rewrite zlen_nil in Hpos. replace pos with stop in * by lia. exists []. split; [constructor|]. rewrite app_nil_r. split; [exact HW|].
      destruct fuel as [|fuel]; [cbn [length] in Hfu; lia|].
      destruct (Cluster_Parse_end r start stop false tc es HT Htc Hst (fun _ => Hfo) HA HW) as (c' & EP & Ec). cbn iota in EP.
      rewrite (unknown_done s fuel old _ c' Hp Hu Hc EP) by (rewrite Ec; cbn [cl_esize]; lia). rewrite Ec. cbn [cl_start cl_esize length].
      replace (start + (stop - start)) with stop by lia. f_equal. lia.
    - cbn [concat] in *. rewrite zlen_app in Hpos. pose proof (zlen_nonneg _ (concat blocks)) as HZ. pose proof (zlen_nonneg _ b) as HZb.
      inversion Hok as [|? ? Hok1 Hok']; subst. inversion Hd as [|? ? Hd1 Hd']; subst. destruct fuel as [|fuel]; [cbn [length] in Hfu; lia|]. cbn [length] in Hfu.
      set (stop := pos + (zlen b + zlen (concat blocks))) in *.
      destruct (Cluster_Parse_frame r start pos false stop tc scale (Some es) f b HT Hok1 Hsc Hd1 Htc ltac:(lia) Hw (serves_app_l _ _ _ _ Hs) ltac:(lia)) as (e & EP & EC & EL).
      cbn [entries_of cl_entries set_entries set_pos cl_start cl_pos cl_esize cl_timecode] in EP.
      rewrite (unknown_step s fuel old _ _ Hp Hu Hc EP).
      destruct (IH (pos + zlen b) (es ++ [e]) (pg_set_clusters (old ++ [mkCluster start (pos + zlen b) (-1) tc (Some (es ++ [e]))]) true s) fuel) as (es' & R1 & R2 & R3); auto.
      + apply serves_app_r; exact Hs.
      + lia.
      + lia.
      + apply Forall_app. split; [eapply Forall_impl; [|exact HW]; unfold within; cbn; intros; lia|]. constructor; [exact EL|constructor].
      + lia.
      + rewrite <- app_assoc in R2, R3. exists (e :: es'). split; [constructor; auto|]. split; [exact R2|].
        etransitivity; [exact R3|]. cbn [length]. replace (S fuel - S (length fs) - 1)%nat with (fuel - length fs - 1)%nat by lia. reflexivity.
  Qed.

  (* ---------- all the clusters ---------- *)

  (* s is behind the cluster c, found last: it is parsed, or known to be complete *)
  Lemma settle : forall sized c s w size tcp tce f fs b blocks fuel, parts sized c w size tcp tce f fs b blocks -> short_frames c ->
    serves r (pg_pos s) (mc_bytes c) -> 0 <= pg_pos s -> stored_cluster sized scale c ->
    (sized = false -> follows_unknown r (pg_pos s + zlen (mc_bytes c))) -> pg_unknown s = false -> r_avail r + 2 < Z.of_nat fuel ->
    exists fuel' pc, Z.of_nat fuel <= Z.of_nat fuel' + r_avail r + 2 /\ cl_start pc = pg_pos s /\ shows r scale c pc /\
      load_cluster fuel r (found sized s w (zlen (mc_bytes c))) =
      load_cluster fuel' r (pg_set_pos (pg_pos s + zlen (mc_bytes c)) (pg_set_clusters (pg_clusters s ++ [pc]) false s)).
  Proof.
    intros sized c s w size tcp tce f fs b blocks fuel P Hd Hs Hp Hc Hf Hu Hfu.
    assert (HA0 : pg_pos s + zlen (mc_bytes c) <= r_avail r) by (apply serves_avail; [exact Hs|rewrite (pa_bytes _ _ _ _ _ _ _ _ _ _ P); discriminate]).
    pose proof (zlen_nonneg _ (mc_bytes c)) as HZ0. destruct sized.
    - exists fuel, (new_cluster (pg_pos s)). split; [lia|]. split; [reflexivity|]. split; [eapply shows_new; eauto; rewrite (pa_frames _ _ _ _ _ _ _ _ _ _ P); discriminate|]. reflexivity.
    - pose proof P as [P1 P2 P3 P4 P5 P6 P7 P8 P9 P10 P11 P12 P13 P14]. set (start := pg_pos s) in *. set (stop := start + zlen (mc_bytes c)) in *.
      assert (HA : stop <= r_avail r) by (apply serves_avail; [exact Hs|rewrite P2; discriminate]).
      assert (HL : Cluster_Load r (new_cluster start) = Some (Val (0, mkCluster start (start + 4 + w + zlen tce) (-1) (mc_tc c) None))).
      { apply (Cluster_Load_muxed r start w size tcp tce f fs b blocks (mc_tc c) scale false); auto. rewrite <- P2. exact Hs. }
      destruct (at_cluster _ _ start _ _ _ _ _ _ _ _ (-1) P Hs ltac:(lia)) as (n & _ & _ & Hs2). apply serves_app_r in Hs2.
      cbn [concat] in *. rewrite !zlen_app in *. pose proof (zlen_nonneg _ (concat blocks)) as HZ.
      inversion P6 as [|? ? ? ? Hwb HF']; subst. inversion P10 as [|? ? Hok1 Hok']; subst. unfold short_frames in Hd. rewrite P1 in Hd. inversion Hd as [|? ? Hd1 Hd']; subst.
      set (p := start + 4 + w + zlen tce) in *.
      destruct (Cluster_Parse_frame r start p false stop (mc_tc c) scale None f b HT Hok1 Hsc Hd1 ltac:(lia) ltac:(lia) Hwb (serves_app_l _ _ _ _ Hs2) ltac:(lia)) as (e & EP & EC & EN).
      cbn [entries_of cl_entries app set_entries set_pos cl_start cl_pos cl_esize cl_timecode] in EP.
      destruct fuel as [|fuel]; [lia|].
      assert (HP0 : Cluster_Parse r (new_cluster start) = Some (Val (0, mkCluster start (p + zlen b) (-1) (mc_tc c) (Some [e])))).
      { rewrite (Cluster_Parse_loaded r _ _ HL) by (cbn [cl_timecode]; lia). exact EP. }
      assert (HNB : zlen fs <= zlen (concat blocks)).
      { clear - HF'. induction HF' as [|g x gs xs Hx HF IH]; [cbn; lia|]. cbn [concat]. rewrite zlen_cons, zlen_app.
        destruct (written_element _ _ _ _ Hx) as (id & q & _ & _ & He). pose proof (ne_zlen _ (is_element_ne _ _ _ He)). lia. }
      destruct (unknown_frames start stop (mc_tc c) (pg_clusters s) ltac:(lia) ltac:(lia) HA (Hf eq_refl) fs blocks HF' (p + zlen b) [e]
        (pg_set_clusters (pg_clusters s ++ [mkCluster start (p + zlen b) (-1) (mc_tc c) (Some [e])]) true (found false s w (zlen (mc_bytes c)))) fuel Hok' Hd')
        as (es' & R1 & R2 & R3).
      + apply serves_app_r; exact Hs2.
      + lia.
      + lia.
      + constructor; [exact EN|constructor].
      + cbn [found pg_set_clusters pg_set_pos pg_pos]. fold start. lia.
      + reflexivity.
      + reflexivity.
      + unfold zlen in *. lia.
      + exists (fuel - length fs - 1)%nat, (mkCluster start stop (stop - start) (mc_tc c) (Some (e :: es'))).
        split; [unfold zlen in *; lia|]. split; [reflexivity|]. split.
        * apply shows_parsed; auto; try lia; [rewrite P1; discriminate|]. rewrite P1. constructor; auto.
        * etransitivity; [apply (unknown_step (found false s w (zlen (mc_bytes c))) fuel (pg_clusters s) (new_cluster start) (mkCluster start (p + zlen b) (-1) (mc_tc c) (Some [e]))); [|reflexivity|reflexivity|exact HP0]|].
          -- cbn [found pg_set_clusters pg_set_pos pg_pos]. fold start. lia.
          -- etransitivity; [exact R3|]. reflexivity.
  Qed.

  (* what follows the clusters: the cues or nothing *)
  Definition ends (cues : option (list cue_point)) (bs : list Z) : Prop :=
    match cues with
    | None => bs = []
    | Some qs => representable [cues_tree qs] /\ forallb cue_valid qs = true /\ Forall readable_cue qs /\ encodes (cues_tree qs) bs
    end.

  Lemma cues_empty : forall qs, content (cues_tree qs) [] -> qs = [].
  Proof. intros [|q qs] H; [reflexivity|]. exfalso. exact (encodes_all_nonempty _ _ H). Qed.

  (* what the segment keeps *)
  Definition same_heads (s s' : pseg) : Prop :=
    pg_start s' = pg_start s /\ pg_info s' = pg_info s /\ pg_tracks s' = pg_tracks s /\ pg_chapters s' = pg_chapters s /\ pg_tags s' = pg_tags s /\
    pg_seek s' = pg_seek s.
  Lemma shows_cues_new : forall qs pos bs start size, representable [cues_tree qs] -> forallb cue_valid qs = true -> Forall readable_cue qs ->
    encodes (cues_tree qs) bs -> serves r pos bs -> pos + zlen bs <= LLONG_MAX -> element_at r pos kMkvCues start size ->
    shows_cues r (Some qs) (Some (cues_new start size)).
  Proof.
    intros qs pos bs start size H1 H2 H3 H4 H5 H6 H7.
    assert (He : encodes_all [cues_tree qs] bs). { rewrite <- (app_nil_r bs). constructor; [exact H4|constructor]. }
    destruct (cues_read r qs pos bs H1 H2 H3 He H5 H6) as (st & sz & c & A1 & A2 & A3 & A4 & A5 & A6 & A7).
    destruct (element_at_det r _ _ _ _ _ _ _ A1 H7) as [-> ->]. exists c. repeat split; auto.
  Qed.

  Lemma load_end : forall cues bs s fuel m, ends cues bs -> serves r (pg_pos s) bs -> pg_pos s + zlen bs = r_avail r -> r_avail r <= LLONG_MAX ->
    (pg_stop s < 0 \/ pg_stop s = r_avail r) -> 0 <= pg_pos s -> pg_cues s = None -> r_avail r - pg_pos s < Z.of_nat m ->
    exists s', loads_at (S fuel) m s = Val (1, s') /\ same_heads s s' /\ pg_clusters s' = pg_clusters s /\ shows_cues r cues (pg_cues s').
  Proof.
    intros cues bs s fuel m HE Hs HA HLL Hst Hp Hcu Hm. pose proof (zlen_nonneg _ bs) as HZ0. cbn [loads_at]. unfold load_at.
    assert (HEND : forall f s0, pg_pos s0 = r_avail r -> next_cluster (S f) r s0 = Val (LN_status 1 s0)).
    { intros f s0 E. cbn [next_cluster]. replace ((r_total r >=? 0) && (pg_pos s0 >=? r_total r)) with true by lia. reflexivity. }
    destruct cues as [qs|]; cbn [ends] in HE.
    - destruct HE as (H1 & H2 & H3 & H4). destruct (encodes_inv _ _ H4) as (p & Hc & He). cbn [tid cues_tree] in He. pose proof (zlen_nonneg _ p) as HP.
      destruct (elem_read_element r HT (pg_pos s) (pg_stop s) _ _ _ He Hs ltac:(lia)) as (l1 & l2 & [E1 E2 E3 E4 G1 G2 G3 G4 G5] & HK & Hsp).
      assert (ELF : exists n, m = S n /\ forall s0, pg_pos s0 = r_avail r -> next_cluster n r s0 = Val (LN_status 1 s0)).
      { exists (S (pred (pred m))). split; [lia|]. intros s0. apply HEND. }
      destruct ELF as (n & -> & HEm). cbn [next_cluster].
      replace ((r_total r >=? 0) && (pg_pos s >=? r_total r)) with false by lia. replace ((pg_stop s >=? 0) && (pg_pos s >=? pg_stop s)) with false by lia.
      destruct (id_field_len _ _ _ _ E1) as (w1 & ->). rewrite E2. change (kMkvCues <? 0) with false. cbv zeta. cbn iota. rewrite E3.
      destruct (zlen p =? 0) eqn:EZ.
      + rewrite HEm by (cbn [pg_set_pos pg_pos]; lia). change (1 <=? 1) with true. cbn iota.
        eexists. split; [reflexivity|]. split; [repeat split|]. split; [reflexivity|]. cbn [pg_set_pos pg_cues]. rewrite Hcu. cbn [shows_cues].
        apply cues_empty. destruct p; [exact Hc|]. rewrite zlen_cons in EZ. pose proof (zlen_nonneg _ p). lia.
      + rewrite HK. replace ((pg_stop s >=? 0) && negb false && (pg_pos s + l1 + l2 + zlen p >? pg_stop s)) with false by lia.
        change (kMkvCues =? kMkvCues) with true. cbn iota. rewrite Hcu.
        rewrite HEm by (cbn [pg_set_pos pg_pos]; lia). change (1 <=? 1) with true. cbn iota.
        eexists. split; [reflexivity|]. split; [repeat split|]. split; [reflexivity|]. cbn [pg_set_pos pg_set_cues pg_cues].
        apply (shows_cues_new qs (pg_pos s) bs); auto; [lia|]. apply G4; lia.
    - subst bs. rewrite zlen_nil in HA. destruct m as [|m]; [lia|]. rewrite HEND by lia. change (1 <=? 1) with true. cbn iota.
      exists s. split; [reflexivity|]. split; [repeat split|]. split; [reflexivity|]. rewrite Hcu. exact I.
  Qed.

  Lemma cluster_start : forall sized c rest pos, stored_cluster sized scale c -> serves r pos (mc_bytes c ++ rest) ->
    is_id_bytes kMkvCluster (be_bytes 4 kMkvCluster) /\ serves r pos (be_bytes 4 kMkvCluster) /\ 1 <= zlen (mc_bytes c).
  Proof.
    intros sized c rest pos (Htc & Hok & tcp & tce & blocks & Htp & Hte & HF & He) Hs.
    destruct (sized_split sized kMkvCluster _ _ ltac:(unfold kMkvCluster; lia) He) as (w & size & Eb & Hw & Hsz & Hk & Hib).
    split; [exact Hib|]. split; [rewrite Eb, <- !app_assoc in Hs; exact (serves_app_l _ _ _ _ Hs)|].
    rewrite Eb, zlen_app, be_bytes_zlen. pose proof (zlen_nonneg _ (vint w size ++ tce ++ concat blocks)). lia.
  Qed.
  Lemma follows_ended : forall sized cs cues rest pos, Forall (stored_cluster sized scale) cs -> ends cues rest -> serves r pos (concat (map mc_bytes cs) ++ rest) ->
    cs <> [] \/ cues <> None -> ended pos.
  Proof.
    intros sized cs cues rest pos HF HE Hs HN. destruct cs as [|c cs].
    - cbn [map concat app] in *. destruct cues as [qs|]; cbn [ends] in HE; [|destruct HN; congruence]. destruct HE as (_ & _ & _ & He).
      destruct (encodes_inv _ _ He) as (p & _ & ib & w & Hib & _ & E). cbn [tid cues_tree] in Hib. pose proof Hib as Hib'. destruct (id4 _ _ Hib ltac:(unfold kMkvCues; lia)) as [E1 _].
      exists kMkvCues. split; [right; reflexivity|]. rewrite E1 in Hib'. split; [exact Hib'|]. rewrite E, E1 in Hs. exact (serves_app_l _ _ _ _ Hs).
    - inversion HF as [|? ? Hc _]; subst. cbn [map concat] in Hs. rewrite <- app_assoc in Hs. destruct (cluster_start _ _ _ _ Hc Hs) as (H1 & H2 & _).
      exists kMkvCluster. split; [left; reflexivity|]. split; assumption.
  Qed.
  Lemma follows_next : forall sized cs cues rest pos, Forall (stored_cluster sized scale) cs -> ends cues rest -> serves r pos (concat (map mc_bytes cs) ++ rest) ->
    pos + zlen (concat (map mc_bytes cs) ++ rest) = r_avail r -> follows_unknown r pos.
  Proof.
    intros sized cs cues rest pos HF HE Hs HA. assert (HC : (cs = [] /\ cues = None) \/ (cs <> [] \/ cues <> None)).
    { destruct cs; [|right; left; discriminate]. destruct cues; [right; right; discriminate|left; auto]. }
    destruct HC as [[-> ->]|HC].
    - cbn [map concat app] in *. cbn [ends] in HE. subst rest. rewrite zlen_nil in HA. left. lia.
    - destruct (follows_ended sized cs cues rest pos HF HE Hs HC) as (id & Hid & _ & Hsi). right. destruct Hid as [->| ->]; [left|right]; exact Hsi.
  Qed.
  Lemma count_clusters : forall sized cs rest pos, Forall (stored_cluster sized scale) cs -> serves r pos (concat (map mc_bytes cs) ++ rest) ->
    zlen cs <= zlen (concat (map mc_bytes cs)).
  Proof.
    intros sized cs rest. induction cs as [|c cs IH]; intros pos HF Hs; [cbn; lia|]. inversion HF as [|? ? Hc HF']; subst. cbn [map concat] in *. rewrite <- app_assoc in Hs.
    destruct (cluster_start _ _ _ _ Hc Hs) as (_ & _ & HL). rewrite zlen_cons, zlen_app. specialize (IH _ HF' (serves_app_r _ _ _ _ Hs)). lia.
  Qed.

  Lemma load_all_read : forall sized cues rest, ends cues rest -> r_avail r <= LLONG_MAX ->
    forall cs s sN fuelN m fuel, Forall (stored_cluster sized scale) cs -> Forall short_frames cs -> ends_well sized cues cs ->
    serves r (pg_pos sN) (concat (map mc_bytes cs) ++ rest) -> pg_pos sN + zlen (concat (map mc_bytes cs) ++ rest) = r_avail r ->
    (pg_stop sN < 0 \/ pg_stop sN = r_avail r) -> 0 <= pg_start sN <= pg_pos sN -> pg_unknown sN = false -> pg_cues sN = None ->
    LoadCluster r s = loads_at fuelN m sN -> (length cs < fuelN)%nat -> r_avail r - pg_pos sN < Z.of_nat m -> (length cs < fuel)%nat ->
    exists s' pcs, load_all fuel r s = Val (0, s') /\ same_heads sN s' /\ pg_clusters s' = pg_clusters sN ++ pcs /\
      shows_clusters r scale (pg_pos sN) cs pcs /\ shows_cues r cues (pg_cues s').
  Proof.
    intros sized cues rest HE HLL. induction cs as [|c cs IH]; intros s sN fuelN m fuel HF Hd HW Hs HA Hst Hp Hu Hcu HN HfN Hm Hf;
      (destruct fuelN as [|fuelN]; [lia|]); (destruct fuel as [|fuel]; [cbn [length] in Hf; lia|]).
    - cbn [map concat app] in *. destruct (load_end cues rest sN fuelN m HE Hs HA HLL Hst ltac:(lia) Hcu Hm) as (s' & E & H1 & H2 & H3).
      exists s', []. cbn [load_all]. rewrite HN, E. change (1 <? 0) with false. change (1 >=? 1) with true. cbn iota. split; [reflexivity|]. split; [exact H1|].
      split; [rewrite app_nil_r; exact H2|]. split; [reflexivity|exact H3].
    - inversion HF as [|? ? Hc HF']; subst. inversion Hd as [|? ? Hd1 Hd']; subst. cbn [length] in Hf, HfN.
      cbn [map concat] in Hs, HA. rewrite <- app_assoc in Hs, HA. rewrite zlen_app in HA. pose proof (zlen_nonneg _ (concat (map mc_bytes cs) ++ rest)) as HZ. pose proof (zlen_nonneg _ (mc_bytes c)) as HZc.
      pose proof (serves_app_l _ _ _ _ Hs) as Hsc'. pose proof (serves_app_r _ _ _ _ Hs) as Hsr.
      assert (HW' : ends_well sized cues cs). { intros X1 X2 before c0 X3. apply (HW X1 X2 (c :: before) c0). rewrite X3. reflexivity. }
      destruct (mc_frames c) as [|f0 fs0] eqn:EFR.
      + destruct (hollow_parts _ _ Hc EFR) as (w & size & tcp & tce & P).
        assert (HST : exists m', r_avail r - (pg_pos sN + zlen (mc_bytes c)) < Z.of_nat m' /\ LoadCluster r s = loads_at fuelN m' (pg_set_pos (pg_pos sN + zlen (mc_bytes c)) sN)).
        { destruct fuelN as [|fuelN]; [lia|]. destruct m as [|m]; [lia|]. destruct sized.
          - exists (loop_fuel r (pg_pos sN + zlen (mc_bytes c))). split; [unfold loop_fuel; lia|].
            rewrite HN, (hollow_sized _ _ _ _ _ _ _ _ P Hsc' Hst Hp). apply load_cluster_at. cbn [pg_set_pos pg_pos]. lia.
          - destruct (hollow_open c sN w size tcp tce m fuelN P) as (m' & M1 & M2); auto.
            { eapply follows_ended; eauto. destruct cs as [|c1 cs1]; [|left; discriminate]. right. intros X. exact (HW eq_refl X [] c eq_refl EFR). }
            exists m'. split; [exact M1|]. rewrite HN. exact M2. }
        destruct HST as (m' & M1 & M2).
        destruct (IH s (pg_set_pos (pg_pos sN + zlen (mc_bytes c)) sN) fuelN m' (S fuel)) as (s' & pcs & E & H1 & H2 & H3 & H4); auto; try lia.
        * cbn [pg_set_pos pg_pos]. lia.
        * cbn [pg_set_pos pg_pos pg_start]. lia.
        * exists s', pcs. split; [exact E|]. split; [exact H1|]. split; [exact H2|]. split; [|exact H4]. cbn [shows_clusters]. rewrite EFR. exact H3.
      + destruct (stored_parts _ _ Hc ltac:(rewrite EFR; discriminate)) as (w & size & tcp & tce & f & fs & b & blocks & P).
        assert (HD : exists m0, m = S m0) by (exists (pred m); lia). destruct HD as (m0 & ->).
        assert (HD : load_at (S m0) sN = Val (0, found sized sN w (zlen (mc_bytes c)))) by (eapply DoLoadCluster_found; eauto; lia).
        assert (HFO : sized = false -> follows_unknown r (pg_pos sN + zlen (mc_bytes c))) by (intros _; eapply follows_next; eauto; lia).
        destruct (settle sized c sN _ _ _ _ _ _ _ _ (load_fuel r) P Hd1 Hsc' ltac:(lia) Hc HFO Hu) as (fuel' & pc & Hf' & Hst' & Hsh & HL); [unfold load_fuel; lia|].
        pose proof (count_clusters _ _ _ _ HF' Hsr) as HCT. rewrite zlen_app in HA, HZ. pose proof (zlen_nonneg _ rest) as HZr. pose proof (zlen_nonneg _ (concat (map mc_bytes cs))) as HZcs.
        set (sN' := pg_set_pos (pg_pos sN + zlen (mc_bytes c)) (pg_set_clusters (pg_clusters sN ++ [pc]) false sN)) in *.
        assert (HpN : pg_pos sN' = pg_pos sN + zlen (mc_bytes c)) by reflexivity.
        rewrite (load_cluster_at fuel' sN') in HL by lia.
        destruct (IH (found sized sN w (zlen (mc_bytes c))) sN' fuel' (loop_fuel r (pg_pos sN')) fuel) as (s' & pcs & E & H1 & H2 & H3 & H4); auto.
        * rewrite HpN, zlen_app. lia.
        * rewrite HpN. unfold sN'. cbn [pg_set_pos pg_set_clusters pg_start]. lia.
        * unfold load_fuel, zlen in *. lia.
        * unfold loop_fuel. lia.
        * lia.
        * exists s', (pc :: pcs). cbn [load_all]. rewrite HN. cbn [loads_at]. rewrite HD. change (0 <=? 1) with true. change (0 <? 0) with false. change (0 >=? 1) with false. cbn iota.
          split; [exact E|]. split; [exact H1|]. split; [rewrite H2; unfold sN'; cbn [pg_set_pos pg_set_clusters pg_clusters]; rewrite <- app_assoc; reflexivity|].
          split; [|exact H4]. cbn [shows_clusters]. rewrite EFR. split; [exact Hst'|]. split; [exact Hsh|exact H3].
  Qed.
End Load.
