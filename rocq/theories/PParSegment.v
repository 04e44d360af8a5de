(* Proofs about mkvparser's Segment: opening it and reading the headers of a file. *)
From Coq Require Import ZifyBool ZifyNat.
From Verif Require Import Base EbmlSpec Ids ReaderSpec MMuxUtil MFloat MMuxBlock BlockSpec MMuxMeta MetaSpec MMuxSegment MuxFileSpec
  MParUtil PParUtil MParMeta MParBlock MParTrack MParCues MParCluster ClusterSpec PParCluster MParSegment ReadBackSpec PParBlock PEbml PParMeta PParMeta2 PParTrack2 SegReadSpec.

Section Seg.
  Context (r : reader) (HT : total_ok r).

  Lemma field_head : forall pos stop w, field_len r pos stop = inr w -> head_len r pos stop = inr w /\ entries_len r pos stop = inr w.
  Proof.
    intros pos stop w H. unfold field_len in H. unfold head_len, entries_len.
    destruct (pos + 1 >? r_avail r); [discriminate H|]. destruct (GetUIntLength r pos) as (res, len).
    destruct (res <? 0); [discriminate H|]. destruct (res >? 0); [discriminate H|].
    destruct ((stop >=? 0) && (pos + len >? stop)); [discriminate H|].
    destruct (pos + len >? r_avail r) eqn:E; [discriminate H|].
    replace ((r_total r >=? 0) && (pos + len >? r_total r)) with false by (unfold total_ok in HT; lia).
    split; exact H.
  Qed.
  Lemma id_field_len : forall pos stop x, read_id_field r pos stop = inr x -> exists w, field_len r pos stop = inr w.
  Proof. intros pos stop x H. unfold read_id_field in H. destruct (field_len r pos stop) as [|w]; [discriminate H|eauto]. Qed.
  Lemma uint_field_len : forall pos stop x, read_uint_field r pos stop = inr x -> exists w, field_len r pos stop = inr w.
  Proof. intros pos stop x H. unfold read_uint_field in H. destruct (field_len r pos stop) as [|w]; [discriminate H|eauto]. Qed.

  (* all that is read of the header of an element *)
  Record elem_read (pos stop id size n l1 l2 : Z) : Prop := mkER {
    er_id : read_id_field r pos stop = inr (id, l1);
    er_ID : ReadID r pos = (id, l1);
    er_size : read_uint_field r (pos + l1) stop = inr (size, l2);
    er_UInt : ReadUInt r (pos + l1) = (size, l2);
    er_l1 : 1 <= l1 <= 4; er_l2 : 1 <= l2 <= 8;
    er_len : n = l1 + l2 + size;
    er_at : pos + n <= LLONG_MAX -> 0 <= size -> element_at r pos id (pos + l1 + l2) size;
    er_pos : 0 < id
  }.

  Lemma elem_read_vint : forall pos stop id ib w size rest, is_id_bytes id ib -> 1 <= w <= 8 -> 0 <= size < 2 ^ (7 * w) ->
    serves r pos (ib ++ vint w size ++ rest) -> (stop < 0 \/ pos + zlen ib + w <= stop) ->
    elem_read pos stop id size (zlen ib + w + size) (zlen ib) w.
  Proof.
    intros pos stop id ib w size rest Hib Hw Hsz Hs Hst. pose proof Hib as (wi & Hid & Eib). pose proof Hid as [Hwi Hidr].
    assert (HL1 : zlen ib = wi) by (rewrite Eib, be_bytes_zlen; lia). rewrite HL1 in *.
    rewrite Eib in Hs. destruct (read_id_field_bytes r pos stop wi id _ HT Hid Hs ltac:(lia)) as [E1 E2]. rewrite <- Eib in Hs.
    pose proof (serves_app_r _ _ _ _ Hs) as Hs2. rewrite HL1 in Hs2.
    destruct (read_uint_field_vint r (pos + wi) stop w size rest HT Hw Hsz Hs2 ltac:(lia)) as (E3 & E4 & E5).
    pose proof (Z.pow_pos_nonneg 2 (7 * wi) ltac:(lia) ltac:(lia)).
    constructor; auto; try lia.
    intros HL H0. unfold element_at. rewrite <- HL1. apply ParseElementHeader_element; auto; try lia.
    rewrite app_assoc in Hs. exact (serves_app_l _ _ _ _ Hs).
  Qed.

  Lemma elem_read_element : forall pos stop id p bs, is_element id p bs -> serves r pos bs -> (stop < 0 \/ pos + zlen bs <= stop) ->
    exists l1 l2, elem_read pos stop id (zlen p) (zlen bs) l1 l2 /\ zlen p =? unknown_size l2 = false /\ serves r (pos + l1 + l2) p.
  Proof.
    intros pos stop id p bs (ib & w & Hib & (Hw & Hf) & ->) Hs Hst. pose proof (zlen_nonneg _ p) as HP.
    assert (HL2 : zlen (vint w (zlen p)) = w) by (rewrite vint_zlen_l; lia). rewrite !zlen_app, HL2 in *.
    exists (zlen ib), w. split; [|split].
    - replace (zlen ib + (w + zlen p)) with (zlen ib + w + zlen p) by lia. eapply elem_read_vint; eauto; lia.
    - rewrite unknown_size_pow by lia. lia.
    - apply serves_app_r in Hs. apply serves_app_r in Hs. rewrite HL2 in Hs. exact Hs.
  Qed.

  Lemma element_at_det : forall pos id a b id' a' b', element_at r pos id a b -> element_at r pos id' a' b' -> a = a' /\ b = b'.
  Proof. unfold element_at. intros pos id a b id' a' b' H H'. rewrite H in H'. injection H' as -> -> ->. auto. Qed.

  (* ---------- one turn of ParseHeaders ---------- *)

  Lemma headers_step : forall fuel s id p bs s', is_element id p bs -> serves r (pg_pos s) bs -> id <> kMkvCluster ->
    (pg_stop s < 0 \/ pg_pos s + zlen bs <= pg_stop s) -> pg_pos s + zlen bs <= LLONG_MAX ->
    (forall start, element_at r (pg_pos s) id start (zlen p) -> start + zlen p = pg_pos s + zlen bs -> serves r start p ->
       level1_element r id start (zlen p) s = Val (0, s')) ->
    r_avail r - pg_pos s < Z.of_nat fuel ->
    exists f', r_avail r - (pg_pos s + zlen bs) < Z.of_nat f' /\ headers_loop fuel r s = headers_loop f' r (pg_set_pos (pg_pos s + zlen bs) s').
  Proof.
    intros fuel s id p bs s' He Hs Hid Hst HLL H1 Hf.
    destruct (elem_read_element (pg_pos s) (pg_stop s) id p bs He Hs Hst) as (l1 & l2 & [E1 E2 E3 E4 G1 G2 G3 G4 G5] & HK & Hsp).
    pose proof (serves_avail _ _ _ Hs (is_element_ne _ _ _ He)) as HA. pose proof (zlen_nonneg _ p) as HP.
    destruct fuel as [|f]; [pose proof Hs; lia|]. exists f. split; [lia|]. cbn [headers_loop].
    replace ((r_total r >=? 0) && (pg_pos s >=? r_total r)) with false by (unfold total_ok in HT; lia).
    replace ((pg_stop s >=? 0) && (pg_pos s >=? pg_stop s)) with false by lia.
    replace (pg_pos s + 1 >? LLONG_MAX) with false by lia.
    destruct (id_field_len _ _ _ E1) as (w1 & F1). destruct (field_head _ _ _ F1) as [-> _].
    rewrite E2. replace (id <? 0) with false by lia. replace (id =? kMkvCluster) with false by lia. cbv zeta.
    destruct (uint_field_len _ _ _ E3) as (w2 & F2). destruct (field_head _ _ _ F2) as [-> _].
    rewrite E4. replace ((zlen p <? 0) || (l2 <? 1) || (l2 >? 8)) with false by lia.
    replace (pg_pos s + l1 + l2 + zlen p >? LLONG_MAX) with false by lia.
    replace ((pg_stop s >=? 0) && (pg_pos s + l1 + l2 + zlen p >? pg_stop s)) with false by lia.
    replace (pg_pos s + l1 + l2 + zlen p >? r_avail r) with false by lia.
    rewrite (H1 (pg_pos s + l1 + l2)); [|apply G4; lia|lia|exact Hsp]. change (negb (0 =? 0)) with false. cbn iota.
    replace (pg_pos s + l1 + l2 + zlen p) with (pg_pos s + zlen bs) by lia. reflexivity.
  Qed.

  Lemma headers_end : forall fuel s, 0 <= r_total r -> r_total r <= pg_pos s -> headers_loop (S fuel) r s = Val (inr s).
  Proof. intros fuel s H0 H. cbn [headers_loop]. replace ((r_total r >=? 0) && (pg_pos s >=? r_total r)) with true by lia. reflexivity. Qed.

  Lemma headers_cluster : forall fuel s rest, serves r (pg_pos s) (be_bytes 4 kMkvCluster ++ rest) ->
    (pg_stop s < 0 \/ pg_pos s + 4 <= pg_stop s) -> r_avail r <= LLONG_MAX -> headers_loop (S fuel) r s = Val (inr s).
  Proof.
    intros fuel s rest Hs Hst HLL. change (be_bytes 4 kMkvCluster) with (be_bytes (Z.to_nat 4) kMkvCluster) in Hs.
    assert (Hid : id_width 4 kMkvCluster) by (unfold id_width; vm_compute; intuition congruence).
    destruct (read_id_field_bytes r (pg_pos s) (pg_stop s) 4 kMkvCluster _ HT Hid Hs Hst) as [E1 E2].
    pose proof (serves_avail _ _ _ Hs ltac:(discriminate)) as HA. rewrite zlen_app, be_bytes_zlen in HA. pose proof (zlen_nonneg _ rest).
    cbn [headers_loop].
    replace ((r_total r >=? 0) && (pg_pos s >=? r_total r)) with false by (unfold total_ok in HT; lia).
    replace ((pg_stop s >=? 0) && (pg_pos s >=? pg_stop s)) with false by lia.
    replace (pg_pos s + 1 >? LLONG_MAX) with false by lia.
    destruct (id_field_len _ _ _ E1) as (w1 & F1). destruct (field_head _ _ _ F1) as [-> _]. rewrite E2.
    reflexivity.
  Qed.

  (* ---------- CreateInstance ---------- *)

  Lemma sized_split : forall sized id p bs, 2 ^ 28 <= id < 2 ^ 29 -> is_sized_element sized id p bs ->
    exists w size, bs = be_bytes 4 id ++ vint w size ++ p /\ 1 <= w <= 8 /\ 0 <= size < 2 ^ (7 * w) /\
      (if sized then size = zlen p /\ vint_fits w size else size = 2 ^ (7 * w) - 1) /\ is_id_bytes id (be_bytes 4 id).
  Proof.
    intros sized id p bs Hid H. destruct sized; cbn [is_sized_element] in H.
    - destruct H as (ib & w & Hib & [Hw Hf] & ->). destruct (id4 _ _ Hib Hid) as [-> _]. exists w, (zlen p). repeat split; auto; try lia.
    - destruct H as (ib & Hib & ->). destruct (id4 _ _ Hib Hid) as [-> _]. exists 8, (2 ^ 56 - 1).
      split; [f_equal|]. split; [lia|]. split; [lia|]. split; [reflexivity|exact Hib].
  Qed.

  Lemma CreateInstance_read : forall (sized : bool) pos body seg, is_sized_element sized kMkvSegment body seg -> serves r pos seg ->
    pos + zlen seg = r_avail r -> r_total r = r_avail r ->
    exists start, start + zlen body = r_avail r /\ pos < start /\ serves r start body /\
      CreateInstance r pos = Val (0, Some (new_pseg start (if sized then zlen body else -1))).
  Proof.
    intros sized pos body seg He Hs HA HTA. pose proof Hs as [Hp _]. pose proof (zlen_nonneg _ body) as HB.
    destruct (sized_split sized kMkvSegment body seg ltac:(unfold kMkvSegment; lia) He) as (w & size & -> & Hw & Hsz & Hk & Hib).
    assert (HL : zlen (be_bytes 4 kMkvSegment ++ vint w size ++ body) = 4 + w + zlen body).
    { rewrite !zlen_app, be_bytes_zlen, vint_zlen_l by lia. lia. } rewrite HL in HA.
    destruct (elem_read_vint pos (-1) kMkvSegment (be_bytes 4 kMkvSegment) w size body Hib Hw Hsz Hs ltac:(lia)) as [E1 E2 E3 E4 G1 G2 G3 G4 G5].
    change (zlen (be_bytes 4 kMkvSegment)) with 4 in *.
    exists (pos + 4 + w). split; [lia|]. split; [lia|]. split.
    { apply serves_app_r in Hs. apply serves_app_r in Hs. rewrite vint_zlen_l in Hs by lia. exact Hs. }
    unfold CreateInstance. replace (pos <? 0) with false by lia. replace (r_avail r <? 0) with false by lia.
    replace ((r_total r >=? 0) && (r_avail r >? r_total r)) with false by lia. unfold loop_fuel.
    cbn [create_loop]. replace ((r_total r >=? 0) && (pos >=? r_total r)) with false by lia.
    assert (FL : forall q st, read_id_field r q (-1) = inr st \/ read_uint_field r q (-1) = inr st -> exists l, GetUIntLength r q = (0, l) /\ q + l <= r_avail r).
    { intros q st H. 
      assert (exists l, field_len r q (-1) = inr l) as (l & FL).
      { destruct H as [H|H]; [exact (id_field_len _ _ _ H)|exact (uint_field_len _ _ _ H)]. }
      unfold field_len in FL. destruct (q + 1 >? r_avail r); [discriminate FL|]. destruct (GetUIntLength r q) as (res, len).
      destruct (res <? 0) eqn:X1; [discriminate FL|]. destruct (res >? 0) eqn:X2; [discriminate FL|].
      destruct ((-1 >=? 0) && (q + len >? -1)); [discriminate FL|]. destruct (q + len >? r_avail r) eqn:X3; [discriminate FL|].
      exists len. split; [f_equal; lia|lia]. }
    destruct (FL _ _ (or_introl E1)) as (a & -> & HAa). change (negb (0 =? 0)) with false. cbn iota.
    replace ((r_total r >=? 0) && (pos + a >? r_total r)) with false by lia. replace (pos + a >? r_avail r) with false by lia.
    rewrite E2. replace (kMkvSegment <? 0) with false by reflexivity. cbv zeta.
    destruct (FL _ _ (or_intror E3)) as (b & -> & HAb). change (negb (0 =? 0)) with false. cbn iota.
    replace ((r_total r >=? 0) && (pos + 4 + b >? r_total r)) with false by lia. replace (pos + 4 + b >? r_avail r) with false by lia.
    rewrite E4. replace (size <? 0) with false by lia. change (kMkvSegment =? kMkvSegment) with true. cbn iota.
    rewrite unknown_size_pow by lia. destruct sized.
    - destruct Hk as [-> [_ Hf]]. replace (zlen body =? 2 ^ (7 * w) - 1) with false by lia.
      replace (r_total r <? 0) with false by lia. replace (pos + 4 + w + zlen body >? r_total r) with false by lia. reflexivity.
    - replace (size =? 2 ^ (7 * w) - 1) with true by lia. reflexivity.
  Qed.

  (* ---------- the seek head ---------- *)

  Lemma id_payload : forall w id q, id_width w id -> leaf_payload (LUint id) q -> q = be_bytes (Z.to_nat w) id /\ zlen q = w.
  Proof.
    intros w id q [Hw Hid] [(Hb & Hl & Hv) Hmin].
    assert (HP : uint_payload id (be_bytes (Z.to_nat w) id)).
    { split; [apply be_bytes_bytes|]. rewrite be_bytes_zlen. split; [lia|]. rewrite be_val_be_bytes. apply Z.mod_small.
      pose proof (Z.pow_pos_nonneg 2 (7 * w) ltac:(lia) ltac:(lia)). assert (2 ^ (7 * w + 1) <= 2 ^ (8 * Z.of_nat (Z.to_nat w))) by (apply Z.pow_le_mono_r; lia). lia. }
    specialize (Hmin _ HP). rewrite be_bytes_zlen in Hmin.
    pose proof (be_val_bound q Hb) as HB.
    assert (HL : zlen q = w).
    { assert (w <= zlen q); [|lia]. destruct (Z.le_gt_cases w (zlen q)) as [|HC]; [assumption|exfalso].
      assert (2 ^ (8 * zlen q) <= 2 ^ (7 * w)) by (apply Z.pow_le_mono_r; lia). lia. }
    split; [|exact HL]. rewrite <- (be_bytes_val q Hb), Hv. f_equal. unfold zlen in HL. lia.
  Qed.

  Lemma ParseEntry_read : forall e p q, valid_id (fst e) -> 0 <= snd e < 2 ^ 63 -> content (seek_tree e) p -> serves r q p ->
    ParseEntry r q (zlen p) = Val (Some e).
  Proof.
    intros (id, pos) p q (wi & Hwi) Hpos Hc Hs. cbn [fst snd] in *. cbn [content seek_tree] in Hc.
    inversion Hc as [|? ? a b Ha Hb]; subst. inversion Hb as [|? ? c d Hcc Hd]; subst. inversion Hd; subst. rewrite app_nil_r in *. clear Hc Hb Hd.
    destruct (encodes_inv _ _ Ha) as (pa & Ca & Ea). destruct (encodes_inv _ _ Hcc) as (pc & Cc & Ec). cbn [tid content uint fst snd] in *.
    destruct (id_payload wi id pa Hwi Ca) as [Epa HLa]. destruct Cc as [Cc _]. pose proof Cc as (_ & HLc & _).
    pose proof Hs as [Hq _]. rewrite zlen_app in *. pose proof (zlen_nonneg _ a). pose proof (zlen_nonneg _ c). pose proof Hwi as [Hw4 Hwr].
    destruct (elem_read_element q (q + (zlen a + zlen c)) _ _ _ Ea (serves_app_l _ _ _ _ Hs) ltac:(lia)) as (l1 & l2 & [E1 E2 E3 E4 G1 G2 G3 G4 G5] & _ & S1).
    destruct (elem_read_element (q + zlen a) (q + (zlen a + zlen c)) _ _ _ Ec (serves_app_r _ _ _ _ Hs) ltac:(lia)) as (k1 & k2 & [F1 F2 F3 F4 K1 K2 K3 K4 K5] & _ & S2).
    unfold ParseEntry. replace (zlen a + zlen c <=? 0) with false by lia. cbv zeta. rewrite E2. change (kMkvSeekID <? 0) with false.
    change (negb (kMkvSeekID =? kMkvSeekID)) with false. cbn iota. replace (q + l1 >? q + (zlen a + zlen c)) with false by lia.
    rewrite E4. replace (zlen pa <=? 0) with false by lia. replace (q + l1 + l2 >? q + (zlen a + zlen c)) with false by lia.
    replace (q + l1 + l2 + zlen pa >? q + (zlen a + zlen c)) with false by lia.
    rewrite Epa in S1. rewrite (ReadID_bytes r _ wi id Hwi S1). pose proof (Z.pow_pos_nonneg 2 (7 * wi) ltac:(lia) ltac:(lia)).
    replace (id <=? 0) with false by lia. replace (negb (wi =? zlen pa)) with false by lia.
    replace (q + l1 + l2 + zlen pa) with (q + zlen a) by lia. rewrite F2. change (negb (kMkvSeekPosition =? kMkvSeekPosition)) with false. cbn iota.
    replace (q + zlen a + k1 >? q + (zlen a + zlen c)) with false by lia. rewrite F4. replace (zlen pc <=? 0) with false by lia.
    replace (q + zlen a + k1 + k2 >? q + (zlen a + zlen c)) with false by lia. replace (q + zlen a + k1 + k2 + zlen pc >? q + (zlen a + zlen c)) with false by lia.
    rewrite (UnserializeUInt_payload r _ pc pos Cc S2). change (2 ^ 63) with 9223372036854775808 in Hpos. rewrite sint64_small by lia.
    replace (pos <? 0) with false by lia. replace (negb (q + zlen a + k1 + k2 + zlen pc =? q + (zlen a + zlen c))) with false by lia. reflexivity.
  Qed.

  Lemma seek_chain : forall l acc, Forall (fun e => valid_id (fst e) /\ 0 <= snd e < 2 ^ 63) l ->
    chain r (seek_element r) (map seek_tree l) (fun s => map (fun e => (se_id e, se_pos e)) (psh_entries (snd s)) = acc)
      (fun s => map (fun e => (se_id e, se_pos e)) (psh_entries (snd s)) = acc ++ l).
  Proof.
    induction l as [|e l IH]; intros acc HF; cbn [map].
    - apply chain_nil. intros s H. rewrite app_nil_r. exact H.
    - inversion HF as [|? ? [Hv Hp] HF']; subst. apply (chain_cons _ _ _ _ _ (fun s => map (fun e => (se_id e, se_pos e)) (psh_entries (snd s)) = acc ++ [e])).
      + intros p q (idpos, h) HP Hc Hs HL. cbn [snd] in HP. unfold seek_element. change (tid (seek_tree e)) with kMkvSeek. change (kMkvSeek =? kMkvSeek) with true.
        cbv zeta. rewrite (ParseEntry_read e p q Hv Hp Hc Hs). destruct e as (eid, epos). eexists. split; [reflexivity|]. cbn [snd psh_entries].
        rewrite map_app, HP. reflexivity.
      + replace (acc ++ e :: l) with ((acc ++ [e]) ++ l) by (rewrite <- app_assoc; reflexivity). apply IH. exact HF'.
  Qed.
  Lemma seek_count_chain : forall l n, n + zlen l <= INT_MAX -> 0 <= n ->
    chain r seek_count (map seek_tree l) (fun s => fst s = n) (fun s => fst s = n + zlen l).
  Proof.
    induction l as [|e l IH]; intros n Hn H0; cbn [map].
    - apply chain_nil. intros s H. rewrite zlen_nil. lia.
    - rewrite zlen_cons in *. pose proof (zlen_nonneg _ l). apply (chain_cons _ _ _ _ _ (fun s => fst s = n + 1)).
      + intros p q (a, b) HP Hc Hs HL. cbn [fst] in HP. unfold seek_count. change (tid (seek_tree e)) with kMkvSeek. change (kMkvSeek =? kMkvSeek) with true.
        cbn [fst snd]. replace (a + 1 >? INT_MAX) with false by lia. eexists. split; [reflexivity|]. cbn [fst]. lia.
      + replace (n + (1 + zlen l)) with (n + 1 + zlen l) by lia. apply IH; lia.
  Qed.

  Lemma SeekHead_read : forall l p pos, Forall (fun e => valid_id (fst e) /\ 0 <= snd e < 2 ^ 63) l -> zlen l <= INT_MAX ->
    content (seek_head_tree l) p -> serves r pos p -> pos + zlen p <= LLONG_MAX ->
    exists h, SeekHead_Parse r pos (zlen p) = Val (0, h) /\ map (fun e => (se_id e, se_pos e)) (psh_entries h) = l.
  Proof.
    intros l p pos HF HN Hc Hs HL. cbn [content seek_head_tree] in Hc. unfold SeekHead_Parse, walk_payload. pose proof (zlen_nonneg _ p) as HP.
    replace (pos + zlen p >? LLONG_MAX) with false by lia.
    destruct (walk_chain r seek_count _ _ Hc _ _ (seek_count_chain l 0 ltac:(lia) ltac:(lia)) (Z.to_nat (zlen p)) pos (0, 0) eq_refl Hs HL ltac:(lia)) as (s1 & -> & _).
    change (negb (0 =? 0)) with false. cbn iota.
    destruct (walk_chain r (seek_element r) _ _ Hc _ _ (seek_chain l [] HF) (Z.to_nat (zlen p)) pos (pos, mkPSH [] []) eq_refl Hs HL ltac:(lia)) as ((ip, h) & -> & H2).
    exists h. split; [reflexivity|exact H2].
  Qed.
End Seg.
