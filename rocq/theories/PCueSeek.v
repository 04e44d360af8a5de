(* Proofs about going to the block of a cue point. *)
From Coq Require Import ZifyBool ZifyNat Sorted.
From Verif Require Import Base ReaderSpec Ids MParUtil MParBlock MParMeta MParTrack MParCues MParCluster ClusterSpec ClusterSafeSpec PClusterSafe MParSegment SegSafeSpec PSegSafe MParWalk WalkSpec
  PParWalk PParWalk2 PParWalk4 PTrackSeek MParCueSeek CueSeekSpec.

(* ---------- clusters whose entries are known ---------- *)

Lemma parse_to_run : forall r tc all index, intact r -> 0 <= index -> forall fuel c, holds r tc all c -> zlen all - zlen (entries c) < Z.of_nat fuel ->
  exists c', parse_to fuel r index c = Val (index <? zlen all, c') /\ holds r tc all c' /\ cl_start c' = cl_start c /\ zlen (entries c) <= zlen (entries c') /\ (index < zlen all -> index < zlen (entries c')).
Proof.
  intros r tc all index HI Hi. induction fuel as [|fuel IH]; intros c Hc Hf; destruct (holds_prefix r tc all c Hc) as (rest & Hr); pose proof (zlen_nonneg _ rest) as Hn;
    assert (HL : zlen all = zlen (entries c) + zlen rest) by (rewrite Hr at 1; apply zlen_app); [lia|]. cbn [parse_to].
  destruct (entry_count_entries c) as (N1 & N2 & N3). destruct (Z.geb_spec index (entry_count c)) as [HG|HG].
  - destruct (holds_run r tc all c HI Hc) as (st & c' & E & Hst). rewrite E. destruct (holds_parse r tc all c st c' HI Hc E Hst) as (Hc' & S & T & X0 & X1). replace (st <? 0) with false by lia.
    assert (HLc : zlen (entries c) <= index). { destruct (Z.leb_spec 1 (zlen (entries c))) as [Q|Q]; [rewrite N3 in HG by exact Q; lia|lia]. }
    destruct (Z.eq_dec st 0) as [->|Hs].
    + change (0 >? 0) with false. cbv iota. destruct (X0 eq_refl) as (x & Ex). assert (HLc' : zlen (entries c') = zlen (entries c) + 1) by (rewrite Ex, zlen_app; reflexivity).
      destruct (IH c' Hc' ltac:(lia)) as (c2 & E2 & H2 & S2 & L2 & R2). exists c2. split; [exact E2|]. split; [exact H2|]. split; [congruence|]. split; [lia|exact R2].
    + replace (st >? 0) with true by lia. destruct (X1 Hs) as (_ & Y1 & Y2). rewrite Y2 in HLc. exists c'. replace (index <? zlen all) with false by lia. split; [reflexivity|]. split; [exact Hc'|]. split; [exact S|].
      rewrite Y1, Y2. lia.
  - rewrite N1 in HG by lia. exists c. replace (index <? zlen all) with true by lia. split; [reflexivity|]. split; [exact Hc|]. split; [reflexivity|]. lia.
Qed.

Definition cued_from (tracks : list p_track) (track time tc k : Z) (es : list bentry) : option (Z * bentry) :=
  match first_from (fun e => (bl_track (en_block e) =? track) && (time <=? entry_tc tc e)) k es with
  | Some (k, e) => if (entry_tc tc e =? time) && can_start tracks track e then Some (k, e) else None
  | None => None
  end.
Definition in_time (tc : Z) (e : bentry) : Prop := entry_tc tc e <= LLONG_MAX.
Lemma block_timecode : forall tc e, 0 <= tc -> in_time tc e -> Block_GetTimeCode (en_block e) tc = entry_tc tc e.
Proof. intros tc e H1 H2. unfold in_time, entry_tc in *. unfold Block_GetTimeCode. replace ((tc <? 0) || (LLONG_MAX - tc <? bl_timecode (en_block e))) with false by lia. reflexivity. Qed.
Lemma by_number : forall l n, 0 <= n -> GetTrackByNumber l n = find (fun t => ti_number (pt_info t) =? n) l.
Proof. intros l n H. induction l as [|t l IH]; cbn [GetTrackByNumber find]; replace (n <? 0) with false by lia; [reflexivity|]. rewrite (Z.eqb_sym (ti_number _) n). destruct (n =? _); [reflexivity|exact IH]. Qed.

Lemma find_cued_run : forall r s tracks time tp tc all, intact r -> pg_tracks s = Some tracks -> 0 <= tp_track tp -> Forall (in_time tc) all -> forall post fuel c pre,
  holds r tc all c -> all = pre ++ post -> zlen pre <= zlen (entries c) -> (length post < fuel)%nat ->
  exists c', find_cued fuel r s time tp c (zlen pre) = Val (cued_from tracks (tp_track tp) time tc (zlen pre) post, c') /\ holds r tc all c' /\ cl_start c' = cl_start c /\
    zlen (entries c) <= zlen (entries c') /\ in_bounds c' (cued_from tracks (tp_track tp) time tc (zlen pre) post).
Proof.
  intros r s tracks time tp tc all HI HT Htp HB. induction post as [|e post IH]; intros fuel c pre Hc Ha Hpre Hf; (destruct fuel as [|fuel]; [lia|]); cbn [find_cued].
  - destruct (entry_count_entries c) as (N1 & N2 & N3). destruct (holds_prefix r tc all c Hc) as (rest & Hr).
    assert (HL : zlen (entries c) <= zlen pre). { rewrite app_nil_r in Ha. subst pre. rewrite Hr, zlen_app. pose proof (zlen_nonneg _ rest). lia. }
    assert (HG : (zlen pre >=? entry_count c) = true). { unfold entry_count in *. unfold entries in HL, Hpre. pose proof (zlen_nonneg _ pre). destruct (cl_entries c); lia. }
    rewrite HG. destruct (holds_run r tc all c HI Hc) as (st & c' & E & Hst). rewrite E. destruct (holds_parse r tc all c st c' HI Hc E Hst) as (Hc' & S & _ & X0 & X1).
    destruct (Z.eq_dec st 0) as [->|Hs].
    { exfalso. destruct (X0 eq_refl) as (x & Ex). destruct (holds_prefix r tc all c' Hc') as (rest' & Hr'). rewrite app_nil_r in Ha. subst pre. rewrite Ex in Hr'.
      assert (Q : zlen all = zlen ((entries c ++ [x]) ++ rest')) by congruence. rewrite !zlen_app in Q. change (zlen [x]) with 1 in Q. pose proof (zlen_nonneg _ rest'). lia. }
    replace (st <? 0) with false by lia. replace (st >? 0) with true by lia. exists c'. split; [reflexivity|]. split; [exact Hc'|]. split; [exact S|]. destruct (X1 Hs) as (_ & Y1 & Y2). split; [rewrite Y1, Y2; lia|exact I].
  - assert (X : exists c1, (if zlen pre >=? entry_count c then
               match Cluster_Parse r c with
               | None => UB | Some UB => UB
               | Some (Val (status, c)) => if status <? 0 then Val (false, c) else if status >? 0 then Val (false, c) else if zlen pre >=? entry_count c then UB else Val (true, c)
               end else Val (true, c)) = Val (true, c1) /\ holds r tc all c1 /\ cl_start c1 = cl_start c /\ zlen pre + 1 <= zlen (entries c1) /\ zlen (entries c) <= zlen (entries c1)).
    { destruct (entry_count_entries c) as (N1 & N2 & N3). destruct (Z.geb_spec (zlen pre) (entry_count c)) as [HG|HG].
      - destruct (holds_run r tc all c HI Hc) as (st & c' & E & Hst). rewrite E. destruct (holds_parse r tc all c st c' HI Hc E Hst) as (Hc' & S & T & X0 & X1).
        assert (HLc : zlen (entries c) <= zlen pre). { destruct (Z.leb_spec 1 (zlen (entries c))) as [Q|Q]; [rewrite N3 in HG by exact Q; lia|]. pose proof (zlen_nonneg _ pre). lia. }
        assert (HA : zlen all = zlen pre + 1 + zlen post) by (rewrite Ha, zlen_app, zlen_cons; lia). pose proof (zlen_nonneg _ post).
        destruct (Z.eq_dec st 0) as [->|Hs]; [|destruct (X1 Hs) as (_ & _ & Y2); rewrite Y2 in HLc; lia].
        destruct (X0 eq_refl) as (x & Ex). change (0 <? 0) with false. change (0 >? 0) with false. cbv iota.
        assert (HLc' : zlen (entries c') = zlen (entries c) + 1) by (rewrite Ex, zlen_app; reflexivity). pose proof (zlen_nonneg _ (entries c)).
        destruct (entry_count_entries c') as (M1 & M2 & M3). rewrite M3 by lia. replace (zlen pre >=? zlen (entries c')) with false by lia.
        exists c'. split; [reflexivity|]. split; [exact Hc'|]. split; [exact S|]. lia.
      - exists c. split; [reflexivity|]. split; [exact Hc|]. split; [reflexivity|]. rewrite N1 in HG by (pose proof (zlen_nonneg _ pre); lia). lia. }
    destruct X as (c1 & -> & Hc1 & S1 & HL1 & HL2). rewrite entry_at_entries. destruct (holds_prefix r tc all c1 Hc1) as (rest & Hr).
    assert (HE : nth_error (entries c1) (Z.to_nat (zlen pre)) = Some e).
    { assert (Q : nth_error all (Z.to_nat (zlen pre)) = Some e) by (rewrite Ha; apply nth_mid). rewrite Hr, nth_error_app1 in Q by (unfold zlen in *; lia). exact Q. }
    rewrite HE. assert (Ht1 : cl_timecode c1 = tc) by (apply (parsed_tc r tc all c1 Hc1); pose proof (zlen_nonneg _ pre); lia). pose proof (ho_pos _ _ _ _ Hc1) as Hp.
    assert (Hie : in_time tc e) by (rewrite Ha in HB; apply Forall_app in HB as [_ HB]; exact (Forall_inv HB)).
    unfold entry_time. rewrite Ht1. replace (tc <? 0) with false by lia. cbv zeta. rewrite (block_timecode tc e Hp Hie).
    assert (HB2 : in_bounds c1 (Some (zlen pre, e))) by (cbn [in_bounds]; pose proof (zlen_nonneg _ pre); lia).
    assert (GO : exists c', find_cued fuel r s time tp c1 (zlen pre + 1) = Val (cued_from tracks (tp_track tp) time tc (zlen pre + 1) post, c') /\ holds r tc all c' /\ cl_start c' = cl_start c /\ zlen (entries c) <= zlen (entries c') /\ in_bounds c' (cued_from tracks (tp_track tp) time tc (zlen pre + 1) post)).
    { destruct (IH fuel c1 (pre ++ [e]) Hc1) as (c' & E & H1 & H2 & H3 & H4); [rewrite <- app_assoc; exact Ha|rewrite zlen_app; exact HL1|cbn [length] in Hf; lia|].
      rewrite zlen_app in E, H4. change (zlen [e]) with 1 in E, H4. exists c'. split; [exact E|]. split; [exact H1|]. split; [congruence|]. split; [lia|exact H4]. }
    assert (ST : forall res : option (Z * bentry), in_bounds c1 res -> exists c', Val (res, c1) = Val (res, c') /\ holds r tc all c' /\ cl_start c' = cl_start c /\ zlen (entries c) <= zlen (entries c') /\ in_bounds c' res) by (intros res HR; exists c1; auto).
    unfold cued_from. cbn [first_from]. destruct (bl_track (en_block e) =? tp_track tp) eqn:Et; cbn [negb andb]; [|exact GO].
    destruct (Z.ltb_spec (entry_tc tc e) time) as [Hl|Hl]; [replace (time <=? entry_tc tc e) with false by lia; exact GO|]. replace (time <=? entry_tc tc e) with true by lia.
    destruct (Z.gtb_spec (entry_tc tc e) time) as [Hg|Hg]; [replace (entry_tc tc e =? time) with false by lia; cbn [andb]; apply (ST None); exact I|].
    replace (entry_tc tc e =? time) with true by lia. cbn [andb]. rewrite HT, (by_number tracks (tp_track tp) Htp). unfold can_start.
    destruct (find _ tracks) as [t|]; [|apply (ST None); exact I]. destruct (ti_type (pt_info t) =? 2); [apply ST; exact HB2|]. destruct (ti_type (pt_info t) =? 1); cbn [negb andb]; [|apply (ST None); exact I].
    destruct (Block_IsKey (en_block e)); [apply ST; exact HB2|apply (ST None); exact I].
Qed.

Lemma scan_fuel_all : forall r tc all c, intact r -> holds r tc all c -> (length all < scan_fuel r c)%nat.
Proof. intros r tc all c HI Hc. pose proof (holds_count r tc all c HI Hc) as H. unfold scan_fuel, zlen in *. lia. Qed.

Theorem GetEntry_run : forall r s tracks time tp tc all c, intact r -> pg_tracks s = Some tracks -> 0 <= tp_track tp -> Forall (in_time tc) all -> holds r tc all c ->
  exists c', GetEntry_cue r s time tp c = Val (cued tracks time tp tc all, c') /\ holds r tc all c' /\ cl_start c' = cl_start c /\ zlen (entries c) <= zlen (entries c') /\ in_bounds c' (cued tracks time tp tc all).
Proof.
  intros r s tracks time tp tc all c HI HT Htp HB Hc. unfold GetEntry_cue, cued.
  assert (GO : forall c1, holds r tc all c1 -> cl_start c1 = cl_start c -> zlen (entries c) <= zlen (entries c1) ->
    exists c', find_cued (scan_fuel r c1) r s time tp c1 0 = Val (cued_by_time tracks (tp_track tp) time tc all, c') /\ holds r tc all c' /\ cl_start c' = cl_start c /\ zlen (entries c) <= zlen (entries c') /\ in_bounds c' (cued_by_time tracks (tp_track tp) time tc all)).
  { intros c1 H1 S1 L1. destruct (find_cued_run r s tracks time tp tc all HI HT Htp HB all (scan_fuel r c1) c1 [] H1 eq_refl (zlen_nonneg _ _) (scan_fuel_all r tc all c1 HI H1)) as (c' & E & X1 & X2 & X3 & X4).
    exists c'. split; [exact E|]. split; [exact X1|]. split; [congruence|]. split; [lia|exact X4]. }
  destruct (Z.gtb_spec (tp_block tp) 0) as [Hb|Hb]; [|replace (tp_block tp <=? 0) with true by lia; apply GO; auto with zarith]. replace (tp_block tp <=? 0) with false by lia. cbv zeta.
  pose proof (zlen_nonneg _ (entries c)) as Hn. pose proof (scan_fuel_all r tc all c HI Hc) as Hf.
  destruct (parse_to_run r tc all (tp_block tp - 1) HI ltac:(lia) (scan_fuel r c) c Hc ltac:(unfold zlen in *; lia)) as (c1 & E & H1 & S1 & L1 & R1). rewrite E.
  destruct (Z.ltb_spec (tp_block tp - 1) (zlen all)) as [Hi|Hi].
  - rewrite entry_at_entries. destruct (holds_prefix r tc all c1 H1) as (rest & Hr). specialize (R1 Hi).
    destruct (nth_error (entries c1) (Z.to_nat (tp_block tp - 1))) as [e|] eqn:En; [|apply nth_error_None in En; unfold zlen in *; lia].
    assert (Ea : nth_error all (Z.to_nat (tp_block tp - 1)) = Some e) by (rewrite Hr, nth_error_app1; [exact En|unfold zlen in *; lia]). rewrite Ea.
    assert (Ht1 : cl_timecode c1 = tc) by (apply (parsed_tc r tc all c1 H1); lia). pose proof (ho_pos _ _ _ _ H1) as Hp.
    assert (Hie : in_time tc e) by (rewrite Forall_forall in HB; apply HB; eapply nth_error_In; eassumption). unfold is_cued, entry_time. rewrite Ht1. replace (tc <? 0) with false by lia. rewrite (block_timecode tc e Hp Hie).
    destruct (bl_track (en_block e) =? tp_track tp); cbn [andb]; [|apply GO; assumption]. destruct (entry_tc tc e =? time); [|apply GO; assumption].
    exists c1. split; [reflexivity|]. split; [exact H1|]. split; [exact S1|]. split; [exact L1|]. cbn [in_bounds]. lia.
  - destruct (nth_error all (Z.to_nat (tp_block tp - 1))) eqn:En; [exfalso; assert (Z.to_nat (tp_block tp - 1) < length all)%nat by (apply nth_error_Some; congruence); unfold zlen in Hi; lia|].
    exists c1. split; [reflexivity|]. split; [exact H1|]. split; [exact S1|]. split; [exact L1|exact I].
Qed.

(* ---------- any cluster ---------- *)

Section Any.
  Context (r : reader) (HI : intact r).

  Lemma reach_tc : forall c, reachable r c -> 1 <= zlen (entries c) -> 0 <= cl_timecode c.
  Proof.
    intros c H HL. destruct (reachable_inv r c HI H) as (_ & Hi). destruct (Z.ltb_spec (cl_timecode c) 0); [|lia]. destruct Hi as (_ & _ & _ & Hn). unfold entries in HL. rewrite Hn in HL. cbn in HL. lia.
  Qed.
  Lemma parse_to_any : forall index, 0 <= index -> forall fuel c, reachable r c -> r_avail r - cl_start c + 1 < zlen (entries c) + Z.of_nat fuel -> (1 <= fuel)%nat ->
    exists b c', parse_to fuel r index c = Val (b, c') /\ parsed_on r c c' /\ (b = true -> index < zlen (entries c')).
  Proof.
    intros index Hi. induction fuel as [|fuel IH]; intros c H Hf H1; [lia|]. cbn [parse_to]. destruct (entry_count_entries c) as (N1 & N2 & N3).
    destruct (Z.geb_spec index (entry_count c)) as [HG|HG].
    - destruct (parse_any r HI c H) as (st & c' & E & P & S1 & S2 & S3). rewrite E.
      destruct (Z.ltb_spec st 0); [exists false, c'; split; [reflexivity|]; split; [exact P|discriminate]|].
      destruct (Z.gtb_spec st 0); [exists false, c'; split; [reflexivity|]; split; [exact P|discriminate]|].
      destruct (S2 ltac:(lia)) as (e & Ee). assert (HLc' : zlen (entries c') = zlen (entries c) + 1) by (rewrite Ee, zlen_app; reflexivity). destruct P as (P1 & P2 & P3).
      pose proof (inv_count r c' (reachable_inv r c' HI P1)) as HC. rewrite P2 in HC. pose proof (zlen_nonneg _ (entries c)).
      destruct (IH c' P1) as (b & c2 & E2 & Q & R); [rewrite P2; lia|lia|]. exists b, c2. split; [exact E2|]. split; [exact (parsed_trans r _ _ _ (conj P1 (conj P2 P3)) Q)|exact R].
    - rewrite N1 in HG by lia. exists true, c. split; [reflexivity|]. split; [apply parsed_refl; exact H|]. intros _. exact HG.
  Qed.

  Definition cued_in (c : cluster) (time : Z) (tp : track_pos) (o : option (Z * bentry)) : Prop :=
    match o with Some (k, e) => 0 <= k /\ nth_error (entries c) (Z.to_nat k) = Some e /\ is_cued (tp_track tp) time (cl_timecode c) e = true | None => True end.
  Lemma is_cued_tc : forall tp time tc e, 0 <= time -> bl_track (en_block e) = tp_track tp -> Block_GetTimeCode (en_block e) tc = time -> is_cued (tp_track tp) time tc e = true.
  Proof.
    intros tp time tc e Ht H1 H2. unfold is_cued. rewrite H1, Z.eqb_refl. cbn [andb]. unfold Block_GetTimeCode in H2. destruct ((tc <? 0) || _); [lia|]. unfold entry_tc. lia.
  Qed.
  Lemma find_cued_any : forall s time tp, pg_tracks s <> None -> 0 <= time -> forall fuel c index, reachable r c -> 0 <= index <= zlen (entries c) ->
    r_avail r - cl_start c + 1 < index + Z.of_nat fuel -> (1 <= fuel)%nat -> exists o c', find_cued fuel r s time tp c index = Val (o, c') /\ parsed_on r c c' /\ cued_in c' time tp o.
  Proof.
    intros s time tp HT Htm. induction fuel as [|fuel IH]; intros c index H Hi Hf H1; [lia|]. cbn [find_cued].
    assert (X : exists b c1, (if index >=? entry_count c then
               match Cluster_Parse r c with
               | None => UB | Some UB => UB
               | Some (Val (status, c)) => if status <? 0 then Val (false, c) else if status >? 0 then Val (false, c) else if index >=? entry_count c then UB else Val (true, c)
               end else Val (true, c)) = Val (b, c1) /\ parsed_on r c c1 /\ (b = true -> index < zlen (entries c1))).
    { destruct (entry_count_entries c) as (N1 & N2 & N3). destruct (Z.geb_spec index (entry_count c)) as [HG|HG].
      - destruct (parse_any r HI c H) as (st & c' & E & P & S1 & S2 & S3). rewrite E. destruct (Z.ltb_spec st 0); [exists false, c'; split; [reflexivity|]; split; [exact P|discriminate]|].
        destruct (Z.gtb_spec st 0); [exists false, c'; split; [reflexivity|]; split; [exact P|discriminate]|].
        destruct (S2 ltac:(lia)) as (e & Ee). assert (HLc' : zlen (entries c') = zlen (entries c) + 1) by (rewrite Ee, zlen_app; reflexivity). pose proof (zlen_nonneg _ (entries c)).
        destruct (entry_count_entries c') as (M1 & M2 & M3). rewrite M3 by lia. replace (index >=? zlen (entries c')) with false by lia. exists true, c'. split; [reflexivity|]. split; [exact P|]. lia.
      - rewrite N1 in HG by lia. exists true, c. split; [reflexivity|]. split; [apply parsed_refl; exact H|]. intros _. exact HG. }
    destruct X as (b & c1 & -> & P & R). destruct b; [|exists None, c1; split; [reflexivity|]; split; [exact P|exact I]]. specialize (R eq_refl). rewrite entry_at_entries.
    destruct (nth_error (entries c1) (Z.to_nat index)) as [e|] eqn:En; [|apply nth_error_None in En; unfold zlen in R; lia]. pose proof P as (P1 & P2 & _).
    pose proof (inv_count r c1 (reachable_inv r c1 HI P1)) as HC. rewrite P2 in HC.
    assert (GO : exists o c', find_cued fuel r s time tp c1 (index + 1) = Val (o, c') /\ parsed_on r c c' /\ cued_in c' time tp o).
    { destruct (IH c1 (index + 1) P1) as (o & c' & E & Q & O); [lia|rewrite P2; lia|lia|]. exists o, c'. split; [exact E|]. split; [exact (parsed_trans r _ _ _ P Q)|exact O]. }
    destruct (bl_track (en_block e) =? tp_track tp) eqn:Et; cbn [negb]; [|exact GO]. unfold entry_time. pose proof (reach_tc c1 P1 ltac:(lia)). replace (cl_timecode c1 <? 0) with false by lia.
    destruct (Z.ltb_spec (Block_GetTimeCode (en_block e) (cl_timecode c1)) time); [exact GO|]. destruct (Z.gtb_spec (Block_GetTimeCode (en_block e) (cl_timecode c1)) time); [exists None, c1; split; [reflexivity|]; split; [exact P|exact I]|].
    assert (NO : exists (o : option (Z * bentry)) c', Val (@None (Z * bentry), c1) = Val (o, c') /\ parsed_on r c c' /\ cued_in c' time tp o) by (exists None, c1; split; [reflexivity|]; split; [exact P|exact I]).
    assert (YES : exists o c', Val (Some (index, e), c1) = Val (o, c') /\ parsed_on r c c' /\ cued_in c' time tp o).
    { exists (Some (index, e)), c1. split; [reflexivity|]. split; [exact P|]. split; [lia|]. split; [exact En|]. apply is_cued_tc; lia. }
    destruct (pg_tracks s) as [l|]; [|congruence]. destruct (GetTrackByNumber l (tp_track tp)) as [t|]; [|exact NO]. cbv zeta. destruct (ti_type (pt_info t) =? 2); [exact YES|].
    destruct (negb (ti_type (pt_info t) =? 1)); [exact NO|]. destruct (negb (Block_IsKey (en_block e))); [exact NO|exact YES].
  Qed.
  Lemma GetEntry_any : forall s time tp c, pg_tracks s <> None -> 0 <= time -> reachable r c ->
    exists o c', GetEntry_cue r s time tp c = Val (o, c') /\ parsed_on r c c' /\ cued_in c' time tp o.
  Proof.
    intros s time tp c HT Htm H. unfold GetEntry_cue.
    assert (GO : forall c1, parsed_on r c c1 -> exists o c', find_cued (scan_fuel r c1) r s time tp c1 0 = Val (o, c') /\ parsed_on r c c' /\ cued_in c' time tp o).
    { intros c1 P. pose proof (zlen_nonneg _ (entries c1)). destruct (find_cued_any s time tp HT Htm (scan_fuel r c1) c1 0 (proj1 P)) as (o & c' & E & Q & O); [lia|unfold scan_fuel; lia|unfold scan_fuel; lia|].
      exists o, c'. split; [exact E|]. split; [exact (parsed_trans r _ _ _ P Q)|exact O]. }
    destruct (Z.gtb_spec (tp_block tp) 0) as [Hb|Hb]; [|apply GO; apply parsed_refl; exact H]. cbv zeta. pose proof (zlen_nonneg _ (entries c)).
    destruct (parse_to_any (tp_block tp - 1) ltac:(lia) (scan_fuel r c) c H ltac:(unfold scan_fuel; lia) ltac:(unfold scan_fuel; lia)) as (b & c1 & E & P & R). rewrite E.
    destruct b; [|exists None, c1; split; [reflexivity|]; split; [exact P|exact I]]. specialize (R eq_refl). rewrite entry_at_entries.
    destruct (nth_error (entries c1) (Z.to_nat (tp_block tp - 1))) as [e|] eqn:En; [|apply nth_error_None in En; unfold zlen in R; lia].
    destruct (bl_track (en_block e) =? tp_track tp) eqn:Et; [|apply GO; exact P]. unfold entry_time. pose proof (reach_tc c1 (proj1 P) ltac:(lia)). replace (cl_timecode c1 <? 0) with false by lia.
    destruct (Z.eqb_spec (Block_GetTimeCode (en_block e) (cl_timecode c1)) time); [|apply GO; exact P]. exists (Some (tp_block tp - 1, e)), c1. split; [reflexivity|]. split; [exact P|]. split; [lia|]. split; [exact En|]. apply is_cued_tc; lia.
  Qed.

  (* the search for the position *)
  Lemma find_pos_any : forall s pos, seg_inv r s -> forall fuel i j, 0 <= i <= j -> j <= zlen (pg_clusters s) -> (j - i < Z.of_nat fuel) ->
    (forall k c, cluster_at s k = Some c -> k < i -> cl_start c - pg_start s < pos) -> (forall k c, cluster_at s k = Some c -> j <= k -> pos < cl_start c - pg_start s) ->
    exists x, find_pos fuel s pos i j = Val x /\
      match x with
      | inl k => exists c, cluster_at s k = Some c /\ cl_start c = pg_start s + pos
      | inr k => i <= k <= j /\ (forall m c, cluster_at s m = Some c -> m < k -> cl_start c - pg_start s < pos) /\ (forall m c, cluster_at s m = Some c -> k <= m -> pos < cl_start c - pg_start s)
      end.
  Proof.
    intros s pos HS. assert (SORT : forall a b ca cb, cluster_at s a = Some ca -> cluster_at s b = Some cb -> a < b -> cl_start ca < cl_start cb).
    { intros a b ca cb Ha Hb Hab. pose proof (cluster_at_range _ _ _ Ha) as Ra. pose proof (cluster_at_range _ _ _ Hb) as Rb. unfold cluster_at in Ha, Hb. replace (a <? 0) with false in Ha by lia. replace (b <? 0) with false in Hb by lia.
      pose proof (si_sorted r s HS) as SS. clear - Ha Hb Hab Ra Rb SS. assert (Hn : (Z.to_nat a < Z.to_nat b)%nat) by lia. clear Ra Rb Hab. revert Ha Hb Hn. generalize (Z.to_nat a) as m, (Z.to_nat b) as n. induction SS as [|x l SS IH HF]; intros m n Ha Hb Hn; [destruct m; discriminate|].
      destruct n as [|n]; [lia|]. destruct m as [|m]; cbn [nth_error] in *; [injection Ha as ->; rewrite Forall_forall in HF; apply HF; eapply nth_error_In; eassumption|]. apply (IH m n Ha Hb). lia. }
    induction fuel as [|fuel IH]; intros i j Hij Hj Hf HL HR; [lia|]. cbn [find_pos]. destruct (Z.ltb_spec i j) as [Hlt|Hge].
    - cbv zeta. set (k := i + (j - i) / 2). assert (Hk : i <= k < j) by (unfold k; pose proof (Z.div_lt_upper_bound (j - i) 2 (j - i)); pose proof (Z.div_pos (j - i) 2); lia).
      destruct (cluster_at s k) as [c|] eqn:Ec; [|exfalso; unfold cluster_at in Ec; replace (k <? 0) with false in Ec by lia; apply nth_error_None in Ec; unfold zlen in Hj; lia].
      assert (Hp : pg_start s <= cl_start c). { pose proof (si_clusters r s HS) as HF. unfold cluster_at in Ec. destruct (k <? 0); [discriminate|]. rewrite Forall_forall in HF. apply (HF c). eapply nth_error_In; eassumption. }
      replace (cl_start c - pg_start s <? 0) with false by lia.
      destruct (Z.ltb_spec (cl_start c - pg_start s) pos) as [H1|H1].
      + destruct (IH (k + 1) j ltac:(lia) Hj ltac:(lia)) as (x & E & Hx).
        { intros m cm Em Hm. destruct (Z.eq_dec m k) as [->|Hne]; [congruence|]. pose proof (SORT m k cm c Em Ec ltac:(lia)). lia. }
        { exact HR. }
        exists x. split; [exact E|]. destruct x; [exact Hx|]. destruct Hx as (X1 & X2 & X3). split; [lia|]. auto.
      + destruct (Z.gtb_spec (cl_start c - pg_start s) pos) as [H2|H2]; [|exists (inl k); split; [reflexivity|]; exists c; split; [exact Ec|lia]].
        destruct (IH i k ltac:(lia) ltac:(lia) ltac:(lia) HL) as (x & E & Hx).
        { intros m cm Em Hm. destruct (Z.eq_dec m k) as [->|Hne]; [assert (cm = c) by congruence; subst cm; lia|]. pose proof (SORT k m c cm Ec Em ltac:(lia)). lia. }
        exists x. split; [exact E|]. destruct x; [exact Hx|]. destruct Hx as (X1 & X2 & X3). split; [lia|]. auto.
    - exists (inr i). split; [reflexivity|]. split; [lia|]. split; [exact HL|]. intros m c Em Hm. apply (HR m c Em). lia.
  Qed.
  Lemma find_pos_all : forall s pos, seg_inv r s -> exists x, find_pos (S (length (pg_clusters s))) s pos 0 (zlen (pg_clusters s)) = Val x /\
      match x with
      | inl k => exists c, cluster_at s k = Some c /\ cl_start c = pg_start s + pos
      | inr k => 0 <= k <= zlen (pg_clusters s) /\ (forall m c, cluster_at s m = Some c -> m < k -> cl_start c - pg_start s < pos) /\ (forall m c, cluster_at s m = Some c -> k <= m -> pos < cl_start c - pg_start s)
      end.
  Proof.
    intros s pos HS. pose proof (zlen_nonneg _ (pg_clusters s)). apply find_pos_any; [exact HS|lia|lia|unfold zlen; lia| |]; intros k c Ec Hk; pose proof (cluster_at_range _ _ _ Ec); lia.
  Qed.

  Theorem GetBlock_any : forall s cp tp, seg_inv r s -> pg_tracks s <> None -> 0 <= cp_timecode cp -> pg_start s + tp_pos tp <= LLONG_MAX ->
    exists x s', Segment_GetBlock r s cp tp = Val (x, s') /\ seg_inv r s' /\ answers r s' (cp_timecode cp) tp x /\ same_parts s s'.
  Proof.
    intros s cp tp HS HT Htm Hp. unfold Segment_GetBlock. destruct (find_pos_all s (tp_pos tp) HS) as (x & -> & Hx). destruct x as [k|k].
    - destruct Hx as (c & Ec & Hs). rewrite Ec. destruct (GetEntry_any s (cp_timecode cp) tp c HT Htm (at_reachable r s k c HS Ec)) as (o & c1 & E & P & O). rewrite E.
      eexists _, _. split; [reflexivity|]. split; [exact (set_inv r s k c c1 HS Ec P)|]. split; [|repeat split].
      destruct o as [[ei e]|]; [|exact I]. destruct O as (O1 & O2 & O3). exists c1. split; [exact (set_at s k c c1 Ec)|]. destruct P as (P1 & P2 & P3). split; [cbn [set_cluster pg_set_clusters pg_start]; congruence|]. split; [exact O1|]. split; [rewrite entry_at_entries; exact O2|exact O3].
    - destruct (Z.ltb_spec (tp_pos tp) 0); [exists (CE_null None), s; split; [reflexivity|]; split; [exact HS|]; split; [exact I|apply same_parts_refl]|]. replace (pg_start s + tp_pos tp >? LLONG_MAX) with false by lia.
      destruct (k <? zlen (pg_clusters s)); [exists (CE_null None), s; split; [reflexivity|]; split; [exact HS|]; split; [exact I|apply same_parts_refl]|].
      assert (Hn : reachable r (new_cluster (pg_start s + tp_pos tp))) by (apply re_new; pose proof (si_start r s HS); lia).
      destruct (GetEntry_any s (cp_timecode cp) tp _ HT Htm Hn) as (o & c1 & E & P & O). rewrite E. eexists _, _. split; [reflexivity|]. split; [exact HS|]. split; [|apply same_parts_refl].
      destruct o as [[ei e]|]; [|exact I]. destruct O as (O1 & O2 & O3). destruct P as (P1 & P2 & P3). split; [exact P2|]. split; [exact O1|]. split; [rewrite entry_at_entries; exact O2|exact O3].
  Qed.
End Any.

Lemma cluster_start : forall r s i j ci cj, seg_inv r s -> cluster_at s i = Some ci -> cluster_at s j = Some cj -> cl_start ci = cl_start cj -> i = j.
Proof.
  intros r s i j ci cj HS Hi Hj He. pose proof (cluster_at_range _ _ _ Hi) as Ri. pose proof (cluster_at_range _ _ _ Hj) as Rj. unfold cluster_at in Hi, Hj. replace (i <? 0) with false in Hi by lia. replace (j <? 0) with false in Hj by lia.
  pose proof (si_sorted r s HS) as SS. assert (X : forall m n cm cn, nth_error (pg_clusters s) m = Some cm -> nth_error (pg_clusters s) n = Some cn -> (m < n)%nat -> cl_start cm < cl_start cn).
  { clear - SS. induction SS as [|x l SS IH HF]; intros m n cm cn Ha Hb Hn; [destruct m; discriminate|]. destruct n as [|n]; [lia|]. destruct m as [|m]; cbn [nth_error] in *; [injection Ha as ->; rewrite Forall_forall in HF; apply HF; eapply nth_error_In; eassumption|]. apply (IH m n cm cn Ha Hb). lia. }
  destruct (Z.lt_trichotomy i j) as [H|[H|H]]; [|exact H|].
  - pose proof (X _ _ _ _ Hi Hj ltac:(lia)). lia.
  - pose proof (X _ _ _ _ Hj Hi ltac:(lia)). lia.
Qed.

Theorem GetBlock_run : forall r s tracks cp tp k c tc es, intact r -> seg_inv r s -> pg_tracks s = Some tracks -> 0 <= tp_track tp ->
  cluster_at s k = Some c -> cl_start c = pg_start s + tp_pos tp -> holds r tc es c -> Forall (in_time tc) es ->
  exists c', Segment_GetBlock r s cp tp = Val (cue_answer k (cued tracks (cp_timecode cp) tp tc es), set_cluster s k c') /\
    holds r tc es c' /\ zlen (entries c) <= zlen (entries c') /\ in_bounds c' (cued tracks (cp_timecode cp) tp tc es).
Proof.
  intros r s tracks cp tp k c tc es HI HS HT Htp Ec Hst Hc HB. unfold Segment_GetBlock. destruct (find_pos_all r s (tp_pos tp) HS) as (x & -> & Hx). destruct x as [k'|k'].
  - destruct Hx as (c2 & Ec2 & Hs2). assert (k' = k) by (apply (cluster_start r s k' k c2 c HS Ec2 Ec); congruence). subst k'. rewrite Ec.
    destruct (GetEntry_run r s tracks (cp_timecode cp) tp tc es c HI HT Htp HB Hc) as (c' & E & X1 & X2 & X3 & X4). rewrite E. exists c'. split; [reflexivity|]. auto.
  - exfalso. destruct Hx as (_ & X1 & X2). destruct (Z.lt_ge_cases k k'); [specialize (X1 k c Ec ltac:(lia))|specialize (X2 k c Ec ltac:(lia))]; lia.
Qed.
Lemma plays_fun : forall r c a b, plays r c a -> plays r c b -> a = b.
Proof.
  intros r c a b H. revert b. induction H as [c c' E Ee|c e c' es E Ee H IH]; intros b Hb; inversion Hb as [c0 c1 E1 Ee1|c0 e1 c1 es1 E1 Ee1 H1]; subst; try reflexivity; try (rewrite E in E1; discriminate E1).
  assert (c1 = c') by congruence. subst c1. rewrite Ee in Ee1. apply app_inj_tail in Ee1 as [_ <-]. f_equal. exact (IH _ H1).
Qed.
