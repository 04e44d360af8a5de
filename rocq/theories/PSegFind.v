(* Proofs about Segment::CreateInstance: elements in front of the segment. *)
From Coq Require Import ZifyBool ZifyNat.
From Verif Require Import Base EbmlSpec Ids ReaderSpec MMuxBlock MuxFileSpec MParUtil PParUtil MParMeta MParCluster ClusterSpec PParCluster PParMeta PParMeta2 MParSegment PParSegment.

Lemma create_loop_more : forall r f f' pos x, create_loop f r pos = Val x -> (f <= f')%nat -> create_loop f' r pos = Val x.
Proof.
  intros r. induction f as [|f IH]; intros f' pos x H Hf; [discriminate H|]. destruct f' as [|f']; [lia|]. cbn [create_loop] in *. cbv zeta in *.
  destruct ((r_total r >=? 0) && (pos >=? r_total r)); [exact H|]. destruct (GetUIntLength r pos) as [a b]. destruct (negb (a =? 0)); [exact H|]. destruct ((r_total r >=? 0) && (pos + b >? r_total r)); [exact H|].
  destruct (pos + b >? r_avail r); [exact H|]. destruct (ReadID r pos) as [id len]. destruct (id <? 0); [exact H|]. destruct (GetUIntLength r (pos + len)) as [c d]. destruct (negb (c =? 0)); [exact H|].
  destruct ((r_total r >=? 0) && (pos + len + d >? r_total r)); [exact H|]. destruct (pos + len + d >? r_avail r); [exact H|]. destruct (ReadUInt r (pos + len)) as [size len2]. destruct (size <? 0); [exact H|].
  destruct (id =? kMkvSegment); [exact H|]. destruct (size =? unknown_size len2); [exact H|]. destruct ((r_total r >=? 0) && (pos + len + len2 + size >? r_total r)); [exact H|]. destruct (pos + len + len2 + size >? r_avail r); [exact H|].
  apply (IH f' _ x H). lia.
Qed.

Section Find.
  Context (r : reader) (HT : total_ok r).
  Lemma length_ok : forall q st, read_id_field r q (-1) = inr st \/ read_uint_field r q (-1) = inr st -> exists l, GetUIntLength r q = (0, l) /\ q + l <= r_avail r.
  Proof.
    intros q st H. assert (exists l, field_len r q (-1) = inr l) as (l & FL).
    { destruct H as [H|H]; [exact (id_field_len r _ _ _ H)|exact (uint_field_len r _ _ _ H)]. }
    unfold field_len in FL. destruct (q + 1 >? r_avail r); [discriminate FL|]. destruct (GetUIntLength r q) as (res, len).
    destruct (res <? 0) eqn:X1; [discriminate FL|]. destruct (res >? 0) eqn:X2; [discriminate FL|].
    destruct ((-1 >=? 0) && (q + len >? -1)); [discriminate FL|]. destruct (q + len >? r_avail r) eqn:X3; [discriminate FL|].
    exists len. split; [f_equal; lia|lia].
  Qed.
  Lemma create_skip : forall f pos id p bs, is_element id p bs -> id <> kMkvSegment -> serves r pos bs -> create_loop (S f) r pos = create_loop f r (pos + zlen bs).
  Proof.
    intros f pos id p bs He Hid Hs. destruct (elem_read_element r HT pos (-1) id p bs He Hs ltac:(lia)) as (l1 & l2 & [E1 E2 E3 E4 G1 G2 G3 G4 G5] & HK & Hsp).
    pose proof (serves_avail _ _ _ Hs (is_element_ne _ _ _ He)) as HA. pose proof (zlen_nonneg _ p) as HP.
    cbn [create_loop]. cbv zeta. replace ((r_total r >=? 0) && (pos >=? r_total r)) with false by (unfold total_ok in HT; lia).
    destruct (length_ok _ _ (or_introl E1)) as (a & -> & HAa). change (negb (0 =? 0)) with false. cbn iota.
    replace ((r_total r >=? 0) && (pos + a >? r_total r)) with false by (unfold total_ok in HT; lia). replace (pos + a >? r_avail r) with false by lia.
    rewrite E2. replace (id <? 0) with false by lia.
    destruct (length_ok _ _ (or_intror E3)) as (b & -> & HAb). change (negb (0 =? 0)) with false. cbn iota.
    replace ((r_total r >=? 0) && (pos + l1 + b >? r_total r)) with false by (unfold total_ok in HT; lia). replace (pos + l1 + b >? r_avail r) with false by lia.
    rewrite E4. replace (zlen p <? 0) with false by lia. replace (id =? kMkvSegment) with false by lia. rewrite HK.
    replace (pos + l1 + l2 + zlen p) with (pos + zlen bs) by lia.
    replace ((r_total r >=? 0) && (pos + zlen bs >? r_total r)) with false by (unfold total_ok in HT; lia). replace (pos + zlen bs >? r_avail r) with false by lia. reflexivity.
  Qed.
  Lemma segment_found : forall (sized : bool) els bss body seg pos,
    Forall2 (fun x bs => fst x <> kMkvSegment /\ is_element (fst x) (snd x) bs) els bss -> is_sized_element sized kMkvSegment body seg ->
    serves r pos (concat bss ++ seg) -> pos + zlen (concat bss ++ seg) = r_avail r -> r_total r = r_avail r ->
    exists start, start + zlen body = r_avail r /\ serves r start body /\ CreateInstance r pos = Val (0, Some (new_pseg start (if sized then zlen body else -1))).
  Proof.
    intros sized els bss body seg pos HF Hseg. revert pos. induction HF as [|[id p] bs els bss [Hid He] HF IH]; intros pos Hs HA HTA.
    - cbn [concat app] in *. destruct (CreateInstance_read r HT sized pos body seg Hseg Hs HA HTA) as (start & S1 & _ & S2 & S3). eauto.
    - cbn [concat fst snd] in *. rewrite <- app_assoc in Hs, HA. pose proof Hs as [Hp _]. pose proof (serves_app_l _ _ _ _ Hs) as Hs1. pose proof (serves_app_r _ _ _ _ Hs) as Hs2. rewrite zlen_app in HA.
      destruct (IH (pos + zlen bs) Hs2 ltac:(lia) HTA) as (start & S1 & S2 & S3). exists start. split; [exact S1|]. split; [exact S2|].
      pose proof (is_element_ne _ _ _ He) as HN. assert (HB : 1 <= zlen bs). { destruct bs; [congruence|]. rewrite zlen_cons. pose proof (zlen_nonneg _ bs). lia. }
      pose proof (zlen_nonneg _ (concat bss ++ seg)) as HZ.
      unfold CreateInstance in *. replace (pos <? 0) with false by lia. replace (pos + zlen bs <? 0) with false in S3 by lia. destruct (r_avail r <? 0); [discriminate S3|]. destruct ((r_total r >=? 0) && (r_avail r >? r_total r)); [discriminate S3|].
      unfold loop_fuel at 1. rewrite (create_skip _ pos id p bs He Hid Hs1). apply (create_loop_more _ _ _ _ _ S3). unfold loop_fuel. lia.
  Qed.
End Find.
