(* Proofs about mkvparser's cluster parsing. *)
From Verif Require Import Base EbmlSpec LacingSpec MParUtil ReaderSpec PParUtil MParBlock PParBlock.
From Verif Require Import Ids MMuxUtil MMuxBlock BlockSpec MParCluster ClusterSpec PEbml.
From Coq Require Import ZifyBool ZifyNat.

Lemma serves_avail : forall r pos bs, serves r pos bs -> bs <> [] -> pos + zlen bs <= r_avail r.
Proof.
  intros r pos bs [Hp H] Hne. specialize (H 0 (zlen bs)).
  assert (HL : 1 <= zlen bs) by (destruct bs; [congruence|rewrite zlen_cons; pose proof (zlen_nonneg _ bs); lia]).
  specialize (H ltac:(lia) ltac:(lia) ltac:(lia)). rewrite Z.add_0_r in H. unfold r_read in H.
  destruct (negb (r_err r pos (zlen bs) =? 0)); [discriminate|].
  destruct ((pos <? 0) || (zlen bs <? 0)) eqn:E; [discriminate|].
  destruct (zlen bs =? 0) eqn:E2; [lia|].
  destruct (pos + zlen bs <=? r_avail r) eqn:E3; [lia|discriminate].
Qed.

Lemma field_len_intro : forall r pos stop w b rest, total_ok r -> serves r pos (b :: rest) ->
  1 <= w <= 8 -> 2 ^ (8 - w) <= b < 2 * 2 ^ (8 - w) -> w <= zlen (b :: rest) ->
  (stop < 0 \/ pos + w <= stop) -> field_len r pos stop = inr w.
Proof.
  intros r pos stop w b rest HT Hs Hw Hb HL Hst. pose proof Hs as [Hp _].
  pose proof (serves_avail r pos _ Hs ltac:(discriminate)) as HA. unfold field_len.
  assert (1 <= zlen (b :: rest)) by (rewrite zlen_cons; pose proof (zlen_nonneg _ rest); lia).
  replace (pos + 1 >? r_avail r) with false by lia. unfold GetUIntLength.
  replace (pos <? 0) with false by lia.
  replace ((r_total r >=? 0) && (r_avail r >? r_total r)) with false by (destruct HT; lia).
  replace (pos >=? r_avail r) with false by lia. rewrite (serves_byte _ _ _ _ Hs).
  pose proof (pow2_pos (8 - w) ltac:(lia)) as Hq.
  assert (B : 2 ^ (8 - w) <= 2 ^ 7) by (apply Z.pow_le_mono_r; lia). change (2 ^ 7) with 128 in B.
  replace (b =? 0) with false by lia.
  destruct (marker_scan_spec b ltac:(lia)) as (len & Em & Hl & Hr & Hm).
  rewrite Em. cbn [snd]. assert (len = w).
  { assert (8 - len = 8 - w); [|lia]. eapply pow_unique with (x := b); lia. }
  subst len. change (0 <? 0) with false. change (0 >? 0) with false. cbn iota.
  replace ((stop >=? 0) && (pos + w >? stop)) with false by lia.
  replace (pos + w >? r_avail r) with false by lia. reflexivity.
Qed.

Lemma read_id_field_bytes : forall r pos stop w id rest, total_ok r -> id_width w id ->
  serves r pos (be_bytes (Z.to_nat w) id ++ rest) -> (stop < 0 \/ pos + w <= stop) ->
  read_id_field r pos stop = inr (id, w) /\ ReadID r pos = (id, w).
Proof.
  intros r pos stop w id rest HT Hid Hs Hst. pose proof Hid as [Hw Hr].
  destruct (id_cons w id Hid) as [E Hhi].
  assert (ER : ReadID r pos = (id, w)) by (apply ReadID_bytes; auto; eapply serves_app_l; eauto).
  split; [|exact ER]. unfold read_id_field. rewrite ER.
  assert (HL : zlen (be_bytes (Z.to_nat w) id ++ rest) = w + zlen rest) by (rewrite zlen_app, be_bytes_zlen; lia).
  rewrite E in Hs, HL. cbn [app] in Hs, HL. pose proof (zlen_nonneg _ rest).
  erewrite (field_len_intro r pos stop w _ _ HT Hs); auto; try lia.
  pose proof (pow2_pos (7 * w) ltac:(lia)). replace (id <? 0) with false by lia. reflexivity.
Qed.

Lemma read_uint_field_vint : forall r pos stop w v rest, total_ok r -> 1 <= w <= 8 -> 0 <= v < 2 ^ (7 * w) ->
  serves r pos (vint w v ++ rest) -> (stop < 0 \/ pos + w <= stop) ->
  field_len r pos stop = inr w /\ read_uint_field r pos stop = inr (v, w) /\ ReadUInt r pos = (v, w).
Proof.
  intros r pos stop w v rest HT Hw Hv Hs Hst.
  destruct (vint_cons w v Hw Hv) as [E Hhi].
  assert (ER : ReadUInt r pos = (v, w)) by (apply ReadUInt_vint; auto; eapply serves_app_l; eauto).
  assert (HL : zlen (vint w v ++ rest) = w + zlen rest) by (rewrite zlen_app, vint_zlen_l; lia).
  rewrite E in Hs, HL. cbn [app] in Hs, HL. pose proof (zlen_nonneg _ rest).
  assert (EF : field_len r pos stop = inr w).
  { erewrite (field_len_intro r pos stop w _ _ HT Hs); auto; lia. }
  split; [exact EF|split; [|exact ER]]. unfold read_uint_field. rewrite ER, EF.
  replace (v <? 0) with false by lia. reflexivity.
Qed.

Lemma unknown_size_pow : forall w, 0 <= w -> unknown_size w = 2 ^ (7 * w) - 1.
Proof. intros. unfold unknown_size. rewrite shiftl_1 by lia. reflexivity. Qed.

(* everything the parsers look at in the header of a complete element *)
Record header_read (r : reader) (pos stop id : Z) (payload : list Z) (n l1 l2 : Z) : Prop := mkHR {
  hr_id : read_id_field r pos stop = inr (id, l1);
  hr_ID : ReadID r pos = (id, l1);
  hr_size : read_uint_field r (pos + l1) stop = inr (zlen payload, l2);
  hr_UInt : ReadUInt r (pos + l1) = (zlen payload, l2);
  hr_known : zlen payload =? unknown_size l2 = false;
  hr_l1 : 1 <= l1; hr_l2 : 1 <= l2;
  hr_len : n = l1 + l2 + zlen payload;
  hr_serves : serves r (pos + l1 + l2) payload;
  hr_pos : 0 < id
}.

Lemma elem_fields : forall r pos stop id payload bs, total_ok r -> is_element id payload bs ->
  serves r pos bs -> (stop < 0 \/ pos + zlen bs <= stop) ->
  exists l1 l2, header_read r pos stop id payload (zlen bs) l1 l2.
Proof.
  intros r pos stop id payload bs HT (ib & w & (wi & Hid & ->) & (Hw & Hf) & ->) Hs Hst.
  pose proof Hid as [Hwi Hidr]. pose proof (zlen_nonneg _ payload) as HP.
  assert (HL1 : zlen (be_bytes (Z.to_nat wi) id) = wi) by (rewrite be_bytes_zlen; lia).
  assert (HL2 : zlen (vint w (zlen payload)) = w) by (rewrite vint_zlen_l; lia).
  rewrite !zlen_app, HL1, HL2 in Hst |- *.
  destruct (read_id_field_bytes r pos stop wi id _ HT Hid Hs ltac:(lia)) as [E1 E2].
  pose proof (serves_app_r _ _ _ _ Hs) as Hs2. rewrite HL1 in Hs2.
  destruct (read_uint_field_vint r (pos + wi) stop w (zlen payload) payload HT Hw ltac:(lia) Hs2 ltac:(lia)) as (E3 & E4 & E5).
  pose proof (serves_app_r _ _ _ _ Hs2) as Hs3. rewrite HL2 in Hs3.
  exists wi, w. constructor; auto; try lia.
  - rewrite unknown_size_pow by lia. lia.
Qed.

(* ---------- one block ---------- *)

Lemma check_block_ok : forall r pos track time flags frames bs, total_ok r ->
  block_content track time flags LNone frames bs -> serves r pos bs ->
  check_block r pos (pos + zlen bs) = 0.
Proof.
  intros r pos track time flags frames bs HT (w & head & Hw & Htr & Htm & Hfl & Hlac & Hne & Hh & ->) Hs.
  pose proof (zlen_nonneg _ head) as HZ. pose proof (zlen_nonneg _ (concat frames)) as HZ2.
  pose proof Hs as [Hp _].
  assert (HA := serves_avail _ _ _ Hs). rewrite !zlen_app, vint_zlen_l, be_bytes_zlen in * by lia.
  change (Z.of_nat 2) with 2 in *. change (zlen [flags]) with 1 in *.
  assert (HA' : pos + (w + (2 + (1 + (zlen head + zlen (concat frames))))) <= r_avail r).
  { apply HA. destruct (vint_cons w track Hw ltac:(lia)) as [E _]. rewrite E. discriminate. }
  assert (HC : 1 <= zlen (concat frames)).
  { inversion Hh; subst. destruct frames as [|f [|? ?]]; try discriminate. inversion Hne; subst.
    cbn [concat]. rewrite app_nil_r. destruct f; [congruence|]. rewrite zlen_cons. pose proof (zlen_nonneg _ f). lia. }
  unfold check_block.
  destruct (read_uint_field_vint r pos (pos + (w + (2 + (1 + (zlen head + zlen (concat frames)))))) w track _ HT Hw ltac:(lia) Hs ltac:(lia)) as (_ & E4 & _).
  rewrite E4. replace (track =? 0) with false by lia. cbv zeta.
  set (stop := pos + (w + (2 + (1 + (zlen head + zlen (concat frames)))))) in *.
  replace (pos + w + 2 >? stop) with false by lia. replace (pos + w + 2 >? r_avail r) with false by lia.
  replace (pos + w + 2 + 1 >? stop) with false by lia. replace (pos + w + 2 + 1 >? r_avail r) with false by lia.
  pose proof (serves_app_r _ _ _ _ Hs) as Hs2. rewrite vint_zlen_l in Hs2 by lia.
  pose proof (serves_app_r _ _ _ _ Hs2) as Hs3. rewrite be_bytes_zlen in Hs3. cbn [app] in Hs3.
  change (Z.of_nat 2) with 2 in Hs3. rewrite (serves_byte _ _ _ _ Hs3).
  replace (pos + w + 2 + 1 >=? stop) with false by lia.
  rewrite lacing_of_flags by exact Hfl. rewrite Hlac. reflexivity.
Qed.

(* ---------- the children of a block group ---------- *)

Definition child_ok (c : Z * list Z) : Prop :=
  let '(id, p) := c in
  p <> [] /\
  (id = kMkvBlock -> exists track time flags frames, block_content track time flags LNone frames p) /\
  (id = kMkvDiscardPadding -> exists v, sint_payload v p).

Definition disc_step (d : Z) (c : Z * list Z) : Z :=
  if fst c =? kMkvDiscardPadding then wraps (8 * zlen (snd c)) (be_val (snd c)) else d.

Lemma ne_zlen : forall (p : list Z), p <> [] -> 1 <= zlen p.
Proof. intros p H. destruct p; [congruence|]. rewrite zlen_cons. pose proof (zlen_nonneg _ p). lia. Qed.

Lemma PBG_loop_elements : forall r stop, total_ok r -> 0 <= stop -> forall els bs, is_elements els bs ->
  forall pos d fuel, (length els < fuel)%nat -> Forall child_ok els -> serves r pos bs ->
  pos + zlen bs = stop ->
  ParseBlockGroup_loop fuel r pos stop d = Some (Val (inr (stop, fold_left disc_step els d))).
Proof.
  intros r stop HT Hst els bs H. induction H as [|id payload b rest bs He Hr IH]; intros pos d fuel Hf Hok Hs Hp.
  - destruct fuel as [|fuel]; [cbn in Hf; lia|]. cbn [ParseBlockGroup_loop fold_left].
    rewrite zlen_nil in Hp. replace (pos >=? stop) with true by lia. replace pos with stop by lia. reflexivity.
  - destruct fuel as [|fuel]; [cbn in Hf; lia|]. cbn [length] in Hf.
    inversion Hok as [|x xs Hc Hok']; subst x xs. destruct Hc as (Hne & Hb & Hd). rewrite zlen_app in Hp.
    pose proof (serves_app_l _ _ _ _ Hs) as Hs1. pose proof (serves_app_r _ _ _ _ Hs) as Hs2.
    pose proof (zlen_nonneg _ bs) as HZ. pose proof (ne_zlen payload Hne) as HP.
    destruct (elem_fields r pos stop id payload b HT He Hs1 ltac:(lia)) as (l1 & l2 & [E1 E2 E3 E4 E5 G1 G2 G3 G4 G5]).
    cbn [ParseBlockGroup_loop fold_left]. replace (pos >=? stop) with false by lia.
    rewrite E1. replace (id =? 0) with false by lia. cbv zeta. rewrite E3.
    replace (pos + l1 + l2 >? stop) with false by lia. replace (zlen payload =? 0) with false by lia.
    rewrite E5. unfold disc_step at 2. cbn [fst snd].
    assert (EN : ParseBlockGroup_loop fuel r (pos + l1 + l2 + zlen payload) stop = ParseBlockGroup_loop fuel r (pos + zlen b) stop).
    { f_equal. lia. }
    destruct (Z.eqb_spec id kMkvBlock) as [->|N1].
    + destruct (Hb eq_refl) as (track & time & flags & frames & Hbc).
      replace (pos + l1 + l2 + zlen payload >? stop) with false by lia.
      rewrite (check_block_ok r _ track time flags frames payload HT Hbc G4).
      change (0 >? 0) with false. change (0 <? 0) with false. cbn iota. rewrite EN.
      change (kMkvBlock =? kMkvDiscardPadding) with false. cbn iota. apply IH; auto; lia.
    + destruct (Z.eqb_spec id kMkvDiscardPadding) as [->|N2].
      * destruct (Hd eq_refl) as (v & Hv). rewrite (UnserializeInt_payload r _ payload v Hv G4).
        change (0 <? 0) with false. cbn iota. replace (pos + l1 + l2 + zlen payload >? stop) with false by lia.
        rewrite EN. destruct Hv as (_ & _ & ->). apply IH; auto; lia.
      * replace (pos + l1 + l2 + zlen payload >? stop) with false by lia. rewrite EN. apply IH; auto; lia.
Qed.

(* children behind the Block: no further Block; durations and references readable *)
Definition tail_ok (c : Z * list Z) : Prop :=
  let '(id, p) := c in
  id <> kMkvBlock /\
  (id = kMkvBlockDuration -> exists v, uint_payload v p /\ v < 2 ^ 63) /\
  (id = kMkvReferenceBlock -> bytes p /\ 1 <= zlen p <= 8).

Definition cbg_step (s : Z * Z * Z) (c : Z * list Z) : Z * Z * Z :=
  let '(prev, next, dur) := s in
  if fst c =? kMkvBlockDuration then (prev, next, be_val (snd c))
  else if fst c =? kMkvReferenceBlock then
    let time := wraps (8 * zlen (snd c)) (be_val (snd c)) in
    if time <=? 0 then (time, next, dur) else (prev, time, dur)
  else s.

Lemma CBG_loop_elements : forall r stop, total_ok r -> 0 <= stop -> forall els bs, is_elements els bs ->
  forall pos prev next dur bpos bsize fuel, (length els < fuel)%nat -> Forall tail_ok els -> serves r pos bs ->
  pos + zlen bs = stop -> 0 <= bpos ->
  CreateBlockGroup_loop fuel r pos stop prev next dur bpos bsize =
    Some (Val (inr (let '(prev, next, dur) := fold_left cbg_step els (prev, next, dur) in
                    (stop, prev, next, dur, bpos, bsize)))).
Proof.
  intros r stop HT Hst els bs H. induction H as [|id payload b rest bs He Hr IH]; intros pos prev next dur bpos bsize fuel Hf Hok Hs Hp Hbp.
  - destruct fuel as [|fuel]; [cbn in Hf; lia|]. cbn [CreateBlockGroup_loop fold_left].
    rewrite zlen_nil in Hp. replace (pos >=? stop) with true by lia. replace pos with stop by lia. reflexivity.
  - destruct fuel as [|fuel]; [cbn in Hf; lia|]. cbn [length] in Hf.
    inversion Hok as [|x xs Hc Hok']; subst x xs. destruct Hc as (Hnb & Hd & Hrf). rewrite zlen_app in Hp.
    pose proof (serves_app_l _ _ _ _ Hs) as Hs1. pose proof (serves_app_r _ _ _ _ Hs) as Hs2.
    pose proof (zlen_nonneg _ bs) as HZ. pose proof (zlen_nonneg _ payload) as HP.
    destruct (elem_fields r pos stop id payload b HT He Hs1 ltac:(lia)) as (l1 & l2 & [E1 E2 E3 E4 E5 G1 G2 G3 G4 G5]).
    cbn [CreateBlockGroup_loop fold_left]. replace (pos >=? stop) with false by lia.
    rewrite E2. replace ((id <? 0) || (pos + l1 >? stop)) with false by lia. cbv zeta. rewrite E4.
    replace ((zlen payload <? 0) || (pos + l1 + l2 >? stop)) with false by lia.
    replace (pos + l1 + l2 + zlen payload >? stop) with false by lia.
    replace (id =? kMkvBlock) with false by lia. unfold cbg_step at 2. cbn [fst snd].
    assert (EN : CreateBlockGroup_loop fuel r (pos + l1 + l2 + zlen payload) stop = CreateBlockGroup_loop fuel r (pos + zlen b) stop).
    { f_equal. lia. }
    rewrite EN. destruct (Z.eqb_spec id kMkvBlockDuration) as [->|N1].
    + destruct (Hd eq_refl) as (v & Hv & Hv63). pose proof Hv as (Hvb & Hvl & Hvv).
      replace (zlen payload >? 8) with false by lia. rewrite (UnserializeUInt_payload r _ payload v Hv G4).
      pose proof (be_val_bound payload Hvb). change (2 ^ 63) with 9223372036854775808 in Hv63.
      rewrite sint64_small by lia. replace (v <? 0) with false by lia. rewrite Hvv. apply IH; auto; lia.
    + destruct (Z.eqb_spec id kMkvReferenceBlock) as [->|N2].
      * destruct (Hrf eq_refl) as (Hrb & Hrl).
        replace ((zlen payload >? 8) || (zlen payload <=? 0)) with false by lia.
        rewrite (UnserializeInt_payload r _ payload (wraps (8 * zlen payload) (be_val payload))) by (auto; repeat split; auto; lia).
        change (negb (0 =? 0)) with false. cbn iota.
        destruct (wraps (8 * zlen payload) (be_val payload) <=? 0); apply IH; auto; lia.
      * apply IH; auto; lia.
Qed.

(* ---------- frames ---------- *)

Definition entries_of (c : cluster) : list bentry := match cl_entries c with None => [] | Some es => es end.

Lemma block_content_bytes : forall track time flags f bs, bytes f ->
  block_content track time flags LNone [f] bs -> bytes bs.
Proof.
  intros track time flags f bs Hf (w & head & Hw & Htr & Htm & Hfl & Hlac & Hne & Hh & ->).
  inversion Hh; subst. cbn [app concat]. rewrite app_nil_r.
  apply bytes_app. split; [apply be_bytes_bytes|]. apply bytes_app. split; [apply be_bytes_bytes|].
  constructor; auto.
Qed.

(* what Block::Parse gives for an unlaced frame *)
Lemma Block_Parse_frame : forall r pos track time flags f bs, bytes f ->
  block_content track time flags LNone [f] bs -> serves r pos bs -> zlen bs <= LLONG_MAX ->
  exists b, Block_Parse r pos (zlen bs) = Val (Some b) /\ bl_track b = track /\ bl_timecode b = time /\
    bl_flags b = flags /\ map (Frame_Read r) (bl_frames b) = [inr f].
Proof.
  intros r pos track time flags f bs Hf Hbc Hs HL.
  apply (Block_complete r pos track time flags LNone [f] bs); auto.
  - discriminate.
  - eapply block_content_bytes; eauto.
Qed.

Lemma is_element_small : forall id p bs, is_element id p bs -> zlen p < 2 ^ 56.
Proof.
  intros id p bs (ib & w & _ & (Hw & Hf) & _).
  assert (2 ^ (7 * w) <= 2 ^ 56) by (apply Z.pow_le_mono_r; lia). lia.
Qed.

Lemma is_element_ne : forall id p bs, is_element id p bs -> bs <> [].
Proof.
  intros id p bs (ib & w & _ & (Hw & Hf) & ->) E. apply (f_equal zlen) in E. rewrite !zlen_app, vint_zlen_l, zlen_nil in E by lia.
  pose proof (zlen_nonneg _ ib). pose proof (zlen_nonneg _ p). lia.
Qed.

Lemma frame_block_small : forall f rel flags p, block_content (fr_track f) rel flags LNone [fr_data f] p -> p <> [].
Proof.
  intros f rel flags p (w & head & Hw & Htr & Htm & Hfl & Hlac & Hne & Hh & ->) E.
  apply (f_equal zlen) in E. rewrite !zlen_app, vint_zlen_l, be_bytes_zlen, zlen_nil in E by lia.
  pose proof (zlen_nonneg _ [flags]). pose proof (zlen_nonneg _ head). pose proof (zlen_nonneg _ (concat [fr_data f])). lia.
Qed.

Lemma ParseSimpleBlock_frame : forall r c pos f tc scale content, total_ok r -> frame_ok f ->
  CanBeSimpleBlock f = true -> 1 <= scale -> 0 <= pos -> zlen content < 2 ^ 56 ->
  block_content (fr_track f) (frame_rel f tc scale) (if fr_is_key f then 128 else 0) LNone [fr_data f] content ->
  serves r pos content ->
  exists e, ParseSimpleBlock r c pos (zlen content) =
      Val (0, set_pos (set_entries c (entries_of c ++ [e])) (pos + zlen content)) /\
    entry_carries r tc scale f e /\ en_start e + en_size e <= pos + zlen content /\ en_start e <= pos + zlen content.
Proof.
  intros r c pos f tc scale content HT Hok HC Hsc Hp HL Hbc Hs. unfold ParseSimpleBlock.
  replace ((r_total r >=? 0) && (r_avail r >? r_total r)) with false by (destruct HT; lia). cbv zeta.
  rewrite (check_block_ok r pos _ _ _ _ content HT Hbc Hs). change (0 >? 0) with false. change (0 <? 0) with false. cbn iota.
  change (2 ^ 56) with 72057594037927936 in HL.
  destruct (Block_Parse_frame r pos _ _ _ (fr_data f) content (proj1 Hok) Hbc Hs) as (b & EB & B1 & B2 & B3 & B4); [unfold LLONG_MAX; lia|].
  unfold CreateSimpleBlock. rewrite EB. change (negb (0 =? 0)) with false. cbn iota. fold (entries_of c).
  eexists. split; [reflexivity|]. split; [|cbn [en_start en_size]; pose proof (zlen_nonneg _ content); lia].
  unfold entry_carries. cbn [en_block en_discard en_group en_duration]. rewrite HC.
  unfold CanBeSimpleBlock in HC. destruct (fr_additional f); [discriminate|].
  unfold Block_IsKey, Block_IsInvisible, frame_duration. rewrite B3.
  replace (fr_duration f) with 0 by lia. rewrite Z.div_0_l by lia.
  repeat split; auto; try lia; destruct (fr_is_key f); reflexivity.
Qed.

(* the optional children of a group, in terms of the frame *)
Lemma fold_left_app1 : forall A B (g : A -> B -> A) l1 l2 a, fold_left g (l1 ++ l2) a = fold_left g l2 (fold_left g l1 a).
Proof. intros. apply fold_left_app. Qed.

Lemma ParseBlockGroup_frame : forall r c pos f tc scale payload, total_ok r -> frame_ok f ->
  CanBeSimpleBlock f = false -> 1 <= scale -> 0 <= pos -> fr_duration f / scale < 2 ^ 63 ->
  forall blk adds disc refs dur,
    block_content (fr_track f) (frame_rel f tc scale) 0 LNone [fr_data f] blk ->
    match fr_additional f with
    | None => adds = []
    | Some a => exists c, is_additions (fr_add_id f) a c /\ adds = [(kMkvBlockAdditions, c)]
    end ->
    opt_child (negb (fr_discard f =? 0)) kMkvDiscardPadding (sint_payload (fr_discard f)) disc ->
    opt_child (negb (fr_is_key f)) kMkvReferenceBlock
              (uint_payload ((fr_ref f mod 2 ^ 64) / scale)) refs ->
    opt_child (0 <? fr_duration f / scale) kMkvBlockDuration
              (uint_payload (fr_duration f / scale)) dur ->
    is_elements ((kMkvBlock, blk) :: adds ++ disc ++ refs ++ dur) payload ->
  serves r pos payload ->
  exists e, ParseBlockGroup r c pos (zlen payload) =
      Some (Val (0, set_pos (set_entries c (entries_of c ++ [e])) (pos + zlen payload))) /\
    entry_carries r tc scale f e /\ en_start e + en_size e <= pos + zlen payload /\ en_start e <= pos + zlen payload.
Proof.
  intros r c pos f tc scale payload HT Hok HC Hsc Hp Hd63 blk adds disc refs dur Hblk Hadds Hdisc Href Hdur Hels Hs.
  assert (Hadds' : adds = [] \/ exists p, p <> [] /\ adds = [(kMkvBlockAdditions, p)]).
  { destruct (fr_additional f); [|left; exact Hadds]. right. destruct Hadds as (p & (more & idp & H1 & _) & ->).
    exists p. split; [eapply is_element_ne; eauto|reflexivity]. }
  clear Hadds.
  assert (Hchild : Forall child_ok ((kMkvBlock, blk) :: adds ++ disc ++ refs ++ dur)).
  { constructor; [|rewrite !Forall_app; repeat split].
    - cbn. split; [eapply frame_block_small; eauto|]. split; [intros _; eauto|intros E; discriminate].
    - destruct Hadds' as [->|(p & Hne & ->)]; constructor; [|constructor]. cbn. split; auto. split; intros E; discriminate.
    - unfold opt_child in Hdisc. destruct (negb (fr_discard f =? 0)); [|subst; constructor].
      destruct Hdisc as (p & Hpay & ->). constructor; [|constructor]. cbn. destruct Hpay as (Hb & Hl & Hv).
      split; [intros ->; rewrite zlen_nil in Hl; lia|]. split; [discriminate|]. intros _. exists (fr_discard f). repeat split; auto; lia.
    - unfold opt_child in Href. destruct (negb (fr_is_key f)); [|subst; constructor].
      destruct Href as (p & (Hb & Hl & Hv) & ->). constructor; [|constructor]. cbn.
      split; [intros ->; rewrite zlen_nil in Hl; lia|]. split; discriminate.
    - unfold opt_child in Hdur. destruct (0 <? fr_duration f / scale); [|subst; constructor].
      destruct Hdur as (p & (Hb & Hl & Hv) & ->). constructor; [|constructor]. cbn.
      split; [intros ->; rewrite zlen_nil in Hl; lia|]. split; discriminate. }
  assert (Htail : Forall tail_ok (adds ++ disc ++ refs ++ dur)).
  { rewrite !Forall_app; repeat split.
    - destruct Hadds' as [->|(p & Hne & ->)]; constructor; [|constructor]. cbn. split; [discriminate|split; discriminate].
    - unfold opt_child in Hdisc. destruct (negb (fr_discard f =? 0)); [|subst; constructor].
      destruct Hdisc as (p & Hpay & ->). constructor; [|constructor]. cbn. split; [discriminate|split; discriminate].
    - unfold opt_child in Href. destruct (negb (fr_is_key f)); [|subst; constructor].
      destruct Href as (p & (Hb & Hl & Hv) & ->). constructor; [|constructor]. cbn. split; [discriminate|]. split; [discriminate|]. auto.
    - unfold opt_child in Hdur. destruct (0 <? fr_duration f / scale); [|subst; constructor].
      destruct Hdur as (p & Hpay & ->). constructor; [|constructor]. cbn. split; [discriminate|]. split; [|discriminate]. intros _. eauto. }
  set (tl := adds ++ disc ++ refs ++ dur) in *.
  assert (Hdv : fold_left disc_step tl 0 = fr_discard f).
  { unfold tl. rewrite !fold_left_app.
    assert (A0 : fold_left disc_step adds 0 = 0) by (destruct Hadds' as [->|(p & _ & ->)]; reflexivity). rewrite A0.
    assert (A1 : fold_left disc_step disc 0 = fr_discard f).
    { unfold opt_child in Hdisc. destruct (negb (fr_discard f =? 0)) eqn:E; [|subst; cbn; lia].
      destruct Hdisc as (p & (_ & _ & Hv) & ->). cbn [fold_left disc_step fst snd]. exact Hv. }
    rewrite A1. assert (A2 : fold_left disc_step refs (fr_discard f) = fr_discard f).
    { unfold opt_child in Href. destruct (negb (fr_is_key f)); [|subst; reflexivity]. destruct Href as (p & _ & ->). reflexivity. }
    rewrite A2. unfold opt_child in Hdur. destruct (0 <? fr_duration f / scale); [|subst; reflexivity]. destruct Hdur as (p & _ & ->). reflexivity. }
  assert (Hcb : exists prev next, fold_left cbg_step tl (1, 0, -1) = (prev, next, frame_duration f scale) /\
                 (prev >? 0) && (next <=? 0) = fr_is_key f).
  { unfold tl. rewrite !fold_left_app.
    assert (A0 : fold_left cbg_step adds (1, 0, -1) = (1, 0, -1)) by (destruct Hadds' as [->|(p & _ & ->)]; reflexivity). rewrite A0.
    assert (A1 : fold_left cbg_step disc (1, 0, -1) = (1, 0, -1)).
    { unfold opt_child in Hdisc. destruct (negb (fr_discard f =? 0)); [|subst; reflexivity]. destruct Hdisc as (p & _ & ->). reflexivity. }
    rewrite A1.
    assert (A2 : exists prev next, fold_left cbg_step refs (1, 0, -1) = (prev, next, -1) /\ (prev >? 0) && (next <=? 0) = fr_is_key f).
    { unfold opt_child in Href. destruct (fr_is_key f); cbn [negb] in Href; [subst; exists 1, 0; split; reflexivity|].
      destruct Href as (p & _ & ->). cbn [fold_left]. unfold cbg_step. cbn [fst snd].
      change (kMkvReferenceBlock =? kMkvBlockDuration) with false. change (kMkvReferenceBlock =? kMkvReferenceBlock) with true. cbn iota zeta.
      destruct (wraps (8 * zlen p) (be_val p) <=? 0) eqn:E; eexists; eexists; (split; [reflexivity|lia]). }
    destruct A2 as (prev & next & -> & HK). unfold frame_duration. unfold opt_child in Hdur.
    destruct (0 <? fr_duration f / scale); [|subst; exists prev, next; split; [reflexivity|exact HK]].
    destruct Hdur as (p & (_ & _ & Hv) & ->). exists prev, next. split; [|exact HK]. cbn [fold_left]. unfold cbg_step. cbn [fst snd].
    change (kMkvBlockDuration =? kMkvBlockDuration) with true. cbn iota. rewrite Hv. reflexivity. }
  assert (Hfuel : (length ((kMkvBlock, blk) :: tl) <= Z.to_nat (zlen payload))%nat).
  { clear - Hels. remember ((kMkvBlock, blk) :: tl) as l eqn:El. clear El. induction Hels; [cbn; lia|].
    rewrite zlen_app. cbn [length]. pose proof (ne_zlen _ (is_element_ne _ _ _ H)). pose proof (zlen_nonneg _ bs). lia. }
  assert (Hne : payload <> []).
  { inversion Hels; subst. intros E. apply app_eq_nil in E. destruct E as [E _]. eapply is_element_ne; eauto. }
  pose proof (serves_avail _ _ _ Hs Hne) as HA.
  unfold ParseBlockGroup. cbv zeta. replace ((r_total r >=? 0) && (r_avail r >? r_total r)) with false by (destruct HT; lia).
  replace ((r_total r >=? 0) && (pos + zlen payload >? r_total r)) with false by (destruct HT; lia).
  replace (pos + zlen payload >? r_avail r) with false by lia.
  rewrite (PBG_loop_elements r (pos + zlen payload) HT ltac:(pose proof (zlen_nonneg _ payload); lia) _ payload Hels pos 0 (loop_fuel r pos)); auto;
    [|unfold loop_fuel; lia].
  replace (negb (pos + zlen payload =? pos + zlen payload)) with false by lia.
  cbn [fold_left]. change (disc_step 0 (kMkvBlock, blk)) with 0. rewrite Hdv.
  inversion Hels as [|id p b rest bs He Hrest]; subst id p rest payload.
  rewrite zlen_app in *. pose proof (zlen_nonneg _ bs) as HZ.
  pose proof (serves_app_l _ _ _ _ Hs) as Hs1. pose proof (serves_app_r _ _ _ _ Hs) as Hs2.
  unfold CreateBlockGroup. fold (entries_of c). cbv zeta.
  assert (HLF : exists n, loop_fuel r pos = S n /\ (length tl < n)%nat).
  { exists (Z.to_nat (r_avail r - pos)). split; [reflexivity|]. cbn [length] in Hfuel. lia. }
  destruct HLF as (n & -> & Hn). cbn [CreateBlockGroup_loop].
  set (stop := pos + (zlen b + zlen bs)) in *.
  destruct (elem_fields r pos stop _ _ _ HT He Hs1 ltac:(lia)) as (l1 & l2 & [E1 E2 E3 E4 E5 G1 G2 G3 G4 G5]).
  pose proof (zlen_nonneg _ blk) as HB. replace (pos >=? stop) with false by lia.
  rewrite E2. replace ((kMkvBlock <? 0) || (pos + l1 >? stop)) with false by (unfold kMkvBlock; lia). rewrite E4.
  replace ((zlen blk <? 0) || (pos + l1 + l2 >? stop)) with false by lia.
  replace (pos + l1 + l2 + zlen blk >? stop) with false by lia.
  change (kMkvBlock =? kMkvBlock) with true. cbn iota. change (-1 <? 0) with true. cbn iota.
  replace (pos + l1 + l2 + zlen blk) with (pos + zlen b) by lia.
  rewrite (CBG_loop_elements r stop HT ltac:(lia) tl bs Hrest (pos + zlen b) 1 0 (-1) (pos + l1 + l2) (zlen blk) n Hn Htail Hs2 ltac:(lia) ltac:(lia)).
  destruct Hcb as (prev & next & -> & HK).
  replace (pos + l1 + l2 <? 0) with false by lia. replace (negb (stop =? stop)) with false by lia.
  pose proof (is_element_small _ _ _ He) as HS. change (2 ^ 56) with 72057594037927936 in HS.
  destruct (Block_Parse_frame r (pos + l1 + l2) _ _ _ (fr_data f) blk (proj1 Hok) Hblk G4) as (bk & EB & B1 & B2 & B3 & B4); [unfold LLONG_MAX; lia|].
  rewrite EB. change (negb (0 =? 0)) with false. cbn iota.
  eexists. split; [unfold set_pos, set_entries; cbn [cl_start cl_pos cl_esize cl_timecode cl_entries]; reflexivity|].
  split; [|cbn [en_start en_size]; lia].
  unfold entry_carries. cbn [en_block en_discard en_group en_duration]. rewrite HC. rewrite HK.
  unfold Block_IsKey, Block_IsInvisible, Block_SetKey. cbn [bl_track bl_timecode bl_flags bl_frames]. rewrite B3.
  repeat split; auto; destruct (fr_is_key f); reflexivity.
Qed.

(* ---------- the cluster ---------- *)

Definition stop_known (known : bool) (stop : Z) : Z := if known then stop else -1.

Lemma Parse_loop_element : forall r start esize stop pos id payload b fuel, total_ok r ->
  (id = kMkvSimpleBlock \/ id = kMkvBlockGroup) -> payload <> [] ->
  is_element id payload b -> serves r pos b -> (stop < 0 \/ pos + zlen b <= stop) -> 0 <= pos ->
  exists h, 0 <= h /\ zlen b = h + zlen payload /\ serves r (pos + h) payload /\
    Parse_loop (S fuel) r start esize stop pos = Some (PN_block (id =? kMkvBlockGroup) (pos + h) (zlen payload)).
Proof.
  intros r start esize stop pos id payload b fuel HT Hid Hne He Hs Hst Hp.
  pose proof (ne_zlen _ Hne) as HP. pose proof (serves_avail _ _ _ Hs (is_element_ne _ _ _ He)) as HA.
  destruct (elem_fields r pos stop id payload b HT He Hs Hst) as (l1 & l2 & [E1 E2 E3 E4 E5 G1 G2 G3 G4 G5]).
  exists (l1 + l2). split; [lia|]. split; [lia|]. split; [replace (pos + (l1 + l2)) with (pos + l1 + l2) by lia; exact G4|].
  cbn [Parse_loop]. replace ((stop >=? 0) && (pos >=? stop)) with false by lia.
  replace ((r_total r >=? 0) && (pos >=? r_total r)) with false by (destruct HT; lia).
  rewrite E1. cbv zeta. replace ((id =? kMkvCluster) || (id =? kMkvCues)) with false by (destruct Hid as [->| ->]; reflexivity).
  rewrite E3, E5. replace ((stop >=? 0) && (pos + l1 + l2 >? stop)) with false by lia.
  replace (zlen payload =? 0) with false by lia.
  replace ((stop >=? 0) && (pos + l1 + l2 + zlen payload >? stop)) with false by lia.
  replace ((stop <? 0) && (r_total r >=? 0) && (pos + l1 + l2 + zlen payload >? r_total r)) with false by (destruct HT; lia).
  replace ((stop <? 0) && (pos + l1 + l2 + zlen payload >? r_avail r)) with false by lia.
  rewrite Z.add_assoc. destruct Hid as [->| ->]; reflexivity.
Qed.

(* a loaded cluster whose next element is the frame *)
Lemma Cluster_Parse_frame : forall r start pos (known : bool) stop tc scale ents f b, total_ok r -> frame_ok f ->
  1 <= scale -> fr_duration f / scale < 2 ^ 63 -> 0 <= tc -> 0 <= start <= pos ->
  written_as f (frame_rel f tc scale) scale b -> serves r pos b -> pos + zlen b <= stop ->
  let c := mkCluster start pos (if known then stop - start else -1) tc ents in
  exists e, Cluster_Parse r c = Some (Val (0, set_pos (set_entries c (entries_of c ++ [e])) (pos + zlen b))) /\
    entry_carries r tc scale f e /\ en_start e + en_size e <= pos + zlen b /\ en_start e <= pos + zlen b.
Proof.
  intros r start pos known stop tc scale ents f b HT Hok Hsc Hd Htc Hst Hw Hs Hend c.
  unfold Cluster_Parse, Cluster_Load. cbn [cl_timecode c]. replace (tc >=? 0) with true by lia.
  change (0 <? 0) with false. cbn iota. cbn [cl_pos cl_start cl_esize cl_timecode c].
  replace ((pos <? start) || (tc <? 0)) with false by lia.
  assert (Hb : b <> [] /\ 1 <= zlen b).
  { unfold written_as in Hw. destruct (CanBeSimpleBlock f).
    - destruct Hw as (p & He & _). split; [eapply is_element_ne; eauto|]. apply ne_zlen; eapply is_element_ne; eauto.
    - destruct Hw as (p & ? & ? & ? & ? & ? & He & _). split; [eapply is_element_ne; eauto|]. apply ne_zlen; eapply is_element_ne; eauto. }
  pose proof (serves_avail _ _ _ Hs (proj1 Hb)) as HA.
  set (st := if (if known then stop - start else -1) <? 0 then -1 else start + (if known then stop - start else -1)).
  assert (Est : st = stop_known known stop).
  { unfold st, stop_known. destruct known; [|reflexivity]. replace (stop - start <? 0) with false by lia. lia. }
  rewrite Est. clear Est st. cbv zeta.
  replace ((stop_known known stop >=? 0) && (pos >=? stop_known known stop)) with false by (unfold stop_known; destruct known; lia).
  replace ((r_total r >=? 0) && (r_avail r >? r_total r)) with false by (destruct HT; lia).
  unfold loop_fuel. unfold written_as in Hw. destruct (CanBeSimpleBlock f) eqn:EC.
  - destruct Hw as (p & He & Hbc).
    assert (Hne : p <> []) by (eapply frame_block_small; eauto).
    destruct (Parse_loop_element r start (if known then stop - start else -1) (stop_known known stop) pos kMkvSimpleBlock p b
                (Z.to_nat (r_avail r - pos)) HT (or_introl eq_refl) Hne He Hs) as (h & Hh & Hzl & Hsp & EP); [unfold stop_known; destruct known; lia|lia|].
    rewrite EP. change (kMkvSimpleBlock =? kMkvBlockGroup) with false. cbn iota.
    destruct (ParseSimpleBlock_frame r c (pos + h) f tc scale p HT Hok EC Hsc ltac:(lia) (is_element_small _ _ _ He) Hbc Hsp) as (e & E1 & E2 & E3).
    exists e. rewrite E1. rewrite Hzl, Z.add_assoc. auto.
  - destruct Hw as (p & blk & adds & disc & refs & dur & He & Hblk & Ha & Hdi & Hr & Hdu & Hels).
    assert (Hne : p <> []).
    { inversion Hels; subst. intros E. apply app_eq_nil in E. destruct E as [E _]. eapply is_element_ne; eauto. }
    destruct (Parse_loop_element r start (if known then stop - start else -1) (stop_known known stop) pos kMkvBlockGroup p b
                (Z.to_nat (r_avail r - pos)) HT (or_intror eq_refl) Hne He Hs) as (h & Hh & Hzl & Hsp & EP); [unfold stop_known; destruct known; lia|lia|].
    rewrite EP. change (kMkvBlockGroup =? kMkvBlockGroup) with true. cbn iota.
    destruct (ParseBlockGroup_frame r c (pos + h) f tc scale p HT Hok EC Hsc ltac:(lia) Hd blk adds disc refs dur Hblk Ha Hdi Hr Hdu Hels Hsp) as (e & E1 & E2 & E3).
    exists e. rewrite E1. rewrite Hzl, Z.add_assoc. auto.
Qed.

(* the end of a cluster of unknown size is recognised *)
Lemma Parse_loop_end : forall r start pos fuel, total_ok r -> 0 <= pos -> follows_unknown r pos ->
  Parse_loop (S fuel) r start (-1) (-1) pos = Some (PN_done pos (pos - start)).
Proof.
  intros r start pos fuel HT Hp Hf. cbn [Parse_loop]. change ((-1 >=? 0) && (pos >=? -1)) with false. cbn iota.
  destruct ((r_total r >=? 0) && (pos >=? r_total r)) eqn:E; [reflexivity|].
  assert (HID : exists id, (id = kMkvCluster \/ id = kMkvCues) /\ serves r pos (be_bytes (Z.to_nat 4) id)).
  { destruct Hf as [Hf|[Hf|Hf]]; [lia|exists kMkvCluster|exists kMkvCues]; auto. }
  destruct HID as (id & Hid & Hs). rewrite <- (app_nil_r (be_bytes _ _)) in Hs.
  destruct (read_id_field_bytes r pos (-1) 4 id [] HT) as [-> _]; auto; [|lia|].
  - unfold id_width. destruct Hid as [->| ->]; vm_compute; intuition congruence.
  - replace ((id =? kMkvCluster) || (id =? kMkvCues)) with true by lia. reflexivity.
Qed.

Lemma Cluster_Parse_end : forall r start stop (known : bool) tc es, total_ok r -> 0 <= tc -> 0 <= start < stop ->
  (known = false -> follows_unknown r stop) -> stop <= r_avail r ->
  Forall (fun e => en_start e + en_size e <= stop /\ en_start e <= stop) es ->
  exists c', Cluster_Parse r (mkCluster start stop (if known then stop - start else -1) tc (Some es)) = Some (Val (1, c')) /\
    c' = mkCluster start stop (stop - start) tc (Some es).
Proof.
  intros r start stop known tc es HT Htc Hst Hf HA Hes.
  unfold Cluster_Parse, Cluster_Load. cbn [cl_timecode]. replace (tc >=? 0) with true by lia.
  change (0 <? 0) with false. cbn iota. cbn [cl_pos cl_start cl_esize cl_timecode].
  replace ((stop <? start) || (tc <? 0)) with false by lia.
  destruct known.
  - cbv zeta. replace (stop - start <? 0) with false by lia.
    replace ((start + (stop - start) >=? 0) && (stop >=? start + (stop - start))) with true by lia. eauto.
  - change (-1 <? 0) with true. cbv zeta. cbn iota. change ((-1 >=? 0) && (stop >=? -1)) with false. cbn iota.
    replace ((r_total r >=? 0) && (r_avail r >? r_total r)) with false by (destruct HT; lia).
    unfold loop_fuel. rewrite (Parse_loop_end r start stop _ HT ltac:(lia) (Hf eq_refl)).
    replace (stop - start <? 1) with false by lia. change (-1 >=? 0) with false. cbn [andb].
    unfold set_esize, set_pos. cbn [cl_start cl_pos cl_esize cl_timecode cl_entries].
    destruct (rev es) as [|e rs] eqn:ER; [eauto|].
    assert (HI : In e es) by (apply in_rev; rewrite ER; left; reflexivity).
    rewrite Forall_forall in Hes. specialize (Hes e HI).
    replace ((r_total r >=? 0) && (en_start e >? r_total r)) with false by (destruct HT; lia).
    replace ((r_total r >=? 0) && (en_start e + en_size e >? r_total r)) with false by (destruct HT; lia). eauto.
Qed.

(* iterating over the blocks from a state with n entries read *)
Lemma next_entries_frames : forall r start stop (known : bool) tc scale, total_ok r -> 0 <= tc -> 1 <= scale -> 0 <= start < stop ->
  (known = false -> follows_unknown r stop) ->
  forall fs blocks, Forall2 (fun f b => written_as f (frame_rel f tc scale) scale b) fs blocks ->
  forall pos es, es <> [] ->
  Forall (fun f => frame_ok f /\ fr_duration f / scale < 2 ^ 63) fs ->
  serves r pos (concat blocks) -> pos + zlen (concat blocks) = stop -> start <= pos -> stop <= r_avail r ->
  Forall (fun e => en_start e + en_size e <= pos /\ en_start e <= pos) es ->
  exists es', Forall2 (entry_carries r tc scale) fs es' /\
    next_entries r (mkCluster start pos (if known then stop - start else -1) tc (Some es)) (zlen es - 1) es'
      (mkCluster start stop (stop - start) tc (Some (es ++ es'))).
Proof.
  intros r start stop known tc scale HT Htc Hsc Hst Hf fs blocks H.
  induction H as [|f b fs blocks Hw HF IH]; intros pos es Hne Hfs Hs Hpos Hsp HA Hes.
  - cbn [concat] in *. rewrite zlen_nil in Hpos. exists []. split; [constructor|]. rewrite app_nil_r.
    replace pos with stop in * by lia. apply ne_end.
    assert (HL : 1 <= zlen es) by (destruct es; [congruence|rewrite zlen_cons; pose proof (zlen_nonneg _ es); lia]).
    destruct (Cluster_Parse_end r start stop known tc es HT Htc Hst Hf HA Hes) as (c' & EP & ->).
    unfold Cluster_GetNext. cbn [entry_count cl_entries].
    replace ((zlen es - 1 <? 0) || (zlen es - 1 >=? zlen es)) with false by lia. cbv zeta.
    replace (zlen es - 1 + 1 >=? zlen es) with true by lia. rewrite EP. reflexivity.
  - cbn [concat] in *. rewrite zlen_app in Hpos. pose proof (zlen_nonneg _ (concat blocks)) as HZ. pose proof (zlen_nonneg _ b) as HZb.
    inversion Hfs as [|x xs (Hok & Hd) Hfs']; subst x xs.
    destruct (Cluster_Parse_frame r start pos known stop tc scale (Some es) f b HT Hok Hsc Hd Htc ltac:(lia) Hw (serves_app_l _ _ _ _ Hs) ltac:(lia)) as (e & EP & EC & EL).
    unfold entries_of in EP. cbn [cl_entries] in EP.
    destruct (IH (pos + zlen b) (es ++ [e])) as (es' & HF2 & HN); auto.
    + intros E. apply app_eq_nil in E. destruct E; discriminate.
    + apply serves_app_r; exact Hs.
    + lia.
    + lia.
    + apply Forall_app. split; [eapply Forall_impl; [|exact Hes]; cbn; intros; lia|]. constructor; [|constructor].
      exact EL.
    + exists (e :: es'). split; [constructor; auto|].
      assert (HL : 1 <= zlen es) by (destruct es; [congruence|rewrite zlen_cons; pose proof (zlen_nonneg _ es); lia]).
      eapply ne_cons.
      * unfold Cluster_GetNext. cbn [entry_count cl_entries].
        replace ((zlen es - 1 <? 0) || (zlen es - 1 >=? zlen es)) with false by lia. cbv zeta.
        replace (zlen es - 1 + 1 >=? zlen es) with true by lia. rewrite EP. change (0 <? 0) with false. change (0 >? 0) with false. cbn iota.
        unfold set_entries, set_pos. cbn [cl_start cl_pos cl_esize cl_timecode entry_count cl_entries].
        rewrite zlen_app. change (zlen [e]) with 1. replace (zlen es - 1 + 1 >=? zlen es + 1) with false by lia.
        cbn [entry_at cl_entries]. rewrite nth_error_app2 by (unfold zlen; lia).
        replace (Z.to_nat (zlen es - 1 + 1) - length es)%nat with O by (unfold zlen; lia). cbn [nth_error]. reflexivity.
      * rewrite <- app_assoc in HN. rewrite zlen_app in HN. change (zlen [e]) with 1 in HN.
        replace (zlen es - 1 + 1) with (zlen es + 1 - 1) by lia. exact HN.
Qed.

Lemma Cluster_Parse_loaded : forall r c c1, Cluster_Load r c = Some (Val (0, c1)) -> 0 <= cl_timecode c1 ->
  Cluster_Parse r c = Cluster_Parse r c1.
Proof.
  intros r c c1 H Ht. unfold Cluster_Parse at 1. rewrite H. unfold Cluster_Parse, Cluster_Load.
  replace (cl_timecode c1 >=? 0) with true by lia. reflexivity.
Qed.

Lemma written_element : forall f rel scale b, written_as f rel scale b ->
  exists id p, (id = kMkvSimpleBlock \/ id = kMkvBlockGroup) /\ p <> [] /\ is_element id p b.
Proof.
  intros f rel scale b H. unfold written_as in H. destruct (CanBeSimpleBlock f).
  - destruct H as (p & He & Hbc). exists kMkvSimpleBlock, p. split; auto. split; auto. eapply frame_block_small; eauto.
  - destruct H as (p & blk & adds & disc & refs & dur & He & Hblk & Ha & Hdi & Hr & Hdu & Hels).
    exists kMkvBlockGroup, p. split; auto. split; auto.
    inversion Hels; subst. intros E. apply app_eq_nil in E. destruct E as [E _]. eapply is_element_ne; eauto.
Qed.

Lemma Cluster_Load_muxed : forall r start w size tcp tce f fs b blocks tc scale (known : bool),
  total_ok r -> 0 <= tc < 2 ^ 63 ->
  serves r start (be_bytes 4 kMkvCluster ++ vint w size ++ tce ++ concat (b :: blocks)) ->
  uint_payload tc tcp -> is_element kMkvTimecode tcp tce ->
  Forall2 (fun f b => written_as f (frame_rel f tc scale) scale b) (f :: fs) (b :: blocks) ->
  1 <= w <= 8 ->
  (if known then size = zlen (tce ++ concat (b :: blocks)) /\ vint_fits w size else size = 2 ^ (7 * w) - 1) ->
  Cluster_Load r (new_cluster start) =
    Some (Val (0, mkCluster start (start + 4 + w + zlen tce)
      (if known then 4 + w + zlen (tce ++ concat (b :: blocks)) else -1) tc None)).
Proof.
  intros r start w size tcp tce f fs b blocks tc scale known HT Htc Hs Htp Hte HF Hw Hsz.
  pose proof Hs as [Hp _]. set (content := tce ++ concat (b :: blocks)) in *.
  assert (Hne : tce <> []) by (eapply is_element_ne; eauto). pose proof (ne_zlen _ Hne) as HL.
  assert (HLb : 1 <= zlen b).
  { inversion HF; subst. destruct (written_element _ _ _ _ H2) as (id & p & _ & _ & He). apply ne_zlen. eapply is_element_ne; eauto. }
  assert (HLC : zlen content = zlen tce + (zlen b + zlen (concat blocks))) by (unfold content; cbn [concat]; rewrite !zlen_app; lia).
  pose proof (zlen_nonneg _ (concat blocks)) as HZc.
  assert (HA : start + (4 + (w + zlen content)) <= r_avail r).
  { pose proof (serves_avail _ _ _ Hs) as HA. rewrite !zlen_app, be_bytes_zlen, vint_zlen_l in HA by lia. unfold content in *. rewrite zlen_app in *.
    apply HA. discriminate. }
  assert (Hsv : 0 < size < 2 ^ (7 * w)).
  { pose proof (pow2_pos (7 * w) ltac:(lia)). assert (2 ^ 7 <= 2 ^ (7 * w)) by (apply Z.pow_le_mono_r; lia). change (2 ^ 7) with 128 in *.
    destruct known; [|lia]. destruct Hsz as [-> [_ Hf]]. lia. }
  unfold Cluster_Load, new_cluster. cbn [cl_timecode cl_pos cl_start cl_esize cl_entries].
  change (-1 >=? 0) with false. cbn iota. replace (negb (start =? start) || false) with false by lia.
  replace ((r_total r >=? 0) && ((r_avail r >? r_total r) || (start >? r_total r))) with false by (destruct HT; lia).
  change (be_bytes 4 kMkvCluster) with (be_bytes (Z.to_nat 4) kMkvCluster) in Hs.
  assert (Hid : id_width 4 kMkvCluster) by (unfold id_width; vm_compute; intuition congruence).
  destruct (read_id_field_bytes r start (-1) 4 kMkvCluster _ HT Hid Hs ltac:(lia)) as [-> _].
  change (negb (kMkvCluster =? kMkvCluster)) with false. cbv zeta. cbn iota.
  pose proof (serves_app_r _ _ _ _ Hs) as Hs2. rewrite be_bytes_zlen in Hs2. change (Z.of_nat (Z.to_nat 4)) with 4 in Hs2.
  destruct (read_uint_field_vint r (start + 4) (-1) w size _ HT Hw ltac:(lia) Hs2 ltac:(lia)) as (-> & _ & ->).
  replace (size <? 0) with false by lia. replace (size =? 0) with false by lia.
  rewrite unknown_size_pow by lia.
  assert (EC : (if negb (size =? 2 ^ (7 * w) - 1) then size else -1) = if known then zlen content else -1).
  { destruct known; [|replace (negb (size =? 2 ^ (7 * w) - 1)) with false by lia; reflexivity].
    destruct Hsz as [-> [_ Hf]]. replace (negb (zlen content =? 2 ^ (7 * w) - 1)) with true by lia. reflexivity. }
  rewrite EC. clear EC.
  set (stop := if (if known then zlen content else -1) <? 0 then -1 else start + 4 + w + (if known then zlen content else -1)).
  assert (Hstop : stop < 0 \/ start + 4 + w + zlen content <= stop).
  { unfold stop. destruct known; [|left; reflexivity]. replace (zlen content <? 0) with false by lia. right. lia. }
  pose proof (serves_app_r _ _ _ _ Hs2) as Hs3. rewrite vint_zlen_l in Hs3 by lia. fold content in Hs3.
  assert (ELF : exists n, loop_fuel r (start + 4 + w) = S (S n)).
  { unfold loop_fuel. exists (pred (Z.to_nat (r_avail r - (start + 4 + w)))). lia. }
  destruct ELF as (n & ->). cbn [Load_loop].
  (* the timecode *)
  replace ((stop >=? 0) && (start + 4 + w >=? stop)) with false by lia.
  destruct (elem_fields r (start + 4 + w) stop _ _ _ HT Hte (serves_app_l _ _ _ _ Hs3) ltac:(lia)) as (l1 & l2 & [E1 E2 E3 E4 E5 G1 G2 G3 G4 G5]).
  pose proof Htp as (Htb & Htl & Htv). rewrite E1. change (kMkvTimecode =? 0) with false. change ((kMkvTimecode =? kMkvCluster) || (kMkvTimecode =? kMkvCues)) with false.
  cbn iota zeta. rewrite E3, E5.
  set (p1 := start + 4 + w) in *.
  replace ((stop >=? 0) && (p1 + l1 + l2 >? stop)) with false by lia. replace (zlen tcp =? 0) with false by lia.
  replace ((stop >=? 0) && (p1 + l1 + l2 + zlen tcp >? stop)) with false by lia.
  change (kMkvTimecode =? kMkvTimecode) with true. cbn iota.
  replace (p1 + l1 + l2 + zlen tcp >? r_avail r) with false by lia.
  rewrite (UnserializeUInt_payload r _ tcp tc Htp G4). change (2 ^ 63) with 9223372036854775808 in Htc. rewrite sint64_small by lia.
  replace (tc <? 0) with false by lia. replace (p1 + l1 + l2 + zlen tcp) with (p1 + zlen tce) by lia.
  (* the first block *)
  pose proof (serves_app_r _ _ _ _ Hs3) as Hs4. cbn [concat] in Hs4. apply serves_app_l in Hs4.
  inversion HF as [|? ? ? ? Hwb HF']; subst. destruct (written_element _ _ _ _ Hwb) as (id & p & Hidb & Hpne & Heb).
  pose proof (ne_zlen _ Hpne) as HPL.
  destruct (elem_fields r (p1 + zlen tce) stop id p b HT Heb Hs4 ltac:(lia)) as (k1 & k2 & [F1 F2 F3 F4 F5 K1 K2 K3 K4 K5]).
  replace ((stop >=? 0) && (p1 + zlen tce >=? stop)) with false by lia.
  rewrite F1. replace (id =? 0) with false by lia.
  replace ((id =? kMkvCluster) || (id =? kMkvCues)) with false by (destruct Hidb as [->| ->]; reflexivity). cbn zeta iota.
  rewrite F3, F5. set (p2 := p1 + zlen tce) in *.
  replace ((stop >=? 0) && (p2 + k1 + k2 >? stop)) with false by lia. replace (zlen p =? 0) with false by lia.
  replace ((stop >=? 0) && (p2 + k1 + k2 + zlen p >? stop)) with false by lia.
  replace (id =? kMkvTimecode) with false by (destruct Hidb as [->| ->]; reflexivity).
  replace ((id =? kMkvBlockGroup) || (id =? kMkvSimpleBlock)) with true by (destruct Hidb as [->| ->]; reflexivity).
  replace ((stop >=? 0) && (p2 + k1 + k2 >? stop)) with false by lia.
  replace (be_val tcp <? 0) with false by lia. cbn [negb]. do 4 f_equal.
  destruct known.
  - replace (zlen content >=? 0) with true by lia. unfold stop. replace (zlen content <? 0) with false by lia. unfold p1. lia.
  - reflexivity.
Qed.

Theorem cluster_roundtrip : forall r start tc scale fs stop, total_ok r -> 0 <= tc < 2 ^ 63 -> 1 <= scale -> fs <> [] ->
  Forall (fun f => frame_ok f /\ fr_duration f / scale < 2 ^ 63) fs ->
  holds_cluster r start tc scale fs stop ->
  exists c1 e es c2,
    Cluster_GetFirst r (new_cluster start) = Some (Val (0, Some e, c1)) /\
    next_entries r c1 0 es c2 /\
    Forall2 (entry_carries r tc scale) fs (e :: es) /\
    cl_timecode c2 = tc /\ cl_start c2 + cl_esize c2 = stop /\ cl_entries c2 = Some (e :: es).
Proof.
  intros r start tc scale fs stop HT Htc Hsc Hne Hfs (w & size & tcp & tce & blocks & Hs & Htp & Hte & HF & Hstop & Hw & Hsz).
  destruct fs as [|f fs]; [congruence|]. destruct blocks as [|b blocks]; [inversion HF|].
  pose proof Hs as [Hp _].
  assert (HK : exists known : bool, (if known then size = zlen (tce ++ concat (b :: blocks)) /\ vint_fits w size else size = 2 ^ (7 * w) - 1) /\ (known = false -> follows_unknown r stop)).
  { destruct Hsz as [Hsz|[Hsz Hfo]]; [exists true|exists false]; split; auto. discriminate. }
  destruct HK as (known & HK & Hfol).
  pose proof (Cluster_Load_muxed r start w size tcp tce f fs b blocks tc scale known HT Htc Hs Htp Hte HF Hw HK) as EL.
  assert (HA : stop <= r_avail r).
  { pose proof (serves_avail _ _ _ Hs ltac:(discriminate)) as HA. rewrite !zlen_app, be_bytes_zlen, vint_zlen_l in HA by lia. rewrite zlen_app in Hstop. lia. }
  pose proof (zlen_nonneg _ tce) as HZt. pose proof (zlen_nonneg _ (concat (b :: blocks))) as HZb. rewrite zlen_app in Hstop.
  set (p := start + 4 + w + zlen tce) in *.
  assert (Eesz : (if known then 4 + w + zlen (tce ++ concat (b :: blocks)) else -1) = if known then stop - start else -1).
  { destruct known; auto. rewrite zlen_app. lia. }
  rewrite Eesz in EL.
  pose proof (serves_app_r _ _ _ _ Hs) as Hs2. rewrite be_bytes_zlen in Hs2. apply serves_app_r in Hs2. rewrite vint_zlen_l in Hs2 by lia.
  apply serves_app_r in Hs2. change (start + Z.of_nat 4 + w + zlen tce) with p in Hs2.
  cbn [concat] in Hs2, Hstop, HZb. rewrite zlen_app in Hstop, HZb. pose proof (zlen_nonneg _ b). pose proof (zlen_nonneg _ (concat blocks)).
  inversion Hfs as [|? ? (Hok & Hd) Hfs']; subst x l. inversion HF as [|? ? ? ? Hwb HF']; subst.
  destruct (Cluster_Parse_frame r start p known (p + (zlen b + zlen (concat blocks))) tc scale None f b HT Hok Hsc Hd ltac:(lia) ltac:(lia) Hwb (serves_app_l _ _ _ _ Hs2) ltac:(lia)) as (e & EP & EC & EN).
  cbn [entries_of cl_entries app set_entries set_pos cl_start cl_pos cl_esize cl_timecode] in EP.
  replace (start + 4 + w + (zlen tce + (zlen b + zlen (concat blocks)))) with (p + (zlen b + zlen (concat blocks))) in * by lia.
  set (stop := p + (zlen b + zlen (concat blocks))) in *.
  destruct (next_entries_frames r start stop known tc scale HT ltac:(lia) Hsc ltac:(lia) Hfol fs blocks HF' (p + zlen b) [e]) as (es' & HF2 & HN); auto; try lia; try discriminate.
  { apply serves_app_r; exact Hs2. }
  change (zlen [e] - 1) with 0 in HN.
  eexists. exists e, es'. eexists. split; [|split; [exact HN|]].
  - unfold Cluster_GetFirst. change (entry_count (new_cluster start) <=? 0) with true. cbn iota.
    rewrite (Cluster_Parse_loaded r _ _ EL) by (cbn; lia). rewrite EP. reflexivity.
  - split; [constructor; auto|]. cbn [cl_timecode cl_start cl_esize cl_entries]. repeat split. lia.
Qed.
