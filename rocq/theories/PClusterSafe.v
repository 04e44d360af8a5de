(* Parsing arbitrary bytes as a cluster: no undefined behaviour, termination and
   the position of the entries. *)
From Coq Require Import ZifyBool ZifyNat.
From Verif Require Import Base EbmlSpec LacingSpec MParUtil ReaderSpec PParUtil MParBlock PParBlock MParCluster Ids ClusterSpec ClusterSafeSpec PParCluster.

Lemma intact_byte : forall r pos, intact r -> 0 <= pos ->
  (pos < r_avail r -> exists b, r_byte r pos = inr b) /\ (r_avail r <= pos -> exists st, r_byte r pos = inl st /\ st < 0).
Proof.
  intros r pos (Hwf & _ & Hs & He) Hp. unfold r_byte, r_read. rewrite He. cbn [negb Z.eqb].
  replace ((pos <? 0) || (1 <? 0)) with false by lia. change (1 =? 0) with false. cbn iota. split; intros H.
  - replace (pos + 1 <=? r_avail r) with true by lia. eauto.
  - replace (pos + 1 <=? r_avail r) with false by lia. eauto.
Qed.

Lemma id_field_range : forall r pos stop id len, intact r -> read_id_field r pos stop = inr (id, len) -> 0 <= pos ->
  1 <= len <= 4 /\ 0 <= id /\ pos + len <= r_avail r /\ ReadID r pos = (id, len).
Proof.
  intros r pos stop id len HI E Hp. unfold read_id_field in E. destruct (field_len r pos stop); [discriminate|].
  destruct (ReadID r pos) as [i l] eqn:ER. destruct (Z.ltb_spec i 0); [discriminate|]. injection E as <- <-.
  destruct HI as [Hwf _]. destruct (ReadID_range _ _ _ _ Hwf Hp ER) as [|[[Hw _] Ha]]; [lia|]. repeat split; auto; lia.
Qed.

Lemma uint_field_range : forall r pos stop v len, intact r -> read_uint_field r pos stop = inr (v, len) -> 0 <= pos ->
  1 <= len <= 8 /\ 0 <= v < 2 ^ (7 * len) /\ pos + len <= r_avail r /\ ReadUInt r pos = (v, len).
Proof.
  intros r pos stop v len HI E Hp. unfold read_uint_field in E. destruct (field_len r pos stop); [discriminate|].
  destruct (ReadUInt r pos) as [i l] eqn:ER. destruct (Z.ltb_spec i 0); [discriminate|]. injection E as <- <-.
  destruct HI as [Hwf _]. destruct (ReadUInt_range _ _ _ _ Hwf Hp ER) as [|(Hl & Hv & Ha)]; [lia|]. repeat split; auto; lia.
Qed.

(* statuses of field reads are failures *)
Lemma field_len_neg : forall r pos stop st, intact r -> 0 <= pos -> field_len r pos stop = inl st -> st < 0.
Proof.
  intros r pos stop st HI Hp E. unfold field_len in E. unfold E_BUFFER_NOT_FULL, E_FILE_FORMAT_INVALID in E.
  destruct (pos + 1 >? r_avail r); [injection E as <-; lia|].
  destruct (GetUIntLength r pos) as [res len]. destruct (Z.ltb_spec res 0); [injection E as <-; lia|].
  destruct (res >? 0); [injection E as <-; lia|]. destruct ((stop >=? 0) && (pos + len >? stop)); [injection E as <-; lia|].
  destruct (pos + len >? r_avail r); [injection E as <-; lia|discriminate].
Qed.
Lemma id_field_neg : forall r pos stop st, intact r -> 0 <= pos -> read_id_field r pos stop = inl st -> st < 0.
Proof.
  intros r pos stop st HI Hp E. unfold read_id_field in E. destruct (field_len r pos stop) eqn:EF.
  - injection E as <-. eapply field_len_neg; eauto.
  - destruct (ReadID r pos) as [i l]. destruct (Z.ltb_spec i 0); [injection E as <-; lia|discriminate].
Qed.
Lemma uint_field_neg : forall r pos stop st, intact r -> 0 <= pos -> read_uint_field r pos stop = inl st -> st < 0.
Proof.
  intros r pos stop st HI Hp E. unfold read_uint_field in E. destruct (field_len r pos stop) eqn:EF.
  - injection E as <-. eapply field_len_neg; eauto.
  - destruct (ReadUInt r pos) as [i l]. destruct (Z.ltb_spec i 0); [injection E as <-; lia|discriminate].
Qed.

Lemma UnserializeUInt_loop_val : forall n r pos res, intact r -> 0 <= pos ->
  exists v, UnserializeUInt_loop r n pos res = Val v.
Proof.
  induction n; intros r pos res HI Hp; cbn [UnserializeUInt_loop]; [eauto|].
  destruct (r_byte r pos) as [st|b] eqn:E; [|apply IHn; auto; lia].
  destruct (intact_byte r pos HI Hp) as [H1 H2]. destruct (Z.ltb_spec pos (r_avail r)).
  - destruct (H1 ltac:(lia)) as [b Hb]. congruence.
  - destruct (H2 ltac:(lia)) as (st' & Hb & Hn). replace (st <? 0) with true by (rewrite E in Hb; injection Hb as ->; lia). eauto.
Qed.
Lemma UnserializeUInt_val : forall r pos size, intact r -> exists v, UnserializeUInt r pos size = Val v.
Proof.
  intros r pos size HI. unfold UnserializeUInt. destruct ((pos <? 0) || (size <=? 0) || (size >? 8)) eqn:E; [eauto|].
  apply UnserializeUInt_loop_val; auto. lia.
Qed.
Lemma UnserializeInt_loop_val : forall n r pos res, intact r -> 0 <= pos ->
  exists st v, UnserializeInt_loop r n pos res = Val (st, v) /\ (pos + Z.of_nat n <= r_avail r -> st = 0) /\ st <= 0.
Proof.
  induction n; intros r pos res HI Hp; cbn [UnserializeInt_loop]; [eexists _, _; split; [reflexivity|split; auto; lia]|].
  destruct (intact_byte r pos HI Hp) as [H1 H2]. destruct (Z.ltb_spec pos (r_avail r)).
  - destruct (H1 ltac:(lia)) as [b ->]. destruct (IHn r (pos + 1) (wrap64 (Z.lor (Z.shiftl res 8) b)) HI ltac:(lia)) as (st & v & -> & Hs & Hn).
    eexists _, _. split; [reflexivity|]. split; [|exact Hn]. intros. apply Hs. lia.
  - destruct (H2 ltac:(lia)) as (st' & -> & Hn). replace (st' <? 0) with true by lia. eexists _, _. split; [reflexivity|]. lia.
Qed.
Lemma UnserializeInt_val : forall r pos size, intact r ->
  exists st v, UnserializeInt r pos size = Val (st, v) /\ st <= 0 /\
    (0 <= pos -> 1 <= size <= 8 -> pos + size <= r_avail r -> st = 0).
Proof.
  intros r pos size HI. unfold UnserializeInt. destruct ((pos <? 0) || (size <? 1) || (size >? 8)) eqn:E.
  - eexists _, _. split; [reflexivity|]. unfold E_FILE_FORMAT_INVALID. lia.
  - destruct (intact_byte r pos HI ltac:(lia)) as [H1 H2]. destruct (Z.ltb_spec pos (r_avail r)).
    + destruct (H1 ltac:(lia)) as [b ->].
      destruct (UnserializeInt_loop_val (Z.to_nat (size - 1)) r (pos + 1) (wrap64 (sint8 b)) HI ltac:(lia)) as (st & v & -> & Hs & Hn).
      eexists _, _. split; [reflexivity|]. split; [exact Hn|]. intros. apply Hs. lia.
    + destruct (H2 ltac:(lia)) as (st' & -> & Hn). replace (st' <? 0) with true by lia. eexists _, _. split; [reflexivity|]. lia.
Qed.

Lemma Block_Parse_val : forall r st sz, intact r -> exists ob, Block_Parse r st sz = Val ob.
Proof.
  intros r st sz HI. unfold Block_Parse. cbv zeta. destruct (ReadUInt r st) as [track len].
  destruct (track <=? 0); [eauto|]. destruct (st + len >? st + sz); [eauto|].
  destruct (st + sz - (st + len) <? 2); [eauto|].
  destruct (UnserializeInt_val r (st + len) 2 HI) as (s & v & -> & _ & _).
  destruct (negb (s =? 0)); [eauto|]. destruct (v <? SHRT_MIN); [eauto|]. destruct (v >? SHRT_MAX); [eauto|].
  destruct (st + sz - (st + len + 2) <=? 0); [eauto|].
  destruct (r_byte r (st + len + 2)); [eauto|].
  destruct (Z.shiftr (Z.land z 6) 1 =? 0).
  - destruct (st + len + 2 + 1 >? st + sz); [eauto|].
    match goal with |- context [if ?x then _ else _] => destruct x end; eauto.
  - destruct (st + len + 2 + 1 >=? st + sz); [eauto|]. destruct (r_byte r (st + len + 2 + 1)); [eauto|].
    destruct (st + len + 2 + 1 + 1 >? st + sz); [eauto|].
    destruct (Z.shiftr (Z.land z 6) 1 =? 1); [eauto|]. destruct (Z.shiftr (Z.land z 6) 1 =? 2); eauto.
Qed.

Lemma check_block_nonpos : forall r pos stop, intact r -> 0 <= pos -> check_block r pos stop <= 0.
Proof.
  intros r pos stop HI Hp. unfold check_block. unfold E_FILE_FORMAT_INVALID, E_BUFFER_NOT_FULL.
  destruct (read_uint_field r pos stop) as [st|[tr len]] eqn:E; [pose proof (uint_field_neg _ _ _ _ HI Hp E); lia|].
  destruct (uint_field_range _ _ _ _ _ HI E Hp) as (Hl & _ & _ & _).
  destruct (tr =? 0); [lia|]. cbv zeta. destruct (pos + len + 2 >? stop); [lia|].
  destruct (Z.gtb_spec (pos + len + 2) (r_avail r)); [lia|]. destruct (pos + len + 2 + 1 >? stop); [lia|].
  destruct (Z.gtb_spec (pos + len + 2 + 1) (r_avail r)); [lia|].
  destruct (intact_byte r (pos + len + 2) HI ltac:(lia)) as [H1 _]. destruct (H1 ltac:(lia)) as [b ->].
  destruct (pos + len + 2 + 1 >=? stop); [lia|].
  destruct (negb (Z.shiftr (Z.land b 6) 1 =? 0) && (stop >? r_avail r)); lia.
Qed.

Lemma loop_fuel_pos : forall r pos, loop_fuel r pos <> O. Proof. discriminate. Qed.

(* every loop has enough fuel *)
Definition enough (r : reader) (pos : Z) (fuel : nat) : Prop := r_avail r - pos < Z.of_nat fuel /\ (1 <= fuel)%nat.
Lemma loop_fuel_enough : forall r pos, enough r pos (loop_fuel r pos).
Proof. intros. unfold enough, loop_fuel. lia. Qed.

Lemma Load_loop_total : forall fuel r stop pos tc np, intact r -> 0 <= pos -> enough r pos fuel -> -1 <= tc ->
  (tc < 0 \/ np <= pos) ->
  exists x, Load_loop fuel r stop pos tc np = Some (Val x) /\
    match x with
    | inl st => st < 0
    | inr (pos', tc', np', _) => pos <= pos' /\ -1 <= tc' /\ (tc' < 0 \/ (tc' = tc /\ np' = np) \/ (pos + 3 <= np' <= pos' /\ np' <= r_avail r))
    end.
Proof.
  induction fuel; intros r stop pos tc np HI Hp HE Htc Hnp; [unfold enough in HE; lia|]. cbn [Load_loop].
  unfold E_FILE_FORMAT_INVALID, E_BUFFER_NOT_FULL.
  destruct ((stop >=? 0) && (pos >=? stop)); [eexists; split; [reflexivity|]; cbv beta iota; lia|].
  destruct (read_id_field r pos stop) as [st|[id len]] eqn:E1.
  { eexists; split; [reflexivity|]. eapply id_field_neg; eauto. }
  destruct (id_field_range _ _ _ _ _ HI E1 Hp) as (L1 & _ & A1 & _).
  destruct (id =? 0); [eexists; split; [reflexivity|]; cbv beta iota; lia|].
  destruct ((id =? kMkvCluster) || (id =? kMkvCues)); [eexists; split; [reflexivity|]; cbv beta iota; lia|]. cbv zeta.
  destruct (read_uint_field r (pos + len) stop) as [st|[size l2]] eqn:E2.
  { eexists; split; [reflexivity|]. eapply uint_field_neg; [exact HI| |exact E2]; lia. }
  destruct (uint_field_range _ _ _ _ _ HI E2 ltac:(lia)) as (L2 & Hv & A2 & _).
  destruct (size =? unknown_size l2); [eexists; split; [reflexivity|]; cbv beta iota; lia|].
  destruct ((stop >=? 0) && (pos + len + l2 >? stop)); [eexists; split; [reflexivity|]; cbv beta iota; lia|].
  assert (Go : forall p t n, pos + 2 <= p -> -1 <= t -> (t < 0 \/ n <= p) ->
    (t < 0 \/ (t = tc /\ n = np) \/ (pos + 3 <= n <= p /\ n <= r_avail r)) ->
    exists x, Load_loop fuel r stop p t n = Some (Val x) /\
    match x with inl st => st < 0 | inr (pos', tc', np', _) => pos <= pos' /\ -1 <= tc' /\ (tc' < 0 \/ (tc' = tc /\ np' = np) \/ (pos + 3 <= np' <= pos' /\ np' <= r_avail r)) end).
  { intros p t n Hpp Ht Hn Hx. destruct (IHfuel r stop p t n HI ltac:(lia)) as (x & -> & Hr); auto; [unfold enough in *; lia|].
    exists x. split; auto. destruct x as [st|[[[pos' tc'] np'] bb]]; auto. lia. }
  destruct (Z.eqb_spec size 0); [apply Go; lia|].
  destruct ((stop >=? 0) && (pos + len + l2 + size >? stop)); [eexists; split; [reflexivity|]; cbv beta iota; lia|].
  destruct (id =? kMkvTimecode).
  - destruct (Z.gtb_spec (pos + len + l2 + size) (r_avail r)); [eexists; split; [reflexivity|]; cbv beta iota; lia|].
    destruct (UnserializeUInt_val r (pos + len + l2) size HI) as [v ->].
    destruct (Z.ltb_spec v 0); [eexists; split; [reflexivity|]; cbv beta iota; lia|]. apply Go; lia.
  - destruct ((id =? kMkvBlockGroup) || (id =? kMkvSimpleBlock)); [eexists; split; [reflexivity|]; cbv beta iota; lia|]. apply Go; lia.
Qed.

(* The invariant of reachable clusters. *)
Definition cl_inv (r : reader) (c : cluster) : Prop :=
  0 <= cl_start c /\
  if cl_timecode c <? 0 then cl_timecode c = -1 /\ cl_pos c = cl_start c /\ cl_esize c = -1 /\ cl_entries c = None
  else cl_start c + 1 <= cl_pos c /\
       (cl_esize c = -1 \/ (cl_pos c <= cl_start c + cl_esize c)) /\
       entries_within (cl_start c) (cl_pos c) (entries c) /\
       Forall (fun e => en_start e <= r_avail r) (entries c).

Lemma Cluster_Load_total : forall r c, intact r -> cl_inv r c ->
  exists st c', Cluster_Load r c = Some (Val (st, c')) /\ cl_inv r c' /\ st <= 0 /\ cl_start c' = cl_start c /\ cl_entries c' = cl_entries c /\
    (st = 0 -> 0 <= cl_timecode c') /\ (0 <= cl_timecode c -> c' = c /\ st = 0).
Proof.
  intros r c HI Hc. unfold Cluster_Load. unfold E_FILE_FORMAT_INVALID, E_PARSE_FAILED.
  destruct (Z.geb_spec (cl_timecode c) 0); [exists 0, c; split; [reflexivity|]; split; [exact Hc|]; repeat split; auto; lia|].
  pose proof Hc as (Hs & Hi). replace (cl_timecode c <? 0) with true in Hi by lia. destruct Hi as (Htc & Hpos & Hes & Hen).
  assert (Fail : forall s, s < 0 -> exists st c', Some (Val (s, c)) = Some (Val (st, c')) /\ cl_inv r c' /\ st <= 0 /\ cl_start c' = cl_start c /\ cl_entries c' = cl_entries c /\
    (st = 0 -> 0 <= cl_timecode c') /\ (0 <= cl_timecode c -> c' = c /\ st = 0)).
  { intros s Hn. exists s, c. split; [reflexivity|]. split; [exact Hc|]. repeat split; auto; lia. }
  destruct (negb (cl_pos c =? cl_start c) || (cl_esize c >=? 0)); [apply Fail; lia|].
  destruct ((r_total r >=? 0) && ((r_avail r >? r_total r) || (cl_pos c >? r_total r))); [apply Fail; lia|]. cbv zeta.
  destruct (read_id_field r (cl_pos c) (-1)) as [st|[id len]] eqn:E1.
  { apply Fail. eapply id_field_neg; [exact HI| |exact E1]; lia. }
  destruct (id_field_range _ _ _ _ _ HI E1 ltac:(lia)) as (L1 & _ & A1 & _).
  destruct (negb (id =? kMkvCluster)); [apply Fail; lia|].
  destruct (field_len r (cl_pos c + len) (-1)) as [st|x] eqn:E2.
  { apply Fail. eapply field_len_neg; [exact HI| |exact E2]; lia. }
  destruct (ReadUInt r (cl_pos c + len)) as [size l2] eqn:E3. destruct (Z.ltb_spec size 0); [apply Fail; lia|].
  destruct HI as [Hwf HI']. destruct (ReadUInt_range _ (cl_pos c + len) _ _ Hwf ltac:(lia) E3) as [|(L2 & Hv & A2)]; [lia|].
  assert (HI : intact r) by (split; auto).
  destruct (Z.eqb_spec size 0); [apply Fail; lia|].
  set (csz := if negb (size =? unknown_size l2) then size else -1).
  set (stop := if csz <? 0 then -1 else cl_pos c + len + l2 + csz).
  assert (Hstop : (csz = -1 /\ stop = -1) \/ (csz = size /\ stop = cl_pos c + len + l2 + size)).
  { unfold stop, csz. destruct (size =? unknown_size l2); cbn [negb]; [left; auto|right; replace (size <? 0) with false by lia; auto]. }
  destruct (Load_loop_total (loop_fuel r (cl_pos c + len + l2)) r stop (cl_pos c + len + l2) (-1) (-1) HI ltac:(lia) (loop_fuel_enough _ _) ltac:(lia) ltac:(lia))
    as (x' & -> & Hx). destruct x' as [st|[[[pos' tc'] np'] bb]]; [apply Fail; auto|].
  destruct (Z.geb_spec stop 0) as [Hst|Hst]; cbn [andb].
  - destruct (Z.gtb_spec pos' stop); [apply Fail; lia|]. destruct (Z.ltb_spec tc' 0); [apply Fail; lia|]. destruct (negb bb); [apply Fail; lia|].
    eexists 0, _. split; [reflexivity|]. cbn [cl_start cl_entries cl_timecode cl_pos cl_esize].
    split; [|repeat split; auto; lia]. unfold cl_inv, entries; cbn [cl_start cl_entries cl_timecode cl_pos cl_esize].
    replace (tc' <? 0) with false by lia. rewrite Hen. cbn [entries_within]. replace (csz >=? 0) with true by lia. repeat split; try constructor; lia.
  - destruct (Z.ltb_spec tc' 0); [apply Fail; lia|]. destruct (negb bb); [apply Fail; lia|].
    eexists 0, _. split; [reflexivity|]. cbn [cl_start cl_entries cl_timecode cl_pos cl_esize].
    split; [|repeat split; auto; lia]. unfold cl_inv, entries; cbn [cl_start cl_entries cl_timecode cl_pos cl_esize].
    replace (tc' <? 0) with false by lia. rewrite Hen. cbn [entries_within]. replace (csz >=? 0) with false by lia. repeat split; try constructor; lia.
Qed.

Lemma PBG_loop_total : forall fuel r pos stop d, intact r -> 0 <= pos -> enough r pos fuel ->
  exists x, ParseBlockGroup_loop fuel r pos stop d = Some (Val x) /\ match x with inl st => st < 0 | inr (p, _) => stop <= p end.
Proof.
  induction fuel; intros r pos stop d HI Hp HE; [unfold enough in HE; lia|]. cbn [ParseBlockGroup_loop].
  unfold E_FILE_FORMAT_INVALID.
  destruct (Z.geb_spec pos stop); [eexists; split; [reflexivity|]; cbv beta iota; lia|].
  destruct (read_id_field r pos stop) as [st|[id len]] eqn:E1.
  { eexists; split; [reflexivity|]. eapply id_field_neg; eauto. }
  destruct (id_field_range _ _ _ _ _ HI E1 Hp) as (L1 & _ & A1 & _).
  destruct (id =? 0); [eexists; split; [reflexivity|]; cbv beta iota; lia|]. cbv zeta.
  destruct (read_uint_field r (pos + len) stop) as [st|[size l2]] eqn:E2.
  { eexists; split; [reflexivity|]. eapply uint_field_neg; [exact HI| |exact E2]; lia. }
  destruct (uint_field_range _ _ _ _ _ HI E2 ltac:(lia)) as (L2 & Hv & A2 & _).
  destruct (pos + len + l2 >? stop); [eexists; split; [reflexivity|]; cbv beta iota; lia|].
  assert (Go : forall p d', pos + 2 <= p -> exists x, ParseBlockGroup_loop fuel r p stop d' = Some (Val x) /\ match x with inl st => st < 0 | inr (p, _) => stop <= p end).
  { intros p d' Hpp. apply IHfuel; auto; [lia|]. unfold enough in *. lia. }
  destruct (Z.eqb_spec size 0); [apply Go; lia|].
  destruct (size =? unknown_size l2); [eexists; split; [reflexivity|]; cbv beta iota; lia|].
  destruct (id =? kMkvBlock).
  - destruct (pos + len + l2 + size >? stop); [eexists; split; [reflexivity|]; cbv beta iota; lia|].
    pose proof (check_block_nonpos r (pos + len + l2) (pos + len + l2 + size) HI ltac:(lia)).
    replace (check_block r (pos + len + l2) (pos + len + l2 + size) >? 0) with false by lia.
    destruct (Z.ltb_spec (check_block r (pos + len + l2) (pos + len + l2 + size)) 0); [eexists; split; [reflexivity|]; auto|apply Go; lia].
  - destruct (id =? kMkvDiscardPadding).
    + destruct (UnserializeInt_val r (pos + len + l2) size HI) as (st & v & -> & _ & _).
      destruct (Z.ltb_spec st 0); [eexists; split; [reflexivity|]; auto|].
      destruct (pos + len + l2 + size >? stop); [eexists; split; [reflexivity|]; cbv beta iota; lia|]. apply Go; lia.
    + destruct (pos + len + l2 + size >? stop); [eexists; split; [reflexivity|]; cbv beta iota; lia|]. apply Go; lia.
Qed.

(* what ParseBlockGroup accepted is safe for CreateBlockGroup *)
Lemma CBG_after_PBG : forall fuel r pos stop d y, intact r -> 0 <= pos -> stop <= r_avail r -> pos <= stop ->
  ParseBlockGroup_loop fuel r pos stop d = Some (Val (inr y)) -> fst y = stop ->
  forall fuel' lo prev next dur bpos bsize, (fuel <= fuel')%nat -> lo <= pos ->
  (bpos < 0 \/ (lo <= bpos /\ 0 <= bsize /\ bpos + bsize <= pos)) ->
  exists x, CreateBlockGroup_loop fuel' r pos stop prev next dur bpos bsize = Some (Val x) /\
    match x with inl st => st < 0
    | inr (p, _, _, _, bpos', bsize') => bpos' < 0 \/ (lo <= bpos' /\ 0 <= bsize' /\ bpos' + bsize' <= stop) end.
Proof.
  induction fuel; intros r pos stop d y HI Hp Hst Hps HP Hy fuel' lo prev next dur bpos bsize Hf Hlo Hb; [discriminate|].
  destruct fuel' as [|fuel']; [lia|]. cbn [ParseBlockGroup_loop] in HP. cbn [CreateBlockGroup_loop].
  unfold E_FILE_FORMAT_INVALID in *.
  destruct (Z.geb_spec pos stop).
  { eexists; split; [reflexivity|]. cbn. lia. }
  destruct (read_id_field r pos stop) as [st|[id len]] eqn:E1; [discriminate|].
  destruct (id_field_range _ _ _ _ _ HI E1 Hp) as (L1 & Hid & A1 & ->).
  destruct ((id <? 0) || (pos + len >? stop)); [eexists; split; [reflexivity|]; cbv beta iota; lia|].
  destruct (id =? 0); [discriminate|]. cbv zeta in *.
  destruct (read_uint_field r (pos + len) stop) as [st|[size l2]] eqn:E2; [discriminate|].
  destruct (uint_field_range _ _ _ _ _ HI E2 ltac:(lia)) as (L2 & Hv & A2 & ->).
  destruct (Z.gtb_spec (pos + len + l2) stop); [discriminate|].
  replace ((size <? 0) || false) with false by lia.
  assert (HG : exists fuel d', ParseBlockGroup_loop fuel r (pos + len + l2 + size) stop d' = Some (Val (inr y)) /\ (S fuel <= S fuel')%nat /\ pos + len + l2 + size <= stop /\
    forall fuel' lo prev next dur bpos bsize, (fuel <= fuel')%nat -> lo <= pos + len + l2 + size ->
      (bpos < 0 \/ (lo <= bpos /\ 0 <= bsize /\ bpos + bsize <= pos + len + l2 + size)) ->
      exists x, CreateBlockGroup_loop fuel' r (pos + len + l2 + size) stop prev next dur bpos bsize = Some (Val x) /\
      match x with inl st => st < 0
      | inr (p, _, _, _, bpos', bsize') => bpos' < 0 \/ (lo <= bpos' /\ 0 <= bsize' /\ bpos' + bsize' <= stop) end).
  { assert (Step : forall d', ParseBlockGroup_loop fuel r (pos + len + l2 + size) stop d' = Some (Val (inr y)) -> pos + len + l2 + size <= stop ->
      exists fuel d', ParseBlockGroup_loop fuel r (pos + len + l2 + size) stop d' = Some (Val (inr y)) /\ (S fuel <= S fuel')%nat /\ pos + len + l2 + size <= stop /\
      forall fuel' lo prev next dur bpos bsize, (fuel <= fuel')%nat -> lo <= pos + len + l2 + size ->
      (bpos < 0 \/ (lo <= bpos /\ 0 <= bsize /\ bpos + bsize <= pos + len + l2 + size)) ->
      exists x, CreateBlockGroup_loop fuel' r (pos + len + l2 + size) stop prev next dur bpos bsize = Some (Val x) /\
      match x with inl st => st < 0
      | inr (p, _, _, _, bpos', bsize') => bpos' < 0 \/ (lo <= bpos' /\ 0 <= bsize' /\ bpos' + bsize' <= stop) end).
    { intros d' HP' Hle. exists fuel, d'. split; [exact HP'|]. split; [lia|]. split; [lia|]. intros.
      apply (IHfuel r (pos + len + l2 + size) stop d' y); auto; lia. }
    destruct (Z.eqb_spec size 0).
    { subst size. rewrite Z.add_0_r in *. eapply Step; eauto. }
    destruct (size =? unknown_size l2); [discriminate|].
    destruct (id =? kMkvBlock).
    { destruct (Z.gtb_spec (pos + len + l2 + size) stop); [discriminate|].
      destruct (check_block r (pos + len + l2) (pos + len + l2 + size) >? 0); [discriminate|].
      destruct (check_block r (pos + len + l2) (pos + len + l2 + size) <? 0); [discriminate|]. eapply Step; eauto; lia. }
    destruct (id =? kMkvDiscardPadding).
    { destruct (UnserializeInt r (pos + len + l2) size) as [[st v]|]; [|discriminate]. destruct (st <? 0); [discriminate|].
      destruct (Z.gtb_spec (pos + len + l2 + size) stop); [discriminate|]. eapply Step; eauto; lia. }
    destruct (Z.gtb_spec (pos + len + l2 + size) stop); [discriminate|]. eapply Step; eauto; lia. }
  destruct HG as (fu & d' & _ & Hfu & Hle & HG).
  replace (pos + len + l2 + size >? stop) with false by lia.
  destruct (id =? kMkvBlock).
  { destruct (Z.ltb_spec bpos 0); apply HG; lia. }
  destruct (id =? kMkvBlockDuration).
  { destruct (size >? 8); [eexists; split; [reflexivity|]; cbv beta iota; lia|].
    destruct (UnserializeUInt_val r (pos + len + l2) size HI) as [v ->].
    destruct (v <? 0); [eexists; split; [reflexivity|]; cbv beta iota; lia|]. apply HG; lia. }
  destruct (id =? kMkvReferenceBlock).
  { destruct ((size >? 8) || (size <=? 0)) eqn:E; [eexists; split; [reflexivity|]; cbv beta iota; lia|].
    destruct (UnserializeInt_val r (pos + len + l2) size HI) as (st & v & -> & _ & Hz). rewrite Hz by lia. cbn [negb Z.eqb].
    destruct (v <=? 0); apply HG; lia. }
  apply HG; lia.
Qed.

Lemma entries_within_app : forall es lo hi e hi', entries_within lo hi es -> hi <= en_start e ->
  (exists p, en_start e + 4 <= p /\ tiles p (en_start e + en_size e) (map (fun f => (bf_pos f, bf_len f)) (bl_frames (en_block e)))) ->
  1 <= bl_track (en_block e) -> en_start e + en_size e <= hi' -> entries_within lo hi' (es ++ [e]).
Proof.
  induction es as [|a es IH]; intros lo hi e hi' H Hs Hp Ht Hh; cbn [entries_within app] in *.
  - split; [lia|]. auto.
  - destruct H as (H1 & H2 & H3 & H4). split; [auto|]. split; [auto|]. split; [auto|]. eapply IH; eauto.
Qed.
Lemma entries_within_le : forall es lo hi hi', entries_within lo hi es -> hi <= hi' -> entries_within lo hi' es.
Proof.
  induction es as [|a es IH]; intros lo hi hi' H Hh; cbn [entries_within] in *; [lia|].
  destruct H as (H1 & H2 & H3 & H4). split; [auto|]. split; [auto|]. split; [auto|]. eapply IH; eauto.
Qed.

Lemma Parse_loop_total : forall fuel r start esize stop pos, intact r -> 0 <= pos -> start + 1 <= pos -> enough r pos fuel ->
  (stop < 0 \/ pos <= stop) -> (esize < 0 <-> stop < 0) -> (0 <= esize -> stop = start + esize) ->
  exists x, Parse_loop fuel r start esize stop pos = Some x /\
    match x with
    | PN_status st => st < 0
    | PN_done p es => pos <= p /\ (stop < 0 \/ (es = esize /\ p <= stop)) /\ p <= start + es /\ 1 <= es
    | PN_block _ p sz => pos + 2 <= p /\ 1 <= sz /\ (stop < 0 \/ p + sz <= stop) /\ p <= r_avail r
    end.
Proof.
  induction fuel; intros r start esize stop pos HI Hp Hs HE Hst Hes Heq; [unfold enough in HE; lia|]. cbn [Parse_loop].
  unfold E_FILE_FORMAT_INVALID, E_BUFFER_NOT_FULL.
  destruct ((stop >=? 0) && (pos >=? stop)) eqn:B1; [eexists; split; [reflexivity|]; cbv beta iota; lia|].
  destruct ((r_total r >=? 0) && (pos >=? r_total r)).
  { eexists; split; [reflexivity|]. destruct (Z.ltb_spec esize 0); lia. }
  destruct (read_id_field r pos stop) as [st|[id len]] eqn:E1.
  { eexists; split; [reflexivity|]. destruct (field_len r pos stop) eqn:EF; [|lia]. eapply field_len_neg; eauto. }
  destruct (id_field_range _ _ _ _ _ HI E1 Hp) as (L1 & Hid & A1 & _).
  destruct ((id =? kMkvCluster) || (id =? kMkvCues)).
  { eexists; split; [reflexivity|]. destruct (Z.ltb_spec esize 0); lia. }
  cbv zeta.
  destruct (read_uint_field r (pos + len) stop) as [st|[size l2]] eqn:E2.
  { eexists; split; [reflexivity|]. eapply uint_field_neg; [exact HI| |exact E2]; lia. }
  destruct (uint_field_range _ _ _ _ _ HI E2 ltac:(lia)) as (L2 & Hv & A2 & _).
  destruct (size =? unknown_size l2); [eexists; split; [reflexivity|]; cbv beta iota; lia|].
  destruct ((stop >=? 0) && (pos + len + l2 >? stop)) eqn:B2; [eexists; split; [reflexivity|]; cbv beta iota; lia|].
  assert (Go : forall p, pos + 2 <= p -> (stop < 0 \/ p <= stop) -> exists x, Parse_loop fuel r start esize stop p = Some x /\
    match x with
    | PN_status st => st < 0
    | PN_done p es => pos <= p /\ (stop < 0 \/ (es = esize /\ p <= stop)) /\ p <= start + es /\ 1 <= es
    | PN_block _ p sz => pos + 2 <= p /\ 1 <= sz /\ (stop < 0 \/ p + sz <= stop) /\ p <= r_avail r
    end).
  { intros p Hpp Hps. destruct (IHfuel r start esize stop p HI ltac:(lia) ltac:(lia)) as (x & -> & Hx); auto; [unfold enough in *; lia|].
    exists x. split; auto. destruct x; auto; lia. }
  destruct (Z.eqb_spec size 0); [apply Go; lia|].
  destruct ((stop >=? 0) && (pos + len + l2 + size >? stop)) eqn:B3.
  { destruct ((id =? kMkvBlockGroup) || (id =? kMkvSimpleBlock)); eexists; (split; [reflexivity|]); cbv beta iota; lia. }
  destruct ((stop <? 0) && (r_total r >=? 0) && (pos + len + l2 + size >? r_total r)) eqn:B4.
  { eexists; split; [reflexivity|]. destruct HI as (_ & [HT|HT] & _); lia. }
  destruct ((stop <? 0) && (pos + len + l2 + size >? r_avail r)); [eexists; split; [reflexivity|]; cbv beta iota; lia|].
  destruct (id =? kMkvBlockGroup); [eexists; split; [reflexivity|]; cbv beta iota; lia|].
  destruct (id =? kMkvSimpleBlock); [eexists; split; [reflexivity|]; cbv beta iota; lia|]. apply Go; lia.
Qed.

Lemma block_entry_ok : forall r st sz b, intact r -> 0 <= st -> Block_Parse r st sz = Val (Some b) ->
  1 <= bl_track b /\ exists p, st + 4 <= p /\ tiles p (st + sz) (map (fun f => (bf_pos f, bf_len f)) (bl_frames b)).
Proof.
  intros r st sz b [Hwf _] Hst E. destruct (Block_tiles r st sz b Hwf Hst E) as (H1 & _ & _ & H2). auto.
Qed.

Definition parse_result (r : reader) (c : cluster) (st : Z) (c' : cluster) : Prop :=
  cl_inv r c' /\ st <= 1 /\ cl_start c' = cl_start c /\
  (st = 0 -> exists e, entries c' = entries c ++ [e] /\ cl_pos c < cl_pos c' /\ cl_pos c < en_start e <= r_avail r) /\
  (st <> 0 -> entries c' = entries c).

Lemma Cluster_Parse_total : forall r c, intact r -> cl_inv r c ->
  exists st c', Cluster_Parse r c = Some (Val (st, c')) /\ parse_result r c st c'.
Proof.
  intros r c0 HI Hc0. unfold Cluster_Parse.
  destruct (Cluster_Load_total r c0 HI Hc0) as (st & c & -> & Hc & Hst & Hs0 & He0 & Htc & Hold).
  assert (HE : entries c = entries c0) by (unfold entries; rewrite He0; reflexivity).
  assert (Hp0 : 0 <= cl_timecode c -> cl_pos c0 <= cl_pos c).
  { intros Ht. destruct (Z.ltb_spec (cl_timecode c0) 0) as [Hn|Hn]; [|destruct (Hold Hn) as [-> _]; lia].
    destruct Hc as (_ & Hi). replace (cl_timecode c <? 0) with false in Hi by lia.
    destruct Hc0 as (_ & Hi0). replace (cl_timecode c0 <? 0) with true in Hi0 by lia. lia. }
  assert (Fail : forall s c', cl_inv r c' -> cl_start c' = cl_start c -> entries c' = entries c -> s <> 0 -> s <= 1 -> exists st c'', Some (Val (s, c')) = Some (Val (st, c'')) /\ parse_result r c0 st c'').
  { intros s c' H1 H2 H3 H4 H5. exists s, c'. split; auto. unfold parse_result. rewrite H2, H3. split; [exact H1|]. split; [lia|]. split; [congruence|]. split; congruence. }
  unfold E_PARSE_FAILED, E_FILE_FORMAT_INVALID.
  destruct (Z.ltb_spec st 0); [apply Fail; auto; lia|]. assert (st = 0) by lia. subst st. specialize (Htc eq_refl).
  pose proof Hc as (Hs & Hi). replace (cl_timecode c <? 0) with false in Hi by lia. destruct Hi as (Hpos & Hes & Hent & Hav).
  specialize (Hp0 Htc).
  destruct ((cl_pos c <? cl_start c) || (cl_timecode c <? 0)); [apply Fail; auto; lia|]. cbv zeta.
  set (stop := if cl_esize c <? 0 then -1 else cl_start c + cl_esize c).
  assert (Hstop : (cl_esize c = -1 /\ stop = -1) \/ (0 <= cl_esize c /\ stop = cl_start c + cl_esize c /\ cl_pos c <= stop)).
  { unfold stop. destruct Hes as [Hes|Hes]; [left; rewrite Hes; auto|right; replace (cl_esize c <? 0) with false by lia; lia]. }
  destruct ((stop >=? 0) && (cl_pos c >=? stop)); [apply Fail; auto; lia|].
  destruct ((r_total r >=? 0) && (r_avail r >? r_total r)) eqn:ET; [apply Fail; auto; lia|].
  destruct (Parse_loop_total (loop_fuel r (cl_pos c)) r (cl_start c) (cl_esize c) stop (cl_pos c) HI ltac:(lia) ltac:(lia) (loop_fuel_enough _ _) ltac:(lia) ltac:(lia) ltac:(lia)) as (x & -> & Hx).
  assert (Inv_entries : forall es, es = entries c -> cl_inv r (set_entries c es)).
  { intros es ->. unfold cl_inv. cbn [set_entries cl_start cl_entries cl_timecode cl_pos cl_esize]. split; [auto|].
    replace (cl_timecode c <? 0) with false by lia. auto. }
  assert (Inv_new : forall grp b bst bsz disc pv nx du p, cl_pos c <= bst <= r_avail r -> bst + bsz <= p -> cl_pos c < p -> (stop < 0 \/ p <= stop) ->
     (1 <= bl_track b /\ exists q, bst + 4 <= q /\ tiles q (bst + bsz) (map (fun f => (bf_pos f, bf_len f)) (bl_frames b))) ->
     cl_inv r (set_pos (set_entries c (entries c ++ [mkEntry grp b bst bsz disc pv nx du])) p)).
  { intros grp b bst bsz disc pv nx du p H1 H2 H3 H4 (H5 & H6). unfold cl_inv. cbn [set_pos set_entries cl_start cl_entries cl_timecode cl_pos cl_esize]. split; [auto|].
    replace (cl_timecode c <? 0) with false by lia. split; [lia|]. split; [lia|]. unfold entries at 1 3. cbn [cl_entries]. split.
    - apply (entries_within_app _ _ (cl_pos c)); auto. cbn; lia.
    - apply Forall_app. split; [exact Hav|]. constructor; [cbn; lia|constructor]. }
  destruct x as [st|p es|group p sz].
  - apply Fail; auto; lia.
  - destruct Hx as (Hp & Hstp & Hpe & He1). replace (es <? 1) with false by lia.
    replace ((stop >=? 0) && (p >? stop)) with false by lia. cbn [set_pos set_esize cl_entries cl_start cl_pos cl_timecode cl_esize].
    assert (HI2 : cl_inv r (set_pos (set_esize c es) p)).
    { unfold cl_inv. cbn [set_pos set_esize cl_start cl_entries cl_timecode cl_pos cl_esize]. split; [auto|].
      replace (cl_timecode c <? 0) with false by lia. split; [lia|]. split; [right; lia|]. split; [|exact Hav].
      apply (entries_within_le _ _ (cl_pos c)); auto. }
    destruct (rev _) as [|e l]; [apply Fail; auto; lia|].
    destruct ((r_total r >=? 0) && (en_start e >? r_total r)); [apply Fail; auto; lia|].
    destruct ((stop >=? 0) && (en_start e + en_size e >? stop)); [apply Fail; auto; lia|].
    destruct ((r_total r >=? 0) && (en_start e + en_size e >? r_total r)); apply Fail; auto; lia.
  - destruct Hx as (Hp & Hsz & Hstp & Hpa). destruct group.
    + unfold ParseBlockGroup. rewrite ET. cbv zeta. unfold E_FILE_FORMAT_INVALID, E_BUFFER_NOT_FULL.
      destruct ((r_total r >=? 0) && (p + sz >? r_total r)); [apply Fail; auto; lia|].
      destruct (Z.gtb_spec (p + sz) (r_avail r)); [apply Fail; auto; lia|].
      destruct (PBG_loop_total (loop_fuel r p) r p (p + sz) 0 HI ltac:(lia) (loop_fuel_enough _ _)) as (x & EP & Hx). rewrite EP.
      destruct x as [st|[pos' disc]]; [apply Fail; auto; lia|].
      destruct (Z.eqb_spec pos' (p + sz)); cbn [negb]; [|apply Fail; auto; lia]. subst pos'.
      unfold CreateBlockGroup. cbv zeta. fold (entries c).
      destruct (CBG_after_PBG _ r p (p + sz) _ _ HI ltac:(lia) ltac:(lia) ltac:(lia) EP eq_refl (loop_fuel r p) p 1 0 (-1) (-1) (-1) ltac:(lia) ltac:(lia) ltac:(lia)) as (x & -> & Hx2).
      destruct x as [st|[[[[[q pv] nx] du] bp] bs]].
      { replace (negb (st =? 0)) with true by lia. apply Fail; auto; lia. }
      unfold E_FILE_FORMAT_INVALID. destruct (Z.ltb_spec bp 0); [cbn [negb Z.eqb]; apply Fail; auto; lia|].
      destruct (negb (q =? p + sz)); [apply Fail; auto; lia|].
      destruct (Block_Parse_val r bp bs HI) as [[b|] EB]; rewrite EB; [|apply Fail; auto; lia].
      cbn [negb Z.eqb]. eexists 0, _. split; [reflexivity|].
      destruct (block_entry_ok r bp bs b HI ltac:(lia) EB) as (Hb1 & q' & Hb2 & Hb3).
      unfold parse_result. split; [apply Inv_new; auto; try lia; split; [exact Hb1|exists q'; auto]|]. split; [lia|]. split; [auto|]. split; [|congruence]. intros _. eexists. split; [unfold entries at 1; cbn [cl_entries set_pos set_entries]; rewrite HE; reflexivity|]. cbn [cl_pos set_pos en_start]. lia.
    + unfold ParseSimpleBlock. rewrite ET. cbv zeta.
      pose proof (check_block_nonpos r p (p + sz) HI ltac:(lia)).
      replace (check_block r p (p + sz) >? 0) with false by lia.
      destruct (Z.ltb_spec (check_block r p (p + sz)) 0); [apply Fail; auto; lia|].
      unfold CreateSimpleBlock. fold (entries c).
      destruct (Block_Parse_val r p sz HI) as [[b|] EB]; rewrite EB; unfold E_FILE_FORMAT_INVALID; cbn [negb Z.eqb]; [|apply Fail; auto; lia].
      eexists 0, _. split; [reflexivity|].
      unfold parse_result. split; [apply Inv_new; auto; try lia; eapply block_entry_ok; eauto; lia|]. split; [lia|]. split; [auto|]. split; [|congruence]. intros _. eexists. split; [unfold entries at 1; cbn [cl_entries set_pos set_entries]; rewrite HE; reflexivity|]. cbn [cl_pos set_pos en_start]. lia.
Qed.

Lemma reachable_inv : forall r c, intact r -> reachable r c -> cl_inv r c.
Proof.
  intros r c HI H. induction H.
  - unfold cl_inv, new_cluster. cbn. auto.
  - destruct (Cluster_Load_total r c HI IHreachable) as (st' & c'' & E & H1 & _). rewrite E in H0. congruence.
  - destruct (Cluster_Parse_total r c HI IHreachable) as (st' & c'' & E & H1 & _). rewrite E in H0. congruence.
Qed.

Theorem parse_safe : forall r c, intact r -> reachable r c ->
  exists st c', Cluster_Parse r c = Some (Val (st, c')) /\ st <= 1 /\
    (st = 0 -> exists e, entries c' = entries c ++ [e]) /\ (st <> 0 -> entries c' = entries c).
Proof.
  intros r c HI H. destruct (Cluster_Parse_total r c HI (reachable_inv r c HI H)) as (st & c' & E & H1 & H2 & H3 & H4 & H5).
  exists st, c'. repeat split; auto. intros Hs. destruct (H4 Hs) as (e & He & _). eauto.
Qed.

Lemma entries_lo : forall es lo hi, entries_within lo hi es -> lo + zlen es <= hi.
Proof.
  induction es as [|e es IH]; intros lo hi H; cbn [entries_within] in H; [unfold zlen; cbn; lia|].
  destruct H as (H1 & (p & Hp & Ht) & _ & H2). apply IH in H2. rewrite zlen_cons.
  assert (p <= en_start e + en_size e).
  { clear - Ht. revert Ht. generalize (map (fun f => (bf_pos f, bf_len f)) (bl_frames (en_block e))) as l. generalize (en_start e + en_size e) as q.
    intros q l. revert p. induction l as [|[a b] l IH]; intros p H; cbn [tiles] in H; [lia|]. destruct H as (-> & Hb & H). apply IH in H. lia. }
  lia.
Qed.

Lemma entries_starts : forall es lo hi, entries_within lo hi es -> forall e, In e es -> lo <= en_start e.
Proof.
  induction es as [|x es IH]; intros lo hi H e Hin; [destruct Hin|]. cbn [entries_within] in H.
  destruct H as (H1 & (p & Hp & Ht) & _ & H2). destruct Hin as [->|Hin]; [lia|].
  pose proof (IH _ _ H2 e Hin).
  assert (p <= en_start x + en_size x).
  { clear - Ht. revert Ht. generalize (map (fun f => (bf_pos f, bf_len f)) (bl_frames (en_block x))) as l. generalize (en_start x + en_size x) as q.
    intros q l. revert p. induction l as [|[a b] l IH]; intros p H; cbn [tiles] in H; [lia|]. destruct H as (-> & Hb & H). apply IH in H. lia. }
  lia.
Qed.

Theorem reachable_entries : forall r c, intact r -> reachable r c ->
  entries_within (cl_start c) (cl_pos c) (entries c) /\
  (cl_esize c = -1 \/ cl_pos c <= cl_start c + cl_esize c).
Proof.
  intros r c HI H. pose proof (reachable_inv r c HI H) as (Hs & Hi). destruct (Z.ltb_spec (cl_timecode c) 0).
  - destruct Hi as (_ & Hp & He & Hn). unfold entries. rewrite Hn. cbn. lia.
  - destruct Hi as (_ & He & Hw & _). split; auto.
Qed.

Lemma entries_count_bound : forall es lo hi a, entries_within lo hi es -> Forall (fun e => en_start e <= a) es ->
  zlen es <= Z.max 0 (a - lo + 1).
Proof.
  induction es as [|x es IH]; intros lo hi a H HF; [unfold zlen; cbn; lia|]. cbn [entries_within] in H.
  destruct H as (H1 & (p & Hp & Ht) & _ & H2). inversion HF; subst.
  assert (p <= en_start x + en_size x).
  { clear - Ht. revert Ht. generalize (map (fun f => (bf_pos f, bf_len f)) (bl_frames (en_block x))) as l. generalize (en_start x + en_size x) as q.
    intros q l. revert p. induction l as [|[a b] l IH]; intros p H; cbn [tiles] in H; [lia|]. destruct H as (-> & Hb & H). apply IH in H. lia. }
  specialize (IH _ _ _ H2 H4). rewrite zlen_cons. lia.
Qed.

Theorem reachable_count : forall r c, intact r -> reachable r c ->
  zlen (entries c) <= Z.max 0 (r_avail r - cl_start c + 1).
Proof.
  intros r c HI H. pose proof (reachable_inv r c HI H) as (Hs & Hi). destruct (Z.ltb_spec (cl_timecode c) 0).
  - destruct Hi as (_ & Hp & He & Hn). unfold entries. rewrite Hn. unfold zlen; cbn. lia.
  - destruct Hi as (_ & He & Hw & Ha). eapply entries_count_bound; eauto.
Qed.
