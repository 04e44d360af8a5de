(* Proofs about the VP9 CodecPrivate and header parsers. *)
From Coq Require Import ZifyBool ZifyNat.
From Verif Require Import Base MVtt MVp9 Vp9Spec PVtt.

(* ---------- CodecPrivate ---------- *)
Lemma s32_ok : forall v, -2147483648 <= v <= 2147483647 -> s32 v = Val v.
Proof. intros v H. unfold s32. replace ((- 2 ^ 31 <=? v) && (v <? 2 ^ 31)) with true by lia. reflexivity. Qed.
Lemma frame_at_app : forall p x r, frame_at (p ++ x :: r) (zlen p) = Val x.
Proof.
  intros p x r. unfold frame_at. rewrite zlen_app, zlen_cons. pose proof (zlen_nonneg p). pose proof (zlen_nonneg r).
  replace ((0 <=? zlen p) && (zlen p <? zlen p + (1 + zlen r))) with true by lia. unfold zlen. rewrite Nat2Z.id, app_nth2 by lia. rewrite Nat.sub_diag. reflexivity.
Qed.

Definition legalb (id v : Z) : bool :=
  if id =? 1 then (0 <=? v) && (v <=? 3) else if id =? 2 then existsb (fun l => v =? l) levels
  else if id =? 3 then (v =? 8) || (v =? 10) || (v =? 12) else (id =? 4) && ((v =? 0) || (v =? 1) || (v =? 2) || (v =? 3)).
Lemma legalb_spec : forall id v, legalb id v = true <-> legal id v.
Proof.
  intros id v. unfold legalb, legal, levels. cbn [existsb In]. destruct (id =? 1) eqn:E1; [lia|]. destruct (id =? 2) eqn:E2; [lia|]. destruct (id =? 3) eqn:E3; lia.
Qed.
Definition set_feature (f : features) (id v : Z) : features :=
  if id =? 1 then mkF v (f_level f) (f_depth f) (f_chroma f) else if id =? 2 then mkF (f_profile f) v (f_depth f) (f_chroma f)
  else if id =? 3 then mkF (f_profile f) (f_level f) v (f_chroma f) else mkF (f_profile f) (f_level f) (f_depth f) v.
Lemma feature_set : forall f id v j, 1 <= id <= 4 -> 1 <= j <= 4 -> feature (set_feature f id v) j = if j =? id then v else feature f j.
Proof.
  intros f id v j H H'. unfold feature, set_feature. assert (id = 1 \/ id = 2 \/ id = 3 \/ id = 4) as [->|[->|[->| ->]]] by lia; assert (j = 1 \/ j = 2 \/ j = 3 \/ j = 4) as [->|[->|[->| ->]]] by lia; reflexivity.
Qed.
Lemma one_feature_spec : forall id len v f, one_feature id len v f =
  if negb (len =? 1) || negb ((1 <=? id) && (id <=? 4)) then (false, f)
  else if legalb id v then (if conflict (feature f id) v then (false, f) else (true, set_feature f id v))
  else if (id =? 2) && negb (f_level f =? INT_MAX) then (true, f) else (false, f).
Proof.
  intros id len v f. unfold one_feature, legalb, feature, set_feature. destruct (len =? 1); cbn [negb orb]; [|reflexivity].
  destruct (id =? 1) eqn:E1; [assert (id = 1) by lia; subst; cbn [Z.leb Z.compare Z.eqb Pos.compare Pos.compare_cont andb negb Pos.eqb]; destruct (v <? 0) eqn:A; destruct (v >? 3) eqn:C; cbn [orb];
    destruct (0 <=? v) eqn:D; destruct (v <=? 3) eqn:G; try lia; reflexivity|].
  destruct (id =? 2) eqn:E2; [assert (id = 2) by lia; subst; cbn [Z.leb Z.compare Z.eqb Pos.compare Pos.compare_cont andb negb]; destruct (existsb _ _); [reflexivity|]; destruct (f_level f =? INT_MAX); reflexivity|].
  destruct (id =? 3) eqn:E3; [assert (id = 3) by lia; subst; cbn [Z.leb Z.compare Z.eqb Pos.compare Pos.compare_cont andb negb]; destruct (v =? 8), (v =? 10), (v =? 12); reflexivity|].
  destruct (id =? 4) eqn:E4; [assert (id = 4) by lia; subst; cbn [Z.leb Z.compare Z.eqb Pos.compare Pos.compare_cont andb negb]; destruct (v =? 0), (v =? 1), (v =? 2), (v =? 3); reflexivity|].
  replace ((1 <=? id) && (id <=? 4)) with false by lia. reflexivity.
Qed.

(* what the features read so far say *)
Record priv_inv (l : list (Z * Z)) (f : features) : Prop := {
  pi_entries : forall a id v b, l = a ++ (id, v) :: b -> legal id v \/ id = 2 /\ exists w, In (2, w) a /\ legal 2 w;
  pi_same : forall id v w, In (id, v) l -> In (id, w) l -> legal id v -> legal id w -> v = w;
  pi_set : forall id, 1 <= id <= 4 -> (forall v, In (id, v) l -> legal id v -> feature f id = v) /\ ((forall v, In (id, v) l -> ~ legal id v) -> feature f id = INT_MAX) }.

Lemma legal_id : forall id v, legal id v -> 1 <= id <= 4 /\ v <> INT_MAX.
Proof. intros id v. unfold legal, INT_MAX. cbn [In]. lia. Qed.
Lemma legal_dec : forall id v, {legal id v} + {~ legal id v}.
Proof. intros id v. destruct (legalb id v) eqn:E; [left; apply legalb_spec; exact E|right; intros H; apply legalb_spec in H; congruence]. Qed.
Lemma exists_legal : forall l id, (exists v, In (id, v) l /\ legal id v) \/ (forall v, In (id, v) l -> ~ legal id v).
Proof.
  induction l as [|[j w] l IH]; intros id; [right; intros v []|]. destruct (IH id) as [(v & H1 & H2)|H]; [left; exists v; split; [right; exact H1|exact H2]|].
  destruct (Z.eq_dec j id) as [->|Hne].
  - destruct (legal_dec id w) as [HL|HL]; [left; exists w; split; [left; reflexivity|exact HL]|]. right. intros v [E|E]; [injection E as ->; exact HL|exact (H v E)].
  - right. intros v [E|E]; [congruence|exact (H v E)].
Qed.
Lemma snoc_inv : forall (A : Type) (l a b : list A) x y, l ++ [x] = a ++ y :: b -> (b = [] /\ l = a /\ x = y) \/ (exists b', b = b' ++ [x] /\ l = a ++ y :: b').
Proof.
  intros A l a b x y H.
  destruct b as [|c b].
  - left. apply app_inj_tail in H. destruct H. auto.
  - right. destruct (@exists_last A (c :: b) ltac:(discriminate)) as (b' & z & E). rewrite E in *. exists b'. replace (a ++ y :: b' ++ [z]) with ((a ++ y :: b') ++ [z]) in H by (rewrite <- app_assoc; reflexivity).
    apply app_inj_tail in H. destruct H as [-> ->]. auto.
Qed.
Lemma priv_step : forall l f id len v f', priv_inv l f -> one_feature id len v f = (true, f') -> len = 1 /\ priv_inv (l ++ [(id, v)]) f'.
Proof.
  intros l f id len v f' [H1 H2 H3] E. rewrite one_feature_spec in E. destruct (negb (len =? 1) || negb ((1 <=? id) && (id <=? 4))) eqn:E0; [discriminate|]. assert (len = 1 /\ 1 <= id <= 4) as [Hl Hid] by lia. split; [exact Hl|].
  destruct (legalb id v) eqn:EL.
  - apply legalb_spec in EL. destruct (conflict (feature f id) v) eqn:EC; [discriminate|]. injection E as <-. destruct (H3 id Hid) as [H3a H3b].
    assert (Hv : forall w, In (id, w) l -> legal id w -> w = v). { intros w Hw HLw. pose proof (H3a w Hw HLw) as Hf. unfold conflict in EC. pose proof (legal_id _ _ HLw). rewrite Hf in EC. lia. }
    constructor.
    + intros a j w b HE. destruct (snoc_inv _ _ _ _ _ _ HE) as [(-> & -> & EE)|(b' & -> & ->)]; [injection EE as <- <-; left; exact EL|]. exact (H1 a j w b' eq_refl).
    + intros j x y Hx Hy Lx Ly. rewrite in_app_iff in Hx, Hy. cbn [In] in Hx, Hy. destruct Hx as [Hx|[Hx|[]]], Hy as [Hy|[Hy|[]]].
      * exact (H2 j x y Hx Hy Lx Ly).
      * injection Hy as E1 E2. subst j y. exact (Hv x Hx Lx).
      * injection Hx as E1 E2. subst j x. symmetry. exact (Hv y Hy Ly).
      * congruence.
    + intros j Hj. rewrite feature_set by assumption. destruct (j =? id) eqn:Ej.
      * assert (j = id) by lia. subst j. split; [intros w Hw Lw; rewrite in_app_iff in Hw; cbn [In] in Hw; destruct Hw as [Hw|[Hw|[]]]; [symmetry; exact (Hv w Hw Lw)|congruence]|].
        intros HN. exfalso. apply (HN v); [apply in_or_app; right; left; reflexivity|exact EL].
      * destruct (H3 j Hj) as [A B]. split; [intros w Hw Lw; rewrite in_app_iff in Hw; cbn [In] in Hw; destruct Hw as [Hw|[Hw|[]]]; [exact (A w Hw Lw)|injection Hw as -> ->; lia]|].
        intros HN. apply B. intros w Hw. apply HN. apply in_or_app. left. exact Hw.
  - assert (NL : ~ legal id v) by (intros HL; apply legalb_spec in HL; congruence). destruct ((id =? 2) && negb (f_level f =? INT_MAX)) eqn:E2; [|discriminate]. injection E as <-. assert (id = 2) by lia. subst id.
    assert (Hw : exists w, In (2, w) l /\ legal 2 w). { destruct (exists_legal l 2) as [Hw|HN]; [exact Hw|]. destruct (H3 2 Hid) as [_ B]. specialize (B HN). change (feature f 2) with (f_level f) in B. lia. }
    constructor.
    + intros a j w b HE. destruct (snoc_inv _ _ _ _ _ _ HE) as [(-> & -> & EE)|(b' & -> & ->)]; [injection EE as <- <-; right; split; [reflexivity|exact Hw]|]. exact (H1 a j w b' eq_refl).
    + intros j x y Hx Hy Lx Ly. rewrite in_app_iff in Hx, Hy. cbn [In] in Hx, Hy. destruct Hx as [Hx|[Hx|[]]], Hy as [Hy|[Hy|[]]]; try (injection Hx as K1 K2; subst j x; contradiction); try (injection Hy as K1 K2; subst j y; contradiction). exact (H2 j x y Hx Hy Lx Ly).
    + intros j Hj. destruct (H3 j Hj) as [A B]. split; [intros w Hw' Lw; rewrite in_app_iff in Hw'; cbn [In] in Hw'; destruct Hw' as [Hw'|[Hw'|[]]]; [exact (A w Hw' Lw)|injection Hw' as <- <-; contradiction]|].
      intros HN. apply B. intros w Hw'. apply HN. apply in_or_app. left. exact Hw'.
Qed.
Lemma priv_none : priv_inv [] no_features.
Proof.
  constructor; [intros [|] ? ? ?; discriminate|intros ? ? ? []|]. intros id H. split; [intros v []|]. intros _. unfold feature. assert (id = 1 \/ id = 2 \/ id = 3 \/ id = 4) as [->|[->|[->| ->]]] by lia; reflexivity.
Qed.
Lemma three : forall l : list Z, 3 <= zlen l -> exists a b c r, l = a :: b :: c :: r.
Proof. intros [|a [|b [|c r]]] H; try (cbn in H; lia). exists a, b, c, r. reflexivity. Qed.
Lemma private_bytes_snoc : forall l id v, private_bytes (l ++ [(id, v)]) = private_bytes l ++ [id; 1; v].
Proof. intros. unfold private_bytes. rewrite flat_map_app. reflexivity. Qed.

Lemma private_bytes_len : forall l, zlen (private_bytes l) = 3 * zlen l.
Proof. induction l as [|x l IH]; [reflexivity|]. cbn [private_bytes flat_map app]. rewrite !zlen_cons. fold (private_bytes l). lia. Qed.

(* one turn of the loop *)
Lemma private_turn : forall fuel pre id len v r f, private_loop (S fuel) (pre ++ id :: len :: v :: r) (zlen pre) f =
  let '(ok, f') := one_feature id len v f in
  if negb ok then Val (false, f') else
  olet next := s32 (zlen pre + 6) in
  if 3 <=? zlen r then private_loop fuel (pre ++ id :: len :: v :: r) (zlen (pre ++ [id; len; v])) f' else Val (true, f').
Proof.
  intros. cbn [private_loop]. rewrite frame_at_app. cbn [obind].
  replace (pre ++ id :: len :: v :: r) with ((pre ++ [id]) ++ len :: v :: r) at 1 by (rewrite <- app_assoc; reflexivity). replace (zlen pre + 1) with (zlen (pre ++ [id])) by (rewrite zlen_app; reflexivity). rewrite frame_at_app. cbn [obind].
  replace (pre ++ id :: len :: v :: r) with ((pre ++ [id; len]) ++ v :: r) at 1 by (rewrite <- app_assoc; reflexivity). replace (zlen pre + 2) with (zlen (pre ++ [id; len])) by (rewrite zlen_app; reflexivity). rewrite frame_at_app. cbn [obind].
  destruct (one_feature id len v f) as [ok f']. destruct ok; cbn [negb]; [|reflexivity]. replace (zlen pre + 3 + 3) with (zlen pre + 6) by lia. destruct (s32 (zlen pre + 6)) as [next|] eqn:En; cbn [obind]; [|reflexivity].
  assert (next = zlen pre + 6) by (unfold s32 in En; destruct (_ && _); [injection En as <-; reflexivity|discriminate]). subst next. rewrite !zlen_app. change (zlen [id; len; v]) with 3.
  replace (zlen pre + 6 <=? zlen pre + zlen (id :: len :: v :: r)) with (3 <=? zlen r) by (rewrite !zlen_cons; lia). reflexivity.
Qed.

Lemma private_inv_run : forall n fuel data l rest f, (length rest <= n)%nat -> (length rest < fuel)%nat -> data = private_bytes l ++ rest -> 3 <= zlen rest -> zlen data <= 2147483645 -> priv_inv l f ->
  exists ok f', private_loop fuel data (zlen (private_bytes l)) f = Val (ok, f') /\
    (ok = true -> exists l' rest', data = private_bytes l' ++ rest' /\ l' <> [] /\ zlen rest' < 3 /\ priv_inv l' f').
Proof.
  induction n as [|n IH]; intros fuel data l rest f Hn Hf -> Hr Hlen HI; [destruct rest; [cbn in Hr; lia|cbn in Hn; lia]|].
  destruct (three rest Hr) as (id & len & v & r & ->). cbn [length] in *. destruct fuel as [|fuel]; [lia|]. rewrite private_turn. destruct (one_feature id len v f) as [ok f'] eqn:E.
  destruct ok; cbn [negb]; [|exists false, f'; split; [reflexivity|discriminate]]. destruct (priv_step _ _ _ _ _ _ HI E) as [-> HI'].
  rewrite zlen_app, !zlen_cons in Hlen. pose proof (zlen_nonneg r). pose proof (zlen_nonneg (private_bytes l)). pose proof (private_bytes_len l).
  assert (ED : private_bytes l ++ id :: 1 :: v :: r = private_bytes (l ++ [(id, v)]) ++ r) by (rewrite private_bytes_snoc, <- app_assoc; reflexivity).
  rewrite s32_ok by lia. cbn [obind]. destruct (3 <=? zlen r) eqn:E3.
  - rewrite ED, <- private_bytes_snoc. apply (IH fuel _ (l ++ [(id, v)]) r f'); [lia|lia|reflexivity|lia| |exact HI'].
    rewrite <- ED, zlen_app, !zlen_cons. lia.
  - exists true, f'. split; [reflexivity|]. intros _. exists (l ++ [(id, v)]), r. split; [exact ED|]. split; [destruct l; discriminate|]. split; [lia|exact HI'].
Qed.
Lemma private_accepts : forall l2 l1 fuel rest f, l2 <> [] -> (length l2 < fuel)%nat -> zlen rest < 3 -> zlen (private_bytes (l1 ++ l2) ++ rest) <= 2147483645 -> priv_inv l1 f ->
  (forall id v, In (id, v) l2 -> legal id v) -> (forall id v w, In (id, v) (l1 ++ l2) -> In (id, w) (l1 ++ l2) -> legal id v -> legal id w -> v = w) ->
  exists f', private_loop fuel (private_bytes (l1 ++ l2) ++ rest) (zlen (private_bytes l1)) f = Val (true, f') /\ priv_inv (l1 ++ l2) f'.
Proof.
  induction l2 as [|[id v] l2 IH]; intros l1 fuel rest f Hne Hf Hr Hlen HI HL HC; [congruence|]. destruct fuel as [|fuel]; [cbn in Hf; lia|].
  assert (ED : private_bytes (l1 ++ (id, v) :: l2) ++ rest = private_bytes l1 ++ id :: 1 :: v :: private_bytes l2 ++ rest) by (unfold private_bytes; rewrite flat_map_app, <- app_assoc; reflexivity).
  assert (ES : l1 ++ (id, v) :: l2 = (l1 ++ [(id, v)]) ++ l2) by (rewrite <- app_assoc; reflexivity).
  assert (EO : exists f', one_feature id 1 v f = (true, f')).
  { rewrite one_feature_spec. assert (Lv : legal id v) by (apply HL; left; reflexivity). destruct (legal_id _ _ Lv) as [Hid _]. replace (negb (1 =? 1) || negb ((1 <=? id) && (id <=? 4))) with false by lia. rewrite (proj2 (legalb_spec id v) Lv).
    replace (conflict (feature f id) v) with false; [eexists; reflexivity|]. symmetry. unfold conflict. destruct (pi_set _ _ HI id Hid) as [A B].
    destruct (exists_legal l1 id) as [(w & Hw & Lw)|HN]; [|rewrite (B HN); lia]. rewrite (A w Hw Lw). assert (w = v) by (apply (HC id); [apply in_or_app; left; exact Hw|apply in_or_app; right; left; reflexivity|assumption..]). lia. }
  destruct EO as (f' & EO). destruct (priv_step _ _ _ _ _ _ HI EO) as [_ HI']. rewrite ED, private_turn, EO. cbn [negb].
  rewrite ED, zlen_app, !zlen_cons in Hlen. pose proof (zlen_nonneg (private_bytes l2 ++ rest)). pose proof (zlen_nonneg (private_bytes l1)). pose proof (private_bytes_len l1). rewrite s32_ok by lia. cbn [obind].
  destruct l2 as [|x l2].
  - cbn [private_bytes flat_map app]. replace (3 <=? zlen rest) with false by lia. exists f'. auto.
  - replace (3 <=? zlen (private_bytes (x :: l2) ++ rest)) with true by (rewrite zlen_app, private_bytes_len, zlen_cons; pose proof (zlen_nonneg l2); pose proof (zlen_nonneg rest); lia).
    rewrite <- private_bytes_snoc, <- ED, ES. apply IH; [discriminate|cbn in *; lia|exact Hr| |exact HI'|intros j w Hj; apply HL; right; exact Hj|rewrite <- ES; exact HC].
    rewrite <- ES, ED, zlen_app, !zlen_cons. lia.
Qed.

(* ---------- bits ---------- *)
Lemma bits_length : forall n v, length (bits n v) = n.
Proof. induction n as [|n IH]; intros v; cbn [bits length]; auto. Qed.
Definition at_bits (frame : list Z) (off : Z) (l : list Z) : Prop := exists pre, bits_of_frame frame = pre ++ l /\ zlen pre = off.
Lemma bit_of : forall b k, 0 <= k -> Z.land (Z.shiftr b k) 1 = b / 2 ^ k mod 2.
Proof. intros b k Hk. rewrite Z.shiftr_div_pow2 by exact Hk. change 1 with (Z.ones 1). rewrite Z.land_ones by lia. reflexivity. Qed.
Lemma nth_bits : forall n v i, (i < n)%nat -> nth i (bits n v) 0 = v / 2 ^ (Z.of_nat (n - 1 - i)) mod 2.
Proof.
  induction n as [|n IH]; intros v i H; [lia|]. cbn [bits]. destruct i as [|i]; cbn [nth]; [repeat f_equal; lia|]. rewrite IH by lia. do 4 f_equal. lia.
Qed.
Lemma frame_bit : forall frame pre b l, bits_of_frame frame = pre ++ b :: l -> zlen pre / 8 < zlen frame /\ b = nth (Z.to_nat (zlen pre / 8)) frame 0 / 2 ^ (7 - zlen pre mod 8) mod 2.
Proof.
  induction frame as [|x frame IH]; intros pre b l H; [destruct pre; discriminate|]. cbn [bits_of_frame flat_map] in H. rewrite zlen_cons. pose proof (zlen_nonneg frame) as HN.
  destruct (Nat.lt_ge_cases (length pre) 8) as [Hs|Hs].
  - assert (Hz : zlen pre / 8 = 0) by (apply Z.div_small; unfold zlen; lia). assert (Hm : zlen pre mod 8 = zlen pre) by (apply Z.mod_small; unfold zlen; lia). rewrite Hz, Hm. split; [lia|]. cbn [Z.to_nat nth].
    assert (E : nth (length pre) (bits 8 x ++ flat_map (bits 8) frame) 0 = b) by (rewrite H, app_nth2, Nat.sub_diag by lia; reflexivity). rewrite app_nth1 in E by (rewrite bits_length; lia). rewrite nth_bits in E by lia. rewrite <- E. unfold zlen. do 3 f_equal. lia.
  - assert (E : exists pre', pre = bits 8 x ++ pre' /\ bits_of_frame frame = pre' ++ b :: l).
    { exists (skipn 8 pre). assert (E1 : firstn 8 (bits 8 x ++ flat_map (bits 8) frame) = firstn 8 (pre ++ b :: l)) by (rewrite H; reflexivity). rewrite !firstn_app, bits_length in E1. replace (8 - length pre)%nat with 0%nat in E1 by lia. change (8 - 8)%nat with 0%nat in E1. rewrite !firstn_O, !app_nil_r in E1. rewrite firstn_all2 in E1 by (rewrite bits_length; lia).
      split; [rewrite E1, firstn_skipn; reflexivity|]. assert (E2 : skipn 8 (bits 8 x ++ flat_map (bits 8) frame) = skipn 8 (pre ++ b :: l)) by (rewrite H; reflexivity). rewrite !skipn_app, bits_length in E2. replace (8 - length pre)%nat with 0%nat in E2 by lia. change (8 - 8)%nat with 0%nat in E2. rewrite !skipn_O in E2. rewrite skipn_all2 in E2 by (rewrite bits_length; lia). exact E2. }
    destruct E as (pre' & -> & E). destruct (IH pre' b l E) as [A B]. rewrite zlen_app. replace (zlen (bits 8 x)) with 8 by (unfold zlen; rewrite bits_length; reflexivity). pose proof (zlen_nonneg pre') as HP.
    replace (8 + zlen pre') with (1 * 8 + zlen pre') by lia. rewrite Z.div_add_l by lia. replace (1 * 8 + zlen pre') with (zlen pre' + 1 * 8) by lia. rewrite Z.mod_add by lia. split; [lia|]. rewrite B.
    pose proof (Z.div_pos (zlen pre') 8 ltac:(lia) ltac:(lia)). replace (Z.to_nat (1 + zlen pre' / 8)) with (S (Z.to_nat (zlen pre' / 8))) by lia. reflexivity.
Qed.
Lemma bits_of_frame_len : forall frame, zlen (bits_of_frame frame) = 8 * zlen frame.
Proof. induction frame as [|x f IH]; [reflexivity|]. cbn [bits_of_frame flat_map]. rewrite zlen_app, zlen_cons. fold (bits_of_frame f). rewrite IH. unfold zlen at 1. rewrite bits_length. lia. Qed.
Lemma ReadBit_run : forall frame off b l, at_bits frame off (b :: l) -> ReadBit frame off = Val (b, off + 1) /\ at_bits frame (off + 1) l.
Proof.
  intros frame off b l (pre & E & <-). destruct (frame_bit _ _ _ _ E) as [H1 H2]. pose proof (zlen_nonneg pre). pose proof (Z.div_pos (zlen pre) 8 ltac:(lia) ltac:(lia)) as Hp. split.
  - unfold ReadBit. replace (zlen pre / 8 <? zlen frame) with true by lia. unfold frame_at. replace ((0 <=? zlen pre / 8) && (zlen pre / 8 <? zlen frame)) with true by lia. cbn [obind]. pose proof (Z.mod_pos_bound (zlen pre) 8 ltac:(lia)). rewrite bit_of by lia. rewrite <- H2. reflexivity.
  - exists (pre ++ [b]). rewrite <- app_assoc. split; [exact E|]. rewrite zlen_app. reflexivity.
Qed.
Lemma ReadBit_total : forall frame off, 0 <= off -> exists b off', ReadBit frame off = Val (b, off') /\ 0 <= off' /\ (b = 0 \/ b = 1).
Proof.
  intros frame off H. unfold ReadBit. destruct (off / 8 <? zlen frame) eqn:E; [|exists 0, off; auto]. pose proof (Z.div_pos off 8 ltac:(lia) ltac:(lia)) as Hp. unfold frame_at. replace ((0 <=? off / 8) && (off / 8 <? zlen frame)) with true by lia. cbn [obind].
  do 2 eexists. split; [reflexivity|]. split; [lia|]. pose proof (Z.mod_pos_bound off 8 ltac:(lia)). rewrite bit_of by lia. pose proof (Z.mod_pos_bound (nth (Z.to_nat (off / 8)) frame 0 / 2 ^ (7 - off mod 8)) 2 ltac:(lia)). lia.
Qed.

(* running a step on given bits *)
Definition runs {A} (frame : list Z) (m : B A) (l : list Z) (v : A) : Prop := forall off r, at_bits frame off (l ++ r) -> exists off', m off = Val (v, off') /\ at_bits frame off' r.
Lemma runs_ret : forall A frame (v : A), runs frame (bret v) [] v.
Proof. intros A frame v off r H. exists off. auto. Qed.
Lemma runs_bind : forall A C frame (m : B A) (k : A -> B C) l1 l2 v w, runs frame m l1 v -> runs frame (k v) l2 w -> runs frame (bbind m k) (l1 ++ l2) w.
Proof. intros A C frame m k l1 l2 v w H1 H2 off r H. rewrite <- app_assoc in H. destruct (H1 _ _ H) as (off1 & E1 & A1). destruct (H2 _ _ A1) as (off2 & E2 & A2). exists off2. unfold bbind. rewrite E1. cbn [obind fst snd]. auto. Qed.
Lemma runs_bind0 : forall A C frame (m : B A) (k : A -> B C) l v w, runs frame m [] v -> runs frame (k v) l w -> runs frame (bbind m k) l w.
Proof. intros A C frame m k l v w H1 H2. exact (runs_bind A C frame m k [] l v w H1 H2). Qed.
Lemma runs_last : forall A C frame (m : B A) (k : A -> B C) l v w, runs frame m l v -> runs frame (k v) [] w -> runs frame (bbind m k) l w.
Proof. intros A C frame m k l v w H1 H2. rewrite <- (app_nil_r l). exact (runs_bind A C frame m k l [] v w H1 H2). Qed.
Lemma runs_bit : forall frame b, runs frame (ReadBit frame) [b] b.
Proof. intros frame b off r H. destruct (ReadBit_run frame off b r H) as [E A]. eauto. Qed.
Lemma lor_bit : forall a n b, 0 <= a -> 0 <= n -> b = 0 \/ b = 1 -> Z.lor (a * 2 ^ (n + 1)) (Z.shiftl b n) = a * 2 ^ (n + 1) + b * 2 ^ n.
Proof.
  intros a n b Ha Hn Hb. rewrite Z.pow_add_r, Z.pow_1_r by lia. replace (a * (2 ^ n * 2)) with (2 * a * 2 ^ n) by lia. rewrite <- Z.shiftl_mul_pow2 by lia. rewrite <- Z.shiftl_lor.
  replace (Z.lor (2 * a) b) with (2 * a + b). { rewrite !Z.shiftl_mul_pow2 by lia. lia. }
  destruct Hb as [->| ->]; [rewrite Z.lor_0_r; lia|]. destruct a; [reflexivity|reflexivity|lia].
Qed.
Lemma literal_run : forall n frame v a, 0 <= a -> field n v -> runs frame (literal_loop frame n (a * 2 ^ Z.of_nat n)) (bits n v) (a * 2 ^ Z.of_nat n + v).
Proof.
  induction n as [|n IH]; intros frame v a Ha Hv; unfold field in Hv; cbn [literal_loop bits].
  - replace (a * 2 ^ Z.of_nat 0 + v) with (a * 2 ^ Z.of_nat 0) by (cbn in *; lia). apply runs_ret.
  - set (b := v / 2 ^ Z.of_nat n mod 2). assert (Hb : b = 0 \/ b = 1) by (pose proof (Z.mod_pos_bound (v / 2 ^ Z.of_nat n) 2 ltac:(lia)); unfold b; lia).
    change (b :: bits n v) with ([b] ++ bits n v). apply (runs_bind _ _ frame (ReadBit frame) _ [b] (bits n v) b); [apply runs_bit|].
    replace (Z.of_nat (S n)) with (Z.of_nat n + 1) by lia. rewrite lor_bit by (lia || exact Hb). assert (HP : 0 < 2 ^ Z.of_nat n) by (apply Z.pow_pos_nonneg; lia).
    replace (Z.of_nat (S n)) with (Z.of_nat n + 1) in Hv by lia. rewrite Z.pow_add_r, Z.pow_1_r in * by lia.
    assert (Eb : b = v / 2 ^ Z.of_nat n). { unfold b. apply Z.mod_small. split; [apply Z.div_pos; lia|apply Z.div_lt_upper_bound; lia]. }
    pose proof (Z.div_mod v (2 ^ Z.of_nat n) ltac:(lia)) as Hd. pose proof (Z.mod_pos_bound v (2 ^ Z.of_nat n) ltac:(lia)) as Hm.
    replace (a * (2 ^ Z.of_nat n * 2) + b * 2 ^ Z.of_nat n) with ((2 * a + b) * 2 ^ Z.of_nat n) by lia.
    assert (EB : bits n v = bits n (v mod 2 ^ Z.of_nat n)). { clear. assert (K : forall m u, (m <= n)%nat -> bits m u = bits m (u mod 2 ^ Z.of_nat n)). { induction m as [|m IHm]; intros u Hm; [reflexivity|]. cbn [bits]. f_equal; [|apply IHm; lia].
        replace (Z.of_nat n) with (Z.of_nat m + 1 + (Z.of_nat n - Z.of_nat m - 1)) by lia. set (k := Z.of_nat n - Z.of_nat m - 1). rewrite !Z.pow_add_r by lia. rewrite Z.pow_1_r.
        assert (0 < 2 ^ Z.of_nat m) by (apply Z.pow_pos_nonneg; lia). assert (0 < 2 ^ k) by (apply Z.pow_pos_nonneg; lia).
        set (P := 2 ^ Z.of_nat m) in *. set (Q := 2 ^ k) in *. rewrite <- Z.mul_assoc. rewrite Z.rem_mul_r by lia. rewrite (Z.mul_comm P (_ mod _)), Z.div_add by lia. rewrite (Z.div_small (u mod P)) by (apply Z.mod_pos_bound; lia). rewrite Z.add_0_l.
        rewrite (Z.rem_mul_r (u / P) 2 Q) by lia. rewrite (Z.mul_comm 2), Z.mod_add by lia. rewrite Z.mod_mod by lia. reflexivity. }
      apply K. lia. }
    rewrite EB. replace (a * (2 ^ Z.of_nat n * 2) + v) with ((2 * a + b) * 2 ^ Z.of_nat n + v mod 2 ^ Z.of_nat n) by lia. apply IH; [lia|exact Hm].
Qed.
Lemma runs_literal : forall n frame v, field n v -> runs frame (VpxReadLiteral frame n) (bits n v) v.
Proof. intros n frame v H. pose proof (literal_run n frame v 0 ltac:(lia) H) as E. rewrite Z.mul_0_l, Z.add_0_l in E. exact E. Qed.
