(* Proofs about the WebVTT parser model: settings, timings line, lines, files, times. *)
From Coq Require Import ZifyBool ZifyNat.
From Verif Require Import Base MVtt VttSpec PVtt.

Ltac asc := rewrite <- ?app_assoc; reflexivity.
Lemma snoc_cons : forall (pre : list Z) c l, pre ++ c :: l = (pre ++ [c]) ++ l.
Proof. intros. rewrite <- app_assoc. reflexivity. Qed.
Lemma zlen_snoc : forall (pre : list Z) c, zlen pre + 1 = zlen (pre ++ [c]).
Proof. intros. rewrite zlen_app. reflexivity. Qed.

(* ---------- settings ---------- *)
Definition word (c : Z) : Prop := c <> 0 /\ c <> 58 /\ ~ blank c.

Lemma settings_blank_run : forall l pre fuel, (length l < fuel)%nat ->
  settings_blank fuel (pre ++ l) (zlen pre) = Val (hd0 (unblank l) =? 0, zlen (pre ++ blanks l)).
Proof.
  induction l as [|c l IH]; intros pre fuel Hf; (destruct fuel as [|fuel]; [cbn in Hf; lia|]); cbn [settings_blank].
  - rewrite at_app. cbn [blanks unblank]. rewrite !app_nil_r. reflexivity.
  - rewrite at_app. cbn [obind hd0 blanks unblank]. destruct (blankb c) eqn:Eb.
    + unfold blankb in Eb. replace (c =? 0) with false by (unfold kSPACE, kTAB in *; lia). replace (negb (c =? kSPACE) && negb (c =? kTAB)) with false by lia.
      rewrite (snoc_cons pre c l), (zlen_snoc pre c), IH by (cbn in Hf; lia). f_equal. f_equal. f_equal. asc.
    + cbn [hd0]. rewrite app_nil_r. destruct (c =? 0) eqn:E0; [reflexivity|]. unfold blankb in Eb. replace (negb (c =? kSPACE) && negb (c =? kTAB)) with true by lia. reflexivity.
Qed.
(* names *)
Lemma settings_name_run : forall w pre r acc fuel, Forall word w -> (length w < fuel)%nat ->
  settings_name fuel (pre ++ w ++ [58] ++ r) (zlen pre) acc = Val (true, zlen (pre ++ w), acc ++ w).
Proof.
  induction w as [|c w IH]; intros pre r acc fuel HW Hf; (destruct fuel as [|fuel]; [cbn in Hf; lia|]); cbn [settings_name].
  - cbn [app]. rewrite at_app, !app_nil_r. reflexivity.
  - inversion HW as [|? ? Hc HW']; subst. unfold word, blank in Hc. cbn [app]. rewrite at_app. cbn [obind hd0]. unfold kCOLON, kSPACE, kTAB.
    replace (c =? 58) with false by lia. replace ((c =? 0) || (c =? 32) || (c =? 9)) with false by lia.
    change (c :: w ++ 58 :: r) with (c :: (w ++ [58] ++ r)). rewrite (snoc_cons pre c), (zlen_snoc pre c), IH by (assumption || (cbn in Hf; lia)). rewrite <- !app_assoc. reflexivity.
Qed.
Lemma settings_name_total : forall l pre acc fuel, (length l < fuel)%nat ->
  exists ok w r, settings_name fuel (pre ++ l) (zlen pre) acc = Val (ok, zlen (pre ++ w), acc ++ w) /\ l = w ++ r /\ (ok = true -> exists r', r = 58 :: r').
Proof.
  induction l as [|c l IH]; intros pre acc fuel Hf; (destruct fuel as [|fuel]; [cbn in Hf; lia|]); cbn [settings_name]; rewrite at_app; cbn [obind hd0].
  - exists false, [], []. rewrite !app_nil_r. split; [reflexivity|]. split; [reflexivity|discriminate].
  - destruct (c =? kCOLON) eqn:E1; [exists true, [], (c :: l); rewrite !app_nil_r; split; [reflexivity|]; split; [reflexivity|]; intros _; exists l; f_equal; unfold kCOLON in *; lia|].
    destruct ((c =? 0) || (c =? kSPACE) || (c =? kTAB)) eqn:E2; [exists false, [], (c :: l); rewrite !app_nil_r; split; [reflexivity|]; split; [reflexivity|discriminate]|].
    rewrite (snoc_cons pre c l), (zlen_snoc pre c). destruct (IH (pre ++ [c]) (acc ++ [c]) fuel ltac:(cbn in Hf; lia)) as (ok & w & r & E & -> & H).
    exists ok, (c :: w), r. rewrite E. split; [rewrite <- !app_assoc; reflexivity|]. split; [reflexivity|exact H].
Qed.
Lemma settings_value_run : forall w pre r acc fuel, Forall word w -> (hd0 r = 0 \/ blank (hd0 r)) -> (length w < fuel)%nat ->
  settings_value fuel (pre ++ w ++ r) (zlen pre) acc = Val (true, zlen (pre ++ w), acc ++ w).
Proof.
  induction w as [|c w IH]; intros pre r acc fuel HW Hr Hf; (destruct fuel as [|fuel]; [cbn in Hf; lia|]); cbn [settings_value].
  - cbn [app]. rewrite at_app, !app_nil_r. cbn [obind]. replace ((hd0 r =? 0) || (hd0 r =? kSPACE) || (hd0 r =? kTAB)) with true by (unfold kSPACE, kTAB, blank in *; lia). reflexivity.
  - inversion HW as [|? ? Hc HW']; subst. unfold word, blank in Hc. cbn [app]. rewrite at_app. cbn [obind hd0]. unfold kCOLON, kSPACE, kTAB.
    replace ((c =? 0) || (c =? 32) || (c =? 9)) with false by lia. replace (c =? 58) with false by lia.
    rewrite (snoc_cons pre c), (zlen_snoc pre c), IH by (assumption || (cbn in Hf; lia)). rewrite <- !app_assoc. reflexivity.
Qed.
Lemma settings_value_total : forall l pre acc fuel, (length l < fuel)%nat ->
  exists ok w r, settings_value fuel (pre ++ l) (zlen pre) acc = Val (ok, zlen (pre ++ w), acc ++ w) /\ l = w ++ r.
Proof.
  induction l as [|c l IH]; intros pre acc fuel Hf; (destruct fuel as [|fuel]; [cbn in Hf; lia|]); cbn [settings_value]; rewrite at_app; cbn [obind hd0].
  - exists true, [], []. rewrite !app_nil_r. split; reflexivity.
  - destruct ((c =? 0) || (c =? kSPACE) || (c =? kTAB)) eqn:E2; [exists true, [], (c :: l); rewrite !app_nil_r; split; reflexivity|].
    destruct (c =? kCOLON) eqn:E1; [exists false, [], (c :: l); rewrite !app_nil_r; split; reflexivity|].
    rewrite (snoc_cons pre c l), (zlen_snoc pre c). destruct (IH (pre ++ [c]) (acc ++ [c]) fuel ltac:(cbn in Hf; lia)) as (ok & w & r & E & ->).
    exists ok, (c :: w), r. rewrite E. split; [rewrite <- !app_assoc; reflexivity|reflexivity].
Qed.

Lemma settings_loop_total : forall fuel pre l acc, (length l < fuel)%nat ->
  exists e ss, settings_loop fuel (pre ++ l) (zlen pre) acc = Val (e, ss).
Proof.
  induction fuel as [|fuel IH]; intros pre l acc Hf; [lia|]. cbn [settings_loop]. set (n := S (length (pre ++ l))).
  assert (Hn : (length l < n)%nat) by (unfold n; rewrite app_length; lia).
  rewrite settings_blank_run by exact Hn. cbn [obind]. destruct (blanks_split l) as (El & _ & _). remember (blanks l) as b eqn:Eb. remember (unblank l) as u eqn:Eu. clear Eb Eu. subst l.
  destruct (hd0 u =? 0); [eauto|]. rewrite (app_assoc pre b u). rewrite app_length in Hn, Hf.
  destruct (settings_name_total u (pre ++ b) [] n ltac:(lia)) as (ok & w & r & E & -> & H). rewrite E. cbn [obind]. destruct ok; cbn [negb]; [|eauto].
  destruct (H eq_refl) as (r' & ->). cbn [app]. destruct w as [|c w]; [eauto|].
  replace (zlen ((pre ++ b) ++ c :: w) + 1) with (zlen ((pre ++ b) ++ (c :: w) ++ [58])) by (rewrite !zlen_app; change (zlen [58]) with 1; lia).
  replace ((pre ++ b) ++ (c :: w) ++ 58 :: r') with (((pre ++ b) ++ (c :: w) ++ [58]) ++ r') by asc. rewrite app_length in Hn, Hf. cbn [length] in Hn, Hf.
  destruct (settings_value_total r' ((pre ++ b) ++ (c :: w) ++ [58]) [] n ltac:(lia)) as (ok & v & r & E2 & ->). rewrite E2. cbn [obind]. destruct ok; cbn [negb]; [|eauto].
  cbn [app]. destruct v as [|c' v]; [eauto|]. rewrite (app_assoc _ (c' :: v) r). apply IH. rewrite app_length in Hf. cbn [length] in Hf. lia.
Qed.

Lemma settings_hd : forall st ss, settings_text st ss -> stops st.
Proof. intros st ss H. destruct H as [b HB|b n v r ss Hb HB]; (destruct b as [|c b]; [try congruence; exact I|]; inversion HB; subst; right; assumption). Qed.
Lemma blanks_app : forall b r, Forall blank b -> ~ blank (hd0 r) -> blanks (b ++ r) = b /\ unblank (b ++ r) = r.
Proof.
  intros b r HB Hr. induction HB as [|c b Hc HB IH]; cbn [app blanks unblank].
  - destruct r as [|c r]; [auto|]. cbn [hd0] in Hr. destruct (blankb c) eqn:E; [apply blankb_iff in E; contradiction|]. cbn [blanks unblank]. rewrite E. auto.
  - apply blankb_iff in Hc. rewrite Hc. destruct IH as [-> ->]. auto.
Qed.
Lemma token_hd : forall w r, token w -> hd0 (w ++ r) <> 0 /\ ~ blank (hd0 (w ++ r)).
Proof. intros [|c w] r (H & HW); [congruence|]. inversion HW; subst. cbn [app hd0]. tauto. Qed.

Lemma settings_loop_run : forall st ss, settings_text st ss -> forall pre r acc fuel, (length st < fuel)%nat ->
  settings_loop fuel (pre ++ st ++ 0 :: r) (zlen pre) acc = Val (0, acc ++ ss).
Proof.
  intros st ss H. induction H as [b HB|b n v r0 ss Hb HB Hn Hv HT IH]; intros pre r acc fuel Hf; (destruct fuel as [|fuel]; [lia|]); cbn [settings_loop]; set (k := S _).
  - rewrite settings_blank_run by (unfold k; rewrite !app_length; cbn [length]; lia). cbn [obind]. destruct (blanks_app b (0 :: r) HB) as [-> ->]; [unfold blank; cbn; lia|]. cbn [hd0]. change (0 =? 0) with true. cbv iota. rewrite app_nil_r. reflexivity.
  - assert (Hk : (length pre + length b + length n + length v + length r0 + length r + 3 <= k)%nat) by (unfold k; rewrite !app_length; cbn [length]; rewrite ?app_length; lia).
    clearbody k. rewrite !app_length in Hf. cbn [length] in Hf. rewrite ?app_length in Hf.
    replace (pre ++ (b ++ n ++ [58] ++ v ++ r0) ++ 0 :: r) with (pre ++ b ++ n ++ [58] ++ v ++ r0 ++ 0 :: r) by (rewrite <- !app_assoc; reflexivity).
    destruct (token_hd n ([58] ++ v ++ r0 ++ 0 :: r) Hn) as [N1 N2].
    rewrite settings_blank_run by (rewrite !app_length; cbn [length]; rewrite ?app_length; cbn [length]; lia). cbn [obind].
    destruct (blanks_app b (n ++ [58] ++ v ++ r0 ++ 0 :: r) HB N2) as [-> ->]. replace (hd0 (n ++ [58] ++ v ++ r0 ++ 0 :: r) =? 0) with false by lia.
    rewrite (app_assoc pre b). rewrite settings_name_run by (exact (proj2 Hn) || lia). cbn [obind negb]. change ([] ++ n) with n. destruct n as [|c n]; [destruct Hn; congruence|].
    replace (zlen ((pre ++ b) ++ c :: n) + 1) with (zlen ((pre ++ b) ++ (c :: n) ++ [58])) by (rewrite !zlen_app; change (zlen [58]) with 1; lia).
    replace ((pre ++ b) ++ (c :: n) ++ [58] ++ v ++ r0 ++ 0 :: r) with (((pre ++ b) ++ (c :: n) ++ [58]) ++ v ++ r0 ++ 0 :: r) by asc.
    assert (Hr0 : hd0 (r0 ++ 0 :: r) = 0 \/ blank (hd0 (r0 ++ 0 :: r))).
    { pose proof (settings_hd _ _ HT) as HS. destruct r0 as [|x r0]; [left; reflexivity|exact HS]. }
    rewrite settings_value_run; [|exact (proj2 Hv)|exact Hr0|lia]. cbn [obind negb]. change ([] ++ v) with v. destruct v as [|x v]; [destruct Hv; congruence|].
    rewrite (app_assoc _ (x :: v)). rewrite IH by lia. rewrite <- app_assoc. reflexivity.
Qed.

(* ---------- timings line ---------- *)
Lemma skip_junk_run : forall b pre r fuel, Forall blank b -> (length b < fuel)%nat ->
  skip_junk fuel (pre ++ b ++ 0 :: r) (zlen pre) = Val true.
Proof.
  induction b as [|c b IH]; intros pre r fuel HB Hf; (destruct fuel as [|fuel]; [cbn in Hf; lia|]); cbn [skip_junk app]; rewrite at_app; cbn [obind hd0].
  - reflexivity.
  - inversion HB; subst. unfold blank in *. unfold kSPACE, kTAB. replace (c =? 0) with false by lia. replace (negb (c =? 32) && negb (c =? 9)) with false by lia.
    change (c :: b ++ 0 :: r) with (c :: (b ++ 0 :: r)). rewrite (snoc_cons pre c), (zlen_snoc pre c). apply IH; [assumption|cbn in Hf; lia].
Qed.
Lemma skip_junk_total : forall l pre fuel, (length l < fuel)%nat -> exists ok, skip_junk fuel (pre ++ l) (zlen pre) = Val ok.
Proof.
  induction l as [|c l IH]; intros pre fuel Hf; (destruct fuel as [|fuel]; [cbn in Hf; lia|]); cbn [skip_junk]; rewrite at_app; cbn [obind hd0].
  - exists true. reflexivity.
  - destruct (c =? 0); [eauto|]. destruct (negb (c =? kSPACE) && negb (c =? kTAB)); [eauto|]. rewrite (snoc_cons pre c), (zlen_snoc pre c). apply IH. cbn in Hf; lia.
Qed.

Lemma ParseTime_total : forall line idx t, 0 <= idx -> exists e i t', ParseTime line idx t = Val (e, i, t') /\ (e = 0 -> 0 <= i <= zlen line).
Proof.
  intros line idx t H. destruct (Z_le_gt_dec idx (zlen line)) as [H1|H1].
  - destruct (split_at line idx (conj H H1)) as (pre & l & -> & ->). destruct (ParseTime_inv pre l t) as (e & i & t' & E & G). exists e, i, t'. split; [exact E|].
    intros He. destruct G as [G|(b & x & r & -> & _ & _ & _ & ->)]; [congruence|]. split; [apply zlen_nonneg|]. rewrite !zlen_app. pose proof (zlen_nonneg r). lia.
  - unfold ParseTime. replace (idx >=? zlen line) with true by lia. do 3 eexists. split; [reflexivity|lia].
Qed.
Lemma ParseSettings_total : forall line idx, 0 <= idx -> exists e ss, ParseSettings line idx = Val (e, ss).
Proof.
  intros line idx H. unfold ParseSettings. destruct (idx >=? zlen line) eqn:E; [eauto|].
  destruct (split_at line idx ltac:(lia)) as (pre & l & -> & ->). apply settings_loop_total. rewrite app_length. lia.
Qed.
Lemma ParseTimingsLine_total : forall line a q, 0 <= a -> exists e q', ParseTimingsLine line a q = Val (e, q').
Proof.
  intros line a q Ha. unfold ParseTimingsLine. destruct (a >=? zlen line); [eauto|]. set (line1 := put line a 0).
  destruct (ParseTime_total line1 0 (q_start q) ltac:(lia)) as (e & i & t & -> & Hi). cbn [obind]. destruct (e =? 0) eqn:Ee; cbn [negb]; [|eauto].
  specialize (Hi ltac:(lia)). destruct (split_at line1 i Hi) as (pre & l & El & ->). clearbody line1. subst line1.
  destruct (skip_junk_total l pre (S (length (pre ++ l)))) as (ok & ->); [rewrite app_length; lia|]. cbn [obind]. destruct ok; cbn [negb]; [|eauto]. cbn [q_stop q_id q_start q_settings q_payload].
  destruct (ParseTime_total ((pre ++ l) ++ [0]) (a + 3) (q_stop q) ltac:(lia)) as (e2 & i2 & t2 & -> & Hi2). cbn [obind]. destruct (e2 =? 0) eqn:Ee2; cbn [negb]; [|eauto].
  specialize (Hi2 ltac:(lia)). cbn [q_stop q_id q_start q_settings q_payload]. destruct (ParseSettings_total ((pre ++ l) ++ [0]) i2 ltac:(lia)) as (e3 & ss & ->). cbn [obind]. eauto.
Qed.

Definition tchar (c : Z) : Prop := digit c \/ c = 58 \/ c = 46 \/ blank c.
Lemma number_chars : forall ds n, number ds n -> Forall tchar ds.
Proof. intros ds n (_ & H & _). eapply Forall_impl; [|exact H]. intros c Hc. left. exact Hc. Qed.
Lemma clock_chars : forall t h m s, clock t h m s -> Forall tchar t.
Proof.
  intros t h m s H. assert (C : tchar 58) by (right; left; reflexivity).
  inversion H; subst; rewrite ?Forall_app; repeat split; try (eapply number_chars; eassumption); repeat constructor; exact C.
Qed.
Lemma scaled_chars : forall f ms, scaled f ms -> Forall tchar f.
Proof. intros f ms (v & Hn & _). eapply number_chars; exact Hn. Qed.
Lemma stamp_chars : forall x t, stamp scaled x t -> Forall tchar x /\ x <> [].
Proof.
  intros x t H. destruct H as [x h m s HC|x f h m s ms HC HF].
  - split; [eapply clock_chars; exact HC|]. intros ->. destruct (clock_hd _ _ _ _ [] HC) as [_ N]. apply N. reflexivity.
  - split; [rewrite !Forall_app; split; [eapply clock_chars; exact HC|]; split; [repeat constructor; right; right; left; reflexivity|eapply scaled_chars; exact HF]|].
    intros E. apply app_eq_nil in E. destruct E as [_ E]. discriminate.
Qed.
Lemma blank_chars : forall b, Forall blank b -> Forall tchar b.
Proof. intros b H. eapply Forall_impl; [|exact H]. intros c Hc. right. right. right. exact Hc. Qed.

Lemma find_from_run : forall w r i, Forall tchar w -> find_from kArrow (w ++ arrow ++ r) i = Some (i + zlen w).
Proof.
  induction w as [|c w IH]; intros r i H.
  - cbn [app find_from is_prefix arrow kArrow]. rewrite !Z.eqb_refl. cbn [andb]. f_equal. unfold zlen. cbn. lia.
  - inversion H as [|? ? Hc H']; subst. cbn [app find_from is_prefix kArrow]. unfold tchar, digit, blank in Hc. replace (45 =? c) with false by lia. cbn [andb].
    rewrite IH by assumption. f_equal. rewrite zlen_cons. lia.
Qed.

Lemma put_app : forall pre c r v, put (pre ++ c :: r) (zlen pre) v = pre ++ v :: r.
Proof.
  intros pre c r v. unfold put, zlen. rewrite Nat2Z.id. rewrite firstn_app, firstn_all, Nat.sub_diag. cbn [firstn]. rewrite app_nil_r. f_equal.
  f_equal. induction pre as [|x pre IH]; [reflexivity|exact IH].
Qed.

Lemma timings_run : forall l t1 t2 ss q, timings_line scaled l t1 t2 ss -> exists a, find_arrow l = Some a /\
  ParseTimingsLine l a q = Val (0, mkCueV (q_id q) t1 t2 ss (q_payload q)).
Proof.
  intros l t1 t2 ss q (b1 & s1 & b2 & b3 & s2 & st & HB1 & HS1 & HB2 & HB3 & HS2 & HT & ->).
  set (w := b1 ++ s1 ++ b2). exists (zlen w).
  assert (HW : Forall tchar w). { unfold w. rewrite !Forall_app. split; [apply blank_chars; assumption|]. split; [exact (proj1 (stamp_chars _ _ HS1))|apply blank_chars; assumption]. }
  assert (El : b1 ++ s1 ++ b2 ++ arrow ++ b3 ++ s2 ++ st = w ++ arrow ++ b3 ++ s2 ++ st) by (unfold w; rewrite <- !app_assoc; reflexivity). rewrite El.
  split; [unfold find_arrow; rewrite find_from_run by exact HW; reflexivity|]. unfold ParseTimingsLine.
  replace (zlen w >=? zlen (w ++ arrow ++ b3 ++ s2 ++ st)) with false by (rewrite zlen_app; unfold arrow; cbn [app]; rewrite zlen_cons; pose proof (zlen_nonneg (45 :: 62 :: b3 ++ s2 ++ st)); pose proof (zlen_nonneg w); lia).
  set (tail := 45 :: 62 :: b3 ++ s2 ++ st).
  assert (Ep : put (w ++ arrow ++ b3 ++ s2 ++ st) (zlen w) 0 = w ++ 0 :: tail) by (exact (put_app w 45 tail 0)).
  rewrite Ep. clear Ep.
  assert (E1 : ParseTime (w ++ 0 :: tail) 0 (q_start q) = Val (0, zlen (b1 ++ s1), t1)).
  { unfold w. replace ((b1 ++ s1 ++ b2) ++ 0 :: tail) with ([] ++ b1 ++ s1 ++ (b2 ++ 0 :: tail)) by (cbn [app]; rewrite <- !app_assoc; reflexivity).
    change 0 with (zlen (@nil Z)) at 2. rewrite (ParseTime_accepts [] b1 s1 t1 _ _ HB1 HS1); [reflexivity|]. destruct b2 as [|c b2]; [left; reflexivity|inversion HB2; subst; right; assumption]. }
  rewrite E1. cbn [obind]. change (negb (0 =? 0)) with false. cbv iota. cbn [q_id q_start q_stop q_settings q_payload].
  assert (E2 : skip_junk (S (length (w ++ 0 :: tail))) (w ++ 0 :: tail) (zlen (b1 ++ s1)) = Val true).
  { unfold w. replace ((b1 ++ s1 ++ b2) ++ 0 :: tail) with ((b1 ++ s1) ++ b2 ++ 0 :: tail) by (rewrite <- !app_assoc; reflexivity). apply skip_junk_run; [assumption|]. rewrite !app_length. lia. }
  rewrite E2. cbn [obind negb]. clear E1 E2.
  assert (E3 : (w ++ 0 :: tail) ++ [0] = (w ++ [0; 45; 62]) ++ b3 ++ s2 ++ (st ++ [0])) by (unfold tail; rewrite <- !app_assoc; cbn [app]; rewrite <- !app_assoc; reflexivity).
  rewrite E3. clear E3. replace (zlen w + 3) with (zlen (w ++ [0; 45; 62])) by (rewrite zlen_app; reflexivity).
  rewrite (ParseTime_accepts _ b3 s2 t2 _ _ HB3 HS2).
  2:{ pose proof (settings_hd _ _ HT) as HH. destruct st as [|c st]; [left; reflexivity|exact HH]. }
  cbn [obind]. change (negb (0 =? 0)) with false. cbv iota. cbn [q_id q_start q_stop q_settings q_payload]. unfold ParseSettings.
  replace ((w ++ [0; 45; 62]) ++ b3 ++ s2 ++ st ++ [0]) with (((w ++ [0; 45; 62]) ++ b3 ++ s2) ++ st ++ [0]) by (rewrite <- !app_assoc; reflexivity).
  rewrite idx_ge. destruct (st ++ [0]) as [|x y] eqn:Ex; [destruct st; discriminate|]. rewrite <- Ex. clear x y Ex.
  rewrite (settings_loop_run st ss HT) by (rewrite !app_length; lia). reflexivity.
Qed.

(* ---------- characters and lines ---------- *)
Definition pending (p : pstate) : list answer := if p_unget p >=? 0 then Ch (p_unget p) :: p_in p else p_in p.
Definition ok_answer (a : answer) : Prop := match a with Ch c => 0 <= c | St e => e <> 0 end.
(* a status is never 0 when it stands for the absence of a character *)
Definition wf (p : pstate) : Prop := Forall ok_answer (pending p).

Lemma pending_len : forall p, (length (p_in p) <= length (pending p) <= S (length (p_in p)))%nat.
Proof. intros p. unfold pending. destruct (p_unget p >=? 0); cbn [length]; lia. Qed.
Lemma GetChar_pending : forall p, match pending p with
  | [] => GetChar p = (1, 0, p)
  | Ch c :: r => exists p', GetChar p = (0, c, p') /\ pending p' = r /\ p_unget p' < 0
  | St e :: r => exists p', GetChar p = (e, 0, p') /\ pending p' = r /\ p_unget p' < 0
  end.
Proof.
  intros p. unfold pending, GetChar. destruct (p_unget p >=? 0) eqn:E; [eexists; split; [reflexivity|]; cbn; split; [reflexivity|lia]|].
  destruct (p_in p) as [|[c|e] r] eqn:Ei; [reflexivity| |]; (eexists; split; [reflexivity|]; cbn [p_unget p_in]; rewrite E; split; [reflexivity|lia]).
Qed.
Lemma unget_pending : forall p c, p_unget p < 0 -> 0 <= c -> pending (UngetChar c p) = Ch c :: pending p.
Proof. intros p c H Hc. unfold pending, UngetChar. cbn [p_unget p_in]. replace (c >=? 0) with true by lia. replace (p_unget p >=? 0) with false by lia. reflexivity. Qed.

(* every line read consumes something, and reading always ends *)
Definition shorter (p' p : pstate) : Prop := exists k, pending p = k ++ pending p' /\ k <> [].

Lemma GetLine_loop_total : forall fuel p ln, (length (pending p) < fuel)%nat -> exists r l p', GetLine_loop fuel ln p = Val (r, l, p') /\
  exists k, pending p = k ++ pending p' /\ (k = [] -> pending p = [] /\ r = Some (match ln with [] => 1 | _ => 0 end) /\ l = ln) /\ (r = None -> p_unget p' < 0 /\ k <> []).
Proof.
  induction fuel as [|fuel IH]; intros p ln Hf; [lia|]. cbn [GetLine_loop]. pose proof (GetChar_pending p) as HG. destruct (pending p) as [|[c|e] r] eqn:Ep.
  - rewrite HG. cbn. do 3 eexists. split; [reflexivity|]. exists []. rewrite Ep. split; [reflexivity|]. split; [auto|discriminate].
  - destruct HG as (p' & -> & H1 & H2). change (0 <? 0) with false. change (0 >? 0) with false. cbv iota. cbn [length] in Hf.
    assert (D : exists k, Ch c :: r = k ++ pending p' /\ k <> []) by (exists [Ch c]; rewrite H1; split; [reflexivity|discriminate]). destruct D as (k0 & D1 & D2).
    destruct (c =? kLF); [do 3 eexists; split; [reflexivity|]; exists k0; split; [exact D1|]; split; [congruence|discriminate]|].
    destruct (c =? kCR); [do 3 eexists; split; [reflexivity|]; exists k0; split; [exact D1|]; split; [congruence|auto]|].
    destruct ((c =? 254) || (c =? 255)); [do 3 eexists; split; [reflexivity|]; exists k0; split; [exact D1|]; split; [congruence|discriminate]|].
    destruct (zlen ln >=? kMaxLineLength); [do 3 eexists; split; [reflexivity|]; exists k0; split; [exact D1|]; split; [congruence|discriminate]|].
    destruct (IH p' (ln ++ [c]) ltac:(rewrite H1; lia)) as (x & l & p'' & E & k & K1 & K2 & K3). do 3 eexists. split; [exact E|]. exists (Ch c :: k). rewrite <- H1, K1. split; [reflexivity|]. split; [discriminate|].
    intros Hx. split; [apply K3; exact Hx|discriminate].
  - destruct HG as (p' & -> & H1 & H2). assert (D : exists k, St e :: r = k ++ pending p' /\ k <> []) by (exists [St e]; rewrite H1; split; [reflexivity|discriminate]). destruct D as (k0 & D1 & D2).
    destruct (e <? 0) eqn:E1; [do 3 eexists; split; [reflexivity|]; exists k0; split; [exact D1|]; split; [congruence|discriminate]|].
    destruct (e >? 0) eqn:E2; [do 3 eexists; split; [reflexivity|]; exists k0; split; [exact D1|]; split; [congruence|discriminate]|].
    change (0 =? kLF) with false. change (0 =? kCR) with false. change ((0 =? 254) || (0 =? 255)) with false. cbv iota.
    destruct (zlen ln >=? kMaxLineLength); [do 3 eexists; split; [reflexivity|]; exists k0; split; [exact D1|]; split; [congruence|discriminate]|]. cbn [length] in Hf.
    destruct (IH p' (ln ++ [0]) ltac:(rewrite H1; lia)) as (x & l & p'' & E & k & K1 & K2 & K3). do 3 eexists. split; [exact E|]. exists (St e :: k). rewrite <- H1, K1. split; [reflexivity|]. split; [discriminate|].
    intros Hx. split; [apply K3; exact Hx|discriminate].
Qed.
Lemma GetLine_total : forall p, wf p -> exists e l p', GetLine p = Val (e, l, p') /\ wf p' /\ ((length (pending p') < length (pending p))%nat \/ pending p = [] /\ e = 1 /\ l = [] /\ pending p' = []).
Proof.
  intros p HW. unfold GetLine. pose proof (pending_len p) as HL.
  destruct (GetLine_loop_total (S (S (length (p_in p)))) p [] ltac:(lia)) as (r & l & p1 & -> & k & K1 & K2 & K3). cbn [obind].
  unfold wf in *. rewrite K1 in HW. apply Forall_app in HW. destruct HW as [HWk HW1]. destruct r as [e|].
  - do 3 eexists. split; [reflexivity|]. split; [exact HW1|]. destruct k as [|a k]; [right; destruct (K2 eq_refl) as (Q1 & Q2 & Q3); rewrite Q1 in *; cbn [app] in K1; rewrite <- K1; injection Q2 as ->; auto|].
    left. rewrite K1, app_length. cbn [length]. lia.
  - destruct (K3 eq_refl) as [Hu Hk]. assert (Hlt : (length (pending p1) < length (pending p))%nat) by (rewrite K1, app_length; destruct k; [congruence|cbn [length]; lia]).
    pose proof (GetChar_pending p1) as HG. destruct (pending p1) as [|[c|e] r] eqn:Ep.
    + rewrite HG. cbn. do 3 eexists. split; [reflexivity|]. rewrite Ep. split; [constructor|]. left. exact Hlt.
    + destruct HG as (p2 & -> & H1 & H2). change (0 <? 0) with false. change (0 >? 0) with false. cbv iota. inversion HW1; subst. cbn [length] in Hlt. cbn [ok_answer] in *.
      destruct (c =? kLF); cbn [negb]; do 3 eexists; (split; [reflexivity|]); [split; [assumption|left; lia]|].
      rewrite (unget_pending p2 c H2) by assumption. split; [constructor; assumption|]. left. cbn [length]. exact Hlt.
    + destruct HG as (p2 & -> & H1 & H2). inversion HW1; subst. cbn [length] in Hlt. cbn [ok_answer] in *. destruct (e <? 0) eqn:E1; [do 3 eexists; split; [reflexivity|]; split; [assumption|left; lia]|].
      destruct (e >? 0) eqn:E2; [do 3 eexists; split; [reflexivity|]; split; [assumption|left; lia]|]. lia.
Qed.

(* reading a text *)
Definition reads (p : pstate) (cs : list Z) : Prop := pending p = map Ch cs.
Lemma reads_wf : forall p cs, reads p cs -> Forall plain_char cs -> wf p.
Proof. intros p cs H HC. unfold wf. rewrite H. apply Forall_map. eapply Forall_impl; [|exact HC]. intros c Hc. cbn. unfold plain_char in Hc. lia. Qed.

Lemma GetLine_loop_text : forall l p ln rest fuel, reads p (l ++ rest) -> Forall plain_char l -> no_eol l -> zlen ln + zlen l <= 10000 ->
  (length l <= fuel)%nat -> exists p', GetLine_loop fuel ln p = GetLine_loop (fuel - length l) (ln ++ l) p' /\ reads p' rest /\ (l <> [] -> p_unget p' < 0) /\ (l = [] -> p' = p).
Proof.
  induction l as [|c l IH]; intros p ln rest fuel HR HC HE HL Hf.
  - exists p. cbn [length]. rewrite app_nil_r, Nat.sub_0_r. split; [reflexivity|]. split; [exact HR|]. split; [congruence|auto].
  - destruct fuel as [|fuel]; [cbn in Hf; lia|]. cbn [GetLine_loop]. pose proof (GetChar_pending p) as HG. unfold reads in HR. rewrite HR in HG. cbn [map app] in HG. destruct HG as (p1 & -> & H1 & H2).
    inversion HC; subst. inversion HE as [|? ? He HE']; subst. unfold plain_char in *. rewrite zlen_cons in HL. pose proof (zlen_nonneg l) as Hll. pose proof (zlen_nonneg ln) as Hll2. change (0 <? 0) with false. change (0 >? 0) with false. cbv iota. unfold kLF, kCR, kMaxLineLength.
    replace (c =? 10) with false by lia. replace (c =? 13) with false by lia. replace ((c =? 254) || (c =? 255)) with false by lia. replace (zlen ln >=? 10000) with false by lia.
    destruct (IH p1 (ln ++ [c]) rest fuel H1) as (p2 & E & K1 & K2 & K3); [assumption..| |cbn in Hf; lia|].
    { rewrite zlen_app. change (zlen [c]) with 1. lia. }
    exists p2. cbn [length Nat.sub]. rewrite E, <- app_assoc. split; [reflexivity|]. split; [exact K1|]. split; [|discriminate]. intros _. destruct l as [|x l]; [rewrite (K3 eq_refl); exact H2|apply K2; discriminate].
Qed.

Definition eol_of (e r : list Z) : Prop := e = [10] \/ e = [13; 10] \/ e = [13] /\ (forall x, r <> 10 :: x).
Lemma GetLine_line : forall p l e r, reads p (l ++ e ++ r) -> plain_line l -> no_eol l -> eol_of e r -> Forall plain_char r ->
  exists p', GetLine p = Val (0, l, p') /\ reads p' r.
Proof.
  intros p l e r HR (HC & HL) HE He Hr. unfold GetLine. pose proof (pending_len p) as HP. assert (HPl : length (pending p) = (length l + length (e ++ r))%nat) by (rewrite HR, map_length, app_length; reflexivity).
  destruct (GetLine_loop_text l p [] (e ++ r) (S (S (length (p_in p)))) HR HC HE ltac:(change (zlen (@nil Z)) with 0; lia) ltac:(lia)) as (p1 & -> & H1 & _ & _).
  assert (Hlt : (0 < S (S (length (p_in p))) - length l)%nat) by lia. destruct (S (S (length (p_in p))) - length l)%nat as [|fuel]; [lia|]. cbn [GetLine_loop app].
  pose proof (GetChar_pending p1) as HG. unfold reads in H1. rewrite H1 in HG. destruct He as [->|[->|[-> Hx]]]; cbn [map app] in HG; destruct HG as (p2 & -> & H2 & Hu); change (0 <? 0) with false; change (0 >? 0) with false; cbv iota.
  - change (10 =? kLF) with true. cbv iota. cbn [obind]. exists p2. auto.
  - change (13 =? kLF) with false. change (13 =? kCR) with true. cbv iota. cbn [obind]. pose proof (GetChar_pending p2) as HG2. rewrite H2 in HG2. destruct HG2 as (p3 & -> & H3 & _).
    change (0 <? 0) with false. change (0 >? 0) with false. change (10 =? kLF) with true. cbv iota. cbn [negb]. exists p3. auto.
  - change (13 =? kLF) with false. change (13 =? kCR) with true. cbv iota. cbn [obind]. pose proof (GetChar_pending p2) as HG2. rewrite H2 in HG2. destruct r as [|c r]; cbn [map] in HG2.
    + rewrite HG2. cbn. exists p2. auto.
    + destruct HG2 as (p3 & -> & H3 & Hu3). change (0 <? 0) with false. change (0 >? 0) with false. cbv iota.
      assert (c <> 10) by (intros ->; apply (Hx r); reflexivity). replace (c =? kLF) with false by (unfold kLF; lia). cbn [negb]. eexists. split; [reflexivity|].
      unfold reads. inversion Hr; subst. rewrite (unget_pending p3 c Hu3) by (unfold plain_char in *; lia). rewrite H3. reflexivity.
Qed.
Lemma GetLine_last : forall p l, reads p l -> l <> [] -> plain_line l -> no_eol l -> exists p', GetLine p = Val (0, l, p') /\ reads p' [].
Proof.
  intros p l HR Hne (HC & HL) HE. unfold GetLine. pose proof (pending_len p) as HP. assert (HPl : length (pending p) = length l) by (rewrite HR, map_length; reflexivity).
  assert (HR' : reads p (l ++ [])) by (rewrite app_nil_r; exact HR).
  destruct (GetLine_loop_text l p [] [] (S (S (length (p_in p)))) HR' HC HE ltac:(change (zlen (@nil Z)) with 0; lia) ltac:(lia)) as (p1 & -> & H1 & _ & _).
  assert (Hlt : (0 < S (S (length (p_in p))) - length l)%nat) by lia. destruct (S (S (length (p_in p))) - length l)%nat as [|fuel]; [lia|]. cbn [GetLine_loop app].
  pose proof (GetChar_pending p1) as HG. unfold reads in H1. rewrite H1 in HG. cbn [map] in HG. rewrite HG. cbn. destruct l as [|c l]; [congruence|]. exists p1. auto.
Qed.
Lemma GetLine_end : forall p, reads p [] -> GetLine p = Val (1, [], p).
Proof.
  intros p H. unfold GetLine. cbn [GetLine_loop]. pose proof (GetChar_pending p) as HG. unfold reads in H. rewrite H in HG. cbn [map] in HG. rewrite HG. reflexivity.
Qed.

Lemma text_plain : forall txt ls, text_lines txt ls -> Forall plain_line ls -> Forall plain_char txt.
Proof.
  intros txt ls H HL. assert (P : forall c, c = 10 \/ c = 13 -> plain_char c) by (unfold plain_char; lia).
  induction H; [constructor|..]; inversion HL as [|? ? [P1 P2] HL']; subst; [exact P1|..].
  all: apply Forall_app; split; [exact P1|]; apply Forall_app; split; [repeat constructor; apply P; lia|auto].
Qed.

(* one line read from a text *)
Lemma GetLine_text : forall p txt l ls, reads p txt -> text_lines txt (l :: ls) -> Forall plain_line (l :: ls) ->
  exists p' txt', GetLine p = Val (0, l, p') /\ reads p' txt' /\ text_lines txt' ls /\ Forall plain_line ls.
Proof.
  intros p txt l ls HR HT HL. inversion HL as [|? ? H1 H2]; subst. inversion HT as [|l' Hne HE|l' r ls' HE HT'|l' r ls' HE HT'|l' r ls' HE Hx HT']; subst.
  - destruct (GetLine_last p l HR Hne H1 HE) as (p' & E & R). exists p', []. repeat split; try assumption. constructor.
  - destruct (GetLine_line p l [10] r HR H1 HE (or_introl eq_refl) (text_plain _ _ HT' H2)) as (p' & E & R). exists p', r. auto.
  - destruct (GetLine_line p l [13; 10] r HR H1 HE (or_intror (or_introl eq_refl)) (text_plain _ _ HT' H2)) as (p' & E & R). exists p', r. auto.
  - destruct (GetLine_line p l [13] r HR H1 HE (or_intror (or_intror (conj eq_refl Hx))) (text_plain _ _ HT' H2)) as (p' & E & R). exists p', r. auto.
Qed.

(* ---------- every call returns ---------- *)
Lemma ParseBOM_total : forall bom first p, wf p -> exists e p', ParseBOM_loop first bom p = (e, p') /\ wf p' /\ (length (pending p') <= length (pending p))%nat.
Proof.
  induction bom as [|b bom IH]; intros first p HW; cbn [ParseBOM_loop]; [do 2 eexists; split; [reflexivity|]; split; [assumption|lia]|].
  pose proof (GetChar_pending p) as HG. pose proof HW as HW0. unfold wf in HW. destruct (pending p) as [|[c|e] r] eqn:Ep.
  - rewrite HG. cbn. do 2 eexists. split; [reflexivity|]. rewrite Ep. split; [assumption|cbn [length]; lia].
  - destruct HG as (p1 & -> & H1 & Hu). inversion HW; subst. cbn [ok_answer length] in *. change (0 <? 0) with false. change (0 >? 0) with false. cbv iota. destruct (c =? b) eqn:Ec; cbn [negb].
    + destruct (IH false p1 ltac:(assumption)) as (e & p2 & -> & Hw2 & Hl). do 2 eexists. split; [reflexivity|]. split; [assumption|lia].
    + destruct first; do 2 eexists; (split; [reflexivity|]).
      * unfold wf. rewrite (unget_pending p1 c Hu) by assumption. split; [constructor; assumption|cbn [length]; lia].
      * split; [assumption|lia].
  - destruct HG as (p1 & -> & H1 & Hu). inversion HW; subst. cbn [ok_answer length] in *.
    destruct (e <? 0) eqn:E1; [do 2 eexists; split; [reflexivity|]; split; [assumption|lia]|]. destruct (e >? 0) eqn:E2; [do 2 eexists; split; [reflexivity|]; split; [assumption|lia]|]. lia.
Qed.
Lemma match_id_total : forall id p, wf p -> exists e p', match_id id p = (e, p') /\ wf p' /\ (length (pending p') <= length (pending p))%nat.
Proof.
  induction id as [|b id IH]; intros p HW; cbn [match_id]; [do 2 eexists; split; [reflexivity|]; split; [assumption|lia]|].
  pose proof (GetChar_pending p) as HG. pose proof HW as HW0. unfold wf in HW. destruct (pending p) as [|[c|e] r] eqn:Ep.
  - rewrite HG. cbn. do 2 eexists. split; [reflexivity|]. rewrite Ep. split; [assumption|cbn [length]; lia].
  - destruct HG as (p1 & -> & H1 & Hu). inversion HW; subst. cbn [ok_answer length] in *. change (0 <? 0) with false. change (0 >? 0) with false. cbv iota. destruct (c =? b) eqn:Ec; cbn [negb].
    + destruct (IH p1 ltac:(assumption)) as (e & p2 & -> & Hw2 & Hl). do 2 eexists. split; [reflexivity|]. split; [assumption|lia].
    + do 2 eexists. split; [reflexivity|]. split; [assumption|lia].
  - destruct HG as (p1 & -> & H1 & Hu). inversion HW; subst. cbn [ok_answer length] in *.
    destruct (e <? 0) eqn:E1; [do 2 eexists; split; [reflexivity|]; split; [assumption|lia]|]. destruct (e >? 0) eqn:E2; [do 2 eexists; split; [reflexivity|]; split; [assumption|lia]|]. lia.
Qed.
Theorem Init_total : forall p, wf p -> exists e p', Init p = Val (e, p') /\ wf p' /\ (length (pending p') <= length (pending p))%nat.
Proof.
  intros p HW. unfold Init, ParseBOM. destruct (ParseBOM_total kBOM true p HW) as (e1 & p1 & -> & W1 & L1).
  destruct (e1 <? 0); [do 2 eexists; split; [reflexivity|]; auto|]. destruct (e1 >? 0); [do 2 eexists; split; [reflexivity|]; auto|].
  destruct (match_id_total kWebvttId p1 W1) as (e2 & p2 & -> & W2 & L2). destruct (negb (e2 =? 0)); [do 2 eexists; split; [reflexivity|]; split; [assumption|lia]|].
  destruct (GetLine_total p2 W2) as (e3 & l3 & p3 & -> & W3 & L3). cbn [obind]. assert (L3' : (length (pending p3) <= length (pending p2))%nat) by (destruct L3 as [|(-> & _ & _ & ->)]; lia).
  destruct (e3 <? 0); [do 2 eexists; split; [reflexivity|]; split; [assumption|lia]|]. destruct (e3 >? 0); [do 2 eexists; split; [reflexivity|]; split; [assumption|lia]|].
  destruct (match l3 with [] => false | c :: _ => negb (c =? kSPACE) && negb (c =? kTAB) end); [do 2 eexists; split; [reflexivity|]; split; [assumption|lia]|].
  destruct (GetLine_total p3 W3) as (e4 & l4 & p4 & -> & W4 & L4). cbn [obind]. assert (L4' : (length (pending p4) <= length (pending p3))%nat) by (destruct L4 as [|(-> & _ & _ & ->)]; lia).
  destruct (e4 <? 0); [do 2 eexists; split; [reflexivity|]; split; [assumption|lia]|]. destruct (e4 >? 0); [do 2 eexists; split; [reflexivity|]; split; [assumption|lia]|].
  destruct l4; do 2 eexists; (split; [reflexivity|]); (split; [assumption|lia]).
Qed.
Lemma first_line_total : forall fuel p, wf p -> (length (pending p) < fuel)%nat -> exists e l p', first_line fuel p = Val (e, l, p') /\ wf p' /\ (length (pending p') <= length (pending p))%nat /\ (e = 0 -> (length (pending p') < length (pending p))%nat /\ l <> []).
Proof.
  induction fuel as [|fuel IH]; intros p HW Hf; [lia|]. cbn [first_line]. destruct (GetLine_total p HW) as (e & l & p1 & -> & W1 & L1). cbn [obind].
  destruct (negb (e =? 0)) eqn:E; [do 3 eexists; split; [reflexivity|]; split; [assumption|]; split; [destruct L1 as [|(-> & _ & _ & ->)]; lia|lia]|].
  destruct L1 as [L1|(_ & He & _)]; [|lia]. destruct l as [|c l].
  - destruct (IH p1 W1 ltac:(lia)) as (e2 & l2 & p2 & -> & W2 & L2 & H2). do 3 eexists. split; [reflexivity|]. split; [assumption|]. split; [lia|]. intros He. destruct (H2 He). split; [lia|assumption].
  - do 3 eexists. split; [reflexivity|]. split; [assumption|]. split; [lia|]. intros _. split; [lia|discriminate].
Qed.
Lemma payload_loop_total : forall fuel acc p, wf p -> (length (pending p) < fuel)%nat -> exists e l p', payload_loop fuel acc p = Val (e, l, p') /\ wf p' /\ (length (pending p') <= length (pending p))%nat.
Proof.
  induction fuel as [|fuel IH]; intros acc p HW Hf; [lia|]. cbn [payload_loop]. destruct (GetLine_total p HW) as (e & l & p1 & -> & W1 & L1). cbn [obind].
  assert (L1' : (length (pending p1) <= length (pending p))%nat) by (destruct L1 as [|(-> & _ & _ & ->)]; lia).
  destruct (e <? 0) eqn:E; [do 3 eexists; split; [reflexivity|]; auto|]. destruct l as [|c l]; [do 3 eexists; split; [reflexivity|]; auto|].
  destruct L1 as [L1|(_ & _ & He & _)]; [|discriminate]. destruct (IH (acc ++ [c :: l]) p1 W1 ltac:(lia)) as (e2 & l2 & p2 & -> & W2 & L2). do 3 eexists. split; [reflexivity|]. split; [assumption|lia].
Qed.

Lemma find_from_nonneg : forall pat l i a, 0 <= i -> find_from pat l i = Some a -> 0 <= a.
Proof.
  intros pat. induction l as [|c l IH]; intros i a Hi H; cbn [find_from] in H; destruct (is_prefix pat _); try (injection H as <-; exact Hi); try discriminate.
  apply (IH (i + 1) a); [lia|exact H].
Qed.
Theorem Parse_total : forall p q, wf p -> exists e q' p', Parse p q = Val (e, q', p') /\ wf p' /\ (length (pending p') <= length (pending p))%nat /\ (e = 0 -> (length (pending p') < length (pending p))%nat).
Proof.
  intros p q HW. unfold Parse. pose proof (pending_len p) as HL.
  destruct (first_line_total (fuel_of p) p HW ltac:(unfold fuel_of; lia)) as (e & l & p1 & -> & W1 & L1 & H1). cbn [obind].
  destruct (negb (e =? 0)) eqn:E; [do 3 eexists; split; [reflexivity|]; split; [assumption|]; split; [lia|lia]|]. destruct (H1 ltac:(lia)) as [L1' _]. clear H1 L1.
  set (fin := fun (x : Z * list Z * Z * cue * pstate) => _).
  assert (K : forall line a q0 p2, 0 <= a -> wf p2 -> (length (pending p2) < length (pending p))%nat -> exists e q' p', fin (0, line, a, q0, p2) = Val (e, q', p') /\ wf p' /\ (length (pending p') <= length (pending p))%nat /\ (e = 0 -> (length (pending p') < length (pending p))%nat)).
  { intros line a q0 p2 Ha W2 L2. unfold fin. change (negb (0 =? 0)) with false. cbv iota. destruct (ParseTimingsLine_total line a q0 Ha) as (e3 & q3 & ->). cbn [obind].
    destruct (negb (e3 =? 0)); [do 3 eexists; split; [reflexivity|]; split; [assumption|lia]|]. pose proof (pending_len p2).
    destruct (payload_loop_total (fuel_of p2) [] p2 W2 ltac:(unfold fuel_of; lia)) as (e4 & pl & p4 & -> & W4 & L4). cbn [obind].
    destruct (negb (e4 =? 0)); [do 3 eexists; split; [reflexivity|]; split; [assumption|lia]|]. destruct pl; do 3 eexists; (split; [reflexivity|]); (split; [assumption|lia]). }
  destruct (find_arrow l) as [a|] eqn:Ea.
  - cbn [obind]. apply K; [|assumption|lia]. exact (find_from_nonneg _ _ 0 a ltac:(lia) Ea).
  - destruct (GetLine_total p1 W1) as (e2 & l2 & p2 & -> & W2 & L2). cbn [obind]. assert (L2' : (length (pending p2) <= length (pending p1))%nat) by (destruct L2 as [|(-> & _ & _ & ->)]; lia).
    destruct (e2 <? 0) eqn:E1; [cbn [obind]; unfold fin; replace (negb (e2 =? 0)) with true by lia; do 3 eexists; split; [reflexivity|]; split; [assumption|lia]|].
    destruct (e2 >? 0) eqn:E2; [cbn [obind]; unfold fin; change (negb (-1 =? 0)) with true; do 3 eexists; split; [reflexivity|]; split; [assumption|lia]|].
    destruct (find_arrow l2) as [a|] eqn:Ea2; cbn [obind]; [apply K; [exact (find_from_nonneg _ _ 0 a ltac:(lia) Ea2)|assumption|lia]|].
    unfold fin; change (negb (-1 =? 0)) with true; do 3 eexists; split; [reflexivity|]; split; [assumption|lia].
Qed.
