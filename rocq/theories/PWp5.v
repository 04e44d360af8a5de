(* The callback parser's element tree: being told to come back later changes nothing. *)
From Coq Require Import ZifyBool ZifyNat.
From Verif Require Import Base WpSpec MWp MWpBlock MWpTree PWp1 PWp2 PWp3 PWp4.

(* all bytes are bytes *)
Definition octets (w : world) : Prop := Forall (fun b => 0 <= b < 256) (w_data w).
Lemma octets_moved : forall n w w', moved n w w' -> octets w -> octets w'.
Proof.
  intros n w w' (bs & t & us & D & _) H. unfold octets in *. rewrite D in H. apply Forall_app in H. tauto.
Qed.
Lemma octets_full : forall w, octets w -> octets (full w).
Proof. intros w H. exact H. Qed.

(* the same result, or the same parsing error after the same notifications *)
Definition agree {S} (a b : Z * Z * S * world) : Prop :=
  a = b \/
  (fst (fst (fst a)) = fst (fst (fst b)) /\ is_parsing_error (fst (fst (fst a))) = true /\
   w_trace (snd a) = w_trace (snd b)).
Lemma agree_refl : forall S (a : Z * Z * S * world), agree a a.
Proof. left; reflexivity. Qed.
Lemma agree_addn : forall S k (a b : Z * Z * S * world), agree a b -> agree (addn k a) (addn k b).
Proof.
  intros S k [[[c1 k1] s1] w1] [[[c2 k2] s2] w2] [H | H]; [left; rewrite H; reflexivity | right; exact H].
Qed.
Lemma agree_trans : forall S (a b c : Z * Z * S * world), agree a b -> agree b c -> agree a c.
Proof.
  intros S a b c [-> | (A1 & A2 & A3)] [H | (B1 & B2 & B3)]; subst.
  - left; reflexivity.
  - right; auto.
  - right; auto.
  - right. split; [congruence|]. split; [exact A2|]. congruence.
Qed.
(* agreeing results that are not parsing errors are equal *)
Lemma agree_eq : forall S (a : Z * Z * S * world) c k s w, agree a (c, k, s, w) -> is_parsing_error c = false ->
  a = (c, k, s, w).
Proof.
  intros S a c k s w [H | (H1 & H2 & H3)] E; [exact H|]. cbn in H1. congruence.
Qed.

(* What interruption may do: F are the results of the uninterrupted run, F' those of
   continuing without interruption from the state left behind. *)
Definition Res {S} (F : Z * Z * S * world -> Prop) (F' : S -> world -> Z * Z * S * world -> Prop) (w : world)
  (r : Z * Z * S * world) : Prop :=
  let '(c, k, s, w') := r in
  moved k w w' /\
  (c = kWouldBlock -> (length (w_sched w') < length (w_sched w))%nat /\
     (forall r2, F' s (full w') r2 -> exists r1, F r1 /\ agree r1 (addn k r2))) /\
  (c <> kWouldBlock -> exists r1, F r1 /\ agree r1 (c, k, s, full w')).

Lemma Res_cont : forall S (F F1 : Z * Z * S * world -> Prop) F' w w1 k1 r,
  moved k1 w w1 -> (forall x, F1 x -> F (addn k1 x)) -> Res F1 F' w1 r -> Res F F' w (addn k1 r).
Proof.
  intros S F F1 F' w w1 k1 [[[c k] s] w'] M H (M2 & W1 & W2). cbn. split; [eapply moved_trans; eauto|]. split.
  - intro E. destruct (W1 E) as (L & R). split; [pose proof (moved_sched _ _ _ M); lia|].
    intros r2 H2. destruct (R r2 H2) as (r1 & A & B). exists (addn k1 r1). split; [auto|].
    rewrite <- addn_addn. apply agree_addn. exact B.
  - intro E. destruct (W2 E) as (r1 & A & B). exists (addn k1 r1). split; [auto|].
    change (agree (addn k1 r1) (addn k1 (c, k, s, full w'))). apply agree_addn. exact B.
Qed.
Lemma Res_done : forall S (F : Z * Z * S * world -> Prop) F' w c k s w',
  moved k w w' -> c <> kWouldBlock -> F (c, k, s, full w') -> Res F F' w (c, k, s, w').
Proof.
  intros S F F' w c k s w' M N H. cbn. split; [exact M|]. split; [congruence|].
  intros _. eexists; split; [exact H | apply agree_refl].
Qed.

Lemma Bool_acc : forall num v w c k v' w', octets w -> 0 <= v -> (v + 1) * 256 ^ Z.of_nat num <= 2 ^ 64 ->
  Accumulate false 64 num v 0 w = (c, k, v', w') -> v * 256 ^ k <= v' < (v + 1) * 256 ^ k.
Proof.
  induction num as [|n IH]; intros v w c k v' w' O V B H.
  - cbn [Accumulate] in H. quad H. change (256 ^ 0) with 1. lia.
  - cbn [Accumulate] in H. destruct (ReadByte w) as [[c1 b] w1] eqn:R. pose proof R as R0.
    apply ReadByte_spec in R0. destruct (c1 =? kOkCompleted) eqn:E.
    + assert (c1 = kOkCompleted) by lia. subst c1.
      destruct R0 as (T & [(C1 & _) | [(C1 & _) | (C1 & C2 & C3 & C4)]]); try discriminate.
      change (0 + 1) with 1 in H. rewrite Accumulate_shift in H.
      destruct (Accumulate false 64 n (acc_step false 64 v b) 0 w1) as [[[c2 k2] v2] w2] eqn:A.
      assert (Hb : 0 <= b < 256).
      { unfold octets in O. rewrite C2 in O. inversion O; subst; auto. }
      replace (Z.of_nat (S n)) with (Z.succ (Z.of_nat n)) in B by lia. rewrite Z.pow_succ_r in B by lia.
      assert (Hp : 1 <= 256 ^ Z.of_nat n) by (change 1 with (256 ^ 0); apply Z.pow_le_mono_r; lia).
      assert (H1 : (v + 1) * 256 <= 2 ^ 64).
      { eapply Z.le_trans; [|exact B]. rewrite <- (Z.mul_1_r ((v + 1) * 256)), <- Z.mul_assoc.
        apply Z.mul_le_mono_nonneg_l; lia. }
      assert (H2 : 0 <= v < 2 ^ 64) by lia. assert (H3 : 0 <= v * 256 + b < 2 ^ 64) by lia.
      assert (Hs : acc_step false 64 v b = v * 256 + b).
      { unfold acc_step, wrapu. cbv zeta. rewrite (Z.mod_small v) by exact H2. apply Z.mod_small. exact H3. }
      rewrite Hs in A. pose proof (Accumulate_spec _ _ _ _ _ _ _ _ _ A) as (M & _ & _).
      pose proof (moved_nonneg _ _ _ M) as K0. apply IH in A; [| eapply octets_moved; eauto | lia |].
      2:{ eapply Z.le_trans; [|exact B]. rewrite Z.mul_assoc. apply Z.mul_le_mono_nonneg_r; lia. }
      assert (0 < 256 ^ k2) by (apply Z.pow_pos_nonneg; lia).
      quad H. rewrite Z.pow_add_r by lia. change (256 ^ 1) with 256. nia.
    + quad H. change (256 ^ 0) with 1. lia.
Qed.

Lemma BoolParser_resumes : forall st w c k st' w', octets w -> bo_rem st <= 8 ->
  BoolParser_Feed st w = (c, k, st', w') ->
  Res (fun r => r = BoolParser_Feed st (full w)) (fun s w r => r = BoolParser_Feed s w) w (c, k, st', w').
Proof.
  intros st w c k st' w' O W H. unfold BoolParser_Feed in H.
  destruct (Accumulate false 64 (Z.to_nat (bo_rem st)) 0 0 w) as [[[c1 k1] v1] w1] eqn:A.
  assert (Bd : 256 ^ Z.of_nat (Z.to_nat (bo_rem st)) <= 2 ^ 64).
  { change (2 ^ 64) with (256 ^ 8). apply Z.pow_le_mono_r; lia. }
  assert (Bd1 : (0 + 1) * 256 ^ Z.of_nat (Z.to_nat (bo_rem st)) <= 2 ^ 64) by (rewrite Z.mul_1_l; exact Bd).
  pose proof (Bool_acc _ _ _ _ _ _ _ O (Z.le_refl 0) Bd1 A) as V.
  apply Accumulate_spec in A. destruct A as (M & T & L & A). pose proof (moved_nonneg _ _ _ M) as K0. cbv zeta in H.
  destruct A as [(C1 & C2 & C3 & C4) | A].
  - assert (Hr : bo_rem st - k1 <> 0) by lia.
    replace (negb (bo_rem st - k1 =? 0)) with true in H by lia. cbn [andb] in H.
    assert (Full : forall r, r = BoolParser_Feed st (full w) -> r =
       (let '(c, k, v, w1) := Accumulate false 64 (Z.to_nat (bo_rem st - k1)) v1 0 (full w1) in
        let rem := bo_rem st - (k1 + k) in
        if (negb (rem =? 0) && negb (v =? 0)) || (1 <? v)
        then (kInvalidElementValue, k1 + k, mk_boolst rem (bo_size st) (bo_value st), w1)
        else (c, k1 + k, mk_boolst rem (bo_size st) (if 0 <? bo_size st then v =? 1 else bo_value st), w1))).
    { intros r ->. unfold BoolParser_Feed. rewrite C4, (Accumulate_shift _ _ _ _ k1).
      replace (Z.to_nat (Z.of_nat (Z.to_nat (bo_rem st)) - k1)) with (Z.to_nat (bo_rem st - k1)) by lia.
      destruct (Accumulate false 64 (Z.to_nat (bo_rem st - k1)) v1 0 (full w1)) as [[[? ?] ?] ?]. reflexivity. }
    destruct (v1 =? 0) eqn:E0; cbn [negb orb] in H.
    + assert (v1 = 0) by lia. subst v1. cbn in H. quad H.
      cbn. split; [exact M|]. split; [|congruence]. intros _. split; [exact C3|].
      intros r2 ->. eexists; split; [reflexivity|]. rewrite (Full _ eq_refl). clear Full.
      unfold BoolParser_Feed. cbn [bo_rem bo_size bo_value].
      destruct (Accumulate false 64 (Z.to_nat (bo_rem st - k)) 0 0 (full w')) as [[[c2 k2] v2] w2].
      cbv zeta. replace (bo_rem st - (k + k2)) with (bo_rem st - k - k2) by lia.
      destruct (_ || _).
      * right. cbn. repeat split.
      * left. cbn. destruct (0 <? bo_size st); reflexivity.
    + quad H. cbn. split; [exact M|]. split; [discriminate|]. intros _.
      eexists; split; [reflexivity|]. rewrite (Full _ eq_refl). clear Full. right.
      destruct (Accumulate false 64 (Z.to_nat (bo_rem st - k)) v1 0 (full w')) as [[[c2 k2] v2] w2] eqn:A2.
      assert (Hk : 0 < 256 ^ k) by (apply Z.pow_pos_nonneg; lia).
      apply Bool_acc in A2 as V2; [| eapply octets_moved; [exact (moved_full _ _ _ M) | exact O] | lia |].
      2:{ apply Z.le_trans with (256 ^ k * 256 ^ Z.of_nat (Z.to_nat (bo_rem st - k))).
          - apply Z.mul_le_mono_nonneg_r; [apply Z.pow_nonneg; lia | lia].
          - rewrite <- Z.pow_add_r by lia.
            replace (k + Z.of_nat (Z.to_nat (bo_rem st - k))) with (Z.of_nat (Z.to_nat (bo_rem st))) by lia. exact Bd. }
      apply Accumulate_spec in A2. destruct A2 as (M2 & T2 & L2 & _). pose proof (moved_nonneg _ _ _ M2) as K2.
      assert (G : (negb (bo_rem st - (k + k2) =? 0) && negb (v2 =? 0)) || (1 <? v2) = true).
      { destruct (Z.eq_dec k2 0) as [-> | N].
        - change (256 ^ 0) with 1 in V2. lia.
        - assert (256 ^ 1 <= 256 ^ k2) by (apply Z.pow_le_mono_r; lia). change (256 ^ 1) with 256 in *. nia. }
      cbv zeta. rewrite G. cbn. repeat split. exact T2.
  - assert (Full : Accumulate false 64 (Z.to_nat (bo_rem st)) 0 0 (full w) = (c1, k1, v1, full w1) /\ c1 <> kWouldBlock).
    { destruct A as [(A1 & A2 & A3 & A4) | (A1 & A2 & A3)]; subst c1; (split; [assumption | discriminate]). }
    destruct Full as (Full & N).
    apply Res_done; [| | unfold BoolParser_Feed; rewrite Full; cbv zeta]; destruct (_ || _); quad H; auto; discriminate.
Qed.
