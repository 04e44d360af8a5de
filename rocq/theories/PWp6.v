(* The callback parser's element tree: the loop and the parsers can be interrupted. *)
From Coq Require Import ZifyBool ZifyNat.
From Verif Require Import Base WpSpec MWp MWpBlock MWpTree PWp1 PWp2 PWp3 PWp4 PWp5.

Lemma mst_ext : forall a b, m_state a = m_state b -> m_idp a = m_idp b -> m_szp a = m_szp b -> m_cm a = m_cm b ->
  m_skip a = m_skip b -> m_hsize a = m_hsize b -> m_size a = m_size b -> m_pos a = m_pos b -> m_max a = m_max b ->
  m_total a = m_total b -> m_cached a = m_cached b -> a = b.
Proof. intros [] []; cbn; intros; subst; reflexivity. Qed.
Ltac mproj := cbn [m_state m_idp m_szp m_cm m_skip m_hsize m_size m_pos m_max m_total m_cached
  m_set_state m_set_idp m_set_szp m_set_cm m_set_skip m_add_total m_set_cached cm_add_hsize me_id me_hsize me_size me_pos].
Ltac meq := apply mst_ext; mproj; try reflexivity; try lia; try (unfold cm_add_hsize; cbn [me_id me_hsize me_size me_pos]; f_equal; lia).

Section tree.
Variable cb : callback.
Hypothesis Pcb : proper cb.

Definition feeds (sk : bool) (p : pstate) (w : world) (r : Z * Z * pstate * world) : Prop :=
  exists f, feed cb f sk p w = Some r.
Definition loops (n : node) (osk sk : bool) (m : mst) (ch : child) (v : vst) (w : world)
  (r : Z * Z * (mst * child * vst) * world) : Prop :=
  exists f, mloop cb f n osk sk m ch v 0 w = Some r.
Definition reloops (n : node) (osk : bool) (s : mst * child * vst) (w : world)
  (r : Z * Z * (mst * child * vst) * world) : Prop :=
  let '(m, ch, v) := s in loops n osk (osk || m_skip m) m ch v w r.

(* the loop goes on after k bytes *)
Lemma go_on : forall f n osk sk m ch v k w r, mloop cb f n osk sk m ch v (0 + k) w = Some r ->
  exists r0, mloop cb f n osk sk m ch v 0 w = Some r0 /\ r = addn k r0.
Proof.
  intros f n osk sk m ch v k w r H. rewrite mloop_shift in H. rewrite Z.add_0_l in H.
  destruct (mloop cb f n osk sk m ch v 0 w) as [r0|]; [|discriminate]. injection H as <-. eauto.
Qed.
Lemma go_on' : forall f n osk sk m ch v k w r, mloop cb f n osk sk m ch v 0 w = Some r ->
  mloop cb f n osk sk m ch v (0 + k) w = Some (addn k r).
Proof. intros f n osk sk m ch v k w r H. rewrite mloop_shift, Z.add_0_l, H. reflexivity. Qed.
Lemma addn0 : forall S (r : Z * Z * S * world), addn 0 r = r.
Proof. intros S [[[c k] s] w]. reflexivity. Qed.

Lemma omap0 : forall S (x : option (Z * Z * S * world)), option_map (addn 0) x = x.
Proof. intros S [r|]; [cbn; rewrite addn0|]; reflexivity. Qed.

(* interrupted reading of the header *)
Lemma WB_first : forall f n osk sk m ch v w k1 i w1,
  m_state m = MFirst -> IdParser_Feed (m_idp m) w = (kWouldBlock, k1, i, w1) ->
  let cm0 := mk_meta (me_id (m_cm m)) 0 (me_size (m_cm m)) (w_pos w) in
  let m1 := m_set_idp i (m_add_total k1 (m_set_cm (cm_add_hsize k1 cm0) m)) in
  mloop cb (S f) n osk sk m ch v 0 (full w) =
  option_map (addn k1) (mloop cb (S f) n osk sk (if 0 <? k1 then m_set_state MFinishing m1 else m1) ch v 0 (full w1)).
Proof.
  intros f n osk sk m ch v w k1 i w1 Em I cm0 m1.
  pose proof (IdParser_resumes _ _ _ _ _ _ I) as (M & W1 & _). destruct (W1 eq_refl) as (L & F).
  pose proof (moved_nonneg _ _ _ M) as K0.
  destruct (0 <? k1) eqn:E.
  - rewrite ml_MFirst by exact Em. rewrite ml_MFinishing by reflexivity. cbv zeta. rewrite F.
    assert (P1 : m_idp (m_set_state MFinishing m1) = i) by reflexivity. rewrite P1.
    destruct (IdParser_Feed i (full w1)) as [[[s2 k2] i2] w2] eqn:I2. cbn [addn].
    pose proof (IdParser_code _ _ _ _ _ _ I2) as C. apply IdParser_resumes in I2. destruct I2 as (M2 & _).
    pose proof (moved_nonneg _ _ _ M2) as K2.
    replace (k1 + k2 =? 0) with false by lia. rewrite andb_false_r. cbn iota.
    replace (0 <? k1 + k2) with true by lia.
    replace (s2 =? kOkPartial) with false by (unfold kOkPartial, kOkCompleted, kWouldBlock, kEndOfFile, kInvalidElementId in *; lia).
    rewrite orb_false_r.
    assert (Q : m_set_idp i2 (m_add_total (k1 + k2) (m_set_cm (cm_add_hsize (k1 + k2)
        (mk_meta (me_id (m_cm m)) 0 (me_size (m_cm m)) (w_pos (full w)))) m)) =
       m_set_state MFirst (m_set_idp i2 (m_add_total k2 (m_set_cm (cm_add_hsize k2 (m_cm (m_set_state MFinishing m1))) (m_set_state MFinishing m1))))).
    { unfold m1, cm0. meq. exact Em. }
    rewrite Q. clear Q. set (mm := m_set_idp i2 _).
    destruct (s2 =? kOkCompleted); cbn [negb].
    + change (m_set_state MSize (m_set_state MFirst mm)) with (m_set_state MSize mm).
      rewrite mloop_shift. rewrite (mloop_shift _ _ _ _ _ _ _ _ (0 + k2)).
      destruct (mloop cb f n osk sk (m_set_state MSize mm) ch v 0 w2) as [r|]; [|reflexivity]. cbn [option_map].
      rewrite addn_addn. reflexivity.
    + reflexivity.
  - assert (k1 = 0) by lia. subst k1.
    assert (Em1 : m_state m1 = MFirst) by exact Em.
    rewrite !ml_MFirst by assumption. cbv zeta. rewrite F.
    assert (P1 : m_idp m1 = i) by reflexivity. rewrite P1.
    destruct (IdParser_Feed i (full w1)) as [[[s2 k2] i2] w2] eqn:I2. cbn [addn].
    assert (Pw : w_pos (full w1) = w_pos (full w)).
    { destruct M as (_ & _ & _ & _ & _ & P & _). cbn. lia. }
    assert (Q : m_set_idp i2 (m_add_total (0 + k2) (m_set_cm (cm_add_hsize (0 + k2)
        (mk_meta (me_id (m_cm m)) 0 (me_size (m_cm m)) (w_pos (full w)))) m)) =
       m_set_idp i2 (m_add_total k2 (m_set_cm (cm_add_hsize k2 (mk_meta (me_id (m_cm m1)) 0 (me_size (m_cm m1)) (w_pos (full w1)))) m1))).
    { rewrite Pw. unfold m1, cm0. meq. }
    rewrite Q. clear Q. set (mm := m_set_idp i2 _). change (m_size m1) with (m_size m).
    rewrite !Z.add_0_l. rewrite omap0. reflexivity.
Qed.
Lemma WB_finishing : forall f n osk sk m ch v w k1 i w1,
  m_state m = MFinishing -> IdParser_Feed (m_idp m) w = (kWouldBlock, k1, i, w1) ->
  let m1 := m_set_idp i (m_add_total k1 (m_set_cm (cm_add_hsize k1 (m_cm m)) m)) in
  mloop cb (S f) n osk sk m ch v 0 (full w) =
  option_map (addn k1) (mloop cb (S f) n osk sk m1 ch v 0 (full w1)).
Proof.
  intros f n osk sk m ch v w k1 i w1 Em I m1.
  pose proof (IdParser_resumes _ _ _ _ _ _ I) as (M & W1 & _). destruct (W1 eq_refl) as (L & F).
  assert (Em1 : m_state m1 = MFinishing) by exact Em.
  rewrite !ml_MFinishing by assumption. cbv zeta. rewrite F.
  assert (P1 : m_idp m1 = i) by reflexivity. rewrite P1.
  destruct (IdParser_Feed i (full w1)) as [[[s2 k2] i2] w2]. cbn [addn].
  assert (Q : m_set_idp i2 (m_add_total (k1 + k2) (m_set_cm (cm_add_hsize (k1 + k2) (m_cm m)) m)) =
     m_set_idp i2 (m_add_total k2 (m_set_cm (cm_add_hsize k2 (m_cm m1)) m1))).
  { unfold m1. meq. }
  rewrite Q. clear Q. set (mm := m_set_idp i2 _).
  destruct (s2 =? kOkCompleted); cbn [negb].
  - rewrite mloop_shift. rewrite (mloop_shift _ _ _ _ _ _ _ _ (0 + k2)).
    destruct (mloop cb f n osk sk (m_set_state MSize mm) ch v 0 w2) as [r|]; [|reflexivity]. cbn [option_map].
    rewrite addn_addn. reflexivity.
  - reflexivity.
Qed.
Lemma WB_size : forall f n osk sk m ch v w k1 z w1,
  m_state m = MSize -> SizeParser_Feed (m_szp m) w = (kWouldBlock, k1, z, w1) ->
  let m1 := m_set_szp z (m_add_total k1 (m_set_cm (cm_add_hsize k1 (m_cm m)) m)) in
  mloop cb (S f) n osk sk m ch v 0 (full w) =
  option_map (addn k1) (mloop cb (S f) n osk sk m1 ch v 0 (full w1)).
Proof.
  intros f n osk sk m ch v w k1 z w1 Em I m1.
  pose proof (SizeParser_resumes _ _ _ _ _ _ I) as (M & W1 & _). destruct (W1 eq_refl) as (L & F).
  assert (Em1 : m_state m1 = MSize) by exact Em.
  rewrite !ml_MSize by assumption. cbv zeta. rewrite F.
  assert (P1 : m_szp m1 = z) by reflexivity. rewrite P1.
  destruct (SizeParser_Feed z (full w1)) as [[[s2 k2] z2] w2]. cbn [addn].
  assert (Q : m_set_szp z2 (m_add_total (k1 + k2) (m_set_cm (cm_add_hsize (k1 + k2) (m_cm m)) m)) =
     m_set_szp z2 (m_add_total k2 (m_set_cm (cm_add_hsize k2 (m_cm m1)) m1))).
  { unfold m1. meq. }
  rewrite Q. clear Q. set (mm := m_set_szp z2 _). change (m_idp m1) with (m_idp m).
  destruct (s2 =? kOkCompleted); cbn [negb].
  - set (mn := m_set_state MValidate _). rewrite mloop_shift. rewrite (mloop_shift _ _ _ _ _ _ _ _ (0 + k2)).
    destruct (mloop cb f n osk sk mn ch v 0 w2) as [r|]; [|reflexivity]. cbn [option_map].
    rewrite addn_addn. reflexivity.
  - reflexivity.
Qed.

Lemma WB_loop : forall n osk sk m ch v w k1 m1 w1 (I : moved k1 w w1),
  (length (w_sched w1) < length (w_sched w))%nat -> sk = osk || m_skip m1 ->
  (forall f, mloop cb (S f) n osk sk m ch v 0 (full w) =
             option_map (addn k1) (mloop cb (S f) n osk sk m1 ch v 0 (full w1))) ->
  Res (loops n osk sk m ch v (full w)) (reloops n osk) w (kWouldBlock, k1, (m1, ch, v), w1).
Proof.
  intros n osk sk m ch v w k1 m1 w1 M L S H. cbn. split; [exact M|]. split; [|congruence]. intros _.
  split; [exact L|]. intros r2 (f & F). destruct f as [|f]; [discriminate|].
  exists (addn k1 r2). split; [|apply agree_refl]. exists (Datatypes.S f). rewrite H, S, F. reflexivity.
Qed.

Lemma on_started_not_wb : forall n sk m v w c s w', on_started cb n sk m v w = (c, s, w') -> c <> kWouldBlock.
Proof. intros. apply on_started_spec in H; [|exact Pcb]. unfold kWouldBlock. lia. Qed.

Lemma sw_not_wb : forall s1 (skip : bool), 0 <= s1 ->
  (if negb (s1 =? kOkCompleted) then s1 else if skip then kSwitchToSkip else kOkCompleted) <> kWouldBlock.
Proof.
  intros s1 skip H. unfold kSwitchToSkip, kWouldBlock, kOkCompleted. destruct (s1 =? 0); cbn [negb]; [|lia].
  destruct skip; lia.
Qed.

Definition wfeed (f : nat) : Prop := forall sk p w r, octets w -> wfp p -> feed cb f sk p w = Some r ->
  Res (feeds sk p (full w)) (feeds sk) w r.
Definition wloop (f : nat) : Prop := forall n osk sk m ch v w r, octets w -> wfm m ch ->
  (n = NVal VCluster -> v_skip v = true -> osk = true) -> sk = osk || m_skip m ->
  mloop cb f n osk sk m ch v 0 w = Some r ->
  Res (loops n osk sk m ch v (full w)) (reloops n osk) w r.

(* continuing after k1 bytes in another state *)
Lemma cont : forall f n osk sk m ch v w sk1 m1 ch1 v1 w1 k1 r, wloop f ->
  mloop cb f n osk sk1 m1 ch1 v1 (0 + k1) w1 = Some r ->
  moved k1 w w1 -> octets w -> wfm m1 ch1 ->
  (n = NVal VCluster -> v_skip v1 = true -> osk = true) -> sk1 = osk || m_skip m1 ->
  (forall x, loops n osk sk1 m1 ch1 v1 (full w1) x -> loops n osk sk m ch v (full w) (addn k1 x)) ->
  Res (loops n osk sk m ch v (full w)) (reloops n osk) w r.
Proof.
  intros f n osk sk m ch v w sk1 m1 ch1 v1 w1 k1 r IH H M O W V S X.
  apply go_on in H. destruct H as (r0 & H & ->). eapply Res_cont; [exact M | exact X|].
  eapply IH; eauto. eapply octets_moved; eauto.
Qed.
Lemma cont0 : forall f n osk sk m ch v w sk1 m1 ch1 v1 w1 r, wloop f ->
  mloop cb f n osk sk1 m1 ch1 v1 0 w1 = Some r ->
  moved 0 w w1 -> octets w -> wfm m1 ch1 ->
  (n = NVal VCluster -> v_skip v1 = true -> osk = true) -> sk1 = osk || m_skip m1 ->
  (forall x, loops n osk sk1 m1 ch1 v1 (full w1) x -> loops n osk sk m ch v (full w) x) ->
  Res (loops n osk sk m ch v (full w)) (reloops n osk) w r.
Proof.
  intros. change 0 with (0 + 0) in H0. eapply cont; eauto. intros x X. rewrite addn0. auto.
Qed.

Lemma loop_step : forall f, wfeed f -> wloop f -> wloop (S f).
Proof.
  intros f IHf IHm n osk sk m ch v w r O (Wm & Wc) V S H.
  destruct (m_state m) eqn:Em.
  - rewrite ml_MFirst in H by exact Em. cbv zeta in H.
    destruct (IdParser_Feed (m_idp m) w) as [[[s k1] i] w1] eqn:I.
    pose proof (IdParser_resumes _ _ _ _ _ _ I) as (M & W1 & W2).
    destruct (Z.eq_dec s kWouldBlock) as [-> | N].
    + destruct (W1 eq_refl) as (L & _). change (negb _) with true in H. cbn [andb] in H.
      change (kWouldBlock =? kEndOfFile) with false in H. cbn [andb] in H. cbn iota in H.
      injection H as <-. apply WB_loop; [exact M | exact L | destruct (0 <? k1); exact S |].
      intro g. apply (WB_first g _ _ _ _ _ _ _ _ _ _ Em I).
    + specialize (W2 N).
      destruct (_ && _ && _) eqn:C1.
      { eapply cont; [exact IHm | exact H | exact M | exact O | split; auto | exact V | exact S |].
        intros x (g & G). exists (Datatypes.S g). rewrite ml_MFirst by exact Em. cbv zeta. rewrite W2. cbn iota. rewrite C1. apply go_on'. exact G. }
      destruct (negb _) eqn:C2.
      { injection H as <-. apply Res_done; [exact M | exact N|]. exists 1%nat.
        rewrite ml_MFirst by exact Em. cbv zeta. rewrite W2. cbn iota. rewrite C1, C2. reflexivity. }
      destruct (s =? kOkCompleted) eqn:C3.
      all: eapply cont; [exact IHm | exact H | exact M | exact O | split; auto | exact V | exact S |].
      all: intros x (g & G); exists (Datatypes.S g); rewrite ml_MFirst by exact Em; cbv zeta; rewrite W2; cbn iota;
           rewrite C1; cbn [negb orb] in C2 |- *; rewrite C3; cbn [orb negb] in *; rewrite ?C2; apply go_on'; exact G.
  - rewrite ml_MFinishing in H by exact Em. cbv zeta in H.
    destruct (IdParser_Feed (m_idp m) w) as [[[s k1] i] w1] eqn:I.
    pose proof (IdParser_resumes _ _ _ _ _ _ I) as (M & W1 & W2).
    destruct (Z.eq_dec s kWouldBlock) as [-> | N].
    + destruct (W1 eq_refl) as (L & _). change (negb _) with true in H. cbn iota in H.
      injection H as <-. apply WB_loop; [exact M | exact L | exact S |].
      intro g. apply (WB_finishing g _ _ _ _ _ _ _ _ _ _ Em I).
    + specialize (W2 N). destruct (s =? kOkCompleted) eqn:C3; cbn [negb] in H.
      * eapply cont; [exact IHm | exact H | exact M | exact O | split; auto | exact V | exact S |].
        intros x (g & G); exists (Datatypes.S g); rewrite ml_MFinishing by exact Em; cbv zeta; rewrite W2; cbn iota;
        rewrite C3; apply go_on'; exact G.
      * injection H as <-. apply Res_done; [exact M | exact N|]. exists 1%nat.
        rewrite ml_MFinishing by exact Em. cbv zeta. rewrite W2. cbn iota. rewrite C3. reflexivity.
  - rewrite ml_MSize in H by exact Em. cbv zeta in H.
    destruct (SizeParser_Feed (m_szp m) w) as [[[s k1] i] w1] eqn:I.
    pose proof (SizeParser_resumes _ _ _ _ _ _ I) as (M & W1 & W2).
    destruct (Z.eq_dec s kWouldBlock) as [-> | N].
    + destruct (W1 eq_refl) as (L & _). change (negb _) with true in H. cbn iota in H.
      injection H as <-. apply WB_loop; [exact M | exact L | exact S |].
      intro g. apply (WB_size g _ _ _ _ _ _ _ _ _ _ Em I).
    + specialize (W2 N). pose proof (Size_nonneg _ _ _ _ _ _ I) as Sn. destruct (s =? kOkCompleted) eqn:C3; cbn [negb] in H.
      * eapply cont; [exact IHm | exact H | exact M | exact O | split; [apply Sn; lia | auto] | exact V | exact S |].
        intros x (g & G); exists (Datatypes.S g); rewrite ml_MSize by exact Em; cbv zeta; rewrite W2; cbn iota;
        rewrite C3; apply go_on'; exact G.
      * injection H as <-. apply Res_done; [exact M | exact N|]. exists 1%nat.
        rewrite ml_MSize by exact Em. cbv zeta. rewrite W2. cbn iota. rewrite C3. reflexivity.
  - rewrite ml_MValidate in H by exact Em. cbv zeta in H.
    destruct (byte_cap m <? _) eqn:C1.
    { injection H as <-. apply Res_done; [apply moved_refl | discriminate|]. exists 1%nat.
      rewrite ml_MValidate by exact Em. cbv zeta. rewrite C1. reflexivity. }
    destruct (lookup (me_id (m_cm m)) (children n)) as [cn|] eqn:C2.
    + eapply cont0; [exact IHm | exact H | apply moved_refl | exact O | split; cbn; auto | exact V | exact S|].
      intros x (g & G); exists (Datatypes.S g); rewrite ml_MValidate by exact Em; cbv zeta; rewrite C1, C2. exact G.
    + destruct (m_size m =? kUnknownElementSize) eqn:C3.
      { eapply cont0; [exact IHm | exact H | apply moved_refl | exact O | split; auto | exact V | exact S|].
        intros x (g & G); exists (Datatypes.S g); rewrite ml_MValidate by exact Em; cbv zeta; rewrite C1, C2, C3. exact G. }
      destruct (me_size (m_cm m) =? kUnknownElementSize) eqn:C4.
      { injection H as <-. apply Res_done; [apply moved_refl | discriminate|]. exists 1%nat.
        rewrite ml_MValidate by exact Em. cbv zeta. rewrite C4, C1, C2, C3. reflexivity. }
      eapply cont0; [exact IHm | exact H | apply moved_refl | exact O | split; cbn; auto | exact V | exact S|].
      intros x (g & G); exists (Datatypes.S g); rewrite ml_MValidate by exact Em; cbv zeta; rewrite C4, C1, C2, C3. exact G.
  - rewrite ml_MAction in H by exact Em. cbv zeta in H.
    destruct (notify cb sk (EElement (m_cm m)) w) as [[s skip] w1] eqn:N. pose proof N as N0.
    apply notify_spec in N; [|exact Pcb]. destruct N as (N1 & N2 & N3 & N4 & _).
    destruct (s =? kOkCompleted) eqn:C1; cbn [negb] in H.
    2:{ injection H as <-. apply Res_done; [exact N3 | exact N2|]. exists 1%nat.
        rewrite ml_MAction by exact Em. cbv zeta. rewrite N4. cbn iota. rewrite C1. reflexivity. }
    destruct skip.
    + eapply cont0; [exact IHm | exact H | exact N3 | exact O | split; [auto | destruct (me_size (m_cm m) =? kUnknownElementSize); cbn; auto] | exact V | cbn; symmetry; apply orb_true_r|].
      intros x (g & G); exists (Datatypes.S g); rewrite ml_MAction by exact Em; cbv zeta; rewrite N4; cbn iota; rewrite C1. exact G.
    + assert (Hsk : sk = false) by (destruct sk; [unfold notify in N0; discriminate | reflexivity]).
      eapply cont0; [exact IHm | exact H | exact N3 | exact O | split; cbn; auto | exact V | rewrite Hsk in *; destruct osk; [discriminate | reflexivity] |].
      intros x (g & G); exists (Datatypes.S g); rewrite ml_MAction by exact Em; cbv zeta; rewrite N4; cbn iota; rewrite C1. exact G.
  - rewrite ml_MInit in H by exact Em. destruct ch as [|cn|]; try discriminate.
    destruct (parser_Init cn (m_cm m) (m_max m - m_total m)) as [s p] eqn:I.
    destruct (s =? kOkCompleted) eqn:C1; cbn [negb] in H.
    + eapply cont0; [exact IHm | exact H | apply moved_refl | exact O | split; [auto | cbn; eapply Init_wf; eauto; lia] | exact V | exact S|].
      intros x (g & G); exists (Datatypes.S g); rewrite ml_MInit by exact Em; rewrite I, C1. exact G.
    + injection H as <-. apply Res_done; [apply moved_refl | |].
      * intro E. subst s. destruct cn; cbn [parser_Init] in I; try (injection I as K1 K2; subst; discriminate);
        unfold IntParser_Init, FloatParser_Init, DateParser_Init, BoolParser_Init, IdElementParser_Init, ByteParser_Init,
          SkipParser_Init, BlockParser_Init, VirtualBlockParser_Init in I;
        try (repeat match type of I with context [if ?b then _ else _] => destruct b end; discriminate);
        try (destruct d; discriminate).
      * exists 1%nat. rewrite ml_MInit by exact Em. rewrite I, C1. reflexivity.
  - rewrite ml_MBody in H by exact Em. destruct ch as [| |p]; try discriminate. cbv zeta in H. cbn [wfc] in Wc.
    match type of H with match ?x with _ => _ end = _ => set (pre := x) in H end.
    assert (Hpre : exists s0 v0 w0, pre = (s0, v0, w0) /\ moved 0 w w0 /\ s0 <> kWouldBlock /\
      (if wrapped n p && is_start n p && negb (v_started v) then
                  let '(s1, skip, w1) := on_started cb n sk m v (full w) in
                  let v1 := mk_vst (v_val v) skip (v_complete v) (s1 =? kOkCompleted) in
                  (if negb (s1 =? kOkCompleted) then s1
                   else if skip then kSwitchToSkip else kOkCompleted, v1, w1)
                else (kOkCompleted, v, full w)) = (s0, v0, full w0) /\
      (s0 = kOkCompleted -> (n = NVal VCluster -> v_skip v0 = true -> osk = true) /\
                            wrapped n p && is_start n p && negb (v_started v0) = false)).
    { unfold pre. destruct (wrapped n p && is_start n p && negb (v_started v)) eqn:C.
      - destruct (on_started cb n sk m v w) as [[s1 skip] w1] eqn:Os.
        apply on_started_spec in Os; [|exact Pcb]. destruct Os as (O1 & O2 & O3 & O4).
        exists (if negb (s1 =? kOkCompleted) then s1 else if skip then kSwitchToSkip else kOkCompleted),
          (mk_vst (v_val v) skip (v_complete v) (s1 =? kOkCompleted)), w1.
        split; [reflexivity|]. split; [exact O2|]. split.
        { apply sw_not_wb. exact O1. }
        rewrite O3. split; [reflexivity|]. cbn [v_skip v_started].
        destruct (s1 =? kOkCompleted) eqn:E1; cbn [negb].
        + destruct skip; [discriminate|]. intros _. split; [discriminate | apply andb_false_r].
        + intro E. subst s1. discriminate.
      - exists kOkCompleted, v, w. split; [reflexivity|]. split; [apply moved_refl|]. split; [discriminate|].
        split; [reflexivity|]. intros _. split; [exact V | exact C]. }
    destruct Hpre as (s0 & v0 & w0 & Hp & M0 & N0 & Fp & Hok). rewrite Hp in H. clear pre Hp. cbv zeta in Fp.
    destruct (s0 =? kOkCompleted) eqn:E0; cbn [negb] in H.
    2:{ injection H as <-. apply Res_done; [exact M0 | exact N0|]. exists 1%nat.
        rewrite ml_MBody by exact Em. cbv zeta. rewrite Fp. cbn iota. rewrite E0. reflexivity. }
    pose proof E0 as E0'. apply Z.eqb_eq in E0'. subst s0. destruct (Hok eq_refl) as (V0 & St). clear Hok.
    destruct (feed cb f sk p w0) as [[[[s2 k2] p2] w2]|] eqn:Fd; [|discriminate].
    assert (O0 : octets w0) by (eapply octets_moved; eauto).
    pose proof (proj1 (feed_keeps cb Pcb f) _ _ _ _ _ _ _ Wc Fd) as (Fk1 & Fk2 & Fk3).
    pose proof (IHf _ _ _ _ O0 Wc Fd) as (M2 & F1 & F2).
    assert (Mt : moved k2 w w2) by (eapply moved_trans'; eauto; lia).
    set (v2 := fun s2 p2 => if wrapped n p && (s2 =? kOkCompleted) && negb (v_skip v0) && negb (was_skipped p2)
                            then mk_vst (v_val v0 ++ [(me_id (m_cm m), p_value p2)]) (v_skip v0)
                                        (v_complete v0) (v_started v0)
                            else v0).
    (* the uninterrupted run, from what the child gives *)
    assert (Bad : forall s k q wq, feeds sk p (full w0) (s, k, q, wq) -> s <> kOkCompleted ->
      loops n osk sk m (CAct p) v (full w) (s, k, (m_add_total k m, CAct q, v2 s q), wq)).
    { intros s k q wq (g & G) Ns. exists (Datatypes.S g). rewrite ml_MBody by exact Em. cbv zeta. rewrite Fp. cbn iota.
      rewrite E0. cbn [negb]. rewrite G. unfold v2. rewrite (proj2 (Z.eqb_neq _ _) Ns). reflexivity. }
    assert (Good : forall k q wq x, feeds sk p (full w0) (kOkCompleted, k, q, wq) ->
      loops n osk sk (m_set_state MParsed (m_add_total k m)) (CAct q) (v2 kOkCompleted q) wq x ->
      loops n osk sk m (CAct p) v (full w) (addn k x)).
    { intros k q wq x (g & G) (h & Hh). exists (Datatypes.S (Nat.max g h)). rewrite ml_MBody by exact Em. cbv zeta. rewrite Fp. cbn iota.
      rewrite E0. cbn [negb]. rewrite (feed_mono cb g (Nat.max g h) _ _ _ _ (Nat.le_max_l _ _) G). cbn [negb].
      change (kOkCompleted =? kOkCompleted) with true. cbn [negb]. apply go_on'.
      apply (mloop_mono cb h (Nat.max g h)); [apply Nat.le_max_r | exact Hh]. }
    destruct (s2 =? kOkCompleted) eqn:E2; cbn [negb] in H.
    + apply Z.eqb_eq in E2. subst s2.
      destruct (F2 ltac:(discriminate)) as (r1 & A1 & A2). apply agree_eq in A2; [|reflexivity]. subst r1.
      eapply cont; [exact IHm | exact H | exact Mt | exact O | split; [auto | cbn; auto] | | exact S |].
      * destruct (wrapped n p && true && negb (v_skip v0) && negb (was_skipped p2)); exact V0.
      * intros x X. eapply Good; [exact A1 | exact X].
    + injection H as <-. rewrite andb_false_r. cbn [andb].
      destruct (Z.eq_dec s2 kWouldBlock) as [-> | N2].
      * destruct (F1 eq_refl) as (L & Fr). cbn. split; [exact Mt|]. split; [|congruence]. intros _.
        split; [pose proof (moved_sched _ _ _ M0); lia|].
        intros r2 (g & G). destruct g as [|g]; [discriminate|].
        rewrite ml_MBody in G by exact Em. cbv zeta in G.
        rewrite <- (wrapped_tag _ _ _ (eq_sym Fk2)), <- (is_start_tag _ _ _ (eq_sym Fk2)), St in G.
        cbn iota in G. change (negb (kOkCompleted =? kOkCompleted)) with false in G. cbn iota in G.
        change (m_skip (m_add_total k2 m)) with (m_skip m) in G. rewrite <- S in G.
        destruct (feed cb g sk p2 (full w2)) as [[[[s3 k3] p3] w3]|] eqn:Fd3; [|discriminate].
        destruct (Fr _ (ex_intro _ g Fd3)) as (r1 & A1 & A2). cbn [addn] in A2.
        destruct (s3 =? kOkCompleted) eqn:E3; cbn [negb] in G.
        -- apply Z.eqb_eq in E3. subst s3. apply agree_eq in A2; [|reflexivity]. subst r1.
           apply go_on in G. destruct G as (r0 & G & ->).
           exists (addn (k2 + k3) r0). split; [|rewrite addn_addn; apply agree_refl].
           eapply Good; [exact A1|]. exists g.
           assert (Q : m_add_total (k2 + k3) m = m_add_total k3 (m_add_total k2 m)) by meq. rewrite Q. exact G.
        -- injection G as <-. destruct r1 as [[[s4 k4] p4] w4].
           assert (s4 = s3) by (destruct A2 as [A2 | (A2 & _)]; [congruence | exact A2]). subst s4.
           eexists. split; [eapply Bad; [exact A1 | apply Z.eqb_neq; assumption]|].
           destruct A2 as [A2 | (B1 & B2 & B3)].
           ++ quad A2. left. cbn [addn]. unfold v2. rewrite E3.
              assert (Q : m_add_total (k2 + k3) m = m_add_total k3 (m_add_total k2 m)) by meq. rewrite Q. reflexivity.
           ++ right. cbn in *. auto.
      * destruct (F2 N2) as (r1 & A1 & A2). destruct r1 as [[[s4 k4] p4] w4].
        assert (s4 = s2) by (destruct A2 as [A2 | (A2 & _)]; [congruence | exact A2]). subst s4.
        cbn. split; [exact Mt|]. split; [congruence|]. intros _.
        eexists. split; [eapply Bad; [exact A1 | apply Z.eqb_neq; assumption]|].
        destruct A2 as [A2 | (B1 & B2 & B3)].
        -- quad A2. left. unfold v2. rewrite E2, andb_false_r. reflexivity.
        -- right. cbn in *. auto.
  - rewrite ml_MParsed in H by exact Em.
    destruct (byte_cap m <? m_total m) eqn:C1.
    { injection H as <-. apply Res_done; [apply moved_refl | discriminate|]. exists 1%nat.
      rewrite ml_MParsed by exact Em. rewrite C1. reflexivity. }
    destruct (m_total m =? byte_cap m) eqn:C2.
    { eapply cont0; [exact IHm | exact H | apply moved_refl | exact O | split; auto | exact V | exact S|].
      intros x (g & G); exists (Datatypes.S g); rewrite ml_MParsed by exact Em; rewrite C1, C2. exact G. }
    destruct ch as [| |p]; try discriminate. destruct (cached p) as [x|] eqn:C3.
    + eapply cont0; [exact IHm | exact H | apply moved_refl | exact O | split; [cbn; eapply cached_wf; eauto | exact I]
        | exact V | cbn; symmetry; apply orb_false_r|].
      intros y (g & G); exists (Datatypes.S g); rewrite ml_MParsed by exact Em; rewrite C1, C2, C3. exact G.
    + eapply cont0; [exact IHm | exact H | apply moved_refl | exact O | split; [auto | exact I] | exact V | cbn; symmetry; apply orb_false_r|].
      intros y (g & G); exists (Datatypes.S g); rewrite ml_MParsed by exact Em; rewrite C1, C2, C3. exact G.
  - rewrite ml_MEnd in H by exact Em. injection H as <-.
    apply Res_done; [apply moved_refl | discriminate|]. exists 1%nat. rewrite ml_MEnd by exact Em. reflexivity.
Qed.
End tree.
