(* The callback parser: every call returns. *)
From Coq Require Import ZifyBool ZifyNat.
From Verif Require Import Base WpSpec MWp MWpBlock MWpTree PWp1 PWp2 PWp3 PWp4 PWp5 PWp6 PWp7 PWp8.

(* ---------- how deep an element can nest ---------- *)
Definition vht (v : vname) : nat :=
  match v with
  | VAtom d | VSimpleTag d => 3 + 2 * d
  | VEdition | VTag => 54
  | VTrackEntry => 5
  | VEncodings | VCluster => 4
  | VVideo | VEncoding | VBlockGroup => 3
  | VBlockAdditions | VSlices | VEncryption | VColour | VCuePoint => 2
  | _ => 1
  end.
Definition ht (n : node) : nat :=
  match n with
  | NSegment => 60
  | NChapters | NTags => 55
  | NTracks => 6
  | NCues => 3
  | NSeekHead => 2
  | NVal v => vht v
  | NRecAtom d | NRecTag d => 2 + 2 * d
  | _ => 0
  end.
Fixpoint pht (p : pstate) : nat :=
  match p with PMaster n _ _ _ => ht n | PRec q => S (pht q) | _ => 0 end.

Lemma ht_pos : forall n, is_master n = true -> (0 < ht n)%nat.
Proof. intros n H. destruct n; try discriminate; cbn; try lia. destruct v; cbn; lia. Qed.
Lemma lookup_In : forall id l cn, lookup id l = Some cn -> In cn (map snd l).
Proof.
  intros id l cn. induction l as [|[i x] l IH]; [discriminate|]. cbn. destruct (i =? id).
  - intro H. injection H as <-. left. reflexivity.
  - intro H. right. auto.
Qed.
Lemma children_ht : forall n, is_master n = true -> Forall (fun cn => (ht cn < ht n)%nat) (map snd (children n)).
Proof.
  intros n H. destruct n; try discriminate.
  1-6: unfold children, own_children; cbn [app map snd]; repeat (constructor; [cbn [ht vht]; lia|]); constructor.
  destruct v; unfold children, own_children, val_children; cbn [app map snd];
    repeat (constructor; [cbn [ht vht]; lia|]); constructor.
Qed.
Lemma lookup_ht : forall n id cn, is_master n = true -> lookup id (children n) = Some cn -> (ht cn < ht n)%nat.
Proof.
  intros n id cn H L. apply lookup_In in L. pose proof (children_ht n H) as F. rewrite Forall_forall in F. auto.
Qed.

(* ---------- consistent states ---------- *)
(* the identifier still needs a byte *)
Definition need (i : idst) : Prop := ip_rem i = -1 \/ 0 < ip_rem i.
Lemma need_new : need id_new.
Proof. left. reflexivity. Qed.
Lemma clz_le : forall n v c, 0 <= c -> 0 <= clz_loop n v c.
Proof.
  induction n as [|n IH]; intros v c H; cbn [clz_loop]; [exact H|]. destruct (_ =? 0); [apply IH; lia | exact H].
Qed.
Lemma Id_need : forall i w c k i' w', need i -> IdParser_Feed i w = (c, k, i', w') ->
  (c = kOkCompleted -> 0 < k) /\ (c <> kOkCompleted -> need i').
Proof.
  intros i w c k i' w' N H. unfold IdParser_Feed in H. destruct (ip_rem i =? -1) eqn:E.
  - destruct (ReadByte w) as [[c1 b] w1] eqn:R. destruct (c1 =? kOkCompleted) eqn:E1; cbn [negb] in H.
    + destruct (Z.land b 240 =? 0); [quad H; split; [discriminate | intros _; exact N]|].
      unfold id_rest in H. destruct (Accumulate _ _ _ _ _ w1) as [[[c2 k2] v2] w2] eqn:A.
      apply Accumulate_spec in A. destruct A as (M & _ & L & C). pose proof (moved_nonneg _ _ _ M). quad H.
      split; [lia|]. intro Nc. right. cbn [ip_rem].
      assert (0 <= CountLeadingZeros b) by (unfold CountLeadingZeros; destruct (b =? 0); [lia | apply clz_le; lia]). cbn [ip_rem ip_id] in *.
      destruct C as [(X & Y & _) | [(X & Y & _) | (X & _)]]; [lia | lia | contradiction].
    + quad H. split; [intros ->; discriminate | intros _; exact N].
  - unfold id_rest in H. destruct (Accumulate _ _ _ _ _ w) as [[[c2 k2] v2] w2] eqn:A.
    apply Accumulate_spec in A. destruct A as (M & _ & L & C). pose proof (moved_nonneg _ _ _ M). quad H.
    assert (P : 0 < ip_rem i) by (unfold need in N; lia). split.
    + intros ->. destruct C as [(X & _) | [(X & _) | (_ & X & _)]]; try discriminate. lia.
    + intro Nc. right. cbn [ip_rem].
      destruct C as [(X & Y & _) | [(X & Y & _) | (X & _)]]; [lia | lia | contradiction].
Qed.

Definition consk (n : node) (st : mstate) (i : idst) (ch : child) (rec : Prop) : Prop :=
  is_master n = true /\
  match st with
  | MFirst => need i
  | MAction | MInit => match ch with CSel cn => (ht cn < ht n)%nat | _ => False end
  | MBody | MParsed => match ch with CAct p => (pht p < ht n)%nat | _ => False end /\ rec
  | _ => True
  end.
Fixpoint cons (p : pstate) : Prop :=
  match p with
  | PMaster n m ch _ => consk n (m_state m) (m_idp m) ch (consc ch)
  | PRec q => cons q
  | _ => True
  end
with consc (ch : child) : Prop :=
  match ch with CAct p => cons p | _ => True end.
Definition consm (n : node) (m : mst) (ch : child) : Prop := consk n (m_state m) (m_idp m) ch (consc ch).

Lemma Init_cons : forall n x max p, parser_Init n x max = (kOkCompleted, p) -> cons p /\ (pht p <= ht n)%nat.
Proof.
  assert (A : forall n x max, is_master n = true -> cons (PMaster n (MasterParser_Init x max) CNone v_new)).
  { intros n x max H. cbn. split; [exact H|]. destruct (me_size x =? 0); [exact I | apply need_new]. }
  intros n x max p H. destruct n; cbn [parser_Init] in H;
    try (injection H as K1 K2; subst p; split; [exact I | cbn; lia]);
    try (injection H as K2; subst p; split; [apply A; reflexivity | cbn [pht]; lia]);
    try (injection H as K1 K2; subst p; split; [apply A; reflexivity | cbn [pht]; lia]);
    try (destruct d; [discriminate|]; injection H as K2; subst p; split; [apply A; reflexivity | cbn [pht ht vht]; lia]).
Qed.

(* ---------- freshly started parsers ---------- *)
Definition freshm (m : mst) : Prop :=
  m_cached m = false /\ ((m_state m = MFirst /\ need (m_idp m)) \/ m_state m = MEnd).
Definition fresh (p : pstate) : Prop :=
  match p with PMaster _ m _ v => freshm m | _ => True end.
Lemma Init_fresh : forall n x max p, parser_Init n x max = (kOkCompleted, p) -> fresh p.
Proof.
  assert (A : forall n x max, fresh (PMaster n (MasterParser_Init x max) CNone v_new)).
  { intros n x max. cbn. split; [reflexivity|]. cbn. destruct (me_size x =? 0); [right; reflexivity | left; split; [reflexivity | apply need_new]]. }
  intros n x max p H. destruct n; cbn [parser_Init] in H;
    try (injection H as K1 K2; subst p; exact I);
    try (injection H as K2; subst p; apply A);
    try (injection H as K1 K2; subst p; apply A);
    try (destruct d; [discriminate|]; injection H as K2; subst p; exact I).
Qed.

Section term.
Variable cb : callback.
Hypothesis Pcb : proper cb.

Notation len w := (length (w_data w)).
Lemma moved_len : forall k w w', moved k w w' -> Z.of_nat (len w') = Z.of_nat (len w) - k.
Proof. intros k w w' H. apply moved_data in H. unfold zlen in H. exact H. Qed.

Definition claimF (L h : nat) : Prop := forall sk p w, octets w -> wfp p -> cons p -> (len w <= L)%nat -> (pht p <= h)%nat ->
  exists c k p' w', feeds cb sk p w (c, k, p', w') /\ cons p' /\ pht p' = pht p /\ (fresh p -> k = 0 -> cached p' = None).
Definition okM (n : node) (osk sk : bool) (m : mst) (ch : child) (v : vst) (w : world) : Prop :=
  exists c k m' ch' v' w', loops cb n osk sk m ch v w (c, k, (m', ch', v'), w') /\ consm n m' ch' /\
    (freshm m -> k = 0 -> m_cached m' = false /\ c <> kSwitchToSkip).
Definition claimM (L h : nat) : Prop := forall n osk sk m ch v w, octets w -> wfm m ch -> consm n m ch ->
  (n = NVal VCluster -> v_skip v = true -> osk = true) -> sk = osk || m_skip m ->
  (len w <= L)%nat -> (ht n <= h)%nat -> okM n osk sk m ch v w.

Lemma loops_moved : forall n osk sk m ch v w c k s w', octets w -> wfm m ch ->
  (n = NVal VCluster -> v_skip v = true -> osk = true) -> sk = osk || m_skip m ->
  loops cb n osk sk m ch v w (c, k, s, w') -> moved k w w'.
Proof.
  intros n osk sk m ch v w c k s w' O W V S (f & F).
  pose proof (proj2 (tree_resumes cb Pcb f) _ _ _ _ _ _ _ _ O W V S F) as R. cbn in R. tauto.
Qed.
Lemma feeds_moved : forall sk p w c k p' w', octets w -> wfp p -> feeds cb sk p w (c, k, p', w') -> moved k w w'.
Proof.
  intros sk p w c k p' w' O W (f & F). pose proof (proj1 (tree_resumes cb Pcb f) _ _ _ _ O W F) as R. cbn in R. tauto.
Qed.

(* the stages of the loop, in the order in which they pass without reading anything *)
Definition rank (m : mst) (ch : child) : nat :=
  match m_state m with
  | MEnd => 0
  | MFirst => 1
  | MParsed => match ch with CAct p => match cached p with None => 2 | Some _ => 7 end | _ => 7 end
  | MBody => 8
  | MInit => 4
  | MAction => 5
  | MValidate => 6
  | MSize => 9
  | MFinishing => 10
  end.
(* a child that was just initialised *)
Definition young (ch : child) : Prop := match ch with CAct p => fresh p | _ => False end.

Lemma okM_step : forall n osk sk m ch v w sk1 m1 ch1 v1 w1 k1,
  octets w1 -> wfm m1 ch1 -> (n = NVal VCluster -> v_skip v1 = true -> osk = true) -> sk1 = osk || m_skip m1 ->
  moved k1 w w1 ->
  (forall x, loops cb n osk sk1 m1 ch1 v1 w1 x -> loops cb n osk sk m ch v w (addn k1 x)) ->
  (freshm m -> k1 = 0 -> freshm m1) -> okM n osk sk1 m1 ch1 v1 w1 -> okM n osk sk m ch v w.
Proof.
  intros n osk sk m ch v w sk1 m1 ch1 v1 w1 k1 O W V S M X F (c & k & m' & ch' & v' & w' & A & B & C).
  pose proof (loops_moved _ _ _ _ _ _ _ _ _ _ _ O W V S A) as M2.
  apply moved_nonneg in M. apply moved_nonneg in M2.
  exists c, (k1 + k), m', ch', v', w'. split; [apply (X _ A)|]. split; [exact B|].
  intros Fm K. apply C; [apply F; [exact Fm|lia] | lia].
Qed.

Section level.
Variables (L h : nat).
Hypothesis IHF : forall h', (h' < h)%nat -> claimF L h'.
Hypothesis IHL : forall L' h', (L' < L)%nat -> claimM L' h'.

(* everything that follows the body of a child *)
Lemma body_then : forall n osk sk m p v w,
  m_state m = MBody -> octets w -> wfm m (CAct p) -> consm n m (CAct p) ->
  (n = NVal VCluster -> v_skip v = true -> osk = true) -> sk = osk || m_skip m ->
  (len w <= L)%nat -> (ht n <= h)%nat -> 
  (forall p2 v2, cons p2 -> wfp p2 -> (pht p2 < ht n)%nat -> (fresh p -> cached p2 = None) ->
     (n = NVal VCluster -> v_skip v2 = true -> osk = true) ->
     forall w2 m2, m2 = m_set_state MParsed (m_add_total 0 m) -> octets w2 -> (len w2 <= L)%nat ->
     okM n osk sk m2 (CAct p2) v2 w2) ->
  okM n osk sk m (CAct p) v w.
Proof.
  intros n osk sk m p v w Em O (Wm & Wc) (Cm & Cc) V S Hl Hh Next. rewrite Em in Cc. destruct Cc as (Ht & Cp).
  cbn [wfc] in Wc. cbn [consc] in Cp.
  assert (NF : freshm m -> False) by (intros (_ & [(E & _) | E]); congruence).
  assert (Pre : exists s0 v0 w0,
      (if wrapped n p && is_start n p && negb (v_started v) then
                  let '(s1, skip, w1) := on_started cb n sk m v w in
                  let v1 := mk_vst (v_val v) skip (v_complete v) (s1 =? kOkCompleted) in
                  (if negb (s1 =? kOkCompleted) then s1
                   else if skip then kSwitchToSkip else kOkCompleted, v1, w1)
                else (kOkCompleted, v, w)) = (s0, v0, w0) /\ moved 0 w w0 /\
      (s0 = kOkCompleted -> n = NVal VCluster -> v_skip v0 = true -> osk = true)).
  { destruct (wrapped n p && is_start n p && negb (v_started v)).
    - destruct (on_started cb n sk m v w) as [[s1 skip] w1] eqn:Os.
      apply on_started_spec in Os; [|exact Pcb]. destruct Os as (O1 & O2 & O3 & O4).
      do 3 eexists. split; [reflexivity|]. split; [exact O2|]. cbn [v_skip].
      destruct (s1 =? kOkCompleted) eqn:E1; cbn [negb]; [destruct skip; discriminate|]. intros ->. discriminate.
    - do 3 eexists. split; [reflexivity|]. split; [apply moved_refl | auto]. }
  destruct Pre as (s0 & v0 & w0 & P1 & P2 & P3). cbv zeta in P1.
  destruct (s0 =? kOkCompleted) eqn:E0.
  2:{ exists s0, 0, m, (CAct p), v0, w0. split; [|split].
      - exists 1%nat. rewrite ml_MBody by exact Em. cbv zeta. rewrite P1. cbn iota. rewrite E0. reflexivity.
      - split; [exact Cm|]. rewrite Em. split; auto.
      - intro X. elim (NF X). }
  assert (O0 : octets w0) by (eapply octets_moved; eauto).
  pose proof (moved_len _ _ _ P2) as Len0.
  destruct (IHF (pht p) ltac:(lia) sk p w0 O0 Wc Cp ltac:(lia) ltac:(lia)) as (s2 & k2 & p2 & w2 & F & C2 & H2 & Fr).
  pose proof (feeds_moved _ _ _ _ _ _ _ O0 Wc F) as M2. destruct F as (f & F).
  pose proof (proj1 (feed_keeps cb Pcb f) _ _ _ _ _ _ _ Wc F) as (_ & _ & Wp2).
  pose proof (moved_nonneg _ _ _ M2) as K2. pose proof (moved_len _ _ _ M2) as Len2.
  assert (O2 : octets w2) by (eapply octets_moved; eauto).
  destruct (s2 =? kOkCompleted) eqn:E2.
  2:{ exists s2, k2, (m_add_total k2 m), (CAct p2), v0, w2. split; [|split].
      - exists (Datatypes.S f). rewrite ml_MBody by exact Em. cbv zeta. rewrite P1. cbn iota. rewrite E0. cbn [negb].
        rewrite F, E2. cbn [negb]. rewrite andb_false_r. reflexivity.
      - split; [exact Cm|]. cbn [m_state m_add_total]. rewrite Em. split; [rewrite H2; exact Ht | exact C2].
      - intro X. elim (NF X). }
  set (v2 := if wrapped n p && true && negb (v_skip v0) && negb (was_skipped p2)
             then mk_vst (v_val v0 ++ [(me_id (m_cm m), p_value p2)]) (v_skip v0) (v_complete v0) (v_started v0)
             else v0).
  set (m2 := m_set_state MParsed (m_add_total k2 m)).
  assert (V2 : n = NVal VCluster -> v_skip v2 = true -> osk = true).
  { unfold v2. destruct (wrapped n p && true && negb (v_skip v0) && negb (was_skipped p2)); apply P3; lia. }
  assert (W2 : wfm m2 (CAct p2)) by (split; auto).
  assert (S2 : sk = osk || m_skip m2) by exact S.
  assert (C' : consm n m2 (CAct p2)).
  { split; [exact Cm|]. cbn [m_state m2 m_set_state]. split; [rewrite H2; exact Ht | exact C2]. }
  apply (okM_step n osk sk m (CAct p) v w sk m2 (CAct p2) v2 w2 k2); auto.
  - eapply moved_trans'; eauto; lia.
  - intros x (g & G). exists (Datatypes.S (Nat.max f g)). rewrite ml_MBody by exact Em. cbv zeta. rewrite P1. cbn iota. rewrite E0. cbn [negb].
    rewrite (feed_mono cb f (Nat.max f g) _ _ _ _ (Nat.le_max_l _ _) F), E2. cbn [negb]. apply go_on'.
    apply (mloop_mono cb g (Nat.max f g)); [apply Nat.le_max_r | exact G].
  - intro X. elim (NF X).
  - destruct (Z.eq_dec k2 0) as [-> | Nk].
    + eapply Next; eauto; [rewrite H2; exact Ht | lia].
    + eapply (IHL (len w2) (ht n)); eauto; lia.
Qed.

Variable n : node.
Hypothesis Hn : (ht n <= h)%nat.

(* the stages one by one, those nearer to the end first *)
Definition stage (st : mstate) (P : child -> Prop) : Prop := forall osk sk m ch v w,
  m_state m = st -> P ch -> octets w -> wfm m ch -> consm n m ch ->
  (n = NVal VCluster -> v_skip v = true -> osk = true) -> sk = osk || m_skip m -> (len w <= L)%nat ->
  okM n osk sk m ch v w.

Lemma st_End : stage MEnd (fun _ => True).
Proof.
  intros osk sk m ch v w Em _ O W C V S Hl. exists kOkCompleted, 0, m, ch, v, w. split; [|split].
  - exists 1%nat. apply ml_MEnd. exact Em.
  - exact C.
  - intros (X & _) _. split; [exact X | discriminate].
Qed.

Lemma st_First : stage MFirst (fun _ => True).
Proof.
  intros osk sk m ch v w Em _ O W C V S Hl. destruct C as (Cm & Cc). rewrite Em in Cc.
  destruct (IdParser_Feed (m_idp m) w) as [[[s k1] i] w1] eqn:I.
  pose proof (IdParser_resumes _ _ _ _ _ _ I) as (M & _). pose proof (Id_need _ _ _ _ _ _ Cc I) as (N1 & N2).
  pose proof (IdParser_code _ _ _ _ _ _ I) as Cd.
  pose proof (moved_len _ _ _ M) as Ln. pose proof (moved_nonneg _ _ _ M) as Kn.
  assert (O1 : octets w1) by (eapply octets_moved; eauto).
  set (m1 := m_set_idp i (m_add_total k1 (m_set_cm (cm_add_hsize k1 (mk_meta (me_id (m_cm m)) 0 (me_size (m_cm m)) (w_pos w))) m))).
  destruct ((s =? kEndOfFile) && (m_size m =? kUnknownElementSize) && (k1 =? 0)) eqn:C1.
  { apply (okM_step n osk sk m ch v w sk (m_set_state MEnd m1) ch v w1 k1); auto.
    - intros x (g & G). exists (Datatypes.S g). rewrite ml_MFirst by exact Em. cbv zeta. rewrite I, C1. apply go_on'. exact G.
    - intros (X & _) _. split; [exact X | right; reflexivity].
    - apply st_End; auto; [|lia]. split; [exact Cm | exact Logic.I]. }
  destruct (s =? kOkCompleted) eqn:C3.
  { apply Z.eqb_eq in C3. subst s. specialize (N1 eq_refl).
    apply (okM_step n osk sk m ch v w sk (m_set_state MSize m1) ch v w1 k1); auto.
    - intros x (g & G). exists (Datatypes.S g). rewrite ml_MFirst by exact Em. cbv zeta. rewrite I, C1. cbn [orb negb].
      change (kOkCompleted =? kOkCompleted) with true. cbn [orb negb]. apply go_on'. exact G.
    - lia.
    - apply (IHL (len w1) (ht n)); auto; [lia|]. split; [exact Cm | exact Logic.I]. }
  assert (Np : s =? kOkPartial = false).
  { destruct Cd as [-> | [-> | [-> | ->]]]; reflexivity. }
  exists s, k1, (if 0 <? k1 then m_set_state MFinishing m1 else m1), ch, v, w1. split; [|split].
  - exists 1%nat. rewrite ml_MFirst by exact Em. cbv zeta. rewrite I, C1, C3, Np. reflexivity.
  - destruct (0 <? k1) eqn:C4; split; try exact Cm; cbn [m_state m_set_state m1 m_set_idp m_add_total m_set_cm]; [exact Logic.I|].
    rewrite Em. apply N2. apply Z.eqb_neq. exact C3.
  - intros (X & _) _. split; [destruct (0 <? k1); exact X|]. destruct Cd as [-> | [-> | [-> | ->]]]; discriminate.
Qed.

Ltac notfresh := let X := fresh in intros (_ & [(X & _) | X]) _; congruence.

Lemma st_Parsed : stage MParsed (fun ch => match ch with CAct p => cached p = None | _ => True end).
Proof.
  intros osk sk m ch v w Em Hc O W C V S Hl. destruct C as (Cm & Cc). rewrite Em in Cc.
  destruct ch as [| |p]; try (destruct Cc as (X & _); elim X; fail). destruct Cc as (Cp & Cr).
  destruct (byte_cap m <? m_total m) eqn:C1.
  { exists kElementOverflow, 0, m, (CAct p), v, w. split; [|split].
    - exists 1%nat. rewrite ml_MParsed by exact Em. rewrite C1. reflexivity.
    - split; [exact Cm|]. rewrite Em. auto.
    - notfresh. }
  destruct (m_total m =? byte_cap m) eqn:C2.
  { apply (okM_step n osk sk m (CAct p) v w sk (m_set_state MEnd m) (CAct p) v w 0); auto; [apply moved_refl | | notfresh |].
    - intros x (g & G). exists (Datatypes.S g). rewrite ml_MParsed by exact Em. rewrite C1, C2, addn0. exact G.
    - apply st_End; auto. split; [exact Cm | exact Logic.I]. }
  apply (okM_step n osk sk m (CAct p) v w osk (PrepareForNextChild (m_set_state MFirst m)) CNone v w 0); auto.
  - split; [exact (proj1 W) | exact Logic.I].
  - cbn. symmetry. apply orb_false_r.
  - apply moved_refl.
  - intros x (g & G). exists (Datatypes.S g). rewrite ml_MParsed by exact Em. rewrite C1, C2, addn0, Hc. exact G.
  - notfresh.
  - apply st_First; auto.
    + split; [exact (proj1 W) | exact Logic.I].
    + split; [exact Cm | apply need_new].
    + cbn. symmetry. apply orb_false_r.
Qed.

Lemma st_young : stage MBody young.
Proof.
  intros osk sk m ch v w Em Hc O W C V S Hl. destruct ch as [| |p]; try (elim Hc; fail).
  apply body_then; auto. intros p2 v2 C2 W2 H2 Fr V2 w2 m2 Hm O2 L2. apply st_Parsed; auto.
  - subst m2. reflexivity.
  - subst m2. split; [exact (proj1 W) | exact W2].
  - subst m2. split; [exact (proj1 C)|]. split; [exact H2 | exact C2].
  - subst m2. exact S.
Qed.

Lemma st_Init : stage MInit (fun _ => True).
Proof.
  intros osk sk m ch v w Em _ O W C V S Hl. destruct C as (Cm & Cc). rewrite Em in Cc.
  destruct ch as [|cn|]; try (elim Cc; fail).
  destruct (parser_Init cn (m_cm m) (m_max m - m_total m)) as [s p] eqn:I.
  destruct (s =? kOkCompleted) eqn:C1.
  - apply Z.eqb_eq in C1. subst s. destruct (Init_cons _ _ _ _ I) as (Cp & Hp). pose proof (Init_fresh _ _ _ _ I) as Fp.
    pose proof (Init_wf _ _ _ _ _ (proj1 W) I eq_refl) as Wp.
    apply (okM_step n osk sk m (CSel cn) v w sk (m_set_state MBody m) (CAct p) v w 0); auto;
      [split; [exact (proj1 W) | exact Wp] | apply moved_refl | | notfresh |].
    + intros x (g & G). exists (Datatypes.S g). rewrite ml_MInit by exact Em. rewrite I, addn0. exact G.
    + apply st_young; auto; [split; [exact (proj1 W) | exact Wp]|]. split; [exact Cm|]. split; [lia | exact Cp].
  - exists s, 0, m, (CSel cn), v, w. split; [|split; [split; [exact Cm | rewrite Em; exact Cc] | notfresh]].
    exists 1%nat. rewrite ml_MInit by exact Em. rewrite I, C1. reflexivity.
Qed.

Lemma st_Action : stage MAction (fun _ => True).
Proof.
  intros osk sk m ch v w Em _ O W C V S Hl. destruct C as (Cm & Cc). rewrite Em in Cc.
  destruct ch as [|cn|]; try (elim Cc; fail).
  destruct (notify cb sk (EElement (m_cm m)) w) as [[s skip] w1] eqn:N. pose proof N as N0.
  apply notify_spec in N; [|exact Pcb]. destruct N as (N1 & N2 & N3 & N4 & _).
  pose proof (moved_len _ _ _ N3) as Ln. assert (O1 : octets w1) by (eapply octets_moved; eauto).
  destruct (s =? kOkCompleted) eqn:C1.
  2:{ exists s, 0, (m_set_skip skip m), (CSel cn), v, w1. split; [|split].
      - exists 1%nat. rewrite ml_MAction by exact Em. cbv zeta. rewrite N0. cbn iota. rewrite C1. reflexivity.
      - split; [exact Cm|]. cbn [m_state m_set_skip]. rewrite Em. exact Cc.
      - notfresh. }
  destruct skip.
  - set (ch1 := if me_size (m_cm m) =? kUnknownElementSize then CSel cn else CSel NSkip).
    assert (W1 : wfm (m_set_state MInit (m_set_skip true m)) ch1).
    { split; [exact (proj1 W)|]. unfold ch1. destruct (me_size (m_cm m) =? kUnknownElementSize); exact Logic.I. }
    apply (okM_step n osk sk m (CSel cn) v w true (m_set_state MInit (m_set_skip true m)) ch1 v w1 0); auto.
    + cbn. symmetry. apply orb_true_r.
    + intros x (g & G). exists (Datatypes.S g). rewrite ml_MAction by exact Em. cbv zeta. rewrite N0. cbn iota. rewrite C1, addn0. exact G.
    + notfresh.
    + apply st_Init; auto; [|cbn; symmetry; apply orb_true_r | lia]. split; [exact Cm|]. cbn [m_state m_set_state].
      unfold ch1. destruct (me_size (m_cm m) =? kUnknownElementSize); [exact Cc | cbn; apply ht_pos; exact Cm].
  - assert (Hsk : sk = false) by (destruct sk; [unfold notify in N0; discriminate | reflexivity]).
    assert (S1 : sk = osk || false) by (rewrite Hsk in *; destruct osk; [discriminate | reflexivity]).
    apply (okM_step n osk sk m (CSel cn) v w sk (m_set_state MInit (m_set_skip false m)) (CSel cn) v w1 0); auto.
    + intros x (g & G). exists (Datatypes.S g). rewrite ml_MAction by exact Em. cbv zeta. rewrite N0. cbn iota. rewrite C1, addn0. exact G.
    + notfresh.
    + apply st_Init; auto; [|lia]. split; [exact Cm | exact Cc].
Qed.

Lemma st_Validate : stage MValidate (fun _ => True).
Proof.
  intros osk sk m ch v w Em _ O W C V S Hl. destruct C as (Cm & _).
  set (count := if me_size (m_cm m) =? kUnknownElementSize then m_total m else wrap64 (m_total m + me_size (m_cm m))).
  assert (Fail : forall c, (forall f, mloop cb (Datatypes.S f) n osk sk m ch v 0 w = Some (c, 0, (m, ch, v), w)) -> okM n osk sk m ch v w).
  { intros c H. exists c, 0, m, ch, v, w. split; [exists 1%nat; apply H|]. split; [|notfresh]. split; [exact Cm | rewrite Em; exact Logic.I]. }
  destruct (byte_cap m <? count) eqn:C1.
  { apply (Fail kElementOverflow). intro f. rewrite ml_MValidate by exact Em. cbv zeta. fold count. rewrite C1. reflexivity. }
  assert (Go : forall cn, (ht cn < ht n)%nat ->
     (forall f, mloop cb (Datatypes.S f) n osk sk m ch v 0 w = mloop cb f n osk sk (m_set_state MAction m) (CSel cn) v 0 w) ->
     okM n osk sk m ch v w).
  { intros cn Hc H. apply (okM_step n osk sk m ch v w sk (m_set_state MAction m) (CSel cn) v w 0); auto.
    - split; [exact (proj1 W) | exact Logic.I].
    - apply moved_refl.
    - intros x (g & G). exists (Datatypes.S g). rewrite H, addn0. exact G.
    - notfresh.
    - apply st_Action; auto; [split; [exact (proj1 W) | exact Logic.I]|]. split; [exact Cm | exact Hc]. }
  destruct (lookup (me_id (m_cm m)) (children n)) as [cn|] eqn:C2.
  - apply (Go cn); [eapply lookup_ht; eauto|]. intro f. rewrite ml_MValidate by exact Em. cbv zeta. fold count. rewrite C1, C2. reflexivity.
  - destruct (m_size m =? kUnknownElementSize) eqn:C3.
    + apply (okM_step n osk sk m ch v w sk (m_set_state MEnd (m_set_cached true m)) ch v w 0); auto; [apply moved_refl | | notfresh |].
      * intros x (g & G). exists (Datatypes.S g). rewrite ml_MValidate by exact Em. cbv zeta. fold count. rewrite C1, C2, C3, addn0. exact G.
      * apply st_End; auto. split; [exact Cm | exact Logic.I].
    + destruct (me_size (m_cm m) =? kUnknownElementSize) eqn:C4.
      * apply (Fail kIndefiniteUnknownElement). intro f. rewrite ml_MValidate by exact Em. cbv zeta. rewrite C4. fold count. rewrite C1, C2, C3. reflexivity.
      * apply (Go NUnknown); [apply ht_pos; exact Cm|]. intro f. rewrite ml_MValidate by exact Em. cbv zeta. rewrite C4. fold count. rewrite C1, C2, C3. reflexivity.
Qed.

Lemma st_Parsed' : stage MParsed (fun _ => True).
Proof.
  intros osk sk m ch v w Em _ O W C V S Hl. pose proof C as (Cm & Cc). rewrite Em in Cc.
  destruct ch as [| |p]; try (destruct Cc as (X & _); elim X; fail).
  destruct (cached p) as [x|] eqn:Hc; [|apply st_Parsed; auto].
  destruct (byte_cap m <? m_total m) eqn:C1.
  { exists kElementOverflow, 0, m, (CAct p), v, w. split; [|split].
    - exists 1%nat. rewrite ml_MParsed by exact Em. rewrite C1. reflexivity.
    - split; [exact Cm|]. rewrite Em. auto.
    - notfresh. }
  destruct (m_total m =? byte_cap m) eqn:C2.
  { apply (okM_step n osk sk m (CAct p) v w sk (m_set_state MEnd m) (CAct p) v w 0); auto; [apply moved_refl | | notfresh |].
    - intros y (g & G). exists (Datatypes.S g). rewrite ml_MParsed by exact Em. rewrite C1, C2, addn0. exact G.
    - apply st_End; auto. split; [exact Cm | exact Logic.I]. }
  assert (W1 : wfm (PrepareForNextChild (m_set_state MValidate (m_set_cm x m))) CNone).
  { split; [|exact Logic.I]. cbn. eapply cached_wf; [exact (proj2 W) | exact Hc]. }
  apply (okM_step n osk sk m (CAct p) v w osk (PrepareForNextChild (m_set_state MValidate (m_set_cm x m))) CNone v w 0); auto.
  - cbn. symmetry. apply orb_false_r.
  - apply moved_refl.
  - intros y (g & G). exists (Datatypes.S g). rewrite ml_MParsed by exact Em. rewrite C1, C2, addn0, Hc. exact G.
  - notfresh.
  - apply st_Validate; auto; [split; [exact Cm | exact Logic.I]|]. cbn. symmetry. apply orb_false_r.
Qed.

Lemma st_Body : stage MBody (fun _ => True).
Proof.
  intros osk sk m ch v w Em Hc O W C V S Hl. pose proof C as (Cm & Cc). rewrite Em in Cc.
  destruct ch as [| |p]; try (destruct Cc as (X & _); elim X; fail).
  apply body_then; auto. intros p2 v2 C2 W2 H2 Fr V2 w2 m2 Hm O2 L2. apply st_Parsed'; auto.
  - subst m2. reflexivity.
  - subst m2. split; [exact (proj1 W) | exact W2].
  - subst m2. split; [exact Cm|]. split; [exact H2 | exact C2].
  - subst m2. exact S.
Qed.

Lemma st_Size : stage MSize (fun _ => True).
Proof.
  intros osk sk m ch v w Em _ O W C V S Hl. destruct C as (Cm & _).
  destruct (SizeParser_Feed (m_szp m) w) as [[[s k1] i] w1] eqn:I.
  pose proof (SizeParser_resumes _ _ _ _ _ _ I) as (M & _). pose proof (Size_nonneg _ _ _ _ _ _ I) as Sn.
  pose proof (moved_len _ _ _ M) as Ln. pose proof (moved_nonneg _ _ _ M) as Kn.
  assert (O1 : octets w1) by (eapply octets_moved; eauto).
  set (m1 := m_set_szp i (m_add_total k1 (m_set_cm (cm_add_hsize k1 (m_cm m)) m))).
  destruct (s =? kOkCompleted) eqn:C3.
  - set (m2 := m_set_state MValidate (m_set_cm (mk_meta (ip_id (m_idp m)) (me_hsize (m_cm m1)) (size_value i) (me_pos (m_cm m1))) m1)).
    assert (W2 : wfm m2 ch) by (split; [apply Sn; apply Z.eqb_eq; exact C3 | exact (proj2 W)]).
    apply (okM_step n osk sk m ch v w sk m2 ch v w1 k1); auto.
    + intros x (g & G). exists (Datatypes.S g). rewrite ml_MSize by exact Em. cbv zeta. rewrite I, C3. cbn [negb]. apply go_on'. exact G.
    + notfresh.
    + apply st_Validate; auto; [|lia]. split; [exact Cm | exact Logic.I].
  - exists s, k1, m1, ch, v, w1. split; [|split; [split; [exact Cm | cbn; rewrite Em; exact Logic.I] | notfresh]].
    exists 1%nat. rewrite ml_MSize by exact Em. cbv zeta. rewrite I, C3. reflexivity.
Qed.

Lemma st_Finishing : stage MFinishing (fun _ => True).
Proof.
  intros osk sk m ch v w Em _ O W C V S Hl. destruct C as (Cm & _).
  destruct (IdParser_Feed (m_idp m) w) as [[[s k1] i] w1] eqn:I.
  pose proof (IdParser_resumes _ _ _ _ _ _ I) as (M & _).
  pose proof (moved_len _ _ _ M) as Ln. pose proof (moved_nonneg _ _ _ M) as Kn.
  assert (O1 : octets w1) by (eapply octets_moved; eauto).
  set (m1 := m_set_idp i (m_add_total k1 (m_set_cm (cm_add_hsize k1 (m_cm m)) m))).
  destruct (s =? kOkCompleted) eqn:C3.
  - apply (okM_step n osk sk m ch v w sk (m_set_state MSize m1) ch v w1 k1); auto.
    + intros x (g & G). exists (Datatypes.S g). rewrite ml_MFinishing by exact Em. cbv zeta. rewrite I, C3. cbn [negb]. apply go_on'. exact G.
    + notfresh.
    + apply st_Size; auto; [|lia]. split; [exact Cm | exact Logic.I].
  - exists s, k1, m1, ch, v, w1. split; [|split; [split; [exact Cm | cbn; rewrite Em; exact Logic.I] | notfresh]].
    exists 1%nat. rewrite ml_MFinishing by exact Em. cbv zeta. rewrite I, C3. reflexivity.
Qed.

Lemma st_all : forall osk sk m ch v w, octets w -> wfm m ch -> consm n m ch ->
  (n = NVal VCluster -> v_skip v = true -> osk = true) -> sk = osk || m_skip m -> (len w <= L)%nat ->
  okM n osk sk m ch v w.
Proof.
  intros osk sk m ch v w O W C V S Hl. destruct (m_state m) eqn:Em.
  - apply st_First; auto.
  - apply st_Finishing; auto.
  - apply st_Size; auto.
  - apply st_Validate; auto.
  - apply st_Action; auto.
  - apply st_Init; auto.
  - apply st_Body; auto.
  - apply st_Parsed'; auto.
  - apply st_End; auto.
Qed.
End level.

(* ---------- every element parser ---------- *)
Lemma leaf_ends : forall sk p w c k p' w', feeds cb sk p w (c, k, p', w') -> pht p = 0%nat -> pht p' = 0%nat ->
  cons p' -> cached p' = None ->
  exists c k p' w', feeds cb sk p w (c, k, p', w') /\ cons p' /\ pht p' = pht p /\ (fresh p -> k = 0 -> cached p' = None).
Proof. intros. do 4 eexists. split; [eassumption|]. split; [assumption|]. split; [congruence | auto]. Qed.

Lemma master_cached : forall n m ch v, m_cached m = false -> cached (PMaster n m ch v) = None.
Proof. intros n m ch v H. cbn. rewrite H. reflexivity. Qed.

Lemma seg_pre_moved : forall sk m v w c v0 w0, seg_pre cb sk m v w = (c, v0, w0) -> moved 0 w w0.
Proof.
  intros sk m v w c v0 w0 H. unfold seg_pre in H. destruct (v_started v); [injection H as <- <- <-; apply moved_refl|].
  destruct (notify cb sk _ w) as [[c1 skip] w1] eqn:N. apply notify_spec in N; [|exact Pcb].
  destruct N as (_ & _ & N3 & _). destruct (negb (c1 =? kOkCompleted)); injection H as <- <- <-; exact N3.
Qed.
Lemma val_pre_moved : forall vn sk m v w c v0 w0, val_pre cb vn sk m v w = (c, v0, w0) -> moved 0 w w0.
Proof.
  intros vn sk m v w c v0 w0 H. unfold val_pre in H.
  destruct vn; try (injection H as <- <- <-; apply moved_refl).
  destruct (v_started v); [injection H as <- <- <-; apply moved_refl|].
  destruct (on_started cb _ sk m v w) as [[c1 skip] w1] eqn:N. apply on_started_spec in N; [|exact Pcb].
  destruct N as (_ & N2 & _). destruct (negb (c1 =? kOkCompleted)); injection H as <- <- <-; exact N2.
Qed.
Lemma seg_post_keeps : forall sk c k m ch v w, exists c' v' w', seg_post cb sk (c, k, (m, ch, v), w) = (c', k, PMaster NSegment m ch v', w').
Proof.
  intros sk c k m ch v w. cbn. destruct (negb (c =? kOkCompleted)); [do 3 eexists; reflexivity|].
  destruct (notify cb sk _ w) as [[c3 s3] w3]. do 3 eexists; reflexivity.
Qed.
Lemma val_post_keeps : forall vn sk c k m ch v w, exists c' v' w', val_post cb vn sk (c, k, (m, ch, v), w) = (c', k, PMaster (NVal vn) m ch v', w').
Proof.
  intros vn sk c k m ch v w. unfold val_post. cbv zeta. destruct (negb (c =? kOkCompleted)); [do 3 eexists; reflexivity|].
  match goal with |- context [let '(_, _) := ?x in _] => destruct x as [[c3 v3] w3] | |- context [match ?x with (_, _) => _ end] => destruct x as [[c3 v3] w3] end.
  destruct (negb (c3 =? kOkCompleted)); [do 3 eexists; reflexivity|]. destruct (v_skip v3); [do 3 eexists; reflexivity|].
  destruct (on_completed cb (NVal vn) sk m v3 w3) as [c5 w5]. do 3 eexists; reflexivity.
Qed.

Lemma claimF_of_M : forall L h, claimM L h -> claimF L h.
Proof.
  intros L h IH sk p. induction p as [| | | | | | | | | | | n m ch v | q IHq] using pstate_ind; intros w O W C Hl Hh.
  1: destruct (IntParser_Feed sg s w) as [[[c1 k1] s1] w1] eqn:F.
  2: destruct (FloatParser_Feed s w) as [[[c1 k1] s1] w1] eqn:F.
  3: destruct (DateParser_Feed s w) as [[[c1 k1] s1] w1] eqn:F.
  4: destruct (IdElementParser_Feed s w) as [[[c1 k1] s1] w1] eqn:F.
  5: destruct (BoolParser_Feed s w) as [[[c1 k1] s1] w1] eqn:F.
  6: destruct (ByteParser_Feed str s w) as [[[c1 k1] s1] w1] eqn:F.
  7: destruct (on_data cb sk (DVoid m) rem w) as [[c1 k1] w1] eqn:F.
  8: destruct (on_data cb sk (DUnknown m) rem w) as [[c1 k1] w1] eqn:F.
  9: destruct (SkipParser_Feed rem w) as [[[c1 k1] s1] w1] eqn:F.
  10: destruct (BlockParser_Feed cb simple sk s w) as [[[c1 k1] s1] w1] eqn:F.
  11: destruct (VirtualBlockParser_Feed s w) as [[[c1 k1] s1] w1] eqn:F.
  1-11: do 4 eexists; split; [exists 1%nat; cbn [feed]; rewrite F; reflexivity|]; split; [exact I|]; split; [reflexivity|]; intros _ _; reflexivity.
  2:{ destruct (IHq w O W C Hl ltac:(cbn in Hh; lia)) as (c & k & q' & w' & (f & F) & A & B & _).
      exists c, k, (PRec q'), w'. split; [exists (S f); cbn [feed]; rewrite F; reflexivity|].
      split; [exact A|]. split; [cbn [pht]; congruence | reflexivity]. }
  cbn [pht] in Hh.
  assert (NS : n = NSegment \/ (exists vn, n = NVal vn) \/ (n <> NSegment /\ is_value n = false)).
  { destruct n; try (right; right; split; [discriminate | reflexivity]); [left; reflexivity | right; left; eauto]. }
  destruct NS as [-> | [(vn & ->) | (N1 & N2)]].
  - destruct (seg_pre cb sk m v w) as [[c0 v0] w0] eqn:P. pose proof (seg_pre_moved _ _ _ _ _ _ _ P) as M.
    pose proof (moved_len _ _ _ M) as Ln. assert (O0 : octets w0) by (eapply octets_moved; eauto).
    destruct (c0 =? kOkCompleted) eqn:E0.
    2:{ do 4 eexists. split; [exists 1%nat; rewrite fd_seg', P, E0; reflexivity|]. split; [exact C|]. split; [reflexivity|].
        intros Fr _. apply master_cached. exact (proj1 Fr). }
    destruct (v_complete v0) eqn:Ec.
    + destruct (seg_post_keeps (sk || v_skip v0) kOkCompleted 0 m ch v0 w0) as (c' & v' & w' & Q).
      do 4 eexists. split; [exists 1%nat; rewrite fd_seg', P, E0, Ec; cbn [negb option_map]; rewrite Q; reflexivity|].
      split; [exact C|]. split; [reflexivity|]. intros Fr _. apply master_cached. exact (proj1 Fr).
    + destruct (IH NSegment (sk || v_skip v0) ((sk || v_skip v0) || m_skip m) m ch v0 w0 O0 W C ltac:(discriminate) eq_refl ltac:(lia) Hh)
        as (c & k & m' & ch' & v' & w' & (f & F) & A & B).
      destruct (seg_post_keeps (sk || v_skip v0) c k m' ch' v' w') as (c2 & v2 & w2 & Q).
      do 4 eexists. split; [exists (S f); rewrite fd_seg', P, E0, Ec; cbn [negb]; rewrite F; cbn [option_map]; rewrite Q; reflexivity|].
      split; [exact A|]. split; [reflexivity|]. intros Fr K. apply master_cached. apply B; assumption.
  - destruct (val_pre cb vn sk m v w) as [[c0 v0] w0] eqn:P. pose proof (val_pre_moved _ _ _ _ _ _ _ _ P) as M.
    pose proof (moved_len _ _ _ M) as Ln. assert (O0 : octets w0) by (eapply octets_moved; eauto).
    destruct (c0 =? kOkCompleted) eqn:E0.
    2:{ do 4 eexists. split; [exists 1%nat; rewrite fd_val', P, E0; reflexivity|]. split; [exact C|]. split; [reflexivity|].
        intros Fr _. apply master_cached. exact (proj1 Fr). }
    assert (Fin : forall c k m' ch' v' w', vals cb vn sk m ch v0 w0 (c, k, (m', ch', v'), w') -> consm (NVal vn) m' ch' ->
      (freshm m -> k = 0 -> m_cached m' = false) ->
      exists c k p' w', feeds cb sk (PMaster (NVal vn) m ch v) w (c, k, p', w') /\ cons p' /\
        pht p' = ht (NVal vn) /\ (fresh (PMaster (NVal vn) m ch v) -> k = 0 -> cached p' = None)).
    { intros c k m' ch' v' w' (f & F) A B. destruct (val_post_keeps vn sk c k m' ch' v' w') as (c2 & v2 & w2 & Q).
      do 4 eexists. split; [exists (S f); rewrite fd_val', P, E0; cbn [negb]; rewrite F; cbn [option_map]; rewrite Q; reflexivity|].
      split; [exact A|]. split; [reflexivity|]. intros Fr K. apply master_cached. apply B; assumption. }
    destruct (v_complete v0) eqn:Ec.
    + apply (Fin kOkCompleted 0 m ch v0 w0); [exists 1%nat; unfold val_mid; rewrite Ec; reflexivity | exact C | intros Fr _; exact (proj1 Fr)].
    + assert (V0 : NVal vn = NVal VCluster -> v_skip v0 = true -> sk || v_skip v0 = true) by (intros _ ->; apply orb_true_r).
      destruct (IH (NVal vn) (sk || v_skip v0) ((sk || v_skip v0) || m_skip m) m ch v0 w0 O0 W C V0 eq_refl ltac:(lia) Hh)
        as (c & k & m' & ch' & v' & w' & F & A & B).
      destruct (Z.eq_dec c kSwitchToSkip) as [-> | N].
      2:{ apply (Fin c k m' ch' v' w'); [apply vals_go; assumption | exact A | intros Fr K; apply B; assumption]. }
      pose proof (loops_moved _ _ _ _ _ _ _ _ _ _ _ O0 W V0 eq_refl F) as M1. pose proof (moved_len _ _ _ M1) as Ln1.
      pose proof (moved_nonneg _ _ _ M1) as K1. assert (O1 : octets w') by (eapply octets_moved; eauto).
      assert (W1 : wfm m' ch').
      { destruct F as (f & F). eapply (proj2 (feed_keeps cb Pcb f)) in F; [exact (proj2 F) | exact W | exact V0 |].
        intro X. rewrite X. reflexivity. }
      destruct (IH (NVal vn) true true m' ch' v' w' O1 W1 A ltac:(reflexivity) eq_refl ltac:(lia) Hh)
        as (c2 & k2 & m2 & ch2 & v2 & w2 & F2 & A2 & B2).
      pose proof (loops_moved _ _ _ _ _ _ _ _ _ _ _ O1 W1 ltac:(reflexivity) eq_refl F2) as M2. apply moved_nonneg in M2.
      apply (Fin c2 (k + k2) m2 ch2 v2 w2); [|exact A2|].
      * exact (vals_switch _ _ _ _ _ _ _ _ _ _ _ _ _ Ec F F2).
      * intros Fr K. destruct (B Fr ltac:(lia)) as (_ & X). elim X. reflexivity.
  - destruct (IH n sk (sk || m_skip m) m ch v w O W C ltac:(intros ->; discriminate) eq_refl Hl Hh)
      as (c & k & m' & ch' & v' & w' & (f & F) & A & B).
    do 4 eexists. split; [exists (S f); rewrite fd_other by assumption; rewrite F; reflexivity|].
    split; [exact A|]. split; [reflexivity|]. intros Fr K. apply master_cached. apply B; assumption.
Qed.

Theorem all_end : forall L h, claimM L h /\ claimF L h.
Proof.
  intro L. induction L as [L IHL] using lt_wf_ind. intro h. induction h as [h IHh] using lt_wf_ind.
  assert (M : claimM L h).
  { intros n osk sk m ch v w O W C V S Hl Hn.
    apply (st_all L h); auto; intros; [apply IHh; assumption | apply IHL; assumption]. }
  split; [exact M | apply claimF_of_M; exact M].
Qed.
Corollary feed_ends : forall sk p w, octets w -> wfp p -> cons p ->
  exists c k p' w', feeds cb sk p w (c, k, p', w') /\ cons p' /\ pht p' = pht p /\ (fresh p -> k = 0 -> cached p' = None).
Proof. intros. apply (proj2 (all_end (len w) (pht p))); auto. Qed.
End term.
