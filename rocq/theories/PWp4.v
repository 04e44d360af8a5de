(* The callback parser's element tree: status codes, byte counters, and what the
   loop keeps unchanged. *)
From Coq Require Import ZifyBool ZifyNat.
From Verif Require Import Base WpSpec MWp MWpBlock MWpTree PWp1 PWp2 PWp3.

(* ---------- status codes of the primitive parsers ---------- *)
Definition plain (c : Z) : Prop := -2048 <= c.
Ltac plain := unfold plain, kOkCompleted, kOkPartial, kWouldBlock, kEndOfFile, kInvalidElementId,
  kInvalidElementSize, kIndefiniteUnknownElement, kElementOverflow, kNotEnoughMemory,
  kInvalidElementValue, kExceededRecursionDepthLimit in *; lia.

Lemma ReadByte_code : forall w c b w', ReadByte w = (c, b, w') -> c = kOkCompleted \/ c = kWouldBlock \/ c = kEndOfFile.
Proof. intros w c b w' H. apply ReadByte_spec in H. destruct H as (_ & [(? & _) | [(? & _) | (? & _)]]); auto. Qed.
Lemma Accumulate_code : forall sg bits num v w c k v' w', Accumulate sg bits num v 0 w = (c, k, v', w') ->
  c = kOkCompleted \/ c = kWouldBlock \/ c = kEndOfFile.
Proof.
  intros sg bits num v w c k v' w' H. apply Accumulate_spec in H.
  destruct H as (_ & _ & _ & [(? & _) | [(? & _) | (? & _)]]); auto.
Qed.
Lemma take_all_code : forall n w c bs w', 0 <= n -> take_all n w = (c, bs, w') ->
  c = kOkCompleted \/ c = kWouldBlock \/ c = kEndOfFile.
Proof.
  intros n w c bs w' Hn H. apply take_all_spec in H; [|exact Hn].
  destruct H as (us & _ & _ & _ & _ & [(? & _) | [(? & _) | (? & _)]]); auto.
Qed.
Lemma IdParser_code : forall st w c n st' w', IdParser_Feed st w = (c, n, st', w') ->
  c = kOkCompleted \/ c = kWouldBlock \/ c = kEndOfFile \/ c = kInvalidElementId.
Proof.
  assert (G : forall st nr w c n st' w', id_rest st nr w = (c, n, st', w') ->
    c = kOkCompleted \/ c = kWouldBlock \/ c = kEndOfFile).
  { unfold id_rest. intros. destruct (Accumulate _ _ _ _ _ w) as [[[c1 k] v] w1] eqn:A. quad H.
    apply Accumulate_code in A. exact A. }
  unfold IdParser_Feed. intros st w c n st' w' H. destruct (ip_rem st =? -1).
  - destruct (ReadByte w) as [[c1 b] w1] eqn:R. apply ReadByte_code in R.
    destruct (negb _); [quad H; tauto|]. destruct (_ =? 0); [quad H; auto|]. apply G in H. tauto.
  - apply G in H. tauto.
Qed.
Lemma VarIntParser_code : forall st w c n st' w', VarIntParser_Feed st w = (c, n, st', w') ->
  c = kOkCompleted \/ c = kWouldBlock \/ c = kEndOfFile \/ c = kInvalidElementValue.
Proof.
  assert (G : forall st nr w c n st' w', vi_rest st nr w = (c, n, st', w') ->
    c = kOkCompleted \/ c = kWouldBlock \/ c = kEndOfFile).
  { unfold vi_rest. intros. destruct (Accumulate _ _ _ _ _ w) as [[[c1 k] v] w1] eqn:A.
    apply Accumulate_code in A. destruct (negb _); quad H; tauto. }
  unfold VarIntParser_Feed. intros st w c n st' w' H. destruct (vi_rem st =? -1).
  - destruct (ReadByte w) as [[c1 b] w1] eqn:R. apply ReadByte_code in R.
    destruct (negb _); [quad H; tauto|]. destruct (_ =? 0); [quad H; auto|]. apply G in H. tauto.
  - apply G in H. tauto.
Qed.
Lemma SizeParser_code : forall st w c n st' w', SizeParser_Feed st w = (c, n, st', w') ->
  c = kOkCompleted \/ c = kWouldBlock \/ c = kEndOfFile \/ c = kInvalidElementSize.
Proof.
  unfold SizeParser_Feed. intros st w c n st' w' H. destruct (VarIntParser_Feed st w) as [[[c1 k] v] w1] eqn:V.
  apply VarIntParser_code in V. quad H.
  destruct (c1 =? kInvalidElementValue) eqn:E; [tauto|].
  destruct V as [V | [V | [V | V]]]; [auto | auto | auto |]. subst c1. discriminate.
Qed.
Lemma Size_nonneg : forall st w c n st' w', SizeParser_Feed st w = (c, n, st', w') -> c = kOkCompleted ->
  0 <= size_value st'.
Proof.
  unfold SizeParser_Feed. intros st w c n st' w' H E. destruct (VarIntParser_Feed st w) as [[[c1 k] v] w1] eqn:V.
  pose proof (VarInt_value_nonneg _ _ _ _ _ _ V) as Vn. quad H.
  assert (Ec : c1 = kOkCompleted) by (destruct (c1 =? kInvalidElementValue) in E; [discriminate | exact E]).
  specialize (Vn Ec). unfold size_value.
  match goal with |- 0 <= (if ?b then _ else _) => destruct b end; [unfold kUnknownElementSize; lia | exact Vn].
Qed.

Section codes.
Variable cb : callback.
Hypothesis Pcb : proper cb.

Lemma notify_code : forall sk e w c s w', notify cb sk e w = (c, s, w') -> 0 <= c.
Proof. intros sk e w c s w' H. apply notify_spec in H; [|exact Pcb]. tauto. Qed.

Lemma on_data_code : forall sk d rem w c r w', 0 <= rem -> on_data cb sk d rem w = (c, r, w') -> plain c.
Proof.
  intros sk d rem w c r w' Hr H. apply on_data_spec in H; [|exact Pcb|exact Hr].
  destruct H as (_ & _ & _ & C & _). plain.
Qed.

Definition bplain (F : bst -> Z -> world -> Z * Z * bst * world) : Prop :=
  forall st nr w c n st' w', okb st -> F st nr w = (c, n, st', w') -> plain c.

Section blkc.
Variable simple sk : bool.
Lemma b_done_plain : bplain (b_done cb simple sk).
Proof.
  intros st nr w c n st' w' _ H. unfold b_done in H. destruct (notify _ _ _ w) as [[c1 s] w1] eqn:N. quad H.
  apply notify_code in N. plain.
Qed.
Lemma b_frames_plain : forall k, bplain (b_frames cb simple sk k).
Proof.
  induction k as [|k IH]; intros st nr w c n st' w' (Ok1 & Ok2) H; cbn [b_frames] in H.
  - eapply b_done_plain; [|exact H]. split; assumption.
  - cbv zeta in H. destruct (on_data cb sk _ _ w) as [[c1 r1] w1] eqn:O.
    assert (Hr : 0 <= nth (Z.to_nat (b_cur st)) (b_laces st) 0) by (apply nth_nonneg; exact Ok1).
    pose proof (on_data_code _ _ _ _ _ _ _ Hr O) as C.
    apply on_data_spec in O; [|exact Pcb|exact Hr]. destruct O as (R & _).
    destruct (negb _); [quad H; exact C|]. eapply IH; [|exact H].
    split; destruct (_ <? _); cbn; try lia; apply set_nth_Forall; auto; lia.
Qed.
Lemma b_frames_step_plain : bplain (b_frames_step cb simple sk).
Proof. intros st nr w c n st' w' Ok H. unfold b_frames_step in H. eapply b_frames_plain; [|exact H]. exact Ok. Qed.
Lemma BF_plain : forall st w c n st' w', okb st -> BlockParser_Feed cb simple sk st w = (c, n, st', w') -> plain c.
Proof.
  assert (Gv : bplain (b_validate cb simple sk)).
  { intros st nr w c n st' w' (O1 & O2) H. unfold b_validate in H. cbv zeta in H. destruct (_ <=? _) eqn:E; [quad H; plain|].
    eapply b_frames_step_plain; [|exact H]. split; cbn; [|exact O2]. apply Forall_app. split; [exact O1|].
    constructor; [lia | constructor]. }
  assert (Gf : bplain (b_fixed cb simple sk)).
  { intros st nr w c n st' w' Ok H. pose proof (b_fixed_chain cb simple sk Pcb st Ok) as _.
    unfold b_fixed in H. cbv zeta in H. destruct (_ <=? _) eqn:E; [quad H; plain|].
    destruct (negb _); [quad H; plain|]. eapply b_frames_step_plain; [|exact H]. destruct Ok as (O1 & O2).
    split; cbn; [|exact O2]. apply Forall_forall. intros x Hx.
    destruct (Z_le_gt_dec (bv_frames (b_val st)) 0).
    - replace (Z.to_nat (bv_frames (b_val st))) with 0%nat in Hx by lia. destruct Hx.
    - apply repeat_spec in Hx. subst x. apply Z.div_pos; lia. }
  assert (Ge : forall k, bplain (b_ebml cb simple sk k)).
  { induction k as [|k IH]; intros st nr w c n st' w' (O1 & O2) H; cbn [b_ebml] in H.
    - eapply Gv; [|exact H]. split; assumption.
    - destruct (VarIntParser_Feed _ w) as [[[c1 n1] u] w1] eqn:V. cbv zeta in H.
      destruct (negb _); [apply VarIntParser_code in V; quad H; plain|]. eapply IH; [|exact H].
      split; cbn; [|exact O2]. apply Forall_app. split; [exact O1|]. constructor; [|constructor]. apply wrap64_range. }
  assert (G1 : bplain (b_ebml_first cb simple sk)).
  { intros st nr w c n st' w' (O1 & O2) H. unfold b_ebml_first in H.
    destruct (VarIntParser_Feed _ w) as [[[c1 n1] u] w1] eqn:V. cbv zeta in H.
    pose proof (VarInt_value_nonneg _ _ _ _ _ _ V) as Vn.
    destruct (c1 =? kOkCompleted) eqn:E1; cbn [negb] in H; [|apply VarIntParser_code in V; quad H; plain].
    eapply Ge; [|exact H]. split; cbn; [|exact O2]. apply Forall_app. split; [exact O1|].
    constructor; [apply Vn; lia | constructor]. }
  assert (Gx : forall f, bplain (b_xiph_loop cb simple sk f)).
  { induction f as [|f IH]; intros st nr w c n st' w' (O1 & O2) H; cbn [b_xiph_loop] in H;
      (destruct (_ <=? _); [eapply Gv; [|exact H]; split; assumption|]).
    - quad H. plain.
    - destruct (ReadByte w) as [[c1 b] w1] eqn:R. apply ReadByte_code in R. cbv zeta in H.
      destruct (negb _); [quad H; plain|]. destruct (b =? 255); (eapply IH; [|exact H]; split; cbn; auto).
      apply Forall_app. split; [exact O1|]. constructor; [apply wrap64_range | constructor]. }
  assert (Gs : bplain b_skipping).
  { intros st nr w c n st' w' Ok H. unfold b_skipping in H.
    destruct (take_all _ w) as [[c1 bs] w1] eqn:T. apply take_all_code in T; [|apply wrap64_range]. quad H. plain. }
  assert (Ga : bplain (b_action cb simple sk)).
  { intros st nr w c n st' w' Ok H. unfold b_action in H. destruct (notify _ _ _ w) as [[c1 s] w1] eqn:N.
    apply notify_code in N. cbv zeta in H. destruct (negb _); [quad H; plain|].
    destruct s; [exact (Gs _ _ _ _ _ _ _ Ok H)|]. destruct (_ || _); [exact (Gv _ _ _ _ _ _ _ Ok H)|].
    destruct (_ =? 2); [exact (Gx _ _ _ _ _ _ _ _ Ok H)|].
    destruct (_ =? 6); [exact (G1 _ _ _ _ _ _ _ Ok H) | exact (Gf _ _ _ _ _ _ _ Ok H)]. }
  assert (Gl : bplain (b_lace_count cb simple sk)).
  { intros st nr w c n st' w' Ok H. unfold b_lace_count in H. destruct (ReadByte w) as [[c1 b] w1] eqn:R.
    apply ReadByte_code in R. cbv zeta in H. destruct (negb _); [quad H; plain|]. eapply Ga; [|exact H]. exact Ok. }
  assert (GH : forall st w c n st' w', BlockHeaderParser_Feed st w = (c, n, st', w') -> plain c).
  { assert (H1 : forall st nr w c n st' w', h_flags_step st nr w = (c, n, st', w') -> plain c).
    { unfold h_flags_step. intros. destruct (ReadByte w) as [[c1 b] w1] eqn:R. apply ReadByte_code in R.
      destruct (negb _); quad H; plain. }
    assert (H2 : forall st nr w c n st' w', h_time_step st nr w = (c, n, st', w') -> plain c).
    { unfold h_time_step. intros. destruct (Accumulate _ _ _ _ _ w) as [[[c1 k] v] w1] eqn:R. apply Accumulate_code in R.
      cbv zeta in H. destruct (negb _); [quad H; plain | eauto]. }
    unfold BlockHeaderParser_Feed, h_track_step. intros. destruct (h_state st); eauto; [|quad H; plain].
    destruct (VarIntParser_Feed _ w) as [[[c1 n1] u] w1] eqn:V. apply VarIntParser_code in V.
    destruct (negb _); [quad H; plain | eauto]. }
  intros st w c n st' w' Ok H. unfold BlockParser_Feed in H. destruct (b_state st).
  - unfold b_header in H. destruct (BlockHeaderParser_Feed _ w) as [[[c1 n1] h] w1] eqn:V. apply GH in V. cbv zeta in H.
    destruct (negb _); [quad H; plain|].
    destruct (_ =? 0); [eapply Ga | eapply Gl]; try exact H; exact Ok.
  - exact (Gl _ _ _ _ _ _ _ Ok H).
  - exact (Ga _ _ _ _ _ _ _ Ok H).
  - exact (Gx _ _ _ _ _ _ _ _ Ok H).
  - exact (G1 _ _ _ _ _ _ _ Ok H).
  - exact (Ge _ _ _ _ _ _ _ _ Ok H).
  - exact (Gf _ _ _ _ _ _ _ Ok H).
  - exact (Gv _ _ _ _ _ _ _ Ok H).
  - exact (Gs _ _ _ _ _ _ _ Ok H).
  - exact (b_frames_step_plain _ _ _ _ _ _ _ Ok H).
  - exact (b_done_plain _ _ _ _ _ _ _ Ok H).
Qed.
End blkc.

Lemma BH_plain : forall st w c n st' w', BlockHeaderParser_Feed st w = (c, n, st', w') -> plain c.
Proof.
  assert (H1 : forall st nr w c n st' w', h_flags_step st nr w = (c, n, st', w') -> plain c).
  { unfold h_flags_step. intros. destruct (ReadByte w) as [[c1 b] w1] eqn:R. apply ReadByte_code in R.
    destruct (negb _); quad H; plain. }
  assert (H2 : forall st nr w c n st' w', h_time_step st nr w = (c, n, st', w') -> plain c).
  { unfold h_time_step. intros. destruct (Accumulate _ _ _ _ _ w) as [[[c1 k] v] w1] eqn:R. apply Accumulate_code in R.
    cbv zeta in H. destruct (negb _); [quad H; plain | eauto]. }
  unfold BlockHeaderParser_Feed, h_track_step. intros. destruct (h_state st); eauto; [|quad H; plain].
  destruct (VarIntParser_Feed _ w) as [[[c1 n1] u] w1] eqn:V. apply VarIntParser_code in V.
  destruct (negb _); [quad H; plain | eauto].
Qed.

(* ---------- well-formed states ---------- *)
Fixpoint wfp (p : pstate) : Prop :=
  match p with
  | PInt _ _ | PFloat _ | PDate _ | PIdEl _ | PVirtual _ => True
  | PBool s => bo_rem s <= 8
  | PBytes _ s => 0 <= by_want s
  | PVoid _ r | PUnknown _ r | PSkip r => 0 <= r
  | PBlock _ s => okb s
  | PMaster _ m c _ => 0 <= me_size (m_cm m) /\ wfc c
  | PRec q => wfp q
  end
with wfc (c : child) : Prop :=
  match c with CAct p => wfp p | _ => True end.
Definition wfm (m : mst) (c : child) : Prop := 0 <= me_size (m_cm m) /\ wfc c.

Lemma Init_wf : forall n x max s p, 0 <= me_size x -> parser_Init n x max = (s, p) -> s = kOkCompleted -> wfp p.
Proof.
  intros n x max s p Hx H E. destruct n; cbn [parser_Init] in H; try (injection H as K1 K2; subst p; cbn; auto; fail).
  all: try (unfold BoolParser_Init in H; destruct (8 <? me_size x) eqn:B; injection H as K1 K2; subst p; cbn; lia).
  all: try (unfold ByteParser_Init in H; destruct (_ =? _); [|destruct (_ <? _)]; injection H as K1 K2; subst p; cbn; lia).
  all: try (unfold SkipParser_Init in H; destruct (_ =? _); injection H as K1 K2; subst p; cbn; lia).
  all: try (unfold BlockParser_Init in H; destruct (_ || _); injection H as K1 K2; subst p; cbn; (split; [constructor | cbn; lia])).
  all: try (injection H as K1 K2; subst p; cbn; split; [lia | trivial]; fail).
  all: destruct d; injection H as K1 K2; subst p; cbn; [lia | split; [lia | trivial]].
Qed.

Lemma cached_wf : forall p x, wfp p -> cached p = Some x -> 0 <= me_size x.
Proof.
  intros p x W H. destruct p; try discriminate. cbn in *. destruct (m_cached m); [|discriminate].
  injection H as K. subst x. tauto.
Qed.

(* which class of parser it is *)
Inductive ptag := TLeaf | TData | TBlk (s : bool) | TMas (n : node) | TRec.
Definition tag (p : pstate) : ptag :=
  match p with
  | PVoid _ _ | PUnknown _ _ | PSkip _ => TData
  | PBlock s _ => TBlk s
  | PMaster n _ _ _ => TMas n
  | PRec _ => TRec
  | _ => TLeaf
  end.
Lemma wrapped_tag : forall n p q, tag p = tag q -> wrapped n p = wrapped n q.
Proof. intros n p q. unfold wrapped. destruct p, q; cbn; intro H; try discriminate; reflexivity. Qed.
Lemma is_start_tag : forall n p q, tag p = tag q -> is_start n p = is_start n q.
Proof.
  intros n p q H. unfold is_start. destruct n; try reflexivity. destruct v; try reflexivity.
  destruct p, q; cbn in H; try discriminate; try reflexivity; injection H as K; subst; reflexivity.
Qed.

(* what one run of the loop does to the fields of the value parser *)
Definition vkeep (n : node) (c : Z) (v v' : vst) : Prop :=
  v_complete v' = v_complete v /\
  ((n = NVal VCluster /\ c = kSwitchToSkip /\ v_started v = false /\ v_started v' = true /\ v_skip v' = true) \/
   (0 < c /\ (v_started v = true -> v_started v' = true /\ v_skip v' = v_skip v)) \/
   (plain c /\ v_skip v' = v_skip v /\ (v_started v = true -> v_started v' = true))).

Lemma vkeep_trans : forall n c v1 v2 v3,
  v_complete v2 = v_complete v1 -> v_skip v2 = v_skip v1 -> (v_started v1 = true -> v_started v2 = true) ->
  vkeep n c v2 v3 -> vkeep n c v1 v3.
Proof.
  intros n c v1 v2 v3 H1 H2 H3 (A & B). split; [congruence|].
  destruct B as [(B0 & B1 & B2 & B3 & B4) | [(B1 & B2) | (B1 & B2 & B3)]].
  - left. repeat split; auto. destruct (v_started v1); [|reflexivity]. rewrite H3 in B2; auto.
  - right; left. split; [exact B1|]. intro E. rewrite <- H2. auto.
  - right; right. split; [exact B1|]. split; [congruence|]. auto.
Qed.
Lemma vkeep_refl : forall n c v, plain c -> vkeep n c v v.
Proof. intros n c v H. split; [reflexivity|]. right; right. repeat split; auto. Qed.

Lemma on_started_spec : forall n sk m v w c s w', on_started cb n sk m v w = (c, s, w') ->
  0 <= c /\ moved 0 w w' /\ on_started cb n sk m v (full w) = (c, s, full w') /\ (sk = true -> is_start n (PBlock true (mk_bst BDone 0 blockv0 meta0 0 0 h_new vi_new 0 [] 0)) = true -> c = kOkCompleted /\ s = true).
Proof.
  intros n sk m v w c s w' H. unfold on_started in *.
  assert (D : forall c s w', (kOkCompleted, false, w) = (c, s, w') ->
     0 <= c /\ moved 0 w w' /\ (kOkCompleted, false, full w) = (c, s, full w')).
  { intros c0 s0 w0 Q. injection Q as K1 K2 K3. subst. split; [plain|]. split; [apply moved_refl | reflexivity]. }
  assert (E : forall e c s w', notify cb sk e w = (c, s, w') ->
     0 <= c /\ moved 0 w w' /\ notify cb sk e (full w) = (c, s, full w') /\ (sk = true -> c = kOkCompleted /\ s = true)).
  { intros e c0 s0 w0 Q. pose proof Q as Q'. apply notify_spec in Q; [|exact Pcb]. repeat split; try tauto.
    all: subst sk; unfold notify in Q'; injection Q' as K1 K2 K3; auto. }
  destruct n; try (apply D in H; destruct H as (H1 & H2 & H3); repeat split; auto; discriminate).
  destruct v0; try (apply D in H; destruct H as (H1 & H2 & H3); repeat split; auto; discriminate).
  - apply E in H. destruct H as (H1 & H2 & H3 & H4). repeat split; auto; apply H4; auto.
  - apply E in H. destruct H as (H1 & H2 & H3 & H4). repeat split; auto; apply H4; auto.
Qed.

Lemma is_start_cluster : forall n p, is_start n p = true -> n = NVal VCluster.
Proof. intros n p H. destruct n; try discriminate. destruct v; try discriminate. reflexivity. Qed.

Ltac leaf H E := match type of H with context [let '(_, _) := ?x in _] => destruct x as [[[? ?] ?] ?] eqn:E end; quad H.

Lemma bools_plain : forall st w c n st' w', BoolParser_Feed st w = (c, n, st', w') -> plain c.
Proof.
  unfold BoolParser_Feed. intros. destruct (Accumulate _ _ _ _ _ w) as [[[c1 k] v] w1] eqn:A. apply Accumulate_code in A.
  cbv zeta in H. destruct (_ || _); quad H; plain.
Qed.

Lemma feed_keeps : forall f,
  (forall sk p w c k p' w', wfp p -> feed cb f sk p w = Some (c, k, p', w') -> plain c /\ tag p' = tag p /\ wfp p') /\
  (forall n osk sk m ch v nr w c k m' ch' v' w', wfm m ch ->
     (n = NVal VCluster -> v_skip v = true -> osk = true) -> (osk = true -> sk = true) ->
     mloop cb f n osk sk m ch v nr w = Some (c, k, (m', ch', v'), w') -> vkeep n c v v' /\ wfm m' ch').
Proof.
  induction f as [|f (IHf & IHm)]; [split; intros; discriminate|]. split.
  - intros sk p w c k p' w' Wp H.
    destruct p as [sg s|s|s|s|s|str s|x rem|x rem|rem|simple s|s|n m ch v|q].
    + cbn [feed] in H. destruct (IntParser_Feed sg s w) as [[[c1 k1] s1] w1] eqn:E. injection H as K1 K2 K3 K4. subst.
      split; [|split; [reflexivity | exact I]]. unfold IntParser_Feed in E.
      destruct (Accumulate _ _ _ _ _ w) as [[[c2 k2] v2] w2] eqn:A. apply Accumulate_code in A. quad E. plain.
    + cbn [feed] in H. destruct (FloatParser_Feed s w) as [[[c1 k1] s1] w1] eqn:E. injection H as K1 K2 K3 K4. subst.
      split; [|split; [reflexivity | exact I]]. unfold FloatParser_Feed in E. destruct (_ =? 0); [quad E; plain|].
      destruct (Accumulate _ _ _ _ _ w) as [[[c2 k2] v2] w2] eqn:A. apply Accumulate_code in A. quad E. plain.
    + cbn [feed] in H. destruct (DateParser_Feed s w) as [[[c1 k1] s1] w1] eqn:E. injection H as K1 K2 K3 K4. subst.
      split; [|split; [reflexivity | exact I]]. unfold DateParser_Feed in E.
      destruct (Accumulate _ _ _ _ _ w) as [[[c2 k2] v2] w2] eqn:A. apply Accumulate_code in A. quad E. plain.
    + cbn [feed] in H. destruct (IdElementParser_Feed s w) as [[[c1 k1] s1] w1] eqn:E. injection H as K1 K2 K3 K4. subst.
      split; [|split; [reflexivity | exact I]]. unfold IdElementParser_Feed in E.
      destruct (Accumulate _ _ _ _ _ w) as [[[c2 k2] v2] w2] eqn:A. apply Accumulate_code in A. quad E. plain.
    + cbn [feed] in H. destruct (BoolParser_Feed s w) as [[[c1 k1] s1] w1] eqn:E. injection H as K1 K2 K3 K4. subst.
      split; [apply bools_plain in E; exact E|]. split; [reflexivity|]. unfold BoolParser_Feed in E.
      destruct (Accumulate _ _ _ _ _ w) as [[[c2 k2] v2] w2] eqn:A. apply Accumulate_spec in A.
      destruct A as (M & _). apply moved_nonneg in M. cbn in Wp. cbv zeta in E.
      destruct (_ || _); quad E; cbn; lia.
    + cbn [feed] in H. destruct (ByteParser_Feed str s w) as [[[c1 k1] s1] w1] eqn:E. injection H as K1 K2 K3 K4. subst.
      cbn in Wp. unfold ByteParser_Feed in E. destruct (_ =? 0); [quad E; split; [plain|]; split; [reflexivity | exact Wp]|].
      destruct (take_all (by_want s) w) as [[c2 bs] w2] eqn:T.
      pose proof (take_all_code _ _ _ _ _ Wp T) as C. apply take_all_spec in T; [|exact Wp].
      destruct T as (_ & _ & _ & _ & L & _). quad E. split; [plain|]. split; [reflexivity|]. cbn. lia.
    + cbn [feed] in H. destruct (on_data cb sk (DVoid x) rem w) as [[c1 r1] w1] eqn:O. injection H as K1 K2 K3 K4. subst.
      cbn in Wp. split; [eapply on_data_code; eauto|]. split; [reflexivity|].
      apply on_data_spec in O; [|exact Pcb|exact Wp]. cbn. lia.
    + cbn [feed] in H. destruct (on_data cb sk (DUnknown x) rem w) as [[c1 r1] w1] eqn:O. injection H as K1 K2 K3 K4. subst.
      cbn in Wp. split; [eapply on_data_code; eauto|]. split; [reflexivity|].
      apply on_data_spec in O; [|exact Pcb|exact Wp]. cbn. lia.
    + cbn [feed] in H. destruct (SkipParser_Feed rem w) as [[[c1 k1] s1] w1] eqn:E. injection H as K1 K2 K3 K4. subst.
      cbn in Wp. unfold SkipParser_Feed in E. destruct (_ =? 0); [quad E; split; [plain|]; split; [reflexivity | exact Wp]|].
      destruct (take_all rem w) as [[c2 bs] w2] eqn:T.
      pose proof (take_all_code _ _ _ _ _ Wp T) as C. apply take_all_spec in T; [|exact Wp].
      destruct T as (_ & _ & _ & _ & L & _). quad E. split; [plain|]. split; [reflexivity|]. cbn. lia.
    + cbn [feed] in H. destruct (BlockParser_Feed cb simple sk s w) as [[[c1 k1] s1] w1] eqn:E. injection H as K1 K2 K3 K4. subst.
      cbn in Wp. split; [eapply BF_plain; eauto|]. split; [reflexivity|].
      apply BlockParser_resumes in E; [|exact Pcb|exact Wp]. cbn. tauto.
    + cbn [feed] in H. destruct (VirtualBlockParser_Feed s w) as [[[c1 k1] s1] w1] eqn:E. injection H as K1 K2 K3 K4. subst.
      split; [|split; [reflexivity | exact I]]. unfold VirtualBlockParser_Feed, vb_validate in E.
      destruct (vb_state s); [|destruct (_ <? _); quad E; plain | quad E; plain].
      destruct (BlockHeaderParser_Feed _ w) as [[[c2 k2] h2] w2] eqn:B. apply BH_plain in B.
      destruct (negb _); [quad E; plain|]. destruct (_ <? _); quad E; plain.
    + assert (MO : forall n2 osk sk1 m1 ch1 v1 k1 w1 r, wfm m1 ch1 ->
                (n2 = NVal VCluster -> v_skip v1 = true -> osk = true) -> (osk = true -> sk1 = true) ->
                mloop cb f n2 osk sk1 m1 ch1 v1 k1 w1 = Some r ->
                exists c2 k2 m2 ch2 v2 w2, r = (c2, k2, (m2, ch2, v2), w2) /\ vkeep n2 c2 v1 v2 /\ wfm m2 ch2).
      { intros n2 osk sk1 m1 ch1 v1 k1 w1 [[[c2 k2] [[m2 ch2] v2]] w2] W V1 V2 Q.
        exists c2, k2, m2, ch2, v2, w2. split; [reflexivity|].
        exact (IHm _ _ _ _ _ _ _ _ _ _ _ _ _ _ W V1 V2 Q). }
      destruct (is_value n) eqn:Ev; [|destruct (match n with NSegment => true | _ => false end) eqn:Es].
      * destruct n; try discriminate. pose proof (fd_val cb f sk v0 m ch v w) as Q1. cbv zeta in Q1. rewrite Q1 in H. clear Q1.
        match type of H with match ?x with _ => _ end = _ => set (pre := x) in H end.
        assert (Hpre : exists c0 v1 w0, pre = (c0, v1, w0) /\ 0 <= c0 /\ v_complete v1 = v_complete v).
        { unfold pre. destruct v0; try (exists kOkCompleted, v, w; repeat split; plain).
          destruct (v_started v); [exists kOkCompleted, v, w; repeat split; plain|].
          destruct (on_started cb (NVal VBlockGroup) sk m v w) as [[c1 s1] w1] eqn:O. apply on_started_spec in O.
          destruct O as (O1 & _). destruct (negb _); eexists; eexists; eexists; (split; [reflexivity|]); split; auto. }
        destruct Hpre as (c0 & v1 & w0 & Hp & Hc0 & Hvc). rewrite Hp in H. clear pre Hp.
        destruct (negb (c0 =? kOkCompleted)); [injection H as K1 K2 K3 K4; subst; split; [plain|]; split; [reflexivity | exact Wp]|].
        match type of H with match ?x with _ => _ end = _ => destruct x as [[[[c2 k2] [[m2 ch2] v2]] w2]|] eqn:R; [|discriminate] end.
        assert (G : plain c2 /\ wfm m2 ch2).
        { destruct (v_complete v1); [injection R as K1 K2 K3 K4 K5 K6; subst; split; [plain | exact Wp]|].
          destruct (mloop cb f _ _ _ m ch v1 0 w0) as [x|] eqn:E; [|discriminate].
          apply MO in E; [| exact Wp | intros _ ->; destruct sk; reflexivity | intros ->; reflexivity].
          destruct E as (c3 & k3 & m3 & ch3 & v3 & w3 & -> & (_ & V) & W3).
          destruct (c3 =? kSwitchToSkip) eqn:E3.
          - destruct (mloop cb f _ true true m3 ch3 v3 0 w3) as [x|] eqn:E; [|discriminate].
            apply MO in E; [|exact W3 | auto | auto].
            destruct E as (c4 & k4 & m4 & ch4 & v4 & w4 & -> & (_ & V4) & W4). injection R as K1 K2 K3 K4 K5 K6. subst.
            split; [|exact W4].
            destruct V4 as [(A0 & A1 & A2 & _) | [(A1 & A2) | (A1 & _)]]; [| plain | exact A1].
            destruct V as [(B0 & B1 & B2 & B3 & _) | [(B1 & _) | (B1 & _)]]; [congruence | |];
              unfold kSwitchToSkip, plain in *; lia.
          - injection R as K1 K2 K3 K4 K5 K6. subst. split; [|exact W3].
            destruct V as [(B0 & B1 & B2 & B3 & _) | [(B1 & _) | (B1 & _)]]; [|plain|exact B1]. unfold kSwitchToSkip in *; lia. }
        destruct G as (G1 & G2).
        destruct (negb (c2 =? kOkCompleted)); [injection H as K1 K2 K3 K4; subst; split; [exact G1|]; split; [reflexivity | exact G2]|].
        cbv zeta in H.
        match type of H with match ?x with _ => _ end = _ => set (post := x) in H end.
        assert (Hpost : exists c3 v3 w3, post = (c3, v3, w3) /\ 0 <= c3).
        { unfold post. cbn [v_started]. destruct (v_started v2); [eexists; eexists; eexists; split; [reflexivity | plain]|].
          destruct (on_started cb (NVal v0) sk m2 _ w2) as [[c4 s4] w4] eqn:O. apply on_started_spec in O.
          eexists; eexists; eexists; split; [reflexivity | tauto]. }
        destruct Hpost as (c3 & v3 & w3 & Hp & Hc3). rewrite Hp in H. clear post Hp.
        destruct (negb (c3 =? kOkCompleted)); [injection H as K1 K2 K3 K4; subst; split; [plain|]; split; [reflexivity | exact G2]|].
        destruct (v_skip v3); [injection H as K1 K2 K3 K4; subst; split; [plain|]; split; [reflexivity | exact G2]|].
        destruct (on_completed cb (NVal v0) sk m2 v3 w3) as [c5 w5] eqn:O.
        injection H as K1 K2 K3 K4; subst. split; [|split; [reflexivity | exact G2]].
        unfold on_completed in O. cbv zeta in O.
        destruct v0; try (injection O as K1 K2; subst; plain; fail);
          (match type of O with context [notify cb sk ?e w3] => destruct (notify cb sk e w3) as [[? ?] ?] eqn:N end;
           apply notify_code in N; injection O as K1 K2; subst; plain).
      * destruct n; try discriminate. rewrite fd_seg in H.
        match type of H with match ?x with _ => _ end = _ => set (pre := x) in H end.
        assert (Hpre : exists c0 v1 w0, pre = (c0, v1, w0) /\ 0 <= c0).
        { unfold pre. destruct (v_started v); [eexists; eexists; eexists; split; [reflexivity | plain]|].
          destruct (notify cb sk _ w) as [[c1 s1] w1] eqn:N. apply notify_code in N.
          destruct (negb _); eexists; eexists; eexists; split; [reflexivity | exact N | reflexivity | exact N]. }
        destruct Hpre as (c0 & v1 & w0 & Hp & Hc0). rewrite Hp in H. clear pre Hp.
        destruct (negb (c0 =? kOkCompleted)); [injection H as K1 K2 K3 K4; subst; split; [plain|]; split; [reflexivity | exact Wp]|].
        cbv zeta in H.
        match type of H with match ?x with _ => _ end = _ => destruct x as [[[[c2 k2] [[m2 ch2] v2]] w2]|] eqn:R; [|discriminate] end.
        assert (G : plain c2 /\ wfm m2 ch2).
        { destruct (v_complete v1); [injection R as K1 K2 K3 K4 K5 K6; subst; split; [plain | exact Wp]|].
          apply MO in R; [| exact Wp | discriminate | intros ->; reflexivity].
          destruct R as (c3 & k3 & m3 & ch3 & v3 & w3 & K & (_ & V) & W3). injection K as K1 K2 K3 K4 K5 K6. subst.
          split; [|exact W3].
          destruct V as [(B0 & _) | [(B1 & _) | (B1 & _)]]; [discriminate | plain | exact B1]. }
        destruct G as (G1 & G2).
        destruct (negb (c2 =? kOkCompleted)); [injection H as K1 K2 K3 K4; subst; split; [exact G1|]; split; [reflexivity | exact G2]|].
        destruct (notify cb _ _ w2) as [[c3 s3] w3] eqn:N. apply notify_code in N.
        injection H as K1 K2 K3 K4; subst. split; [plain|]. split; [reflexivity | exact G2].
      * assert (Hn : n <> NSegment) by (intros ->; discriminate).
        rewrite fd_other in H by assumption.
        destruct (mloop cb f n sk _ m ch v 0 w) as [x|] eqn:E; [|discriminate].
        apply MO in E; [| exact Wp | intros ->; discriminate | intros ->; reflexivity].
        destruct E as (c2 & k2 & m2 & ch2 & v2 & w2 & -> & (_ & V) & W2). injection H as K1 K2 K3 K4. subst.
        split; [|split; [reflexivity | exact W2]].
        destruct V as [(B0 & _) | [(B1 & _) | (B1 & _)]]; [subst n; discriminate | plain | exact B1].
    + cbn [feed] in H. destruct (feed cb f sk q w) as [[[[c1 k1] q1] w1]|] eqn:E; [|discriminate].
      injection H as K1 K2 K3 K4. subst. apply IHf in E; [|exact Wp]. split; [tauto|]. split; [reflexivity|]. cbn. tauto.
  - intros n osk sk m ch v nr w c k m' ch' v' w' (Wm & Wc) Vs Vo H. destruct (m_state m) eqn:Em.
    + rewrite ml_MFirst in H by exact Em. cbv zeta in H.
      destruct (IdParser_Feed (m_idp m) w) as [[[s k1] i] w1] eqn:I. apply IdParser_code in I.
      destruct (_ && _). { eapply IHm; [| | | exact H]; auto. split; cbn; auto. }
      destruct (negb _) eqn:B. { injection H as K1 K2 K3 K4 K5 K6. subst. split; [apply vkeep_refl; plain|]. destruct (_ <? _); (split; cbn; auto). }
      destruct (_ =? _); (eapply IHm; [| | | exact H]; auto; split; cbn; auto).
    + rewrite ml_MFinishing in H by exact Em. cbv zeta in H.
      destruct (IdParser_Feed (m_idp m) w) as [[[s k1] i] w1] eqn:I. apply IdParser_code in I.
      destruct (negb _) eqn:B. { injection H as K1 K2 K3 K4 K5 K6. subst. split; [apply vkeep_refl; plain|]. split; cbn; auto. }
      eapply IHm; [| | | exact H]; auto. split; cbn; auto.
    + rewrite ml_MSize in H by exact Em. cbv zeta in H.
      destruct (SizeParser_Feed (m_szp m) w) as [[[s k1] z] w1] eqn:I. pose proof (Size_nonneg _ _ _ _ _ _ I) as Sn. apply SizeParser_code in I.
      destruct (s =? kOkCompleted) eqn:B; cbn [negb] in H.
      2:{ injection H as K1 K2 K3 K4 K5 K6. subst. split; [apply vkeep_refl; plain|]. split; cbn; auto. }
      eapply IHm; [| | | exact H]; auto. split; cbn; auto. apply Sn. lia.
    + rewrite ml_MValidate in H by exact Em. cbv zeta in H.
      destruct (_ <? _). { injection H as K1 K2 K3 K4 K5 K6. subst. split; [apply vkeep_refl; plain|]. split; auto. }
      destruct (lookup _ _) as [cn|].
      * eapply IHm; [| | | exact H]; auto. split; cbn; auto.
      * destruct (_ =? _). { eapply IHm; [| | | exact H]; auto. split; cbn; auto. }
        destruct (_ =? _). { injection H as K1 K2 K3 K4 K5 K6. subst. split; [apply vkeep_refl; plain|]. split; auto. }
        eapply IHm; [| | | exact H]; auto. split; cbn; auto.
    + rewrite ml_MAction in H by exact Em. cbv zeta in H.
      destruct (notify cb sk _ w) as [[s skip] w1] eqn:N. apply notify_code in N.
      destruct (negb _). { injection H as K1 K2 K3 K4 K5 K6. subst. split; [apply vkeep_refl; plain|]. split; auto. }
      destruct skip; (eapply IHm; [| | | exact H]; auto; split; cbn; auto). destruct (_ =? _); cbn; auto.
    + rewrite ml_MInit in H by exact Em. destruct ch as [|cn|]; try discriminate.
      destruct (parser_Init cn (m_cm m) (m_max m - m_total m)) as [s p] eqn:I.
      destruct (s =? kOkCompleted) eqn:B; cbn [negb] in H.
      * eapply IHm; [| | | exact H]; auto. split; cbn; auto. eapply Init_wf; eauto. lia.
      * injection H as K1 K2 K3 K4 K5 K6. subst. split; [|split; auto]. apply vkeep_refl.
        destruct cn; cbn [parser_Init] in I; try (injection I as K1 K2; subst; plain; fail);
        unfold IntParser_Init, FloatParser_Init, DateParser_Init, BoolParser_Init, IdElementParser_Init, ByteParser_Init,
          SkipParser_Init, BlockParser_Init, VirtualBlockParser_Init in I;
        try (repeat match type of I with context [if ?b then _ else _] => destruct b end; injection I as K1 K2; subst; cbn; plain);
        try (destruct d; injection I as K1 K2; subst; plain).
    + rewrite ml_MBody in H by exact Em. destruct ch as [| |p]; try discriminate. cbv zeta in H.
      destruct (wrapped n p && is_start n p && negb (v_started v)) eqn:C.
      * apply andb_true_iff in C. destruct C as (C & C3). apply andb_true_iff in C. destruct C as (C1 & C2).
        assert (C3' : v_started v = false) by (destruct (v_started v); [discriminate | reflexivity]).
        pose proof (is_start_cluster _ _ C2) as Cn.
        destruct (on_started cb n sk m v w) as [[s1 skip] w1] eqn:O.
        pose proof (on_started_spec _ _ _ _ _ _ _ _ O) as (O1 & O2 & O3 & O4).
        destruct (s1 =? kOkCompleted) eqn:E1; cbn [negb] in H.
        -- destruct skip.
           ++ cbn [negb] in H. change (negb (kSwitchToSkip =? kOkCompleted)) with true in H. cbn iota in H.
              injection H as K1 K2 K3 K4 K5 K6. subst. split; [|split; auto]. split; [reflexivity|]. left. repeat split; auto.
           ++ change (negb (kOkCompleted =? kOkCompleted)) with false in H. cbn iota in H.
              destruct (feed cb f sk p w1) as [[[[s2 k2] p2] w2]|] eqn:F; [|discriminate]. apply IHf in F; [|exact Wc].
              destruct F as (F1 & F2 & F3).
              assert (Vz : v_skip v = false).
              { destruct (v_skip v) eqn:Q; [|reflexivity]. assert (sk = true) by auto. subst sk.
                destruct (O4 eq_refl) as (_ & X); [subst n; reflexivity | discriminate]. }
              set (v2 := if _ && _ && _ && _ then _ else _) in H.
              assert (V2 : v_complete v2 = v_complete v /\ v_skip v2 = false).
              { unfold v2. destruct (_ && _); cbn; auto. }
              clearbody v2. destruct V2 as (V2a & V2b).
              destruct (s2 =? kOkCompleted); cbn [negb] in H.
              2:{ injection H as K1 K2 K3 K4 K5 K6. subst. split; [|split; auto]. split; [exact V2a|]. right; right.
                 split; [exact F1|]. split; [congruence|]. intro X; congruence. }
              ** apply IHm in H; [| split; cbn; auto | intros _ X; congruence | exact Vo].
                 destruct H as (V & W). split; [|exact W]. eapply vkeep_trans; [| | |exact V]; try congruence.
        -- rewrite E1 in H. cbn [negb] in H. injection H as K1 K2 K3 K4 K5 K6. subst. split; [|split; auto].
           split; [reflexivity|]. right; left. split; [plain|]. intro X; congruence.
      * change (negb (kOkCompleted =? kOkCompleted)) with false in H. cbn iota in H.
        destruct (feed cb f sk p w) as [[[[s2 k2] p2] w2]|] eqn:F; [|discriminate]. apply IHf in F; [|exact Wc].
        destruct F as (F1 & F2 & F3).
        set (v2 := if _ && _ && _ && _ then _ else _) in H.
        assert (V2 : v_complete v2 = v_complete v /\ v_skip v2 = v_skip v /\ v_started v2 = v_started v).
        { unfold v2. destruct (wrapped n p && (s2 =? kOkCompleted) && negb (v_skip v) && negb (was_skipped p2)); cbn; auto. }
        clearbody v2. destruct V2 as (V2a & V2b & V2c).
        destruct (s2 =? kOkCompleted); cbn [negb] in H.
        2:{ injection H as K1 K2 K3 K4 K5 K6. subst. split; [|split; auto]. split; [exact V2a|]. right; right.
           split; [exact F1|]. split; [exact V2b|]. congruence. }
        -- apply IHm in H; [| split; cbn; auto | rewrite V2b; exact Vs | exact Vo].
           destruct H as (V & W). split; [|exact W]. eapply vkeep_trans; [exact V2a | exact V2b | congruence | exact V].
    + rewrite ml_MParsed in H by exact Em.
      destruct (_ <? _). { injection H as K1 K2 K3 K4 K5 K6. subst. split; [apply vkeep_refl; plain|]. split; auto. }
      destruct (_ =? _). { eapply IHm; [| | | exact H]; auto. split; cbn; auto. }
      destruct ch as [| |p]; try discriminate. destruct (cached p) as [x|] eqn:Cx.
      * eapply IHm; [| | | exact H]; auto. split; cbn; auto. eapply cached_wf; eauto.
      * eapply IHm; [| | | exact H]; auto. split; cbn; auto.
    + rewrite ml_MEnd in H by exact Em. injection H as K1 K2 K3 K4 K5 K6. subst. split; [apply vkeep_refl; plain|]. split; auto.
Qed.

(* the byte counter only adds up *)
Lemma mloop_shift : forall f n osk sk m c v nr w,
  mloop cb f n osk sk m c v nr w = option_map (addn nr) (mloop cb f n osk sk m c v 0 w).
Proof.
  induction f as [|f IH]; intros n osk sk m c v nr w; [reflexivity|].
  assert (A : forall a sk' m' c' v' w', mloop cb f n osk sk' m' c' v' (nr + a) w' =
              option_map (addn nr) (mloop cb f n osk sk' m' c' v' (0 + a) w')).
  { intros. rewrite IH, (IH _ _ _ _ _ _ (0 + a)). destruct (mloop cb f n osk sk' m' c' v' 0 w'); [|reflexivity].
    cbn [option_map]. rewrite addn_addn. reflexivity. }
  assert (B : forall sk' osk' m' c' v' w', mloop cb f n osk' sk' m' c' v' nr w' =
              option_map (addn nr) (mloop cb f n osk' sk' m' c' v' 0 w')).
  { intros. apply IH. }
  assert (D : forall S c k (s : S) w, Some (c, nr + k, s, w) = option_map (addn nr) (Some (c, 0 + k, s, w))) by reflexivity.
  assert (D0 : forall S c (s : S) w, Some (c, nr, s, w) = option_map (addn nr) (Some (c, 0, s, w))).
  { intros. cbn. rewrite Z.add_0_r. reflexivity. }
  destruct (m_state m) eqn:Em.
  - rewrite !ml_MFirst by exact Em. cbv zeta. destruct (IdParser_Feed (m_idp m) w) as [[[s k1] i] w1].
    destruct (_ && _); [apply A|]. destruct (negb _); [apply D|]. destruct (_ =? _); apply A.
  - rewrite !ml_MFinishing by exact Em. cbv zeta. destruct (IdParser_Feed (m_idp m) w) as [[[s k1] i] w1].
    destruct (negb _); [apply D | apply A].
  - rewrite !ml_MSize by exact Em. cbv zeta. destruct (SizeParser_Feed (m_szp m) w) as [[[s k1] i] w1].
    destruct (negb _); [apply D | apply A].
  - rewrite !ml_MValidate by exact Em. cbv zeta. destruct (_ <? _); [apply D0|].
    destruct (lookup _ _); [apply B|]. destruct (_ =? _); [apply B|]. destruct (_ =? _); [apply D0 | apply B].
  - rewrite !ml_MAction by exact Em. cbv zeta. destruct (notify _ _ _ w) as [[s skip] w1].
    destruct (negb _); [apply D0|]. destruct skip; apply B.
  - rewrite !ml_MInit by exact Em. destruct c; try reflexivity. destruct (parser_Init _ _ _) as [s p].
    destruct (negb _); [apply D0 | apply B].
  - rewrite !ml_MBody by exact Em. destruct c as [| |p]; try reflexivity. cbv zeta.
    match goal with |- context [let '(_, _) := ?x in _] => destruct x as [[c1 v1] w1] end.
    destruct (negb _); [apply D0|]. destruct (feed cb f sk p w1) as [[[[s2 k2] p2] w2]|]; [|reflexivity].
    destruct (negb _); [apply D | apply A].
  - rewrite !ml_MParsed by exact Em. destruct (_ <? _); [apply D0|]. destruct (_ =? _); [apply B|].
    destruct c as [| |p]; try reflexivity. destruct (cached p); apply B.
  - rewrite !ml_MEnd by exact Em. apply D0.
Qed.
End codes.
