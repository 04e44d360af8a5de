(* The callback parser: an element parser that completes has read exactly the bytes of
   its element. *)
From Coq Require Import ZifyBool ZifyNat.
From Verif Require Import Base WpSpec MWp MWpBlock MWpTree PWp1 PWp2 PWp3 PWp4 PWp5 PWp6 PWp7.

Lemma cong_mod : forall a b, (exists q, a = b + q * 2 ^ 64) <-> a mod 2 ^ 64 = b mod 2 ^ 64.
Proof.
  intros a b. split.
  - intros (q & ->). rewrite Z_mod_plus_full. reflexivity.
  - intro H. exists (a / 2 ^ 64 - b / 2 ^ 64). pose proof (Z_div_mod_eq_full a (2 ^ 64)). pose proof (Z_div_mod_eq_full b (2 ^ 64)). lia.
Qed.
(* equal modulo 2^64 *)
Definition cg (a b : Z) : Prop := exists q, a = b + q * 2 ^ 64.
Lemma cg_refl : forall a, cg a a. Proof. intro a. exists 0. lia. Qed.
Lemma cg_eq : forall a b, a = b -> cg a b. Proof. intros a b ->. apply cg_refl. Qed.
Lemma cg_trans : forall a b c, cg a b -> cg b c -> cg a c.
Proof. intros a b c (q & ->) (r & ->). exists (q + r). lia. Qed.
Lemma cg_add : forall a b c d, cg a b -> cg c d -> cg (a + c) (b + d).
Proof. intros a b c d (q & ->) (r & ->). exists (q + r). lia. Qed.
Lemma cg_wrap : forall a, cg (wrap64 a) a.
Proof. intro a. unfold wrap64. exists (- (a / 2 ^ 64)). pose proof (Z_div_mod_eq_full a (2 ^ 64)). lia. Qed.
Lemma cg_small : forall a b, cg a b -> 0 <= a < 2 ^ 64 -> 0 <= b < 2 ^ 64 -> a = b.
Proof. intros a b (q & ->) H1 H2. assert (q = 0) by nia. subst. lia. Qed.

(* ---------- blocks ---------- *)
Definition sum (l : list Z) : Z := fold_right Z.add 0 l.
Lemma fold_sum : forall l a, fold_left Z.add l a = a + sum l.
Proof. induction l as [|x l IH]; intro a; cbn; [lia|]. rewrite IH. unfold sum. lia. Qed.
Lemma sum_app : forall a b, sum (a ++ b) = sum a + sum b.
Proof. induction a as [|x a IH]; intro b; cbn; [reflexivity|]. specialize (IH b). unfold sum in *. lia. Qed.
Lemma sum_repeat : forall x n, sum (repeat x n) = x * Z.of_nat n.
Proof. intros x n. induction n as [|n IH]; cbn [repeat sum fold_right]; [lia|]. unfold sum in IH. rewrite IH. lia. Qed.
Lemma sum_skipn : forall l i, (i < length l)%nat -> sum (skipn i l) = nth i l 0 + sum (skipn (S i) l).
Proof.
  induction l as [|x l IH]; intros i H; [cbn in H; lia|]. destruct i as [|i]; [cbn; destruct l; reflexivity|].
  cbn [skipn nth]. apply IH. cbn in H. lia.
Qed.
Lemma skipn_set_nth : forall l i x, (i < length l)%nat -> skipn i (set_nth i x l) = x :: skipn (S i) l.
Proof.
  induction l as [|y l IH]; intros i x H; [cbn in H; lia|]. destruct i as [|i]; [destruct l; reflexivity|].
  cbn [set_nth skipn]. rewrite IH by (cbn in H; lia). reflexivity.
Qed.
Lemma skipn_S_set_nth : forall l i x, skipn (S i) (set_nth i x l) = skipn (S i) l.
Proof.
  induction l as [|y l IH]; intros i x; [destruct i; reflexivity|]. destruct i as [|i]; [reflexivity|].
  cbn [set_nth skipn]. apply IH.
Qed.
Lemma Forall_set_nth : forall l i x, Forall (fun y => 0 <= y) l -> 0 <= x -> Forall (fun y => 0 <= y) (set_nth i x l).
Proof.
  intros l i x O H. revert i. induction O as [|y l Hy O IH]; intro i; [destruct i; constructor|].
  destruct i; cbn; constructor; auto.
Qed.
Lemma set_nth_length : forall l i x, length (set_nth i x l) = length l.
Proof. induction l as [|y l IH]; intros i x; [destruct i; reflexivity|]. destruct i; cbn; [reflexivity|]. rewrite IH. reflexivity. Qed.

(* bytes of the block not read yet *)
Definition bleft (st : bst) : Z :=
  match b_state st with
  | BFrames => sum (skipn (Z.to_nat (b_cur st)) (b_laces st))
  | BDone => 0
  | _ => me_size (b_meta st) - b_hread st
  end.
Definition okbb (st : bst) : Prop := okb st /\ match b_state st with
  | BFrames | BDone => True
  | BHeader | BLaceCount => b_cur st = 0
  | _ => b_cur st = 0 /\ 0 < bv_frames (b_val st)
  end.

Definition takes (L : Z) (nr : Z) (c n : Z) (st' : bst) : Prop :=
  okbb st' /\ cg (n - nr) (L - bleft st') /\ (c = kOkCompleted -> cg (bleft st') 0).
Definition head (st : bst) : Z := me_size (b_meta st) - b_hread st.

Section blk.
Variable cb : callback.
Hypothesis Pcb : proper cb.
Variable simple : bool.
Variable sk : bool.

Lemma b_done_left : forall st nr w c n st' w', okb st -> b_state st = BDone -> b_done cb simple sk st nr w = (c, n, st', w') ->
  takes 0 nr c n st'.
Proof.
  intros st nr w c n st' w' O B H. unfold b_done in H. destruct (notify cb sk _ w) as [[c1 s1] w1]. quad H.
  split; [split; [exact O | rewrite B; exact I]|]. unfold bleft. rewrite B. split; [apply cg_eq; lia | intros _; apply cg_refl].
Qed.
Lemma b_frames_left : forall k st nr w c n st' w', okb st -> b_state st = BFrames ->
  k = (length (b_laces st) - Z.to_nat (b_cur st))%nat ->
  b_frames cb simple sk k st nr w = (c, n, st', w') -> takes (sum (skipn (Z.to_nat (b_cur st)) (b_laces st))) nr c n st'.
Proof.
  induction k as [|k IH]; intros st nr w c n st' w' O B K H.
  - cbn [b_frames] in H. rewrite skipn_all2 by lia. apply b_done_left in H; [exact H | exact O | reflexivity].
  - destruct O as (O1 & O2). cbn [b_frames] in H. cbv zeta in H.
    set (i := Z.to_nat (b_cur st)) in *. assert (Hi : (i < length (b_laces st))%nat) by lia.
    rewrite (sum_skipn _ _ Hi). set (rem := nth i (b_laces st) 0) in *.
    assert (Hr : 0 <= rem) by (apply (Forall_nth (fun x => 0 <= x)) with (i := i) (d := 0) in O1; auto).
    destruct (on_data cb sk _ rem w) as [[c1 r1] w1] eqn:D. apply on_data_spec in D; [|exact Pcb|exact Hr].
    destruct D as (D1 & D2 & D3 & _).
    assert (O' : Forall (fun x => 0 <= x) (set_nth i r1 (b_laces st))).
    { apply Forall_set_nth; [exact O1 | lia]. }
    destruct (c1 =? kOkCompleted) eqn:E1; cbn [negb] in H.
    + assert (c1 = kOkCompleted) by (apply Z.eqb_eq; exact E1). rewrite (D3 H0) in *.
      match type of H with b_frames _ _ _ _ (b_set_cur _ ?s) _ _ = _ => set (st2 := s) in H end.
      assert (S2 : b_laces st2 = set_nth i 0 (b_laces st) /\ b_cur st2 = b_cur st /\ b_state st2 = BFrames).
      { unfold st2. destruct (_ <? _); cbn; auto. }
      destruct S2 as (S2 & S3 & S4). clearbody st2.
      apply IH in H.
      * cbn [b_set_cur b_laces b_cur] in H. rewrite S2, S3 in H. replace (Z.to_nat (b_cur st + 1)) with (S i) in H by lia.
        assert (Q : skipn (S i) (set_nth i 0 (b_laces st)) = skipn (S i) (b_laces st)).
        { apply skipn_S_set_nth. }
        rewrite Q in H. destruct H as (H1 & H2 & H3). split; [exact H1|]. split; [|exact H3].
        eapply cg_trans; [|eapply cg_trans; [apply cg_add; [exact H2 | apply (cg_refl rem)]|]]; apply cg_eq; lia.
      * split; cbn; [rewrite S2; exact O' | lia].
      * exact S4.
      * cbn. rewrite S2, S3, set_nth_length. lia.
    + quad H. split; [split; [split; [exact O' | exact O2]|]|]; cbn [b_set_laces b_state b_cur b_laces]; rewrite ?B; [exact I|].
      split; [|intro X; subst; discriminate].
      unfold bleft. cbn [b_set_laces b_state b_cur b_laces]. rewrite B. fold i. rewrite skipn_set_nth by exact Hi.
      cbn [sum fold_right]. unfold sum. apply cg_eq. lia.
Qed.
Lemma b_frames_step_left : forall st nr w c n st' w', okb st ->
  b_frames_step cb simple sk st nr w = (c, n, st', w') -> takes (sum (skipn (Z.to_nat (b_cur st)) (b_laces st))) nr c n st'.
Proof. intros st nr w c n st' w' O H. unfold b_frames_step in H. apply b_frames_left in H; auto. Qed.

Definition stopped (st : bst) (nr c n : Z) (st' : bst) : Prop := takes (head st) nr c n st'.

Lemma b_validate_left : forall st nr w c n st' w', okb st -> b_cur st = 0 -> 0 < bv_frames (b_val st) ->
  b_validate cb simple sk st nr w = (c, n, st', w') -> takes (head st) nr c n st'.
Proof.
  intros st nr w c n st' w' (O1 & O2) B N H. unfold b_validate in H. cbv zeta in H.
  set (s := wrap64 (fold_left Z.add (b_laces st) (b_hread st))) in *.
  destruct (me_size (b_meta st) <=? s) eqn:E.
  - quad H. split; [split; [split; cbn; auto|cbn; auto]|]. split; [apply cg_eq; unfold head, bleft; cbn; lia | discriminate].
  - apply b_frames_step_left in H.
    + cbn [b_set_frame b_set_laces b_cur b_laces] in H. rewrite B in H. cbn [Z.to_nat skipn] in H. rewrite sum_app in H.
      destruct H as (H1 & H2 & H3). split; [exact H1|]. split; [|exact H3]. eapply cg_trans; [exact H2|].
      apply cg_add; [|apply cg_refl]. unfold head. change (sum [me_size (b_meta st) - s]) with (me_size (b_meta st) - s + 0).
      assert (G : cg s (b_hread st + sum (b_laces st))) by (unfold s; rewrite fold_sum; apply cg_wrap).
      destruct G as (q & ->). exists (- q). lia.
    + split; cbn; [apply Forall_app; split; [exact O1 | constructor; [lia | constructor]] | lia].
Qed.
Lemma b_fixed_left : forall st nr w c n st' w', okb st -> b_cur st = 0 -> 0 < bv_frames (b_val st) ->
  b_fixed cb simple sk st nr w = (c, n, st', w') -> takes (head st) nr c n st'.
Proof.
  intros st nr w c n st' w' (O1 & O2) B Hn H. unfold b_fixed in H. cbv zeta in H.
  destruct (me_size (b_meta st) <=? b_hread st) eqn:E.
  { quad H. split; [split; [split; cbn; auto|cbn; auto]|]. split; [apply cg_eq; unfold head, bleft; cbn; lia | discriminate]. }
  set (N := bv_frames (b_val st)) in *. set (L := me_size (b_meta st) - b_hread st) in *.
  destruct (L mod N =? 0) eqn:E2; cbn [negb] in H.
  2:{ quad H. split; [split; [split; cbn; auto|cbn; auto]|]. split; [apply cg_eq; unfold head, bleft; cbn; lia | discriminate]. }
  - apply b_frames_step_left in H.
    + cbn [b_set_frame b_set_laces b_cur b_laces] in H. rewrite B in H. cbn [Z.to_nat skipn] in H. rewrite sum_repeat in H.
      replace (L / N * Z.of_nat (Z.to_nat N)) with (head st) in H; [exact H|].
      unfold head. fold L. pose proof (Z_div_mod_eq_full L N). lia.
    + split; cbn; [|lia]. apply Forall_forall. intros x X. apply repeat_spec in X. subst x. apply Z.div_pos; lia.
Qed.

Ltac stays := split; [split; [split; cbn; auto | cbn; auto] | split; [apply cg_eq; unfold head, bleft; cbn; lia | let X := fresh in intro X; subst; discriminate]].
Lemma takes_shift : forall L a nr c n st', takes (L - a) (nr + a) c n st' -> takes L nr c n st'.
Proof. intros L a nr c n st' (H1 & (q & H2) & H3). split; [exact H1|]. split; [exists q; lia | exact H3]. Qed.

Lemma VarInt_nonneg : forall st w c k st' w', VarIntParser_Feed st w = (c, k, st', w') -> 0 <= k.
Proof. intros st w c k st' w' H. apply VarIntParser_resumes in H. destruct H as (M & _). eapply moved_nonneg; eauto. Qed.

Lemma b_ebml_left : forall k st nr w c n st' w', okb st -> b_cur st = 0 -> 0 < bv_frames (b_val st) ->
  b_ebml cb simple sk k st nr w = (c, n, st', w') -> takes (head st) nr c n st'.
Proof.
  induction k as [|k IH]; intros st nr w c n st' w' O B Hn H; [apply b_validate_left in H; auto|].
  cbn [b_ebml] in H. destruct (VarIntParser_Feed (b_up st) w) as [[[c1 n1] u] w1] eqn:V. cbv zeta in H.
  destruct O as (O1 & O2). destruct (c1 =? kOkCompleted) eqn:E; cbn [negb] in H; [|quad H; stays].
  apply IH in H; auto.
  - apply takes_shift with (a := n1). replace (head st - n1) with (head (b_add_hread n1 st)) by (unfold head; cbn; lia). exact H.
  - split; cbn; [|exact O2]. apply Forall_app. split; [exact O1|]. constructor; [|constructor]. unfold wrap64.
    apply Z.mod_pos_bound. lia.
Qed.
Lemma vi_value_nonneg : forall st w c n st' w', VarIntParser_Feed st w = (c, n, st', w') -> c = kOkCompleted -> 0 <= vi_value st'.
Proof.
  unfold VarIntParser_Feed. intros st w c n st' w' H E.
  assert (R : forall s nr w, vi_rest s nr w = (c, n, st', w') -> 0 <= vi_value st').
  { intros s nr w0 Q. unfold vi_rest in Q. destruct (Accumulate _ _ _ _ _ w0) as [[[c1 k1] v1] w1].
    destruct (c1 =? kOkCompleted) eqn:E1; cbn [negb] in Q; quad Q; [|subst; discriminate].
    cbn. apply Z.land_nonneg. right. apply Z.shiftr_nonneg. lia. }
  destruct (vi_rem st =? -1); [|eauto]. destruct (ReadByte w) as [[c1 b] w1].
  destruct (c1 =? kOkCompleted) eqn:E1; cbn [negb] in H; [|quad H; subst; discriminate].
  destruct (b =? 0); [quad H; subst; discriminate | eauto].
Qed.
Lemma b_ebml_first_left : forall st nr w c n st' w', okb st -> b_cur st = 0 -> 0 < bv_frames (b_val st) ->
  b_ebml_first cb simple sk st nr w = (c, n, st', w') -> takes (head st) nr c n st'.
Proof.
  intros st nr w c n st' w' (O1 & O2) B Hn H. unfold b_ebml_first in H.
  destruct (VarIntParser_Feed (b_up st) w) as [[[c1 n1] u] w1] eqn:V. cbv zeta in H.
  pose proof (vi_value_nonneg _ _ _ _ _ _ V) as U.
  destruct (c1 =? kOkCompleted) eqn:E; cbn [negb] in H; [|quad H; stays].
  unfold b_ebml_step in H. apply b_ebml_left in H; auto.
  - apply takes_shift with (a := n1). replace (head st - n1) with (head (b_add_hread n1 st)) by (unfold head; cbn; lia). exact H.
  - split; cbn; [|exact O2]. apply Forall_app. split; [exact O1|]. constructor; [|constructor]. apply U. apply Z.eqb_eq. exact E.
Qed.
Lemma b_xiph_left : forall f st nr w c n st' w', okb st -> b_cur st = 0 -> 0 < bv_frames (b_val st) ->
  b_xiph_loop cb simple sk f st nr w = (c, n, st', w') -> takes (head st) nr c n st'.
Proof.
  induction f as [|f IH]; intros st nr w c n st' w' O B Hn H; cbn [b_xiph_loop] in H.
  - destruct (_ <=? _); [apply b_validate_left in H; auto|]. destruct O as (O1 & O2). quad H. stays.
  - destruct (_ <=? _); [apply b_validate_left in H; auto|]. destruct O as (O1 & O2).
    destruct (ReadByte w) as [[c1 b] w1]. cbv zeta in H. destruct (c1 =? kOkCompleted) eqn:E; cbn [negb] in H; [|quad H; stays].
    destruct (b =? 255); apply IH in H; auto; try (apply takes_shift with (a := 1);
      replace (head st - 1) with (head (b_add_hread 1 st)) by (unfold head; cbn; lia); exact H).
    + split; cbn; auto.
    + split; cbn; auto. apply Forall_app. split; [exact O1|]. constructor; [|constructor]. unfold wrap64. apply Z.mod_pos_bound. lia.
Qed.
Lemma b_skipping_left : forall st nr w c n st' w', okb st -> b_cur st = 0 -> 0 < bv_frames (b_val st) ->
  b_skipping st nr w = (c, n, st', w') -> takes (head st) nr c n st'.
Proof.
  intros st nr w c n st' w' (O1 & O2) B Hn H. unfold b_skipping in H. fold (head st) in H.
  assert (Hw : 0 <= wrap64 (head st)) by (unfold wrap64; apply Z.mod_pos_bound; lia).
  destruct (take_all (wrap64 (head st)) w) as [[c1 bs] w1] eqn:T. apply take_all_spec in T; [|exact Hw].
  destruct T as (us & _ & _ & _ & _ & T). quad H. split; [split; [split; cbn; auto | cbn; auto]|].
  unfold bleft. cbn. split; [apply cg_eq; unfold head; lia|]. intros ->.
  destruct T as [(T1 & _) | [(T1 & _) | (T1 & T2 & _)]]; try discriminate.
  rewrite T2. pose proof (cg_wrap (head st)) as (q & Q). exists (- q). unfold head in *. lia.
Qed.
Lemma b_action_left : forall st nr w c n st' w', okb st -> b_cur st = 0 -> 0 < bv_frames (b_val st) ->
  b_action cb simple sk st nr w = (c, n, st', w') -> takes (head st) nr c n st'.
Proof.
  intros st nr w c n st' w' O B Hn H. unfold b_action in H. destruct (notify cb sk _ w) as [[c1 s1] w1]. cbv zeta in H.
  destruct (c1 =? kOkCompleted) eqn:E; cbn [negb] in H; [|destruct O as (O1 & O2); quad H; stays].
  destruct s1; [apply b_skipping_left in H; auto|]. destruct (_ || _); [apply b_validate_left in H; auto|].
  destruct (_ =? 2); [unfold b_xiph_step in H; apply b_xiph_left in H; auto|].
  destruct (_ =? 6); [apply b_ebml_first_left in H; auto | apply b_fixed_left in H; auto].
Qed.
Lemma b_lace_count_left : forall st nr w c n st' w', octets w -> okb st -> b_cur st = 0 ->
  b_lace_count cb simple sk st nr w = (c, n, st', w') -> takes (head st) nr c n st'.
Proof.
  intros st nr w c n st' w' Ow O B H. unfold b_lace_count in H. destruct (ReadByte w) as [[c1 b] w1] eqn:R. cbv zeta in H.
  destruct (c1 =? kOkCompleted) eqn:E; cbn [negb] in H; [|destruct O as (O1 & O2); quad H; stays].
  apply ReadByte_spec in R. destruct R as (_ & [(R & _) | [(R & _) | (_ & R & _)]]); [subst; discriminate | subst; discriminate|].
  unfold octets in Ow. rewrite R in Ow. inversion Ow; subst.
  apply b_action_left in H; cbn [b_set_val b_cur b_add_hread b_val bv_frames]; auto; [|lia].
  apply takes_shift with (a := 1). replace (head st - 1) with (head (b_add_hread 1 st)) by (unfold head; cbn; lia). exact H.
Qed.
Lemma b_header_left : forall st w c n st' w', octets w -> okb st -> b_cur st = 0 ->
  b_header cb simple sk st w = (c, n, st', w') -> takes (head st) 0 c n st'.
Proof.
  intros st w c n st' w' Ow O B H. unfold b_header in H. destruct (BlockHeaderParser_Feed (b_hp st) w) as [[[c1 n1] h] w1] eqn:R.
  cbv zeta in H. destruct (c1 =? kOkCompleted) eqn:E; cbn [negb] in H; [|destruct O as (O1 & O2); quad H; stays].
  apply BlockHeaderParser_resumes in R. destruct R as (M & _).
  apply takes_shift with (a := n1). replace (head st - n1) with (head (b_add_hread n1 st)) by (unfold head; cbn; lia).
  rewrite Z.add_0_l.
  destruct (Z.land (h_flags h) 6 =? 0).
  - apply b_action_left in H; auto. cbn. lia.
  - apply b_lace_count_left in H; auto. eapply octets_moved; eauto.
Qed.
Lemma BlockParser_left : forall st w c n st' w', octets w -> okbb st ->
  BlockParser_Feed cb simple sk st w = (c, n, st', w') -> takes (bleft st) 0 c n st'.
Proof.
  intros st w c n st' w' Ow (O & B) H. unfold BlockParser_Feed in H. unfold bleft. fold (head st).
  destruct (b_state st) eqn:E.
  - apply b_header_left in H; auto.
  - apply b_lace_count_left in H; auto.
  - apply b_action_left in H; tauto.
  - unfold b_xiph_step in H. apply b_xiph_left in H; tauto.
  - apply b_ebml_first_left in H; tauto.
  - unfold b_ebml_step in H. apply b_ebml_left in H; tauto.
  - apply b_fixed_left in H; tauto.
  - apply b_validate_left in H; tauto.
  - apply b_skipping_left in H; tauto.
  - apply b_frames_step_left in H; auto.
  - apply b_done_left in H; auto.
Qed.
End blk.

(* ---------- every parser ---------- *)
(* bytes of the element not read yet *)
Fixpoint left (p : pstate) : Z :=
  match p with
  | PInt _ s | PFloat s | PDate s | PIdEl s => n_rem s
  | PBool s => bo_rem s
  | PBytes _ s => by_want s
  | PVoid _ r | PUnknown _ r | PSkip r => r
  | PBlock _ s => bleft s
  | PVirtual _ => 0
  | PMaster _ m _ _ => m_size m - m_total m
  | PRec q => left q
  end.
Definition vc (n : node) (v : vst) : bool := match n with NSegment | NVal _ => v_complete v | _ => false end.
(* a state of an element whose size is known; BlockVirtual excepted *)
Fixpoint sized (p : pstate) : Prop :=
  match p with
  | PInt _ s | PFloat s | PDate s | PIdEl s => 0 <= n_rem s
  | PBool s => 0 <= bo_rem s
  | PBytes _ s => 0 <= by_want s
  | PVoid _ r | PUnknown _ r | PSkip r => 0 <= r
  | PBlock _ s => okbb s
  | PVirtual _ => False
  | PMaster n m _ v => m_size m <> kUnknownElementSize /\
      (m_state m = MEnd \/ vc n v = true -> m_total m = m_size m)
  | PRec q => sized q
  end.
Definition took (p : pstate) (c k : Z) (p' : pstate) : Prop :=
  sized p' /\ cg k (left p - left p') /\ (c = kOkCompleted -> cg (left p') 0).

Lemma num_took : forall sg bits rem v w c k v' w', 0 <= rem -> Accumulate sg bits (Z.to_nat rem) v 0 w = (c, k, v', w') ->
  0 <= rem - k /\ (c = kOkCompleted -> rem - k = 0).
Proof.
  intros sg bits rem v w c k v' w' H A. apply Accumulate_spec in A. destruct A as (_ & _ & K & A). split; [lia|].
  intros ->. destruct A as [(A & _) | [(A & _) | (_ & A & _)]]; try discriminate. lia.
Qed.

Section tree.
Variable cb : callback.
Hypothesis Pcb : proper cb.

Lemma mloop_left : forall f n osk sk m ch v nr w c k m' ch' v' w',
  m_size m <> kUnknownElementSize -> (m_state m = MEnd -> m_total m = m_size m) ->
  mloop cb f n osk sk m ch v nr w = Some (c, k, (m', ch', v'), w') ->
  m_size m' = m_size m /\ m_total m' - m_total m = k - nr /\ (m_state m' = MEnd -> m_total m' = m_size m) /\
  (c = kOkCompleted -> m_state m' = MEnd) /\ v_complete v' = v_complete v.
Proof.
  induction f as [|f IH]; intros n osk sk m ch v nr w c k m' ch' v' w' U T H; [discriminate|].
  assert (Stop : forall c0 a m0 ch0 v0 w0, Some (c0, nr + a, (m0, ch0, v0), w0) = Some (c, k, (m', ch', v'), w') ->
     m_size m0 = m_size m -> m_total m0 = m_total m + a -> m_state m0 <> MEnd -> c0 <> kOkCompleted -> v_complete v0 = v_complete v ->
     m_size m' = m_size m /\ m_total m' - m_total m = k - nr /\ (m_state m' = MEnd -> m_total m' = m_size m) /\
     (c = kOkCompleted -> m_state m' = MEnd) /\ v_complete v' = v_complete v).
  { intros c0 a m0 ch0 v0 w0 Q Q1 Q2 Q3 Q4 Q5. injection Q as <- <- <- <- <- <-. repeat split; auto; try lia; tauto. }
  assert (Go : forall sk0 m0 ch0 v0 a w0, mloop cb f n osk sk0 m0 ch0 v0 (nr + a) w0 = Some (c, k, (m', ch', v'), w') ->
     m_size m0 = m_size m -> m_total m0 = m_total m + a -> (m_state m0 = MEnd -> m_total m0 = m_size m) -> v_complete v0 = v_complete v ->
     m_size m' = m_size m /\ m_total m' - m_total m = k - nr /\ (m_state m' = MEnd -> m_total m' = m_size m) /\
     (c = kOkCompleted -> m_state m' = MEnd) /\ v_complete v' = v_complete v).
  { intros sk0 m0 ch0 v0 a w0 Q Q1 Q2 Q3 Q4. apply IH in Q; [| congruence | rewrite Q1; exact Q3].
    destruct Q as (A1 & A2 & A3 & A4 & A5). rewrite Q1 in *. repeat split; auto; try lia; congruence. }
  assert (Stop0 : forall c0 m0 ch0 v0 w0, Some (c0, nr, (m0, ch0, v0), w0) = Some (c, k, (m', ch', v'), w') ->
     m_size m0 = m_size m -> m_total m0 = m_total m -> m_state m0 <> MEnd -> c0 <> kOkCompleted -> v_complete v0 = v_complete v ->
     m_size m' = m_size m /\ m_total m' - m_total m = k - nr /\ (m_state m' = MEnd -> m_total m' = m_size m) /\
     (c = kOkCompleted -> m_state m' = MEnd) /\ v_complete v' = v_complete v).
  { intros c0 m0 ch0 v0 w0 Q Q1 Q2. apply (Stop c0 0 m0 ch0 v0 w0 ltac:(rewrite Z.add_0_r; exact Q)); [exact Q1 | lia]. }
  assert (Go0 : forall sk0 m0 ch0 v0 w0, mloop cb f n osk sk0 m0 ch0 v0 nr w0 = Some (c, k, (m', ch', v'), w') ->
     m_size m0 = m_size m -> m_total m0 = m_total m -> (m_state m0 = MEnd -> m_total m0 = m_size m) -> v_complete v0 = v_complete v ->
     m_size m' = m_size m /\ m_total m' - m_total m = k - nr /\ (m_state m' = MEnd -> m_total m' = m_size m) /\
     (c = kOkCompleted -> m_state m' = MEnd) /\ v_complete v' = v_complete v).
  { intros sk0 m0 ch0 v0 w0 Q Q1 Q2. apply (Go sk0 m0 ch0 v0 0 w0 ltac:(rewrite Z.add_0_r; exact Q)); [exact Q1 | lia]. }
  clear IH.
  destruct (m_state m) eqn:Em.
  - rewrite ml_MFirst in H by exact Em. cbv zeta in H.
    destruct (IdParser_Feed (m_idp m) w) as [[[s k1] i] w1] eqn:I.
    destruct (m_size m =? kUnknownElementSize) eqn:Eu; [apply Z.eqb_eq in Eu; congruence|].
    rewrite andb_false_r in H. cbn [andb] in H.
    destruct (s =? kOkCompleted) eqn:Ec; cbn [orb negb] in H.
    { eapply Go; [exact H | reflexivity | reflexivity | discriminate | reflexivity]. }
    destruct (s =? kOkPartial); cbn [negb] in H.
    { eapply Go; [exact H | reflexivity | reflexivity | discriminate | reflexivity]. }
    eapply Stop; [exact H | | | | apply Z.eqb_neq; exact Ec | reflexivity]; destruct (0 <? k1); cbn; try reflexivity; rewrite ?Em; discriminate.
  - rewrite ml_MFinishing in H by exact Em. cbv zeta in H.
    destruct (IdParser_Feed (m_idp m) w) as [[[s k1] i] w1] eqn:I.
    destruct (s =? kOkCompleted) eqn:Ec; cbn [negb] in H.
    { eapply Go; [exact H | reflexivity | reflexivity | discriminate | reflexivity]. }
    eapply Stop; [exact H | reflexivity | reflexivity | cbn; rewrite Em; discriminate | apply Z.eqb_neq; exact Ec | reflexivity].
  - rewrite ml_MSize in H by exact Em. cbv zeta in H.
    destruct (SizeParser_Feed (m_szp m) w) as [[[s k1] z] w1] eqn:I.
    destruct (s =? kOkCompleted) eqn:Ec; cbn [negb] in H.
    { eapply Go; [exact H | reflexivity | reflexivity | discriminate | reflexivity]. }
    eapply Stop; [exact H | reflexivity | reflexivity | cbn; rewrite Em; discriminate | apply Z.eqb_neq; exact Ec | reflexivity].
  - rewrite ml_MValidate in H by exact Em. cbv zeta in H.
    destruct (_ <? _).
    { eapply Stop0; [exact H | reflexivity | reflexivity | rewrite Em; discriminate | discriminate | reflexivity]. }
    destruct (m_size m =? kUnknownElementSize) eqn:Eu; [apply Z.eqb_eq in Eu; congruence|].
    destruct (lookup _ _) as [cn|].
    { eapply Go0; [exact H | reflexivity | reflexivity | discriminate | reflexivity]. }
    destruct (me_size (m_cm m) =? kUnknownElementSize).
    { eapply Stop0; [exact H | reflexivity | reflexivity | rewrite Em; discriminate | discriminate | reflexivity]. }
    eapply Go0; [exact H | reflexivity | reflexivity | discriminate | reflexivity].
  - rewrite ml_MAction in H by exact Em. cbv zeta in H.
    destruct (notify cb sk _ w) as [[s skip] w1]. destruct (s =? kOkCompleted) eqn:Ec; cbn [negb] in H.
    { destruct skip; (eapply Go0; [exact H | reflexivity | reflexivity | discriminate | reflexivity]). }
    eapply Stop0; [exact H | reflexivity | reflexivity | cbn; rewrite Em; discriminate | apply Z.eqb_neq; exact Ec | reflexivity].
  - rewrite ml_MInit in H by exact Em. destruct ch as [|cn|]; try discriminate.
    destruct (parser_Init cn (m_cm m) (m_max m - m_total m)) as [s p].
    destruct (s =? kOkCompleted) eqn:Ec; cbn [negb] in H.
    { eapply Go0; [exact H | reflexivity | reflexivity | discriminate | reflexivity]. }
    eapply Stop0; [exact H | reflexivity | reflexivity | rewrite Em; discriminate | apply Z.eqb_neq; exact Ec | reflexivity].
  - rewrite ml_MBody in H by exact Em. destruct ch as [| |p]; try discriminate. cbv zeta in H.
    match type of H with (let '(_, _) := ?x in _) = _ => set (pre := x) in H end.
    assert (Hpre : exists s0 v0 w0, pre = (s0, v0, w0) /\ v_complete v0 = v_complete v).
    { unfold pre. destruct (_ && _); [|eexists; eexists; eexists; split; reflexivity].
      destruct (on_started cb n sk m v w) as [[s1 skip] w1]. eexists; eexists; eexists; split; reflexivity. }
    destruct Hpre as (s0 & v0 & w0 & -> & Hv). destruct (s0 =? kOkCompleted) eqn:E0; cbn [negb] in H.
    2:{ eapply Stop0; [exact H | reflexivity | reflexivity | rewrite Em; discriminate | apply Z.eqb_neq; exact E0 | exact Hv]. }
    destruct (feed cb f sk p w0) as [[[[s2 k2] p2] w2]|]; [|discriminate].
    set (v2 := if _ && _ && _ && _ then _ else _) in H.
    assert (V2 : v_complete v2 = v_complete v) by (unfold v2; destruct (_ && _); exact Hv). clearbody v2.
    destruct (s2 =? kOkCompleted) eqn:Ec; cbn [negb] in H.
    { eapply Go; [exact H | reflexivity | reflexivity | discriminate | exact V2]. }
    eapply Stop; [exact H | reflexivity | reflexivity | cbn; rewrite Em; discriminate | apply Z.eqb_neq; exact Ec | exact V2].
  - rewrite ml_MParsed in H by exact Em.
    destruct (_ <? _).
    { eapply Stop0; [exact H | reflexivity | reflexivity | rewrite Em; discriminate | discriminate | reflexivity]. }
    unfold byte_cap in H. destruct (m_size m =? kUnknownElementSize) eqn:Eu; [apply Z.eqb_eq in Eu; congruence|].
    destruct (m_total m =? m_size m) eqn:Et.
    { eapply Go0; [exact H | reflexivity | reflexivity | | reflexivity]. intros _. apply Z.eqb_eq. exact Et. }
    destruct ch as [| |p]; try discriminate.
    destruct (cached p); (eapply Go0; [exact H | reflexivity | reflexivity | discriminate | reflexivity]).
  - rewrite ml_MEnd in H by exact Em. injection H as <- <- <- <- <- <-. repeat split; auto; lia.
Qed.

Lemma master_took : forall n m ch v c k m' ch' v', sized (PMaster n m ch v) ->
  m_size m' = m_size m -> m_total m' - m_total m = k -> (m_state m' = MEnd \/ vc n v' = true -> m_total m' = m_size m) ->
  (c = kOkCompleted -> m_total m' = m_size m) -> took (PMaster n m ch v) c k (PMaster n m' ch' v').
Proof.
  intros n m ch v c k m' ch' v' (S1 & S2) A B C D. split; [|split].
  - cbn. rewrite A. split; [exact S1 | exact C].
  - apply cg_eq. cbn. lia.
  - intro E. apply cg_eq. cbn. rewrite A, (D E). lia.
Qed.

Lemma feed_left : forall f sk p w c k p' w', octets w -> sized p -> feed cb f sk p w = Some (c, k, p', w') -> took p c k p'.
Proof.
  induction f as [|f IH]; intros sk p w c k p' w' Ow S H; [discriminate|].
  destruct p as [sg s|s|s|s|s|str s|x rem|x rem|rem|simple s|s|n m ch v|q].
  - cbn [feed] in H. unfold IntParser_Feed in H. destruct (Accumulate _ _ _ _ _ w) as [[[c1 k1] v1] w1] eqn:A.
    injection H as <- <- <- <-. apply num_took in A; [|exact S]. destruct A as (A1 & A2).
    split; [exact A1|]. split; [apply cg_eq; cbn; lia|]. intro E. apply cg_eq. cbn. auto.
  - cbn [feed] in H. unfold FloatParser_Feed in H. destruct (n_rem s =? 0) eqn:E0.
    { injection H as <- <- <- <-. split; [exact S|]. split; [apply cg_eq; lia|]. intros _. apply cg_eq. cbn. lia. }
    destruct (Accumulate _ _ _ _ _ w) as [[[c1 k1] v1] w1] eqn:A.
    injection H as <- <- <- <-. apply num_took in A; [|exact S]. destruct A as (A1 & A2).
    split; [exact A1|]. split; [apply cg_eq; cbn; lia|]. intro E. apply cg_eq. cbn. auto.
  - cbn [feed] in H. unfold DateParser_Feed in H. destruct (Accumulate _ _ _ _ _ w) as [[[c1 k1] v1] w1] eqn:A.
    injection H as <- <- <- <-. apply num_took in A; [|exact S]. destruct A as (A1 & A2).
    split; [exact A1|]. split; [apply cg_eq; cbn; lia|]. intro E. apply cg_eq. cbn. auto.
  - cbn [feed] in H. unfold IdElementParser_Feed in H. destruct (Accumulate _ _ _ _ _ w) as [[[c1 k1] v1] w1] eqn:A.
    injection H as <- <- <- <-. apply num_took in A; [|exact S]. destruct A as (A1 & A2).
    split; [exact A1|]. split; [apply cg_eq; cbn; lia|]. intro E. apply cg_eq. cbn. auto.
  - cbn [feed] in H. unfold BoolParser_Feed in H. destruct (Accumulate _ _ _ _ _ w) as [[[c1 k1] v1] w1] eqn:A. cbv zeta in H.
    apply num_took in A; [|exact S]. destruct A as (A1 & A2).
    destruct (_ || _); injection H as <- <- <- <-; (split; [exact A1|]; split; [apply cg_eq; cbn; lia|]);
      intro E; [discriminate|]. apply cg_eq. cbn. auto.
  - cbn [feed] in H. unfold ByteParser_Feed in H. destruct (by_want s =? 0) eqn:E0.
    { injection H as <- <- <- <-. split; [exact S|]. split; [apply cg_eq; lia|]. intros _. apply cg_eq. cbn. lia. }
    destruct (take_all (by_want s) w) as [[c1 bs] w1] eqn:T. apply take_all_spec in T; [|exact S].
    destruct T as (us & _ & _ & _ & L & T). injection H as <- <- <- <-. split; [cbn; lia|]. split; [apply cg_eq; cbn; lia|].
    intros ->. apply cg_eq. cbn. destruct T as [(T & _) | [(T & _) | (_ & T & _)]]; try discriminate. lia.
  - cbn [feed] in H. destruct (on_data cb sk (DVoid x) rem w) as [[c1 r1] w1] eqn:O.
    apply on_data_spec in O; [|exact Pcb|exact S]. destruct O as (O1 & _ & O2 & _). injection H as <- <- <- <-.
    split; [cbn; lia|]. split; [apply cg_eq; cbn; lia|]. intro E. apply cg_eq. cbn. auto.
  - cbn [feed] in H. destruct (on_data cb sk (DUnknown x) rem w) as [[c1 r1] w1] eqn:O.
    apply on_data_spec in O; [|exact Pcb|exact S]. destruct O as (O1 & _ & O2 & _). injection H as <- <- <- <-.
    split; [cbn; lia|]. split; [apply cg_eq; cbn; lia|]. intro E. apply cg_eq. cbn. auto.
  - cbn [feed] in H. unfold SkipParser_Feed in H. destruct (rem =? 0) eqn:E0.
    { injection H as <- <- <- <-. split; [exact S|]. split; [apply cg_eq; lia|]. intros _. apply cg_eq. cbn. lia. }
    destruct (take_all rem w) as [[c1 bs] w1] eqn:T. apply take_all_spec in T; [|exact S].
    destruct T as (us & _ & _ & _ & L & T). injection H as <- <- <- <-. split; [cbn; lia|]. split; [apply cg_eq; cbn; lia|].
    intros ->. apply cg_eq. cbn. destruct T as [(T & _) | [(T & _) | (_ & T & _)]]; try discriminate. lia.
  - cbn [feed] in H. destruct (BlockParser_Feed cb simple sk s w) as [[[c1 k1] s1] w1] eqn:E.
    injection H as <- <- <- <-. apply BlockParser_left in E; auto. destruct E as (E1 & E2 & E3).
    split; [exact E1|]. split; [|exact E3]. cbn. eapply cg_trans; [|exact E2]. apply cg_eq. lia.
  - destruct S.
  - pose proof S as (S1 & S2).
    destruct (is_value n) eqn:Ev; [|destruct (match n with NSegment => true | _ => false end) eqn:Es].
    + destruct n; try discriminate. pose proof (fd_val cb f sk v0 m ch v w) as Q1. cbv zeta in Q1. rewrite Q1 in H. clear Q1.
      match type of H with match ?x with _ => _ end = _ => set (pre := x) in H end.
      assert (Hpre : exists c0 v1 w0, pre = (c0, v1, w0) /\ v_complete v1 = v_complete v).
      { unfold pre. destruct v0; try (exists kOkCompleted, v, w; split; reflexivity).
        destruct (v_started v); [exists kOkCompleted, v, w; split; reflexivity|].
        destruct (on_started cb (NVal VBlockGroup) sk m v w) as [[c1 s1] w1].
        destruct (negb _); eexists; eexists; eexists; split; reflexivity. }
      destruct Hpre as (c0 & v1 & w0 & Hp & Hvc). rewrite Hp in H. clear pre Hp.
      destruct (c0 =? kOkCompleted) eqn:E0; cbn [negb] in H.
      2:{ injection H as <- <- <- <-. apply master_took; [exact S | reflexivity | lia | |].
          - cbn [vc]. rewrite Hvc. exact S2.
          - intro X. rewrite X in E0. discriminate. }
      match type of H with match ?x with _ => _ end = _ => destruct x as [[[[c2 k2] [[m2 ch2] v2]] w2]|] eqn:R; [|discriminate] end.
      assert (G : m_size m2 = m_size m /\ m_total m2 - m_total m = k2 /\ (m_state m2 = MEnd \/ v_complete v2 = true -> m_total m2 = m_size m) /\
                  (c2 = kOkCompleted -> m_total m2 = m_size m)).
      { destruct (v_complete v1) eqn:Ec.
        - injection R as <- <- <- <- <- <-. repeat split; try lia; rewrite ?Ec; auto.
        - destruct (mloop cb f _ _ _ m ch v1 0 w0) as [[[[c3 k3] [[m3 ch3] v3]] w3]|] eqn:E; [|discriminate].
          apply mloop_left in E; [| exact S1 | auto]. destruct E as (A1 & A2 & A3 & A4 & A5).
          destruct (c3 =? kSwitchToSkip) eqn:E3.
          + destruct (mloop cb f _ true true m3 ch3 v3 0 w3) as [[[[c4 k4] [[m4 ch4] v4]] w4]|] eqn:E; [|discriminate].
            apply mloop_left in E; [| congruence | rewrite A1; auto]. destruct E as (B1 & B2 & B3 & B4 & B5).
            injection R as <- <- <- <- <- <-. split; [congruence|]. split; [lia|]. rewrite A1 in *. split; [|auto].
            intros [X | X]; [auto | congruence].
          + injection R as <- <- <- <- <- <-. split; [exact A1|]. split; [lia|]. split; [|auto].
            intros [X | X]; [auto | congruence]. }
      destruct G as (G1 & G2 & G3 & G4).
      destruct (c2 =? kOkCompleted) eqn:E2; cbn [negb] in H.
      2:{ injection H as <- <- <- <-. apply master_took; auto. }
      assert (G5 : m_total m2 = m_size m) by (apply G4; apply Z.eqb_eq; exact E2).
      cbv zeta in H. match type of H with match ?x with _ => _ end = _ => destruct x as [[c3 v3] w3] end.
      destruct (negb (c3 =? kOkCompleted)); [injection H as <- <- <- <-; apply master_took; auto|].
      destruct (v_skip v3); [injection H as <- <- <- <-; apply master_took; auto|].
      destruct (on_completed cb (NVal v0) sk m2 v3 w3) as [c5 w5]. injection H as <- <- <- <-; apply master_took; auto.
    + destruct n; try discriminate. rewrite fd_seg in H.
      match type of H with match ?x with _ => _ end = _ => set (pre := x) in H end.
      assert (Hpre : exists c0 v1 w0, pre = (c0, v1, w0) /\ v_complete v1 = v_complete v).
      { unfold pre. destruct (v_started v); [eexists; eexists; eexists; split; reflexivity|].
        destruct (notify cb sk _ w) as [[c1 s1] w1].
        destruct (negb _); eexists; eexists; eexists; split; reflexivity. }
      destruct Hpre as (c0 & v1 & w0 & Hp & Hvc). rewrite Hp in H. clear pre Hp.
      destruct (c0 =? kOkCompleted) eqn:E0; cbn [negb] in H.
      2:{ injection H as <- <- <- <-. apply master_took; [exact S | reflexivity | lia | |].
          - cbn [vc]. rewrite Hvc. exact S2.
          - intro X. rewrite X in E0. discriminate. }
      cbv zeta in H.
      match type of H with match ?x with _ => _ end = _ => destruct x as [[[[c2 k2] [[m2 ch2] v2]] w2]|] eqn:R; [|discriminate] end.
      assert (G : m_size m2 = m_size m /\ m_total m2 - m_total m = k2 /\ (m_state m2 = MEnd \/ v_complete v2 = true -> m_total m2 = m_size m) /\
                  (c2 = kOkCompleted -> m_total m2 = m_size m)).
      { destruct (v_complete v1) eqn:Ec.
        - injection R as <- <- <- <- <- <-. repeat split; try lia; rewrite ?Ec; auto.
        - apply mloop_left in R; [| exact S1 | auto]. destruct R as (A1 & A2 & A3 & A4 & A5).
          split; [exact A1|]. split; [lia|]. split; [|auto]. intros [X | X]; [auto | congruence]. }
      destruct G as (G1 & G2 & G3 & G4).
      destruct (c2 =? kOkCompleted) eqn:E2; cbn [negb] in H.
      2:{ injection H as <- <- <- <-. apply master_took; auto. }
      assert (G5 : m_total m2 = m_size m) by (apply G4; apply Z.eqb_eq; exact E2).
      destruct (notify cb _ _ w2) as [[c3 s3] w3]. injection H as <- <- <- <-; apply master_took; auto.
    + assert (Hn : n <> NSegment) by (intros ->; discriminate).
      rewrite fd_other in H by assumption.
      destruct (mloop cb f n sk _ m ch v 0 w) as [[[[c2 k2] [[m2 ch2] v2]] w2]|] eqn:E; [|discriminate].
      injection H as <- <- <- <-. apply mloop_left in E; [| exact S1 | auto]. destruct E as (A1 & A2 & A3 & A4 & A5).
      apply master_took; auto; [lia|]. intros [X | X]; [auto|]. destruct n; try discriminate; congruence.
  - cbn [feed] in H. destruct (feed cb f sk q w) as [[[[c1 k1] q1] w1]|] eqn:E; [|discriminate].
    injection H as <- <- <- <-. apply IH in E; auto.
Qed.
End tree.
