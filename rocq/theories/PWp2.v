(* The callback parser's block parsers: what they consume, and that interrupting
   them changes nothing. *)
From Coq Require Import ZifyBool ZifyNat.
From Verif Require Import Base WpSpec MWp MWpBlock PWp1.

(* ---------- notifications ---------- *)
Definition logged (l : list entry) (w : world) : world :=
  mk_world (w_data w) (w_pos w) (w_sched w) (l ++ w_trace w).

Lemma notify_spec : forall cb sk e w c s w', proper cb -> notify cb sk e w = (c, s, w') ->
  0 <= c /\ c <> kWouldBlock /\ moved 0 w w' /\ notify cb sk e (full w) = (c, s, full w') /\
  w' = logged (if sk then [] else [(e, cb (w_trace w) e)]) w.
Proof.
  unfold notify. intros cb sk e w c s w' P H. destruct sk.
  - injection H as K1 K2 K3. subst. unfold kOkCompleted, kWouldBlock.
    repeat split; try lia; try apply moved_refl. destruct w'; reflexivity.
  - injection H as K1 K2 K3. subst. specialize (P (w_trace w) e). unfold kWouldBlock.
    repeat split; try lia; try apply moved_log.
Qed.

Lemma log_bytes_eq : forall d bs w,
  log_bytes d bs w = logged (rev (map (fun b => (EData d b, (0, false))) bs)) w.
Proof.
  intros d bs. unfold log_bytes, logged. induction bs as [|b bs IH]; intro w; cbn [fold_left map rev].
  - destruct w; reflexivity.
  - rewrite IH. unfold w_log. cbn [w_data w_pos w_sched w_trace]. rewrite <- app_assoc. reflexivity.
Qed.
Lemma logged_app : forall a b w, logged a (logged b w) = logged (a ++ b) w.
Proof. intros. unfold logged. cbn [w_data w_pos w_sched w_trace]. rewrite app_assoc. reflexivity. Qed.
Lemma logged_full : forall a w, full (logged a w) = logged a (full w).
Proof. reflexivity. Qed.
Lemma moved_logged : forall a n w w', moved n w w' -> moved n w (logged a w').
Proof.
  intros a n w w' (bs & t & us & D & L & P & S & T). exists bs, (a ++ t), us. cbn.
  repeat split; auto. rewrite T, app_assoc. reflexivity.
Qed.

Lemma take_all_logged : forall n a w, 0 <= n ->
  take_all n (logged a (full w)) = (let '(c, bs, w1) := take_all n (full w) in (c, bs, logged a w1)).
Proof.
  intros n a w Hn. change (logged a (full w)) with (full (logged a (full w))). rewrite !take_all_full by lia.
  cbn [logged full w_data w_pos w_sched w_trace]. reflexivity.
Qed.

Lemma on_data_spec : forall cb sk d rem w c rem1 w', proper cb -> 0 <= rem ->
  on_data cb sk d rem w = (c, rem1, w') ->
  0 <= rem1 <= rem /\ moved (rem - rem1) w w' /\ (c = kOkCompleted -> rem1 = 0) /\
  (c = kWouldBlock \/ c = kEndOfFile \/ 0 <= c) /\
  (c = kWouldBlock -> 0 < rem1 /\ (length (w_sched w') < length (w_sched w))%nat /\
     on_data cb sk d rem (full w) = on_data cb sk d rem1 (full w')) /\
  (c <> kWouldBlock -> on_data cb sk d rem (full w) = (c, rem1, full w')).
Proof.
  unfold on_data. intros cb sk d rem w c rem1 w' P Hr H. destruct (rem =? 0) eqn:E0.
  - assert (rem = 0) by lia. subst rem. change (negb (kOkCompleted =? kOkCompleted)) with false in *. cbn iota in *.
    change (zlen []) with 0 in *. cbn [log_bytes fold_left] in *. destruct sk.
    + injection H as K1 K2 K3. subst. split; [lia|]. split; [apply moved_refl|]. unfold kWouldBlock, kOkCompleted, kEndOfFile.
      split; [intros _; lia|]. split; [lia|]. split; intro E; [discriminate | reflexivity].
    + destruct (notify cb false (EDataEnd d) w) as [[c3 s3] w3] eqn:N. injection H as K1 K2 K3. subst.
      apply notify_spec in N; [|exact P]. destruct N as (N1 & N2 & N3 & N4 & _).
      split; [lia|]. split; [exact N3|]. split; [intros _; lia|]. split; [lia|].
      split; intro E; [congruence|]. rewrite N4. reflexivity.
  - destruct (take_all rem w) as [[c1 bs] w1] eqn:T.
    pose proof (take_all_moved _ _ _ _ _ Hr T) as M.
    pose proof (take_all_resume _ _ _ _ _ Hr T) as (W1 & W2).
    pose proof (take_all_spec _ _ _ _ _ Hr T) as (us & D & S & _ & L & C).
    pose proof (zlen_nonneg _ bs) as Zb.
    assert (ML : moved (zlen bs) w (if sk then w1 else log_bytes d bs w1)).
    { destruct sk; [exact M|]. rewrite log_bytes_eq. apply moved_logged. exact M. }
    destruct C as [(C1 & C2 & C3) | [(C1 & C2 & C3) | (C1 & C2 & C3)]]; subst c1.
    + cbn in H. injection H as K1 K2 K3. subst c rem1 w'.
      assert (Hz : zlen bs < rem) by (destruct C3 as [C3 | ->]; [lia | change (zlen []) with 0; lia]).
      replace (rem - (rem - zlen bs)) with (zlen bs) by lia.
      split; [lia|]. split; [exact ML|]. split; [intro E; discriminate|]. split; [left; reflexivity|].
      split; intro E; [|congruence]. split; [lia|]. split.
      { assert (w_sched (if sk then w1 else log_bytes d bs w1) = w_sched w1)
          by (destruct sk; [|rewrite log_bytes_eq]; reflexivity).
        rewrite H, S, app_length. destruct us; [congruence | cbn [length]; lia]. }
      replace (rem - zlen bs =? 0) with false by lia.
      destruct sk.
      * destruct (take_all (rem - zlen bs) (full w1)) as [[c2 b2] w2] eqn:T2.
        rewrite (W1 eq_refl _ _ _ eq_refl). rewrite zlen_app. rewrite Z.sub_add_distr. reflexivity.
      * rewrite log_bytes_eq, logged_full, take_all_logged by lia.
        destruct (take_all (rem - zlen bs) (full w1)) as [[c2 b2] w2] eqn:T2.
        rewrite (W1 eq_refl _ _ _ eq_refl). rewrite zlen_app, Z.sub_add_distr.
        rewrite !log_bytes_eq, logged_app, map_app, rev_app_distr. reflexivity.
    + cbn in H. injection H as K1 K2 K3. subst c rem1 w'.
      replace (rem - (rem - zlen bs)) with (zlen bs) by lia.
      split; [lia|]. split; [exact ML|]. split; [intro E; discriminate|]. split; [right; left; reflexivity|].
      split; intro E; [discriminate|]. rewrite W2 by discriminate. cbn.
      destruct sk; [reflexivity|]. rewrite !log_bytes_eq. reflexivity.
    + change (negb (kOkCompleted =? kOkCompleted)) with false in *. cbn iota in *.
      rewrite W2 by discriminate. change (negb (kOkCompleted =? kOkCompleted)) with false in *. cbn iota in *.
      destruct sk.
      * injection H as K1 K2 K3. subst. replace (zlen bs - (zlen bs - zlen bs)) with (zlen bs) by lia.
        split; [lia|]. split; [exact ML|]. split; [intros _; lia|]. split; [right; right; unfold kOkCompleted; lia|].
        split; intro E; [discriminate | reflexivity].
      * destruct (notify cb false (EDataEnd d) (log_bytes d bs w1)) as [[c3 s3] w3] eqn:N.
        injection H as K1 K2 K3. subst.
        apply notify_spec in N; [|exact P]. destruct N as (N1 & N2 & N3 & N4 & _).
        replace (zlen bs - (zlen bs - zlen bs)) with (zlen bs) by lia.
        split; [lia|]. split; [eapply moved_trans'; eauto; lia|]. split; [intros _; lia|]. split; [lia|].
        split; intro E; [congruence|].
        assert (Q : full (log_bytes d bs w1) = log_bytes d bs (full w1)) by (rewrite !log_bytes_eq; reflexivity).
        rewrite <- Q, N4. reflexivity.
Qed.

(* ---------- BlockHeaderParser ---------- *)
Lemma h_flags_step_spec : forall st nr w c n st' w', h_flags_step st nr w = (c, n, st', w') ->
  moved (n - nr) w w' /\
  (c = kWouldBlock -> (length (w_sched w') < length (w_sched w))%nat /\
     h_flags_step st nr (full w) = addn n (BlockHeaderParser_Feed st' (full w'))) /\
  (c <> kWouldBlock -> h_flags_step st nr (full w) = (c, n, st', full w')).
Proof.
  unfold h_flags_step. intros st nr w c n st' w' H.
  destruct (ReadByte w) as [[c1 b] w1] eqn:R. apply ReadByte_spec in R.
  destruct R as (T & [(C1 & C2 & C3 & C4) | [(C1 & C2 & C3 & C4) | (C1 & C2 & C3 & C4)]]); subst c1.
  - change (negb (kWouldBlock =? kOkCompleted)) with true in H. cbn iota in H. quad H.
    split; [replace (n - n) with 0 by lia; exact C4|]. split; intro E; [|congruence].
    split; [exact C2|]. unfold BlockHeaderParser_Feed. cbn [h_state]. unfold h_flags_step. cbn [h_uint h_rem h_track h_time h_flags].
    rewrite C3. destruct (ReadByte (full w)) as [[c2 b2] w2]. destruct (negb (c2 =? kOkCompleted)); cbn [addn]; tup.
  - change (negb (kEndOfFile =? kOkCompleted)) with true in H. cbn iota in H. quad H.
    split; [replace (n - n) with 0 by lia; exact C3|]. split; intro E; [discriminate|].
    rewrite C4. reflexivity.
  - change (negb (kOkCompleted =? kOkCompleted)) with false in H. cbn iota in H. quad H.
    split; [replace (nr + 1 - nr) with 1 by lia; exact C3|]. split; intro E; [discriminate|].
    rewrite C4. reflexivity.
Qed.
Lemma h_flags_shift : forall st a w, h_flags_step st a w = addn a (h_flags_step st 0 w).
Proof. intros. unfold h_flags_step. destruct (ReadByte w) as [[c b] w1]. destruct (negb _); cbn [addn]; tup. Qed.

Lemma h_time_shift : forall st a w, h_time_step st a w = addn a (h_time_step st 0 w).
Proof.
  intros. unfold h_time_step. destruct (Accumulate _ _ _ _ _ w) as [[[c k] v] w1]. cbv zeta.
  destruct (negb _); [cbn [addn]; tup|]. rewrite h_flags_shift, (h_flags_shift _ (0 + k)), addn_addn. f_equal.
Qed.

Lemma h_time_step_spec : forall st nr w c n st' w', h_time_step st nr w = (c, n, st', w') ->
  moved (n - nr) w w' /\
  (c = kWouldBlock -> (length (w_sched w') < length (w_sched w))%nat /\
     h_time_step st nr (full w) = addn n (BlockHeaderParser_Feed st' (full w'))) /\
  (c <> kWouldBlock -> h_time_step st nr (full w) = (c, n, st', full w')).
Proof.
  intros st nr w c n st' w' H. unfold h_time_step in H.
  destruct (Accumulate true 16 (Z.to_nat (h_rem st)) (h_time st) 0 w) as [[[c1 k] v] w1] eqn:A.
  apply Accumulate_spec in A. destruct A as (M & T & L & D). cbv zeta in H.
  pose proof (moved_nonneg _ _ _ M) as Hk.
  destruct D as [(D1 & D2 & D3 & D4) | [(D1 & D2 & D3 & D4) | (D1 & D2 & D3)]]; subst c1.
  - change (negb (kWouldBlock =? kOkCompleted)) with true in H. cbn iota in H. quad H.
    split; [replace (nr + k - nr) with k by lia; exact M|]. split; intro E; [|congruence].
    split; [exact D3|]. unfold h_time_step. rewrite D4.
    replace (Z.to_nat (Z.of_nat (Z.to_nat (h_rem st)) - k)) with (Z.to_nat (h_rem st - k)) by lia.
    unfold BlockHeaderParser_Feed. cbn [h_state]. unfold h_time_step. cbn [h_uint h_rem h_track h_time h_flags].
    rewrite Accumulate_shift. destruct (Accumulate true 16 (Z.to_nat (h_rem st - k)) v 0 (full w')) as [[[c2 k2] v2] w2].
    cbv zeta. replace (h_rem st - (k + k2)) with (h_rem st - k - k2) by lia.
    destruct (negb _); [cbn [addn]; tup|].
    rewrite h_flags_shift, (h_flags_shift _ (0 + k2)), addn_addn. f_equal. lia.
  - change (negb (kEndOfFile =? kOkCompleted)) with true in H. cbn iota in H. quad H.
    split; [replace (nr + k - nr) with k by lia; exact M|]. split; intro E; [discriminate|].
    unfold h_time_step. rewrite D4. reflexivity.
  - change (negb (kOkCompleted =? kOkCompleted)) with false in H. cbn iota in H.
    apply h_flags_step_spec in H. destruct H as (M2 & W1 & W2).
    split; [eapply moved_trans'; eauto; lia|]. unfold h_time_step. rewrite D3.
    change (negb (kOkCompleted =? kOkCompleted)) with false. cbv zeta. cbn iota.
    pose proof (moved_sched _ _ _ M).
    split; intro E; [|exact (W2 E)]. destruct (W1 E) as (L1 & F). split; [lia | exact F].
Qed.

Lemma BlockHeaderParser_resumes : forall st, resumes BlockHeaderParser_Feed st.
Proof.
  intros st w c n st' w' H. unfold BlockHeaderParser_Feed in H. unfold BlockHeaderParser_Feed at 1 3.
  destruct (h_state st) eqn:E0.
  - unfold h_track_step in H. destruct (VarIntParser_Feed (h_uint st) w) as [[[c1 k] u] w1] eqn:V.
    apply VarIntParser_resumes in V. destruct V as (M & W1 & W2).
    destruct (c1 =? kOkCompleted) eqn:E1.
    + assert (c1 = kOkCompleted) by lia. subst c1. cbn [negb] in H.
      apply h_time_step_spec in H. destruct H as (M2 & X1 & X2).
      split; [eapply moved_trans'; eauto; lia|]. unfold h_track_step. rewrite W2 by discriminate. rewrite E1. cbn [negb].
      pose proof (moved_sched _ _ _ M).
      split; intro E; [|exact (X2 E)]. destruct (X1 E) as (L1 & F). split; [lia | exact F].
    + cbn [negb] in H. quad H. split; [exact M|]. split; intro E.
      * destruct (W1 E) as (L & F). split; [exact L|]. unfold h_track_step at 1. rewrite F.
        unfold BlockHeaderParser_Feed. cbn [h_state]. unfold h_track_step. cbn [h_uint h_rem h_track h_time h_flags].
        destruct (VarIntParser_Feed u (full w')) as [[[c2 k2] u2] w2]. cbn [addn].
        destruct (negb _); [cbn [addn]; tup|].
        rewrite h_time_shift, (h_time_shift _ k2), addn_addn. reflexivity.
      * unfold h_track_step. rewrite (W2 E). rewrite E1. reflexivity.
  - pose proof (h_time_step_spec _ _ _ _ _ _ _ H) as (M & W1 & W2).
    split; [replace n with (n - 0) by lia; exact M|]. split; [exact W1 | exact W2].
  - pose proof (h_flags_step_spec _ _ _ _ _ _ _ H) as (M & W1 & W2).
    split; [replace n with (n - 0) by lia; exact M|]. split; [exact W1 | exact W2].
  - quad H. split; [apply moved_refl|]. split; intro E; [discriminate | reflexivity].
Qed.

(* ---------- VirtualBlockParser ---------- *)
Lemma VirtualBlockParser_resumes : forall st, resumes VirtualBlockParser_Feed st.
Proof.
  intros st w c n st' w' H. unfold VirtualBlockParser_Feed in H. unfold VirtualBlockParser_Feed at 1 3.
  destruct (vb_state st) eqn:E0.
  - destruct (BlockHeaderParser_Feed (vb_hp st) w) as [[[c1 k] h] w1] eqn:V.
    apply BlockHeaderParser_resumes in V. destruct V as (M & W1 & W2).
    destruct (c1 =? kOkCompleted) eqn:E1.
    + assert (c1 = kOkCompleted) by lia. subst c1. cbn [negb] in H.
      rewrite W2 by discriminate. rewrite E1. cbn [negb].
      unfold vb_validate in *. cbn [vb_size vb_total vb_hp] in *.
      destruct (vb_size st <? vb_total st + k); quad H;
        (split; [exact M|]; split; intro E; [discriminate | reflexivity]).
    + cbn [negb] in H. quad H. split; [exact M|]. split; intro E.
      * destruct (W1 E) as (L & F). split; [exact L|]. rewrite F.
        unfold VirtualBlockParser_Feed. cbn [vb_state vb_size vb_total vb_hp].
        destruct (BlockHeaderParser_Feed h (full w')) as [[[c2 k2] h2] w2]. cbn [addn].
        replace (vb_total st + (n + k2)) with (vb_total st + n + k2) by lia.
        destruct (negb _); [cbn [addn]; tup|].
        unfold vb_validate. cbn [vb_size vb_total vb_hp].
        destruct (_ <? _); reflexivity.
      * rewrite (W2 E). rewrite E1. reflexivity.
  - unfold vb_validate in *. destruct (vb_size st <? vb_total st); quad H;
      (split; [apply moved_refl|]; split; intro E; [discriminate | reflexivity]).
  - quad H. split; [apply moved_refl|]. split; intro E; [discriminate | reflexivity].
Qed.

(* ---------- BlockParser ---------- *)
Lemma bst_ext : forall a b,
  b_state a = b_state b -> b_hread a = b_hread b -> b_val a = b_val b -> b_meta a = b_meta b ->
  b_fpos a = b_fpos b -> b_fsize a = b_fsize b -> b_hp a = b_hp b -> b_up a = b_up b ->
  b_xiph a = b_xiph b -> b_laces a = b_laces b -> b_cur a = b_cur b -> a = b.
Proof. intros [] []; cbn; intros; subst; reflexivity. Qed.
Ltac bproj := cbn [b_state b_hread b_val b_meta b_fpos b_fsize b_hp b_up b_xiph b_laces b_cur
  b_set_state b_add_hread b_set_val b_set_hp b_set_up b_set_xiph b_set_laces b_set_cur b_set_frame].
Ltac beq := apply bst_ext; bproj; try reflexivity; try lia; try assumption.

Section blk.
Variable cb : callback.
Variable simple sk : bool.
Hypothesis Pcb : proper cb.

Notation BF := (BlockParser_Feed cb simple sk).

Definition okb (st : bst) : Prop := Forall (fun x => 0 <= x) (b_laces st) /\ 0 <= b_cur st.

Definition chain (F : bst -> Z -> world -> Z * Z * bst * world) (st : bst) : Prop :=
  forall nr w c n st' w', F st nr w = (c, n, st', w') ->
    moved (n - nr) w w' /\ okb st' /\
    (c = kWouldBlock -> (length (w_sched w') < length (w_sched w))%nat /\
       F st nr (full w) = addn n (BF st' (full w'))) /\
    (c <> kWouldBlock -> F st nr (full w) = (c, n, st', full w')).

Definition shifts (F : bst -> Z -> world -> Z * Z * bst * world) : Prop :=
  forall st nr w, F st nr w = addn nr (F st 0 w).

Lemma b_done_shifts : shifts (b_done cb simple sk).
Proof. intros st nr w. unfold b_done. destruct (notify _ _ _ w) as [[c s] w1]. cbn [addn]. tup. Qed.

Lemma b_frames_shifts : forall k, shifts (b_frames cb simple sk k).
Proof.
  induction k as [|k IH]; intros st nr w; cbn [b_frames].
  - apply b_done_shifts.
  - cbv zeta. destruct (on_data _ _ _ _ w) as [[c rem1] w1]. destruct (negb _); [cbn [addn]; tup|].
    rewrite IH. rewrite (IH _ (0 + _)), addn_addn. reflexivity.
Qed.
Lemma b_frames_step_shifts : shifts (b_frames_step cb simple sk).
Proof. intros st nr w. unfold b_frames_step. apply b_frames_shifts. Qed.
Lemma b_validate_shifts : shifts (b_validate cb simple sk).
Proof.
  intros st nr w. unfold b_validate. cbv zeta. destruct (_ <=? _); [cbn [addn]; tup|]. apply b_frames_step_shifts.
Qed.
Lemma b_fixed_shifts : shifts (b_fixed cb simple sk).
Proof.
  intros st nr w. unfold b_fixed. cbv zeta. destruct (_ <=? _); [cbn [addn]; tup|].
  destruct (negb _); [cbn [addn]; tup|]. apply b_frames_step_shifts.
Qed.
Lemma b_ebml_shifts : forall k, shifts (b_ebml cb simple sk k).
Proof.
  induction k as [|k IH]; intros st nr w; cbn [b_ebml].
  - apply b_validate_shifts.
  - destruct (VarIntParser_Feed _ w) as [[[c n] u] w1]. cbv zeta. destruct (negb _); [cbn [addn]; tup|].
    rewrite IH. rewrite (IH _ (0 + _)), addn_addn. reflexivity.
Qed.
Lemma b_ebml_step_shifts : shifts (b_ebml_step cb simple sk).
Proof. intros st nr w. unfold b_ebml_step. apply b_ebml_shifts. Qed.
Lemma b_ebml_first_shifts : shifts (b_ebml_first cb simple sk).
Proof.
  intros st nr w. unfold b_ebml_first. destruct (VarIntParser_Feed _ w) as [[[c n] u] w1]. cbv zeta.
  destruct (negb _); [cbn [addn]; tup|].
  rewrite b_ebml_step_shifts, (b_ebml_step_shifts _ (0 + n)), addn_addn. reflexivity.
Qed.
Lemma b_xiph_shifts : forall f, shifts (b_xiph_loop cb simple sk f).
Proof.
  induction f as [|f IH]; intros st nr w; cbn [b_xiph_loop].
  - destruct (_ <=? _); [apply b_validate_shifts|]. cbn [addn]; tup.
  - destruct (_ <=? _); [apply b_validate_shifts|]. destruct (ReadByte w) as [[c b] w1]. cbv zeta.
    destruct (negb _); [cbn [addn]; tup|].
    destruct (b =? 255); rewrite IH, (IH _ (0 + 1)), addn_addn; reflexivity.
Qed.
Lemma b_skipping_shifts : shifts (b_skipping).
Proof. intros st nr w. unfold b_skipping. destruct (take_all _ w) as [[c bs] w1]. cbn [addn]. tup. Qed.
Lemma b_action_shifts : shifts (b_action cb simple sk).
Proof.
  intros st nr w. unfold b_action. destruct (notify _ _ _ w) as [[c s] w1]. cbv zeta.
  destruct (negb _); [cbn [addn]; tup|]. destruct s; [apply b_skipping_shifts|].
  destruct (_ || _); [apply b_validate_shifts|]. destruct (_ =? 2); [apply b_xiph_shifts|].
  destruct (_ =? 6); [apply b_ebml_first_shifts | apply b_fixed_shifts].
Qed.
Lemma b_lace_count_shifts : shifts (b_lace_count cb simple sk).
Proof.
  intros st nr w. unfold b_lace_count. destruct (ReadByte w) as [[c b] w1]. cbv zeta.
  destruct (negb _); [cbn [addn]; tup|].
  rewrite b_action_shifts, (b_action_shifts _ (0 + 1)), addn_addn. reflexivity.
Qed.

Definition stateless (F : bst -> Z -> world -> Z * Z * bst * world) : Prop :=
  forall s st nr w, F (b_set_state s st) nr w = F st nr w.
Lemma b_frames_step_stateless : stateless (b_frames_step cb simple sk).
Proof. intros s st nr w. reflexivity. Qed.
Lemma b_validate_stateless : stateless (b_validate cb simple sk).
Proof. intros s st nr w. reflexivity. Qed.
Lemma b_fixed_stateless : stateless (b_fixed cb simple sk).
Proof. intros s st nr w. reflexivity. Qed.
Lemma b_ebml_stateless : forall k, stateless (b_ebml cb simple sk k).
Proof.
  induction k as [|k IH]; intros s st nr w; cbn [b_ebml]; [reflexivity|].
  change (b_up (b_set_state s st)) with (b_up st). destruct (VarIntParser_Feed (b_up st) w) as [[[c n] u] w1]. cbv zeta.
  destruct (negb _); [reflexivity|].
  exact (IH s (b_set_up vi_new (b_set_laces (b_laces st ++
     [wrap64 (last (b_laces st) 0 + vi_value u - (2 ^ (encoded_length u * 7 - 1) - 1))])
     (b_set_up u (b_add_hread n st)))) _ _).
Qed.
Lemma b_ebml_step_stateless : stateless (b_ebml_step cb simple sk).
Proof. intros s st nr w. unfold b_ebml_step. exact (b_ebml_stateless _ s st nr w). Qed.
Lemma b_ebml_first_stateless : stateless (b_ebml_first cb simple sk).
Proof.
  intros s st nr w. unfold b_ebml_first. change (b_up (b_set_state s st)) with (b_up st).
  destruct (VarIntParser_Feed (b_up st) w) as [[[c n] u] w1]. cbv zeta. destruct (negb _); [reflexivity|].
  exact (b_ebml_step_stateless s (b_set_up vi_new (b_set_laces (b_laces st ++ [vi_value u])
     (b_set_up u (b_add_hread n st)))) _ _).
Qed.
Lemma b_xiph_stateless : forall f, stateless (b_xiph_loop cb simple sk f).
Proof.
  induction f as [|f IH]; intros s st nr w; cbn [b_xiph_loop];
    change (b_val (b_set_state s st)) with (b_val st); change (b_laces (b_set_state s st)) with (b_laces st);
    (destruct (_ <=? _); [reflexivity|]).
  - reflexivity.
  - destruct (ReadByte w) as [[c b] w1]. cbv zeta. destruct (negb _); [reflexivity|].
    destruct (b =? 255).
    + exact (IH s (b_set_xiph (wrap64 (b_xiph st + b)) (b_add_hread 1 st)) _ _).
    + exact (IH s (b_set_xiph 0 (b_set_laces (b_laces st ++ [wrap64 (b_xiph st + b)]) (b_add_hread 1 st))) _ _).
Qed.

Lemma chain_trans : forall n nr n0 w w1 w', moved (n0 - nr) w w1 -> moved (n - n0) w1 w' -> moved (n - nr) w w'.
Proof. intros. eapply moved_trans'; eauto. lia. Qed.

Lemma b_done_chain : forall st, okb st -> chain (b_done cb simple sk) st.
Proof.
  intros st Ok nr w c n st' w' H. unfold b_done in *.
  destruct (notify cb sk (EEnd (b_kind simple) (b_meta st) (VBlock (b_val st))) w) as [[c1 s] w1] eqn:N.
  quad H. apply notify_spec in N; [|exact Pcb]. destruct N as (N1 & N2 & N3 & N4 & _).
  split; [replace (n - n) with 0 by lia; exact N3|]. split; [exact Ok|]. split; intro E; [congruence|].
  rewrite N4. reflexivity.
Qed.

Lemma set_nth_length : forall i x l, length (set_nth i x l) = length l.
Proof. induction i; intros x [|y l]; cbn; auto. Qed.
Lemma set_nth_Forall : forall (P : Z -> Prop) i x l, P x -> Forall P l -> Forall P (set_nth i x l).
Proof.
  induction i; intros x [|y l] Hx Hl; cbn; auto; inversion Hl; subst; constructor; auto.
Qed.
Lemma nth_nonneg : forall i l, Forall (fun x => 0 <= x) l -> 0 <= nth i l 0.
Proof.
  intros i l H. destruct (Nat.lt_ge_cases i (length l)).
  - rewrite Forall_forall in H. apply H. apply nth_In. exact H0.
  - rewrite nth_overflow; lia.
Qed.

Lemma nth_set_nth : forall i x l, (i < length l)%nat -> nth i (set_nth i x l) 0 = x.
Proof. induction i; intros x [|y l] H; cbn in *; auto; try lia. apply IHi; lia. Qed.
Lemma nth_S_set_nth : forall i x l, nth (S i) (set_nth i x l) 0 = nth (S i) l 0.
Proof.
  induction i as [|i IH]; intros x [|y l]; cbn [set_nth]; auto.
  change (nth (S i) (set_nth i x l) 0 = nth (S i) l 0). apply IH.
Qed.
Lemma set_set_nth : forall i x y l, set_nth i x (set_nth i y l) = set_nth i x l.
Proof. induction i; intros x y [|z l]; cbn; auto. rewrite IHi. reflexivity. Qed.

Lemma b_frames_chain : forall k st, okb st -> b_state st = BFrames ->
  k = (length (b_laces st) - Z.to_nat (b_cur st))%nat -> chain (b_frames cb simple sk k) st.
Proof.
  induction k as [|k IH]; intros st (Ok1 & Ok2) Es Ek nr w c n st' w' H; cbn [b_frames] in H.
  - cbn [b_frames]. exact (b_done_chain (b_set_state BDone st) (conj Ok1 Ok2) nr w c n st' w' H).
  - cbv zeta in H.
    set (i := Z.to_nat (b_cur st)) in *. set (rem := nth i (b_laces st) 0) in *.
    assert (Hr : 0 <= rem) by (apply nth_nonneg; exact Ok1).
    assert (Hi : (i < length (b_laces st))%nat) by lia.
    set (d := DFrame (b_meta st) (b_fpos st) (b_fsize st)) in *.
    destruct (on_data cb sk d rem w) as [[c1 rem1] w1] eqn:O.
    pose proof (on_data_spec _ _ _ _ _ _ _ _ Pcb Hr O) as (R1 & M & RC & _ & W1 & W2).
    destruct (c1 =? kOkCompleted) eqn:E1.
    + assert (c1 = kOkCompleted) by lia. subst c1. cbn [negb] in H.
      cbn [b_frames]. cbv zeta. fold i. fold rem. fold d. rewrite W2 by discriminate. rewrite E1. cbn [negb].
      set (st1 := b_set_laces (set_nth i rem1 (b_laces st)) st) in *.
      set (st2 := if b_cur st1 + 1 <? zlen (b_laces st1)
                  then b_set_frame (wrap64 (b_fpos st1 + b_fsize st1)) (nth (S i) (b_laces st1) 0) st1 else st1) in *.
      assert (F2 : b_laces st2 = set_nth i rem1 (b_laces st) /\ b_cur st2 = b_cur st /\ b_state st2 = BFrames).
      { unfold st2, st1. destruct (_ <? _); cbn; auto. }
      destruct F2 as (F2a & F2b & F2c).
      apply IH in H; [| | |].
      * destruct H as (M2 & Ok' & X1 & X2).
        split; [eapply chain_trans; eauto; replace (nr + (rem - rem1) - nr) with (rem - rem1) by lia; exact M|].
        split; [exact Ok'|]. pose proof (moved_sched _ _ _ M).
        split; intro E; [|exact (X2 E)]. destruct (X1 E) as (L1 & F). split; [lia | exact F].
      * split; cbn [b_laces b_cur b_set_cur]; [rewrite F2a; apply set_nth_Forall; [lia | exact Ok1] | lia].
      * exact F2c.
      * cbn [b_laces b_cur b_set_cur]. rewrite F2a, F2b, set_nth_length. lia.
    + cbn [negb] in H. quad H.
      split; [replace (nr + (rem - rem1) - nr) with (rem - rem1) by lia; exact M|].
      split. { split; cbn [b_laces b_cur b_set_laces]; [apply set_nth_Forall; [lia | exact Ok1] | exact Ok2]. }
      split; intro E.
      * destruct (W1 E) as (_ & L & F). split; [exact L|].
        cbn [b_frames]. cbv zeta. fold i. fold rem. fold d. rewrite F.
        unfold BlockParser_Feed. cbn [b_state b_set_laces]. rewrite Es. unfold b_frames_step.
        cbn [b_laces b_cur b_set_laces]. rewrite set_nth_length. replace (length (b_laces st) - Z.to_nat (b_cur st))%nat with (S k). cbn [b_frames].
        cbn [b_laces b_cur b_set_laces b_set_state b_meta b_fpos b_fsize b_state b_hread b_val b_hp b_up b_xiph].
        fold i. rewrite nth_set_nth by exact Hi. fold d.
        destruct (on_data cb sk d rem1 (full w')) as [[c2 rem2] w2]. cbv zeta. rewrite set_set_nth.
        unfold b_set_laces, b_set_state, b_set_frame, b_set_cur.
        cbn [b_laces b_cur b_meta b_fpos b_fsize b_state b_hread b_val b_hp b_up b_xiph]. rewrite Es.
        destruct (negb (c2 =? kOkCompleted)); [cbn [addn]; tup|].
        rewrite b_frames_shifts, (b_frames_shifts _ _ (0 + _)), addn_addn. f_equal. lia.
      * cbn [b_frames]. cbv zeta. fold i. fold rem. fold d. rewrite (W2 E), E1. reflexivity.
Qed.

Lemma b_frames_step_chain : forall st, okb st -> chain (b_frames_step cb simple sk) st.
Proof.
  intros st Ok nr w c n st' w' H. unfold b_frames_step in *.
  pose proof (b_frames_chain (length (b_laces st) - Z.to_nat (b_cur st)) (b_set_state BFrames st) Ok eq_refl eq_refl nr w c n st' w' H) as Q.
  exact Q.
Qed.

Lemma moved_same : forall n w, moved (n - n) w w.
Proof. intros. replace (n - n) with 0 by lia. apply moved_refl. Qed.

Lemma b_validate_chain : forall st, okb st -> chain (b_validate cb simple sk) st.
Proof.
  intros st (Ok1 & Ok2) nr w c n st' w' H. unfold b_validate in *. cbv zeta in *.
  destruct (me_size (b_meta st) <=? wrap64 (fold_left Z.add (b_laces st) (b_hread st))) eqn:E0.
  - quad H. split; [apply moved_same|]. split; [split; assumption|]. split; intro E; [discriminate | reflexivity].
  - apply b_frames_step_chain in H; [exact H|].
    split; cbn [b_laces b_cur b_set_frame b_set_laces]; [|exact Ok2].
    apply Forall_app. split; [exact Ok1|]. constructor; [lia | constructor].
Qed.

Lemma b_fixed_chain : forall st, okb st -> chain (b_fixed cb simple sk) st.
Proof.
  intros st (Ok1 & Ok2) nr w c n st' w' H. unfold b_fixed in *. cbv zeta in *.
  destruct (me_size (b_meta st) <=? b_hread st) eqn:E0.
  - quad H. split; [apply moved_same|]. split; [split; assumption|]. split; intro E; [discriminate | reflexivity].
  - destruct (negb _).
    + quad H. split; [apply moved_same|]. split; [split; assumption|]. split; intro E; [discriminate | reflexivity].
    + apply b_frames_step_chain in H; [exact H|].
      split; cbn [b_laces b_cur b_set_frame b_set_laces]; [|exact Ok2].
      apply Forall_forall. intros x Hx.
      destruct (Z_le_gt_dec (bv_frames (b_val st)) 0).
      * replace (Z.to_nat (bv_frames (b_val st))) with 0%nat in Hx by lia. destruct Hx.
      * apply repeat_spec in Hx. subst x. apply Z.div_pos; lia.
Qed.

Lemma VarInt_value_nonneg : forall st w c n st' w',
  VarIntParser_Feed st w = (c, n, st', w') -> c = kOkCompleted -> 0 <= vi_value st'.
Proof.
  assert (G : forall st nr w c n st' w', vi_rest st nr w = (c, n, st', w') -> c = kOkCompleted -> 0 <= vi_value st').
  { unfold vi_rest. intros st nr w c n st' w' H E. destruct (Accumulate _ _ _ _ _ w) as [[[c1 k] v] w1].
    destruct (c1 =? kOkCompleted) eqn:E1; cbn [negb] in H; quad H; [|discriminate].
    cbn [vi_value]. apply Z.land_nonneg. right. apply Z.shiftr_nonneg. lia. }
  unfold VarIntParser_Feed. intros st w c n st' w' H E. destruct (vi_rem st =? -1); [|eauto].
  destruct (ReadByte w) as [[c1 b] w1].
  destruct (c1 =? kOkCompleted) eqn:E1; cbn [negb] in H; [|quad H; discriminate].
  destruct (b =? 0); [quad H; discriminate|]. eauto.
Qed.

Lemma b_ebml_chain : forall k st, okb st ->
  k = (Z.to_nat (bv_frames (b_val st) - 1) - length (b_laces st))%nat -> chain (b_ebml cb simple sk k) st.
Proof.
  induction k as [|k IH]; intros st (Ok1 & Ok2) Ek nr w c n st' w' H; cbn [b_ebml] in H.
  - cbn [b_ebml]. exact (b_validate_chain st (conj Ok1 Ok2) nr w c n st' w' H).
  - destruct (VarIntParser_Feed (b_up st) w) as [[[c1 n1] u] w1] eqn:V. cbv zeta in H.
    pose proof (VarInt_value_nonneg _ _ _ _ _ _ V) as Vn.
    apply VarIntParser_resumes in V. destruct V as (M & W1 & W2).
    destruct (c1 =? kOkCompleted) eqn:E1.
    + assert (c1 = kOkCompleted) by lia. subst c1. cbn [negb] in H.
      cbn [b_ebml]. rewrite W2 by discriminate. cbv zeta. rewrite E1. cbn [negb].
      apply IH in H.
      * destruct H as (M2 & Ok' & X1 & X2).
        split; [eapply chain_trans; eauto; replace (nr + n1 - nr) with n1 by lia; exact M|].
        split; [exact Ok'|]. pose proof (moved_sched _ _ _ M).
        split; intro E; [|exact (X2 E)]. destruct (X1 E) as (L1 & F). split; [lia | exact F].
      * split; cbn; [|exact Ok2]. apply Forall_app. split; [exact Ok1|]. constructor; [|constructor].
        unfold wrap64. apply Z.mod_pos_bound. lia.
      * cbn [b_val b_laces b_set_up b_set_laces b_add_hread]. rewrite app_length. cbn [length]. lia.
    + cbn [negb] in H. quad H.
      split; [replace (nr + n1 - nr) with n1 by lia; exact M|].
      split; [split; assumption|].
      split; intro E.
      * destruct (W1 E) as (L & F). split; [exact L|].
        cbn [b_ebml]. rewrite F. unfold BlockParser_Feed.
        set (s1 := b_set_state BEbml (b_set_up u (b_add_hread n1 st))).
        change (b_state s1) with BEbml. cbv iota. unfold b_ebml_step.
        change (b_val s1) with (b_val st). change (b_laces s1) with (b_laces st). rewrite <- Ek. cbn [b_ebml].
        change (b_up s1) with u. change (b_laces s1) with (b_laces st).
        destruct (VarIntParser_Feed u (full w')) as [[[c2 n2] u2] w2]. cbn [addn]. cbv zeta.
        destruct (negb _); [cbn [addn]; tup; unfold s1; beq|].
        rewrite b_ebml_shifts, (b_ebml_shifts _ _ (0 + _)), addn_addn.
        replace (nr + n1 + (0 + n2)) with (nr + (n1 + n2)) by lia. f_equal.
        match goal with |- b_ebml _ _ _ _ ?s _ _ = _ => rewrite <- (b_ebml_stateless k BEbml s) end.
        f_equal. unfold s1. beq.
      * cbn [b_ebml]. rewrite (W2 E), E1. reflexivity.
Qed.
Lemma b_ebml_step_chain : forall st, okb st -> chain (b_ebml_step cb simple sk) st.
Proof. intros st Ok nr w c n st' w' H. unfold b_ebml_step in *. exact (b_ebml_chain _ st Ok eq_refl nr w c n st' w' H). Qed.

Lemma b_ebml_first_chain : forall st, okb st -> chain (b_ebml_first cb simple sk) st.
Proof.
  intros st (Ok1 & Ok2) nr w c n st' w' H. unfold b_ebml_first in H.
  destruct (VarIntParser_Feed (b_up st) w) as [[[c1 n1] u] w1] eqn:V. cbv zeta in H.
  pose proof (VarInt_value_nonneg _ _ _ _ _ _ V) as Vn.
  apply VarIntParser_resumes in V. destruct V as (M & W1 & W2).
  destruct (c1 =? kOkCompleted) eqn:E1.
  - assert (c1 = kOkCompleted) by lia. subst c1. cbn [negb] in H.
    unfold b_ebml_first at 1 2. rewrite W2 by discriminate. cbv zeta. rewrite E1. cbn [negb].
    apply b_ebml_step_chain in H.
    + destruct H as (M2 & Ok' & X1 & X2).
      split; [eapply chain_trans; eauto; replace (nr + n1 - nr) with n1 by lia; exact M|].
      split; [exact Ok'|]. pose proof (moved_sched _ _ _ M).
      split; intro E; [|exact (X2 E)]. destruct (X1 E) as (L1 & F). split; [lia | exact F].
    + split; cbn; [|exact Ok2]. apply Forall_app. split; [exact Ok1|]. constructor; [auto|constructor].
  - cbn [negb] in H. quad H.
    split; [replace (nr + n1 - nr) with n1 by lia; exact M|].
    split; [split; assumption|].
    split; intro E.
    + destruct (W1 E) as (L & F). split; [exact L|].
      unfold b_ebml_first at 1. rewrite F. unfold BlockParser_Feed.
      set (s1 := b_set_state BEbmlFirst (b_set_up u (b_add_hread n1 st))).
      change (b_state s1) with BEbmlFirst. cbv iota. unfold b_ebml_first.
      change (b_up s1) with u. change (b_laces s1) with (b_laces st).
      destruct (VarIntParser_Feed u (full w')) as [[[c2 n2] u2] w2]. cbn [addn]. cbv zeta.
      destruct (negb _); [cbn [addn]; tup; unfold s1; beq|].
      rewrite b_ebml_step_shifts, (b_ebml_step_shifts _ (0 + _)), addn_addn.
      replace (nr + n1 + (0 + n2)) with (nr + (n1 + n2)) by lia. f_equal.
      match goal with |- b_ebml_step _ _ _ ?s _ _ = _ => rewrite <- (b_ebml_step_stateless BEbmlFirst s) end.
      f_equal. unfold s1. beq.
    + unfold b_ebml_first. rewrite (W2 E), E1. reflexivity.
Qed.

Lemma xiph_fuel : forall f1 f2 st nr w, (length (w_data w) < f1)%nat -> (length (w_data w) < f2)%nat ->
  b_xiph_loop cb simple sk f1 st nr w = b_xiph_loop cb simple sk f2 st nr w.
Proof.
  induction f1 as [|f1 IH]; intros [|f2] st nr w H1 H2; try lia. cbn [b_xiph_loop].
  destruct (_ <=? _); [reflexivity|]. destruct (ReadByte w) as [[c b] w1] eqn:R. apply ReadByte_spec in R.
  destruct R as (T & [(C1 & C2 & C3 & C4) | [(C1 & C2 & C3 & C4) | (C1 & C2 & C3 & C4)]]); subst c; cbv zeta;
    [reflexivity | reflexivity|].
  change (negb (kOkCompleted =? kOkCompleted)) with false. cbn iota.
  rewrite C2 in H1, H2. cbn [length] in *. destruct (b =? 255); apply IH; lia.
Qed.

Lemma b_xiph_chain : forall f st, okb st ->
  forall nr w c n st' w', (length (w_data w) < f)%nat -> b_xiph_loop cb simple sk f st nr w = (c, n, st', w') ->
    moved (n - nr) w w' /\ okb st' /\
    (c = kWouldBlock -> (length (w_sched w') < length (w_sched w))%nat /\
       b_xiph_loop cb simple sk f st nr (full w) = addn n (BF st' (full w'))) /\
    (c <> kWouldBlock -> b_xiph_loop cb simple sk f st nr (full w) = (c, n, st', full w')).
Proof.
  induction f as [|f IH]; intros st (Ok1 & Ok2) nr w c n st' w' Hf H; [lia|].
  cbn [b_xiph_loop] in H. cbn [b_xiph_loop].
  destruct (bv_frames (b_val st) - 1 <=? zlen (b_laces st)) eqn:E0.
  { exact (b_validate_chain st (conj Ok1 Ok2) nr w c n st' w' H). }
  destruct (ReadByte w) as [[c1 b] w1] eqn:R. apply ReadByte_spec in R. cbv zeta in *.
  destruct R as (T & [(C1 & C2 & C3 & C4) | [(C1 & C2 & C3 & C4) | (C1 & C2 & C3 & C4)]]); subst c1.
  - change (negb (kWouldBlock =? kOkCompleted)) with true in H. cbn iota in H. quad H.
    split; [replace (n - n) with 0 by lia; exact C4|]. split; [split; assumption|]. split; intro E; [|congruence].
    split; [exact C2|]. unfold BlockParser_Feed. cbn [b_state b_set_state]. unfold b_xiph_step.
    rewrite C3.
    transitivity (b_xiph_loop cb simple sk (S f) st n (full w)).
    { cbn [b_xiph_loop]. rewrite E0. reflexivity. }
    rewrite b_xiph_shifts. f_equal.
    rewrite (xiph_fuel (S f) (S (length (w_data (full w)))) st 0 (full w)) by (cbn [w_data full]; lia).
    symmetry. exact (b_xiph_stateless _ BXiph st 0 (full w)).
  - change (negb (kEndOfFile =? kOkCompleted)) with true in H. cbn iota in H. quad H.
    split; [replace (n - n) with 0 by lia; exact C3|]. split; [split; assumption|]. split; intro E; [discriminate|].
    rewrite C4. reflexivity.
  - change (negb (kOkCompleted =? kOkCompleted)) with false in H. cbn iota in H.
    rewrite C4. change (negb (kOkCompleted =? kOkCompleted)) with false. cbn iota.
    assert (Hf1 : (length (w_data w1) < f)%nat) by (rewrite C2 in Hf; cbn [length] in Hf; lia).
    assert (M1 : moved (nr + 1 - nr) w w1) by (replace (nr + 1 - nr) with 1 by lia; exact C3).
    pose proof (moved_sched _ _ _ C3).
    destruct (b =? 255).
    + apply IH in H; [|split; assumption|exact Hf1]. destruct H as (M2 & Ok' & X1 & X2).
      split; [eapply chain_trans; eauto|]. split; [exact Ok'|].
      split; intro E; [|exact (X2 E)]. destruct (X1 E) as (L1 & F). split; [lia | exact F].
    + apply IH in H; [| |exact Hf1].
      * destruct H as (M2 & Ok' & X1 & X2).
        split; [eapply chain_trans; eauto|]. split; [exact Ok'|].
        split; intro E; [|exact (X2 E)]. destruct (X1 E) as (L1 & F). split; [lia | exact F].
      * split; cbn; [|exact Ok2]. apply Forall_app. split; [exact Ok1|]. constructor; [|constructor].
        unfold wrap64. apply Z.mod_pos_bound. lia.
Qed.

Lemma b_xiph_step_chain : forall st, okb st -> chain (b_xiph_step cb simple sk) st.
Proof.
  intros st Ok nr w c n st' w' H. unfold b_xiph_step in *.
  exact (b_xiph_chain (S (length (w_data w))) st Ok nr w c n st' w' (Nat.lt_succ_diag_r _) H).
Qed.

Lemma wrap64_sub : forall a b k, wrap64 (a - (b + k)) = wrap64 (wrap64 (a - b) - k).
Proof. intros. unfold wrap64. rewrite Zminus_mod_idemp_l. f_equal. lia. Qed.
Lemma wrap64_range : forall a, 0 <= wrap64 a < 18446744073709551616.
Proof. intros. unfold wrap64. apply Z.mod_pos_bound. lia. Qed.

Lemma b_skipping_chain : forall st, okb st -> chain b_skipping st.
Proof.
  intros st Ok nr w c n st' w' H. unfold b_skipping in H.
  set (k := wrap64 (me_size (b_meta st) - b_hread st)) in *.
  assert (Hk : 0 <= k) by apply wrap64_range.
  destruct (take_all k w) as [[c1 bs] w1] eqn:T. quad H.
  pose proof (take_all_moved _ _ _ _ _ Hk T) as M.
  pose proof (take_all_resume _ _ _ _ _ Hk T) as (W1 & W2).
  pose proof (take_all_spec _ _ _ _ _ Hk T) as (us & D & S & _ & L & C).
  split; [replace (nr + zlen bs - nr) with (zlen bs) by lia; exact M|]. split; [exact Ok|]. split; intro E.
  - destruct C as [(C1 & C2 & C3) | [(C1 & C2 & C3) | (C1 & C2 & C3)]]; try (subst; discriminate). subst c.
    split. { rewrite S, app_length. destruct us; [congruence | cbn [length]; lia]. }
    unfold BlockParser_Feed. set (s1 := b_set_state BSkipping (b_add_hread (zlen bs) st)).
    change (b_state s1) with BSkipping. cbv iota. unfold b_skipping. fold k.
    change (b_meta s1) with (b_meta st). change (b_hread s1) with (b_hread st + zlen bs).
    rewrite wrap64_sub. fold k. replace (wrap64 (k - zlen bs)) with (k - zlen bs).
    2:{ symmetry. unfold wrap64. apply Z.mod_small. pose proof (wrap64_range (me_size (b_meta st) - b_hread st)) as B. fold k in B.
        pose proof (zlen_nonneg _ bs). lia. }
    destruct (take_all (k - zlen bs) (full w')) as [[c2 b2] w2] eqn:T2.
    rewrite (W1 eq_refl _ _ _ eq_refl). cbn [addn]. rewrite zlen_app.
    tup. unfold s1. beq.
  - unfold b_skipping. fold k. rewrite (W2 E). reflexivity.
Qed.

Lemma b_action_stateless : stateless (b_action cb simple sk).
Proof.
  intros s st nr w. unfold b_action. change (b_meta (b_set_state s st)) with (b_meta st).
  change (b_val (b_set_state s st)) with (b_val st).
  destruct (notify _ _ _ w) as [[c skip] w1]. cbv zeta.
  destruct (negb _); [reflexivity|]. destruct skip; [reflexivity|]. destruct (_ || _); [reflexivity|].
  destruct (_ =? 2); [exact (b_xiph_stateless _ s st nr w1)|]. destruct (_ =? 6); [exact (b_ebml_first_stateless s st nr w1) | reflexivity].
Qed.

Lemma b_action_chain : forall st, okb st -> chain (b_action cb simple sk) st.
Proof.
  intros st Ok nr w c n st' w' H. unfold b_action in *.
  destruct (notify cb sk (EBegin (b_kind simple) (b_meta st) (VBlock (b_val st))) w) as [[c1 skip] w1] eqn:N.
  apply notify_spec in N; [|exact Pcb]. destruct N as (N1 & N2 & N3 & N4 & _). rewrite N4. cbv zeta in *.
  destruct (negb (c1 =? kOkCompleted)).
  { quad H. split; [replace (n - n) with 0 by lia; exact N3|]. split; [exact Ok|].
    split; intro E; [congruence | reflexivity]. }
  assert (G : forall F, chain F st -> F st nr w1 = (c, n, st', w') ->
    moved (n - nr) w w' /\ okb st' /\
    (c = kWouldBlock -> (length (w_sched w') < length (w_sched w))%nat /\
       F st nr (full w1) = addn n (BF st' (full w'))) /\
    (c <> kWouldBlock -> F st nr (full w1) = (c, n, st', full w'))).
  { intros F CF HF. destruct (CF _ _ _ _ _ _ HF) as (M & O & X1 & X2).
    split; [eapply moved_trans'; eauto; lia|]. split; [exact O|]. pose proof (moved_sched _ _ _ N3).
    split; intro E; [|exact (X2 E)]. destruct (X1 E) as (L1 & F1). split; [lia | exact F1]. }
  destruct skip; [exact (G _ (b_skipping_chain st Ok) H)|].
  destruct (_ || _); [exact (G _ (b_validate_chain st Ok) H)|].
  destruct (_ =? 2); [exact (G _ (b_xiph_step_chain st Ok) H)|].
  destruct (_ =? 6); [exact (G _ (b_ebml_first_chain st Ok) H) | exact (G _ (b_fixed_chain st Ok) H)].
Qed.

Lemma b_lace_count_chain : forall st, okb st -> chain (b_lace_count cb simple sk) st.
Proof.
  intros st Ok nr w c n st' w' H. unfold b_lace_count in H. unfold b_lace_count at 1 2.
  destruct (ReadByte w) as [[c1 b] w1] eqn:R. apply ReadByte_spec in R. cbv zeta in *.
  destruct R as (T & [(C1 & C2 & C3 & C4) | [(C1 & C2 & C3 & C4) | (C1 & C2 & C3 & C4)]]); subst c1.
  - change (negb (kWouldBlock =? kOkCompleted)) with true in H. cbn iota in H. quad H.
    split; [replace (n - n) with 0 by lia; exact C4|]. split; [exact Ok|]. split; intro E; [|congruence].
    split; [exact C2|]. unfold BlockParser_Feed. cbn [b_state b_set_state]. unfold b_lace_count. rewrite C3.
    destruct (ReadByte (full w)) as [[c2 b2] w2]. destruct (negb _); [cbn [addn]; tup|].
    rewrite b_action_shifts, (b_action_shifts _ (0 + 1)), addn_addn.
    replace (n + (0 + 1)) with (n + 1) by lia. f_equal.
    match goal with |- _ = b_action _ _ _ ?s _ _ => rewrite <- (b_action_stateless (b_state st) s) end. reflexivity.
  - change (negb (kEndOfFile =? kOkCompleted)) with true in H. cbn iota in H. quad H.
    split; [replace (n - n) with 0 by lia; exact C3|]. split; [exact Ok|]. split; intro E; [discriminate|].
    rewrite C4. reflexivity.
  - change (negb (kOkCompleted =? kOkCompleted)) with false in H. cbn iota in H.
    rewrite C4. change (negb (kOkCompleted =? kOkCompleted)) with false. cbn iota.
    apply b_action_chain in H; [|exact Ok]. destruct H as (M & O & X1 & X2).
    split; [eapply moved_trans'; eauto; lia|]. split; [exact O|]. pose proof (moved_sched _ _ _ C3).
    split; intro E; [|exact (X2 E)]. destruct (X1 E) as (L1 & F1). split; [lia | exact F1].
Qed.

Lemma b_lace_count_stateless : stateless (b_lace_count cb simple sk).
Proof.
  intros s st nr w. unfold b_lace_count. destruct (ReadByte w) as [[c b] w1]. destruct (negb _); [reflexivity|]. cbv zeta.
  match goal with |- b_action _ _ _ ?x _ _ = b_action _ _ _ ?y _ _ =>
    change x with (b_set_state s y) end. apply b_action_stateless.
Qed.

Lemma BlockParser_resumes : forall st, okb st -> forall w c n st' w', BF st w = (c, n, st', w') ->
    moved n w w' /\ okb st' /\
    (c = kWouldBlock -> (length (w_sched w') < length (w_sched w))%nat /\
                        BF st (full w) = addn n (BF st' (full w'))) /\
    (c <> kWouldBlock -> BF st (full w) = (c, n, st', full w')).
Proof.
  intros st Ok w c n st' w' H.
  assert (G : forall F, chain F st -> F st 0 w = (c, n, st', w') ->
    moved n w w' /\ okb st' /\
    (c = kWouldBlock -> (length (w_sched w') < length (w_sched w))%nat /\
       F st 0 (full w) = addn n (BF st' (full w'))) /\
    (c <> kWouldBlock -> F st 0 (full w) = (c, n, st', full w'))).
  { intros F CF HF. destruct (CF _ _ _ _ _ _ HF) as (M & O & X).
    split; [replace n with (n - 0) by lia; exact M|]. split; [exact O | exact X]. }
  unfold BlockParser_Feed in H. unfold BlockParser_Feed at 1 3. destruct (b_state st) eqn:Es.
  2: exact (G _ (b_lace_count_chain st Ok) H).
  2: exact (G _ (b_action_chain st Ok) H).
  2: exact (G _ (b_xiph_step_chain st Ok) H).
  2: exact (G _ (b_ebml_first_chain st Ok) H).
  2: exact (G _ (b_ebml_step_chain st Ok) H).
  2: exact (G _ (b_fixed_chain st Ok) H).
  2: exact (G _ (b_validate_chain st Ok) H).
  2: exact (G _ (b_skipping_chain st Ok) H).
  2: exact (G _ (b_frames_step_chain st Ok) H).
  2: exact (G _ (b_done_chain st Ok) H).
  clear G. unfold b_header in H. unfold b_header at 1 2.
  destruct (BlockHeaderParser_Feed (b_hp st) w) as [[[c1 n1] h] w1] eqn:V. cbv zeta in *.
  apply BlockHeaderParser_resumes in V. destruct V as (M & W1 & W2).
  destruct (c1 =? kOkCompleted) eqn:E1.
  - assert (c1 = kOkCompleted) by lia. subst c1. cbn [negb] in H.
    rewrite W2 by discriminate. rewrite E1. cbn [negb]. pose proof (moved_sched _ _ _ M).
    destruct (Z.land (h_flags h) 6 =? 0).
    + apply b_action_chain in H; [|exact Ok]. destruct H as (M2 & O & X1 & X2).
      split; [eapply moved_trans'; eauto; lia|]. split; [exact O|].
      split; intro E; [|exact (X2 E)]. destruct (X1 E) as (L1 & F1). split; [lia | exact F1].
    + apply b_lace_count_chain in H; [|exact Ok]. destruct H as (M2 & O & X1 & X2).
      split; [eapply moved_trans'; eauto; lia|]. split; [exact O|].
      split; intro E; [|exact (X2 E)]. destruct (X1 E) as (L1 & F1). split; [lia | exact F1].
  - cbn [negb] in H. quad H. split; [exact M|]. split; [exact Ok|]. split; intro E.
    + destruct (W1 E) as (L & F). split; [exact L|]. rewrite F.
      unfold BlockParser_Feed. set (s1 := b_set_state BHeader (b_set_hp h (b_add_hread n st))).
      change (b_state s1) with BHeader. cbv iota. unfold b_header. change (b_hp s1) with h.
      destruct (BlockHeaderParser_Feed h (full w')) as [[[c2 n2] h2] w2]. cbn [addn]. cbv zeta.
      destruct (negb _); [cbn [addn]; tup; unfold s1; beq|].
      destruct (_ =? 0).
      * rewrite b_action_shifts, (b_action_shifts _ n2), addn_addn. f_equal. f_equal. unfold s1. beq.
      * rewrite b_lace_count_shifts, (b_lace_count_shifts _ n2), addn_addn. f_equal. f_equal. unfold s1. beq.
    + rewrite (W2 E), E1. reflexivity.
Qed.
End blk.
