(* Proofs about the callback parser: a block that is accepted is coded as specified. *)
From Coq Require Import ZifyBool ZifyNat.
From Verif Require Import Base EbmlSpec LacingSpec WpSpec WpBlockSpec WpDocSpec MWp MWpBlock PParUtil PParBlock PWpRead PWpLeaf PWpBlk.

Local Notation W l p t := (mk_world l p [] t).
Local Notation code r := (fst (fst (fst r))).

Lemma take_all_inv : forall n l p t, 0 < n -> fst (fst (take_all n (W l p t))) = kOkCompleted ->
  exists a l', l = a ++ l' /\ zlen a = n.
Proof.
  intros n l p t Hn H. unfold take_all in H. cbn [w_sched length take_loop] in H.
  unfold rd_take at 1 in H. cbn [w_sched] in H. unfold rd_give in H. cbn [w_data] in H.
  destruct l as [|x l]; [discriminate H|]. set (l0 := x :: l) in *.
  assert (L : 1 <= zlen l0) by (unfold l0; rewrite zlen_cons; pose proof (zlen_nonneg _ l); lia).
  destruct (Z.eqb_spec (Z.min (Z.min n n) (zlen l0)) n) as [E|E].
  - exists (firstn (Z.to_nat n) l0), (skipn (Z.to_nat n) l0). rewrite firstn_skipn. split; [reflexivity|].
    unfold zlen in *. rewrite firstn_length. lia.
  - exfalso. change (kOkPartial =? kOkPartial) with true in H. cbv iota in H.
    unfold rd_take in H. cbn [w_got w_sched] in H. unfold rd_give in H. cbn [w_data w_got] in H.
    rewrite skipn_all2 in H by (unfold zlen in *; lia). discriminate H.
Qed.

Lemma on_data_inv : forall d rem l p t, 0 <= rem -> fst (fst (on_data read_all false d rem (W l p t))) = kOkCompleted ->
  exists a l', l = a ++ l' /\ zlen a = rem.
Proof.
  intros d rem l p t Hr H. unfold on_data in H. destruct (Z.eqb_spec rem 0) as [Z0|NZ].
  - exists [], l. split; [reflexivity|]. rewrite zlen_nil. lia.
  - destruct (take_all rem (W l p t)) as [[c bs] w1] eqn:T. apply (take_all_inv rem l p t); [lia|]. rewrite T.
    cbn [fst]. destruct (Z.eqb_spec c kOkCompleted) as [E|E]; [exact E|]. cbn [negb fst] in H. exact H.
Qed.

Lemma ReadByte_inv : forall l p t, fst (fst (ReadByte (W l p t))) = kOkCompleted -> exists b l', l = b :: l'.
Proof. intros [|b l] p t H; [discriminate H | eauto]. Qed.

Lemma Accumulate_inv : forall sg bits n v nr l p t,
  code (Accumulate sg bits n v nr (W l p t)) = kOkCompleted -> exists a l', l = a ++ l' /\ length a = n.
Proof.
  induction n as [|n IH]; intros v nr l p t H.
  - exists [], l. split; reflexivity.
  - cbn [Accumulate] in H. destruct l as [|b l]; [discriminate H|]. rewrite ReadByte_full in H.
    change (kOkCompleted =? kOkCompleted) with true in H. cbv iota in H.
    apply IH in H. destruct H as (a & l' & -> & E). exists (b :: a), l'. split; [reflexivity|]. cbn [length]. congruence.
Qed.

Lemma VarInt_inv : forall l p t, bytes l -> code (VarIntParser_Feed vi_new (W l p t)) = kOkCompleted ->
  exists w x l', 1 <= w <= 8 /\ 0 <= x < 2 ^ (7 * w) /\ l = vint w x ++ l'.
Proof.
  intros l p t B H. unfold VarIntParser_Feed in H. change (vi_rem vi_new =? -1) with true in H. cbv iota in H.
  destruct l as [|b l]; [discriminate H|]. rewrite ReadByte_full in H. cbn [negb Z.eqb kOkCompleted] in H.
  inversion B as [|? ? B1 B2]; subst. unfold is_byte in B1.
  destruct (Z.eqb_spec b 0) as [E|E]; [discriminate H|].
  destruct (marker_scan_spec b ltac:(lia)) as (w & _ & Hw & Hr & _).
  rewrite (clz_loop_spec b (w - 1)) in H; [|lia|replace (7 - (w - 1)) with (8 - w) by lia; lia].
  unfold vi_rest in H. cbn [vi_rem vi_total vi_value] in H.
  destruct (Accumulate false 64 (Z.to_nat (w - 1)) b 0 (W l (p + 1) t)) as [[[c k] v] w1] eqn:A.
  destruct (Z.eqb_spec c kOkCompleted) as [Ec|Ec]; [|exfalso; apply Ec; exact H].
  destruct (Accumulate_inv false 64 (Z.to_nat (w - 1)) b 0 l (p + 1) t) as (a & l' & -> & La); [rewrite A; exact Ec|].
  apply bytes_app in B2. destruct B2 as [Ba _].
  destruct (vint_of_bytes b a w Hw Hr Ba) as (x & Hx & Ex); [unfold zlen; lia|].
  exists w, x, l'. split; [exact Hw|]. split; [exact Hx|]. rewrite <- Ex. reflexivity.
Qed.

Lemma Header_inv : forall l p t, bytes l -> code (BlockHeaderParser_Feed h_new (W l p t)) = kOkCompleted ->
  exists w track time flags l', 1 <= w <= 8 /\ 0 <= track < 2 ^ (7 * w) /\ -32768 <= time < 32768 /\ is_byte flags /\
    l = vint w track ++ be_bytes 2 time ++ [flags] ++ l'.
Proof.
  intros l p t B H. unfold BlockHeaderParser_Feed in H. cbn [h_state h_new] in H. unfold h_track_step in H.
  cbn [h_uint h_new] in H.
  destruct (VarIntParser_Feed vi_new (W l p t)) as [[[c k] u] w1] eqn:V.
  destruct (Z.eqb_spec c kOkCompleted) as [Ec|Ec]; [|exfalso; apply Ec; exact H]. subst c.
  destruct (VarInt_inv l p t B) as (w & x & l1 & Hw & Hx & ->); [rewrite V; reflexivity|].
  rewrite VarInt_full in V by assumption. injection V as <- <- <-. cbn [negb] in H. unfold h_time_step in H. cbn [h_rem h_time] in H.
  match type of H with context [Accumulate true 16 ?n ?v ?m ?q] => destruct (Accumulate true 16 n v m q) as [[[c k] v1] w1] eqn:A end.
  destruct (Z.eqb_spec c kOkCompleted) as [Ec|Ec]; [|exfalso; apply Ec; exact H]. subst c.
  destruct (Accumulate_inv true 16 (Z.to_nat (h_rem h_new)) (h_time h_new) 0 l1 (p + w) t) as (a & l2 & -> & La); [rewrite A; reflexivity|].
  rewrite Accumulate_full' in A by (symmetry; exact La). injection A as <- <- <-. cbn [negb] in H. unfold h_flags_step in H.
  apply bytes_app in B. destruct B as [_ B]. apply bytes_app in B. destruct B as [Ba B].
  destruct l2 as [|f l2]; [discriminate H|]. inversion B as [|? ? Bf B2]; subst.
  destruct a as [|a1 [|a2 [|]]]; try discriminate La.
  inversion Ba as [|? ? Ba1 Ba']; subst. inversion Ba' as [|? ? Ba2 _]; subst.
  destruct (time_of_bytes a1 a2 Ba1 Ba2) as (tm & Ht & Et).
  exists w, x, tm, f, l2. do 4 (split; [assumption|]). rewrite <- Et. reflexivity.
Qed.

Section inv.
Variable simple : bool.
Notation cb := read_all.

Lemma map_zlen_nonneg : forall fs : list (list Z), Forall (fun n => 0 <= n) (map zlen fs).
Proof. intro fs. apply Forall_map, Forall_forall. intros f _. apply zlen_nonneg. Qed.

Lemma b_frames_inv : forall ls st done nr l p t,
  b_laces st = done ++ ls -> b_cur st = zlen done -> Forall (fun n => 0 <= n) ls ->
  code (b_frames cb simple false (length ls) st nr (W l p t)) = kOkCompleted ->
  exists frames l', l = concat frames ++ l' /\ map zlen frames = ls.
Proof.
  induction ls as [|n ls IH]; intros st done nr l p t L C N H.
  - exists [], l. split; reflexivity.
  - inversion N as [|? ? N1 N2]; subst. cbn [length b_frames] in H.
    assert (I : Z.to_nat (b_cur st) = length done) by (rewrite C; unfold zlen; lia).
    rewrite I, L, nth_mid in H.
    destruct (on_data cb false (DFrame (b_meta st) (b_fpos st) (b_fsize st)) n (W l p t)) as [[c r1] w1] eqn:D.
    destruct (Z.eqb_spec c kOkCompleted) as [Ec|Ec]; [|exfalso; apply Ec; exact H]. subst c.
    destruct (on_data_inv _ n l p t N1 ltac:(rewrite D; reflexivity)) as (a & l1 & -> & La).
    rewrite <- La, on_data_full in D. injection D as <- <-. cbn [negb] in H. rewrite set_nth_app in H.
    set (st1 := b_set_laces (done ++ 0 :: ls) st) in *.
    match type of H with context [b_frames cb simple false _ (b_set_cur _ ?s) _ _] => set (st2 := s) in * end.
    assert (Q : b_laces st2 = (done ++ [0]) ++ ls /\ b_cur st2 = zlen done).
    { rewrite <- app_assoc. unfold st2. destruct (_ <? _); (split; [reflexivity|exact C]). }
    destruct Q as [Q1 Q2]. clearbody st2. clear st1.
    apply (IH (b_set_cur (b_cur st2 + 1) st2) (done ++ [0])) in H.
    + destruct H as (frames & l' & -> & M). exists (a :: frames), l'. cbn [concat map]. rewrite <- app_assoc, M, La. split; reflexivity.
    + cbn [b_set_cur b_laces]. exact Q1.
    + cbn [b_set_cur b_cur]. rewrite zlen_app, zlen_cons, zlen_nil. lia.
    + exact N2.
Qed.

Lemma b_frames_step_inv : forall st nr l p t,
  b_cur st = 0 -> Forall (fun n => 0 <= n) (b_laces st) ->
  code (b_frames_step cb simple false st nr (W l p t)) = kOkCompleted ->
  exists frames l', l = concat frames ++ l' /\ map zlen frames = b_laces st.
Proof.
  intros st nr l p t C N H. unfold b_frames_step in H. rewrite C in H. change (Z.to_nat 0) with O in H. rewrite Nat.sub_0_r in H.
  apply (b_frames_inv (b_laces st) (b_set_state BFrames st) []) in H; auto.
Qed.

(* the data that is left *)
Definition short (l : list Z) : Prop := zlen l < 2 ^ 55.

Lemma concat_le : forall (fs : list (list Z)) l, zlen (concat fs) <= zlen (concat fs ++ l).
Proof. intros. rewrite zlen_app. pose proof (zlen_nonneg _ l). lia. Qed.

Lemma b_validate_inv : forall st nr l p t,
  b_cur st = 0 -> Forall (fun n => 0 <= n) (b_laces st) -> short l -> 0 <= b_hread st < 2 ^ 56 -> me_size (b_meta st) < 2 ^ 64 ->
  code (b_validate cb simple false st nr (W l p t)) = kOkCompleted ->
  exists fs f l', l = concat (fs ++ [f]) ++ l' /\ map zlen fs = b_laces st /\ f <> [] /\
    me_size (b_meta st) = b_hread st + zlen (concat (fs ++ [f])).
Proof.
  intros st nr l p t C N S Hh Sz H. unfold short in S. unfold b_validate in H. cbv zeta in H.
  set (sum := wrap64 (fold_left Z.add (b_laces st) (b_hread st))) in *.
  assert (Sb : 0 <= sum < 2 ^ 64) by (unfold sum, wrap64; change 18446744073709551616 with (2 ^ 64); apply Z.mod_pos_bound; lia).
  destruct (Z.leb_spec (me_size (b_meta st)) sum) as [Le|Lt]; [discriminate H|].
  apply b_frames_step_inv in H.
  - destruct H as (frames & l' & -> & M). cbn [b_set_frame b_set_laces b_laces] in M.
    destruct (map_zlen_split frames _ _ M) as (fs & f & -> & E1 & E2).
    exists fs, f, l'. split; [reflexivity|]. split; [exact E1|].
    assert (Z1 : zlen (concat (fs ++ [f])) = zlen (concat fs) + zlen f).
    { rewrite concat_app, zlen_app. cbn [concat]. rewrite app_nil_r. reflexivity. }
    pose proof (concat_le (fs ++ [f]) l'). pose proof (zlen_nonneg _ f). pose proof (zlen_nonneg _ (concat fs)).
    assert (Es : sum = b_hread st + zlen (concat fs)).
    { unfold sum. rewrite fold_add, <- E1, sum_frames. unfold wrap64. change 18446744073709551616 with (2 ^ 64). apply Z.mod_small. lia. }
    split; [|lia]. intro; subst f. rewrite zlen_nil in E2. lia.
  - exact C.
  - cbn [b_set_frame b_set_laces b_laces]. apply Forall_app. split; [exact N|]. constructor; [lia | constructor].
Qed.

Lemma b_fixed_inv : forall st nr l p t,
  b_cur st = 0 -> 1 <= bv_frames (b_val st) ->
  code (b_fixed cb simple false st nr (W l p t)) = kOkCompleted ->
  exists frames n l', l = concat frames ++ l' /\ map zlen frames = repeat n (Z.to_nat (bv_frames (b_val st))) /\ 1 <= n /\
    me_size (b_meta st) = b_hread st + zlen (concat frames).
Proof.
  intros st nr l p t C F H. unfold b_fixed in H. cbv zeta in H.
  destruct (Z.leb_spec (me_size (b_meta st)) (b_hread st)) as [Le|Lt]; [discriminate H|].
  set (d := me_size (b_meta st) - b_hread st) in *. set (k := bv_frames (b_val st)) in *.
  destruct (Z.eqb_spec (d mod k) 0) as [Em|Em]; [|discriminate H]. cbn [negb] in H.
  pose proof (Z.div_mod d k ltac:(lia)) as DM.
  assert (Q : 1 <= d / k) by nia.
  apply b_frames_step_inv in H.
  - destruct H as (frames & l' & -> & M). cbn [b_set_frame b_set_laces b_laces] in M.
    exists frames, (d / k), l'. split; [reflexivity|]. split; [exact M|]. split; [exact Q|].
    assert (Cl : zlen (concat frames) = k * (d / k)).
    { rewrite <- sum_frames, M. replace k with (Z.of_nat (Z.to_nat k)) at 3 by lia. generalize (Z.to_nat k) as j. clear.
      induction j as [|j IH]; [cbn; lia|]. cbn [repeat fold_left]. rewrite fold_add, IH. lia. }
    lia.
  - exact C.
  - cbn [b_set_frame b_set_laces b_laces]. apply Forall_forall. intros y Y. apply repeat_spec in Y. lia.
Qed.

Lemma in_concat_le : forall (fs : list (list Z)) n, In n (map zlen fs) -> 0 <= n <= zlen (concat fs).
Proof.
  induction fs as [|f fs IH]; intros n H; [destruct H|]. cbn [map concat] in *. rewrite zlen_app.
  pose proof (zlen_nonneg _ f). pose proof (zlen_nonneg _ (concat fs)). destruct H as [<-|H]; [lia|]. apply IH in H. lia.
Qed.
Lemma wrap64_nonneg : forall x, 0 <= wrap64 x.
Proof. intro x. unfold wrap64. apply Z.mod_pos_bound. reflexivity. Qed.
Lemma last_In : forall (l : list Z) d, l <> [] -> In (last l d) l.
Proof.
  intros l d H. destruct l as [|x l _] using rev_ind; [congruence|]. rewrite last_last. apply in_or_app. right. left. reflexivity.
Qed.

Lemma b_ebml_inv : forall k st nr l p t, bytes l ->
  b_laces st <> [] -> Forall (fun n => 0 <= n) (b_laces st) -> b_up st = vi_new ->
  b_cur st = 0 -> short l -> 0 <= b_hread st -> b_hread st + zlen l < 2 ^ 56 -> me_size (b_meta st) < 2 ^ 64 ->
  code (b_ebml cb simple false k st nr (W l p t)) = kOkCompleted ->
  exists ns bs fs f l', length ns = k /\ delta_codes (last (b_laces st) 0) ns bs /\
    l = bs ++ concat (fs ++ [f]) ++ l' /\ map zlen fs = b_laces st ++ ns /\ f <> [] /\
    me_size (b_meta st) = b_hread st + zlen bs + zlen (concat (fs ++ [f])).
Proof.
  induction k as [|k IH]; intros st nr l p t B Ne N U C S H0 H1 Sz H.
  - cbn [b_ebml] in H. apply b_validate_inv in H; try assumption; [|pose proof (zlen_nonneg _ l); lia].
    destruct H as (fs & f & l' & -> & M & Nf & E). exists [], [], fs, f, l'. rewrite app_nil_r, zlen_nil, Z.add_0_r.
    repeat (split; [first [reflexivity | assumption | constructor]|]). exact E.
  - cbn [b_ebml] in H. rewrite U in H.
    destruct (VarIntParser_Feed vi_new (W l p t)) as [[[c n] u] w1] eqn:V.
    destruct (Z.eqb_spec c kOkCompleted) as [Ec|Ec]; [|exfalso; apply Ec; exact H]. subst c.
    destruct (VarInt_inv l p t B) as (w & x & l1 & Hw & Hx & ->); [rewrite V; reflexivity|].
    rewrite VarInt_full in V by assumption. injection V as <- <- <-. cbn [negb] in H.
    unfold encoded_length in H. cbn [vi_total vi_value] in H.
    replace ((w - 1 + 1) * 7 - 1) with (7 * w - 1) in H by lia.
    set (prev := last (b_laces st) 0) in *. set (o := 2 ^ (7 * w - 1)) in *. set (n := wrap64 (prev + x - (o - 1))) in *.
    unfold short in S. rewrite zlen_app, (vint_zlen_l w) in S, H1 by lia. apply bytes_app in B. destruct B as [_ B].
    apply IH in H; cbn [b_set_up b_set_laces b_add_hread b_laces b_up b_cur b_hread b_meta].
    + cbn [b_set_up b_set_laces b_add_hread b_laces b_up b_cur b_hread b_meta] in H. rewrite last_last in H.
      destruct H as (ns & bs & fs & f & l' & Lk & D & -> & M & Nf & E).
      rewrite <- app_assoc in M. cbn [app] in M.
      assert (Bn : 0 <= n < 2 ^ 56 /\ 0 <= prev < 2 ^ 56).
      { assert (T : zlen (concat fs) < 2 ^ 56).
        { rewrite !zlen_app in H1. rewrite concat_app, zlen_app in H1. pose proof (zlen_nonneg _ bs). pose proof (zlen_nonneg _ l').
          pose proof (zlen_nonneg _ (concat [f])). lia. }
        assert (In n (map zlen fs)) as I1 by (rewrite M; apply in_or_app; right; left; reflexivity).
        assert (In prev (map zlen fs)) as I2 by (rewrite M; apply in_or_app; left; apply last_In; exact Ne).
        apply in_concat_le in I1. apply in_concat_le in I2. lia. }
      assert (P1 : 2 ^ (7 * w) = 2 * o).
      { unfold o. rewrite <- Z.pow_succ_r by lia. f_equal. lia. }
      assert (P2 : o <= 2 ^ 55) by (unfold o; apply Z.pow_le_mono_r; lia).
      assert (En : n - prev = x - (o - 1)).
      { unfold n, wrap64 in *. change 18446744073709551616 with (2 ^ 64) in *.
        change (2 ^ 64) with (256 * 2 ^ 56) in *. change (2 ^ 56) with (2 * 2 ^ 55) in *.
        pose proof (Z.div_mod (prev + x - (o - 1)) (256 * (2 * 2 ^ 55)) ltac:(lia)).
        set (q := (prev + x - (o - 1)) / (256 * (2 * 2 ^ 55))) in *. clearbody q. clearbody o.
        assert (q = 0) by nia. subst q. lia. }
      exists (n :: ns), (delta_code w (n - prev) ++ bs), fs, f, l'. split; [cbn [length]; congruence|].
      assert (Ev : delta_code w (n - prev) = vint w x) by (unfold delta_code; f_equal; fold o; lia).
      split; [constructor; [split; [exact Hw|fold o; lia] | exact D]|].
      rewrite Ev. split; [rewrite <- !app_assoc; reflexivity|]. split; [exact M|]. split; [exact Nf|].
      rewrite zlen_app, (vint_zlen_l w) by lia. lia.
    + exact B.
    + intro Q. destruct (b_laces st); discriminate Q.
    + apply Forall_app. split; [exact N|]. constructor; [apply wrap64_nonneg | constructor].
    + reflexivity.
    + exact C.
    + unfold short. lia.
    + lia.
    + lia.
    + exact Sz.
Qed.

Lemma b_ebml_first_inv : forall st nr l p t, bytes l ->
  b_laces st = [] -> b_up st = vi_new -> 2 <= bv_frames (b_val st) ->
  b_cur st = 0 -> short l -> 0 <= b_hread st -> b_hread st + zlen l < 2 ^ 56 -> me_size (b_meta st) < 2 ^ 64 ->
  code (b_ebml_first cb simple false st nr (W l p t)) = kOkCompleted ->
  exists w n ns bs fs f l', 1 <= w <= 8 /\ 0 <= n < 2 ^ (7 * w) /\ zlen ns = bv_frames (b_val st) - 2 /\ delta_codes n ns bs /\
    l = (vint w n ++ bs) ++ concat (fs ++ [f]) ++ l' /\ map zlen fs = n :: ns /\ f <> [] /\
    me_size (b_meta st) = b_hread st + zlen (vint w n ++ bs) + zlen (concat (fs ++ [f])).
Proof.
  intros st nr l p t B L U F C S H0 H1 Sz H. unfold b_ebml_first in H. rewrite U in H.
  destruct (VarIntParser_Feed vi_new (W l p t)) as [[[c n] u] w1] eqn:V.
  destruct (Z.eqb_spec c kOkCompleted) as [Ec|Ec]; [|exfalso; apply Ec; exact H]. subst c.
  destruct (VarInt_inv l p t B) as (w & x & l1 & Hw & Hx & ->); [rewrite V; reflexivity|].
  rewrite VarInt_full in V by assumption. injection V as <- <- <-. cbn [negb] in H.
  unfold b_ebml_step in H. cbn [b_set_up b_set_laces b_add_hread b_laces b_val vi_value] in H. rewrite L in H. cbn [app length] in H.
  unfold short in S. rewrite zlen_app, (vint_zlen_l w) in S, H1 by lia. apply bytes_app in B. destruct B as [_ B].
  apply b_ebml_inv in H; cbn [b_set_up b_set_laces b_add_hread b_laces b_up b_cur b_hread b_meta].
  - cbn [b_set_up b_set_laces b_add_hread b_laces b_up b_cur b_hread b_meta last app] in H. 
    destruct H as (ns & bs & fs & f & l' & Lk & D & -> & M & Nf & E).
    exists w, x, ns, bs, fs, f, l'. split; [exact Hw|]. split; [exact Hx|]. split; [unfold zlen; lia|]. split; [exact D|].
    split; [rewrite <- !app_assoc; reflexivity|]. split; [exact M|]. split; [exact Nf|].
    rewrite (zlen_app _ (vint w x) bs), (vint_zlen_l w) by lia. lia.
  - exact B.
  - discriminate.
  - constructor; [lia | constructor].
  - reflexivity.
  - exact C.
  - unfold short. lia.
  - lia.
  - lia.
  - exact Sz.
Qed.

(* Xiph codes, x of the first size being already known *)
Definition xrest (x : Z) (ns bs : list Z) : Prop :=
  match ns with
  | [] => bs = []
  | n :: ns' => exists q r, n = x + 255 * Z.of_nat q + r /\ 0 <= r < 255 /\ bs = repeat 255 q ++ [r] ++ concat (map xiph_code ns')
  end.
Lemma xrest_0 : forall ns bs, xrest 0 ns bs -> bs = concat (map xiph_code ns).
Proof.
  intros [|n ns] bs H; [exact H|]. destruct H as (q & r & -> & Hr & ->). cbn [map concat]. unfold xiph_code at 2.
  replace ((0 + 255 * Z.of_nat q + r) / 255) with (Z.of_nat q).
  2:{ apply (Z.div_unique _ 255 _ r); lia. }
  replace ((0 + 255 * Z.of_nat q + r) mod 255) with r.
  2:{ apply (Z.mod_unique _ 255 (Z.of_nat q)); lia. }
  rewrite Nat2Z.id, <- app_assoc. reflexivity.
Qed.

Lemma b_xiph_inv : forall fuel st nr l p t, bytes l ->
  Forall (fun n => 0 <= n) (b_laces st) -> zlen (b_laces st) <= bv_frames (b_val st) - 1 ->
  0 <= b_xiph st -> b_xiph st + 255 * zlen l < 2 ^ 64 ->
  b_cur st = 0 -> short l -> 0 <= b_hread st -> b_hread st + zlen l < 2 ^ 56 -> me_size (b_meta st) < 2 ^ 64 ->
  code (b_xiph_loop cb simple false fuel st nr (W l p t)) = kOkCompleted ->
  exists ns bs fs f l', zlen (b_laces st) + zlen ns = bv_frames (b_val st) - 1 /\ xrest (b_xiph st) ns bs /\
    l = bs ++ concat (fs ++ [f]) ++ l' /\ map zlen fs = b_laces st ++ ns /\ f <> [] /\
    me_size (b_meta st) = b_hread st + zlen bs + zlen (concat (fs ++ [f])).
Proof.
  induction fuel as [|fuel IH]; intros st nr l p t B N Z0 X0 X1 C S H0 H1 Sz H;
    cbn [b_xiph_loop] in H; destruct (Z.leb_spec (bv_frames (b_val st) - 1) (zlen (b_laces st))) as [Le|Lt].
  - apply b_validate_inv in H; try assumption; [|pose proof (zlen_nonneg _ l); lia].
    destruct H as (fs & f & l' & -> & M & Nf & E). exists [], [], fs, f, l'. rewrite app_nil_r, zlen_nil, !Z.add_0_r.
    split; [lia|]. repeat (split; [first [reflexivity | assumption]|]). exact E.
  - discriminate H.
  - apply b_validate_inv in H; try assumption; [|pose proof (zlen_nonneg _ l); lia].
    destruct H as (fs & f & l' & -> & M & Nf & E). exists [], [], fs, f, l'. rewrite app_nil_r, zlen_nil, !Z.add_0_r.
    split; [lia|]. repeat (split; [first [reflexivity | assumption]|]). exact E.
  - destruct l as [|b l]; [discriminate H|]. rewrite ReadByte_full in H. cbn [negb Z.eqb kOkCompleted] in H. cbv zeta in H.
    inversion B as [|? ? Bb Bl]; subst. unfold is_byte in Bb. unfold short in S. rewrite zlen_cons in S, H1, X1.
    pose proof (zlen_nonneg _ l).
    assert (Ex : wrap64 (b_xiph st + b) = b_xiph st + b).
    { unfold wrap64. change 18446744073709551616 with (2 ^ 64). apply Z.mod_small. lia. }
    rewrite Ex in H. clear Ex. destruct (Z.eqb_spec b 255) as [E|E].
    + apply IH in H; cbn [b_set_xiph b_add_hread b_laces b_val b_xiph b_cur b_hread b_meta]; try assumption; try lia; [|unfold short; lia].
      cbn [b_set_xiph b_add_hread b_laces b_val b_xiph b_cur b_hread b_meta] in H.
      destruct H as (ns & bs & fs & f & l' & Lk & D & -> & M & Nf & Es).
      exists ns, (b :: bs), fs, f, l'. split; [exact Lk|].
      split. { destruct ns as [|n ns]; [rewrite zlen_nil in Lk; lia|].
        destruct D as (q & r & -> & Hr & ->). exists (Datatypes.S q), r. split; [lia|]. split; [exact Hr|]. subst b. reflexivity. }
      split; [reflexivity|]. split; [exact M|]. split; [exact Nf|]. rewrite zlen_cons. lia.
    + apply IH in H; cbn [b_set_xiph b_set_laces b_add_hread b_laces b_val b_xiph b_cur b_hread b_meta].
      * cbn [b_set_xiph b_set_laces b_add_hread b_laces b_val b_xiph b_cur b_hread b_meta] in H.
        destruct H as (ns & bs & fs & f & l' & Lk & D & -> & M & Nf & Es). apply xrest_0 in D. subst bs.
        exists ((b_xiph st + b) :: ns), (b :: concat (map xiph_code ns)), fs, f, l'.
        rewrite zlen_app, zlen_cons, zlen_nil in Lk. rewrite <- app_assoc in M.
        split; [rewrite zlen_cons; lia|]. split; [exists O, b; split; [lia|]; split; [lia | reflexivity]|].
        split; [reflexivity|]. split; [exact M|]. split; [exact Nf|]. rewrite zlen_cons. lia.
      * exact Bl.
      * apply Forall_app. split; [exact N|]. constructor; [lia | constructor].
      * rewrite zlen_app, zlen_cons, zlen_nil. lia.
      * lia.
      * lia.
      * exact C.
      * unfold short. lia.
      * lia.
      * lia.
      * exact Sz.
Qed.

Lemma b_action_inv : forall lac st nr l p t, bytes l ->
  bv_lacing (b_val st) = 2 * lacing_bits lac -> 1 <= bv_frames (b_val st) <= 256 -> (lac = LNone -> bv_frames (b_val st) = 1) ->
  b_laces st = [] -> b_xiph st = 0 -> b_up st = vi_new -> b_cur st = 0 ->
  short l -> 0 <= b_hread st -> b_hread st + zlen l < 2 ^ 56 -> me_size (b_meta st) < 2 ^ 64 ->
  code (b_action cb simple false st nr (W l p t)) = kOkCompleted ->
  exists rest frames l', lace_rest lac (map zlen frames) rest /\ last frames [] <> [] /\ zlen frames = bv_frames (b_val st) /\
    l = rest ++ concat frames ++ l' /\ me_size (b_meta st) = b_hread st + zlen rest + zlen (concat frames).
Proof.
  intros lac st nr l p t B Lc Fr Fn La Xi Up Cu S H0 H1 Sz H. pose proof (zlen_nonneg _ l) as Zl.
  unfold b_action in H. rewrite notify_all in H. cbn [negb Z.eqb kOkCompleted] in H.
  destruct ((bv_lacing (b_val st) =? 0) || (bv_frames (b_val st) =? 1)) eqn:One.
  - assert (F1 : bv_frames (b_val st) = 1).
    { apply orb_true_iff in One. destruct One as [E|E]; [|lia]. apply Fn. destruct lac; cbn [lacing_bits] in Lc; [reflexivity|lia..]. }
    apply b_validate_inv in H; try assumption; [|rewrite La; constructor|lia].
    destruct H as (fs & f & l' & -> & M & Nf & E). rewrite La in M. apply map_eq_nil in M. subst fs. cbn [app] in *.
    exists [], [f], l'. split; [|split; [exact Nf|split; [rewrite F1; reflexivity|split; [reflexivity|rewrite zlen_nil; lia]]]].
    cbn [map]. destruct lac.
    + constructor.
    + apply (lr_xiph [] (zlen f)). rewrite zlen_nil. lia.
    + apply (lr_fixed (zlen f) 1). lia.
    + constructor.
  - apply orb_false_iff in One. destruct One as [O1 O2]. destruct lac; rewrite Lc in H, O1; cbn [lacing_bits] in H, O1; [discriminate O1|..].
    + (* Xiph *)
      change (2 * 1 =? 2) with true in H. cbv iota in H. unfold b_xiph_step in H.
      apply b_xiph_inv in H; rewrite ?La, ?Xi; try assumption; rewrite ?zlen_nil; try lia; try (apply Forall_nil); try (unfold short in S; lia).
      rewrite La, Xi, zlen_nil in H. destruct H as (ns & bs & fs & f & l' & Lk & D & -> & M & Nf & Es). apply xrest_0 in D. subst bs.
      exists (concat (map xiph_code ns)), (fs ++ [f]), l'. rewrite map_app, last_last. cbn [app] in M. cbn [map]. rewrite M.
      split; [constructor; lia|]. split; [exact Nf|].
      split; [rewrite zlen_app, zlen_cons, zlen_nil, <- (zlen_map _ _ zlen fs), M; lia|]. split; [reflexivity|exact Es].
    + (* fixed *)
      change (2 * 2 =? 2) with false in H. change (2 * 2 =? 6) with false in H. cbv iota in H.
      apply b_fixed_inv in H; [|assumption|lia]. destruct H as (frames & n & l' & -> & M & Hn & E).
      exists [], frames, l'. rewrite M. split; [constructor; lia|].
      assert (Zf : zlen frames = bv_frames (b_val st)) by (rewrite <- (zlen_map _ _ zlen), M, zlen_repeat; lia).
      split; [|split; [exact Zf|split; [reflexivity|rewrite zlen_nil; lia]]].
      destruct frames as [|f fs _] using rev_ind; [rewrite zlen_nil in Zf; lia|]. rewrite last_last. intro; subst f.
      assert (In 0 (map zlen (fs ++ [[]]))) as I by (rewrite map_app; apply in_or_app; right; left; reflexivity).
      rewrite M in I. apply repeat_spec in I. lia.
    + (* EBML *)
      change (2 * 3 =? 2) with false in H. change (2 * 3 =? 6) with true in H. cbv iota in H.
      apply b_ebml_first_inv in H; try assumption; try lia.
      destruct H as (w & n & ns & bs & fs & f & l' & Hw & Hn & Lk & D & -> & M & Nf & Es).
      exists (vint w n ++ bs), (fs ++ [f]), l'. rewrite map_app, last_last, M. cbn [map app].
      split; [constructor; [assumption..|lia|assumption]|]. split; [exact Nf|].
      split; [rewrite zlen_app, zlen_cons, zlen_nil, <- (zlen_map _ _ zlen fs), M, zlen_cons; lia|]. split; [rewrite <- !app_assoc; reflexivity|exact Es].
Qed.

Lemma lace_rest_head : forall lac sizes rest, lac <> LNone -> lace_rest lac sizes rest -> lace_head lac sizes ((zlen sizes - 1) :: rest).
Proof.
  intros lac sizes rest N H. destruct H as [n|ns n Hns|n k Hk|n|n ns m w bs Hw Hn Hns D]; [congruence|..].
  - replace (zlen (ns ++ [n]) - 1) with (zlen ns) by (rewrite zlen_app, zlen_cons, zlen_nil; lia). constructor; assumption.
  - rewrite zlen_repeat. constructor. assumption.
  - apply lh_ebml1.
  - replace (zlen (n :: ns ++ [m]) - 1) with (zlen ns + 1) by (rewrite zlen_cons, zlen_app, zlen_cons, zlen_nil; lia). constructor; assumption.
Qed.

Lemma block_inv : forall m st0 l p t, bytes l -> short l -> me_size m < 2 ^ 64 ->
  BlockParser_Init m = (kOkCompleted, st0) ->
  code (BlockParser_Feed cb simple false st0 (W l p t)) = kOkCompleted ->
  exists track time flags lac frames bs l', accepted_content track time flags lac frames bs /\ l = bs ++ l' /\ me_size m = zlen bs.
Proof.
  intros m st0 l p t B S Sz I H. unfold BlockParser_Init in I.
  destruct ((me_size m =? kUnknownElementSize) || (me_size m <? 5)); [discriminate I|]. injection I as <-.
  unfold BlockParser_Feed in H. cbn [b_state] in H. unfold b_header in H. cbn [b_hp] in H.
  destruct (BlockHeaderParser_Feed h_new (W l p t)) as [[[c n] h] w1] eqn:Hd.
  destruct (Z.eqb_spec c kOkCompleted) as [Ec|Ec]; [|exfalso; apply Ec; exact H]. subst c.
  destruct (Header_inv l p t B) as (w & track & time & flags & l1 & Hw & Ht & Hm & Hf & ->); [rewrite Hd; reflexivity|].
  destruct (Header_full w track time flags l1 p t Hw Ht Hm) as (u & Eu). rewrite Eu in Hd. injection Hd as <- <- <-.
  cbn [negb h_flags h_track h_time] in H. destruct (flag_bits flags Hf) as (F1 & F2 & F3 & F4). rewrite F1 in H.
  apply bytes_app in B. destruct B as [_ B]. apply bytes_app in B. destruct B as [_ B]. apply bytes_app in B. destruct B as [_ B].
  unfold short in S. rewrite !zlen_app, (vint_zlen_l w), be_bytes_zlen, zlen_cons, zlen_nil in S by lia.
  pose proof (zlen_nonneg _ l1).
  assert (LB : exists lac, (flags / 2) mod 4 = lacing_bits lac).
  { pose proof (Z.mod_pos_bound (flags / 2) 4 ltac:(lia)).
    assert (K : (flags / 2) mod 4 = 0 \/ (flags / 2) mod 4 = 1 \/ (flags / 2) mod 4 = 2 \/ (flags / 2) mod 4 = 3) by lia.
    destruct K as [->|[->|[->| ->]]]; [exists LNone | exists LXiph | exists LFixed | exists LEbml]; reflexivity. }
  destruct LB as (lac & LB). rewrite LB in H.
  destruct (Z.eqb_spec (2 * lacing_bits lac) 0) as [L0|L1].
  - assert (lac = LNone) by (destruct lac; cbn in L0; congruence). subst lac.
    apply (b_action_inv LNone) in H; cbn [b_set_val b_set_hp b_add_hread b_val b_laces b_xiph b_up b_cur b_hread b_meta bv_lacing bv_frames];
      try reflexivity; try assumption; try lia; [|unfold short; lia].
    cbn [b_set_val b_set_hp b_add_hread b_val b_laces b_xiph b_up b_cur b_hread b_meta bv_lacing bv_frames] in H.
    destruct H as (rest & frames & l' & R & Ne & Zf & -> & Es).
    assert (rest = []) by (inversion R; reflexivity). subst rest. cbn [app] in *.
    exists track, time, flags, LNone, frames, (vint w track ++ be_bytes 2 time ++ [flags] ++ [] ++ concat frames), l'.
    split; [|split; [rewrite <- !app_assoc; reflexivity|]].
    + exists w, []. do 6 (split; [assumption|]). split; [|reflexivity]. inversion R. constructor.
    + rewrite !zlen_app, (vint_zlen_l w), be_bytes_zlen, zlen_cons, zlen_nil in * by lia. lia.
  - assert (NL : lac <> LNone) by (intro; subst; apply L1; reflexivity).
    unfold b_lace_count in H. destruct l1 as [|k l1]; [discriminate H|]. rewrite ReadByte_full in H. cbn [negb Z.eqb kOkCompleted] in H.
    inversion B as [|? ? Bk Bl]; subst. unfold is_byte in Bk. rewrite zlen_cons in S. pose proof (zlen_nonneg _ l1).
    apply (b_action_inv lac) in H; cbn [b_set_val b_set_hp b_add_hread b_val b_laces b_xiph b_up b_cur b_hread b_meta bv_lacing bv_frames];
      try reflexivity; try assumption; try lia; [|congruence|unfold short; lia].
    cbn [b_set_val b_set_hp b_add_hread b_val b_laces b_xiph b_up b_cur b_hread b_meta bv_lacing bv_frames] in H.
    destruct H as (rest & frames & l' & R & Ne & Zf & -> & Es).
    exists track, time, flags, lac, frames, (vint w track ++ be_bytes 2 time ++ [flags] ++ (k :: rest) ++ concat frames), l'.
    split; [|split; [rewrite <- !app_assoc; reflexivity|]].
    + exists w, (k :: rest). do 6 (split; [assumption|]). split; [|reflexivity].
      replace k with (zlen (map zlen frames) - 1) by (rewrite zlen_map; lia). apply lace_rest_head; assumption.
    + rewrite !zlen_app, (vint_zlen_l w), be_bytes_zlen, !zlen_cons, zlen_nil in * by lia. lia.
Qed.
End inv.
