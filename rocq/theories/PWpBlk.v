(* Proofs about the callback parser: blocks are split as specified. *)
From Coq Require Import ZifyBool ZifyNat.
From Verif Require Import Base EbmlSpec LacingSpec WpSpec WpBlockSpec WpDocSpec MWp MWpBlock MWpTree PParUtil PWpRead PWpLeaf.

Local Notation W l p t := (mk_world l p [] t).

Section skip.
Variable skip : meta -> bool.
(* whether a notification is answered with "skip" *)
Definition skips (e : event) : bool := match e with EElement m => skip m | _ => false end.
(* the trace after some notifications to a callback that answers "completed" *)
Definition lg (evs : list event) (t : list entry) : list entry := map (fun e => (e, (0, skips e))) (rev evs) ++ t.
Lemma lg_nil : forall t, lg [] t = t.
Proof. reflexivity. Qed.
Lemma lg_app : forall a b t, lg (a ++ b) t = lg b (lg a t).
Proof. intros. unfold lg. rewrite rev_app_distr, map_app, <- app_assoc. reflexivity. Qed.
Lemma lg_cons : forall e b t, lg (e :: b) t = lg b (lg [e] t).
Proof. intros. rewrite <- lg_app. reflexivity. Qed.

Lemma notify_all : forall e l p t, notify (skipping skip) false e (W l p t) = (kOkCompleted, skips e, W l p (lg [e] t)).
Proof. reflexivity. Qed.
Lemma log_bytes_lg : forall d bs l p t, log_bytes d bs (W l p t) = W l p (lg (map (EData d) bs) t).
Proof.
  unfold log_bytes. induction bs as [|b bs IH]; intros l p t; [reflexivity|]. cbn [fold_left map].
  rewrite (lg_cons (EData d b)). rewrite <- IH. reflexivity.
Qed.
Lemma on_data_full : forall d bs l p t,
  on_data (skipping skip) false d (zlen bs) (W (bs ++ l) p t)
  = (kOkCompleted, 0, W l (p + zlen bs) (lg (data_events d bs) t)).
Proof.
  intros d bs l p t. unfold on_data, data_events. rewrite lg_app.
  destruct (Z.eqb_spec (zlen bs) 0) as [Z0|NZ].
  - pose proof (zlen_zero _ Z0). subst bs. cbn [app map]. rewrite zlen_nil, Z.add_0_r. reflexivity.
  - rewrite take_all_full by (intro Q; subst; apply NZ, zlen_nil). rewrite log_bytes_lg. cbn [negb Z.eqb kOkCompleted].
    rewrite notify_all, Z.sub_diag. reflexivity.
Qed.

Lemma Header_full : forall w track time flags l p t, 1 <= w <= 8 -> 0 <= track < 2 ^ (7 * w) -> -32768 <= time < 32768 ->
  exists u, BlockHeaderParser_Feed h_new (W (vint w track ++ be_bytes 2 time ++ [flags] ++ l) p t)
  = (kOkCompleted, w + 3, mk_hst HDone u 0 track time flags, W l (p + (w + 3)) t).
Proof.
  intros w track time flags l p t Hw Ht Hm. unfold BlockHeaderParser_Feed. cbn [h_state h_new]. unfold h_track_step.
  cbn [h_uint h_new]. rewrite VarInt_full by assumption. cbn [negb Z.eqb kOkCompleted vi_value].
  unfold h_time_step. cbn [h_rem h_time].
  rewrite Accumulate_full' by reflexivity. cbn [negb Z.eqb kOkCompleted]. rewrite be_bytes_zlen.
  change (0 + Z.of_nat 2) with 2. cbn [h_uint h_rem h_track h_flags].
  unfold h_flags_step. cbn [app]. rewrite ReadByte_full. cbn [negb Z.eqb kOkCompleted h_uint h_rem h_track h_time h_flags].
  eexists. replace (fold_left (acc_step true 16) (be_bytes 2 time) (h_time h_new)) with time.
  2:{ change (h_time h_new) with 0. rewrite <- (wraps_0 16) by lia. rewrite acc_signed by lia.
      rewrite be_val_be_bytes. rewrite Z.mul_0_l, Z.add_0_l. unfold wraps. cbv zeta.
      change (2 ^ (8 * Z.of_nat 2)) with 65536. change (2 ^ 16) with 65536. change (2 ^ (16 - 1)) with 32768.
      rewrite Z.mod_mod by lia. destruct (Z_lt_le_dec time 0).
      - replace (time mod 65536) with (time + 65536).
        2:{ apply (Z.mod_unique time 65536 (-1) (time + 65536)); lia. }
        replace (time + 65536 <? 32768) with false by lia. lia.
      - rewrite Z.mod_small by lia. replace (time <? 32768) with true by lia. reflexivity. }
  change (Z.of_nat 2) with 2. rewrite Z.sub_diag. f_equal; [f_equal; f_equal; lia|]. f_equal. lia.
Qed.

(* ---------- frames ---------- *)
Lemma set_nth_app : forall done x r y, set_nth (length done) y (done ++ x :: r) = done ++ y :: r.
Proof. induction done as [|a done IH]; intros x r y; [reflexivity|]. cbn [length app set_nth]. rewrite IH. reflexivity. Qed.
Lemma nth_mid : forall done (x : Z) r d, nth (length done) (done ++ x :: r) d = x.
Proof. intros. rewrite app_nth2, Nat.sub_diag by lia. reflexivity. Qed.
Lemma nth_mid_S : forall done (x y : Z) r d, nth (S (length done)) (done ++ x :: y :: r) d = y.
Proof. intros. rewrite app_nth2 by lia. replace (S (length done) - length done)%nat with 1%nat by lia. reflexivity. Qed.

Section blk.
Variable simple : bool.
Definition kd : bkind := if simple then KSimpleBlock else KBlock.
Notation cb := (skipping skip).

Lemma b_frames_full : forall frames st done nr l p t pos,
  b_laces st = done ++ map zlen frames -> b_cur st = zlen done ->
  (frames <> [] -> b_fpos st = pos /\ b_fsize st = zlen (hd [] frames)) ->
  0 <= pos -> pos + zlen (concat frames) < 2 ^ 64 ->
  exists st', b_frames cb simple false (length frames) st nr (W (concat frames ++ l) p t)
    = (kOkCompleted, nr + zlen (concat frames), st',
       W l (p + zlen (concat frames))
         (lg (frame_events (b_meta st) pos frames ++ [EEnd kd (b_meta st) (VBlock (b_val st))]) t))
    /\ b_state st' = BDone /\ b_val st' = b_val st.
Proof.
  induction frames as [|f frames IH]; intros st done nr l p t pos L C F P B.
  - cbn [length b_frames concat frame_events app]. unfold b_done.
    change (b_kind simple) with kd. cbn [b_set_state b_meta b_val]. rewrite notify_all.
    eexists. rewrite zlen_nil, !Z.add_0_r. split; [reflexivity|]. split; reflexivity.
  - cbn [length b_frames concat]. cbn [concat] in B. rewrite zlen_app in B |- *. cbn [frame_events].
    destruct (F ltac:(discriminate)) as [F1 F2]. cbn [hd] in F2.
    assert (I : Z.to_nat (b_cur st) = length done) by (rewrite C; unfold zlen; lia).
    rewrite I, L. cbn [map]. rewrite nth_mid. rewrite <- !app_assoc. rewrite on_data_full. cbn [negb Z.eqb kOkCompleted].
    rewrite set_nth_app. rewrite Z.sub_0_r. cbn [b_set_laces b_cur b_laces b_fpos b_fsize].
    pose proof (zlen_nonneg _ f). pose proof (zlen_nonneg _ (concat frames)).
    set (st1 := b_set_laces (done ++ 0 :: map zlen frames) st).
    set (st2 := if b_cur st + 1 <? zlen (done ++ 0 :: map zlen frames) then _ else st1).
    assert (Q2 : b_laces st2 = (done ++ [0]) ++ map zlen frames /\ b_cur st2 = zlen done /\
                 (frames <> [] -> b_fpos st2 = pos + zlen f /\ b_fsize st2 = zlen (hd [] frames)) /\
                 b_meta st2 = b_meta st /\ b_val st2 = b_val st).
    { rewrite <- app_assoc. unfold st2. rewrite zlen_app, zlen_cons, C.
      destruct frames as [|g gs].
      - cbn [map]. rewrite zlen_nil. replace (zlen done + 1 <? zlen done + (1 + 0)) with false by lia.
        unfold st1. cbn [b_set_laces b_laces b_cur b_fpos b_fsize b_meta b_val].
        split; [reflexivity|]. split; [assumption|]. split; [congruence|]. auto.
      - cbn [map]. rewrite zlen_cons. pose proof (zlen_nonneg _ (map zlen gs)).
        replace (zlen done + 1 <? zlen done + (1 + (1 + zlen (map zlen gs)))) with true by lia.
        unfold st1. cbn [b_set_laces b_set_frame b_laces b_cur b_fpos b_fsize b_meta b_val hd].
        split; [reflexivity|]. split; [assumption|]. split; [|auto]. intros _. split.
        + rewrite F1, F2. unfold wrap64. apply Z.mod_small. change 18446744073709551616 with (2 ^ 64). lia.
        + apply nth_mid_S. }
    clearbody st2. clear st1. destruct Q2 as (Q1 & Q2 & Q3 & Q4 & Q5).
    destruct (IH (b_set_cur (b_cur st2 + 1) st2) (done ++ [0]) (nr + zlen f) l (p + zlen f)
                (lg (data_events (DFrame (b_meta st) (b_fpos st) (b_fsize st)) f) t) (pos + zlen f)) as (st' & E & S1 & S2).
    + cbn [b_set_cur b_laces]. exact Q1.
    + cbn [b_set_cur b_cur]. rewrite zlen_app, zlen_cons, zlen_nil. lia.
    + cbn [b_set_cur b_fpos b_fsize]. exact Q3.
    + lia.
    + lia.
    + cbn [b_set_cur b_meta b_val] in E, S2. exists st'. rewrite E, F1, F2, Q4, Q5.
      split; [|split; [exact S1|congruence]]. rewrite <- lg_app.
      f_equal; [f_equal; f_equal; lia|]. f_equal. lia.
Qed.

Lemma b_frames_step_full : forall frames st nr l p t pos,
  b_laces st = map zlen frames -> b_cur st = 0 -> frames <> [] ->
  b_fpos st = pos -> b_fsize st = zlen (hd [] frames) ->
  0 <= pos -> pos + zlen (concat frames) < 2 ^ 64 ->
  exists st', b_frames_step cb simple false st nr (W (concat frames ++ l) p t)
    = (kOkCompleted, nr + zlen (concat frames), st',
       W l (p + zlen (concat frames))
         (lg (frame_events (b_meta st) pos frames ++ [EEnd kd (b_meta st) (VBlock (b_val st))]) t))
    /\ b_state st' = BDone /\ b_val st' = b_val st.
Proof.
  intros frames st nr l p t pos L C N F1 F2 P B. unfold b_frames_step. rewrite L, C, map_length.
  change (Z.to_nat 0) with O. rewrite Nat.sub_0_r.
  apply (b_frames_full frames (b_set_state BFrames st) [] nr l p t pos); auto.
Qed.

Lemma fold_add : forall l a, fold_left Z.add l a = a + fold_left Z.add l 0.
Proof.
  induction l as [|x l IH]; intro a; cbn [fold_left]; [lia|]. rewrite (IH (a + x)), (IH (0 + x)). lia.
Qed.
Lemma sum_frames : forall (fs : list (list Z)), fold_left Z.add (map zlen fs) 0 = zlen (concat fs).
Proof.
  induction fs as [|f fs IH]; [reflexivity|]. cbn [map fold_left concat]. rewrite fold_add, IH, zlen_app. lia.
Qed.

(* all sizes but the last one are known *)
Lemma b_validate_full : forall fs f st nr l p t,
  b_laces st = map zlen fs -> b_cur st = 0 -> f <> [] ->
  me_size (b_meta st) = b_hread st + zlen (concat (fs ++ [f])) -> 0 <= b_hread st ->
  0 <= me_pos (b_meta st) -> 0 <= me_hsize (b_meta st) ->
  me_pos (b_meta st) + me_hsize (b_meta st) + me_size (b_meta st) < 2 ^ 64 ->
  exists st', b_validate cb simple false st nr (W (concat (fs ++ [f]) ++ l) p t)
    = (kOkCompleted, nr + zlen (concat (fs ++ [f])), st',
       W l (p + zlen (concat (fs ++ [f])))
         (lg (frame_events (b_meta st) (me_pos (b_meta st) + me_hsize (b_meta st) + b_hread st) (fs ++ [f])
              ++ [EEnd kd (b_meta st) (VBlock (b_val st))]) t))
    /\ b_state st' = BDone /\ b_val st' = b_val st.
Proof.
  intros fs f st nr l p t L C N S H P1 P2 B. unfold b_validate. rewrite L, fold_add, sum_frames.
  assert (Z1 : zlen (concat (fs ++ [f])) = zlen (concat fs) + zlen f).
  { rewrite concat_app, zlen_app. cbn [concat]. rewrite app_nil_r. reflexivity. }
  pose proof (zlen_pos _ N). pose proof (zlen_nonneg _ (concat fs)). rewrite Z1 in S.
  assert (E : wrap64 (b_hread st + zlen (concat fs)) = b_hread st + zlen (concat fs)).
  { unfold wrap64. change 18446744073709551616 with (2 ^ 64). apply Z.mod_small. lia. }
  rewrite E. cbv zeta. replace (me_size (b_meta st) <=? b_hread st + zlen (concat fs)) with false by lia.
  replace (map zlen fs ++ [me_size (b_meta st) - (b_hread st + zlen (concat fs))]) with (map zlen (fs ++ [f])).
  2:{ rewrite map_app. cbn [map]. do 2 f_equal. lia. }
  match goal with |- context[b_frames_step cb simple false ?s _ _] =>
    refine (b_frames_step_full (fs ++ [f]) s nr l p t (me_pos (b_meta st) + me_hsize (b_meta st) + b_hread st) _ _ _ _ _ _ _) end;
    cbn [b_set_frame b_set_laces b_laces b_cur b_fpos b_fsize b_meta b_val].
  - reflexivity.
  - exact C.
  - intro Q. destruct fs; discriminate Q.
  - unfold wrap64. change 18446744073709551616 with (2 ^ 64). apply Z.mod_small. lia.
  - destruct fs as [|g fs]; reflexivity.
  - lia.
  - lia.
Qed.

Lemma zlen_repeat : forall A (x : A) k, zlen (repeat x k) = Z.of_nat k.
Proof. intros. unfold zlen. rewrite repeat_length. reflexivity. Qed.

(* Xiph: one code *)
Lemma b_xiph_code : forall q r st nr l p t fuel, 0 <= r < 255 ->
  zlen (b_laces st) < bv_frames (b_val st) - 1 -> 0 <= b_xiph st -> b_xiph st + 255 * Z.of_nat q + r < 2 ^ 64 ->
  b_xiph_loop cb simple false (S (q + fuel)) st nr (W ((repeat 255 q ++ [r]) ++ l) p t)
  = b_xiph_loop cb simple false fuel
      (b_set_xiph 0 (b_set_laces (b_laces st ++ [b_xiph st + 255 * Z.of_nat q + r]) (b_add_hread (Z.of_nat q + 1) st)))
      (nr + (Z.of_nat q + 1)) (W l (p + (Z.of_nat q + 1)) t).
Proof.
  induction q as [|q IH]; intros r st nr l p t fuel R L X B; change 18446744073709551616 with (2 ^ 64) in *.
  - cbn [Nat.add b_xiph_loop]. replace (bv_frames (b_val st) - 1 <=? zlen (b_laces st)) with false by lia.
    cbn [repeat app]. rewrite ReadByte_full. cbn [negb Z.eqb kOkCompleted]. cbv zeta.
    replace (r =? 255) with false by lia.
    replace (wrap64 (b_xiph st + r)) with (b_xiph st + 255 * Z.of_nat 0 + r).
    2:{ symmetry. unfold wrap64. change 18446744073709551616 with (2 ^ 64). rewrite Z.mod_small; lia. }
    reflexivity.
  - change (S (S q + fuel)) with (S (S (q + fuel))).
    remember (S (q + fuel)) as fl eqn:Efl. cbn [b_xiph_loop].
    replace (bv_frames (b_val st) - 1 <=? zlen (b_laces st)) with false by lia.
    cbn [repeat app]. rewrite ReadByte_full. cbn [negb Z.eqb kOkCompleted]. cbv zeta. cbn [Z.eqb Pos.eqb].
    replace (wrap64 (b_xiph st + 255)) with (b_xiph st + 255).
    2:{ symmetry. unfold wrap64. change 18446744073709551616 with (2 ^ 64). rewrite Z.mod_small; lia. }
    rewrite Efl. change (repeat 255 q ++ ?x :: l) with (repeat 255 q ++ x :: l).
    replace (repeat 255 q ++ r :: l) with ((repeat 255 q ++ [r]) ++ l) by (rewrite <- app_assoc; reflexivity).
    rewrite IH; cbn [b_set_xiph b_add_hread b_laces b_val b_xiph]; try lia.
    unfold b_set_xiph, b_set_laces, b_add_hread.
    cbn [b_state b_hread b_val b_meta b_fpos b_fsize b_hp b_up b_xiph b_laces b_cur].
    replace (b_hread st + 1 + (Z.of_nat q + 1)) with (b_hread st + (Z.of_nat (S q) + 1)) by lia.
    replace (b_xiph st + 255 + 255 * Z.of_nat q + r) with (b_xiph st + 255 * Z.of_nat (S q) + r) by lia.
    replace (nr + 1 + (Z.of_nat q + 1)) with (nr + (Z.of_nat (S q) + 1)) by lia.
    replace (p + 1 + (Z.of_nat q + 1)) with (p + (Z.of_nat (S q) + 1)) by lia. reflexivity.
Qed.

(* st' is st with the sizes ls added and n more header bytes read *)
Definition went (n : Z) (ls : list Z) (st st' : bst) : Prop :=
  b_laces st' = b_laces st ++ ls /\ b_hread st' = b_hread st + n /\ b_meta st' = b_meta st /\
  b_val st' = b_val st /\ b_cur st' = b_cur st.

Lemma b_xiph_all : forall ns st nr l p t fuel,
  Forall (fun n => 0 <= n < 2 ^ 63) ns -> b_xiph st = 0 ->
  bv_frames (b_val st) - 1 = zlen (b_laces st) + zlen ns ->
  (length (concat (map xiph_code ns)) <= fuel)%nat ->
  exists st', b_xiph_loop cb simple false fuel st nr (W (concat (map xiph_code ns) ++ l) p t)
    = b_validate cb simple false st' (nr + zlen (concat (map xiph_code ns))) (W l (p + zlen (concat (map xiph_code ns))) t)
    /\ went (zlen (concat (map xiph_code ns))) ns st st'.
Proof.
  induction ns as [|n ns IH]; intros st nr l p t fuel B X C F.
  - exists st. cbn [map concat app]. rewrite zlen_nil in *. rewrite !Z.add_0_r. split.
    + destruct fuel; cbn [b_xiph_loop]; replace (bv_frames (b_val st) - 1 <=? zlen (b_laces st)) with true by lia; reflexivity.
    + unfold went. rewrite app_nil_r, Z.add_0_r. auto.
  - inversion B as [|? ? Bn Bns]; subst. cbn [map concat]. rewrite <- app_assoc. unfold xiph_code at 1.
    cbn [map concat] in F. rewrite app_length in F.
    assert (Lc : length (xiph_code n) = S (Z.to_nat (n / 255))).
    { unfold xiph_code. rewrite app_length, repeat_length. cbn [length]. lia. }
    rewrite Lc in F.
    replace fuel with (S (Z.to_nat (n / 255) + (fuel - S (Z.to_nat (n / 255))))) by lia.
    pose proof (Z.mod_pos_bound n 255 ltac:(lia)) as M. pose proof (Z.div_pos n 255 ltac:(lia) ltac:(lia)) as D.
    pose proof (Z.div_mod n 255 ltac:(lia)) as DM.
    rewrite zlen_cons in C. pose proof (zlen_nonneg _ ns).
    assert (PP : 2 ^ 63 < 2 ^ 64) by reflexivity.
    rewrite b_xiph_code; [|assumption|lia|lia|rewrite X, Z2Nat.id by lia; lia].
    assert (Zn : b_xiph st + 255 * Z.of_nat (Z.to_nat (n / 255)) + n mod 255 = n) by (rewrite Z2Nat.id by lia; lia).
    rewrite Zn.
    match goal with |- context[b_xiph_loop cb simple false ?f ?s ?r (W _ ?q t)] =>
      destruct (IH s r l q t f Bns eq_refl) as (st' & E & G) end.
    { cbn [b_set_xiph b_set_laces b_add_hread b_val b_laces]. rewrite zlen_app, zlen_cons, zlen_nil. lia. }
    { lia. }
    exists st'. rewrite E. assert (Lz : zlen (xiph_code n) = Z.of_nat (Z.to_nat (n / 255)) + 1) by (unfold zlen; lia).
    rewrite zlen_app, Lz.
    split.
    + f_equal; [lia|]. f_equal. lia.
    + destruct G as (G1 & G2 & G3 & G4 & G5).
      cbn [b_set_xiph b_set_laces b_add_hread b_val b_laces b_hread b_meta b_cur] in *.
      unfold went. rewrite G1, <- app_assoc. repeat split; try assumption. rewrite G2. lia.
Qed.

Lemma b_xiph_full : forall ns st nr l p t,
  Forall (fun n => 0 <= n < 2 ^ 63) ns -> b_xiph st = 0 ->
  bv_frames (b_val st) - 1 = zlen (b_laces st) + zlen ns ->
  exists st', b_xiph_step cb simple false st nr (W (concat (map xiph_code ns) ++ l) p t)
    = b_validate cb simple false st' (nr + zlen (concat (map xiph_code ns))) (W l (p + zlen (concat (map xiph_code ns))) t)
    /\ went (zlen (concat (map xiph_code ns))) ns st st'.
Proof.
  intros. unfold b_xiph_step. cbn [w_data]. apply b_xiph_all; auto. rewrite app_length. lia.
Qed.

(* EBML: the differences *)
Lemma b_ebml_all : forall ns prev bs st nr l p t, delta_codes prev ns bs ->
  last (b_laces st) 0 = prev -> b_laces st <> [] -> Forall (fun n => 0 <= n < 2 ^ 63) ns -> b_up st = vi_new ->
  exists st', b_ebml cb simple false (length ns) st nr (W (bs ++ l) p t)
    = b_validate cb simple false st' (nr + zlen bs) (W l (p + zlen bs) t) /\ went (zlen bs) ns st st'.
Proof.
  intros ns prev bs st nr l p t D. revert st nr l p t.
  induction D as [prev|prev n ns w bs DF D IH]; intros st nr l p t L N B U.
  - exists st. cbn [length b_ebml app]. rewrite zlen_nil, !Z.add_0_r. split; [reflexivity|].
    unfold went. rewrite app_nil_r, Z.add_0_r. auto.
  - destruct DF as (Hw & Hd). inversion B as [|? ? Bn Bns]; subst.
    cbn [length b_ebml]. rewrite U, <- app_assoc. unfold delta_code.
    rewrite VarInt_full by assumption. cbn [negb Z.eqb kOkCompleted vi_value]. unfold encoded_length. cbn [vi_total].
    replace (w - 1 + 1) with w by lia. replace (w * 7 - 1) with (7 * w - 1) by lia.
    set (o := 2 ^ (7 * w - 1)) in *.
    replace (wrap64 (last (b_laces st) 0 + (n - last (b_laces st) 0 + (o - 1)) - (o - 1))) with n.
    2:{ replace (last (b_laces st) 0 + (n - last (b_laces st) 0 + (o - 1)) - (o - 1)) with n by lia.
        symmetry. unfold wrap64. change 18446744073709551616 with (2 ^ 64).
        assert (2 ^ 63 < 2 ^ 64) by reflexivity. apply Z.mod_small. lia. }
    match goal with |- context[b_ebml cb simple false _ ?s ?r (W _ ?q t)] =>
      destruct (IH s r l q t) as (st' & E & G) end.
    { cbn [b_set_up b_set_laces b_add_hread b_laces]. apply last_last. }
    { cbn [b_set_up b_set_laces b_add_hread b_laces]. intro Q. destruct (b_laces st); discriminate Q. }
    { assumption. }
    { reflexivity. }
    exists st'. rewrite E. rewrite zlen_app. rewrite (PParBlock.vint_zlen_l w) by lia. split.
    + f_equal; [lia|]. f_equal. lia.
    + destruct G as (G1 & G2 & G3 & G4 & G5).
      cbn [b_set_up b_set_laces b_add_hread b_val b_laces b_hread b_meta b_cur] in *.
      unfold went. rewrite G1, <- app_assoc. repeat split; try assumption. rewrite G2. lia.
Qed.

Lemma b_ebml_full : forall n ns w bs st nr l p t, 1 <= w <= 8 -> 0 <= n < 2 ^ (7 * w) -> delta_codes n ns bs ->
  Forall (fun n => 0 <= n < 2 ^ 63) ns -> b_up st = vi_new -> b_laces st = [] ->
  bv_frames (b_val st) = zlen ns + 2 ->
  exists st', b_ebml_first cb simple false st nr (W ((vint w n ++ bs) ++ l) p t)
    = b_validate cb simple false st' (nr + zlen (vint w n ++ bs)) (W l (p + zlen (vint w n ++ bs)) t)
    /\ went (zlen (vint w n ++ bs)) (n :: ns) st st'.
Proof.
  intros n ns w bs st nr l p t Hw Hn D B U L C. unfold b_ebml_first. rewrite U, <- app_assoc.
  rewrite VarInt_full by assumption. cbn [negb Z.eqb kOkCompleted vi_value]. unfold b_ebml_step.
  match goal with |- context[b_ebml cb simple false ?k ?s ?r (W _ ?q t)] =>
    replace k with (length ns); [destruct (b_ebml_all ns n bs s r l q t D) as (st' & E & G)|] end.
  - cbn [b_set_up b_set_laces b_add_hread b_laces]. rewrite L. reflexivity.
  - cbn [b_set_up b_set_laces b_add_hread b_laces]. rewrite L. discriminate.
  - assumption.
  - reflexivity.
  - exists st'. rewrite E. rewrite zlen_app. rewrite (PParBlock.vint_zlen_l w) by lia. split.
    + f_equal; [lia|]. f_equal. lia.
    + destruct G as (G1 & G2 & G3 & G4 & G5).
      cbn [b_set_up b_set_laces b_add_hread b_val b_laces b_hread b_meta b_cur] in *.
      unfold went. rewrite G1, <- app_assoc. repeat split; try assumption. rewrite G2. lia.
  - cbn [b_set_up b_set_laces b_add_hread b_laces b_val]. rewrite L, C. cbn [app length]. unfold zlen. lia.
Qed.

Lemma map_zlen_split : forall (frames : list (list Z)) ns n, map zlen frames = ns ++ [n] ->
  exists fs f, frames = fs ++ [f] /\ map zlen fs = ns /\ zlen f = n.
Proof.
  intros frames ns n H. destruct frames as [|f fs _] using rev_ind.
  - destruct ns; discriminate H.
  - rewrite map_app in H. cbn [map] in H. apply app_inj_tail in H. destruct H as [H1 H2]. eauto.
Qed.
Lemma zlen_map : forall A B (f : A -> B) l, zlen (map f l) = zlen l.
Proof. intros. unfold zlen. rewrite map_length. reflexivity. Qed.
Lemma sizes_bound : forall (fs : list (list Z)), zlen (concat fs) < 2 ^ 63 -> Forall (fun n => 0 <= n < 2 ^ 63) (map zlen fs).
Proof.
  induction fs as [|f fs IH]; intro H; cbn [map]; [constructor|]. cbn [concat] in H. rewrite zlen_app in H.
  pose proof (zlen_nonneg _ f). pose proof (zlen_nonneg _ (concat fs)). constructor; [lia|]. apply IH. lia.
Qed.
Lemma last_split : forall (fs : list (list Z)), last fs [] <> [] -> exists gs g, fs = gs ++ [g] /\ g <> [].
Proof.
  intros fs H. destruct fs as [|f fs _] using rev_ind; [exfalso; apply H; reflexivity|].
  rewrite last_last in H. eauto.
Qed.
Lemma concat_nonempty : forall (fs : list (list Z)), last fs [] <> [] -> 1 <= zlen (concat fs).
Proof.
  intros fs H. destruct (last_split fs H) as (gs & g & -> & N). rewrite concat_app, zlen_app. cbn [concat].
  rewrite app_nil_r. pose proof (zlen_pos _ N). pose proof (zlen_nonneg _ (concat gs)). lia.
Qed.

(* where the first frame is reported: the header of the element is left out for
   several frames in fixed-size lacing *)
Definition base (m : meta) (lac : lacing) (frames : list (list Z)) (h : Z) : Z :=
  match lac with
  | LFixed => if zlen frames =? 1 then me_pos m + me_hsize m + h else me_pos m + h
  | _ => me_pos m + me_hsize m + h
  end.

(* what follows the frame count *)
Inductive lace_rest : lacing -> list Z -> list Z -> Prop :=
| lr_none : forall n, lace_rest LNone [n] []
| lr_xiph : forall ns n, zlen ns <= 255 -> lace_rest LXiph (ns ++ [n]) (concat (map xiph_code ns))
| lr_fixed : forall n k, (1 <= k <= 256)%nat -> lace_rest LFixed (repeat n k) []
| lr_ebml1 : forall n, lace_rest LEbml [n] []
| lr_ebml : forall n ns m w bs, 1 <= w <= 8 -> 0 <= n < 2 ^ (7 * w) -> zlen ns <= 254 ->
    delta_codes n ns bs -> lace_rest LEbml (n :: ns ++ [m]) (vint w n ++ bs).

Lemma b_action_full : forall lac frames rest st l p t,
  lace_rest lac (map zlen frames) rest -> last frames [] <> [] ->
  bv_lacing (b_val st) = 2 * lacing_bits lac -> bv_frames (b_val st) = zlen frames ->
  b_laces st = [] -> b_xiph st = 0 -> b_up st = vi_new -> b_cur st = 0 -> 0 <= b_hread st ->
  me_size (b_meta st) = b_hread st + zlen rest + zlen (concat frames) ->
  0 <= me_pos (b_meta st) -> 0 <= me_hsize (b_meta st) ->
  me_pos (b_meta st) + me_hsize (b_meta st) + me_size (b_meta st) < 2 ^ 63 ->
  forall nr, exists st', b_action cb simple false st nr (W (rest ++ concat frames ++ l) p t)
    = (kOkCompleted, nr + zlen rest + zlen (concat frames), st',
       W l (p + zlen rest + zlen (concat frames))
         (lg (EBegin kd (b_meta st) (VBlock (b_val st)) ::
              frame_events (b_meta st) (base (b_meta st) lac frames (b_hread st + zlen rest)) frames
              ++ [EEnd kd (b_meta st) (VBlock (b_val st))]) t))
    /\ b_state st' = BDone /\ b_val st' = b_val st.
Proof.
  intros lac frames rest st l p t H NE Lc Fr La Xi Up Cu Hr Sz P1 P2 B nr.
  unfold b_action. change (b_kind simple) with kd. rewrite notify_all. cbn [negb Z.eqb kOkCompleted].
  rewrite (lg_cons _ (frame_events _ _ _ ++ _)).
  set (t1 := lg [EBegin kd (b_meta st) (VBlock (b_val st))] t).
  pose proof (zlen_nonneg _ rest). pose proof (zlen_nonneg _ (concat frames)).
  assert (P64 : 2 ^ 63 < 2 ^ 64) by reflexivity.
  assert (VAL : forall s1 fs f, frames = fs ++ [f] -> went (zlen rest) (map zlen fs) st s1 ->
     base (b_meta st) lac frames (b_hread st + zlen rest) = me_pos (b_meta st) + me_hsize (b_meta st) + (b_hread st + zlen rest) ->
     exists st', b_validate cb simple false s1 (nr + zlen rest) (W (concat frames ++ l) (p + zlen rest) t1)
    = (kOkCompleted, nr + zlen rest + zlen (concat frames), st',
       W l (p + zlen rest + zlen (concat frames))
         (lg (frame_events (b_meta st) (base (b_meta st) lac frames (b_hread st + zlen rest)) frames
              ++ [EEnd kd (b_meta st) (VBlock (b_val st))]) t1))
    /\ b_state st' = BDone /\ b_val st' = b_val st).
  { intros s1 fs f E (G1 & G2 & G3 & G4 & G5) Ba. rewrite Ba.
    assert (Nf : f <> []).
    { rewrite E, last_last in NE. assumption. }
    destruct (b_validate_full fs f s1 (nr + zlen rest) l (p + zlen rest) t1) as (st' & V1 & V2 & V3).
    - rewrite G1, La. reflexivity.
    - congruence.
    - assumption.
    - rewrite <- E, G2, G3. lia.
    - lia.
    - rewrite G3. assumption.
    - rewrite G3. assumption.
    - rewrite G3. lia.
    - rewrite <- E, G2, G3, G4 in V1. exists st'. split; [exact V1|]. split; [exact V2|congruence]. }
  assert (W0 : went 0 [] st st).
  { unfold went. rewrite app_nil_r, Z.add_0_r. auto. }
  remember (map zlen frames) as sizes eqn:Es.
  destruct H as [n|ns n Hns|n k Hk|n|n ns m' w bs Hw Hn Hns D].
  - (* no lacing *)
    rewrite Lc. cbn [lacing_bits Z.mul Z.eqb orb].
    destruct (map_zlen_split frames [] n) as (fs & f & E1 & E2 & E3); [symmetry; exact Es|].
    apply map_eq_nil in E2. subst fs. cbn [app].
    destruct (VAL st [] f E1 W0 eq_refl) as (st' & V). rewrite zlen_nil, !Z.add_0_r in *. exists st'. exact V.
  - (* Xiph *)
    destruct (map_zlen_split frames ns n (eq_sym Es)) as (fs & f & E1 & E2 & E3).
    assert (Zf : zlen frames = zlen ns + 1) by (rewrite E1, zlen_app, zlen_cons, zlen_nil, <- E2, zlen_map; lia).
    rewrite Lc, Fr, Zf. cbn [lacing_bits Z.mul Pos.mul Z.eqb Pos.eqb orb].
    destruct (Z.eqb_spec (zlen ns + 1) 1) as [One|Many].
    + pose proof (zlen_zero ns ltac:(lia)) as N0. subst ns. apply map_eq_nil in N0. subst fs. cbn [map concat app] in *.
      destruct (VAL st [] f E1 W0 eq_refl) as (st' & V). rewrite zlen_nil, !Z.add_0_r in *. exists st'. exact V.
    + assert (Bs : Forall (fun n => 0 <= n < 2 ^ 63) ns).
      { rewrite <- E2. apply sizes_bound. rewrite E1, concat_app, zlen_app in Sz. cbn [concat] in Sz.
        pose proof (zlen_nonneg _ (f ++ [])). lia. }
      destruct (b_xiph_full ns st nr (concat frames ++ l) p t1 Bs Xi) as (s1 & V & G).
      { rewrite Fr, Zf, La, zlen_nil. lia. }
      rewrite V. apply (VAL s1 fs f E1); [rewrite E2; exact G|reflexivity].
  - (* fixed size *)
    assert (Zf : zlen frames = Z.of_nat k).
    { rewrite <- (zlen_map _ _ zlen), <- Es. apply zlen_repeat. }
    rewrite Lc, Fr. cbn [lacing_bits Z.mul Pos.mul Z.eqb Pos.eqb orb]. cbn [app].
    destruct (Z.eqb_spec (zlen frames) 1) as [One|Many].
    + destruct frames as [|f [|g gs]]; [cbn in One; lia| |rewrite !zlen_cons in One; pose proof (zlen_nonneg _ gs); lia].
      destruct (VAL st [] f eq_refl W0 eq_refl) as (st' & V). rewrite zlen_nil, !Z.add_0_r in *. exists st'. exact V.
    + rewrite zlen_nil, !Z.add_0_r in *.
      assert (Cl : zlen (concat frames) = Z.of_nat k * n).
      { clear - Es. revert k Es. induction frames as [|f frames IH]; intros k Es.
        - destruct k; [reflexivity|discriminate Es].
        - destruct k; [discriminate Es|]. cbn [map repeat] in Es. injection Es as E1 E2. cbn [concat]. rewrite zlen_app, (IH k E2). lia. }
      pose proof (concat_nonempty frames NE) as Ne.
      unfold b_fixed. rewrite Sz, Fr. cbv zeta.
      replace (b_hread st + zlen (concat frames) <=? b_hread st) with false by lia.
      replace (b_hread st + zlen (concat frames) - b_hread st) with (zlen (concat frames)) by lia.
      rewrite Cl, Zf. rewrite (Z.mul_comm (Z.of_nat k) n). rewrite Z.div_mul, Z.mod_mul by lia. cbn [Z.eqb negb].
      replace (base (b_meta st) LFixed frames (b_hread st)) with (me_pos (b_meta st) + b_hread st).
      2:{ unfold base. replace (zlen frames =? 1) with false by lia. reflexivity. }
      rewrite (Z.mul_comm n), <- Cl.
      match goal with |- context[b_frames_step cb simple false ?s _ _] =>
        refine (b_frames_step_full frames s nr l p t1 (me_pos (b_meta st) + b_hread st) _ _ _ _ _ _ _) end;
        cbn [b_set_frame b_set_laces b_laces b_cur b_fpos b_fsize b_meta b_val].
      * rewrite Nat2Z.id. congruence.
      * assumption.
      * intro Q. subst frames. cbn in *. lia.
      * unfold wrap64. change 18446744073709551616 with (2 ^ 64). apply Z.mod_small. lia.
      * destruct frames as [|f frames]; [cbn in *; lia|]. destruct k; [discriminate Es|].
        cbn [map repeat] in Es. injection Es as E1 E2. cbn [hd]. congruence.
      * lia.
      * lia.
  - (* EBML, one frame *)
    destruct (map_zlen_split frames [] n) as (fs & f & E1 & E2 & E3); [symmetry; exact Es|].
    apply map_eq_nil in E2. subst fs. rewrite Lc, Fr, E1. cbn [lacing_bits Z.mul Pos.mul Z.eqb Pos.eqb orb app].
    change (zlen [f] =? 1) with true. cbv iota. rewrite <- (app_nil_l [f]) , <- E1.
    destruct (VAL st [] f E1 W0 eq_refl) as (st' & V). rewrite zlen_nil, !Z.add_0_r in *. exists st'. exact V.
  - (* EBML *)
    destruct (map_zlen_split frames (n :: ns) m') as (fs & f & E1 & E2 & E3); [symmetry; exact Es|].
    assert (Zf : zlen frames = zlen ns + 2) by (rewrite E1, zlen_app, zlen_cons, zlen_nil, <- (zlen_map _ _ zlen fs), E2, zlen_cons; lia).
    pose proof (zlen_nonneg _ ns).
    rewrite Lc, Fr, Zf. cbn [lacing_bits Z.mul Pos.mul Z.eqb Pos.eqb orb].
    replace (zlen ns + 2 =? 1) with false by lia.
    assert (Bs : Forall (fun n => 0 <= n < 2 ^ 63) (n :: ns)).
    { rewrite <- E2. apply sizes_bound. rewrite E1, concat_app, (zlen_app _ (concat fs)) in Sz. cbn [concat] in Sz.
      pose proof (zlen_nonneg _ (f ++ [])). lia. }
    inversion Bs as [|? ? Bn Bns]; subst.
    destruct (b_ebml_full n ns w bs st nr (concat (fs ++ [f]) ++ l) p t1 Hw Hn D Bns Up La) as (s1 & V & G).
    { rewrite Fr. assumption. }
    rewrite V. apply (VAL s1 fs f eq_refl); [rewrite E2; exact G|reflexivity].
Qed.

Lemma flag_bits : forall flags, is_byte flags ->
  Z.land flags 6 = 2 * ((flags / 2) mod 4) /\ (Z.land 8 flags =? 0) = negb (Z.testbit flags 3) /\
  negb (Z.land 128 flags =? 0) = Z.testbit flags 7 /\ negb (Z.land 1 flags =? 0) = Z.testbit flags 0.
Proof.
  intros flags H. unfold is_byte in H.
  assert (A : forallb (fun i => let f := Z.of_nat i in
     (Z.land f 6 =? 2 * ((f / 2) mod 4)) && Bool.eqb (Z.land 8 f =? 0) (negb (Z.testbit f 3)) &&
     Bool.eqb (negb (Z.land 128 f =? 0)) (Z.testbit f 7) && Bool.eqb (negb (Z.land 1 f =? 0)) (Z.testbit f 0)) (seq 0 256) = true)
    by (vm_compute; reflexivity).
  rewrite forallb_forall in A. specialize (A (Z.to_nat flags) ltac:(apply in_seq; lia)).
  cbv zeta in A. rewrite Z2Nat.id in A by lia. rewrite !andb_true_iff, !Bool.eqb_true_iff, Z.eqb_eq in A. tauto.
Qed.

Lemma block_read_any : forall m track time flags lac frames bs l p t,
  accepted_content track time flags lac frames bs -> me_size m = zlen bs ->
  0 <= me_pos m -> 0 <= me_hsize m -> me_pos m + me_hsize m + me_size m < 2 ^ 63 ->
  let v := block_value simple track time flags lac frames in
  exists st0 st1, BlockParser_Init m = (kOkCompleted, st0) /\
    BlockParser_Feed cb simple false st0 (W (bs ++ l) p t)
    = (kOkCompleted, zlen bs, st1,
       W l (p + zlen bs)
         (lg (EBegin kd m (VBlock v) ::
              frame_events m (base m lac frames (zlen bs - zlen (concat frames))) frames ++ [EEnd kd m (VBlock v)]) t)) /\
    b_state st1 = BDone /\ b_val st1 = v.
Proof.
  intros m track time flags lac frames bs l p t (w & head & Hw & Ht & Hm & Hf & Hl & NE & LH & ->) Sz P1 P2 B v.
  assert (Szv : zlen (vint w track ++ be_bytes 2 time ++ [flags] ++ head ++ concat frames) = w + 3 + zlen head + zlen (concat frames)).
  { rewrite !zlen_app, be_bytes_zlen, zlen_cons, zlen_nil. rewrite (PParBlock.vint_zlen_l w) by lia. lia. }
  rewrite Szv in *. destruct (flag_bits flags Hf) as (F1 & F2 & F3 & F4).
  pose proof (zlen_nonneg _ head). pose proof (concat_nonempty frames NE) as Ne.
  assert (Fp : 1 <= zlen frames).
  { rewrite <- (zlen_map _ _ zlen). destruct LH as [n|ns n Hns|n k Hk|n|n ns m' w' bs' Hw' Hn Hns D].
    - reflexivity.
    - rewrite zlen_app. pose proof (zlen_nonneg _ ns). cbn. unfold zlen in *. cbn [length]. lia.
    - rewrite zlen_repeat. lia.
    - reflexivity.
    - rewrite zlen_cons. pose proof (zlen_nonneg _ (ns ++ [m'])). lia. }
  exists (mk_bst BHeader 0 blockv0 m 0 0 h_new vi_new 0 [] 0).
  unfold BlockParser_Init. rewrite Sz. change kUnknownElementSize with (2 ^ 64 - 1).
  assert (P64 : 2 ^ 63 < 2 ^ 64 - 1) by reflexivity.
  replace (w + 3 + zlen head + zlen (concat frames) =? 2 ^ 64 - 1) with false by lia.
  replace (w + 3 + zlen head + zlen (concat frames) <? 5) with false by lia. cbn [orb].
  unfold BlockParser_Feed. cbn [b_state]. unfold b_header. cbn [b_hp].
  rewrite <- !app_assoc. destruct (Header_full w track time flags (head ++ concat frames ++ l) p t) as (u & EH); try assumption.
  rewrite EH. cbn [negb Z.eqb kOkCompleted h_flags h_track h_time].
  rewrite F1, Hl, F2, F3, F4.
  assert (RE : lace_rest lac (map zlen frames) (match lac with LNone => head | _ => tl head end) /\
               (lac = LNone -> zlen frames = 1 /\ head = []) /\
               (lac <> LNone -> head = (zlen frames - 1) :: tl head)).
  { rewrite <- (zlen_map _ _ zlen frames).
    destruct LH as [n|ns n Hns|n k Hk|n|n ns m' w' bs' Hw' Hn Hns D]; cbn [tl].
    - split; [constructor|]. split; [split; reflexivity|congruence].
    - split; [constructor; assumption|]. split; [discriminate|]. intros _. rewrite zlen_app. cbn. unfold zlen; cbn [length]. f_equal. lia.
    - split; [constructor; assumption|]. split; [discriminate|]. intros _. rewrite zlen_repeat. reflexivity.
    - split; [constructor|]. split; [discriminate|]. reflexivity.
    - split; [constructor; assumption|]. split; [discriminate|]. intros _. rewrite zlen_cons, zlen_app. cbn [app]. f_equal. unfold zlen; cbn [length]. lia. }
  destruct RE as (R1 & R2 & R3).
  destruct (Z.eqb_spec (2 * lacing_bits lac) 0) as [L0|L1].
  - assert (lac = LNone) by (destruct lac; cbn in L0; congruence). subst lac.
    destruct (R2 eq_refl) as (R4 & ->). cbn [app]. rewrite zlen_nil in *.
    match goal with |- context[b_action cb simple false ?s ?nn (W _ ?q t)] =>
      destruct (b_action_full LNone frames [] s l q t R1 NE) with (nr := nn) as (st1 & V1 & V2 & V3) end;
      cbn [b_set_val b_set_hp b_add_hread b_val b_laces b_xiph b_up b_cur b_hread b_meta bv_lacing bv_frames] in *;
      try reflexivity; try assumption; try lia.
    exists st1. split; [reflexivity|]. rewrite zlen_nil, !Z.add_0_r in *.
    replace (w + 3 + zlen (concat frames) - zlen (concat frames)) with (w + 3) by lia.
    cbn [app] in V1. rewrite V1.
    assert (Ev : mk_blockv track time (negb (Z.testbit flags 3)) (2 * lacing_bits LNone) 1 (simple && Z.testbit flags 7) (simple && Z.testbit flags 0) = v).
    { unfold v, block_value. rewrite R4. reflexivity. }
    rewrite Ev. split; [|split; [exact V2|rewrite V3; exact Ev]]. f_equal. f_equal. lia.
  - assert (NL : lac <> LNone) by (intro; subst; apply L1; reflexivity).
    pose proof (R3 NL) as Eh.
    assert (R1' : lace_rest lac (map zlen frames) (tl head)) by (destruct lac; [congruence|exact R1|exact R1|exact R1]).
    assert (Zh : zlen head = 1 + zlen (tl head)) by (rewrite Eh at 1; apply zlen_cons).
    rewrite Eh. unfold b_lace_count. cbn [app]. rewrite ReadByte_full. cbn [negb Z.eqb kOkCompleted tl].
    cbn [b_set_val b_set_hp b_add_hread b_val bv_track bv_time bv_visible bv_lacing bv_key bv_discardable b_state b_hread b_meta b_fpos b_fsize b_hp b_up b_xiph b_laces b_cur].
    replace (zlen frames - 1 + 1) with (zlen frames) by lia.
    match goal with |- context[b_action cb simple false ?s ?nn (W _ ?q t)] =>
      destruct (b_action_full lac frames (tl head) s l q t R1' NE) with (nr := nn) as (st1 & V1 & V2 & V3) end;
      cbn [b_set_val b_set_hp b_add_hread b_val b_laces b_xiph b_up b_cur b_hread b_meta bv_lacing bv_frames] in *;
      try reflexivity; try assumption; try lia.
    exists st1. split; [reflexivity|].
    fold (block_value simple track time flags lac frames) in V1, V3 |- *. fold v in V1, V3 |- *.
    rewrite V1. pose proof (zlen_nonneg _ (tl head)).
    rewrite zlen_cons. split; [|split; [exact V2|exact V3]].
    replace (0 + (w + 3) + 1 + zlen (tl head)) with (w + 3 + (1 + zlen (tl head)) + zlen (concat frames) - zlen (concat frames)) by lia.
    f_equal; [f_equal; f_equal; lia|]. f_equal. lia.
Qed.

Lemma block_accepted : forall track time flags lac frames bs,
  block_content track time flags lac frames bs -> accepted_content track time flags lac frames bs.
Proof.
  intros track time flags lac frames bs (w & head & Hw & Ht & Hm & Hf & Hl & NE & LH & ->). exists w, head.
  do 5 (split; [lia || assumption|]). split; [|split; [assumption | reflexivity]].
  destruct frames as [|f fs _] using rev_ind.
  - exfalso. remember (map zlen []) as z eqn:Ez. destruct LH as [| ns n _ | n k Hk | |]; try discriminate Ez.
    + destruct ns; discriminate Ez.
    + destruct k; [lia | discriminate Ez].
  - rewrite last_last. apply Forall_app in NE. destruct NE as [_ NE]. inversion NE. assumption.
Qed.
Lemma block_read : forall m track time flags lac frames bs l p t,
  block_content track time flags lac frames bs -> me_size m = zlen bs ->
  0 <= me_pos m -> 0 <= me_hsize m -> me_pos m + me_hsize m + me_size m < 2 ^ 63 ->
  let v := block_value simple track time flags lac frames in
  exists st0 st1, BlockParser_Init m = (kOkCompleted, st0) /\
    BlockParser_Feed cb simple false st0 (W (bs ++ l) p t)
    = (kOkCompleted, zlen bs, st1,
       W l (p + zlen bs)
         (lg (EBegin kd m (VBlock v) ::
              frame_events m (base m lac frames (zlen bs - zlen (concat frames))) frames ++ [EEnd kd m (VBlock v)]) t)) /\
    b_state st1 = BDone /\ b_val st1 = v.
Proof. intros m track time flags lac frames bs l p t H. apply block_read_any, block_accepted, H. Qed.

Lemma base_regular : forall m lac frames h, (lac = LFixed -> zlen frames = 1) -> base m lac frames h = me_pos m + me_hsize m + h.
Proof. intros m lac frames h H. unfold base. destruct lac; try reflexivity. rewrite (H eq_refl). reflexivity. Qed.
End blk.
End skip.
Arguments lg_nil {skip}.
Arguments lg_app {skip}.
Arguments lg_cons {skip}.
Arguments notify_all {skip}.
Arguments log_bytes_lg {skip}.
Arguments on_data_full {skip}.
Arguments block_read_any {skip}.
Arguments block_read {skip}.
