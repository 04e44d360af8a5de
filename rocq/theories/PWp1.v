(* Facts about the callback parser's reader and primitive parsers: what they
   consume, and that interrupting them changes nothing. *)
From Coq Require Import ZifyBool ZifyNat.
From Verif Require Import Base WpSpec MWp.

Lemma quad_inj : forall A B C D (a a' : A) (b b' : B) (c c' : C) (d d' : D),
  (a, b, c, d) = (a', b', c', d') -> a = a' /\ b = b' /\ c = c' /\ d = d'.
Proof. intros; repeat split; congruence. Qed.
Ltac quad H := apply quad_inj in H;
  let K1 := fresh in let K2 := fresh in let K3 := fresh in let K4 := fresh in
  destruct H as (K1 & K2 & K3 & K4); subst.

Ltac tup := repeat match goal with |- (_, _) = (_, _) => apply f_equal2 end;
  try reflexivity; try lia; try (f_equal; lia).

(* the same data source with everything available at once *)
Definition full (w : world) : world := mk_world (w_data w) (w_pos w) [] (w_trace w).

Lemma full_full : forall w, full (full w) = full w.
Proof. reflexivity. Qed.
Lemma full_id : forall w, w_sched w = [] -> full w = w.
Proof. intros [d p s t]; cbn; intros ->; reflexivity. Qed.

Lemma zlen_app : forall A (a b : list A), zlen (a ++ b) = zlen a + zlen b.
Proof. intros; unfold zlen; rewrite app_length; lia. Qed.
Lemma zlen_nonneg : forall A (a : list A), 0 <= zlen a.
Proof. intros; unfold zlen; lia. Qed.
Lemma zlen_firstn : forall A k (l : list A), 0 <= k <= zlen l -> zlen (firstn (Z.to_nat k) l) = k.
Proof. intros; unfold zlen in *; rewrite firstn_length; lia. Qed.
Lemma zlen_nil_inv : forall A (l : list A), zlen l = 0 -> l = [].
Proof. intros A [|x l] H; [reflexivity | unfold zlen in H; cbn [length] in H; lia]. Qed.
Lemma zlen_one : forall A (x : A), zlen [x] = 1.
Proof. reflexivity. Qed.
Lemma zlen_consx : forall A (x : A) l, zlen (x :: l) = 1 + zlen l.
Proof. intros; unfold zlen; cbn [length]; lia. Qed.

(* w' is w after n bytes were taken; the schedule only shrinks, the trace only grows *)
Definition moved (n : Z) (w w' : world) : Prop :=
  exists bs t us,
    w_data w = bs ++ w_data w' /\ zlen bs = n /\ w_pos w' = w_pos w + n /\
    w_sched w = us ++ w_sched w' /\ w_trace w' = t ++ w_trace w.

Lemma moved_refl : forall w, moved 0 w w.
Proof. intro w; exists [], [], []; repeat split; cbn; lia. Qed.
Lemma moved_trans : forall a b w1 w2 w3, moved a w1 w2 -> moved b w2 w3 -> moved (a + b) w1 w3.
Proof.
  intros a b w1 w2 w3 (b1 & t1 & u1 & D1 & L1 & P1 & S1 & T1) (b2 & t2 & u2 & D2 & L2 & P2 & S2 & T2).
  exists (b1 ++ b2), (t2 ++ t1), (u1 ++ u2). rewrite zlen_app.
  rewrite D1, D2, S1, S2, T2, T1, !app_assoc. repeat split; lia.
Qed.
Lemma moved_trans' : forall a b c w1 w2 w3, moved a w1 w2 -> moved b w2 w3 -> c = a + b -> moved c w1 w3.
Proof. intros; subst; eauto using moved_trans. Qed.
Lemma moved_nonneg : forall n w w', moved n w w' -> 0 <= n.
Proof. intros n w w' (bs & _ & _ & _ & L & _). rewrite <- L. apply zlen_nonneg. Qed.
Lemma moved_data : forall n w w', moved n w w' -> zlen (w_data w') = zlen (w_data w) - n.
Proof. intros n w w' (bs & _ & _ & D & L & _). rewrite D, zlen_app. lia. Qed.
Lemma moved_sched : forall n w w', moved n w w' -> (length (w_sched w') <= length (w_sched w))%nat.
Proof. intros n w w' (bs & _ & us & _ & _ & _ & S & _). rewrite S, app_length. lia. Qed.
Lemma moved_nil : forall n w w', moved n w w' -> w_sched w = [] -> w_sched w' = [].
Proof.
  intros n w w' (bs & _ & us & _ & _ & _ & S & _) E. rewrite E in S.
  destruct us; [now symmetry | discriminate].
Qed.
Lemma moved_full : forall n w w', moved n w w' -> moved n (full w) (full w').
Proof.
  intros n w w' (bs & t & us & D & L & P & S & T). exists bs, t, []. cbn. repeat split; auto.
Qed.
Lemma moved_log : forall e w, moved 0 w (w_log e w).
Proof. intros e w. exists [], [e], []. repeat split; cbn; lia. Qed.

(* ---------- one call ---------- *)
Lemma rd_give_spec : forall n cap s w c bs w',
  0 <= n -> 1 <= cap -> rd_give n cap s w = (c, bs, w') ->
  w' = mk_world (w_data w') (w_pos w + zlen bs) s (w_trace w) /\ w_data w = bs ++ w_data w' /\
  ((w_data w = [] /\ c = kEndOfFile /\ bs = []) \/
   (w_data w <> [] /\ c = kOkCompleted /\ zlen bs = n) \/
   (w_data w <> [] /\ c = kOkPartial /\ 1 <= zlen bs < n /\ (cap < n \/ w_data w' = []))).
Proof.
  unfold rd_give, w_got. intros n cap s [d p s0 t] c bs w' Hn Hc H. cbn [w_data w_pos w_trace] in *.
  destruct d as [|x d].
  - injection H as K1 K2 K3. subst. cbn. split; [f_equal; lia|]. split; [reflexivity|]. left; auto.
  - set (k := Z.min (Z.min n cap) (zlen (x :: d))) in *.
    assert (Hk : 0 <= k <= zlen (x :: d)) by (pose proof (zlen_nonneg _ (x :: d)); lia).
    assert (Hl : 1 <= zlen (x :: d)) by (rewrite zlen_consx; pose proof (zlen_nonneg _ d); lia).
    injection H as K1 K2 K3. subst w' bs. cbn [w_data w_pos w_sched w_trace].
    rewrite zlen_firstn by lia. split; [reflexivity|]. split; [symmetry; apply firstn_skipn|].
    destruct (k =? n) eqn:E; subst c.
    + right; left. repeat split; try discriminate. lia.
    + right; right. repeat split; try discriminate; try lia.
      destruct (Z_lt_dec cap n); [left; lia | right].
      apply zlen_nil_inv. unfold zlen in *. rewrite skipn_length. lia.
Qed.

Lemma rd_take_spec : forall n w c bs w',
  0 <= n -> rd_take n w = (c, bs, w') ->
  w' = mk_world (w_data w') (w_pos w + zlen bs) (tl (w_sched w)) (w_trace w) /\
  w_data w = bs ++ w_data w' /\
  ((c = kWouldBlock /\ bs = [] /\ w_sched w <> []) \/
   (w_data w = [] /\ c = kEndOfFile /\ bs = []) \/
   (w_data w <> [] /\ c = kOkCompleted /\ zlen bs = n) \/
   (w_data w <> [] /\ c = kOkPartial /\ 1 <= zlen bs < n /\ (w_sched w <> [] \/ w_data w' = []))).
Proof.
  unfold rd_take. intros n w c bs w' Hn H. destruct (w_sched w) as [|k s] eqn:S.
  - destruct (Z.eq_dec n 0) as [->|N].
    + unfold rd_give in H. destruct (w_data w) as [|x d] eqn:D.
      * injection H as K1 K2 K3. subst. cbn. split; [f_equal; lia|]. split; [reflexivity|]. right; left; auto.
      * replace (Z.min (Z.min 0 0) (zlen (x :: d))) with 0 in H by (pose proof (zlen_nonneg _ (x :: d)); lia).
        cbn in H. injection H as K1 K2 K3. subst. unfold w_got. rewrite D. cbn.
        split; [reflexivity|]. split; [reflexivity|]. right; right; left. repeat split; discriminate.
    + apply rd_give_spec in H; try lia. destruct H as (A & B & C). split; [exact A|]. split; [exact B|].
      right. destruct C as [C | [C | (C1 & C2 & C3 & C4)]]; [left; exact C | right; left; exact C |].
      right; right. repeat split; auto; try lia. right. destruct C4; [lia | assumption].
  - destruct (k <=? 0) eqn:E.
    + injection H as K1 K2 K3. subst. cbn. split; [f_equal; lia|]. split; [reflexivity|]. left. repeat split; discriminate.
    + apply rd_give_spec in H; try lia. destruct H as (A & B & C). split; [exact A|]. split; [exact B|].
      right. destruct C as [C | [C | (C1 & C2 & C3 & C4)]]; [left; exact C | right; left; exact C |].
      right; right. repeat split; auto; try lia. left; discriminate.
Qed.

(* what reading n bytes gives when all the data is there *)
Definition tk (n : Z) (d : list Z) : Z * list Z :=
  match d with
  | [] => (kEndOfFile, [])
  | _ => if n <=? zlen d then (kOkCompleted, firstn (Z.to_nat n) d) else (kEndOfFile, d)
  end.

Lemma tk_split : forall n bs d, zlen bs <= n -> (zlen bs < n \/ bs = []) ->
  tk n (bs ++ d) = (fst (tk (n - zlen bs) d), bs ++ snd (tk (n - zlen bs) d)).
Proof.
  intros n bs d H1 H2. destruct bs as [|x bs].
  - cbn [app]. change (zlen []) with 0. replace (n - 0) with n by lia. destruct (tk n d); reflexivity.
  - destruct H2 as [H2 | H2]; [|discriminate].
    unfold tk. cbn [app]. destruct d as [|y d].
    + cbn [fst snd]. rewrite !app_nil_r. replace (n <=? zlen (x :: bs)) with false by lia. reflexivity.
    + change (x :: bs ++ y :: d) with ((x :: bs) ++ y :: d). rewrite zlen_app.
      destruct (n - zlen (x :: bs) <=? zlen (y :: d)) eqn:E.
      * replace (n <=? zlen (x :: bs) + zlen (y :: d)) with true by lia. cbn [fst snd].
        f_equal. rewrite firstn_app.
        replace (Z.to_nat n - length (x :: bs))%nat with (Z.to_nat (n - zlen (x :: bs))) by (unfold zlen; lia).
        rewrite (firstn_all2 (x :: bs)) by (unfold zlen in *; lia). reflexivity.
      * replace (n <=? zlen (x :: bs) + zlen (y :: d)) with false by lia. reflexivity.
Qed.

(* ---------- the read loop ---------- *)
Lemma take_loop_spec : forall fuel n acc w c bs w',
  0 <= n -> (S (length (w_sched w)) < fuel)%nat -> take_loop fuel n acc w = (c, bs, w') ->
  exists b us,
    bs = acc ++ b /\ w_data w = b ++ w_data w' /\ w_sched w = us ++ w_sched w' /\
    w' = mk_world (w_data w') (w_pos w + zlen b) (w_sched w') (w_trace w) /\ zlen b <= n /\
    ((c = kWouldBlock /\ us <> [] /\ (zlen b < n \/ b = [])) \/
     (c = kEndOfFile /\ w_data w' = [] /\ (zlen b < n \/ b = [])) \/
     (c = kOkCompleted /\ zlen b = n /\ w_data w <> [])).
Proof.
  induction fuel as [|f IH]; intros n acc w c bs w' Hn Hf H; [lia|].
  cbn [take_loop] in H. destruct (rd_take n w) as [[c1 b1] w1] eqn:R.
  apply rd_take_spec in R; [|exact Hn]. destruct R as (A & B & C).
  assert (Sw : w_sched w1 = tl (w_sched w)) by (rewrite A; reflexivity).
  destruct C as [(C1 & C2 & C3) | [(C1 & C2 & C3) | [(C1 & C2 & C3) | (C1 & C2 & C3 & C4)]]]; subst c1.
  - cbn in H. injection H as K1 K2 K3. subst. destruct (w_sched w) as [|k s] eqn:S; [congruence|].
    exists [], [k]. cbn [tl] in *. rewrite app_nil_r. change (zlen []) with 0 in *.
    split; [reflexivity|]. split; [exact B|]. split; [rewrite Sw; reflexivity|].
    split; [rewrite Sw; exact A|]. split; [lia|]. left. repeat split; auto; discriminate.
  - cbn in H. injection H as K1 K2 K3. subst.
    exists [], (firstn 1 (w_sched w)). rewrite app_nil_r. change (zlen []) with 0 in *.
    split; [reflexivity|]. split; [exact B|].
    split; [rewrite Sw; destruct (w_sched w); reflexivity|].
    split; [rewrite Sw; exact A|]. split; [lia|].
    right; left. repeat split; auto. cbn in B. congruence.
  - cbn in H. injection H as K1 K2 K3. subst.
    exists b1, (firstn 1 (w_sched w)).
    split; [reflexivity|]. split; [exact B|].
    split; [rewrite Sw; destruct (w_sched w); reflexivity|].
    split; [rewrite Sw; exact A|]. split; [lia|].
    right; right. repeat split; auto.
  - change (kOkPartial =? kOkPartial) with true in H. cbn iota in H.
    assert (Hf1 : (S (length (w_sched w1)) < f)%nat \/ (w_sched w = [] /\ w_data w1 = [])).
    { rewrite Sw. destruct C4 as [C4 | C4].
      - left. destruct (w_sched w); [congruence|]. cbn [tl length] in *. lia.
      - destruct (w_sched w) eqn:S; [right; auto|]. left. cbn [tl length] in *. lia. }
    destruct Hf1 as [Hf1 | [E1 E2]].
    + apply IH in H; [|lia|exact Hf1].
      destruct H as (b & us & K1 & K2 & K3 & K4 & K5 & K6).
      exists (b1 ++ b), (firstn 1 (w_sched w) ++ us). rewrite zlen_app.
      split; [rewrite K1, app_assoc; reflexivity|].
      split; [rewrite B, K2, app_assoc; reflexivity|].
      split; [rewrite <- app_assoc, <- K3, Sw; destruct (w_sched w); reflexivity|].
      split; [rewrite K4 at 1; rewrite A at 1 2; cbn [w_pos w_trace]; f_equal; lia|].
      split; [lia|].
      destruct K6 as [(X1 & X2 & X3) | [(X1 & X2 & X3) | (X1 & X2 & X3)]].
      * left. split; [exact X1|]. split.
        { destruct us; [congruence|]. destruct (w_sched w); discriminate. }
        left. destruct X3 as [X3 | ->]; [lia|]. change (zlen []) with 0 in *; lia.
      * right; left. split; [exact X1|]. split; [exact X2|].
        left. destruct X3 as [X3 | ->]; [lia|]. change (zlen []) with 0 in *; lia.
      * right; right. split; [exact X1|]. split; [lia|]. exact C1.
    + destruct f as [|f]; [lia|]. cbn [take_loop] in H.
      unfold rd_take in H. rewrite Sw, E1 in H. cbn [tl] in H.
      unfold rd_give in H. rewrite E2 in H. cbn in H. injection H as K1 K2 K3. subst.
      exists b1, []. cbn [w_data w_sched w_pos w_trace app]. rewrite app_nil_r.
      split; [reflexivity|]. split; [rewrite B, E2; reflexivity|]. split; [exact E1|].
      split; [rewrite A; reflexivity|]. split; [lia|].
      right; left. repeat split; auto. left; lia.
Qed.

Lemma take_all_spec : forall n w c bs w',
  0 <= n -> take_all n w = (c, bs, w') ->
  exists us,
    w_data w = bs ++ w_data w' /\ w_sched w = us ++ w_sched w' /\
    w' = mk_world (w_data w') (w_pos w + zlen bs) (w_sched w') (w_trace w) /\ zlen bs <= n /\
    ((c = kWouldBlock /\ us <> [] /\ (zlen bs < n \/ bs = [])) \/
     (c = kEndOfFile /\ w_data w' = [] /\ (zlen bs < n \/ bs = [])) \/
     (c = kOkCompleted /\ zlen bs = n /\ w_data w <> [])).
Proof.
  unfold take_all. intros n w c bs w' Hn H. apply take_loop_spec in H; try lia.
  destruct H as (b & us & K1 & K2). cbn in K1. subst b. exists us. exact K2.
Qed.

Lemma take_all_full : forall n w, 0 <= n ->
  take_all n (full w) =
  (fst (tk n (w_data w)), snd (tk n (w_data w)),
   mk_world (skipn (length (snd (tk n (w_data w)))) (w_data w)) (w_pos w + zlen (snd (tk n (w_data w)))) [] (w_trace w)).
Proof.
  intros n w Hn. destruct (take_all n (full w)) as [[c bs] w'] eqn:T.
  apply take_all_spec in T; [|exact Hn]. destruct T as (us & D & S & W & L & C).
  cbn [full w_data w_sched w_pos w_trace] in *.
  assert (Sn : w_sched w' = []) by (destruct us; [now symmetry | discriminate]).
  assert (Un : us = []) by (destruct us; [reflexivity | discriminate]).
  rewrite Sn in W.
  assert (E : tk n (w_data w) = (c, bs)).
  { destruct C as [(C1 & C2 & C3) | [(C1 & C2 & C3) | (C1 & C2 & C3)]]; [congruence | |].
    - rewrite C2, app_nil_r in D. subst c. rewrite D. unfold tk.
      destruct bs as [|x bs]; [reflexivity|]. destruct C3 as [C3 | C3]; [|discriminate].
      replace (n <=? zlen (x :: bs)) with false by lia. reflexivity.
    - subst c. unfold tk. destruct (w_data w) as [|x d] eqn:Q; [congruence|].
      replace (n <=? zlen (x :: d)) with true by (rewrite D, zlen_app; pose proof (zlen_nonneg _ (w_data w')); lia).
      f_equal. rewrite D. replace (Z.to_nat n) with (length bs) by (unfold zlen in *; lia).
      rewrite firstn_app, Nat.sub_diag, firstn_O, app_nil_r. apply firstn_all. }
  rewrite E. cbn [fst snd]. rewrite W at 1.
  rewrite D, skipn_app, skipn_all, Nat.sub_diag. reflexivity.
Qed.

Lemma take_all_moved : forall n w c bs w', 0 <= n -> take_all n w = (c, bs, w') -> moved (zlen bs) w w'.
Proof.
  intros n w c bs w' Hn H. apply take_all_spec in H; [|exact Hn].
  destruct H as (us & D & S & W & _). exists bs, [], us.
  split; [exact D|]. split; [reflexivity|]. split; [rewrite W; reflexivity|].
  split; [exact S|]. rewrite W; reflexivity.
Qed.
Lemma take_all_trace : forall n w c bs w', 0 <= n -> take_all n w = (c, bs, w') -> w_trace w' = w_trace w.
Proof.
  intros n w c bs w' Hn H. apply take_all_spec in H; [|exact Hn].
  destruct H as (us & D & S & W & _). rewrite W. reflexivity.
Qed.

(* interrupting the read loop and going on with all the data is the same as never
   interrupting it *)
Lemma take_all_resume : forall n w c bs w',
  0 <= n -> take_all n w = (c, bs, w') ->
  (c = kWouldBlock -> forall c2 b2 w2, take_all (n - zlen bs) (full w') = (c2, b2, w2) ->
     take_all n (full w) = (c2, bs ++ b2, w2)) /\
  (c <> kWouldBlock -> take_all n (full w) = (c, bs, full w')).
Proof.
  intros n w c bs w' Hn H. apply take_all_spec in H; [|exact Hn].
  destruct H as (us & D & S & W & L & C).
  assert (Pw : w_pos w' = w_pos w + zlen bs) by (rewrite W; reflexivity).
  assert (Tw : w_trace w' = w_trace w) by (rewrite W; reflexivity).
  split; intro E.
  - intros c2 b2 w2 H2. rewrite take_all_full in H2 by lia.
    destruct C as [(C1 & C2 & C3) | [(C1 & C2 & C3) | (C1 & C2 & C3)]]; try (subst; discriminate).
    rewrite take_all_full by lia. rewrite D, (tk_split n bs (w_data w')) by assumption.
    cbn [fst snd]. injection H2 as K1 K2 K3. subst c2 b2 w2. f_equal.
    cbn [full w_data w_pos w_trace]. rewrite Pw, Tw. f_equal.
    + rewrite app_length, skipn_app.
      rewrite (skipn_all2 bs) by lia. cbn [app]. f_equal. lia.
    + rewrite zlen_app. lia.
  - rewrite take_all_full by lia.
    destruct C as [(C1 & C2 & C3) | [(C1 & C2 & C3) | (C1 & C2 & C3)]]; [congruence | |].
    + assert (T : tk n (w_data w) = (c, bs)).
      { rewrite D, C2, app_nil_r. subst c. unfold tk. destruct bs; [reflexivity|].
        destruct C3 as [C3 | C3]; [|discriminate]. replace (n <=? _) with false by lia. reflexivity. }
      rewrite T. cbn [fst snd]. f_equal. unfold full. rewrite Pw, Tw. f_equal.
      rewrite D, skipn_app, skipn_all, Nat.sub_diag. reflexivity.
    + assert (T : tk n (w_data w) = (c, bs)).
      { unfold tk. destruct (w_data w) as [|x d] eqn:Q; [congruence|]. subst c.
        replace (n <=? zlen (x :: d)) with true by (rewrite D, zlen_app; pose proof (zlen_nonneg _ (w_data w')); lia).
        f_equal. rewrite D. replace (Z.to_nat n) with (length bs) by (unfold zlen in *; lia).
        rewrite firstn_app, Nat.sub_diag, firstn_O, app_nil_r. apply firstn_all. }
      rewrite T. cbn [fst snd]. f_equal. unfold full. rewrite Pw, Tw. f_equal.
      rewrite D, skipn_app, skipn_all, Nat.sub_diag. reflexivity.
Qed.

(* ---------- single bytes ---------- *)
Lemma ReadByte_spec : forall w c b w', ReadByte w = (c, b, w') ->
  w_trace w' = w_trace w /\
  ((c = kWouldBlock /\ (length (w_sched w') < length (w_sched w))%nat /\ full w' = full w /\ moved 0 w w') \/
   (c = kEndOfFile /\ w_data w = [] /\ moved 0 w w' /\ ReadByte (full w) = (kEndOfFile, b, full w')) \/
   (c = kOkCompleted /\ w_data w = b :: w_data w' /\ moved 1 w w' /\ ReadByte (full w) = (kOkCompleted, b, full w'))).
Proof.
  unfold ReadByte. intros w c b w' H. destruct (rd_take 1 w) as [[c1 bs] w1] eqn:R.
  apply rd_take_spec in R; [|lia]. destruct R as (A & B & C). injection H as K1 K2 K3. subst c1 w1.
  split; [rewrite A; reflexivity|].
  assert (Sw : w_sched w' = tl (w_sched w)) by (rewrite A; reflexivity).
  assert (Pw : w_pos w' = w_pos w + zlen bs) by (rewrite A; reflexivity).
  assert (Tw : w_trace w' = w_trace w) by (rewrite A; reflexivity).
  assert (M : moved (zlen bs) w w').
  { exists bs, [], (firstn 1 (w_sched w)). rewrite Sw. repeat split; auto. destruct (w_sched w); reflexivity. }
  destruct C as [(C1 & C2 & C3) | [(C1 & C2 & C3) | [(C1 & C2 & C3) | (C1 & C2 & C3 & C4)]]].
  - left. subst bs. change (zlen []) with 0 in *. repeat split; auto.
    + rewrite Sw. destruct (w_sched w); [congruence|]. cbn; lia.
    + unfold full. rewrite Pw, Tw. cbn in B. rewrite B. f_equal; lia.
  - right; left. subst bs. change (zlen []) with 0 in *. repeat split; auto.
    cbn [app] in B. unfold rd_take, full. cbn [w_sched w_data w_pos w_trace]. rewrite <- K2, <- B, C1. rewrite Pw, Tw.
    cbn [w_sched]. unfold rd_give. cbn [w_data]. cbn. f_equal. f_equal. lia.
  - right; right. destruct bs as [|x bs]; [discriminate|].
    assert (bs = []) by (apply zlen_nil_inv; rewrite zlen_consx in C3; lia). subst bs. cbn [hd] in K2. subst x.
    cbn [app] in B. repeat split; auto.
    unfold rd_take, full. cbn [w_sched w_data w_pos w_trace]. rewrite B, Pw, Tw. unfold rd_give, w_got. cbn [w_data w_sched w_pos w_trace].
    replace (Z.min (Z.min 1 1) (zlen (b :: w_data w'))) with 1
      by (rewrite zlen_consx; pose proof (zlen_nonneg _ (w_data w')); lia).
    reflexivity.
  - lia.
Qed.

Lemma codes_neq : kWouldBlock <> kOkCompleted /\ kEndOfFile <> kOkCompleted /\ kWouldBlock <> kEndOfFile.
Proof. repeat split; discriminate. Qed.

Lemma Accumulate_shift : forall sg bits num v nr w,
  Accumulate sg bits num v nr w =
  (let '(c, k, v', w') := Accumulate sg bits num v 0 w in (c, nr + k, v', w')).
Proof.
  induction num as [|n IH]; intros v nr w; cbn [Accumulate].
  - tup.
  - destruct (ReadByte w) as [[c b] w1]. destruct (c =? kOkCompleted).
    + rewrite (IH _ (nr + 1)), (IH _ (0 + 1)). destruct (Accumulate sg bits n _ 0 w1) as [[[? ?] ?] ?].
      tup.
    + tup.
Qed.

Lemma Accumulate_spec : forall sg bits num v w c k v' w',
  Accumulate sg bits num v 0 w = (c, k, v', w') ->
  moved k w w' /\ w_trace w' = w_trace w /\ k <= Z.of_nat num /\
  ((c = kWouldBlock /\ k < Z.of_nat num /\ (length (w_sched w') < length (w_sched w))%nat /\
    Accumulate sg bits num v 0 (full w) = Accumulate sg bits (Z.to_nat (Z.of_nat num - k)) v' k (full w')) \/
   (c = kEndOfFile /\ k < Z.of_nat num /\ w_data w' = [] /\
    Accumulate sg bits num v 0 (full w) = (kEndOfFile, k, v', full w')) \/
   (c = kOkCompleted /\ k = Z.of_nat num /\
    Accumulate sg bits num v 0 (full w) = (kOkCompleted, k, v', full w'))).
Proof.
  induction num as [|n IH]; intros v w c k v' w' H.
  - cbn [Accumulate] in *. quad H. split; [apply moved_refl|].
    split; [reflexivity|]. split; [lia|]. right; right. repeat split; lia.
  - cbn [Accumulate] in H. destruct (ReadByte w) as [[c1 b] w1] eqn:R. apply ReadByte_spec in R.
    destruct R as (T & [(C1 & C2 & C3 & C4) | [(C1 & C2 & C3 & C4) | (C1 & C2 & C3 & C4)]]); subst c1.
    + change (kWouldBlock =? kOkCompleted) with false in H. cbn iota in H. quad H.
      split; [exact C4|]. split; [exact T|]. split; [lia|]. left. repeat split; auto; try lia.
      rewrite C3. replace (Z.to_nat (Z.of_nat (S n) - 0)) with (S n) by lia. reflexivity.
    + change (kEndOfFile =? kOkCompleted) with false in H. cbn iota in H. quad H.
      split; [exact C3|]. split; [exact T|]. split; [lia|]. right; left. repeat split; auto; try lia.
      * destruct C3 as (bs & _ & _ & D & L & _). rewrite (zlen_nil_inv _ _ L) in D. cbn in D. congruence.
      * cbn [Accumulate]. rewrite C4. reflexivity.
    + change (kOkCompleted =? kOkCompleted) with true in H. cbn iota in H.
      change (0 + 1) with 1 in H. rewrite Accumulate_shift in H.
      destruct (Accumulate sg bits n (acc_step sg bits v b) 0 w1) as [[[c2 k2] v2] w2] eqn:A.
      assert (Hk : k = 1 + k2) by congruence. assert (c2 = c) by congruence.
      assert (v2 = v') by congruence. assert (w2 = w') by congruence. clear H. subst c2 v2 w2 k.
      specialize (IH _ _ _ _ _ _ A).
      destruct IH as (M & T2 & L & D). split; [eapply moved_trans; eauto|].
      split; [congruence|]. split; [clear D; lia|].
      cbn [Accumulate]. rewrite C4. change (kOkCompleted =? kOkCompleted) with true. cbn iota.
      change (0 + 1) with 1. rewrite Accumulate_shift.
      pose proof (moved_sched _ _ _ C3).
      destruct D as [(D1 & D2 & D3 & D4) | [(D1 & D2 & D3 & D4) | (D1 & D2 & D3)]].
      * left. repeat split; auto; try lia. rewrite D4.
        replace (Z.to_nat (Z.of_nat (S n) - (1 + k2))) with (Z.to_nat (Z.of_nat n - k2)) by lia.
        rewrite (Accumulate_shift _ _ _ _ k2), (Accumulate_shift _ _ _ _ (1 + k2)).
        destruct (Accumulate sg bits (Z.to_nat (Z.of_nat n - k2)) v' 0 (full w')) as [[[? ?] ?] ?].
        tup.
      * right; left. repeat split; auto; try lia. rewrite D4. reflexivity.
      * right; right. repeat split; auto; try lia. rewrite D3. reflexivity.
Qed.

(* ---------- the common shape of the results ---------- *)
Definition addn {S} (n : Z) (r : Z * Z * S * world) : Z * Z * S * world :=
  let '(c, k, s, w) := r in (c, n + k, s, w).

(* Feeding st: consumes what it says it consumes, and being told to come back later
   makes no difference to what one uninterrupted call gives. *)
Definition resumes {S} (F : S -> world -> Z * Z * S * world) (st : S) : Prop :=
  forall w c n st' w', F st w = (c, n, st', w') ->
    moved n w w' /\
    (c = kWouldBlock -> (length (w_sched w') < length (w_sched w))%nat /\
                        F st (full w) = addn n (F st' (full w'))) /\
    (c <> kWouldBlock -> F st (full w) = (c, n, st', full w')).

Lemma id_rest_resumes : forall st, resumes (fun s => id_rest s 0) st.
Proof.
  intros st w c n st' w' H. unfold id_rest in *.
  destruct (Accumulate false 32 (Z.to_nat (ip_rem st)) (ip_id st) 0 w) as [[[c1 k] v] w1] eqn:A.
  quad H. apply Accumulate_spec in A. destruct A as (M & T & L & D).
  split; [exact M|]. pose proof (moved_nonneg _ _ _ M) as Hk.
  destruct D as [(D1 & D2 & D3 & D4) | [(D1 & D2 & D3 & D4) | (D1 & D2 & D3)]]; split; intro E; try (subst; discriminate);
    try congruence.
  - split; [exact D3|]. rewrite D4. cbn [ip_rem ip_id].
    replace (Z.to_nat (Z.of_nat (Z.to_nat (ip_rem st)) - k)) with (Z.to_nat (ip_rem st - k)) by lia.
    rewrite Accumulate_shift. destruct (Accumulate false 32 (Z.to_nat (ip_rem st - k)) v 0 (full w')) as [[[? ?] ?] ?].
    cbn [addn]. tup.
  - rewrite D4. subst. reflexivity.
  - rewrite D3. subst. reflexivity.
Qed.

Lemma id_rest_shift : forall st nr w, id_rest st nr w = addn nr (id_rest st 0 w).
Proof.
  intros. unfold id_rest. destruct (Accumulate _ _ _ _ _ w) as [[[? ?] ?] ?]. cbn [addn]. reflexivity.
Qed.

Lemma addn_addn : forall S a b (r : Z * Z * S * world), addn a (addn b r) = addn (a + b) r.
Proof. intros S a b [[[c k] s] w]. cbn [addn]. rewrite Z.add_assoc. reflexivity. Qed.
Lemma addn_0 : forall S (r : Z * Z * S * world), addn 0 r = r.
Proof. intros S [[[c k] s] w]. reflexivity. Qed.

Lemma clz_range : forall b, 0 <= CountLeadingZeros b.
Proof.
  intro b. unfold CountLeadingZeros. destruct (b =? 0); [lia|].
  assert (G : forall n v c, 0 <= c -> 0 <= clz_loop n v c).
  { induction n; intros v c Hc; cbn [clz_loop]; [exact Hc|]. destruct (_ =? 0); [apply IHn; lia | exact Hc]. }
  apply G; lia.
Qed.

Lemma id_rest_WB_rem : forall st nr w c n st' w', id_rest st nr w = (c, n, st', w') -> c = kWouldBlock -> 0 < ip_rem st'.
Proof.
  unfold id_rest. intros st nr w c n st' w' H E.
  destruct (Accumulate false 32 (Z.to_nat (ip_rem st)) (ip_id st) 0 w) as [[[c1 k] v] w1] eqn:A.
  quad H. apply Accumulate_spec in A. destruct A as (M & T & L & D).
  cbn [ip_rem]. apply moved_nonneg in M.
  destruct D as [(D1 & D2 & D3 & D4) | [(D1 & D2 & D3 & D4) | (D1 & D2 & D3)]]; try discriminate. lia.
Qed.

Lemma IdParser_resumes : forall st, resumes IdParser_Feed st.
Proof.
  intros st w c n st' w' H. unfold IdParser_Feed in H. destruct (ip_rem st =? -1) eqn:E0.
  - destruct (ReadByte w) as [[c1 b] w1] eqn:R. apply ReadByte_spec in R.
    destruct R as (T & [(C1 & C2 & C3 & C4) | [(C1 & C2 & C3 & C4) | (C1 & C2 & C3 & C4)]]); subst c1.
    + cbn in H. quad H. split; [exact C4|]. split; intro E; [|congruence].
      split; [exact C2|]. rewrite C3, addn_0. reflexivity.
    + cbn in H. quad H. split; [exact C3|]. split; intro E; [discriminate|].
      unfold IdParser_Feed. rewrite E0, C4. reflexivity.
    + change (negb (kOkCompleted =? kOkCompleted)) with false in H. cbn iota in H.
      destruct (Z.land b 240 =? 0) eqn:E1.
      * quad H. split; [exact C3|]. split; intro E; [discriminate|].
        unfold IdParser_Feed. rewrite E0, C4. cbn -[Z.land]. rewrite E1. reflexivity.
      * rewrite id_rest_shift in H.
        destruct (id_rest _ 0 w1) as [[[c2 n2] s2] w2] eqn:R. cbn [addn] in H. quad H.
        pose proof (id_rest_WB_rem _ _ _ _ _ _ _ R) as Q.
        apply (id_rest_resumes _) in R. destruct R as (M & W1 & W2).
        split; [eapply moved_trans; eauto|].
        unfold IdParser_Feed at 1 3. rewrite E0, C4.
        change (negb (kOkCompleted =? kOkCompleted)) with false. cbn iota. rewrite E1, id_rest_shift.
        pose proof (moved_sched _ _ _ C3).
        split; intro E.
        -- destruct (W1 E) as (L & F). split; [lia|]. rewrite F, addn_addn. f_equal.
           unfold IdParser_Feed. replace (ip_rem st' =? -1) with false by (specialize (Q E); lia). reflexivity.
        -- rewrite (W2 E). reflexivity.
  - pose proof (id_rest_WB_rem _ _ _ _ _ _ _ H) as Q.
    apply (id_rest_resumes _) in H. destruct H as (M & W1 & W2). split; [exact M|].
    unfold IdParser_Feed. rewrite E0. split; intro E.
    + destruct (W1 E) as (L & F). split; [exact L|]. rewrite F.
      replace (ip_rem st' =? -1) with false by (specialize (Q E); lia). reflexivity.
    + exact (W2 E).
Qed.

Lemma vi_rest_shift : forall st nr w, vi_rest st nr w = addn nr (vi_rest st 0 w).
Proof.
  intros. unfold vi_rest. destruct (Accumulate _ _ _ _ _ w) as [[[? ?] ?] ?].
  destruct (negb _); reflexivity.
Qed.

Lemma vi_rest_resumes : forall st w c n st' w', vi_rest st 0 w = (c, n, st', w') ->
    moved n w w' /\
    (c = kWouldBlock -> 0 < vi_rem st' /\ (length (w_sched w') < length (w_sched w))%nat /\
                        vi_rest st 0 (full w) = addn n (vi_rest st' 0 (full w'))) /\
    (c <> kWouldBlock -> vi_rest st 0 (full w) = (c, n, st', full w')).
Proof.
  intros st w c n st' w' H. unfold vi_rest in H.
  destruct (Accumulate false 64 (Z.to_nat (vi_rem st)) (vi_value st) 0 w) as [[[c1 k] v] w1] eqn:A.
  apply Accumulate_spec in A. destruct A as (M & T & L & D). pose proof (moved_nonneg _ _ _ M) as Hk.
  destruct D as [(D1 & D2 & D3 & D4) | [(D1 & D2 & D3 & D4) | (D1 & D2 & D3)]]; subst c1.
  - cbn in H. quad H. split; [exact M|]. split; intro E; [|congruence].
    split; [cbn [vi_rem]; lia|].
    split; [exact D3|]. unfold vi_rest at 1. rewrite D4. cbn [vi_rem vi_total vi_value].
    replace (Z.to_nat (Z.of_nat (Z.to_nat (vi_rem st)) - n)) with (Z.to_nat (vi_rem st - n)) by lia.
    unfold vi_rest. cbn [vi_rem vi_total vi_value].
    rewrite Accumulate_shift. destruct (Accumulate false 64 (Z.to_nat (vi_rem st - n)) v 0 (full w')) as [[[? ?] ?] ?].
    destruct (negb _); cbn [addn]; tup.
  - cbn in H. quad H. split; [exact M|]. split; intro E; [discriminate|].
    unfold vi_rest. rewrite D4. reflexivity.
  - cbn -[Z.shiftr Z.land] in H. quad H. split; [exact M|]. split; intro E; [discriminate|].
    unfold vi_rest. rewrite D3. reflexivity.
Qed.

Lemma VarIntParser_resumes : forall st, resumes VarIntParser_Feed st.
Proof.
  intros st w c n st' w' H. unfold VarIntParser_Feed in H. destruct (vi_rem st =? -1) eqn:E0.
  - destruct (ReadByte w) as [[c1 b] w1] eqn:R. apply ReadByte_spec in R.
    destruct R as (T & [(C1 & C2 & C3 & C4) | [(C1 & C2 & C3 & C4) | (C1 & C2 & C3 & C4)]]); subst c1.
    + cbn in H. quad H. split; [exact C4|]. split; intro E; [|congruence].
      split; [exact C2|]. rewrite C3, addn_0. reflexivity.
    + cbn in H. quad H. split; [exact C3|]. split; intro E; [discriminate|].
      unfold VarIntParser_Feed. rewrite E0, C4. reflexivity.
    + change (negb (kOkCompleted =? kOkCompleted)) with false in H. cbn iota in H.
      destruct (b =? 0) eqn:E1.
      * quad H. split; [exact C3|]. split; intro E; [discriminate|].
        unfold VarIntParser_Feed. rewrite E0, C4. cbn. rewrite E1. reflexivity.
      * cbv zeta in H. rewrite vi_rest_shift in H.
        destruct (vi_rest _ 0 w1) as [[[c2 n2] s2] w2] eqn:R. cbn [addn] in H. quad H.
        apply vi_rest_resumes in R. destruct R as (M & W1 & W2).
        split; [eapply moved_trans; eauto|].
        unfold VarIntParser_Feed at 1 3. rewrite E0, C4.
        change (negb (kOkCompleted =? kOkCompleted)) with false. cbn iota. rewrite E1. cbv zeta. rewrite vi_rest_shift.
        pose proof (moved_sched _ _ _ C3).
        split; intro E.
        -- destruct (W1 E) as (Q & L & F). split; [lia|]. rewrite F, addn_addn. f_equal.
           unfold VarIntParser_Feed. replace (vi_rem st' =? -1) with false by lia. reflexivity.
        -- rewrite (W2 E). reflexivity.
  - apply vi_rest_resumes in H. destruct H as (M & W1 & W2). split; [exact M|].
    unfold VarIntParser_Feed. rewrite E0. split; intro E.
    + destruct (W1 E) as (Q & L & F). split; [exact L|]. rewrite F.
      replace (vi_rem st' =? -1) with false by lia. reflexivity.
    + exact (W2 E).
Qed.

Lemma SizeParser_resumes : forall st, resumes SizeParser_Feed st.
Proof.
  intros st w c n st' w' H. unfold SizeParser_Feed in H.
  destruct (VarIntParser_Feed st w) as [[[c1 n1] s1] w1] eqn:V. quad H.
  apply VarIntParser_resumes in V. destruct V as (M & W1 & W2). split; [exact M|].
  unfold SizeParser_Feed. split; intro E.
  - assert (c1 = kWouldBlock) by (destruct (c1 =? kInvalidElementValue) eqn:Q; [discriminate | exact E]).
    destruct (W1 H) as (L & F). split; [exact L|]. rewrite F.
    destruct (VarIntParser_Feed st' (full w')) as [[[? ?] ?] ?]. reflexivity.
  - rewrite W2; [reflexivity|]. intros ->. apply E. reflexivity.
Qed.

(* ---------- numbers ---------- *)
Lemma num_resumes : forall sg bits (fin : nst -> Z -> Z -> Z) st,
  (forall v k, k < n_rem st -> fin st k v = v) ->
  (forall s' k v j, s' = mk_nst (n_rem st - k) (n_size st) v -> 0 <= k < n_rem st -> fin s' (j) = fin st (k + j)) ->
  resumes (fun s w =>
    let '(c, k, v, w1) := Accumulate sg bits (Z.to_nat (n_rem s)) (n_value s) 0 w in
    (c, k, mk_nst (n_rem s - k) (n_size s) (fin s k v), w1)) st.
Proof.
  intros sg bits fin st Hf Hg w c n st' w' H. cbv beta in H.
  destruct (Accumulate sg bits (Z.to_nat (n_rem st)) (n_value st) 0 w) as [[[c1 k] v] w1] eqn:A.
  apply Accumulate_spec in A. destruct A as (M & T & L & D). quad H.
  split; [exact M|]. pose proof (moved_nonneg _ _ _ M) as Hk.
  destruct D as [(D1 & D2 & D3 & D4) | [(D1 & D2 & D3 & D4) | (D1 & D2 & D3)]];
    split; intro E; try (subst; discriminate); try congruence.
  - split; [exact D3|]. rewrite D4. rewrite Hf by lia. cbn [n_rem n_size n_value].
    replace (Z.to_nat (Z.of_nat (Z.to_nat (n_rem st)) - n)) with (Z.to_nat (n_rem st - n)) by lia.
    rewrite Accumulate_shift.
    destruct (Accumulate sg bits (Z.to_nat (n_rem st - n)) v 0 (full w')) as [[[c2 k2] v2] w2]. cbn [addn].
    rewrite (Hg _ n v k2 eq_refl) by lia. tup.
  - rewrite D4. subst. reflexivity.
  - rewrite D3. subst. reflexivity.
Qed.

Lemma resumes_ext : forall S (F G : S -> world -> Z * Z * S * world) st,
  (forall s w, F s w = G s w) -> resumes F st -> resumes G st.
Proof. intros S F G st E R w c n st' w' H. rewrite <- E in H. rewrite <- !E. exact (R _ _ _ _ _ H). Qed.

Lemma IntParser_resumes : forall sg st, resumes (IntParser_Feed sg) st.
Proof.
  intros sg st.
  apply (resumes_ext _ (fun s w =>
    let '(c, k, v, w1) := Accumulate sg 64 (Z.to_nat (n_rem s)) (n_value s) 0 w in
    (c, k, mk_nst (n_rem s - k) (n_size s)
       ((fun s0 k0 v0 => if sg && (n_rem s0 - k0 =? 0) && (0 <? n_size s0) then sign_extend (n_size s0) v0 else v0) s k v), w1))).
  - reflexivity.
  - apply (num_resumes sg 64 (fun s0 k0 v0 => if sg && (n_rem s0 - k0 =? 0) && (0 <? n_size s0) then sign_extend (n_size s0) v0 else v0)).
    + intros v k Hk. replace (n_rem st - k =? 0) with false by lia. rewrite andb_false_r. reflexivity.
    + intros s' k v j -> Hk. cbn [n_rem n_size]. replace (n_rem st - k - j) with (n_rem st - (k + j)) by lia. reflexivity.
Qed.
Lemma DateParser_resumes : forall st, resumes DateParser_Feed st.
Proof.
  intros st. apply (resumes_ext _ _ _ _ (fun s w => eq_refl) (num_resumes true 64 (fun _ _ v => v) st (fun v k _ => eq_refl) (fun s' k v j _ _ => eq_refl))).
Qed.
Lemma IdElementParser_resumes : forall st, resumes IdElementParser_Feed st.
Proof.
  intros st. apply (resumes_ext _ _ _ _ (fun s w => eq_refl) (num_resumes false 32 (fun _ _ v => v) st (fun v k _ => eq_refl) (fun s' k v j _ _ => eq_refl))).
Qed.

Lemma FloatParser_resumes : forall st, resumes FloatParser_Feed st.
Proof.
  intros st w c n st' w' H. unfold FloatParser_Feed in H. destruct (n_rem st =? 0) eqn:E0.
  - quad H. split; [apply moved_refl|]. split; intro E; [discriminate|].
    unfold FloatParser_Feed. rewrite E0. reflexivity.
  - pose proof (num_resumes false 64 (fun _ _ v => v) st (fun v k _ => eq_refl) (fun s' k v j _ _ => eq_refl) w c n st' w' H) as (M & W1 & W2).
    split; [exact M|]. unfold FloatParser_Feed. rewrite E0. split; intro E; [|exact (W2 E)].
    destruct (W1 E) as (L & F). split; [exact L|]. rewrite F.
    destruct (Accumulate false 64 (Z.to_nat (n_rem st)) (n_value st) 0 w) as [[[c1 k] v] w1] eqn:A.
    apply Accumulate_spec in A. destruct A as (MM & T & LL & D). quad H.
    destruct D as [(D1 & D2 & D3 & D4) | [(D1 & D2 & D3 & D4) | (D1 & D2 & D3)]]; try discriminate.
    apply moved_nonneg in MM. cbn [n_rem]. replace (n_rem st - n =? 0) with false by lia. reflexivity.
Qed.

(* ---------- byte strings and skipping ---------- *)
Lemma ByteParser_resumes : forall str st, 0 <= by_want st -> resumes (ByteParser_Feed str) st.
Proof.
  intros str st Hw w c n st' w' H. unfold ByteParser_Feed in H. destruct (by_want st =? 0) eqn:E0.
  - quad H. split; [apply moved_refl|]. split; intro E; [discriminate|].
    unfold ByteParser_Feed. rewrite E0. reflexivity.
  - destruct (take_all (by_want st) w) as [[c1 bs] w1] eqn:T. quad H.
    pose proof (take_all_moved _ _ _ _ _ Hw T) as M.
    pose proof (take_all_resume _ _ _ _ _ Hw T) as (W1 & W2).
    pose proof (take_all_spec _ _ _ _ _ Hw T) as (us & D & S & _ & L & C).
    split; [exact M|]. unfold ByteParser_Feed. rewrite E0. split; intro E.
    + destruct C as [(C1 & C2 & C3) | [(C1 & C2 & C3) | (C1 & C2 & C3)]]; try (subst; discriminate). subst c.
      change (kWouldBlock =? kOkCompleted) with false. rewrite andb_false_r. cbn [by_want by_got].
      split. { rewrite S, app_length. destruct us; [congruence | cbn [length]; lia]. }
      replace (by_want st - zlen bs =? 0) with false
        by (destruct C3 as [C3 | ->]; [lia | change (zlen []) with 0; lia]).
      destruct (take_all (by_want st - zlen bs) (full w')) as [[c2 b2] w2] eqn:T2.
      rewrite (W1 eq_refl _ _ _ eq_refl). cbn [addn]. rewrite zlen_app, app_assoc.
      tup.
    + rewrite (W2 E). reflexivity.
Qed.

Lemma SkipParser_resumes : forall st, 0 <= st -> resumes SkipParser_Feed st.
Proof.
  intros st Hw w c n st' w' H. unfold SkipParser_Feed in H. destruct (st =? 0) eqn:E0.
  - quad H. split; [apply moved_refl|]. split; intro E; [discriminate|].
    unfold SkipParser_Feed. rewrite E0. reflexivity.
  - destruct (take_all st w) as [[c1 bs] w1] eqn:T. quad H.
    pose proof (take_all_moved _ _ _ _ _ Hw T) as M.
    pose proof (take_all_resume _ _ _ _ _ Hw T) as (W1 & W2).
    pose proof (take_all_spec _ _ _ _ _ Hw T) as (us & D & S & _ & L & C).
    split; [exact M|]. unfold SkipParser_Feed. rewrite E0. split; intro E.
    + destruct C as [(C1 & C2 & C3) | [(C1 & C2 & C3) | (C1 & C2 & C3)]]; try (subst; discriminate). subst c.
      split. { rewrite S, app_length. destruct us; [congruence | cbn [length]; lia]. }
      replace (st - zlen bs =? 0) with false
        by (destruct C3 as [C3 | ->]; [lia | change (zlen []) with 0; lia]).
      destruct (take_all (st - zlen bs) (full w')) as [[c2 b2] w2] eqn:T2.
      rewrite (W1 eq_refl _ _ _ eq_refl). cbn [addn]. rewrite zlen_app.
      tup.
    + rewrite (W2 E). reflexivity.
Qed.
