(* Reasoning about writing computations under an arbitrary failure schedule. *)
From Verif Require Import Base MWriter WriterSpec.

(* ---------- write_at ---------- *)

Lemma write_at_length : forall f p bs, 0 <= p ->
  zlen (write_at f p bs) = Z.max (zlen f) (p + zlen bs).
Proof.
  intros f p bs Hp. unfold write_at, zlen.
  rewrite !app_length, firstn_length, app_length, repeat_length, skipn_length. lia.
Qed.

Lemma write_at_end : forall f bs, write_at f (zlen f) bs = f ++ bs.
Proof.
  intros f bs. unfold write_at, zlen. rewrite Nat2Z.id, Nat.sub_diag. cbn [repeat].
  rewrite app_nil_r, firstn_all, skipn_all2 by lia. rewrite app_nil_r. reflexivity.
Qed.

Lemma write_at_nil : forall f p, 0 <= p <= zlen f -> write_at f p [] = f.
Proof.
  intros f p Hp. unfold write_at, zlen in *. cbn [app length].
  rewrite Nat.add_0_r. replace (Z.to_nat p - length f)%nat with O by lia.
  cbn [repeat]. rewrite app_nil_r. apply firstn_skipn.
Qed.

Lemma firstn_all_eq : forall A (l : list A) n, length l = n -> firstn n l = l.
Proof. intros; subst; apply firstn_all. Qed.

Lemma skipn_skipn_add : forall A (l : list A) n m, skipn n (skipn m l) = skipn (m + n) l.
Proof.
  intros A l n m. revert l. induction m as [|m IH]; intros l; cbn [skipn Nat.add]; auto.
  destruct l; auto. rewrite skipn_nil. reflexivity.
Qed.

Lemma write_at_app : forall f p a b, 0 <= p ->
  write_at (write_at f p a) (p + zlen a) b = write_at f p (a ++ b).
Proof.
  intros f p a b Hp.
  set (k := Z.to_nat p).
  set (pre := firstn k (f ++ repeat 0 (k - length f))).
  assert (Hpre : length pre = k).
  { unfold pre. rewrite firstn_length, app_length, repeat_length. lia. }
  assert (E : write_at f p a = pre ++ a ++ skipn (k + length a) f) by reflexivity.
  assert (E2 : write_at f p (a ++ b) = pre ++ (a ++ b) ++ skipn (k + length (a ++ b)) f) by reflexivity.
  rewrite E, E2. unfold write_at.
  replace (Z.to_nat (p + zlen a)) with (k + length a)%nat by (unfold k, zlen; lia).
  replace (k + length a - length (pre ++ a ++ skipn (k + length a) f))%nat with O
    by (rewrite !app_length; lia).
  cbn [repeat]. rewrite app_nil_r.
  rewrite (app_assoc pre a (skipn _ _)).
  assert (Hpa : length (pre ++ a) = (k + length a)%nat) by (rewrite app_length; lia).
  rewrite firstn_app, Hpa, Nat.sub_diag. cbn [firstn]. rewrite app_nil_r.
  rewrite firstn_all_eq by exact Hpa.
  rewrite skipn_app, (skipn_all2 (pre ++ a)) by lia. cbn [app].
  rewrite skipn_skipn_add, Hpa, <- !app_assoc, app_length.
  do 3 f_equal. apply f_equal2; [lia|reflexivity].
Qed.

(* ---------- advanced ---------- *)

Lemma advanced_trans : forall s a s1 b s2, 0 <= w_pos s ->
  advanced s a s1 -> advanced s1 b s2 -> advanced s (a ++ b) s2.
Proof.
  intros s a s1 b s2 Hp (F1 & P1 & K1 & u1 & S1) (F2 & P2 & K2 & u2 & S2).
  unfold advanced. rewrite F2, F1, P2, P1, write_at_app, zlen_app by lia.
  split; [reflexivity|]. split; [lia|]. split; [congruence|].
  exists (u1 ++ u2). rewrite S1, S2, app_assoc. reflexivity.
Qed.

Lemma advanced_good : forall s a s', good s -> advanced s a s' -> good s'.
Proof.
  intros s a s' (Hp & Hs) (F & P & K & u & S). unfold good. split.
  - pose proof (zlen_nonneg _ a). rewrite F, write_at_length by lia. lia.
  - rewrite S in Hs. apply Forall_app in Hs. tauto.
Qed.

Lemma advanced_no_fail : forall s a s', advanced s a s' -> no_fail s -> no_fail s'.
Proof.
  intros s a s' (F & P & K & u & S) H. unfold no_fail in *. rewrite S in H.
  apply Forall_app in H. tauto.
Qed.

Lemma advanced_nil : forall s, good s -> advanced s [] s.
Proof.
  intros s (Hp & _). unfold advanced. rewrite write_at_nil by lia.
  repeat split; auto. rewrite zlen_nil; lia. exists []. reflexivity.
Qed.

(* ---------- emits ---------- *)

Lemma emits_ret : forall A (G B : A -> Prop) (a : A), G a -> emits G B (ret a) [].
Proof.
  intros A G B a Ha s Hs. exists a, s, [], []. unfold ret.
  repeat split; auto using advanced_nil; try apply advanced_nil; auto.
Qed.

(* sequencing: on failure of the first part the continuation only returns *)
Lemma emits_bind : forall A C (G1 B1 : A -> Prop) (G B : C -> Prop) (m : W A) (k : A -> W C) a b,
  emits G1 B1 m a ->
  (forall r, G1 r -> emits G B (k r) b) ->
  (forall r, B1 r -> exists x, B x /\ forall s, k r s = Val (x, s)) ->
  emits G B (bind m k) (a ++ b).
Proof.
  intros A C G1 B1 G B m k a b Hm Hk Hbad s Hs.
  destruct (Hm s Hs) as (r & s1 & p & q & Em & Eb & Adv & [[HG Hq]|[HB Hn]]).
  - subst q. rewrite app_nil_r in Eb. subst p.
    destruct (Hk r HG s1 (advanced_good _ _ _ Hs Adv)) as (r2 & s2 & p2 & q2 & Em2 & Eb2 & Adv2 & Hres).
    exists r2, s2, (a ++ p2), q2. unfold bind. rewrite Em, Em2.
    split; [reflexivity|]. split; [rewrite <- app_assoc; congruence|].
    split; [eapply advanced_trans; eauto; apply Hs|].
    destruct Hres as [?|[? Hn]]; [left; auto|right; split; auto].
    intros Hnf. apply Hn. eapply advanced_no_fail; eauto.
  - destruct (Hbad r HB) as (x & Hx & Ek).
    exists x, s1, p, (q ++ b). unfold bind. rewrite Em, Ek.
    split; [reflexivity|]. split; [rewrite app_assoc; congruence|].
    split; [assumption|]. right; auto.
Qed.

Lemma emits_bind_r : forall A C (G1 B1 : A -> Prop) (G B : C -> Prop) (m : W A) (k : A -> W C) a,
  emits G1 B1 m a ->
  (forall r, G1 r -> emits G B (k r) []) ->
  (forall r, B1 r -> exists x, B x /\ forall s, k r s = Val (x, s)) ->
  emits G B (bind m k) a.
Proof. intros. rewrite <- (app_nil_r a). eapply emits_bind; eauto. Qed.

Lemma emits_eq : forall A (G B : A -> Prop) (m : W A) a b, a = b -> emits G B m a -> emits G B m b.
Proof. intros; subst; auto. Qed.

Lemma emits_weaken : forall A (G B G' B' : A -> Prop) (m : W A) a,
  (forall r, G r -> G' r) -> (forall r, B r -> B' r) -> emits G B m a -> emits G' B' m a.
Proof.
  intros A G B G' B' m a HG HB H s Hs.
  destruct (H s Hs) as (r & s' & p & q & E1 & E2 & E3 & E4).
  exists r, s', p, q. repeat split; auto; try apply E3. intuition.
Qed.

(* a pure read of the position in front *)
Lemma emits_write : forall bs, emits st_ok (fun r => r < 0) (w_write bs) bs.
Proof.
  intros bs s (Hp & Hf). unfold w_write.
  assert (ADV : forall x r, (exists u, w_sched s = u ++ r) -> advanced s x (store x r s)).
  { intros x r Hu. unfold advanced, store. cbn. auto. }
  destruct (w_sched s) as [|[|st n] r] eqn:E.
  - exists 0, (store bs [] s), bs, []. rewrite app_nil_r. repeat split; auto.
    exists []; rewrite E; reflexivity. left; split; reflexivity.
  - exists 0, (store bs r s), bs, []. rewrite app_nil_r. repeat split; auto.
    exists [WOk]; rewrite E; reflexivity. left; split; reflexivity.
  - exists st, (store (firstn n bs) r s), (firstn n bs), (skipn n bs).
    rewrite firstn_skipn. repeat split; auto.
    exists [WFail st n]; rewrite E; reflexivity.
    right. inversion Hf as [|? ? H1 H2]; subst. split; [exact H1|].
    unfold no_fail. rewrite E. intros H. inversion H as [|? ? H3 H4]; discriminate.
Qed.

Lemma emits_write_st : forall bs, emits_st (w_write bs) bs.
Proof.
  intros bs. eapply emits_weaken; [| |apply emits_write]; unfold st_ok, st_bad; auto.
  intros; lia.
Qed.

Lemma emits_write_u32 : forall bs, zlen bs < 4294967296 -> emits_st (w_write_u32 bs) bs.
Proof.
  intros bs Hl. unfold w_write_u32, wrap32. rewrite Z.mod_small by (pose proof (zlen_nonneg _ bs); lia).
  unfold zlen. rewrite Nat2Z.id, firstn_all. apply emits_write_st.
Qed.

(* What emits gives to a client: success means exactly the bytes, and failure
   only happens when the writer failed. *)
Lemma emits_success : forall A (G B : A -> Prop) m bs s r s',
  emits G B m bs -> (forall x, G x -> ~ B x) -> good s -> m s = Val (r, s') -> G r ->
  advanced s bs s'.
Proof.
  intros A G B m bs s r s' H Hex Hs E Hr.
  destruct (H s Hs) as (r1 & s1 & p & q & E1 & Eb & Adv & Hres).
  rewrite E in E1. injection E1 as <- <-.
  destruct Hres as [[_ ->]|[HB _]]; [rewrite app_nil_r in Eb; subst; auto|].
  exfalso; eapply Hex; eauto.
Qed.

Lemma emits_no_fail : forall A (G B : A -> Prop) m bs s,
  emits G B m bs -> good s -> no_fail s ->
  exists r s', m s = Val (r, s') /\ G r /\ advanced s bs s'.
Proof.
  intros A G B m bs s H Hs Hn.
  destruct (H s Hs) as (r1 & s1 & p & q & E1 & Eb & Adv & Hres).
  destruct Hres as [[HG ->]|[_ HN]]; [|contradiction].
  rewrite app_nil_r in Eb; subst. eauto.
Qed.
