(* Running writer computations on a writer that does not fail: appending and
   overwriting. *)
From Coq Require Import ZifyBool ZifyNat.
From Verif Require Import Base EbmlSpec MWriter WriterSpec PWriter MMuxUtil PMuxUtil.

(* positioned at the end of the file, no future failure *)
Definition at_end (w : wstate) : Prop := no_fail w /\ w_pos w = zlen (w_file w).

Lemma no_fail_neg : forall w, no_fail w -> Forall neg_fail (w_sched w).
Proof.
  intros w H. unfold no_fail in H. eapply Forall_impl; [|exact H]. intros x Hx. rewrite Hx. exact I.
Qed.
Lemma at_end_good : forall w, at_end w -> good w.
Proof.
  intros w [H1 H2]. split; [|apply no_fail_neg; exact H1]. rewrite H2. pose proof (zlen_nonneg _ (w_file w)). lia.
Qed.

(* appended w bs w': w' is w after bs was appended at its end *)
Definition appended (w : wstate) (bs : list Z) (w' : wstate) : Prop :=
  at_end w' /\ w_file w' = w_file w ++ bs /\ w_seekable w' = w_seekable w.

Lemma appended_nil : forall w, at_end w -> appended w [] w.
Proof. intros w H. split; [exact H|]. rewrite app_nil_r. auto. Qed.
Lemma appended_trans : forall w a w1 b w2, appended w a w1 -> appended w1 b w2 -> appended w (a ++ b) w2.
Proof.
  intros w a w1 b w2 (_ & F1 & S1) (H & F2 & S2). split; [exact H|]. rewrite F2, F1, app_assoc, S2. auto.
Qed.
Lemma appended_end : forall w a w', appended w a w' -> at_end w'.
Proof. intros w a w' H. apply H. Qed.
Lemma appended_len : forall w a w', appended w a w' -> zlen (w_file w') = zlen (w_file w) + zlen a.
Proof. intros w a w' (_ & F & _). rewrite F. apply zlen_app. Qed.

Lemma advanced_appended : forall w bs w', at_end w -> advanced w bs w' -> appended w bs w'.
Proof.
  intros w bs w' [Hn Hp] Ha. pose proof (advanced_no_fail _ _ _ Ha Hn) as Hn'. destruct Ha as (F & P & S & _).
  rewrite Hp, write_at_end in F. split; [split; [exact Hn'|]|auto]. rewrite F, P, Hp, zlen_app. reflexivity.
Qed.

Lemma run_emits : forall A (G B : A -> Prop) m bs w, emits G B m bs -> at_end w ->
  exists r w', m w = Val (r, w') /\ G r /\ appended w bs w'.
Proof.
  intros A G B m bs w H He. destruct (emits_no_fail _ _ _ _ _ _ H (at_end_good _ He) (proj1 He)) as (r & w' & E & Hr & Ha).
  exists r, w'. split; [exact E|]. split; [exact Hr|]. apply advanced_appended; assumption.
Qed.
Lemma run_st : forall m bs w, emits_st m bs -> at_end w -> exists w', m w = Val (0, w') /\ appended w bs w'.
Proof. intros m bs w H He. destruct (run_emits _ _ _ _ _ _ H He) as (r & w' & E & -> & Ha). eauto. Qed.
Lemma run_b : forall m bs w, emits_b m bs -> at_end w -> exists w', m w = Val (true, w') /\ appended w bs w'.
Proof. intros m bs w H He. destruct (run_emits _ _ _ _ _ _ H He) as (r & w' & E & -> & Ha). eauto. Qed.
Lemma run_sz : forall m bs w, emits_sz m bs -> at_end w -> exists w', m w = Val (zlen bs, w') /\ appended w bs w'.
Proof. intros m bs w H He. destruct (run_emits _ _ _ _ _ _ H He) as (r & w' & E & -> & Ha). eauto. Qed.

Lemma check_status_run : forall A m (bad : A) k w w', m w = Val (0, w') -> check_status m bad k w = k w'.
Proof. intros A m bad k w w' E. unfold check_status, bind. rewrite E. reflexivity. Qed.
Lemma check_true_run : forall A m (bad : A) k w w', m w = Val (true, w') -> check_true m bad k w = k w'.
Proof. intros A m bad k w w' E. unfold check_true, bind. rewrite E. reflexivity. Qed.
Lemma bind_run : forall A B (m : W A) (k : A -> W B) a w w', m w = Val (a, w') -> bind m k w = k a w'.
Proof. intros A B m k a w w' E. unfold bind. rewrite E. reflexivity. Qed.
Lemma bind_position : forall B (k : Z -> W B) w, bind w_position k w = k (w_pos w) w.
Proof. reflexivity. Qed.
Lemma bind_seekable : forall B (k : bool -> W B) w, bind w_is_seekable k w = k (w_seekable w) w.
Proof. reflexivity. Qed.
Lemma bind_ret : forall A B (a : A) (k : A -> W B) w, bind (ret a) k w = k a w.
Proof. reflexivity. Qed.
Lemma bind_assoc : forall A B C (m : W A) (k : A -> W B) (h : B -> W C) w,
  bind (bind m k) h w = bind m (fun a => bind (k a) h) w.
Proof. intros A B C m k h w. unfold bind. destruct (m w) as [[a w']|]; reflexivity. Qed.

(* a seek that does not fail *)
Lemma seek_run : forall p w, no_fail w -> exists w', w_seek p w = Val (0, w') /\ no_fail w' /\
  w_file w' = w_file w /\ w_pos w' = p /\ w_seekable w' = w_seekable w.
Proof.
  intros p w H. unfold w_seek. destruct (w_sched w) as [|x r] eqn:E.
  - eexists. split; [reflexivity|]. cbn. repeat split. constructor.
  - assert (x = WOk /\ Forall is_ok r) as [-> Hr].
    { unfold no_fail in H. rewrite E in H. split; [exact (Forall_inv H)|exact (Forall_inv_tail H)]. }
    eexists. split; [reflexivity|]. cbn. repeat split. exact Hr.
Qed.

Lemma write_at_mid : forall a b c bs, zlen b = zlen bs -> write_at (a ++ b ++ c) (zlen a) bs = a ++ bs ++ c.
Proof.
  intros a b c bs H. unfold write_at, zlen in *. rewrite Nat2Z.id.
  replace (length a - length (a ++ b ++ c))%nat with O by (rewrite !app_length; lia). cbn [repeat]. rewrite app_nil_r.
  rewrite firstn_app, firstn_all, Nat.sub_diag, firstn_O, app_nil_r. f_equal. f_equal.
  rewrite skipn_app. rewrite (skipn_all2 a) by lia. cbn [app].
  rewrite skipn_app, (skipn_all2 b) by lia. cbn [app].
  replace (length a + length bs - length a - length b)%nat with O by lia. reflexivity.
Qed.

(* overwriting b by bs in the middle of the file *)
Lemma run_over : forall A (G B : A -> Prop) m bs w a b c, emits G B m bs -> no_fail w ->
  w_file w = a ++ b ++ c -> w_pos w = zlen a -> zlen b = zlen bs ->
  exists r w', m w = Val (r, w') /\ G r /\ no_fail w' /\ w_file w' = a ++ bs ++ c /\
    w_pos w' = zlen a + zlen bs /\ w_seekable w' = w_seekable w.
Proof.
  intros A G B m bs w a b c H Hn Hf Hp Hl.
  assert (Hg : good w).
  { split; [|apply no_fail_neg; exact Hn]. rewrite Hp, Hf, !zlen_app. pose proof (zlen_nonneg _ a).
    pose proof (zlen_nonneg _ b). pose proof (zlen_nonneg _ c). lia. }
  destruct (emits_no_fail _ _ _ _ _ _ H Hg Hn) as (r & w' & E & Hr & Ha).
  pose proof (advanced_no_fail _ _ _ Ha Hn) as Hn'. destruct Ha as (F & P & S & _).
  rewrite Hf, Hp, write_at_mid in F by exact Hl.
  exists r, w'. repeat split; auto. rewrite P, Hp. reflexivity.
Qed.

(* seek, overwrite, seek back to the end *)
Lemma patch_run : forall A m bs w a b c p (k : W A) bad, emits_st m bs -> at_end w ->
  w_file w = a ++ b ++ c -> p = zlen a -> zlen b = zlen bs ->
  exists w', check_status (w_seek p) bad (check_status m bad (check_status (w_seek (w_pos w)) bad k)) w = k w' /\
    at_end w' /\ w_file w' = a ++ bs ++ c /\ w_seekable w' = w_seekable w.
Proof.
  intros A m bs w a b c p k bad H [Hn Hp] Hf -> Hl.
  destruct (seek_run (zlen a) w Hn) as (w1 & E1 & N1 & F1 & P1 & S1).
  rewrite (check_status_run _ _ _ _ _ _ E1).
  destruct (run_over _ _ _ m bs w1 a b c H N1) as (r & w2 & E2 & Hr & N2 & F2 & P2 & S2); try congruence.
  hnf in Hr. subst r. rewrite (check_status_run _ _ _ _ _ _ E2).
  destruct (seek_run (w_pos w) w2 N2) as (w3 & E3 & N3 & F3 & P3 & S3).
  rewrite (check_status_run _ _ _ _ _ _ E3).
  exists w3. split; [reflexivity|]. split; [|split; congruence].
  split; [exact N3|]. rewrite P3, F3, F2, Hp, Hf, !zlen_app. lia.
Qed.
