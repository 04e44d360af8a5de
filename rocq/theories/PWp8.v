(* The callback parser: the document can be interrupted, and so can the user's calls. *)
From Coq Require Import ZifyBool ZifyNat.
From Verif Require Import Base WpSpec MWp MWpBlock MWpTree PWp1 PWp2 PWp3 PWp4 PWp5 PWp6 PWp7.

Section doc.
Variable cb : callback.
Hypothesis Pcb : proper cb.
Notation dres := (Z * dst * world)%type.

Lemma dloop_S : forall f sk d w r, dloop cb f sk d w = Some r -> dloop cb (S f) sk d w = Some r.
Proof.
  induction f as [|f IH]; intros sk d w r H; [discriminate|].
  change (dloop cb (S (S f)) sk d w) with (
      match d_state d with
      | DBegin =>
          let cm := mk_meta (me_id (d_cm d)) 0 (me_size (d_cm d)) (w_pos w) in
          dloop cb (S f) sk (mk_dst DId (d_idp d) (d_szp d) cm (d_skip d) (d_child d) (d_seek d)) w
      | DId =>
          let '(s, k, i, w1) := IdParser_Feed (d_idp d) w in
          let d1 := mk_dst DId i (d_szp d) (cm_add_hsize k (d_cm d)) (d_skip d) (d_child d) (d_seek d) in
          if negb (s =? kOkCompleted) then
            if (s =? kEndOfFile) && (w_pos w1 =? me_pos (d_cm d))
            then dloop cb (S f) sk (d_set_state DEnd d1) w1
            else Some (s, d1, w1)
          else dloop cb (S f) sk (d_set_state DSize d1) w1
      | DSize =>
          let '(s, k, z, w1) := SizeParser_Feed (d_szp d) w in
          let cm1 := cm_add_hsize k (d_cm d) in
          if negb (s =? kOkCompleted)
          then Some (s, mk_dst DSize (d_idp d) z cm1 (d_skip d) (d_child d) (d_seek d), w1)
          else
            let cm := mk_meta (ip_id (d_idp d)) (me_hsize cm1) (size_value z) (me_pos cm1) in
            dloop cb (S f) sk (mk_dst DValidate (d_idp d) z cm (d_skip d) (d_child d) (d_seek d)) w1
      | DValidate =>
          let id := me_id (d_cm d) in
          if id =? idSegment then dloop cb (S f) sk (d_set_state DAction (d_set_child (CSel NSegment) (d_set_seek false d))) w
          else if id =? idEbml then dloop cb (S f) sk (d_set_state DAction (d_set_child (CSel (NVal VEbml)) (d_set_seek false d))) w
          else match (if d_seek d then ById id else None) with
          | Some anc =>
              let top := hd 0 anc in
              match InitAfterSeek (if top =? idSegment then NSegment else NVal VEbml) (tl anc) (d_cm d) with
              | Some p => dloop cb (S f) sk (mk_dst DBody (d_idp d) (d_szp d) (unseen top) (d_skip d) (CAct p) false) w
              | None => None
              end
          | None =>
          if id =? idVoid then dloop cb (S f) sk (d_set_state DAction (d_set_child (CSel NVoid) d)) w
          else if me_size (d_cm d) =? kUnknownElementSize then Some (kIndefiniteUnknownElement, d, w)
          else dloop cb (S f) sk (d_set_state DAction (d_set_child (CSel NUnknown) d)) w
          end
      | DAction =>
          let '(s, skip, w1) := notify cb sk (EElement (d_cm d)) w in
          let d1 := mk_dst DAction (d_idp d) (d_szp d) (d_cm d) skip (d_child d) (d_seek d) in
          if negb (s =? kOkCompleted) then Some (s, d1, w1)
          else if skip
          then dloop cb (S f) true
                 (d_set_state DInit
                    (if me_size (d_cm d) =? kUnknownElementSize then d1 else d_set_child (CSel NSkip) d1)) w1
          else dloop cb (S f) sk (d_set_state DInit d1) w1
      | DInit =>
          match d_child d with
          | CSel cn =>
              let '(s, p) := parser_Init cn (d_cm d) (me_size (d_cm d)) in
              if negb (s =? kOkCompleted) then Some (s, d, w)
              else dloop cb (S f) sk (d_set_state DBody (d_set_child (CAct p) d)) w
          | _ => None
          end
      | DBody =>
          match d_child d with
          | CAct p =>
              match feed cb (S f) sk p w with
              | None => None
              | Some (s, _, p1, w1) =>
                  if negb (s =? kOkCompleted) then Some (s, d_set_child (CAct p1) d, w1)
                  else
                    let cm := match cached p1 with
                              | Some x => x
                              | None => mk_meta (me_id (d_cm d)) 0 (me_size (d_cm d)) (me_pos (d_cm d))
                              end in
                    let st := match cached p1 with Some _ => DValidate | None => DId end in
                    dloop cb (S f) false
                      (mk_dst st id_new vi_new (mk_meta (me_id cm) (me_hsize cm) (me_size cm) (w_pos w1))
                              false CNone (d_seek d)) w1
              end
          | _ => None
          end
      | DEnd => Some (kOkCompleted, d, w)
      end).
  cbn [dloop] in H. destruct (d_state d).
  - auto.
  - destruct (IdParser_Feed (d_idp d) w) as [[[? ?] ?] ?]. cbv zeta in *. destruct (negb _); [destruct (_ && _)|]; auto.
  - destruct (SizeParser_Feed (d_szp d) w) as [[[? ?] ?] ?]. cbv zeta in *. destruct (negb _); auto.
  - cbv zeta in *.
    repeat match type of H with
           | (if ?b then _ else _) = _ => destruct b
           | match ?x with Some _ => _ | None => _ end = _ => destruct x
           end; auto; discriminate.
  - destruct (notify cb sk _ w) as [[? skip] ?]. cbv zeta in *. destruct (negb _); auto. destruct skip; auto.
  - destruct (d_child d); try discriminate. destruct (parser_Init _ _ _) as [? ?]. destruct (negb _); auto.
  - destruct (d_child d) as [| |p]; try discriminate.
    destruct (feed cb f sk p w) as [x|] eqn:E; [|discriminate]. rewrite (feed_mono cb f (S f) _ _ _ _ (Nat.le_succ_diag_r f) E).
    destruct x as [[[? ?] ?] ?]. destruct (negb _); auto.
  - exact H.
Qed.
Lemma dloop_mono : forall f g sk d w r, (f <= g)%nat -> dloop cb f sk d w = Some r -> dloop cb g sk d w = Some r.
Proof. intros f g sk d w r L. induction L; auto. intro H. apply dloop_S. auto. Qed.

Definition dloops (sk : bool) (d : dst) (w : world) (r : dres) : Prop := exists f, dloop cb f sk d w = Some r.
Lemma dloops_det : forall sk d w a b, dloops sk d w a -> dloops sk d w b -> a = b.
Proof.
  intros sk d w a b (f & F) (g & G).
  apply (dloop_mono f (Nat.max f g)) in F; [|lia]. apply (dloop_mono g (Nat.max f g)) in G; [|lia]. congruence.
Qed.
Definition dagree (a b : dres) : Prop :=
  a = b \/ (fst (fst a) = fst (fst b) /\ is_parsing_error (fst (fst a)) = true /\ w_trace (snd a) = w_trace (snd b)).
Lemma dagree_refl : forall a, dagree a a.
Proof. left; reflexivity. Qed.
Definition wfd (d : dst) : Prop := 0 <= me_size (d_cm d) /\ wfc (d_child d).

Definition DRes (sk : bool) (d : dst) (w : world) (r : dres) : Prop :=
  let '(c, d', w') := r in
  (exists k, moved k w w') /\
  (c = kWouldBlock -> (length (w_sched w') < length (w_sched w))%nat /\ wfd d' /\
     (forall r2, dloops (d_skip d') d' (full w') r2 -> exists r1, dloops sk d (full w) r1 /\ dagree r1 r2)) /\
  (c <> kWouldBlock -> exists r1, dloops sk d (full w) r1 /\ dagree r1 (c, d', full w')).
Lemma DRes_cont : forall sk d w sk1 d1 w1 k1 r, moved k1 w w1 ->
  (forall x, dloops sk1 d1 (full w1) x -> dloops sk d (full w) x) -> DRes sk1 d1 w1 r -> DRes sk d w r.
Proof.
  intros sk d w sk1 d1 w1 k1 [[c d'] w'] M H ((k & M2) & W1 & W2). cbn. split; [eexists; eapply moved_trans; eauto|]. split.
  - intro E. destruct (W1 E) as (L & Wd & R). split; [pose proof (moved_sched _ _ _ M); lia|]. split; [exact Wd|].
    intros r2 H2. destruct (R r2 H2) as (r1 & A & B). exists r1. auto.
  - intro E. destruct (W2 E) as (r1 & A & B). exists r1. auto.
Qed.
Lemma DRes_done : forall sk d w c d' w' k, moved k w w' -> c <> kWouldBlock -> dloops sk d (full w) (c, d', full w') ->
  DRes sk d w (c, d', w').
Proof.
  intros. cbn. split; [eauto|]. split; [congruence|]. intros _. eexists; split; [eassumption | apply dagree_refl].
Qed.
Lemma sought_wf : forall anc n cm p, 0 <= me_size cm -> InitAfterSeek n anc cm = Some p -> wfp p.
Proof.
  induction anc as [|a anc IH]; intros n cm p Hs H; cbn [InitAfterSeek] in H.
  - destruct (lookup _ _); [|discriminate]. injection H as <-. cbn. auto.
  - destruct (lookup a _) as [cn|]; [|discriminate]. destruct (InitAfterSeek cn anc cm) eqn:E; [|discriminate].
    injection H as <-. cbn. split; [unfold kUnknownElementSize; lia | eauto].
Qed.
Definition wdoc (f : nat) : Prop := forall sk d w r, octets w -> wfd d -> sk = d_skip d ->
  dloop cb f sk d w = Some r -> DRes sk d w r.
Lemma dcont : forall f sk d w sk1 d1 w1 k1 r, wdoc f -> dloop cb f sk1 d1 w1 = Some r -> moved k1 w w1 -> octets w ->
  wfd d1 -> sk1 = d_skip d1 -> (forall x, dloops sk1 d1 (full w1) x -> dloops sk d (full w) x) -> DRes sk d w r.
Proof. intros. eapply DRes_cont; eauto. eapply H; eauto. eapply octets_moved; eauto. Qed.

Lemma dres_eq : forall (c : Z) (d d' : dst) (w : world), d = d' -> Some (c, d, w) = Some (c, d', w).
Proof. intros; subst; reflexivity. Qed.

Lemma doc_step : forall f, wdoc f -> wdoc (S f).
Proof.
  intros f IH sk d w r O (Wm & Wc) S H. cbn [dloop] in H.
  destruct (d_state d) eqn:Ed.
  - cbv zeta in H. eapply dcont; [exact IH | exact H | apply moved_refl | exact O | split; auto | exact S|].
    intros x (g & G). exists (Datatypes.S g). cbn [dloop]. rewrite Ed. exact G.
  - destruct (IdParser_Feed (d_idp d) w) as [[[s k1] i] w1] eqn:I.
    pose proof (IdParser_resumes _ _ _ _ _ _ I) as (M & W1 & W2). cbv zeta in H.
    destruct (Z.eq_dec s kWouldBlock) as [-> | N].
    + destruct (W1 eq_refl) as (L & F).
      change (negb (kWouldBlock =? kOkCompleted)) with true in H. change (kWouldBlock =? kEndOfFile) with false in H.
      cbn [andb] in H. cbn iota in H. injection H as <-.
      cbn. split; [eauto|]. split; [|congruence]. intros _. split; [exact L|]. split; [split; auto|].
      intros r2 (g & G). exists r2. split; [|apply dagree_refl]. exists g. destruct g as [|g]; [discriminate|].
      cbn [dloop d_state d_idp d_szp d_cm d_skip d_child d_seek] in G |- *. rewrite Ed, F. cbv zeta in *.
      destruct (IdParser_Feed i (full w1)) as [[[s2 k2] i2] w2]. cbn [addn].
      assert (Q : cm_add_hsize (k1 + k2) (d_cm d) = cm_add_hsize k2 (cm_add_hsize k1 (d_cm d))).
      { unfold cm_add_hsize. cbn [me_id me_hsize me_size me_pos]. f_equal. lia. }
      rewrite Q, S. exact G.
    + specialize (W2 N). destruct (s =? kOkCompleted) eqn:E; cbn [negb] in H.
      * eapply dcont; [exact IH | exact H | exact M | exact O | split; auto | exact S|].
        intros x (g & G). exists (Datatypes.S g). cbn [dloop]. rewrite Ed, W2. cbv zeta. rewrite E. exact G.
      * assert (Pw : w_pos (full w1) = w_pos w1) by reflexivity.
        destruct ((s =? kEndOfFile) && (w_pos w1 =? me_pos (d_cm d))) eqn:E2.
        -- eapply dcont; [exact IH | exact H | exact M | exact O | split; auto | exact S|].
           intros x (g & G). exists (Datatypes.S g). cbn [dloop]. rewrite Ed, W2. cbv zeta. rewrite E, Pw, E2. exact G.
        -- injection H as <-. eapply DRes_done; [exact M | exact N|]. exists 1%nat. cbn [dloop]. rewrite Ed, W2. cbv zeta.
           rewrite E, Pw, E2. reflexivity.
  - destruct (SizeParser_Feed (d_szp d) w) as [[[s k1] i] w1] eqn:I.
    pose proof (SizeParser_resumes _ _ _ _ _ _ I) as (M & W1 & W2). cbv zeta in H.
    destruct (Z.eq_dec s kWouldBlock) as [-> | N].
    + destruct (W1 eq_refl) as (L & F). change (negb (kWouldBlock =? kOkCompleted)) with true in H.
      cbn iota in H. injection H as <-.
      cbn. split; [eauto|]. split; [|congruence]. intros _. split; [exact L|]. split; [split; auto|].
      intros r2 (g & G). exists r2. split; [|apply dagree_refl]. exists g. destruct g as [|g]; [discriminate|].
      cbn [dloop d_state d_idp d_szp d_cm d_skip d_child d_seek] in G |- *. rewrite Ed, F. cbv zeta in *.
      destruct (SizeParser_Feed i (full w1)) as [[[s2 k2] i2] w2]. cbn [addn].
      assert (Q : cm_add_hsize (k1 + k2) (d_cm d) = cm_add_hsize k2 (cm_add_hsize k1 (d_cm d))).
      { unfold cm_add_hsize. cbn [me_id me_hsize me_size me_pos]. f_equal. lia. }
      rewrite Q, S. exact G.
    + specialize (W2 N). pose proof (Size_nonneg _ _ _ _ _ _ I) as Sn. destruct (s =? kOkCompleted) eqn:E; cbn [negb] in H.
      * apply Z.eqb_eq in E. subst s.
        eapply dcont; [exact IH | exact H | exact M | exact O | split; [exact (Sn eq_refl) | auto] | exact S|].
        intros x (g & G). exists (Datatypes.S g). cbn [dloop]. rewrite Ed, W2. exact G.
      * injection H as <-. eapply DRes_done; [exact M | exact N|]. exists 1%nat. cbn [dloop]. rewrite Ed, W2. cbv zeta.
        rewrite E. reflexivity.
  - cbv zeta in H. destruct (me_id (d_cm d) =? idSegment) eqn:E1; [|destruct (me_id (d_cm d) =? idEbml) eqn:E2];
    [| |destruct (if d_seek d then ById (me_id (d_cm d)) else None) as [anc|] eqn:E3].
    3:{ destruct (InitAfterSeek _ _ (d_cm d)) as [p|] eqn:E4; [|discriminate].
        eapply dcont; [exact IH | exact H | apply moved_refl | exact O | | exact S|].
        - split; [cbn; unfold kUnknownElementSize; lia|]. cbn. eapply sought_wf; eauto.
        - intros x (g & G). exists (Datatypes.S g). cbn [dloop]. rewrite Ed. cbv zeta. rewrite E1, E2, E3, E4. exact G. }
    all: repeat match type of H with (if ?b then _ else _) = _ => destruct b eqn:? end;
    try (eapply dcont; [exact IH | exact H | apply moved_refl | exact O | split; cbn; auto | exact S|];
         intros x (g & G); exists (Datatypes.S g); cbn [dloop]; rewrite Ed; cbv zeta;
         try rewrite E1; try rewrite E2; try rewrite E3;
         repeat match goal with Q : (_ =? _) = _ |- _ => rewrite Q; clear Q end; exact G).
    injection H as <-. eapply DRes_done; [apply moved_refl | discriminate|]. exists 1%nat. cbn [dloop]. rewrite Ed. cbv zeta.
    rewrite E1, E2, E3. repeat match goal with Q : (_ =? _) = _ |- _ => rewrite Q; clear Q end. reflexivity.
  - destruct (notify cb sk (EElement (d_cm d)) w) as [[s skip] w1] eqn:N. pose proof N as N0.
    apply notify_spec in N; [|exact Pcb]. destruct N as (N1 & N2 & N3 & N4 & _). cbv zeta in H.
    destruct (s =? kOkCompleted) eqn:E; cbn [negb] in H.
    2:{ injection H as <-. eapply DRes_done; [exact N3 | exact N2|]. exists 1%nat. cbn [dloop]. rewrite Ed, N4. cbv zeta.
        rewrite E. reflexivity. }
    destruct skip.
    + eapply dcont; [exact IH | exact H | exact N3 | exact O | | |].
      * destruct (me_size (d_cm d) =? kUnknownElementSize); split; cbn; auto.
      * destruct (me_size (d_cm d) =? kUnknownElementSize); reflexivity.
      * intros x (g & G). exists (Datatypes.S g). cbn [dloop]. rewrite Ed, N4. cbv zeta. rewrite E. exact G.
    + assert (Hs : sk = false) by (destruct sk; [discriminate N0 | reflexivity]).
      eapply dcont; [exact IH | exact H | exact N3 | exact O | split; auto | exact Hs |].
      intros x (g & G). exists (Datatypes.S g). cbn [dloop]. rewrite Ed, N4. cbv zeta. rewrite E. exact G.
  - destruct (d_child d) as [|cn|] eqn:Ec; try discriminate.
    destruct (parser_Init cn (d_cm d) (me_size (d_cm d))) as [s p] eqn:I.
    destruct (s =? kOkCompleted) eqn:E; cbn [negb] in H.
    + apply Z.eqb_eq in E. eapply dcont; [exact IH | exact H | apply moved_refl | exact O | split; [auto | cbn; eapply Init_wf; eauto] | exact S|].
      intros x (g & G). exists (Datatypes.S g). cbn [dloop]. rewrite Ed, Ec, I. subst s. exact G.
    + injection H as <-. eapply DRes_done; [apply moved_refl | |].
      * intro Q. subst s. destruct cn; cbn [parser_Init] in I; try (injection I as K1 K2; subst; discriminate);
        unfold IntParser_Init, FloatParser_Init, DateParser_Init, BoolParser_Init, IdElementParser_Init, ByteParser_Init,
          SkipParser_Init, BlockParser_Init, VirtualBlockParser_Init in I;
        try (repeat match type of I with context [if ?b then _ else _] => destruct b end; discriminate);
        try (destruct d0; discriminate).
      * exists 1%nat. cbn [dloop]. rewrite Ed, Ec, I, E. reflexivity.
  - destruct (d_child d) as [| |p] eqn:Ec; try discriminate. cbn [wfc] in Wc.
    destruct (feed cb f sk p w) as [[[[s k1] p1] w1]|] eqn:F; [|discriminate].
    pose proof (proj1 (feed_keeps cb Pcb f) _ _ _ _ _ _ _ Wc F) as (_ & _ & Wp1).
    pose proof (proj1 (tree_resumes cb Pcb f) _ _ _ _ O Wc F) as (M & W1 & W2).
    assert (Bad : forall s k q wq, feeds cb sk p (full w) (s, k, q, wq) -> s <> kOkCompleted ->
      dloops sk d (full w) (s, d_set_child (CAct q) d, wq)).
    { intros s0 k q wq (g & G) Ns. exists (Datatypes.S g). cbn [dloop]. rewrite Ed, Ec, G.
      rewrite (proj2 (Z.eqb_neq _ _) Ns). reflexivity. }
    set (nxt := fun q wq => mk_dst (match cached q with Some _ => DValidate | None => DId end) id_new vi_new
       (mk_meta (me_id (match cached q with Some x => x | None => mk_meta (me_id (d_cm d)) 0 (me_size (d_cm d)) (me_pos (d_cm d)) end))
                (me_hsize (match cached q with Some x => x | None => mk_meta (me_id (d_cm d)) 0 (me_size (d_cm d)) (me_pos (d_cm d)) end))
                (me_size (match cached q with Some x => x | None => mk_meta (me_id (d_cm d)) 0 (me_size (d_cm d)) (me_pos (d_cm d)) end))
                (w_pos wq)) false CNone (d_seek d)).
    assert (Good : forall k q wq x, feeds cb sk p (full w) (kOkCompleted, k, q, wq) -> dloops false (nxt q wq) wq x ->
      dloops sk d (full w) x).
    { intros k q wq x (g & G) (h & Hh). exists (Datatypes.S (Nat.max g h)). cbn [dloop]. rewrite Ed, Ec.
      rewrite (feed_mono cb g (Nat.max g h) _ _ _ _ (Nat.le_max_l _ _) G). cbn iota.
      change (negb (kOkCompleted =? kOkCompleted)) with false. cbn iota. cbv zeta.
      apply (dloop_mono h (Nat.max g h)); [apply Nat.le_max_r | exact Hh]. }
    destruct (s =? kOkCompleted) eqn:E; cbn [negb] in H.
    + apply Z.eqb_eq in E. subst s. cbv zeta in H.
      destruct (W2 ltac:(discriminate)) as (r1 & A1 & A2). apply agree_eq in A2; [|reflexivity]. subst r1.
      eapply dcont; [exact IH | exact H | exact M | exact O | split; [|exact I] | reflexivity |].
      * cbn. destruct (cached p1) as [y|] eqn:Cy; [eapply cached_wf; eauto | exact Wm].
      * intros x X. eapply Good; [exact A1|]. exact X.
    + injection H as <-. apply Z.eqb_neq in E. destruct (Z.eq_dec s kWouldBlock) as [-> | N].
      * destruct (W1 eq_refl) as (L & R). cbn. split; [eauto|]. split; [|congruence]. intros _. split; [exact L|].
        split; [split; auto|].
        intros r2 (g & G). destruct g as [|g]; [discriminate|].
        cbn [dloop d_state d_idp d_szp d_cm d_skip d_child d_seek d_set_child] in G. rewrite Ed, <- S in G.
        destruct (feed cb g sk p1 (full w1)) as [[[[s2 k2] p2] w2]|] eqn:F2; [|discriminate].
        destruct (R _ (ex_intro _ g F2)) as ([[[s3 k3] p3] w3] & A1 & A2). cbn [addn] in A2.
        destruct (s2 =? kOkCompleted) eqn:E2; cbn [negb] in G.
        -- apply Z.eqb_eq in E2. subst s2. apply agree_eq in A2; [|reflexivity]. quad A2. cbv zeta in G.
           exists r2. split; [|apply dagree_refl]. eapply Good; [exact A1|]. exists g. exact G.
        -- injection G as <-. apply Z.eqb_neq in E2.
           assert (s3 = s2) by (destruct A2 as [A2 | (A2 & _)]; [quad A2; reflexivity | exact A2]). subst s3.
           eexists. split; [eapply Bad; [exact A1 | exact E2]|].
           destruct A2 as [A2 | (B1 & B2 & B3)]; [quad A2; left; reflexivity | right; cbn in *; auto].
      * destruct (W2 N) as ([[[s3 k3] p3] w3] & A1 & A2). cbn. split; [eauto|]. split; [congruence|]. intros _.
        assert (s3 = s) by (destruct A2 as [A2 | (A2 & _)]; [quad A2; reflexivity | exact A2]). subst s3.
        eexists. split; [eapply Bad; [exact A1 | exact E]|].
        destruct A2 as [A2 | (B1 & B2 & B3)]; [quad A2; left; reflexivity | right; cbn in *; auto].
  - injection H as <-. eapply DRes_done; [apply moved_refl | discriminate|]. exists 1%nat. cbn [dloop]. rewrite Ed. reflexivity.
Qed.

Theorem doc_resumes : forall f, wdoc f.
Proof. induction f as [|f IH]; [repeat intro; discriminate | apply doc_step; exact IH]. Qed.
End doc.
