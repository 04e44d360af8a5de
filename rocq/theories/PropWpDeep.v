(* Properties of the callback parser: how deep it follows elements inside each other. *)
From Coq Require Import ZifyBool ZifyNat.
From Verif Require Import Base WpSpec NestSpec DeepSpec MWp MWpBlock MWpTree PWp1 PWp2 PWp3 PWp4 PWp5 PWp6 PWp7 PWp8 PWp9 PWp10 PWp11 PWp13 PropWp PropWpNest.

(* A parser in use with one callback object, which may also be told of seeks between
   the calls of Feed. *)
Inductive lived (cb : callback) : wparser -> list entry -> Prop :=
| lived_new : lived cb wp_new []
| lived_feed : forall fuel p data pos sched t s p' w',
    lived cb p t -> Forall (fun b => 0 <= b < 256) data ->
    WebmParser_Feed cb fuel p (mk_world data pos sched t) = Some (s, p', w') ->
    lived cb p' (w_trace w')
| lived_seek : forall p t, lived cb p t -> lived cb (WebmParser_DidSeek p) t.
Lemma used_lived : forall cb p t, used cb p t -> lived cb p t.
Proof. intros cb p t U. induction U; [constructor | econstructor; eauto]. Qed.
Lemma lived_reached : forall cb p t, proper cb -> lived cb p t -> reached p.
Proof.
  intros cb p t P U. induction U as [|fuel p data pos sched t s p' w' U IH D F|p t U IH]; [constructor| |constructor; exact IH].
  exact (reached_feed cb fuel p (mk_world data pos sched t) s _ w' IH P D F).
Qed.

(* C32.  Whatever the bytes, however they arrive, whatever the callback answers and
   however often Feed and DidSeek are called, no reported value contains more than 26 chapters, or
   more than 26 tags, one inside the other. *)
Lemma used_deep : forall cb id cap,
  (forall n i cn x max p, lookup i (children n) = Some cn ->
     parser_Init cn x max = (kOkCompleted, p) -> wrapped n p = true -> (bump id i (capp cap p) <= cap n)%nat) ->
  (forall n i cn, lookup i (children n) = Some cn -> is_value n = true -> is_master cn = true -> (bump id i (cap cn) <= cap n)%nat) ->
  (forall vn, match vn with VAtom _ | VSimpleTag _ => True | _ => (cap (NVal vn) <= 26)%nat end) ->
  forall p t, lived cb p t -> okdd id cap (wp_doc p) /\ at_most 26 id t.
Proof.
  intros cb id cap Hc Hn Ht p t U. induction U as [|fuel p data pos sched t s p' w' U (O & Q) D F | p t U (O & Q)].
  3: { split; [exact I | exact Q]. }
  - split; [exact I|]. intros e r v [].
  - unfold WebmParser_Feed in F. destruct (is_parsing_error (wp_status p)); [injection F as _ <- <-; auto|].
    destruct (dloop cb fuel _ _ _) as [[[c d] w2]|] eqn:E; [|discriminate]. injection F as _ <- <-.
    exact (doc_d cb id cap Hc Hn Ht fuel _ _ (mk_world data pos sched t) _ _ _ O Q E).
Qed.

Theorem C32_chapters_bounded : forall cb p t, lived cb p t -> at_most 26 0xB6 t.
Proof.
  intros cb p t U. refine (proj2 (used_deep cb idChapterAtom cap_atom atom_child atom_node _ p t U)).
  intro vn. destruct vn; cbn; auto; lia.
Qed.
Print Assumptions C32_chapters_bounded.

Theorem C32_tags_bounded : forall cb p t, lived cb p t -> at_most 26 0x67C8 t.
Proof.
  intros cb p t U. refine (proj2 (used_deep cb idSimpleTag cap_tag tag_child tag_node _ p t U)).
  intro vn. destruct vn; cbn; auto; lia.
Qed.
Print Assumptions C32_tags_bounded.

(* ... and no more than 61 element parsers are ever at work inside each other, so the
   depth of the call stack does not depend on the file. *)
Fixpoint at_work (p : pstate) : nat :=
  match p with
  | PMaster _ m ch _ =>
      S (match m_state m, ch with MBody, CAct q => at_work q | _, _ => 0%nat end)
  | PRec q => S (at_work q)
  | _ => 1%nat
  end.
Definition doc_at_work (d : dst) : nat :=
  match d_state d, d_child d with DBody, CAct p => at_work p | _, _ => 0%nat end.

Lemma cons_at_work : forall k p, (pht p <= k)%nat -> cons p -> (at_work p <= S (pht p))%nat.
Proof.
  induction k as [|k IH]; intros p L C; destruct p as [sg s|s|s|s|s|str s|x rem|x rem|rem|simple s|s|n m ch v|q]; cbn [at_work pht] in *; try lia.
  - destruct C as (M & C). pose proof (ht_pos n M). lia.
  - destruct C as (M & C). destruct (m_state m); try lia. destruct ch as [| |q]; try lia. destruct C as (C1 & C2).
    cbn [consc] in C2. assert (Q : (at_work q <= S (pht q))%nat) by (apply IH; [lia | exact C2]). lia.
  - assert (Q : (at_work q <= S (pht q))%nat) by (apply IH; [lia | exact C]). lia.
Qed.

Theorem C32_stack_bounded : forall cb p t, proper cb -> lived cb p t -> (doc_at_work (wp_doc p) <= 61)%nat.
Proof.
  intros cb p t P U. pose proof (lived_reached cb p t P U) as R. apply reached_ok in R. destruct R as (_ & C).
  assert (L : low (d_child (wp_doc p))).
  { clear C. induction U as [|fuel p data pos sched t s p' w' U IH D F|p t U IH]; [exact I| |exact I].
    unfold WebmParser_Feed in F. destruct (is_parsing_error (wp_status p)); [injection F as _ <- _; exact IH|].
    destruct (dloop cb fuel _ _ _) as [[[c d] w2]|] eqn:E; [|discriminate]. injection F as _ <- _.
    exact (doc_low cb fuel _ _ _ _ _ _ IH E). }
  unfold doc_at_work. unfold consd in C. destruct (d_state (wp_doc p)); try lia. destruct (d_child (wp_doc p)) as [| |q]; try lia.
  cbn [low] in L. pose proof (cons_at_work _ _ (le_n _) C). lia.
Qed.
Print Assumptions C32_stack_bounded.

(* A file with k chapters one inside the other.  26 are reported; with 27 the parser
   stops with an error instead of following them; at that point 54
   parsers are at work. *)
Definition sized (id body : list Z) : list Z := id ++ [0x10; 0; Z.of_nat (length body) / 256; Z.of_nat (length body) mod 256] ++ body.
Fixpoint chapters (k : nat) : list Z :=
  match k with O => [0x91; 0x81; 7] | S k' => sized [0xB6] (chapters k') end.
Definition chapter_file (k : nat) : list Z :=
  sized [0x18; 0x53; 0x80; 0x67] (sized [0x10; 0x43; 0xA7; 0x70] (sized [0x45; 0xB9] (chapters k))).
Definition deepest (id : Z) (t : list entry) : nat :=
  fold_right (fun x => Nat.max (match carried (fst x) with Some v => levels id v | None => 0 end)) 0%nat t.
Example C32_example :
  (exists p w, WebmParser_Feed read_all 2000 wp_new (source (chapter_file 26) []) = Some (kOkCompleted, p, w) /\
     deepest 0xB6 (w_trace w) = 26%nat) /\
  (exists p w, WebmParser_Feed read_all 2000 wp_new (source (chapter_file 27) []) = Some (kExceededRecursionDepthLimit, p, w) /\
     used read_all p (w_trace w) /\ deepest 0xB6 (w_trace w) = 0%nat /\ doc_at_work (wp_doc p) = 54%nat).
Proof.
  assert (D : Forall (fun b => 0 <= b < 256) (chapter_file 27)).
  { apply Forall_forall. intros b I.
    assert (E : forallb (fun b => (0 <=? b) && (b <? 256)) (chapter_file 27) = true) by (vm_compute; reflexivity).
    rewrite forallb_forall in E. apply E in I. lia. }
  split.
  - destruct (WebmParser_Feed read_all 2000 wp_new (source (chapter_file 26) [])) as [[[s p] w]|] eqn:F; [|vm_compute in F; discriminate].
    exists p, w. vm_compute in F. injection F as <- _ <-. split; [reflexivity | vm_compute; reflexivity].
  - destruct (WebmParser_Feed read_all 2000 wp_new (source (chapter_file 27) [])) as [[[s p] w]|] eqn:F; [|vm_compute in F; discriminate].
    exists p, w. pose proof (used_feed _ _ _ _ _ _ _ _ _ _ (used_new _) D F) as U. split; [|split; [exact U|]].
    + vm_compute in F. injection F as <- _ _. reflexivity.
    + clear U. vm_compute in F. injection F as _ <- <-. split; vm_compute; reflexivity.
Qed.
