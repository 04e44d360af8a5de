(* The callback parser: every call of Feed on the document returns. *)
From Coq Require Import ZifyBool ZifyNat.
From Verif Require Import Base WpSpec MWp MWpBlock MWpTree PWp1 PWp2 PWp3 PWp4 PWp5 PWp6 PWp7 PWp8 PWp9.

Definition consd (d : dst) : Prop :=
  match d_state d with
  | DBegin | DId => need (d_idp d)
  | DAction | DInit => match d_child d with CSel _ => True | _ => False end
  | DBody => match d_child d with CAct p => cons p | _ => False end
  | _ => True
  end.

(* after a seek, the chain of parsers for the ancestors can be set up *)
Fixpoint leads (n : node) (anc : list Z) (id : Z) : bool :=
  is_master n &&
  match anc with
  | [] => match lookup id (children n) with Some _ => true | None => false end
  | a :: rest => match lookup a (children n) with Some cn => leads cn rest id | None => false end
  end.
Definition top_node (top : Z) : node := if top =? idSegment then NSegment else NVal VEbml.
Lemma ById_leads : forall id anc, ById id = Some anc -> leads (top_node (hd 0 anc)) (tl anc) id = true.
Proof.
  intros id anc H. unfold ById in H.
  destruct (find (fun e => existsb (Z.eqb id) (fst e)) ancestories) as [e|] eqn:F; [|discriminate]. injection H as <-.
  apply find_some in F. destruct F as (I & X). apply existsb_exists in X. destruct X as (j & Ij & Ej). apply Z.eqb_eq in Ej. subst j.
  assert (A : forallb (fun e => forallb (fun id => leads (top_node (hd 0 (snd e))) (tl (snd e)) id) (fst e)) ancestories = true)
    by (vm_compute; reflexivity).
  rewrite forallb_forall in A. specialize (A e I). rewrite forallb_forall in A. exact (A id Ij).
Qed.
Lemma sought_cons : forall anc n cm, leads n anc (me_id cm) = true ->
  exists p, InitAfterSeek n anc cm = Some p /\ cons p /\ pht p = ht n.
Proof.
  induction anc as [|a anc IH]; intros n cm H; cbn [leads] in H; apply andb_prop in H; destruct H as (M & H); cbn [InitAfterSeek].
  - destruct (lookup (me_id cm) (children n)) as [cn|] eqn:E; [|discriminate].
    eexists. split; [reflexivity|]. split; [|reflexivity]. cbn. split; [exact M|]. eapply lookup_ht; eauto.
  - destruct (lookup a (children n)) as [cn|] eqn:E; [|discriminate]. destruct (IH cn cm H) as (p & P & C & Q). rewrite P.
    eexists. split; [reflexivity|]. split; [|reflexivity]. cbn. split; [exact M|]. split; [|exact C]. rewrite Q. eapply lookup_ht; eauto.
Qed.
Lemma ById_sought : forall anc cm, ById (me_id cm) = Some anc ->
  exists p, InitAfterSeek (if hd 0 anc =? idSegment then NSegment else NVal VEbml) (tl anc) cm = Some p /\ cons p /\
    pht p = ht (top_node (hd 0 anc)).
Proof. intros anc cm H. exact (sought_cons _ _ _ (ById_leads _ _ H)). Qed.

Section doc.
Variable cb : callback.
Hypothesis Pcb : proper cb.
Notation len w := (length (w_data w)).

Definition okD (sk : bool) (d : dst) (w : world) : Prop :=
  exists c d' w', dloops cb sk d w (c, d', w') /\ consd d' /\ wfd d'.
Definition claimD (L : nat) : Prop := forall sk d w, octets w -> wfd d -> consd d -> sk = d_skip d -> (len w <= L)%nat -> okD sk d w.
Lemma okD_step : forall sk d w sk1 d1 w1, (forall x, dloops cb sk1 d1 w1 x -> dloops cb sk d w x) -> okD sk1 d1 w1 -> okD sk d w.
Proof. intros sk d w sk1 d1 w1 H (c & d' & w' & A & B). exists c, d', w'. auto. Qed.

Section level.
Variable L : nat.
Hypothesis IHL : forall L', (L' < L)%nat -> claimD L'.
Definition dstage (st : dstate) (P : child -> Prop) : Prop := forall sk d w,
  d_state d = st -> P (d_child d) -> octets w -> wfd d -> consd d -> sk = d_skip d -> (len w <= L)%nat -> okD sk d w.
Definition dyoung (ch : child) : Prop := match ch with CAct p => fresh p | _ => False end.

Lemma ds_End : dstage DEnd (fun _ => True).
Proof.
  intros sk d w Ed _ O W C S Hl. exists kOkCompleted, d, w. split; [|auto]. exists 1%nat. cbn [dloop]. rewrite Ed. reflexivity.
Qed.
Lemma ds_Id : dstage DId (fun _ => True).
Proof.
  intros sk d w Ed _ O W C S Hl. unfold consd in C. rewrite Ed in C.
  destruct (IdParser_Feed (d_idp d) w) as [[[s k1] i] w1] eqn:I.
  pose proof (IdParser_resumes _ _ _ _ _ _ I) as (M & _). pose proof (Id_need _ _ _ _ _ _ C I) as (N1 & N2).
  pose proof (moved_len _ _ _ M) as Ln. pose proof (moved_nonneg _ _ _ M) as Kn.
  assert (O1 : octets w1) by (eapply octets_moved; eauto).
  set (d1 := mk_dst DId i (d_szp d) (cm_add_hsize k1 (d_cm d)) (d_skip d) (d_child d) (d_seek d)).
  assert (W1 : wfd d1) by exact W.
  destruct (s =? kOkCompleted) eqn:E.
  - apply Z.eqb_eq in E. subst s. specialize (N1 eq_refl).
    apply (okD_step sk d w sk (d_set_state DSize d1) w1).
    + intros x (g & G). exists (Datatypes.S g). cbn [dloop]. rewrite Ed, I. exact G.
    + apply (IHL (len w1)); auto; [lia | exact Logic.I].
  - destruct ((s =? kEndOfFile) && (w_pos w1 =? me_pos (d_cm d))) eqn:E2.
    + apply (okD_step sk d w sk (d_set_state DEnd d1) w1).
      * intros x (g & G). exists (Datatypes.S g). cbn [dloop]. rewrite Ed, I. cbv zeta. rewrite E, E2. exact G.
      * apply ds_End; auto; [exact Logic.I | lia].
    + exists s, d1, w1. split; [|split; [|exact W1]].
      * exists 1%nat. cbn [dloop]. rewrite Ed, I. cbv zeta. rewrite E, E2. reflexivity.
      * cbn. apply N2. apply Z.eqb_neq. exact E.
Qed.
Lemma ds_Begin : dstage DBegin (fun _ => True).
Proof.
  intros sk d w Ed _ O W C S Hl. unfold consd in C. rewrite Ed in C.
  eapply okD_step.
  - intros x (g & G). exists (Datatypes.S g). cbn [dloop]. rewrite Ed. exact G.
  - apply ds_Id; auto.
Qed.

Lemma dbody_then : forall sk d p w,
  d_state d = DBody -> d_child d = CAct p -> octets w -> wfd d -> cons p -> sk = d_skip d -> (len w <= L)%nat ->
  (forall p2 w2 cm, (fresh p -> cached p2 = None) -> octets w2 -> (len w2 <= L)%nat -> 0 <= me_size cm ->
     okD false (mk_dst (match cached p2 with Some _ => DValidate | None => DId end) id_new vi_new cm false CNone (d_seek d)) w2) ->
  okD sk d w.
Proof.
  intros sk d p w Ed Ec O (Wm & Wc) C S Hl Next. rewrite Ec in Wc. cbn [wfc] in Wc.
  destruct (feed_ends cb Pcb sk p w O Wc C) as (c & k & p2 & w2 & F & C2 & _ & Fr).
  pose proof (feeds_moved cb Pcb _ _ _ _ _ _ _ O Wc F) as M. pose proof (moved_len _ _ _ M) as Ln.
  pose proof (moved_nonneg _ _ _ M) as Kn. assert (O2 : octets w2) by (eapply octets_moved; eauto).
  destruct F as (f & F). pose proof (proj1 (feed_keeps cb Pcb f) _ _ _ _ _ _ _ Wc F) as (_ & _ & Wp2).
  destruct (c =? kOkCompleted) eqn:E.
  2:{ exists c, (d_set_child (CAct p2) d), w2. split; [|split].
      - exists (Datatypes.S f). cbn [dloop]. rewrite Ed, Ec, F, E. reflexivity.
      - unfold consd. cbn [d_set_child d_state d_child]. rewrite Ed. exact C2.
      - split; [exact Wm | exact Wp2]. }
  eapply okD_step.
  - intros x (g & G). exists (Datatypes.S (Nat.max f g)). cbn [dloop]. rewrite Ed, Ec.
    rewrite (feed_mono cb f (Nat.max f g) _ _ _ _ (Nat.le_max_l _ _) F). cbn iota. rewrite E. cbn [negb]. cbv zeta.
    apply (dloop_mono cb g (Nat.max f g)); [apply Nat.le_max_r | exact G].
  - match goal with |- okD false (mk_dst _ _ _ ?x _ _ _) _ => set (cm := x) end.
    assert (Sz : 0 <= me_size cm).
    { unfold cm. cbn [me_size]. destruct (cached p2) as [y|] eqn:Cy; [eapply cached_wf; eauto | exact Wm]. }
    clearbody cm. destruct (Z.eq_dec k 0) as [-> | Nk].
    + apply Next; auto. lia.
    + apply (IHL (len w2)); auto; [lia | split; [exact Sz | exact Logic.I] |].
      unfold consd. cbn [d_state d_idp]. destruct (cached p2); [exact Logic.I | apply need_new].
Qed.

Lemma ds_young : dstage DBody dyoung.
Proof.
  intros sk d w Ed Hc O W C S Hl. unfold consd in C. rewrite Ed in C.
  destruct (d_child d) as [| |p] eqn:Ec; try (elim C; fail).
  apply (dbody_then sk d p w); auto. intros p2 w2 cm Fr O2 L2 Sz. rewrite (Fr Hc).
  apply ds_Id; auto; [split; [exact Sz | exact Logic.I] | apply need_new].
Qed.
Lemma ds_Init : dstage DInit (fun _ => True).
Proof.
  intros sk d w Ed _ O W C S Hl. pose proof C as C0. unfold consd in C. rewrite Ed in C.
  destruct (d_child d) as [|cn|] eqn:Ec; try (elim C; fail).
  destruct (parser_Init cn (d_cm d) (me_size (d_cm d))) as [s p] eqn:I.
  destruct (s =? kOkCompleted) eqn:E.
  - apply Z.eqb_eq in E. subst s. pose proof (Init_wf _ _ _ _ _ (proj1 W) I eq_refl) as Wp.
    apply (okD_step sk d w sk (d_set_state DBody (d_set_child (CAct p) d)) w).
    + intros x (g & G). exists (Datatypes.S g). cbn [dloop]. rewrite Ed, Ec, I. exact G.
    + apply ds_young; auto.
      * exact (Init_fresh _ _ _ _ I).
      * split; [exact (proj1 W) | exact Wp].
      * exact (proj1 (Init_cons _ _ _ _ I)).
  - exists s, d, w. split; [|auto]. exists 1%nat. cbn [dloop]. rewrite Ed, Ec, I, E. reflexivity.
Qed.
Lemma ds_Action : dstage DAction (fun _ => True).
Proof.
  intros sk d w Ed _ O W C S Hl. unfold consd in C. rewrite Ed in C.
  destruct (d_child d) as [|cn|] eqn:Ec; try (elim C; fail).
  destruct (notify cb sk (EElement (d_cm d)) w) as [[s skip] w1] eqn:N. pose proof N as N0.
  apply notify_spec in N; [|exact Pcb]. destruct N as (N1 & N2 & N3 & N4 & _).
  pose proof (moved_len _ _ _ N3) as Ln. assert (O1 : octets w1) by (eapply octets_moved; eauto).
  destruct (s =? kOkCompleted) eqn:E.
  2:{ eexists s, _, w1. split; [|split].
      - exists 1%nat. cbn [dloop]. rewrite Ed, N0. cbv zeta. rewrite E. reflexivity.
      - unfold consd. cbn [d_state d_child]. rewrite Ec. exact Logic.I.
      - exact W. }
  destruct skip.
  - eapply okD_step.
    + intros x (g & G). exists (Datatypes.S g). cbn [dloop]. rewrite Ed, N0. cbv zeta. rewrite E. exact G.
    + apply ds_Init; auto; try lia; destruct (me_size (d_cm d) =? kUnknownElementSize); try reflexivity; try exact W.
      * split; [exact (proj1 W) | exact Logic.I].
      * unfold consd. cbn [d_state d_child d_set_state]. rewrite Ec. exact Logic.I.
  - assert (Hs : sk = false) by (destruct sk; [discriminate N0 | reflexivity]).
    eapply okD_step.
    + intros x (g & G). exists (Datatypes.S g). cbn [dloop]. rewrite Ed, N0. cbv zeta. rewrite E. exact G.
    + apply ds_Init; auto; try lia. unfold consd. cbn [d_state d_child d_set_state]. rewrite Ec. exact Logic.I.
Qed.
Lemma go_Action : forall sk d w cn b, octets w -> wfd d -> sk = d_skip d -> (len w <= L)%nat ->
  (forall f, dloop cb (Datatypes.S f) sk d w = dloop cb f sk (d_set_state DAction (d_set_child (CSel cn) (d_set_seek b d))) w) ->
  okD sk d w.
Proof.
  intros sk d w cn b O W S Hl H. eapply okD_step; [intros x (g & G); exists (Datatypes.S g); rewrite H; exact G|].
  apply ds_Action; auto; [split; [exact (proj1 W) | exact Logic.I] | exact Logic.I].
Qed.
Lemma d_set_seek_same : forall d, d_set_seek (d_seek d) d = d.
Proof. intros []. reflexivity. Qed.
Lemma validate_plain : forall sk d w, d_state d = DValidate -> (if d_seek d then ById (me_id (d_cm d)) else None) = None ->
  octets w -> wfd d -> consd d -> sk = d_skip d -> (len w <= L)%nat -> okD sk d w.
Proof.
  intros sk d w Ed Ek O W C S Hl.
  destruct (me_id (d_cm d) =? idSegment) eqn:E1; [apply (go_Action sk d w NSegment false); auto; intro f; cbn [dloop]; rewrite Ed; cbv zeta; rewrite E1; reflexivity|].
  destruct (me_id (d_cm d) =? idEbml) eqn:E2; [apply (go_Action sk d w (NVal VEbml) false); auto; intro f; cbn [dloop]; rewrite Ed; cbv zeta; rewrite E1, E2; reflexivity|].
  destruct (me_id (d_cm d) =? idVoid) eqn:E3; [apply (go_Action sk d w NVoid (d_seek d)); auto; intro f; cbn [dloop]; rewrite Ed; cbv zeta; rewrite E1, E2, Ek, E3, d_set_seek_same; reflexivity|].
  destruct (me_size (d_cm d) =? kUnknownElementSize) eqn:E4.
  - exists kIndefiniteUnknownElement, d, w. split; [|auto]. exists 1%nat. cbn [dloop]. rewrite Ed. cbv zeta. rewrite E1, E2, Ek, E3, E4. reflexivity.
  - apply (go_Action sk d w NUnknown (d_seek d)); auto; intro f; cbn [dloop]; rewrite Ed; cbv zeta; rewrite E1, E2, Ek, E3, E4, d_set_seek_same; reflexivity.
Qed.
Lemma body_plain : forall sk d w, d_state d = DBody -> d_seek d = false ->
  octets w -> wfd d -> consd d -> sk = d_skip d -> (len w <= L)%nat -> okD sk d w.
Proof.
  intros sk d w Ed Ek O W C S Hl. unfold consd in C. rewrite Ed in C.
  destruct (d_child d) as [| |p] eqn:Ec; try (elim C; fail).
  apply (dbody_then sk d p w); auto. intros p2 w2 cm Fr O2 L2 Sz. rewrite Ek. destruct (cached p2).
  - apply validate_plain; auto; split; [exact Sz | exact Logic.I].
  - apply ds_Id; auto; [split; [exact Sz | exact Logic.I] | apply need_new].
Qed.
Lemma ds_Validate : dstage DValidate (fun _ => True).
Proof.
  intros sk d w Ed _ O W C S Hl.
  destruct (if d_seek d then ById (me_id (d_cm d)) else None) as [anc|] eqn:Ek; [|apply validate_plain; auto].
  assert (B : ById (me_id (d_cm d)) = Some anc) by (destruct (d_seek d); [exact Ek | discriminate]).
  destruct (me_id (d_cm d) =? idSegment) eqn:E1; [apply (go_Action sk d w NSegment false); auto; intro f; cbn [dloop]; rewrite Ed; cbv zeta; rewrite E1; reflexivity|].
  destruct (me_id (d_cm d) =? idEbml) eqn:E2; [apply (go_Action sk d w (NVal VEbml) false); auto; intro f; cbn [dloop]; rewrite Ed; cbv zeta; rewrite E1, E2; reflexivity|].
  destruct (ById_sought anc (d_cm d) B) as (p & P & Cp & _). eapply okD_step.
  - intros x (g & G). exists (Datatypes.S g). cbn [dloop]. rewrite Ed. cbv zeta. rewrite E1, E2, Ek, P. exact G.
  - apply body_plain; auto. split; [cbn; unfold kUnknownElementSize; lia|]. cbn. eapply sought_wf; [exact (proj1 W) | exact P].
Qed.
Lemma ds_Body : dstage DBody (fun _ => True).
Proof.
  intros sk d w Ed Hc O W C S Hl. unfold consd in C. rewrite Ed in C.
  destruct (d_child d) as [| |p] eqn:Ec; try (elim C; fail).
  apply (dbody_then sk d p w); auto. intros p2 w2 cm Fr O2 L2 Sz. destruct (cached p2).
  - apply ds_Validate; auto; split; [exact Sz | exact Logic.I].
  - apply ds_Id; auto; [split; [exact Sz | exact Logic.I] | apply need_new].
Qed.
Lemma ds_Size : dstage DSize (fun _ => True).
Proof.
  intros sk d w Ed _ O W C S Hl.
  destruct (SizeParser_Feed (d_szp d) w) as [[[s k1] i] w1] eqn:I.
  pose proof (SizeParser_resumes _ _ _ _ _ _ I) as (M & _). pose proof (Size_nonneg _ _ _ _ _ _ I) as Sn.
  pose proof (moved_len _ _ _ M) as Ln. pose proof (moved_nonneg _ _ _ M) as Kn.
  assert (O1 : octets w1) by (eapply octets_moved; eauto).
  destruct (s =? kOkCompleted) eqn:E.
  - eapply okD_step.
    + intros x (g & G). exists (Datatypes.S g). cbn [dloop]. rewrite Ed, I. cbv zeta. rewrite E. exact G.
    + apply ds_Validate; auto; [|exact Logic.I | lia]. split; [apply Sn; apply Z.eqb_eq; exact E | exact (proj2 W)].
  - eexists s, _, w1. split; [|split].
    + exists 1%nat. cbn [dloop]. rewrite Ed, I. cbv zeta. rewrite E. reflexivity.
    + exact Logic.I.
    + exact W.
Qed.
End level.

Theorem doc_ends : forall L, claimD L.
Proof.
  intro L. induction L as [L IHL] using lt_wf_ind. intros sk d w O W C S Hl. destruct (d_state d) eqn:Ed.
  - apply (ds_Begin L); auto.
  - apply (ds_Id L); auto.
  - apply (ds_Size L); auto.
  - apply (ds_Validate L); auto.
  - apply (ds_Action L); auto.
  - apply (ds_Init L); auto.
  - apply (ds_Body L); auto.
  - apply (ds_End L); auto.
Qed.
End doc.
