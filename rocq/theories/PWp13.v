(* The callback parser: chapters and tags inside each other are followed to a fixed
   depth only (DeepSpec.v). *)
From Coq Require Import ZifyBool ZifyNat.
From Verif Require Import Base WpSpec DeepSpec MWp MWpBlock MWpTree PWp1 PWp2 PWp3 PWp4 PWp5 PWp6 PWp7 PWp8 PWp9 PWp10 PWp11.

Lemma levels_app : forall id l i x,
  levels id (VRec (l ++ [(i, x)])) = Nat.max (levels id (VRec l)) (if i =? id then S (levels id x) else levels id x).
Proof.
  intros id l i x. cbn [levels]. induction l as [|[j y] l IH]; cbn [app].
  - lia.
  - rewrite IH. lia.
Qed.

Lemma some_inj : forall (A : Type) (a b : A), Some a = Some b -> a = b.
Proof. intros A a b H. congruence. Qed.

Section deep.
Variable cb : callback.
Variable id : Z.
Variable cap : node -> nat.
Definition bump (i : Z) (k : nat) : nat := if i =? id then S k else k.
Definition capp (p : pstate) : nat :=
  match p with PMaster n _ _ _ | PRec (PMaster n _ _ _) => cap n | _ => 0%nat end.

(* the tree gives every node a cap that covers its children *)
Hypothesis cap_child : forall n i cn x max p, lookup i (children n) = Some cn ->
  parser_Init cn x max = (kOkCompleted, p) -> wrapped n p = true -> (bump i (capp p) <= cap n)%nat.
Hypothesis cap_node : forall n i cn, lookup i (children n) = Some cn -> is_value n = true -> is_master cn = true ->
  (bump i (cap cn) <= cap n)%nat.
Hypothesis cap_top : forall vn, match vn with VAtom _ | VSimpleTag _ => True | _ => (cap (NVal vn) <= 26)%nat end.

Definition quiet (w : world) : Prop := at_most 26 id (w_trace w).

Lemma quiet_eq : forall w w', w_trace w' = w_trace w -> quiet w -> quiet w'.
Proof. unfold quiet. intros w w' -> H. exact H. Qed.
Lemma quiet_log : forall e r w, quiet w -> (forall v, carried e = Some v -> (levels id v <= 26)%nat) -> quiet (w_log (e, r) w).
Proof.
  intros e r w Q H e1 r1 v1 I C. unfold w_log in I. cbn [w_trace] in I. destruct I as [I | I].
  - injection I as <- <-. auto.
  - eapply Q; eauto.
Qed.
Lemma notify_quiet : forall sk e w c s w', notify cb sk e w = (c, s, w') -> quiet w ->
  (forall v, carried e = Some v -> (levels id v <= 26)%nat) -> quiet w'.
Proof.
  intros sk e w c s w' N Q H. unfold notify in N. destruct sk; [injection N as _ _ <-; exact Q|].
  cbv zeta in N. injection N as _ _ <-. apply quiet_log; assumption.
Qed.
Lemma log_bytes_quiet : forall d bs w, quiet w -> quiet (log_bytes d bs w).
Proof.
  intros d bs. unfold log_bytes. induction bs as [|b bs IH]; intros w Q; [exact Q|]. cbn [fold_left]. apply IH. apply quiet_log; [exact Q | discriminate].
Qed.
Lemma on_data_quiet : forall sk d rem w c r w', on_data cb sk d rem w = (c, r, w') -> quiet w -> quiet w'.
Proof.
  intros sk d rem w c r w' H Q. unfold on_data in H.
  destruct (if rem =? 0 then _ else _) as [[c1 bs] w1] eqn:T.
  assert (Q1 : quiet w1).
  { destruct (rem =? 0); [injection T as _ _ <-; exact Q|]. apply take_all_tr in T. exact (quiet_eq _ _ T Q). }
  cbv zeta in H. assert (Q2 : quiet (if sk then w1 else log_bytes d bs w1)) by (destruct sk; [exact Q1 | apply log_bytes_quiet; exact Q1]).
  destruct (negb (c1 =? kOkCompleted)); [injection H as _ _ <-; exact Q2|].
  destruct sk; [injection H as _ _ <-; exact Q2|].
  destruct (notify cb false (EDataEnd d) (log_bytes d bs w1)) as [[c3 s3] w3] eqn:N. injection H as _ _ <-.
  eapply notify_quiet; [exact N | exact Q2 | discriminate].
Qed.

(* ---------- blocks carry no structures ---------- *)
Section block.
Variables simple sk : bool.
Definition bq (r : Z * Z * bst * world) : Prop := quiet (snd r).
Lemma b_done_q : forall s nr w, quiet w -> bq (b_done cb simple sk s nr w).
Proof.
  intros s nr w Q. unfold b_done, bq. destruct (notify cb sk _ w) as [[c s1] w1] eqn:N. cbn [snd].
  eapply notify_quiet; [exact N | exact Q|]. intros v E. injection E as <-. cbn. lia.
Qed.
Lemma b_frames_q : forall k s nr w, quiet w -> bq (b_frames cb simple sk k s nr w).
Proof.
  induction k as [|k IH]; intros s nr w Q; cbn [b_frames]; [apply b_done_q; exact Q|]. cbv zeta.
  destruct (on_data cb sk _ _ w) as [[c r1] w1] eqn:D. apply on_data_quiet in D; [|exact Q].
  destruct (negb _); [exact D | apply IH; exact D].
Qed.
Lemma b_frames_step_q : forall s nr w, quiet w -> bq (b_frames_step cb simple sk s nr w).
Proof. intros. apply b_frames_q. assumption. Qed.
Lemma b_validate_q : forall s nr w, quiet w -> bq (b_validate cb simple sk s nr w).
Proof. intros s nr w Q. unfold b_validate. cbv zeta. destruct (_ <=? _); [exact Q | apply b_frames_step_q; exact Q]. Qed.
Lemma b_fixed_q : forall s nr w, quiet w -> bq (b_fixed cb simple sk s nr w).
Proof. intros s nr w Q. unfold b_fixed. cbv zeta. destruct (_ <=? _); [exact Q|]. destruct (negb _); [exact Q | apply b_frames_step_q; exact Q]. Qed.
Lemma b_ebml_q : forall k s nr w, quiet w -> bq (b_ebml cb simple sk k s nr w).
Proof.
  induction k as [|k IH]; intros s nr w Q; cbn [b_ebml]; [apply b_validate_q; exact Q|].
  destruct (VarIntParser_Feed (b_up s) w) as [[[c n] u] w1] eqn:V. apply VarInt_tr in V. apply (quiet_eq _ _ V) in Q. cbv zeta.
  destruct (negb _); [exact Q | apply IH; exact Q].
Qed.
Lemma b_ebml_first_q : forall s nr w, quiet w -> bq (b_ebml_first cb simple sk s nr w).
Proof.
  intros s nr w Q. unfold b_ebml_first.
  destruct (VarIntParser_Feed (b_up s) w) as [[[c n] u] w1] eqn:V. apply VarInt_tr in V. apply (quiet_eq _ _ V) in Q. cbv zeta.
  destruct (negb _); [exact Q | apply b_ebml_q; exact Q].
Qed.
Lemma b_xiph_q : forall f s nr w, quiet w -> bq (b_xiph_loop cb simple sk f s nr w).
Proof.
  induction f as [|f IH]; intros s nr w Q; cbn [b_xiph_loop]; (destruct (_ - 1 <=? _); [apply b_validate_q; exact Q|]); [exact Q|].
  destruct (ReadByte w) as [[c b] w1] eqn:R. apply ReadByte_tr in R. apply (quiet_eq _ _ R) in Q. cbv zeta.
  destruct (negb _); [exact Q|]. destruct (b =? 255); apply IH; exact Q.
Qed.
Lemma b_skipping_q : forall s nr w, quiet w -> bq (b_skipping s nr w).
Proof.
  intros s nr w Q. unfold b_skipping, bq. destruct (take_all _ w) as [[c bs] w1] eqn:T. apply take_all_tr in T. exact (quiet_eq _ _ T Q).
Qed.
Lemma b_action_q : forall s nr w, quiet w -> bq (b_action cb simple sk s nr w).
Proof.
  intros s nr w Q. unfold b_action. destruct (notify cb sk _ w) as [[c s1] w1] eqn:N.
  assert (Q1 : quiet w1) by (eapply notify_quiet; [exact N | exact Q|]; intros v E; injection E as <-; cbn; lia).
  cbv zeta. destruct (negb _); [exact Q1|]. destruct s1; [apply b_skipping_q; exact Q1|].
  destruct (_ || _); [apply b_validate_q; exact Q1|]. destruct (_ =? 2); [apply b_xiph_q; exact Q1|].
  destruct (_ =? 6); [apply b_ebml_first_q; exact Q1 | apply b_fixed_q; exact Q1].
Qed.
Lemma b_lace_count_q : forall s nr w, quiet w -> bq (b_lace_count cb simple sk s nr w).
Proof.
  intros s nr w Q. unfold b_lace_count. destruct (ReadByte w) as [[c b] w1] eqn:R. apply ReadByte_tr in R. apply (quiet_eq _ _ R) in Q. cbv zeta.
  destruct (negb _); [exact Q | apply b_action_q; exact Q].
Qed.
Lemma b_header_q : forall s w, quiet w -> bq (b_header cb simple sk s w).
Proof.
  intros s w Q. unfold b_header. destruct (BlockHeaderParser_Feed (b_hp s) w) as [[[c n] h] w1] eqn:R. apply BH_tr in R. apply (quiet_eq _ _ R) in Q. cbv zeta.
  destruct (negb _); [exact Q|]. destruct (_ =? 0); [apply b_action_q | apply b_lace_count_q]; exact Q.
Qed.
Lemma block_q : forall s w, quiet w -> bq (BlockParser_Feed cb simple sk s w).
Proof.
  intros s w Q. unfold BlockParser_Feed. destruct (b_state s);
    [apply b_header_q | apply b_lace_count_q | apply b_action_q | apply b_xiph_q | apply b_ebml_first_q | apply b_ebml_q | apply b_fixed_q
    | apply b_validate_q | apply b_skipping_q | apply b_frames_step_q | apply b_done_q]; exact Q.
Qed.
End block.

(* ---------- the parser states ---------- *)
Fixpoint okd (p : pstate) : Prop :=
  match p with
  | PMaster n m ch v =>
      (levels id (VRec (v_val v)) <= cap n)%nat /\
      match m_state m with
      | MAction | MInit =>
          match ch with
          | CSel cn => forall x max p, parser_Init cn x max = (kOkCompleted, p) -> wrapped n p = true ->
                         (bump (me_id (m_cm m)) (capp p) <= cap n)%nat
          | _ => True
          end
      | MBody =>
          match ch with
          | CAct q => okd q /\ (wrapped n q = true -> (bump (me_id (m_cm m)) (capp q) <= cap n)%nat)
          | _ => True
          end
      | _ => True
      end
  | PRec q => match q with PMaster _ _ _ _ => okd q | _ => False end
  | _ => True
  end.

Lemma okd_value : forall p, okd p -> (levels id (p_value p) <= capp p)%nat.
Proof.
  intros p H. destruct p as [sg s|s|s|s|s|str s|x rem|x rem|rem|simple s|s|n m ch v|q]; cbn [p_value]; try (cbn; lia).
  - exact (proj1 H).
  - destruct q; try contradiction. exact (proj1 H).
Qed.
Lemma Init_okd : forall cn x max p, parser_Init cn x max = (kOkCompleted, p) -> okd p.
Proof.
  intros cn x max p H.
  assert (M : forall n, okd (PMaster n (MasterParser_Init x max) CNone v_new)).
  { intro n. cbn [okd]. split; [cbn; lia|]. unfold MasterParser_Init. destruct (_ =? 0); exact I. }
  destruct cn; cbn [parser_Init] in H; cbv zeta in H; try (injection H as _ <-; exact I); try (injection H as <-; apply M).
  - destruct d; [discriminate|]. injection H as <-. apply M.
  - destruct d; [discriminate|]. injection H as <-. apply M.
Qed.

Definition same (p p' : pstate) : Prop := okd p' /\ capp p' = capp p /\ (forall n, wrapped n p' = wrapped n p) /\
  (forall n m ch v, p = PMaster n m ch v -> exists m' ch' v', p' = PMaster n m' ch' v').
Definition cldF (f : nat) : Prop := forall sk p w c k p' w', okd p -> quiet w -> feed cb f sk p w = Some (c, k, p', w') -> same p p' /\ quiet w'.
Definition cldM (f : nat) : Prop := forall n osk sk m ch v nr w c k m' ch' v' w', okd (PMaster n m ch v) -> quiet w ->
  mloop cb f n osk sk m ch v nr w = Some (c, k, (m', ch', v'), w') -> okd (PMaster n m' ch' v') /\ quiet w'.

Lemma on_started_q : forall n sk m v w c s w', on_started cb n sk m v w = (c, s, w') ->
  (levels id (VRec (v_val v)) <= cap n)%nat -> quiet w -> quiet w'.
Proof.
  intros n sk m v w c s w' H L Q. unfold on_started in H.
  destruct n; try (injection H as _ _ <-; exact Q).
  pose proof (cap_top v0) as T. destruct v0; try (injection H as _ _ <-; exact Q); (eapply notify_quiet; [exact H | exact Q|]; intros x E; injection E as <-); [lia | cbn; lia].
Qed.
Lemma on_completed_q : forall n sk m v w c w', on_completed cb n sk m v w = (c, w') ->
  (levels id (VRec (v_val v)) <= cap n)%nat -> quiet w -> quiet w'.
Proof.
  intros n sk m v w c w' H L Q. unfold on_completed in H. cbv zeta in H.
  assert (A : (cap n <= 26)%nat -> forall e, carried e = Some (VRec (v_val v)) -> (let '(c, _, w1) := notify cb sk e w in (c, w1)) = (c, w') -> quiet w').
  { intros T e E N. destruct (notify cb sk e w) as [[c1 s1] w1] eqn:N1. injection N as _ <-.
    eapply notify_quiet; [exact N1 | exact Q|]. intros x X. rewrite E in X. injection X as <-. lia. }
  destruct n; try (injection H as _ <-; exact Q).
  pose proof (cap_top v0) as T. destruct v0; try (injection H as _ <-; exact Q); (eapply A; [exact T | | exact H]; reflexivity).
Qed.

Lemma mloop_d : forall f, cldF f -> cldM f -> cldM (S f).
Proof.
  intros f IHf IHm n osk sk m ch v nr w c k m' ch' v' w' O Q H.
  pose proof O as (O1 & O2).
  assert (Easy : forall m1 ch1, match m_state m1 with MAction | MInit | MBody => False | _ => True end -> okd (PMaster n m1 ch1 v)).
  { intros m1 ch1 A. cbn [okd]. split; [exact O1|]. destruct (m_state m1); try exact I; contradiction. }
  destruct (m_state m) eqn:Em.
  - rewrite ml_MFirst in H by exact Em. cbv zeta in H.
    destruct (IdParser_Feed (m_idp m) w) as [[[s k1] i] w1] eqn:I. apply IdParser_tr in I. apply (quiet_eq _ _ I) in Q.
    repeat match type of H with context [if ?b then _ else _] => destruct b eqn:? end;
      try (eapply IHm; [|exact Q|exact H]; apply Easy; exact Logic.I);
      injection H as <- <- <- <- <- <-; (split; [|exact Q]); apply Easy; cbn [m_set_state m_set_idp m_add_total m_set_cm m_state]; rewrite ?Em; exact Logic.I.
  - rewrite ml_MFinishing in H by exact Em. cbv zeta in H.
    destruct (IdParser_Feed (m_idp m) w) as [[[s k1] i] w1] eqn:I. apply IdParser_tr in I. apply (quiet_eq _ _ I) in Q.
    destruct (negb (s =? kOkCompleted)); [|eapply IHm; [|exact Q|exact H]; apply Easy; exact Logic.I].
    injection H as <- <- <- <- <- <-; (split; [|exact Q]); apply Easy; cbn [m_set_state m_set_idp m_add_total m_set_cm m_state]; rewrite ?Em; exact Logic.I.
  - rewrite ml_MSize in H by exact Em. cbv zeta in H.
    destruct (SizeParser_Feed (m_szp m) w) as [[[s k1] i] w1] eqn:I. apply SizeParser_tr in I. apply (quiet_eq _ _ I) in Q.
    destruct (negb (s =? kOkCompleted)); [|eapply IHm; [|exact Q|exact H]; apply Easy; exact Logic.I].
    injection H as <- <- <- <- <- <-; (split; [|exact Q]); apply Easy; cbn [m_set_state m_set_szp m_add_total m_set_cm m_state]; rewrite ?Em; exact Logic.I.
  - rewrite ml_MValidate in H by exact Em. cbv zeta in H.
    destruct (byte_cap m <? _); [injection H as <- <- <- <- <- <-; split; [exact O | exact Q]|].
    destruct (lookup (me_id (m_cm m)) (children n)) as [cn|] eqn:L.
    + eapply IHm; [|exact Q|exact H]. cbn [okd m_set_state m_state m_cm]. split; [exact O1|]. intros. eapply cap_child; eauto.
    + destruct (m_size m =? _); [eapply IHm; [|exact Q|exact H]; apply Easy; exact Logic.I|].
      destruct (_ =? _); [injection H as <- <- <- <- <- <-; split; [exact O | exact Q]|].
      eapply IHm; [|exact Q|exact H]. cbn [okd m_set_state m_state m_cm]. split; [exact O1|]. intros x max p Ip W.
      cbn [parser_Init] in Ip. injection Ip as _ <-. unfold wrapped in W. rewrite andb_false_r in W. discriminate.
  - rewrite ml_MAction in H by exact Em. cbv zeta in H.
    destruct (notify cb sk (EElement (m_cm m)) w) as [[s skip] w1] eqn:N.
    apply notify_quiet in N; [|exact Q|discriminate].
    assert (Sk : forall st, st = MInit \/ st = MAction -> okd (PMaster n (m_set_state st (m_set_skip skip m)) ch v)).
    { intros st D. cbn [okd m_set_state m_set_skip m_state m_cm]. split; [exact O1|]. destruct D as [-> | ->]; exact O2. }
    destruct (negb (s =? kOkCompleted)).
    + injection H as <- <- <- <- <- <-. split; [|exact N]. specialize (Sk MAction (or_intror eq_refl)).
      cbn [okd m_set_state m_set_skip m_state m_cm] in *. rewrite Em. exact Sk.
    + destruct skip.
      * eapply IHm; [|exact N|exact H]. destruct (_ =? _); [apply Sk; left; reflexivity|].
        cbn [okd m_set_state m_set_skip m_state m_cm]. split; [exact O1|]. intros x max p Ip W.
        cbn [parser_Init] in Ip. injection Ip as _ <-. unfold wrapped in W. rewrite andb_false_r in W. discriminate.
      * eapply IHm; [|exact N|exact H]. apply Sk; left; reflexivity.
  - rewrite ml_MInit in H by exact Em. destruct ch as [|cn|]; try discriminate.
    destruct (parser_Init cn (m_cm m) (m_max m - m_total m)) as [s p] eqn:Ip.
    destruct (negb (s =? kOkCompleted)) eqn:E; [injection H as <- <- <- <- <- <-; split; [exact O | exact Q]|].
    apply eqk in E. subst s. eapply IHm; [|exact Q|exact H]. cbn [okd m_set_state m_state m_cm]. split; [exact O1|].
    split; [eapply Init_okd; exact Ip | eapply O2; exact Ip].
  - rewrite ml_MBody in H by exact Em. destruct ch as [| |p]; try discriminate. cbv zeta in H.
    destruct O2 as (Op & Ow).
    destruct (if wrapped n p && is_start n p && negb (v_started v) then _ else _) as [[s0 v0] w0] eqn:Pre.
    assert (P : v_val v0 = v_val v /\ quiet w0).
    { destruct (wrapped n p && is_start n p && negb (v_started v)); [|injection Pre as <- <- <-; auto].
      destruct (on_started cb n sk m v w) as [[s1 skip] w1] eqn:S. injection Pre as <- <- <-. split; [reflexivity|].
      eapply on_started_q; [exact S | exact O1 | exact Q]. }
    destruct P as (P1 & P2). rewrite <- P1 in O1.
    destruct (negb (s0 =? kOkCompleted)).
    { injection H as <- <- <- <- <- <-. split; [|exact P2]. cbn [okd]. rewrite Em. auto. }
    destruct (feed cb f sk p w0) as [[[[s2 k2] p2] w2]|] eqn:F; [|discriminate].
    apply IHf in F; [|exact Op|exact P2]. destruct F as ((F1 & F2 & F3 & _) & F4).
    set (v2 := if wrapped n p && _ && _ && _ then _ else _) in H.
    assert (V2 : (levels id (VRec (v_val v2)) <= cap n)%nat).
    { unfold v2. destruct (wrapped n p) eqn:Wr; [|exact O1].
      destruct (true && _ && _ && _); [|exact O1]. cbn [v_val]. rewrite levels_app.
      pose proof (okd_value _ F1) as L. rewrite F2 in L. specialize (Ow eq_refl). unfold bump in Ow.
      destruct (me_id (m_cm m) =? id); lia. }
    destruct (negb (s2 =? kOkCompleted)).
    + injection H as <- <- <- <- <- <-. split; [|exact F4]. cbn [okd m_add_total m_state m_cm]. rewrite Em. split; [exact V2|].
      split; [exact F1|]. rewrite F2, F3. exact Ow.
    + eapply IHm; [|exact F4|exact H]. cbn [okd m_set_state m_add_total m_state]. auto.
  - rewrite ml_MParsed in H by exact Em.
    destruct (byte_cap m <? m_total m); [injection H as <- <- <- <- <- <-; split; [exact O | exact Q]|].
    destruct (m_total m =? byte_cap m); [eapply IHm; [|exact Q|exact H]; apply Easy; exact I|].
    destruct ch as [| |p]; try discriminate. destruct (cached p); (eapply IHm; [|exact Q|exact H]); apply Easy; exact I.
  - rewrite ml_MEnd in H by exact Em. injection H as <- <- <- <- <- <-. split; [exact O | exact Q].
Qed.

Lemma feed_d : forall f, cldF f -> cldM f -> cldF (S f).
Proof.
  intros f IHf IHm sk p w c k p' w' O Q H.
  destruct p as [sg s|s|s|s|s|str s|x rem|x rem|rem|simple s|s|n m ch v|q].
  - cbn [feed] in H. destruct (IntParser_Feed sg s w) as [[[c1 k1] s1] w1] eqn:E. injection H as <- <- <- <-.
    apply Int_tr in E. split; [repeat split; auto; discriminate | exact (quiet_eq _ _ E Q)].
  - cbn [feed] in H. destruct (FloatParser_Feed s w) as [[[c1 k1] s1] w1] eqn:E. injection H as <- <- <- <-.
    apply Float_tr in E. split; [repeat split; auto; discriminate | exact (quiet_eq _ _ E Q)].
  - cbn [feed] in H. destruct (DateParser_Feed s w) as [[[c1 k1] s1] w1] eqn:E. injection H as <- <- <- <-.
    apply Date_tr in E. split; [repeat split; auto; discriminate | exact (quiet_eq _ _ E Q)].
  - cbn [feed] in H. destruct (IdElementParser_Feed s w) as [[[c1 k1] s1] w1] eqn:E. injection H as <- <- <- <-.
    apply IdEl_tr in E. split; [repeat split; auto; discriminate | exact (quiet_eq _ _ E Q)].
  - cbn [feed] in H. destruct (BoolParser_Feed s w) as [[[c1 k1] s1] w1] eqn:E. injection H as <- <- <- <-.
    apply Bool_tr in E. split; [repeat split; auto; discriminate | exact (quiet_eq _ _ E Q)].
  - cbn [feed] in H. destruct (ByteParser_Feed str s w) as [[[c1 k1] s1] w1] eqn:E. injection H as <- <- <- <-.
    apply Byte_tr in E. split; [repeat split; auto; discriminate | exact (quiet_eq _ _ E Q)].
  - cbn [feed] in H. destruct (on_data cb sk (DVoid x) rem w) as [[c1 r1] w1] eqn:E. injection H as <- <- <- <-.
    apply on_data_quiet in E; [|exact Q]. split; [repeat split; auto; discriminate | exact E].
  - cbn [feed] in H. destruct (on_data cb sk (DUnknown x) rem w) as [[c1 r1] w1] eqn:E. injection H as <- <- <- <-.
    apply on_data_quiet in E; [|exact Q]. split; [repeat split; auto; discriminate | exact E].
  - cbn [feed] in H. destruct (SkipParser_Feed rem w) as [[[c1 k1] s1] w1] eqn:E. injection H as <- <- <- <-.
    apply Skip_tr in E. split; [repeat split; auto; discriminate | exact (quiet_eq _ _ E Q)].
  - cbn [feed] in H. pose proof (block_q simple sk s w Q) as B.
    destruct (BlockParser_Feed cb simple sk s w) as [[[c1 k1] s1] w1] eqn:E. injection H as <- <- <- <-.
    split; [repeat split; auto; discriminate | exact B].
  - cbn [feed] in H. destruct (VirtualBlockParser_Feed s w) as [[[c1 k1] s1] w1] eqn:E. injection H as <- <- <- <-.
    apply Virtual_tr in E. split; [repeat split; auto; discriminate | exact (quiet_eq _ _ E Q)].
  - assert (Mk : forall m1 ch1 v1 w1, okd (PMaster n m1 ch1 v1) /\ quiet w1 -> same (PMaster n m ch v) (PMaster n m1 ch1 v1) /\ quiet w1).
    { intros m1 ch1 v1 w1 (A & B). split; [|exact B]. split; [exact A|]. split; [reflexivity|]. split; [reflexivity|].
      intros n0 m0 ch0 v0 E. injection E as <- <- <- <-. eauto. }
    assert (Vv : forall m1 ch1 v1 v2, v_val v2 = v_val v1 -> okd (PMaster n m1 ch1 v1) -> okd (PMaster n m1 ch1 v2)).
    { intros m1 ch1 v1 v2 E A. cbn [okd] in *. rewrite E. exact A. }
    destruct (is_value n) eqn:Ev; [|destruct (match n with NSegment => true | _ => false end) eqn:Es].
    + destruct n as [| | | | | | | | | | | | | | | | | | |vn| |]; try discriminate.
      rewrite fd_val' in H. destruct (val_pre cb vn sk m v w) as [[c0 v0] w0] eqn:Pre.
      assert (P : okd (PMaster (NVal vn) m ch v0) /\ quiet w0).
      { unfold val_pre in Pre. destruct vn; try (injection Pre as <- <- <-; auto).
        destruct (v_started v); [injection Pre as <- <- <-; auto|].
        destruct (on_started cb (NVal VBlockGroup) sk m v w) as [[c1 s1] w1] eqn:N.
        apply on_started_q in N; [|apply O|exact Q].
        destruct (negb _); injection Pre as <- <- <-; (split; [|exact N]); [exact O | eapply Vv; [|exact O]; reflexivity]. }
      destruct P as (P1 & P2).
      destruct (negb (c0 =? kOkCompleted)); [injection H as <- <- <- <-; apply Mk; auto|].
      destruct (val_mid cb f vn sk m ch v0 w0) as [[[[c2 k2] [[m2 ch2] v2]] w2]|] eqn:Mid; [|discriminate].
      assert (M : okd (PMaster (NVal vn) m2 ch2 v2) /\ quiet w2).
      { unfold val_mid in Mid. destruct (v_complete v0); [injection Mid as <- <- <- <- <- <-; auto|].
        destruct (mloop cb f _ _ _ m ch v0 0 w0) as [[[[c1 k1] [[m1 ch1] v1]] w1]|] eqn:E; [|discriminate].
        apply IHm in E; auto. destruct E as (E1 & E2).
        destruct (c1 =? kSwitchToSkip); [|injection Mid as <- <- <- <- <- <-; auto].
        destruct (mloop cb f _ true true m1 ch1 v1 0 w1) as [[[[c3 k3] [[m3 ch3] v3]] w3]|] eqn:E3; [|discriminate].
        apply IHm in E3; auto. cbn [option_map addn] in Mid. injection Mid as <- <- <- <- <- <-. exact E3. }
      destruct M as (M1 & M2). cbn [option_map] in H. apply some_inj in H. unfold val_post in H.
      destruct (negb (c2 =? kOkCompleted)); [quad H; apply Mk; auto|]. cbv zeta in H.
      destruct (if v_started _ then _ else _) as [[c3 v3] w3] eqn:Post.
      assert (P3 : okd (PMaster (NVal vn) m2 ch2 v3) /\ quiet w3).
      { destruct (v_started _) in Post.
        - injection Post as <- <- <-. split; [|exact M2]. eapply Vv; [|exact M1]. reflexivity.
        - destruct (on_started cb (NVal vn) sk m2 _ w2) as [[c4 s4] w4] eqn:N in Post. injection Post as <- <- <-.
          apply on_started_q in N; [|apply M1|exact M2]. split; [|exact N]. eapply Vv; [|exact M1]. reflexivity. }
      destruct P3 as (P3 & P4).
      destruct (negb (c3 =? kOkCompleted)); [quad H; apply Mk; auto|].
      destruct (v_skip v3); [quad H; apply Mk; auto|].
      destruct (on_completed cb (NVal vn) sk m2 v3 w3) as [c5 w5] eqn:Oc. quad H.
      apply on_completed_q in Oc; [|apply P3|exact P4]. apply Mk; auto.
    + destruct n as [| | | | | | | | | | | | | | | | | | |vn| |]; try discriminate.
      rewrite fd_seg' in H. destruct (seg_pre cb sk m v w) as [[c0 v0] w0] eqn:Pre.
      assert (P : okd (PMaster NSegment m ch v0) /\ quiet w0).
      { unfold seg_pre in Pre. destruct (v_started v); [injection Pre as <- <- <-; auto|].
        destruct (notify cb sk _ w) as [[c1 s1] w1] eqn:N.
        apply notify_quiet in N; [|exact Q|intros x E; injection E as <-; cbn; lia].
        destruct (negb _); injection Pre as <- <- <-; (split; [|exact N]); (eapply Vv; [|exact O]); reflexivity. }
      destruct P as (P1 & P2).
      destruct (negb (c0 =? kOkCompleted)); [injection H as <- <- <- <-; apply Mk; auto|].
      destruct (if v_complete v0 then _ else _) as [[[[c2 k2] [[m2 ch2] v2]] w2]|] eqn:Mid; [|discriminate].
      assert (M : okd (PMaster NSegment m2 ch2 v2) /\ quiet w2).
      { destruct (v_complete v0); [injection Mid as <- <- <- <- <- <-; auto|]. apply IHm in Mid; auto. }
      destruct M as (M1 & M2). cbn [option_map] in H. apply some_inj in H. unfold seg_post in H.
      destruct (negb (c2 =? kOkCompleted)); [quad H; apply Mk; auto|].
      destruct (notify cb _ _ w2) as [[c3 s3] w3] eqn:N.
      apply notify_quiet in N; [|exact M2|intros x E; injection E as <-; cbn; lia].
      quad H. apply Mk. split; [|exact N]. eapply Vv; [|exact M1]. reflexivity.
    + assert (Hn : n <> NSegment) by (intros ->; discriminate). rewrite fd_other in H by assumption.
      destruct (mloop cb f n sk _ m ch v 0 w) as [[[[c1 k1] [[m1 ch1] v1]] w1]|] eqn:E; [|discriminate]. injection H as <- <- <- <-.
      apply IHm in E; auto.
  - cbn [feed] in H. destruct (feed cb f sk q w) as [[[[c1 k1] q1] w1]|] eqn:E; [|discriminate]. injection H as <- <- <- <-.
    destruct q as [sg s|s|s|s|s|str s|x rem|x rem|rem|simple s|s|n m ch v|q]; try (exfalso; exact O).
    pose proof (IHf _ (PMaster n m ch v) _ _ _ _ _ O Q E) as ((E1 & E2 & E3 & E5) & E4). split; [|exact E4].
    destruct (E5 _ _ _ _ eq_refl) as (m1 & ch1 & v1 & ->). split; [exact E1|]. split; [reflexivity|]. split; [reflexivity | discriminate].
Qed.

Lemma all_d : forall f, cldF f /\ cldM f.
Proof.
  induction f as [|f (IHf & IHm)]; [split; repeat intro; discriminate|].
  split; [apply feed_d | apply mloop_d]; assumption.
Qed.

Definition okdd (d : dst) : Prop :=
  match d_state d, d_child d with DBody, CAct p => okd p | _, _ => True end.
(* the chain of parsers set up after a seek *)
Lemma sought_d : forall anc n cm, leads n anc (me_id cm) = true -> forall p, InitAfterSeek n anc cm = Some p -> okd p /\ capp p = cap n.
Proof.
  induction anc as [|a anc IH]; intros n cm Hl p H; cbn [leads] in Hl; apply andb_prop in Hl; destruct Hl as (M & Hl); cbn [InitAfterSeek] in H.
  - destruct (lookup (me_id cm) (children n)) as [cn|] eqn:E; [|discriminate]. injection H as <-. split; [|reflexivity].
    cbn [okd v_val sought m_state m_cm]. split; [cbn; lia|]. intros. eapply cap_child; eauto.
  - destruct (lookup a (children n)) as [cn|] eqn:E; [|discriminate].
    destruct (InitAfterSeek cn anc cm) as [q|] eqn:F; [|discriminate]. injection H as <-. split; [|reflexivity].
    destruct (IH _ _ Hl _ F) as (A & B). cbn [okd v_val sought m_state m_cm]. split; [cbn; lia|]. split; [exact A|].
    intro W. rewrite B. apply (cap_node _ _ _ E).
    + unfold wrapped in W. apply andb_prop in W. exact (proj1 W).
    + destruct anc; cbn [leads] in Hl; apply andb_prop in Hl; exact (proj1 Hl).
Qed.
Lemma doc_d : forall f sk d w s d' w', okdd d -> quiet w -> dloop cb f sk d w = Some (s, d', w') ->
  okdd d' /\ quiet w'.
Proof.
  induction f as [|f IH]; intros sk d w s d' w' O Q H; [discriminate|].
  assert (Nb : forall d1, d_state d1 <> DBody -> okdd d1) by (intros d1 N; unfold okdd; destruct (d_state d1); try exact I; congruence).
  cbn [dloop] in H. destruct (d_state d) eqn:Ed.
  - refine (IH _ _ _ _ _ _ _ _ H); [|exact Q]. apply Nb. discriminate.
  - destruct (IdParser_Feed (d_idp d) w) as [[[c k] i] w1] eqn:E. apply IdParser_tr in E. apply (quiet_eq _ _ E) in Q. cbv zeta in H.
    repeat match type of H with context [if ?b then _ else _] => destruct b end;
      try (refine (IH _ _ _ _ _ _ _ _ H); [|exact Q]; apply Nb; discriminate).
    injection H as <- <- <-. split; [apply Nb; discriminate | exact Q].
  - destruct (SizeParser_Feed (d_szp d) w) as [[[c k] i] w1] eqn:E. apply SizeParser_tr in E. apply (quiet_eq _ _ E) in Q. cbv zeta in H.
    destruct (negb _); [|refine (IH _ _ _ _ _ _ _ _ H); [|exact Q]; apply Nb; discriminate].
    injection H as <- <- <-. split; [apply Nb; discriminate | exact Q].
  - cbv zeta in H. destruct (me_id (d_cm d) =? idSegment); [refine (IH _ _ _ _ _ _ _ _ H); [|exact Q]; apply Nb; discriminate|].
    destruct (me_id (d_cm d) =? idEbml); [refine (IH _ _ _ _ _ _ _ _ H); [|exact Q]; apply Nb; discriminate|].
    destruct (if d_seek d then ById (me_id (d_cm d)) else None) as [anc|] eqn:Ek.
    { assert (By : ById (me_id (d_cm d)) = Some anc) by (destruct (d_seek d); [exact Ek | discriminate]).
      destruct (ById_sought _ _ By) as (p & P & _). cbv zeta in H. rewrite P in H.
      refine (IH _ _ _ _ _ _ _ _ H); [|exact Q]. unfold okdd. cbn [d_state d_child].
      exact (proj1 (sought_d _ _ _ (ById_leads _ _ By) _ P)). }
    repeat match type of H with context [if ?b then _ else _] => destruct b end;
      try (refine (IH _ _ _ _ _ _ _ _ H); [|exact Q]; apply Nb; discriminate).
    injection H as <- <- <-. split; [exact O | exact Q].
  - destruct (notify cb sk (EElement (d_cm d)) w) as [[c skip] w1] eqn:N. apply notify_quiet in N; [|exact Q|discriminate]. cbv zeta in H.
    repeat match type of H with context [if ?b then _ else _] => destruct b end;
      try (refine (IH _ _ _ _ _ _ _ _ H); [|exact N]; apply Nb; discriminate).
    injection H as <- <- <-. split; [apply Nb; discriminate | exact N].
  - destruct (d_child d) as [|cn|] eqn:Ec; try discriminate.
    destruct (parser_Init cn (d_cm d) (me_size (d_cm d))) as [c p] eqn:Ip.
    destruct (negb (c =? kOkCompleted)) eqn:E0; [injection H as <- <- <-; split; [exact O | exact Q]|].
    apply eqk in E0. subst c. refine (IH _ _ _ _ _ _ _ _ H); [|exact Q]. unfold okdd. cbn. eapply Init_okd; exact Ip.
  - destruct (d_child d) as [| |p] eqn:Ec; try discriminate.
    destruct (feed cb f sk p w) as [[[[c k] p1] w1]|] eqn:F; [|discriminate].
    assert (Op : okd p) by (unfold okdd in O; rewrite Ed, Ec in O; exact O).
    apply (proj1 (all_d f)) in F; auto. destruct F as ((F1 & _) & F2).
    destruct (negb (c =? kOkCompleted)).
    + injection H as <- <- <-. split; [|exact F2]. unfold okdd. cbn [d_set_child d_state d_child]. rewrite Ed. exact F1.
    + cbv zeta in H. refine (IH _ _ _ _ _ _ _ _ H); [|exact F2]. unfold okdd. cbn [d_state d_child]. destruct (cached p1); exact I.
  - injection H as <- <- <-. split; [exact O | exact Q].
Qed.
End deep.

(* ---------- chapters and tags ---------- *)
Definition cap_atom (n : node) : nat :=
  match n with NVal VEdition => 26 | NVal (VAtom d) => d | _ => 0 end%nat.
Definition cap_tag (n : node) : nat :=
  match n with NVal VTag => 26 | NVal (VSimpleTag d) => d | _ => 0 end%nat.

Ltac caps := 
  intros n i cn x max p L Ip W;
  unfold wrapped in W; apply andb_prop in W; destruct W as (W1 & W2);
  destruct n as [| | | | | | | | | | | | | | | | | | |vn| |]; try discriminate;
  unfold children, own_children in L; destruct vn; cbn [val_children app lookup] in L;
  repeat match type of L with (if ?b then _ else _) = _ => destruct b eqn:? end;
  try discriminate; injection L as <-; cbn [parser_Init] in Ip; cbv zeta in Ip;
  try match type of Ip with match ?d with O => _ | S _ => _ end = _ => destruct d; [discriminate|] end;
  injection Ip; intros; subst p; try discriminate;
  repeat match goal with H : (_ =? _) = true |- _ => apply Z.eqb_eq in H; subst i end;
  cbn; unfold bump; cbn; lia.
Lemma atom_child : forall n i cn x max p, lookup i (children n) = Some cn ->
  parser_Init cn x max = (kOkCompleted, p) -> wrapped n p = true -> (bump idChapterAtom i (capp cap_atom p) <= cap_atom n)%nat.
Proof. caps. Qed.
Lemma tag_child : forall n i cn x max p, lookup i (children n) = Some cn ->
  parser_Init cn x max = (kOkCompleted, p) -> wrapped n p = true -> (bump idSimpleTag i (capp cap_tag p) <= cap_tag n)%nat.
Proof. caps. Qed.

Ltac nodes :=
  intros n i cn L W1 W2;
  destruct n as [| | | | | | | | | | | | | | | | | | |vn| |]; try discriminate;
  unfold children, own_children in L; destruct vn; cbn [val_children app lookup] in L;
  repeat match type of L with (if ?b then _ else _) = _ => destruct b eqn:? end;
  try discriminate; injection L as <-; try discriminate;
  repeat match goal with H : (_ =? _) = true |- _ => apply Z.eqb_eq in H; subst i end;
  cbn; unfold bump; cbn; lia.
Lemma atom_node : forall n i cn, lookup i (children n) = Some cn -> is_value n = true -> is_master cn = true ->
  (bump idChapterAtom i (cap_atom cn) <= cap_atom n)%nat.
Proof. nodes. Qed.
Lemma tag_node : forall n i cn, lookup i (children n) = Some cn -> is_value n = true -> is_master cn = true ->
  (bump idSimpleTag i (cap_tag cn) <= cap_tag n)%nat.
Proof. nodes. Qed.

(* ---------- the stack of parsers ---------- *)
Section stack.
Variable cb : callback.
Lemma feed_pht : forall f sk p w c k p' w', feed cb f sk p w = Some (c, k, p', w') -> pht p' = pht p.
Proof.
  induction f as [|f IH]; intros sk p w c k p' w' H; [discriminate|].
  destruct p as [sg s|s|s|s|s|str s|x rem|x rem|rem|simple s|s|n m ch v|q].
  1-11: cbn [feed] in H; match type of H with context [match ?x with pair _ _ => _ end] => destruct x as [[[? ?] ?] ?] || destruct x as [[? ?] ?] end; injection H as <- <- <- <-; reflexivity.
  - destruct (is_value n) eqn:Ev; [|destruct (match n with NSegment => true | _ => false end) eqn:Es].
    + destruct n as [| | | | | | | | | | | | | | | | | | |vn| |]; try discriminate.
      rewrite fd_val' in H. destruct (val_pre cb vn sk m v w) as [[c0 v0] w0].
      destruct (negb (c0 =? kOkCompleted)); [injection H as <- <- <- <-; reflexivity|].
      destruct (val_mid cb f vn sk m ch v0 w0) as [[[[c2 k2] [[m2 ch2] v2]] w2]|]; [|discriminate].
      cbn [option_map] in H. apply some_inj in H. unfold val_post in H.
      destruct (negb (c2 =? kOkCompleted)); [quad H; reflexivity|]. cbv zeta in H.
      destruct (if v_started _ then _ else _) as [[c3 v3] w3].
      destruct (negb (c3 =? kOkCompleted)); [quad H; reflexivity|].
      destruct (v_skip v3); [quad H; reflexivity|].
      destruct (on_completed cb (NVal vn) sk m2 v3 w3) as [c5 w5]. quad H. reflexivity.
    + destruct n as [| | | | | | | | | | | | | | | | | | |vn| |]; try discriminate.
      rewrite fd_seg' in H. destruct (seg_pre cb sk m v w) as [[c0 v0] w0].
      destruct (negb (c0 =? kOkCompleted)); [injection H as <- <- <- <-; reflexivity|].
      destruct (if v_complete v0 then _ else _) as [[[[c2 k2] [[m2 ch2] v2]] w2]|]; [|discriminate].
      cbn [option_map] in H. apply some_inj in H. unfold seg_post in H.
      destruct (negb (c2 =? kOkCompleted)); [quad H; reflexivity|].
      destruct (notify cb _ _ w2) as [[c3 s3] w3]. quad H. reflexivity.
    + assert (Hn : n <> NSegment) by (intros ->; discriminate). rewrite fd_other in H by assumption.
      destruct (mloop cb f n sk _ m ch v 0 w) as [[[[c1 k1] [[m1 ch1] v1]] w1]|]; [|discriminate]. injection H as <- <- <- <-. reflexivity.
  - cbn [feed] in H. destruct (feed cb f sk q w) as [[[[c1 k1] q1] w1]|] eqn:E; [|discriminate]. injection H as <- <- <- <-.
    cbn [pht]. f_equal. eapply IH. exact E.
Qed.
Definition low (ch : child) : Prop :=
  match ch with CNone => True | CSel n => (ht n <= 60)%nat | CAct p => (pht p <= 60)%nat end.
Lemma doc_low : forall f sk d w s d' w', low (d_child d) -> dloop cb f sk d w = Some (s, d', w') -> low (d_child d').
Proof.
  induction f as [|f IH]; intros sk d w s d' w' O H; [discriminate|].
  cbn [dloop] in H. destruct (d_state d) eqn:Ed.
  - eapply IH; [|exact H]. exact O.
  - destruct (IdParser_Feed (d_idp d) w) as [[[c k] i] w1]. cbv zeta in H.
    repeat match type of H with context [if ?b then _ else _] => destruct b end; try (eapply IH; [|exact H]; exact O).
    injection H as <- <- <-. exact O.
  - destruct (SizeParser_Feed (d_szp d) w) as [[[c k] i] w1]. cbv zeta in H.
    destruct (negb _); [|eapply IH; [|exact H]; exact O]. injection H as <- <- <-. exact O.
  - cbv zeta in H.
    destruct (_ =? idSegment); [eapply IH; [|exact H]; cbn; lia|]. destruct (_ =? idEbml); [eapply IH; [|exact H]; cbn; lia|].
    destruct (if d_seek d then ById (me_id (d_cm d)) else None) as [anc|] eqn:Ek.
    + assert (B : ById (me_id (d_cm d)) = Some anc) by (destruct (d_seek d); [exact Ek | discriminate]).
      destruct (ById_sought anc (d_cm d) B) as (p & P & _ & Hp). rewrite P in H. eapply IH; [|exact H]. cbn. rewrite Hp.
      unfold top_node. destruct (_ =? idSegment); cbn; lia.
    + repeat match type of H with context [if ?b then _ else _] => destruct b end;
        try (eapply IH; [|exact H]; cbn; lia).
      injection H as <- <- <-. exact O.
  - destruct (notify cb sk (EElement (d_cm d)) w) as [[c skip] w1]. cbv zeta in H.
    destruct (negb _); [injection H as <- <- <-; exact O|]. destruct skip; [|eapply IH; [|exact H]; exact O].
    eapply IH; [|exact H]. destruct (_ =? _); [exact O | cbn; lia].
  - destruct (d_child d) as [|cn|] eqn:Ec; try discriminate.
    destruct (parser_Init cn (d_cm d) (me_size (d_cm d))) as [c p] eqn:Ip.
    destruct (negb (c =? kOkCompleted)) eqn:E0; [injection H as <- <- <-; rewrite Ec; exact O|].
    apply eqk in E0. subst c. eapply IH; [|exact H]. cbn. apply Init_cons in Ip. cbn [low] in O. lia.
  - destruct (d_child d) as [| |p] eqn:Ec; try discriminate.
    destruct (feed cb f sk p w) as [[[[c k] p1] w1]|] eqn:F; [|discriminate]. apply feed_pht in F.
    destruct (negb (c =? kOkCompleted)); [injection H as <- <- <-; cbn; rewrite F; exact O|].
    cbv zeta in H. eapply IH; [|exact H]. exact I.
  - injection H as <- <- <-. exact O.
Qed.
End stack.
