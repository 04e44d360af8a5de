(* The callback parser: every element parser, and then the document, can be interrupted. *)
From Coq Require Import ZifyBool ZifyNat.
From Verif Require Import Base WpSpec MWp MWpBlock MWpTree PWp1 PWp2 PWp3 PWp4 PWp5 PWp6.

Section tree.
Variable cb : callback.
Hypothesis Pcb : proper cb.
Notation mres := (Z * Z * (mst * child * vst) * world)%type.
Notation pres := (Z * Z * pstate * world)%type.

(* ---------- parsers without children ---------- *)
Lemma Res_leaf : forall S (F : S -> world -> Z * Z * S * world) (mk : S -> pstate) sk st w c k st' w',
  (forall f s w, feed cb (Datatypes.S f) sk (mk s) w = (let '(c, k, s1, w1) := F s w in Some (c, k, mk s1, w1))) ->
  Res (fun r => r = F st (full w)) (fun s w r => r = F s w) w (c, k, st', w') ->
  Res (feeds cb sk (mk st) (full w)) (feeds cb sk) w (c, k, mk st', w').
Proof.
  intros S F mk sk st w c k st' w' E (M & W1 & W2). cbn. split; [exact M|].
  assert (A : forall (a b : Z * Z * S * world), agree a b ->
    agree (let '(c, k, s, w) := a in (c, k, mk s, w)) (let '(c, k, s, w) := b in (c, k, mk s, w))).
  { intros [[[? ?] ?] ?] [[[? ?] ?] ?] [X | (X1 & X2 & X3)]; [left; quad X; reflexivity | right; cbn in *; auto]. }
  split.
  - intro C. destruct (W1 C) as (L & R). split; [exact L|]. intros r2 (g & G). destruct g as [|g]; [discriminate|].
    rewrite E in G. destruct (R _ eq_refl) as (r1 & R1 & R2). apply A in R2.
    destruct (F st' (full w')) as [[[c2 k2] s2] w2]. injection G as <-. destruct r1 as [[[c1 k1] s1] w1]. cbn in R2.
    eexists. split; [|exact R2]. exists 1%nat. rewrite E, <- R1. reflexivity.
  - intro C. destruct (W2 C) as (r1 & R1 & R2). apply A in R2. destruct r1 as [[[c1 k1] s1] w1]. cbn in R2.
    eexists. split; [|exact R2]. exists 1%nat. rewrite E, <- R1. reflexivity.
Qed.
Lemma resumes_Res : forall S (F : S -> world -> Z * Z * S * world) st w c k st' w', resumes F st ->
  F st w = (c, k, st', w') -> Res (fun r => r = F st (full w)) (fun s w r => r = F s w) w (c, k, st', w').
Proof.
  intros S F st w c k st' w' R H. destruct (R _ _ _ _ _ H) as (M & W1 & W2). cbn. split; [exact M|]. split.
  - intro C. destruct (W1 C) as (L & Q). split; [exact L|]. intros r2 ->.
    eexists; split; [reflexivity|]. rewrite Q. apply agree_refl.
  - intro C. eexists; split; [reflexivity|]. rewrite W2 by exact C. apply agree_refl.
Qed.
(* data for the callback *)
Definition data_F (sk : bool) (d : dsrc) (rem : Z) (w : world) : Z * Z * Z * world :=
  let '(c, rem1, w1) := on_data cb sk d rem w in (c, rem - rem1, rem1, w1).
Lemma data_resumes : forall sk d rem, 0 <= rem -> resumes (data_F sk d) rem.
Proof.
  intros sk d rem H w c k st' w' Q. unfold data_F in *. destruct (on_data cb sk d rem w) as [[c1 r1] w1] eqn:O. quad Q.
  apply on_data_spec in O; [|exact Pcb|exact H]. destruct O as (O1 & O2 & _ & _ & O3 & O4).
  split; [exact O2|]. split.
  - intro E. destruct (O3 E) as (A & B & C). split; [exact B|]. rewrite C.
    destruct (on_data cb sk d st' (full w')) as [[c2 r2] w2]. cbn [addn]. tup.
  - intro E. rewrite O4 by exact E. reflexivity.
Qed.

(* ---------- lists of elements ---------- *)
Lemma other_step : forall f n sk m ch v w r, wloop cb f -> octets w -> wfm m ch -> n <> NSegment -> is_value n = false ->
  feed cb (S f) sk (PMaster n m ch v) w = Some r ->
  Res (feeds cb sk (PMaster n m ch v) (full w)) (feeds cb sk) w r.
Proof.
  intros f n sk m ch v w r IHm O W N1 N2 H. rewrite fd_other in H by assumption.
  destruct (mloop cb f n sk (sk || m_skip m) m ch v 0 w) as [[[[c1 k1] [[m1 ch1] v1]] w1]|] eqn:L; [|discriminate].
  injection H as <-. apply IHm in L; [| exact O | exact W | intros ->; discriminate | reflexivity].
  destruct L as (M & W1 & W2). cbn. split; [exact M|].
  set (pm := fun r : mres => let '(c, k, (m, ch, v), w) := r in (c, k, PMaster n m ch v, w)).
  assert (A : forall a b, agree a b -> agree (pm a) (pm b)).
  { intros [[[? ?] [[? ?] ?]] ?] [[[? ?] [[? ?] ?]] ?] [X | (X1 & X2 & X3)].
    - left. rewrite X. reflexivity.
    - right. cbn in *; auto. }
  assert (F : forall m ch v w x, loops cb n sk (sk || m_skip m) m ch v w x -> feeds cb sk (PMaster n m ch v) w (pm x)).
  { intros m0 ch0 v0 w0 [[[? ?] [[? ?] ?]] ?] (g & G). exists (S g). rewrite fd_other by assumption. rewrite G. reflexivity. }
  split.
  - intro E. destruct (W1 E) as (L & R). split; [exact L|]. intros r2 (g & G). destruct g as [|g]; [discriminate|].
    rewrite fd_other in G by assumption.
    destruct (mloop cb g n sk (sk || m_skip m1) m1 ch1 v1 0 (full w1)) as [[[[c2 k2] [[m2 ch2] v2]] w2]|] eqn:L2; [|discriminate].
    injection G as <-. destruct (R _ (ex_intro _ g L2)) as (r1 & R1 & R2).
    exists (pm r1). split; [apply F; exact R1|]. apply A in R2. exact R2.
  - intro E. destruct (W2 E) as (r1 & R1 & R2). exists (pm r1). split; [apply F; exact R1|]. apply A in R2. exact R2.
Qed.

(* ---------- the segment ---------- *)
Definition seg_pre (sk : bool) (m : mst) (v : vst) (w : world) : Z * vst * world :=
  if v_started v then (kOkCompleted, v, w)
  else let '(c1, skip, w1) := notify cb sk (EBegin KSegment (own_meta idSegment m) (VRec [])) w in
       if negb (c1 =? kOkCompleted)
       then (c1, mk_vst (v_val v) skip (v_complete v) false, w1)
       else (c1, mk_vst (v_val v) skip (v_complete v) true, w1).
Definition seg_post (sk0 : bool) (r : mres) : pres :=
  let '(c2, k, (m2, ch2, v2), w2) := r in
  if negb (c2 =? kOkCompleted) then (c2, k, PMaster NSegment m2 ch2 v2, w2)
  else
    let '(c3, _, w3) := notify cb sk0 (EEnd KSegment (own_meta idSegment m2) (VRec [])) w2 in
    (c3, k, PMaster NSegment m2 ch2 (mk_vst (v_val v2) (v_skip v2) true (v_started v2)), w3).
Lemma fd_seg' : forall f sk m ch v w,
  feed cb (S f) sk (PMaster NSegment m ch v) w =
  (let '(c0, v0, w0) := seg_pre sk m v w in
   if negb (c0 =? kOkCompleted) then Some (c0, 0, PMaster NSegment m ch v0, w0)
   else option_map (seg_post (sk || v_skip v0))
     (if v_complete v0 then Some (kOkCompleted, 0, (m, ch, v0), w0)
      else mloop cb f NSegment (sk || v_skip v0) ((sk || v_skip v0) || m_skip m) m ch v0 0 w0)).
Proof.
  intros. rewrite fd_seg. unfold seg_pre. match goal with |- match ?x with _ => _ end = _ => destruct x as [[c0 v0] w0] end.
  destruct (negb (c0 =? kOkCompleted)); [reflexivity|]. cbv zeta.
  match goal with |- match ?x with _ => _ end = _ => destruct x as [[[[c2 k2] [[m2 ch2] v2]] w2]|] end; [|reflexivity].
  cbn [option_map seg_post]. destruct (negb (c2 =? kOkCompleted)); [reflexivity|].
  destruct (notify cb _ _ w2) as [[? ?] ?]. reflexivity.
Qed.
Lemma seg_post_addn : forall sk k r, seg_post sk (addn k r) = addn k (seg_post sk r).
Proof.
  intros sk k [[[c2 k2] [[m2 ch2] v2]] w2]. cbn. destruct (negb _); [reflexivity|].
  destruct (notify cb _ _ w2) as [[? ?] ?]. reflexivity.
Qed.
Lemma post_agree : forall (P : mres -> pres),
  (forall c k m ch v w, is_parsing_error c = true -> exists p, P (c, k, (m, ch, v), w) = (c, k, p, w)) ->
  forall a b, agree a b -> agree (P a) (P b).
Proof.
  intros P H [[[c1 k1] [[m1 ch1] v1]] w1] [[[c2 k2] [[m2 ch2] v2]] w2] [X | (X1 & X2 & X3)].
  - left. rewrite X. reflexivity.
  - cbn in *. subst c2. destruct (H c1 k1 m1 ch1 v1 w1 X2) as (p1 & ->). destruct (H c1 k2 m2 ch2 v2 w2 X2) as (p2 & ->).
    right. cbn. auto.
Qed.
Lemma parsing_error_ok : forall c, is_parsing_error c = true -> (c =? kOkCompleted) = false.
Proof. intros c H. apply Z.eqb_neq. intros ->. discriminate. Qed.
Lemma seg_post_agree : forall sk a b, agree a b -> agree (seg_post sk a) (seg_post sk b).
Proof.
  intro sk. apply post_agree. intros c k m ch v w H. cbn. rewrite (parsing_error_ok _ H). eexists; reflexivity.
Qed.
(* what the ending does to a result that is not an interruption *)
Lemma seg_post_spec : forall sk c k m ch v w, c <> kWouldBlock ->
  exists c' p w', seg_post sk (c, k, (m, ch, v), w) = (c', k, p, w') /\ c' <> kWouldBlock /\ moved 0 w w' /\
    seg_post sk (c, k, (m, ch, v), full w) = (c', k, p, full w').
Proof.
  intros sk c k m ch v w N. cbn. destruct (negb (c =? kOkCompleted)).
  - do 3 eexists. split; [reflexivity|]. split; [exact N|]. split; [apply moved_refl | reflexivity].
  - destruct (notify cb sk _ w) as [[c3 s3] w3] eqn:Q. apply notify_spec in Q; [|exact Pcb].
    destruct Q as (Q1 & Q2 & Q3 & Q4 & _). rewrite Q4.
    do 3 eexists. split; [reflexivity|]. split; [exact Q2|]. split; [exact Q3 | reflexivity].
Qed.

(* after a successful beginning: the rest of the run, and its ending *)
Lemma Res_post : forall (F : mres -> Prop) (FF : pres -> Prop) (F' : mst * child * vst -> world -> mres -> Prop)
    (FF' : pstate -> world -> pres -> Prop) (P : mres -> pres) w w0 r,
  moved 0 w w0 ->
  (forall a b, agree a b -> agree (P a) (P b)) ->
  (forall k a, P (addn k a) = addn k (P a)) ->
  (forall c k m ch v w, c <> kWouldBlock ->
    exists c' p w', P (c, k, (m, ch, v), w) = (c', k, p, w') /\ c' <> kWouldBlock /\ moved 0 w w' /\
    P (c, k, (m, ch, v), full w) = (c', k, p, full w')) ->
  (forall x, F x -> FF (P x)) ->
  (forall k m ch v w', r = (kWouldBlock, k, (m, ch, v), w') ->
     exists p', P r = (kWouldBlock, k, p', w') /\
     forall y, FF' p' (full w') y -> exists x, y = P x /\ F' (m, ch, v) (full w') x) ->
  Res F F' w0 r -> Res FF FF' w (P r).
Proof.
  intros F FF F' FF' P w w0 [[[c k] [[m ch] v]] w'] M0 Pa Pn Ps Pf Pw (M & W1 & W2).
  destruct (Z.eq_dec c kWouldBlock) as [-> | N].
  - destruct (Pw _ _ _ _ _ eq_refl) as (p' & Q & R). rewrite Q. cbn. split; [eapply moved_trans'; eauto; lia|].
    split; [|congruence]. intros _. destruct (W1 eq_refl) as (L & K). split; [pose proof (moved_sched _ _ _ M0); lia|].
    intros r2 Y. destruct (R _ Y) as (x & -> & X). destruct (K _ X) as (r1 & A & B).
    exists (P r1). split; [auto|]. rewrite <- Pn. auto.
  - destruct (Ps c k m ch v w' N) as (c' & p & w'' & Q1 & Q2 & Q3 & Q4). rewrite Q1. cbn.
    split; [eapply moved_trans'; [exact M0 | eapply moved_trans; eauto | lia]|]. split; [congruence|]. intros _.
    destruct (W2 N) as (r1 & A & B). exists (P r1). split; [auto|]. rewrite <- Q4. auto.
Qed.

Lemma seg_step : forall f sk m ch v w r, wloop cb f -> octets w -> wfm m ch ->
  feed cb (S f) sk (PMaster NSegment m ch v) w = Some r ->
  Res (feeds cb sk (PMaster NSegment m ch v) (full w)) (feeds cb sk) w r.
Proof.
  intros f sk m ch v w r IHm O W H. rewrite fd_seg' in H.
  assert (Pre : exists c0 v0 w0, seg_pre sk m v w = (c0, v0, w0) /\ c0 <> kWouldBlock /\ moved 0 w w0 /\
    seg_pre sk m v (full w) = (c0, v0, full w0) /\ (c0 = kOkCompleted -> v_started v0 = true)).
  { unfold seg_pre. destruct (v_started v) eqn:E.
    - exists kOkCompleted, v, w. split; [reflexivity|]. split; [discriminate|]. split; [apply moved_refl|]. split; auto.
    - destruct (notify cb sk _ w) as [[c1 skip] w1] eqn:N. apply notify_spec in N; [|exact Pcb].
      destruct N as (N1 & N2 & N3 & N4 & _). rewrite N4.
      destruct (c1 =? kOkCompleted) eqn:E1; cbn [negb]; do 3 eexists; (split; [reflexivity|]);
        (split; [exact N2|]); (split; [exact N3|]); (split; [reflexivity|]); intro Q; [reflexivity|].
      subst c1. discriminate. }
  destruct Pre as (c0 & v0 & w0 & P1 & P2 & P3 & P4 & P5). rewrite P1 in H.
  destruct (c0 =? kOkCompleted) eqn:E0; cbn [negb] in H.
  2:{ injection H as <-. apply Res_done; [exact P3 | exact P2|]. exists 1%nat. rewrite fd_seg', P4, E0. reflexivity. }
  apply Z.eqb_eq in E0. subst c0. specialize (P5 eq_refl).
  match type of H with option_map _ ?x = _ => destruct x as [r1|] eqn:R; [|discriminate] end. injection H as <-.
  destruct (v_complete v0) eqn:Ec.
  { injection R as <-. destruct (seg_post_spec (sk || v_skip v0) kOkCompleted 0 m ch v0 w0 ltac:(discriminate))
      as (c' & p & w' & Q1 & Q2 & Q3 & Q4).
    rewrite Q1. apply Res_done; [eapply moved_trans'; eauto | exact Q2|].
    exists 1%nat. rewrite fd_seg', P4. change (negb (kOkCompleted =? kOkCompleted)) with false. cbn iota.
    rewrite Ec. cbn [option_map]. rewrite Q4. reflexivity. }
  pose proof R as R0.
  apply IHm in R; [| eapply octets_moved; eauto | exact W | discriminate | reflexivity].
  eapply Res_post; [exact P3 | apply seg_post_agree | apply seg_post_addn | apply seg_post_spec | | | exact R].
  - intros x (g & G). exists (S g). rewrite fd_seg', P4. change (negb (kOkCompleted =? kOkCompleted)) with false. cbn iota.
    rewrite Ec, G. reflexivity.
  - intros k m1 ch1 v1 w1 ->. eexists. split; [reflexivity|].
    apply (proj2 (feed_keeps cb Pcb f)) in R0;
      [| exact W | discriminate | destruct (sk || v_skip v0); [reflexivity | discriminate]].
    destruct R0 as ((Vc & Vk) & _). rewrite Ec in Vc.
    assert (Vs : v_skip v1 = v_skip v0 /\ v_started v1 = true).
    { destruct Vk as [(K & _) | [(K & _) | (_ & K1 & K2)]]; [discriminate | unfold kWouldBlock in K; lia | auto]. }
    destruct Vs as (Vs1 & Vs2).
    intros y (g & G). destruct g as [|g]; [discriminate|]. rewrite fd_seg' in G.
    unfold seg_pre in G. rewrite Vs2 in G. change (negb (kOkCompleted =? kOkCompleted)) with false in G. cbn iota in G.
    rewrite Vc, Vs1 in G.
    match type of G with option_map _ ?x = _ => destruct x as [r1|] eqn:R1; [|discriminate] end.
    injection G as <-. exists r1. split; [reflexivity|]. exists g. exact R1.
Qed.

(* ---------- elements that collect a value ---------- *)
Definition val_pre (vn : vname) (sk : bool) (m : mst) (v : vst) (w : world) : Z * vst * world :=
  match vn with
  | VBlockGroup =>
      if v_started v then (kOkCompleted, v, w)
      else let '(c1, skip, w1) := on_started cb (NVal vn) sk m v w in
           if negb (c1 =? kOkCompleted) then (c1, v, w1)
           else (c1, mk_vst (v_val v) skip (v_complete v) true, w1)
  | _ => (kOkCompleted, v, w)
  end.
Definition val_post (vn : vname) (sk : bool) (r : mres) : pres :=
  let n := NVal vn in
  let '(c2, k, (m2, ch2, v2), w2) := r in
  if negb (c2 =? kOkCompleted) then (c2, k, PMaster n m2 ch2 v2, w2)
  else
    let v2' := mk_vst (v_val v2) (v_skip v2) true (v_started v2) in
    let '(c3, v3, w3) :=
      if v_started v2' then (kOkCompleted, v2', w2)
      else let '(c4, skip, w4) := on_started cb n sk m2 v2' w2 in
           (c4, mk_vst (v_val v2') skip true (c4 =? kOkCompleted), w4) in
    if negb (c3 =? kOkCompleted) then (c3, k, PMaster n m2 ch2 v3, w3)
    else if v_skip v3 then (kOkCompleted, k, PMaster n m2 ch2 v3, w3)
    else let '(c5, w5) := on_completed cb n sk m2 v3 w3 in
         (c5, k, PMaster n m2 ch2 v3, w5).
(* the loop, and again after the beginning of the element was answered with skip *)
Definition val_mid (f : nat) (vn : vname) (sk : bool) (m : mst) (ch : child) (v : vst) (w : world) : option mres :=
  if v_complete v then Some (kOkCompleted, 0, (m, ch, v), w)
  else
    match mloop cb f (NVal vn) (sk || v_skip v) ((sk || v_skip v) || m_skip m) m ch v 0 w with
    | None => None
    | Some (c1, k1, (m1, ch1, v1), w1) =>
        if c1 =? kSwitchToSkip
        then option_map (addn k1) (mloop cb f (NVal vn) true true m1 ch1 v1 0 w1)
        else Some (c1, k1, (m1, ch1, v1), w1)
    end.
Lemma fd_val' : forall f sk vn m ch v w,
  feed cb (S f) sk (PMaster (NVal vn) m ch v) w =
  (let '(c0, v0, w0) := val_pre vn sk m v w in
   if negb (c0 =? kOkCompleted) then Some (c0, 0, PMaster (NVal vn) m ch v0, w0)
   else option_map (val_post vn sk) (val_mid f vn sk m ch v0 w0)).
Proof.
  intros. pose proof (fd_val cb f sk vn m ch v w) as Q. cbv zeta in Q. rewrite Q. clear Q.
  change (match vn with VBlockGroup => _ | _ => _ end) with (val_pre vn sk m v w).
  destruct (val_pre vn sk m v w) as [[c0 v0] w0].
  destruct (negb (c0 =? kOkCompleted)); [reflexivity|].
  unfold val_mid. destruct (v_complete v0); [|destruct (mloop cb f _ _ _ m ch v0 0 w0) as [[[[c1 k1] [[m1 ch1] v1]] w1]|]; [|reflexivity];
    destruct (c1 =? kSwitchToSkip); [destruct (mloop cb f _ true true m1 ch1 v1 0 w1) as [[[[c2 k2] [[m2 ch2] v2]] w2]|]; [|reflexivity]|]];
  cbn [option_map addn val_post]; cbv zeta;
  match goal with |- context [negb ?b] => destruct (negb b) end; try reflexivity;
  match goal with |- match ?x with _ => _ end = Some (match ?y with _ => _ end) => change y with x; destruct x as [[c3 v3] w3] end;
  destruct (negb (c3 =? kOkCompleted)); try reflexivity; destruct (v_skip v3); try reflexivity;
  destruct (on_completed cb _ sk _ v3 w3) as [? ?]; reflexivity.
Qed.
Lemma val_post_addn : forall vn sk k r, val_post vn sk (addn k r) = addn k (val_post vn sk r).
Proof.
  intros vn sk k [[[c2 k2] [[m2 ch2] v2]] w2]. unfold val_post. cbn [addn]. cbv zeta.
  destruct (negb (c2 =? kOkCompleted)); [reflexivity|].
  match goal with |- match ?x with _ => _ end = _ => destruct x as [[c3 v3] w3] end.
  destruct (negb (c3 =? kOkCompleted)); [reflexivity|]. destruct (v_skip v3); [reflexivity|].
  destruct (on_completed cb _ sk _ v3 w3) as [? ?]; reflexivity.
Qed.
Lemma val_post_agree : forall vn sk a b, agree a b -> agree (val_post vn sk a) (val_post vn sk b).
Proof.
  intros vn sk. apply post_agree. intros c k m ch v w H. cbn. rewrite (parsing_error_ok _ H). eexists; reflexivity.
Qed.
Lemma on_completed_spec : forall n sk m v w c w', on_completed cb n sk m v w = (c, w') ->
  c <> kWouldBlock /\ moved 0 w w' /\ on_completed cb n sk m v (full w) = (c, full w').
Proof.
  intros n sk m v w c w' H. unfold on_completed in *. cbv zeta in *.
  assert (A : forall e, (let '(c, _, w1) := notify cb sk e w in (c, w1)) = (c, w') ->
    c <> kWouldBlock /\ moved 0 w w' /\ (let '(c, _, w1) := notify cb sk e (full w) in (c, w1)) = (c, full w')).
  { intros e Q. destruct (notify cb sk e w) as [[c1 s1] w1] eqn:N. apply notify_spec in N; [|exact Pcb].
    destruct N as (N1 & N2 & N3 & N4 & _). rewrite N4. injection Q as K1 K2. subst. auto. }
  destruct n; try (injection H as K1 K2; subst; split; [discriminate|]; split; [apply moved_refl | reflexivity]).
  destruct v0; try (apply A; exact H); injection H as K1 K2; subst; (split; [discriminate|]; split; [apply moved_refl | reflexivity]).
Qed.
Lemma val_post_spec : forall vn sk c k m ch v w, c <> kWouldBlock ->
  exists c' p w', val_post vn sk (c, k, (m, ch, v), w) = (c', k, p, w') /\ c' <> kWouldBlock /\ moved 0 w w' /\
    val_post vn sk (c, k, (m, ch, v), full w) = (c', k, p, full w').
Proof.
  intros vn sk c k m ch v w N. unfold val_post. cbv zeta. destruct (negb (c =? kOkCompleted)).
  { do 3 eexists. split; [reflexivity|]. split; [exact N|]. split; [apply moved_refl | reflexivity]. }
  cbn [v_started v_val v_skip].
  assert (P : exists c3 v3 w3,
    (if v_started v then (kOkCompleted, mk_vst (v_val v) (v_skip v) true (v_started v), w)
      else let '(c4, skip, w4) := on_started cb (NVal vn) sk m (mk_vst (v_val v) (v_skip v) true (v_started v)) w in
           (c4, mk_vst (v_val v) skip true (c4 =? kOkCompleted), w4)) = (c3, v3, w3) /\ c3 <> kWouldBlock /\ moved 0 w w3 /\
    (if v_started v then (kOkCompleted, mk_vst (v_val v) (v_skip v) true (v_started v), full w)
      else let '(c4, skip, w4) := on_started cb (NVal vn) sk m (mk_vst (v_val v) (v_skip v) true (v_started v)) (full w) in
           (c4, mk_vst (v_val v) skip true (c4 =? kOkCompleted), w4)) = (c3, v3, full w3)).
  { destruct (v_started v).
    - do 3 eexists. split; [reflexivity|]. split; [discriminate|]. split; [apply moved_refl | reflexivity].
    - destruct (on_started cb (NVal vn) sk m _ w) as [[c4 s4] w4] eqn:Q.
      pose proof (on_started_not_wb cb Pcb _ _ _ _ _ _ _ _ Q) as Q0.
      apply on_started_spec in Q; [|exact Pcb]. destruct Q as (Q1 & Q2 & Q3 & _). rewrite Q3.
      do 3 eexists. split; [reflexivity|]. split; [exact Q0|]. split; [exact Q2 | reflexivity]. }
  destruct P as (c3 & v3 & w3 & P1 & P2 & P3 & P4). rewrite P1, P4.
  destruct (negb (c3 =? kOkCompleted)).
  { do 3 eexists. split; [reflexivity|]. split; [exact P2|]. split; [exact P3 | reflexivity]. }
  destruct (v_skip v3).
  { do 3 eexists. split; [reflexivity|]. split; [discriminate|]. split; [exact P3 | reflexivity]. }
  destruct (on_completed cb (NVal vn) sk m v3 w3) as [c5 w5] eqn:Q. apply on_completed_spec in Q.
  destruct Q as (Q1 & Q2 & Q3). rewrite Q3. do 3 eexists. split; [reflexivity|]. split; [exact Q1|].
  split; [eapply moved_trans'; eauto | reflexivity].
Qed.

Definition vals (vn : vname) (sk : bool) (m : mst) (ch : child) (v : vst) (w : world) (r : mres) : Prop :=
  exists f, val_mid f vn sk m ch v w = Some r.
Lemma vals_go : forall vn sk m ch v w c k m1 ch1 v1 w1, v_complete v = false ->
  loops cb (NVal vn) (sk || v_skip v) ((sk || v_skip v) || m_skip m) m ch v w (c, k, (m1, ch1, v1), w1) ->
  c <> kSwitchToSkip -> vals vn sk m ch v w (c, k, (m1, ch1, v1), w1).
Proof.
  intros vn sk m ch v w c k m1 ch1 v1 w1 E (f & F) N. exists f. unfold val_mid. rewrite E, F.
  rewrite (proj2 (Z.eqb_neq _ _) N). reflexivity.
Qed.
Lemma vals_switch : forall vn sk m ch v w k m1 ch1 v1 w1 x, v_complete v = false ->
  loops cb (NVal vn) (sk || v_skip v) ((sk || v_skip v) || m_skip m) m ch v w (kSwitchToSkip, k, (m1, ch1, v1), w1) ->
  loops cb (NVal vn) true true m1 ch1 v1 w1 x -> vals vn sk m ch v w (addn k x).
Proof.
  intros vn sk m ch v w k m1 ch1 v1 w1 x E (f & F) (g & G). exists (Nat.max f g). unfold val_mid. rewrite E.
  rewrite (mloop_mono cb f (Nat.max f g) _ _ _ _ _ _ _ _ _ (Nat.le_max_l _ _) F).
  change (kSwitchToSkip =? kSwitchToSkip) with true. cbn iota.
  rewrite (mloop_mono cb g (Nat.max f g) _ _ _ _ _ _ _ _ _ (Nat.le_max_r _ _) G). reflexivity.
Qed.
Lemma switch_not_error : is_parsing_error kSwitchToSkip = false.
Proof. reflexivity. Qed.

Lemma plain_sw : plain kSwitchToSkip -> False.
Proof. unfold plain, kSwitchToSkip. lia. Qed.
Lemma pos_sw : 0 < kSwitchToSkip -> False.
Proof. unfold kSwitchToSkip. lia. Qed.
Lemma pos_wb : 0 < kWouldBlock -> False.
Proof. unfold kWouldBlock. lia. Qed.
Lemma or_l : forall a b, a = true -> a || b = true.
Proof. intros a b ->. reflexivity. Qed.
Lemma or_r : forall a b, b = true -> a || b = true.
Proof. intros a b ->. apply orb_true_r. Qed.

Lemma mid_step : forall f vn sk m ch v w r, wloop cb f -> octets w -> wfm m ch ->
  val_mid f vn sk m ch v w = Some r ->
  Res (vals vn sk m ch v (full w)) (fun s w => let '(m, ch, v) := s in vals vn sk m ch v w) w r.
Proof.
  intros f vn sk m ch v w r IHm O W H. unfold val_mid in H. destruct (v_complete v) eqn:Ec.
  { injection H as <-. apply Res_done; [apply moved_refl | discriminate|]. exists 0%nat. unfold val_mid. rewrite Ec. reflexivity. }
  destruct (mloop cb f (NVal vn) (sk || v_skip v) ((sk || v_skip v) || m_skip m) m ch v 0 w)
    as [[[[c1 k1] [[m1 ch1] v1]] w1]|] eqn:L; [|discriminate].
  pose proof (proj2 (feed_keeps cb Pcb f) _ _ _ _ _ _ _ _ _ _ _ _ _ _ W
    (fun _ => or_r _ _) (or_l _ _) L) as ((Vc & Vk) & W1).
  pose proof (IHm _ _ _ _ _ _ _ _ O W (fun _ => or_r _ _) eq_refl L) as R.
  assert (Back : forall m2 ch2 v2 w2 r2, v_complete v2 = false -> vals vn sk m2 ch2 v2 w2 r2 ->
     (exists c k s w3, r2 = (c, k, s, w3) /\ c <> kSwitchToSkip /\
        loops cb (NVal vn) (sk || v_skip v2) ((sk || v_skip v2) || m_skip m2) m2 ch2 v2 w2 r2) \/
     (exists k m3 ch3 v3 w3 x, r2 = addn k x /\
        loops cb (NVal vn) (sk || v_skip v2) ((sk || v_skip v2) || m_skip m2) m2 ch2 v2 w2 (kSwitchToSkip, k, (m3, ch3, v3), w3) /\
        loops cb (NVal vn) true true m3 ch3 v3 w3 x)).
  { intros m2 ch2 v2 w2 r2 E (g & G). unfold val_mid in G. rewrite E in G.
    destruct (mloop cb g (NVal vn) _ _ m2 ch2 v2 0 w2) as [[[[c3 k3] [[m3 ch3] v3]] w3]|] eqn:L3; [|discriminate].
    destruct (c3 =? kSwitchToSkip) eqn:E3.
    - apply Z.eqb_eq in E3. subst c3. right.
      destruct (mloop cb g (NVal vn) true true m3 ch3 v3 0 w3) as [x|] eqn:L4; [|discriminate].
      injection G as <-. exists k3, m3, ch3, v3, w3, x. split; [reflexivity|]. split; eexists; eassumption.
    - injection G as <-. left. do 4 eexists. split; [reflexivity|]. split; [apply Z.eqb_neq; exact E3 | exists g; exact L3]. }
  destruct (c1 =? kSwitchToSkip) eqn:E1.
  - (* the beginning was answered with skip *)
    apply Z.eqb_eq in E1. subst c1.
    destruct (mloop cb f (NVal vn) true true m1 ch1 v1 0 w1) as [x|] eqn:L2; [|discriminate]. injection H as <-.
    destruct R as (M1 & _ & R2). destruct (R2 ltac:(discriminate)) as (r1 & A1 & A2).
    apply agree_eq in A2; [|reflexivity]. subst r1.
    assert (Vs : v_started v1 = true /\ v_skip v1 = true).
    { destruct Vk as [(_ & _ & _ & K1 & K2) | [(K & _) | (K & _)]]; [auto | elim (pos_sw K) | elim (plain_sw K)]. }
    destruct Vs as (Vs1 & Vs2).
    eapply Res_cont; [exact M1 | intros y Y; eapply vals_switch; [exact Ec | exact A1 | exact Y] |].
    destruct x as [[[c2 k2] [[m2 ch2] v2]] w2].
    pose proof (proj2 (feed_keeps cb Pcb f) _ _ _ _ _ _ _ _ _ _ _ _ _ _ W1 (fun _ _ => eq_refl) (fun _ => eq_refl) L2) as ((Vc2 & Vk2) & W2).
    assert (O1 : octets w1) by (eapply octets_moved; eauto).
    apply IHm in L2; [| exact O1 | exact W1 | auto | reflexivity].
    destruct L2 as (M2 & S1 & S2). cbn. split; [exact M2|]. split; [|exact S2].
    intro E. destruct (S1 E) as (Sl & Sr). split; [exact Sl|]. subst c2.
    assert (Vs : v_skip v2 = true /\ v_started v2 = true).
    { destruct Vk2 as [(_ & K & _) | [(K & _) | (_ & K1 & K2)]]; [discriminate | elim (pos_wb K)|].
      split; [congruence | auto]. }
    destruct Vs as (Vs3 & Vs4).
    intros r2 Y. apply Back in Y; [|congruence]. rewrite Vs3, orb_true_r in Y. cbn [orb] in Y.
    destruct Y as [(c & k & s & w3 & -> & Nc & Y) | (k & m3 & ch3 & v3 & w3 & x & -> & Y & _)].
    + apply Sr. exact Y.
    + exfalso. destruct Y as (g & Y).
      apply (proj2 (feed_keeps cb Pcb g)) in Y; [| | auto | auto].
      * destruct Y as ((_ & [(_ & _ & K & _) | [(K & _) | (K & _)]]) & _); [congruence | elim (pos_sw K) | elim (plain_sw K)].
      * exact W2.
  - injection H as <-. apply Z.eqb_neq in E1. destruct R as (M1 & R1 & R2). cbn. split; [exact M1|]. split.
    + intro E. destruct (R1 E) as (Sl & Sr). split; [exact Sl|]. subst c1.
      assert (Vs : v_skip v1 = v_skip v).
      { destruct Vk as [(_ & K & _) | [(K & _) | (_ & K1 & K2)]]; [discriminate | elim (pos_wb K) | exact K1]. }
      intros r2 Y. apply Back in Y; [|congruence]. rewrite Vs in Y.
      destruct Y as [(c & k & s & w3 & -> & Nc & Y) | (k & m3 & ch3 & v3 & w3 & x & -> & Y & Z)].
      * destruct (Sr _ Y) as (ra & A1 & A2). exists ra. split; [|exact A2].
        destruct ra as [[[ca ka] [[ma cha] va]] wa]. apply vals_go; [exact Ec | exact A1|].
        destruct A2 as [A2 | (A2 & _)]; cbn in A2; [quad A2; exact Nc | congruence].
      * destruct (Sr _ Y) as (ra & A1 & A2). cbn [addn] in A2. apply agree_eq in A2; [|reflexivity]. subst ra.
        exists (addn (k1 + k) x). split; [eapply vals_switch; eauto|]. rewrite addn_addn. apply agree_refl.
    + intro E. destruct (R2 E) as (ra & A1 & A2). exists ra. split; [|exact A2].
      destruct ra as [[[ca ka] [[ma cha] va]] wa]. apply vals_go; [exact Ec | exact A1|].
      destruct A2 as [A2 | (A2 & _)]; cbn in A2; [quad A2; exact E1 | congruence].
Qed.

Lemma val_step : forall f vn sk m ch v w r, wloop cb f -> octets w -> wfm m ch ->
  feed cb (S f) sk (PMaster (NVal vn) m ch v) w = Some r ->
  Res (feeds cb sk (PMaster (NVal vn) m ch v) (full w)) (feeds cb sk) w r.
Proof.
  intros f vn sk m ch v w r IHm O W H. rewrite fd_val' in H.
  assert (Pre : exists c0 v0 w0, val_pre vn sk m v w = (c0, v0, w0) /\ c0 <> kWouldBlock /\ moved 0 w w0 /\
    val_pre vn sk m v (full w) = (c0, v0, full w0) /\ (c0 = kOkCompleted -> vn = VBlockGroup -> v_started v0 = true)).
  { unfold val_pre. destruct vn; try (do 3 eexists; (split; [reflexivity|]); (split; [discriminate|]);
      (split; [apply moved_refl|]); (split; [reflexivity | discriminate])).
    destruct (v_started v) eqn:E.
    - exists kOkCompleted, v, w. split; [reflexivity|]. split; [discriminate|]. split; [apply moved_refl|]. split; auto.
    - destruct (on_started cb (NVal VBlockGroup) sk m v w) as [[c1 skip] w1] eqn:N.
      pose proof (on_started_not_wb cb Pcb _ _ _ _ _ _ _ _ N) as N0. apply on_started_spec in N; [|exact Pcb].
      destruct N as (N1 & N2 & N3 & _). rewrite N3.
      destruct (c1 =? kOkCompleted) eqn:E1; cbn [negb]; do 3 eexists; (split; [reflexivity|]);
        (split; [exact N0|]); (split; [exact N2|]); (split; [reflexivity|]); intros Q _; [reflexivity|].
      subst c1. discriminate. }
  destruct Pre as (c0 & v0 & w0 & P1 & P2 & P3 & P4 & P5). rewrite P1 in H.
  destruct (c0 =? kOkCompleted) eqn:E0; cbn [negb] in H.
  2:{ injection H as <-. apply Res_done; [exact P3 | exact P2|]. exists 1%nat. rewrite fd_val', P4, E0. reflexivity. }
  apply Z.eqb_eq in E0. subst c0. specialize (P5 eq_refl).
  destruct (val_mid f vn sk m ch v0 w0) as [r1|] eqn:R; [|discriminate]. injection H as <-.
  pose proof R as R0. apply mid_step in R; [| exact IHm | eapply octets_moved; eauto | exact W].
  eapply Res_post; [exact P3 | apply val_post_agree | apply val_post_addn | apply val_post_spec | | | exact R].
  - intros x (g & G). exists (S g). rewrite fd_val', P4. change (negb (kOkCompleted =? kOkCompleted)) with false. cbn iota.
    rewrite G. reflexivity.
  - intros k m1 ch1 v1 w1 ->. eexists. split; [reflexivity|].
    assert (Vs : vn = VBlockGroup -> v_started v1 = true).
    { intro E. specialize (P5 E). unfold val_mid in R0. destruct (v_complete v0); [discriminate|].
      destruct (mloop cb f (NVal vn) (sk || v_skip v0) ((sk || v_skip v0) || m_skip m) m ch v0 0 w0)
        as [[[[c2 k2] [[m2 ch2] v2]] w2]|] eqn:L; [|discriminate].
      apply (proj2 (feed_keeps cb Pcb f)) in L; [| exact W | intro; apply or_r | apply or_l].
      destruct L as ((_ & Vk) & W2).
      destruct (c2 =? kSwitchToSkip) eqn:E2.
      - apply Z.eqb_eq in E2. subst c2. destruct Vk as [(K & _) | [(K & _) | (K & _)]]; [congruence | elim (pos_sw K) | elim (plain_sw K)].
      - injection R0 as K1 K2 K3 K4 K5 K6. subst c2 v2.
        destruct Vk as [(_ & K & _) | [(K & _) | (_ & _ & K)]]; [discriminate | elim (pos_wb K) | auto]. }
    intros y (g & G). destruct g as [|g]; [discriminate|]. rewrite fd_val' in G.
    assert (Pv : val_pre vn sk m1 v1 (full w1) = (kOkCompleted, v1, full w1)).
    { unfold val_pre. destruct vn; try reflexivity. rewrite Vs by reflexivity. reflexivity. }
    rewrite Pv in G. change (negb (kOkCompleted =? kOkCompleted)) with false in G. cbn iota in G.
    destruct (val_mid g vn sk m1 ch1 v1 (full w1)) as [x|] eqn:X; [|discriminate]. injection G as <-.
    exists x. split; [reflexivity|]. exists g. exact X.
Qed.

Lemma feed_step : forall f, wfeed cb f -> wloop cb f -> wfeed cb (S f).
Proof.
  intros f IHf IHm sk p w r O W H.
  destruct p as [sg s|s|s|s|s|str s|x rem|x rem|rem|simple s|s|n m ch v|q].
  - cbn [feed] in H. destruct (IntParser_Feed sg s w) as [[[c1 k1] s1] w1] eqn:E. injection H as <-.
    apply (Res_leaf _ (IntParser_Feed sg) (PInt sg)); [reflexivity|].
    apply resumes_Res; [apply IntParser_resumes | exact E].
  - cbn [feed] in H. destruct (FloatParser_Feed s w) as [[[c1 k1] s1] w1] eqn:E. injection H as <-.
    apply (Res_leaf _ FloatParser_Feed PFloat); [reflexivity|].
    apply resumes_Res; [apply FloatParser_resumes | exact E].
  - cbn [feed] in H. destruct (DateParser_Feed s w) as [[[c1 k1] s1] w1] eqn:E. injection H as <-.
    apply (Res_leaf _ DateParser_Feed PDate); [reflexivity|].
    apply resumes_Res; [apply DateParser_resumes | exact E].
  - cbn [feed] in H. destruct (IdElementParser_Feed s w) as [[[c1 k1] s1] w1] eqn:E. injection H as <-.
    apply (Res_leaf _ IdElementParser_Feed PIdEl); [reflexivity|].
    apply resumes_Res; [apply IdElementParser_resumes | exact E].
  - cbn [feed] in H. destruct (BoolParser_Feed s w) as [[[c1 k1] s1] w1] eqn:E. injection H as <-.
    apply (Res_leaf _ BoolParser_Feed PBool); [reflexivity|]. apply BoolParser_resumes; assumption.
  - cbn [feed] in H. destruct (ByteParser_Feed str s w) as [[[c1 k1] s1] w1] eqn:E. injection H as <-.
    apply (Res_leaf _ (ByteParser_Feed str) (PBytes str)); [reflexivity|].
    apply resumes_Res; [apply ByteParser_resumes; exact W | exact E].
  - cbn [feed] in H. destruct (on_data cb sk (DVoid x) rem w) as [[c1 r1] w1] eqn:E. injection H as <-.
    apply (Res_leaf _ (data_F sk (DVoid x)) (PVoid x)).
    + intros g s w0. cbn [feed]. unfold data_F. destruct (on_data cb sk (DVoid x) s w0) as [[? ?] ?]. reflexivity.
    + apply resumes_Res; [apply data_resumes; exact W|]. unfold data_F. rewrite E. reflexivity.
  - cbn [feed] in H. destruct (on_data cb sk (DUnknown x) rem w) as [[c1 r1] w1] eqn:E. injection H as <-.
    apply (Res_leaf _ (data_F sk (DUnknown x)) (PUnknown x)).
    + intros g s w0. cbn [feed]. unfold data_F. destruct (on_data cb sk (DUnknown x) s w0) as [[? ?] ?]. reflexivity.
    + apply resumes_Res; [apply data_resumes; exact W|]. unfold data_F. rewrite E. reflexivity.
  - cbn [feed] in H. destruct (SkipParser_Feed rem w) as [[[c1 k1] s1] w1] eqn:E. injection H as <-.
    apply (Res_leaf _ SkipParser_Feed PSkip); [reflexivity|].
    apply resumes_Res; [apply SkipParser_resumes; exact W | exact E].
  - cbn [feed] in H. destruct (BlockParser_Feed cb simple sk s w) as [[[c1 k1] s1] w1] eqn:E. injection H as <-.
    apply (Res_leaf _ (BlockParser_Feed cb simple sk) (PBlock simple)); [reflexivity|].
    apply BlockParser_resumes in E; [|exact Pcb|exact W]. destruct E as (M & _ & W1 & W2).
    cbn. split; [exact M|]. split.
    + intro E. destruct (W1 E) as (L & Q). split; [exact L|]. intros r2 ->. eexists; split; [reflexivity|].
      rewrite Q. apply agree_refl.
    + intro E. eexists; split; [reflexivity|]. rewrite W2 by exact E. apply agree_refl.
  - cbn [feed] in H. destruct (VirtualBlockParser_Feed s w) as [[[c1 k1] s1] w1] eqn:E. injection H as <-.
    apply (Res_leaf _ VirtualBlockParser_Feed PVirtual); [reflexivity|].
    apply resumes_Res; [apply VirtualBlockParser_resumes | exact E].
  - destruct (is_value n) eqn:Ev; [destruct n; try discriminate; eapply val_step; eauto|].
    destruct (match n with NSegment => true | _ => false end) eqn:Es.
    + destruct n; try discriminate. eapply seg_step; eauto.
    + eapply other_step; eauto. intros ->. discriminate.
  - cbn [feed] in H. destruct (feed cb f sk q w) as [[[[c1 k1] q1] w1]|] eqn:E; [|discriminate]. injection H as <-.
    apply IHf in E; [| exact O | exact W]. destruct E as (M & W1 & W2).
    assert (A : forall (a b : pres), agree a b ->
      agree (let '(c, k, s, w) := a in (c, k, PRec s, w)) (let '(c, k, s, w) := b in (c, k, PRec s, w))).
    { intros [[[? ?] ?] ?] [[[? ?] ?] ?] [X | (X1 & X2 & X3)]; [left; quad X; reflexivity | right; cbn in *; auto]. }
    assert (F : forall q w c k q1 w1, feeds cb sk q w (c, k, q1, w1) -> feeds cb sk (PRec q) w (c, k, PRec q1, w1)).
    { intros q0 w0 c k q2 w2 (g & G). exists (S g). cbn [feed]. rewrite G. reflexivity. }
    cbn. split; [exact M|]. split.
    + intro E. destruct (W1 E) as (L & R). split; [exact L|]. intros r2 (g & G). destruct g as [|g]; [discriminate|].
      cbn [feed] in G. destruct (feed cb g sk q1 (full w1)) as [[[[c2 k2] q2] w2]|] eqn:E2; [|discriminate]. injection G as <-.
      destruct (R _ (ex_intro _ g E2)) as ([[[c3 k3] q3] w3] & R1 & R2). apply A in R2. cbn in R2.
      eexists. split; [apply F; exact R1 | exact R2].
    + intro E. destruct (W2 E) as ([[[c3 k3] q3] w3] & R1 & R2). apply A in R2. cbn in R2.
      eexists. split; [apply F; exact R1 | exact R2].
Qed.

Theorem tree_resumes : forall f, wfeed cb f /\ wloop cb f.
Proof.
  induction f as [|f (IHf & IHm)].
  - split; repeat intro; discriminate.
  - split; [apply feed_step | apply loop_step]; assumption.
Qed.
End tree.
