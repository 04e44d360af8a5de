(* The callback parser's element tree: more fuel changes nothing, and being told to
   come back later changes nothing. *)
From Coq Require Import ZifyBool ZifyNat.
From Verif Require Import Base WpSpec MWp MWpBlock MWpTree PWp1 PWp2.

(* ---------- one step of the loops ---------- *)
Section eqs.
Variable cb : callback.

Lemma ml_MFirst : forall f n osk sk m c v nr w, m_state m = MFirst ->
  mloop cb (S f) n osk sk m c v nr w =

          let cm0 := mk_meta (me_id (m_cm m)) 0 (me_size (m_cm m)) (w_pos w) in
          let '(s, k, i, w1) := IdParser_Feed (m_idp m) w in
          let m1 := m_set_idp i (m_add_total k (m_set_cm (cm_add_hsize k cm0) m)) in
          if (s =? kEndOfFile) && (m_size m =? kUnknownElementSize) && (k =? 0)
          then mloop cb f n osk sk (m_set_state MEnd m1) c v (nr + k) w1
          else if negb ((s =? kOkCompleted) || (s =? kOkPartial))
          then Some (s, nr + k, (if 0 <? k then m_set_state MFinishing m1 else m1, c, v), w1)
          else if s =? kOkCompleted
          then mloop cb f n osk sk (m_set_state MSize m1) c v (nr + k) w1
          else mloop cb f n osk sk (m_set_state MFinishing m1) c v (nr + k) w1.
Proof. intros f n osk sk m c v nr w E. cbn [mloop]. rewrite E. reflexivity. Qed.

Lemma ml_MFinishing : forall f n osk sk m c v nr w, m_state m = MFinishing ->
  mloop cb (S f) n osk sk m c v nr w =

          let '(s, k, i, w1) := IdParser_Feed (m_idp m) w in
          let m1 := m_set_idp i (m_add_total k (m_set_cm (cm_add_hsize k (m_cm m)) m)) in
          if negb (s =? kOkCompleted) then Some (s, nr + k, (m1, c, v), w1)
          else mloop cb f n osk sk (m_set_state MSize m1) c v (nr + k) w1.
Proof. intros f n osk sk m c v nr w E. cbn [mloop]. rewrite E. reflexivity. Qed.

Lemma ml_MSize : forall f n osk sk m c v nr w, m_state m = MSize ->
  mloop cb (S f) n osk sk m c v nr w =

          let '(s, k, z, w1) := SizeParser_Feed (m_szp m) w in
          let m1 := m_set_szp z (m_add_total k (m_set_cm (cm_add_hsize k (m_cm m)) m)) in
          if negb (s =? kOkCompleted) then Some (s, nr + k, (m1, c, v), w1)
          else
            let cm := mk_meta (ip_id (m_idp m)) (me_hsize (m_cm m1)) (size_value z) (me_pos (m_cm m1)) in
            mloop cb f n osk sk (m_set_state MValidate (m_set_cm cm m1)) c v (nr + k) w1.
Proof. intros f n osk sk m c v nr w E. cbn [mloop]. rewrite E. reflexivity. Qed.

Lemma ml_MValidate : forall f n osk sk m c v nr w, m_state m = MValidate ->
  mloop cb (S f) n osk sk m c v nr w =

          let sz := me_size (m_cm m) in
          let count := if sz =? kUnknownElementSize then m_total m else wrap64 (m_total m + sz) in
          if byte_cap m <? count then Some (kElementOverflow, nr, (m, c, v), w)
          else
            match lookup (me_id (m_cm m)) (children n) with
            | None =>
                if m_size m =? kUnknownElementSize
                then mloop cb f n osk sk (m_set_state MEnd (m_set_cached true m)) c v nr w
                else if sz =? kUnknownElementSize
                then Some (kIndefiniteUnknownElement, nr, (m, c, v), w)
                else mloop cb f n osk sk (m_set_state MAction m) (CSel NUnknown) v nr w
            | Some cn => mloop cb f n osk sk (m_set_state MAction m) (CSel cn) v nr w
            end.
Proof. intros f n osk sk m c v nr w E. cbn [mloop]. rewrite E. reflexivity. Qed.

Lemma ml_MAction : forall f n osk sk m c v nr w, m_state m = MAction ->
  mloop cb (S f) n osk sk m c v nr w =

          let '(s, skip, w1) := notify cb sk (EElement (m_cm m)) w in
          let m1 := m_set_skip skip m in
          if negb (s =? kOkCompleted) then Some (s, nr, (m1, c, v), w1)
          else if skip
          then mloop cb f n osk true (m_set_state MInit m1)
                 (if me_size (m_cm m) =? kUnknownElementSize then c else CSel NSkip) v nr w1
          else mloop cb f n osk sk (m_set_state MInit m1) c v nr w1.
Proof. intros f n osk sk m c v nr w E. cbn [mloop]. rewrite E. reflexivity. Qed.

Lemma ml_MInit : forall f n osk sk m c v nr w, m_state m = MInit ->
  mloop cb (S f) n osk sk m c v nr w =

          match c with
          | CSel cn =>
              let '(s, p) := parser_Init cn (m_cm m) (m_max m - m_total m) in
              if negb (s =? kOkCompleted) then Some (s, nr, (m, c, v), w)
              else mloop cb f n osk sk (m_set_state MBody m) (CAct p) v nr w
          | _ => None
          end.
Proof. intros f n osk sk m c v nr w E. cbn [mloop]. rewrite E. reflexivity. Qed.

Lemma ml_MBody : forall f n osk sk m c v nr w, m_state m = MBody ->
  mloop cb (S f) n osk sk m c v nr w =

          match c with
          | CAct p =>
              let wr := wrapped n p in
              let '(s0, v0, w0) :=
                if wr && is_start n p && negb (v_started v) then
                  let '(s1, skip, w1) := on_started cb n sk m v w in
                  let v1 := mk_vst (v_val v) skip (v_complete v) (s1 =? kOkCompleted) in
                  (if negb (s1 =? kOkCompleted) then s1
                   else if skip then kSwitchToSkip else kOkCompleted, v1, w1)
                else (kOkCompleted, v, w) in
              if negb (s0 =? kOkCompleted) then Some (s0, nr, (m, c, v0), w0)
              else
                match feed cb f sk p w0 with
                | None => None
                | Some (s2, k, p2, w2) =>
                    let m2 := m_add_total k m in
                    let v2 := if wr && (s2 =? kOkCompleted) && negb (v_skip v0) && negb (was_skipped p2)
                              then mk_vst (v_val v0 ++ [(me_id (m_cm m), p_value p2)]) (v_skip v0)
                                          (v_complete v0) (v_started v0)
                              else v0 in
                    if negb (s2 =? kOkCompleted) then Some (s2, nr + k, (m2, CAct p2, v2), w2)
                    else mloop cb f n osk sk (m_set_state MParsed m2) (CAct p2) v2 (nr + k) w2
                end
          | _ => None
          end.
Proof. intros f n osk sk m c v nr w E. cbn [mloop]. rewrite E. reflexivity. Qed.

Lemma ml_MParsed : forall f n osk sk m c v nr w, m_state m = MParsed ->
  mloop cb (S f) n osk sk m c v nr w =

          if byte_cap m <? m_total m then Some (kElementOverflow, nr, (m, c, v), w)
          else if m_total m =? byte_cap m then mloop cb f n osk sk (m_set_state MEnd m) c v nr w
          else
            match c with
            | CAct p =>
                match cached p with
                | Some x => mloop cb f n osk osk (PrepareForNextChild (m_set_state MValidate (m_set_cm x m))) CNone v nr w
                | None => mloop cb f n osk osk (PrepareForNextChild (m_set_state MFirst m)) CNone v nr w
                end
            | _ => None
            end.
Proof. intros f n osk sk m c v nr w E. cbn [mloop]. rewrite E. reflexivity. Qed.

Lemma ml_MEnd : forall f n osk sk m c v nr w, m_state m = MEnd ->
  mloop cb (S f) n osk sk m c v nr w =
Some (kOkCompleted, nr, (m, c, v), w) .
Proof. intros f n osk sk m c v nr w E. cbn [mloop]. rewrite E. reflexivity. Qed.

Lemma fd_seg : forall f sk m c v w,
  feed cb (S f) sk (PMaster NSegment m c v) w =

              let '(c0, v0, w0) :=
                if v_started v then (kOkCompleted, v, w)
                else let '(c1, skip, w1) := notify cb sk (EBegin KSegment (own_meta idSegment m) (VRec [])) w in
                     if negb (c1 =? kOkCompleted)
                     then (c1, mk_vst (v_val v) skip (v_complete v) false, w1)
                     else (c1, mk_vst (v_val v) skip (v_complete v) true, w1) in
              if negb (c0 =? kOkCompleted) then Some (c0, 0, PMaster NSegment m c v0, w0)
              else
                let sk0 := sk || v_skip v0 in
                match (if v_complete v0 then Some (kOkCompleted, 0, (m, c, v0), w0)
                       else mloop cb f NSegment sk0 (sk0 || m_skip m) m c v0 0 w0) with
                | None => None
                | Some (c2, k, (m2, ch2, v2), w2) =>
                    if negb (c2 =? kOkCompleted) then Some (c2, k, PMaster NSegment m2 ch2 v2, w2)
                    else
                      let '(c3, _, w3) := notify cb sk0 (EEnd KSegment (own_meta idSegment m2) (VRec [])) w2 in
                      Some (c3, k, PMaster NSegment m2 ch2 (mk_vst (v_val v2) (v_skip v2) true (v_started v2)), w3)
                end.
Proof. reflexivity. Qed.

Lemma fd_val : forall f sk vn m c v w, let n := NVal vn in
  feed cb (S f) sk (PMaster n m c v) w =
              
              let '(c0, v0, w0) :=
                match n with
                | NVal VBlockGroup =>
                    if v_started v then (kOkCompleted, v, w)
                    else let '(c1, skip, w1) := on_started cb n sk m v w in
                         if negb (c1 =? kOkCompleted) then (c1, v, w1)
                         else (c1, mk_vst (v_val v) skip (v_complete v) true, w1)
                | _ => (kOkCompleted, v, w)
                end in
              if negb (c0 =? kOkCompleted) then Some (c0, 0, PMaster n m c v0, w0)
              else
                
                match
                  (if v_complete v0 then Some (kOkCompleted, 0, (m, c, v0), w0)
                   else
                     let sk0 := sk || v_skip v0 in
                     match mloop cb f n sk0 (sk0 || m_skip m) m c v0 0 w0 with
                     | None => None
                     | Some (c1, k1, (m1, ch1, v1), w1) =>
                         if c1 =? kSwitchToSkip then
                           match mloop cb f n true true m1 ch1 v1 0 w1 with
                           | None => None
                           | Some (c2, k2, r2, w2) => Some (c2, k1 + k2, r2, w2)
                           end
                         else Some (c1, k1, (m1, ch1, v1), w1)
                     end) with
                | None => None
                | Some (c2, k, (m2, ch2, v2), w2) =>
                    if negb (c2 =? kOkCompleted) then Some (c2, k, PMaster n m2 ch2 v2, w2)
                    else
                      
                      let v2' := mk_vst (v_val v2) (v_skip v2) true (v_started v2) in
                      let '(c3, v3, w3) :=
                        if v_started v2' then (kOkCompleted, v2', w2)
                        else let '(c4, skip, w4) := on_started cb n sk m2 v2' w2 in
                             (c4, mk_vst (v_val v2') skip true (c4 =? kOkCompleted), w4) in
                      if negb (c3 =? kOkCompleted) then Some (c3, k, PMaster n m2 ch2 v3, w3)
                      else if v_skip v3 then Some (kOkCompleted, k, PMaster n m2 ch2 v3, w3)
                      else let '(c5, w5) := on_completed cb n sk m2 v3 w3 in
                           Some (c5, k, PMaster n m2 ch2 v3, w5)
                end.
Proof. reflexivity. Qed.

Lemma fd_other : forall f sk n m c v w, n <> NSegment -> is_value n = false ->
  feed cb (S f) sk (PMaster n m c v) w =
              match mloop cb f n sk (sk || m_skip m) m c v 0 w with
              | None => None
              | Some (c1, k, (m1, ch1, v1), w1) => Some (c1, k, PMaster n m1 ch1 v1, w1)
              end.
Proof. intros f sk n m c v w H1 H2. destruct n; try reflexivity; [congruence | discriminate]. Qed.
End eqs.

Section mono.
Variable cb : callback.

Ltac common H :=
  repeat match type of H with
  | context [match ?x with _ => _ end] =>
      lazymatch x with
      | context [mloop] => fail
      | context [feed] => fail
      | _ => destruct x eqn:?; try discriminate
      end
  end.

Lemma fuel_mono : forall f,
  (forall sk p w r, feed cb f sk p w = Some r -> feed cb (S f) sk p w = Some r) /\
  (forall n osk sk m c v nr w r, mloop cb f n osk sk m c v nr w = Some r ->
     mloop cb (S f) n osk sk m c v nr w = Some r).
Proof.
  induction f as [|f (IHf & IHm)]; [split; intros; discriminate|]. split.
  - intros sk p w r H. destruct p as [| | | | | | | | | | |n m c v|q]; try exact H.
    + destruct n; try (rewrite fd_other in * by (discriminate || reflexivity);
        match type of H with context [mloop cb f ?a ?b ?c ?d ?e ?g ?h ?i] =>
          destruct (mloop cb f a b c d e g h i) eqn:E; [|discriminate]; rewrite (IHm _ _ _ _ _ _ _ _ _ E); exact H end).
      * rewrite fd_seg in *.
        destruct (if v_started v then _ else _) as [[c0 v0] w0].
        destruct (negb (c0 =? kOkCompleted)); [exact H|]. cbv zeta in *.
        destruct (v_complete v0); [exact H|].
        match type of H with context [mloop cb f ?a ?b ?c ?d ?e ?g ?h ?i] =>
          destruct (mloop cb f a b c d e g h i) eqn:E; [|discriminate]; rewrite (IHm _ _ _ _ _ _ _ _ _ E); exact H end.
      * pose proof (fd_val cb f sk v0 m c v w) as Q1. pose proof (fd_val cb (S f) sk v0 m c v w) as Q2.
        cbv zeta in Q1, Q2. rewrite Q1 in H. rewrite Q2. clear Q1 Q2.
        match goal with |- context [let '(_, _) := ?x in _] => destruct x as [[c1 v1] w1] end.
        destruct (negb (c1 =? kOkCompleted)); [exact H|].
        destruct (v_complete v1); [exact H|].
        match type of H with context [mloop cb f ?a ?b ?c ?d ?e ?g ?h ?i] =>
          destruct (mloop cb f a b c d e g h i) as [[[[c2 k2] [[m2 ch2] v2]] w2]|] eqn:E; [|discriminate];
          rewrite (IHm _ _ _ _ _ _ _ _ _ E) end.
        destruct (c2 =? kSwitchToSkip); [|exact H].
        match type of H with context [mloop cb f ?a ?b ?c ?d ?e ?g ?h ?i] =>
          destruct (mloop cb f a b c d e g h i) as [[[[c3 k3] [[m3 ch3] v3]] w3]|] eqn:E2; [|discriminate];
          rewrite (IHm _ _ _ _ _ _ _ _ _ E2) end. exact H.
    + cbn [feed] in H. change (match feed cb (S f) sk q w with
                               | Some (c, k, q1, w1) => Some (c, k, PRec q1, w1) | None => None end = Some r).
      destruct (feed cb f sk q w) as [x|] eqn:E; [|discriminate]. rewrite (IHf _ _ _ _ E). exact H.
  - intros n osk sk m c v nr w r H. destruct (m_state m) eqn:Em.
    + rewrite ml_MFirst in * by exact Em. common H; auto; destruct (_ && _); auto; repeat (destruct (negb _); auto).
    + rewrite ml_MFinishing in * by exact Em. common H; auto.
    + rewrite ml_MSize in * by exact Em. common H; auto.
    + rewrite ml_MValidate in * by exact Em. cbv zeta in *. common H; auto.
    + rewrite ml_MAction in * by exact Em. common H; auto.
    + rewrite ml_MInit in * by exact Em. common H; auto.
    + rewrite ml_MBody in * by exact Em. destruct c as [| |p]; try discriminate. cbv zeta in *.
      match goal with |- context [let '(_, _) := ?x in _] => destruct x as [[c1 v1] w1] end.
      destruct (negb (c1 =? kOkCompleted)); [exact H|].
      destruct (feed cb f sk p w1) as [[[[s2 k2] p2] w2]|] eqn:E; [|discriminate]. rewrite (IHf _ _ _ _ E).
      destruct (negb (s2 =? kOkCompleted)); auto.
    + rewrite ml_MParsed in * by exact Em. common H; auto.
    + rewrite ml_MEnd in * by exact Em. exact H.
Qed.

Lemma feed_mono : forall f g sk p w r, (f <= g)%nat -> feed cb f sk p w = Some r -> feed cb g sk p w = Some r.
Proof. intros f g sk p w r L. induction L; auto. intro H. apply fuel_mono. auto. Qed.
Lemma mloop_mono : forall f g n osk sk m c v nr w r, (f <= g)%nat ->
  mloop cb f n osk sk m c v nr w = Some r -> mloop cb g n osk sk m c v nr w = Some r.
Proof. intros f g n osk sk m c v nr w r L. induction L; auto. intro H. apply fuel_mono. auto. Qed.
End mono.
