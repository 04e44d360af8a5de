(* Proofs about the callback parser: resuming after a seek. *)
From Coq Require Import ZifyBool ZifyNat.
From Verif Require Import Base EbmlSpec LacingSpec WpSpec WpDocSpec WpSeekSpec MWp MWpBlock MWpTree PParUtil PWp3 PWp7 PWp8 PWp10
  PWpRead PWpLeaf PWpBlk PWpDoc PWpDoc2 PWpDoc3.

Local Notation W l p t := (mk_world l p [] t).
Local Notation lg := (lg nothing).
Local Notation loop := (mloop read_all).

Lemma seqv_started : forall c m vals items, seqv c m vals true items = item_events items.
Proof.
  intros c m vals items. revert vals. induction items as [|i r IH]; intro vals; [reflexivity|].
  cbn [seqv negb orb]. rewrite andb_false_r, IH. reflexivity.
Qed.

(* the parser of a child that is a master element *)
Lemma lookup_ctx : forall n b cn, is_master n = true -> lookup b (children n) = Some cn -> is_master cn = true -> ctx cn = Some (room b, b).
Proof.
  intros n b cn Hn H M. destruct n; try discriminate Hn; [.. | destruct v];
    match type of H with context [children ?n] =>
      let x := eval vm_compute in (children n) in change (children n) with x in H end;
    cbn [lookup] in H;
    repeat match type of H with context [?a =? b] => destruct (Z.eqb_spec a b) as [E|?]; [subst b; injection H as <-; try discriminate M; vm_compute; reflexivity | ] end;
    discriminate H.
Qed.

(* the end of a level *)
Lemma sought_feed : forall n d a m c v k w m' c' v' l1 p1 t1 f vals,
  ctx n = Some (d, a) -> v_started v = true -> v_skip v = false -> v_complete v = false -> m_skip m = false ->
  loop f n false false m c v 0 w = Some (kOkCompleted, k, (m', c', v'), W l1 p1 t1) ->
  v_skip v' = false -> v_started v' = true -> own_meta a m' = not_seen a ->
  (is_value n = true -> v_val v' = vals) ->
  exists v'', feed read_all (S f) false (PMaster n m c v) w
    = Some (kOkCompleted, k, PMaster n m' c' v'', W l1 p1 (lg (closing a vals) t1)) /\
    v_skip v'' = false /\ (is_value n = true -> v_val v'' = vals).
Proof.
  intros n d a m c v k w m' c' v' l1 p1 t1 f vals Hn St Sk Co Ms E Sk' St' Ow Vv.
  destruct n as [| | | | | | | | | | | | | | | | | | |vn| |]; try discriminate Hn.
  2-6: injection Hn as _ <-; exists v'; rewrite fd_other by (discriminate || reflexivity); rewrite Ms; cbn [orb]; rewrite E;
       split; [reflexivity|]; split; [exact Sk' | exact Vv].
  - injection Hn as _ <-. eexists. rewrite fd_seg, St. cbv iota. change (kOkCompleted =? kOkCompleted) with true. cbn [negb]. cbv iota zeta.
    rewrite Co, Sk, Ms. cbn [orb]. rewrite E. change (kOkCompleted =? kOkCompleted) with true. cbn [negb]. cbv iota. rewrite notify_all. cbn [skips].
    change idSegment with Segment. rewrite Ow. split; [reflexivity|]. split; [exact Sk' | discriminate].
  - specialize (Vv eq_refl).
    exists (mk_vst (v_val v') false true true).
    rewrite fd_val'. replace (val_pre read_all vn false m v w) with (kOkCompleted, v, w) by (unfold val_pre; destruct vn; try reflexivity; rewrite St; reflexivity).
    change (kOkCompleted =? kOkCompleted) with true. cbn [negb]. unfold val_mid. rewrite Co, Sk, Ms. cbn [orb]. rewrite E.
    change (kOkCompleted =? kSwitchToSkip) with false. cbv iota. cbn [option_map]. clear E. unfold val_post. cbv zeta.
    change (kOkCompleted =? kOkCompleted) with true. cbn [negb v_skip v_complete v_val v_started]. rewrite St', Sk'.
    change (kOkCompleted =? kOkCompleted) with true. cbn [negb v_skip v_complete v_val v_started].
    split; [|split; [reflexivity | intros _; exact Vv]].
    destruct vn; injection Hn as _ <-; cbn [on_completed v_val];
      try (unfold closing; 
           repeat match goal with |- context [if ?a =? ?b then _ else _] =>
             let c := eval vm_compute in (a =? b) in change (a =? b) with c; cbv iota end; reflexivity);
      rewrite notify_all; cbn [skips]; rewrite Vv;
      match type of Ow with own_meta ?j m' = _ => match goal with |- context [own_meta ?i m'] => change (own_meta i m') with (own_meta j m') end end;
      rewrite Ow; reflexivity.
Qed.

(* what follows a chain of levels *)
Definition follows (levels : list Z) (md : mode) (l : list Z) (p : Z) : Prop :=
  match md with
  | MdEof => l = []
  | MdNext x more => hdr l p x more /\ me_id x <> Void /\ 0 <= me_size x /\
      (me_size x = kUnknownElementSize \/ me_size x < 2 ^ 62) /\
      (forall b, In b levels -> type_in b (me_id x) = None) /\ hd 0 levels <> Segment
  | _ => False
  end.
Lemma follows_ok : forall a levels md l p max len, follows (a :: levels) md l p -> len < 2 ^ 62 -> 2 ^ 64 - 2 ^ 62 <= max ->
  md_ok md a false max len l p.
Proof.
  intros a levels md l p max len F L M. assert (P : 2 ^ 64 = 4 * 2 ^ 62) by reflexivity. assert (P2 : 12 < 2 ^ 62) by reflexivity.
  destruct md as [| | |x more]; try contradiction; cbn [md_ok follows] in *.
  - split; [reflexivity|]. split; [exact F | lia].
  - destruct F as (H & V & S0 & S1 & T & N). cbn [hd] in N. split; [congruence|]. split; [exact H|].
    split; [apply T; left; reflexivity|]. split; [exact V|]. split; [exact S0|].
    pose proof (hdr_len _ _ _ _ H) as (_ & Hz & _). destruct (Z.eqb_spec (me_size x) kUnknownElementSize); lia.
Qed.

Lemma sought_chain : forall levels pos bs parts, remains levels pos bs parts ->
  bytes bs -> 0 <= pos -> pos + zlen bs < 2 ^ 62 -> ~ In Segment (tl levels) ->
  exists x more, hdr bs pos x more /\ begins_with parts = Some (me_id x) /\
    me_hsize x <= zlen bs /\ 0 <= me_size x /\
    forall n p l t md, ctx n = Some (room (hd 0 levels), hd 0 levels) ->
      leads n (tl levels) (me_id x) = true -> InitAfterSeek n (tl levels) x = Some p ->
      follows levels md l (pos + zlen bs) ->
      exists f m0 c0 v0 m' c' v', p = PMaster n m0 c0 v0 /\
        feed read_all f false p (W (more ++ l) (pos + me_hsize x) t)
        = Some (kOkCompleted, zlen bs - me_hsize x + md_k md, PMaster n m' c' v',
                W (md_rest md l) (pos + zlen bs + md_k md) (lg (resume_events levels parts) t)) /\
        (if m_cached m' then Some (m_cm m') else None) = md_cached md /\ v_skip v' = false /\
        (is_value n = true -> v_val v' = seen_values levels parts).
Proof.
  assert (U : kUnknownElementSize = 2 ^ 64 - 1) by reflexivity. assert (P64 : 2 ^ 64 = 4 * 2 ^ 62) by reflexivity.
  assert (P62 : 12 < 2 ^ 62) by reflexivity.
  intros levels pos bs parts H. induction H as [a pos bs items NE El | a inside pos bs1 bs2 items parts R IH El Hd];
    intros Hb Hp Hl Hs.
  - pose proof (proj2 document_claims _ _ _ _ _ _ El) as [K0 KC].
    destruct (KC ltac:(intro Q; apply NE, K0, Q)) as (x & more & i & its & Ei & Exi & Hh & S0 & B1 & _ & KK).
    pose proof (hdr_len _ _ _ _ Hh) as (HL & Hz & _). pose proof (zlen_nonneg _ more).
    exists x, more. split; [exact Hh|]. split; [rewrite Ei; cbn; rewrite Exi; reflexivity|]. split; [lia|]. split; [exact S0|].
    intros n p l t md Hn _ Init F. cbn [hd tl InitAfterSeek] in *.
    destruct (lookup (me_id x) (children n)) as [cn|] eqn:Lk; [|discriminate]. injection Init as <-.
    set (v := mk_vst [] false false true).
    assert (Ok : md_ok md a false (kUnknownElementSize + me_hsize x) (zlen bs) l (pos + zlen bs)) by (apply (follows_ok a []); [exact F | lia | lia]).
    destruct (KK n (sought MValidate x) CNone v l t md (kUnknownElementSize + me_hsize x) (- me_hsize x) Hn Hb Hp Hl eq_refl eq_refl eq_refl
      ltac:(cbn [sought m_total]; lia) ltac:(lia) ltac:(cbn [sought m_size m_max]; split; [reflexivity | split; [lia | reflexivity || lia]]) Ok eq_refl)
      as (f & m' & c' & v' & R1 & R2 & R3 & R4 & R5 & R6 & R7).
    specialize (R7 0). destruct f as [|f]; [discriminate R7|]. rewrite ml_MValidate in R7 by reflexivity. cbv zeta in R7.
    change (m_cm (sought MValidate x)) with x in R7. change (m_total (sought MValidate x)) with 0 in R7.
    replace (byte_cap (sought MValidate x) <? _) with false in R7.
    2:{ symmetry. apply Z.ltb_ge. change (byte_cap (sought MValidate x)) with (2 ^ 64 - 1).
        destruct (me_size x =? kUnknownElementSize); [lia|]. unfold wrap64. pose proof (Z.mod_pos_bound (0 + me_size x) (2 ^ 64) ltac:(lia)). lia. }
    rewrite Lk in R7. change (m_set_state MAction (sought MValidate x)) with (sought MAction x) in R7.
    rewrite seqv_started in R7.
    destruct (sought_feed n _ a (sought MAction x) (CSel cn) v _ _ m' c' v' _ _ _ f (item_values items) Hn eq_refl eq_refl eq_refl eq_refl R7 R3)
      as (v'' & F1 & F2 & F3).
    { rewrite R6. reflexivity. }
    { rewrite (agree_own a _ _ R1). reflexivity. }
    { intro Iv. rewrite R5. unfold new_vals. rewrite Iv. reflexivity. }
    exists (S f), (sought MAction x), (CSel cn), v, m', c', v''. split; [reflexivity|]. split; [|split; [exact R2|]; split; [exact F2|]].
    + rewrite F1. cbn [resume_events seen_values app]. rewrite <- lg_app. rewrite Z.add_0_l. reflexivity.
    + intro Iv. rewrite (F3 Iv). reflexivity.
  - apply Forall_app in Hb. destruct Hb as [Hb1 Hb2]. rewrite (zlen_app _ bs1 bs2) in *. pose proof (zlen_nonneg _ bs1). pose proof (zlen_nonneg _ bs2).
    destruct IH as (x & more & Hh & Fi & Hx & S0 & C); [exact Hb1 | exact Hp | lia | |].
    { intro Q. apply Hs. cbn [tl]. destruct inside; [contradiction Q | right; exact Q]. }
    assert (Hin : exists b rest, inside = b :: rest) by (inversion R; eauto). destruct Hin as (b & rest & ->). cbn [tl hd] in *.
    assert (Nb : b <> Segment) by (intros ->; apply Hs; left; reflexivity).
    pose proof (hdr_len _ _ _ _ Hh) as (HL & Hz & _).
    exists x, (more ++ bs2). split; [apply hdr_app; exact Hh|].
    split; [unfold begins_with in *; destruct parts; [discriminate Fi | exact Fi]|]. split; [lia|]. split; [exact S0|].
    intros n p l t md Hn Ld Init F. cbn [leads] in Ld. apply andb_prop in Ld. destruct Ld as (Mn & Ld). cbn [InitAfterSeek] in Init.
    destruct (lookup b (children n)) as [cn|] eqn:Lk; [|discriminate].
    destruct (InitAfterSeek cn rest x) as [q|] eqn:Iq; [|discriminate]. injection Init as <-.
    assert (Mc : is_master cn = true) by (destruct rest; cbn [leads] in Ld; apply andb_prop in Ld; exact (proj1 Ld)).
    assert (Hcn : ctx cn = Some (room b, b)) by (exact (lookup_ctx n b cn Mn Lk Mc)).
    pose proof (proj2 document_claims _ _ _ _ _ _ El) as [K0 KC].
    set (m := sought MBody (unseen b)). set (v := mk_vst [] false false true).
    set (v1 := mk_vst (if is_value n then [(b, VRec (seen_values (b :: rest) parts))] else []) false false true).
    assert (Body : forall mdi g mm, 
      (exists m0 c0 v0 m' c' v', q = PMaster cn m0 c0 v0 /\
        feed read_all g false q (W (more ++ bs2 ++ l) (pos + me_hsize x) t)
        = Some (kOkCompleted, zlen bs1 - me_hsize x + md_k mdi, PMaster cn m' c' v',
                W (md_rest mdi (bs2 ++ l)) (pos + zlen bs1 + md_k mdi) (lg (resume_events (b :: rest) parts) t)) /\
        (if m_cached m' then Some (m_cm m') else None) = md_cached mdi /\ v_skip v' = false /\
        (is_value cn = true -> v_val v' = seen_values (b :: rest) parts)) ->
      0 <= md_k mdi <= 12 ->
      mm = match md_cached mdi with Some x' => PrepareForNextChild (m_set_state MValidate (m_set_cm x' (m_set_state MParsed (m_add_total (zlen bs1 - me_hsize x + md_k mdi) m))))
                               | None => PrepareForNextChild (m_set_state MFirst (m_set_state MParsed (m_add_total (zlen bs1 - me_hsize x + md_k mdi) m))) end ->
      forall G r, (g <= G)%nat -> loop G n false false mm CNone v1 (zlen bs1 - me_hsize x + md_k mdi) (W (md_rest mdi (bs2 ++ l)) (pos + zlen bs1 + md_k mdi) (lg (resume_events (b :: rest) parts) t)) = Some r ->
        loop (S (S G)) n false false m (CAct q) v 0 (W (more ++ bs2 ++ l) (pos + me_hsize x) t) = Some r).
    { intros mdi g mm (m0 & c0 & v0 & m1 & c1 & vq & Eq & Fq & Cq & Sq & Vq) Hk -> G r LG Hr.
      rewrite ml_MBody by reflexivity. cbv zeta. change (negb (v_started v)) with false. rewrite andb_false_r. cbv iota.
      change (kOkCompleted =? kOkCompleted) with true. cbn [negb]. cbv iota.
      rewrite (feed_mono _ g (S G) _ _ _ _ ltac:(lia) Fq). change (kOkCompleted =? kOkCompleted) with true. cbn [negb]. cbv iota.
      assert (Wr : wrapped n q = is_value n) by (rewrite Eq; unfold wrapped; apply andb_true_r).
      assert (Ws : was_skipped (PMaster cn m1 c1 vq) = false) by (cbn [was_skipped]; destruct cn; try reflexivity; exact Sq).
      rewrite Wr, Ws. change (negb (v_skip v)) with true. cbn [negb]. rewrite !andb_true_r.
      replace (if is_value n then mk_vst (v_val v ++ _) _ _ _ else v) with v1.
      2:{ unfold v1. destruct (is_value n) eqn:Iv; [|reflexivity]. cbn [v_val v v_skip v_complete v_started app p_value].
          rewrite Vq; [reflexivity|]. destruct n; try discriminate Iv. exact (value_children _ _ _ Lk Mc). }
      rewrite ml_MParsed by reflexivity.
      change (byte_cap (m_set_state MParsed (m_add_total (zlen bs1 - me_hsize x + md_k mdi) m))) with (2 ^ 64 - 1).
      change (m_total (m_set_state MParsed (m_add_total (zlen bs1 - me_hsize x + md_k mdi) m))) with (0 + (zlen bs1 - me_hsize x + md_k mdi)).
      replace (2 ^ 64 - 1 <? 0 + (zlen bs1 - me_hsize x + md_k mdi)) with false by (clear - Hl Hz Hk Hx Hp H H0 P64; lia).
      replace (0 + (zlen bs1 - me_hsize x + md_k mdi) =? 2 ^ 64 - 1) with false by (clear - Hl Hz Hk Hx Hp H H0 P64; lia).
      cbn [cached]. rewrite Cq. rewrite Z.add_0_l.
      destruct (md_cached mdi); exact Hr. }
    assert (Fin : forall f k m' c' v' t1, loop f n false false m (CAct q) v 0 (W (more ++ bs2 ++ l) (pos + me_hsize x) t)
        = Some (kOkCompleted, k, (m', c', v'), W (md_rest md l) (pos + (zlen bs1 + zlen bs2) + md_k md) t1) ->
      k = zlen bs1 + zlen bs2 - me_hsize x + md_k md -> agree m m' ->
      (if m_cached m' then Some (m_cm m') else None) = md_cached md ->
      v_skip v' = false -> v_started v' = true -> v_val v' = v_val v1 ++ new_vals n items ->
      t1 = lg (item_events items) (lg (resume_events (b :: rest) parts) t) ->
      exists f m0 c0 v0 m' c' v', PMaster n m (CAct q) v = PMaster n m0 c0 v0 /\
        feed read_all f false (PMaster n m (CAct q) v) (W ((more ++ bs2) ++ l) (pos + me_hsize x) t)
        = Some (kOkCompleted, zlen bs1 + zlen bs2 - me_hsize x + md_k md, PMaster n m' c' v',
                W (md_rest md l) (pos + (zlen bs1 + zlen bs2) + md_k md) (lg (resume_events (a :: b :: rest) (items :: parts)) t)) /\
        (if m_cached m' then Some (m_cm m') else None) = md_cached md /\ v_skip v' = false /\
        (is_value n = true -> v_val v' = seen_values (a :: b :: rest) (items :: parts))).
    { intros f k m' c' v' t1 E -> Ag Ca Sk St Vv ->.
      destruct (sought_feed n _ a m (CAct q) v _ _ m' c' v' _ _ _ f (seen_values (a :: b :: rest) (items :: parts)) Hn eq_refl eq_refl eq_refl eq_refl E Sk St)
        as (v'' & F1 & F2 & F3).
      { rewrite (agree_own a _ _ Ag). reflexivity. }
      { intro Iv. rewrite Vv. unfold new_vals, v1. rewrite Iv. reflexivity. }
      exists (S f), m, (CAct q), v, m', c', v''. split; [reflexivity|]. rewrite <- app_assoc. split; [|split; [exact Ca|]; split; [exact F2 | exact F3]].
      rewrite F1. cbn [resume_events]. rewrite !lg_app. reflexivity. }
    destruct bs2 as [|b0 bs0] eqn:Eb.
    + assert (items = []) by (apply K0; reflexivity). subst items. rewrite zlen_nil, Z.add_0_r in *. rewrite app_nil_l in *.
      destruct (C cn q l t md Hcn Ld Iq) as (g & CC).
      { destruct md as [| | |y ym]; try contradiction; [exact F|]. cbn [follows hd] in *. destruct F as (F1 & F2 & F3 & F4 & F5 & F6).
        split; [exact F1|]. split; [exact F2|]. split; [exact F3|]. split; [exact F4|]. split; [|exact Nb]. intros b' Ib. apply F5. right. exact Ib. }
      destruct md as [| | |y ym]; try contradiction; cbn [md_k md_rest md_cached follows] in *.
      * subst l. 
        set (mm := PrepareForNextChild (m_set_state MFirst (m_set_state MParsed (m_add_total (zlen bs1 - me_hsize x + 0) m)))).
        destruct (@ml_eof nothing n mm (pos + zlen bs1 + 0) eq_refl eq_refl eq_refl) as (m' & A & Ca & E).
        eapply (Fin _ _ m' CNone v1).
        -- apply (Body MdEof g mm CC ltac:(cbn; lia) eq_refl (S (S g))); [lia|]. cbn [md_rest md_k]. rewrite E. rewrite !Z.add_0_r. reflexivity.
        -- lia.
        -- exact A.
        -- rewrite Ca. reflexivity.
        -- reflexivity.
        -- reflexivity.
        -- unfold new_vals. destruct (is_value n); rewrite app_nil_r; reflexivity.
        -- reflexivity.
      * destruct F as (F1 & F2 & F3 & F4 & F5 & F6). pose proof (hdr_len _ _ _ _ F1) as (_ & Hzy & _).
        set (mm := PrepareForNextChild (m_set_state MValidate (m_set_cm y (m_set_state MParsed (m_add_total (zlen bs1 - me_hsize x + me_hsize y) m))))).
        eapply (Fin _ _ (m_set_state MEnd (m_set_cached true mm)) CNone v1).
        -- apply (Body (MdNext y ym) g mm CC ltac:(cbn; lia) eq_refl (S (S g))); [lia|]. cbn [md_rest md_k].
           rewrite ml_MValidate by reflexivity. cbv zeta.
           replace (byte_cap mm <? _) with false.
           2:{ symmetry. apply Z.ltb_ge. change (byte_cap mm) with (2 ^ 64 - 1). change (m_cm mm) with y.
               change (m_total mm) with (0 + (zlen bs1 - me_hsize x + me_hsize y)).
               destruct (me_size y =? kUnknownElementSize); [lia|]. unfold wrap64.
               pose proof (Z.mod_pos_bound (0 + (zlen bs1 - me_hsize x + me_hsize y) + me_size y) (2 ^ 64) ltac:(lia)). lia. }
           change (m_cm mm) with y. pose proof (schema_ok n _ a (me_id y) Hn) as SO.
           destruct (lookup (me_id y) (children n)) as [cy|].
           { exfalso. pose proof (F5 a (or_introl eq_refl)). destruct SO as [[(_ & _ & Q) | [(_ & Q & _) | (ty & Q & _)]] NU]; congruence. }
           change (m_size mm =? kUnknownElementSize) with true. cbv iota. rewrite ml_MEnd by reflexivity. reflexivity.
        -- lia.
        -- repeat split.
        -- reflexivity.
        -- reflexivity.
        -- reflexivity.
        -- unfold new_vals. destruct (is_value n); rewrite app_nil_r; reflexivity.
        -- reflexivity.
    + rewrite <- Eb in *. assert (NB : bs2 <> []) by (rewrite Eb; discriminate).
      destruct (KC NB) as (y & ym & i & its & Ei & Exi & Hhy & Sy & By & _ & KK).
      pose proof (hdr_len _ _ _ _ Hhy) as (HLy & Hzy & _). pose proof (zlen_nonneg _ ym).
      destruct (Hd i) as (Hv & Hin); [rewrite Ei; reflexivity|]. rewrite Exi in Hv, Hin.
      destruct (C cn q (bs2 ++ l) t (MdNext y (ym ++ l)) Hcn Ld Iq) as (g & CC).
      { cbn [follows hd]. split; [apply hdr_app; exact Hhy|]. split; [exact Hv|]. split; [exact Sy|]. split; [lia|]. split; [exact Hin | exact Nb]. }
      set (mm := PrepareForNextChild (m_set_state MValidate (m_set_cm y (m_set_state MParsed (m_add_total (zlen bs1 - me_hsize x + me_hsize y) m))))).
      set (T := zlen bs1 - me_hsize x).
      assert (Ok : md_ok md a false (kUnknownElementSize - T) (zlen bs2) l (pos + zlen bs1 + zlen bs2)).
      { apply (follows_ok a (b :: rest)); [|lia|unfold T; lia]. rewrite <- Z.add_assoc. exact F. }
      destruct (KK n mm CNone v1 l (lg (resume_events (b :: rest) parts) t) md (kUnknownElementSize - T) T Hn Hb2 ltac:(lia) ltac:(lia) eq_refl eq_refl eq_refl
        ltac:(reflexivity) ltac:(unfold T; lia) ltac:(split; [reflexivity | split; [change (m_max mm) with kUnknownElementSize; lia | change (m_max mm) with kUnknownElementSize; lia]]) Ok eq_refl)
        as (f & m' & c' & v' & R1 & R2 & R3 & R4 & R5 & R6 & R7).
      assert (L1 := mloop_mono read_all f (g + f) _ _ _ _ _ _ _ _ _ (Nat.le_add_l f g) (R7 (zlen bs1 - me_hsize x + me_hsize y))).
      rewrite seqv_started in L1.
      assert (Em : mm = match md_cached (MdNext y (ym ++ l)) with
          | Some x' => PrepareForNextChild (m_set_state MValidate (m_set_cm x' (m_set_state MParsed (m_add_total (zlen bs1 - me_hsize x + md_k (MdNext y (ym ++ l))) m))))
          | None => PrepareForNextChild (m_set_state MFirst (m_set_state MParsed (m_add_total (zlen bs1 - me_hsize x + md_k (MdNext y (ym ++ l))) m))) end)
        by (cbn [md_cached md_k]; reflexivity).
      assert (Hk : 0 <= md_k (MdNext y (ym ++ l)) <= 12) by (cbn [md_k]; clear - Hzy; lia).
      pose proof (Body _ g mm CC Hk Em (g + f)%nat _ (Nat.le_add_r g f) L1) as L2. clear Body CC L1 R7 C KK KC.
      replace (pos + zlen bs1 + zlen bs2 + md_k md) with (pos + (zlen bs1 + zlen bs2) + md_k md) in L2 by (rewrite Z.add_assoc; reflexivity).
      apply (Fin _ _ m' c' v' _ L2); [clear; lia | exact R1 | exact R2 | exact R3 | rewrite R6; reflexivity | exact R5 | reflexivity].
Qed.
