(* Proofs about block parsing. *)
From Coq Require Import ZifyBool ZifyNat.
From Verif Require Import Base EbmlSpec MParUtil ReaderSpec PParUtil MParBlock LacingSpec.

(* ---------- reading a vint, as a decision ---------- *)

Lemma vint_first : forall w v, 1 <= w <= 8 -> 0 <= v < 2 ^ (7 * w) ->
  exists b t, vint w v = b :: t /\ 2 ^ (8 - w) <= b < 2 * 2 ^ (8 - w) /\ zlen t = w - 1.
Proof.
  intros w v Hw Hv. destruct (vint_cons w v Hw Hv) as [E H].
  eexists. eexists. split; [exact E|]. split; [lia|]. rewrite be_bytes_zlen. lia.
Qed.

Lemma vint_of_bytes : forall b t l, 1 <= l <= 8 -> 2 ^ (8 - l) <= b < 2 * 2 ^ (8 - l) ->
  bytes t -> zlen t = l - 1 ->
  exists v, 0 <= v < 2 ^ (7 * l) /\ b :: t = vint l v.
Proof.
  intros b t l Hl Hb Ht Hz.
  assert (B7 : 2 ^ (8 - l) <= 2 ^ 7) by (apply Z.pow_le_mono_r; lia). change (2 ^ 7) with 128 in B7.
  pose proof (pow2_pos (8 - l) ltac:(lia)) as P0.
  pose proof (be_val_bound t Ht) as TB. rewrite Hz in TB.
  assert (E : 2 ^ (7 * l) = 2 ^ (8 - l) * 2 ^ (8 * (l - 1))).
  { rewrite <- Z.pow_add_r by lia. apply f_equal2; [reflexivity|lia]. }
  set (v := (b - 2 ^ (8 - l)) * 2 ^ (8 * (l - 1)) + be_val t).
  exists v. split; [subst v; rewrite E; nia|]. unfold vint.
  assert (Hbt : bytes (b :: t)) by (constructor; [unfold is_byte; lia|exact Ht]).
  rewrite <- (be_bytes_val (b :: t) Hbt).
  replace (length (b :: t)) with (Z.to_nat l) by (unfold zlen in Hz; cbn [length]; lia).
  f_equal. rewrite be_val_cons, Hz. subst v. rewrite E. ring.
Qed.

Lemma ReadUInt_dec : forall r pos bs, wf_reader r -> serves r pos bs -> bytes bs ->
  (exists w v rest, bs = vint w v ++ rest /\ 1 <= w <= 8 /\ 0 <= v < 2 ^ (7 * w) /\ ReadUInt r pos = (v, w)) \/
  ((forall w v rest, 1 <= w <= 8 -> 0 <= v < 2 ^ (7 * w) -> bs <> vint w v ++ rest) /\
   exists v w, ReadUInt r pos = (v, w) /\ (v < 0 \/ zlen bs < w)).
Proof.
  intros r pos bs Hwf Hs Hb. pose proof Hs as [Hp _].
  destruct bs as [|b t].
  - right. split.
    + intros w v rest Hw Hv E. destruct (vint_first w v Hw Hv) as (b & t & E1 & _). rewrite E1 in E. discriminate.
    + destruct (ReadUInt r pos) as [v w] eqn:E. exists v, w. split; [reflexivity|].
      destruct (ReadUInt_range r pos v w Hwf Hp E) as [?|?]; [left; lia|right; rewrite zlen_nil; lia].
  - inversion Hb as [|? ? H1 H2]; subst. unfold is_byte in H1.
    destruct (Z.eq_dec b 0) as [->|Nb].
    + right. split.
      * intros w v rest Hw Hv E. destruct (vint_first w v Hw Hv) as (x & y & E1 & E2 & _). rewrite E1 in E.
        cbn [app] in E. injection E as Ex _. pose proof (pow2_pos (8 - w) ltac:(lia)). lia.
      * unfold ReadUInt. replace (pos <? 0) with false by lia. rewrite (serves_byte _ _ _ _ Hs).
        cbn [Z.eqb]. eexists. eexists. split; [reflexivity|]. left. unfold E_FILE_FORMAT_INVALID. lia.
    + destruct (marker_scan_spec b ltac:(lia)) as (l & Em & Hl & Hr & Hm).
      destruct (Z_le_dec (l - 1) (zlen t)) as [Hle|Hgt].
      * left. set (t1 := firstn (Z.to_nat (l - 1)) t). set (t2 := skipn (Z.to_nat (l - 1)) t).
        assert (Et : t = t1 ++ t2) by (symmetry; apply firstn_skipn).
        assert (H12 : bytes t1 /\ bytes t2) by (apply bytes_app; rewrite <- Et; exact H2).
        assert (Z1 : zlen t1 = l - 1) by (subst t1; unfold zlen in *; rewrite firstn_length; lia).
        destruct (vint_of_bytes b t1 l Hl Hr (proj1 H12) Z1) as (v & Hv & Ev).
        exists l, v, t2. split; [rewrite <- Ev; cbn [app]; f_equal; exact Et|]. split; [exact Hl|]. split; [exact Hv|].
        apply ReadUInt_vint; auto. rewrite <- Ev. rewrite Et in Hs.
        apply (serves_app_l _ _ (b :: t1) t2). exact Hs.
      * right. split.
        -- intros w v rest Hw Hv E. destruct (vint_first w v Hw Hv) as (x & y & E1 & E2 & E3). rewrite E1 in E.
           cbn [app] in E. injection E as Ex Ey. subst x.
           assert (8 - w = 8 - l) by (eapply pow_unique with (x := b); lia).
           apply (f_equal zlen) in Ey. rewrite zlen_app in Ey. pose proof (zlen_nonneg _ rest). lia.
        -- unfold ReadUInt. replace (pos <? 0) with false by lia. rewrite (serves_byte _ _ _ _ Hs).
           replace (b =? 0) with false by lia. rewrite Em, Hm.
           pose proof (pow2_pos (8 - l) ltac:(lia)).
           pose proof (ReadUInt_loop_range (Z.to_nat (l - 1)) r (pos + 1) (b - 2 ^ (8 - l)) l (8 - l) Hwf
             ltac:(lia) ltac:(lia) ltac:(lia) ltac:(lia)) as L.
           destruct (ReadUInt_loop r (Z.to_nat (l - 1)) (pos + 1) (b - 2 ^ (8 - l)) l) as [v w].
           exists v, w. split; [reflexivity|]. rewrite zlen_cons. destruct L as [L|L]; lia.
Qed.

(* ---------- Xiph sizes ---------- *)

Fixpoint xdec (bs : list Z) (acc : Z) : option (Z * list Z) :=
  match bs with
  | [] => None
  | b :: t => if b <? 255 then Some (acc + b, t) else xdec t (acc + b)
  end.

Lemma xiph_size_xdec : forall bs fuel r pos acc, serves r pos bs -> (length bs <= fuel)%nat ->
  xiph_size fuel r pos (pos + zlen bs) acc =
  match xdec bs acc with None => None | Some (n, rest) => Some (n, pos + zlen bs - zlen rest) end.
Proof.
  induction bs as [|b t IH]; intros fuel r pos acc Hs Hf.
  - destruct fuel; cbn [xiph_size xdec]; [reflexivity|]. rewrite zlen_nil. replace (pos >=? pos + 0) with true by lia. reflexivity.
  - destruct fuel as [|fuel]; [cbn in Hf; lia|]. cbn [xiph_size xdec].
    rewrite zlen_cons. pose proof (zlen_nonneg _ t). replace (pos >=? pos + (1 + zlen t)) with false by lia.
    rewrite (serves_byte _ _ _ _ Hs). destruct (b <? 255); [f_equal; f_equal; lia|].
    replace (pos + (1 + zlen t)) with (pos + 1 + zlen t) by lia. apply IH; [eapply serves_tail; eauto|cbn in Hf; lia].
Qed.

Lemma xiph_code_step : forall n, 255 <= n -> xiph_code n = 255 :: xiph_code (n - 255).
Proof.
  intros n Hn. unfold xiph_code.
  assert (E1 : n / 255 = (n - 255) / 255 + 1) by zdm.
  assert (E2 : n mod 255 = (n - 255) mod 255) by zdm.
  assert (E3 : 0 <= (n - 255) / 255) by zdm.
  rewrite E1, E2. replace (Z.to_nat ((n - 255) / 255 + 1)) with (S (Z.to_nat ((n - 255) / 255))) by lia. reflexivity.
Qed.

Lemma xiph_code_small : forall n, 0 <= n < 255 -> xiph_code n = [n].
Proof.
  intros n Hn. unfold xiph_code. rewrite Z.div_small, Z.mod_small by lia. reflexivity.
Qed.

Lemma xdec_spec : forall bs acc n rest, bytes bs ->
  xdec bs acc = Some (acc + n, rest) <-> (0 <= n /\ bs = xiph_code n ++ rest).
Proof.
  induction bs as [|b t IH]; intros acc n rest Hb; cbn [xdec].
  - split; [discriminate|]. intros [_ E]. unfold xiph_code in E.
    destruct (repeat 255 (Z.to_nat (n / 255))); discriminate.
  - inversion Hb as [|? ? H1 H2]; subst. unfold is_byte in H1. destruct (b <? 255) eqn:E255.
    + split.
      * intros E. injection E as E1 E2. subst t. assert (b = n) by lia. subst b.
        split; [lia|]. rewrite xiph_code_small by lia. reflexivity.
      * intros [Hn E]. destruct (Z_lt_dec n 255).
        -- rewrite xiph_code_small in E by lia. cbn [app] in E. injection E as -> ->. reflexivity.
        -- rewrite xiph_code_step in E by lia. cbn [app] in E. injection E as -> _. lia.
    + assert (b = 255) by lia. subst b. replace (acc + n) with (acc + 255 + (n - 255)) by lia.
      rewrite IH by exact H2. split.
      * intros [Hn ->]. split; [lia|]. rewrite (xiph_code_step n) by lia. reflexivity.
      * intros [Hn E]. destruct (Z_lt_dec n 255).
        -- rewrite xiph_code_small in E by lia. cbn [app] in E. injection E as E _. lia.
        -- rewrite xiph_code_step in E by lia. cbn [app] in E. injection E as ->. split; [lia|reflexivity].
Qed.

Lemma xiph_sizes_complete : forall ls r pos rest stop,
  bytes (concat (map xiph_code ls) ++ rest) -> serves r pos (concat (map xiph_code ls) ++ rest) ->
  Forall (fun l => 1 <= l) ls -> stop = pos + zlen (concat (map xiph_code ls) ++ rest) ->
  xiph_sizes (length ls) r pos stop = Some (ls, pos + zlen (concat (map xiph_code ls))).
Proof.
  induction ls as [|l ls IH]; intros r pos rest stop Hb Hs HF ->; cbn [xiph_sizes length map concat].
  - rewrite zlen_nil. do 2 f_equal. lia.
  - cbn [map concat] in *. rewrite <- app_assoc in *. set (tl := concat (map xiph_code ls) ++ rest) in *.
    inversion HF as [|? ? H1 H2]; subst.
    rewrite xiph_size_xdec by (auto; unfold zlen; lia).
    rewrite (proj2 (xdec_spec (xiph_code l ++ tl) 0 l tl Hb)) by (split; [lia|reflexivity]).
    replace (0 + l <=? 0) with false by lia. apply bytes_app in Hb.
    rewrite zlen_app. replace (pos + (zlen (xiph_code l) + zlen tl) - zlen tl) with (pos + zlen (xiph_code l)) by lia.
    rewrite (IH r (pos + zlen (xiph_code l)) rest); auto.
    + rewrite zlen_app. do 2 f_equal. lia.
    + tauto.
    + apply (serves_app_r _ _ _ _ Hs).
    + fold tl. lia.
Qed.

Lemma xiph_sizes_sound : forall n r pos bs ls p, bytes bs -> serves r pos bs ->
  xiph_sizes n r pos (pos + zlen bs) = Some (ls, p) ->
  length ls = n /\ Forall (fun l => 1 <= l) ls /\
  exists rest, bs = concat (map xiph_code ls) ++ rest /\ p = pos + zlen (concat (map xiph_code ls)).
Proof.
  induction n as [|n IH]; intros r pos bs ls p Hb Hs E; cbn [xiph_sizes] in E.
  - injection E as <- <-. split; [reflexivity|]. split; [constructor|]. exists bs. cbn [map concat]. rewrite zlen_nil. split; [reflexivity|lia].
  - rewrite xiph_size_xdec in E by (auto; unfold zlen; lia).
    destruct (xdec bs 0) as [[m rest1]|] eqn:ED; [|discriminate].
    replace m with (0 + m) in ED by lia. pose proof (proj1 (xdec_spec bs 0 m rest1 Hb) ED) as (Hm & EB). subst bs.
    apply bytes_app in Hb. destruct Hb as [Hb1 Hb2]. pose proof (serves_app_r _ _ _ _ Hs) as Hs'.
    rewrite zlen_app in E. replace (pos + (zlen (xiph_code m) + zlen rest1) - zlen rest1) with (pos + zlen (xiph_code m)) in E by lia.
    replace (pos + (zlen (xiph_code m) + zlen rest1)) with (pos + zlen (xiph_code m) + zlen rest1) in E by lia.
    destruct (m <=? 0) eqn:Em0; [discriminate|].
    destruct (xiph_sizes n r _ _) as [[ls' p']|] eqn:EX; [|discriminate]. injection E as <- <-.
    destruct (IH _ _ _ _ _ Hb2 Hs' EX) as (F1 & F2 & rest & F3 & F4).
    split; [cbn; lia|]. split; [constructor; [lia|exact F2]|]. exists rest. cbn [map concat].
    rewrite zlen_app. split; [rewrite F3 at 1; apply app_assoc|lia].
Qed.

(* ---------- EBML sizes ---------- *)

Lemma shiftl_1 : forall k, 0 <= k -> Z.shiftl 1 k = 2 ^ k.
Proof. intros k Hk. rewrite Z.shiftl_mul_pow2 by lia. lia. Qed.

Lemma vint_zlen_l : forall w v, 0 <= w -> zlen (vint w v) = w.
Proof. intros w v Hw. unfold vint. rewrite be_bytes_zlen. lia. Qed.

Lemma delta_code_zlen : forall w d, 0 <= w -> zlen (delta_code w d) = w.
Proof. intros. apply vint_zlen_l. exact H. Qed.

Lemma ebml_sizes_complete : forall ns r pos prev ds rest stop size,
  delta_codes prev ns ds -> serves r pos (ds ++ rest) -> Forall (fun l => 1 <= l) ns ->
  stop = pos + zlen (ds ++ rest) -> 0 <= size -> size + fold_right Z.add 0 ns <= LLONG_MAX ->
  ebml_sizes (length ns) r pos stop prev size = Some (ns, pos + zlen ds).
Proof.
  induction ns as [|n ns IH]; intros r pos prev ds rest stop size HD Hs HF -> Hsz Hmax.
  - inversion HD; subst. cbn. rewrite Z.add_0_r. reflexivity.
  - inversion HD as [|? ? ? w bs (Hw & Hd) HD']; subst. inversion HF as [|? ? H1 H2]; subst.
    rewrite <- app_assoc in *. cbn [length ebml_sizes]. rewrite zlen_app, delta_code_zlen by lia.
    pose proof (zlen_nonneg _ (bs ++ rest)).
    replace (pos >=? pos + (w + zlen (bs ++ rest))) with false by lia.
    rewrite (ReadUInt_vint r pos w (n - prev + (2 ^ (7 * w - 1) - 1)) Hw Hd)
      by (apply (serves_app_l _ _ _ (bs ++ rest)); exact Hs).
    replace (_ <? 0) with false by lia.
    replace (pos + w >? pos + (w + zlen (bs ++ rest))) with false by lia.
    rewrite shiftl_1 by lia.
    replace (prev + (n - prev + (2 ^ (7 * w - 1) - 1) - (2 ^ (7 * w - 1) - 1))) with n by lia.
    replace (n <=? 0) with false by lia. cbn [fold_right] in Hmax.
    assert (HS : 0 <= fold_right Z.add 0 ns).
    { clear -H2. induction H2; cbn; lia. }
    replace (size >? LLONG_MAX - n) with false by lia.
    apply serves_app_r in Hs. rewrite delta_code_zlen in Hs by lia.
    rewrite (IH r (pos + w) n bs rest); auto; try lia.
    rewrite zlen_app, delta_code_zlen by lia. do 2 f_equal. lia.
Qed.

Lemma ebml_sizes_sound : forall n r pos bs prev size ls p, wf_reader r -> bytes bs -> serves r pos bs ->
  ebml_sizes n r pos (pos + zlen bs) prev size = Some (ls, p) ->
  length ls = n /\ Forall (fun l => 1 <= l) ls /\
  exists ds rest, bs = ds ++ rest /\ p = pos + zlen ds /\ delta_codes prev ls ds.
Proof.
  induction n as [|n IH]; intros r pos bs prev size ls p Hwf Hb Hs E; cbn [ebml_sizes] in E.
  - injection E as <- <-. split; [reflexivity|]. split; [constructor|].
    exists [], bs. rewrite zlen_nil. split; [reflexivity|]. split; [lia|constructor].
  - destruct (pos >=? pos + zlen bs) eqn:E0; [discriminate|].
    destruct (ReadUInt_dec r pos bs Hwf Hs Hb) as [(w & v & rest & -> & Hw & Hv & ER)|(_ & v & w & ER & HB)]; rewrite ER in E.
    2:{ destruct (v <? 0) eqn:E1; [discriminate|]. destruct (pos + w >? pos + zlen bs) eqn:E2; [discriminate|]. lia. }
    replace (v <? 0) with false in E by lia. rewrite zlen_app, vint_zlen_l in E by lia.
    pose proof (zlen_nonneg _ rest). replace (pos + w >? pos + (w + zlen rest)) with false in E by lia.
    rewrite shiftl_1 in E by lia. set (fs := prev + (v - (2 ^ (7 * w - 1) - 1))) in *.
    destruct (fs <=? 0) eqn:E3; [discriminate|]. destruct (size >? LLONG_MAX - fs); [discriminate|].
    replace (pos + (w + zlen rest)) with (pos + w + zlen rest) in E by lia.
    destruct (ebml_sizes n r _ _ fs _) as [[ls' p']|] eqn:EX; [|discriminate]. injection E as <- <-.
    apply bytes_app in Hb. apply serves_app_r in Hs. rewrite vint_zlen_l in Hs by lia.
    destruct (IH _ _ _ _ _ _ _ Hwf (proj2 Hb) Hs EX) as (F1 & F2 & ds & rest' & F3 & F4 & F5).
    split; [cbn; lia|]. split; [constructor; [lia|exact F2]|].
    exists (delta_code w (fs - prev) ++ ds), rest'.
    assert (EC : vint w v = delta_code w (fs - prev)).
    { unfold delta_code. f_equal. subst fs. lia. }
    split; [rewrite F3, EC; apply app_assoc|]. split; [rewrite zlen_app, <- EC, vint_zlen_l by lia; lia|].
    constructor; [|exact F5]. split; [exact Hw|]. subst fs. lia.
Qed.

(* ---------- placing the frames ---------- *)

Fixpoint layout (pos : Z) (ls : list Z) : list bframe :=
  match ls with [] => [] | l :: ls' => mkBFrame pos l :: layout (pos + l) ls' end.

Definition sum (ls : list Z) : Z := fold_right Z.add 0 ls.

Lemma sum_app : forall a b, sum (a ++ b) = sum a + sum b.
Proof. unfold sum. induction a as [|x a IH]; intros b; cbn [app fold_right]; [lia|rewrite IH; lia]. Qed.

Lemma sum_pos : forall ls, Forall (fun l => 1 <= l) ls -> zlen ls <= sum ls.
Proof.
  unfold sum. induction 1; cbn [fold_right]; rewrite ?zlen_nil, ?zlen_cons; lia.
Qed.

Lemma place_frames_complete : forall ls pos stop, Forall (fun l => 1 <= l) ls -> pos + sum ls = stop ->
  place_frames ls pos stop = Some (layout pos ls).
Proof.
  unfold sum. induction ls as [|l ls IH]; intros pos stop HF E; cbn [place_frames layout fold_right] in *.
  - replace (pos =? stop) with true by lia. reflexivity.
  - inversion HF as [|? ? H1 H2]; subst. pose proof (sum_pos ls H2) as SP. unfold sum in SP. pose proof (zlen_nonneg _ ls).
    replace (pos + l >? _) with false by lia. rewrite IH; auto. lia.
Qed.

Lemma place_frames_sound : forall ls pos stop fs, place_frames ls pos stop = Some fs ->
  fs = layout pos ls /\ pos + sum ls = stop.
Proof.
  unfold sum. induction ls as [|l ls IH]; intros pos stop fs E; cbn [place_frames layout fold_right] in *.
  - destruct (pos =? stop) eqn:E1; [|discriminate]. injection E as <-. split; [reflexivity|lia].
  - destruct (pos + l >? stop); [discriminate|]. destruct (place_frames ls (pos + l) stop) as [fs'|] eqn:EX; [|discriminate].
    injection E as <-. apply IH in EX. destruct EX as (-> & EX). split; [reflexivity|lia].
Qed.

Definition fpair (f : bframe) : Z * Z := (bf_pos f, bf_len f).

Lemma layout_tiles : forall ls pos, Forall (fun l => 1 <= l) ls ->
  tiles pos (pos + sum ls) (map fpair (layout pos ls)).
Proof.
  unfold sum. induction ls as [|l ls IH]; intros pos HF; cbn [layout map fold_right tiles].
  - lia.
  - inversion HF as [|? ? H1 H2]; subst. cbn [fpair bf_pos bf_len]. split; [reflexivity|]. split; [exact H1|].
    replace (pos + (l + fold_right Z.add 0 ls)) with (pos + l + fold_right Z.add 0 ls) by lia. auto.
Qed.

Lemma layout_read : forall frames r pos rest, serves r pos (concat frames ++ rest) ->
  map (Frame_Read r) (layout pos (map zlen frames)) = map inr frames.
Proof.
  induction frames as [|f fs IH]; intros r pos rest Hs; cbn [map layout]; [reflexivity|].
  cbn [concat] in Hs. rewrite <- app_assoc in Hs. f_equal.
  - unfold Frame_Read. cbn [bf_pos bf_len]. apply serves_read. eapply serves_app_l; eauto.
  - apply (IH r (pos + zlen f) rest). apply serves_app_r in Hs. exact Hs.
Qed.

(* cutting a byte string into pieces of given sizes *)
Lemma cut : forall ls bs, Forall (fun l => 1 <= l) ls -> sum ls = zlen bs ->
  exists frames : list (list Z), map zlen frames = ls /\ concat frames = bs /\ Forall (fun f => f <> []) frames.
Proof.
  unfold sum. induction ls as [|l ls IH]; intros bs HF E; cbn [fold_right] in E.
  - exists []. split; [reflexivity|]. split; [|constructor]. destruct bs; [reflexivity|]. rewrite zlen_cons in E. pose proof (zlen_nonneg _ bs). lia.
  - inversion HF as [|? ? H1 H2]; subst. pose proof (sum_pos ls H2) as SP. unfold sum in SP. pose proof (zlen_nonneg _ ls).
    destruct (IH (skipn (Z.to_nat l) bs) H2) as (fs & F1 & F2 & F3).
    { unfold zlen in *. rewrite skipn_length. lia. }
    exists (firstn (Z.to_nat l) bs :: fs). cbn [map concat]. rewrite F1, F2.
    assert (Zf : zlen (firstn (Z.to_nat l) bs) = l) by (unfold zlen in *; rewrite firstn_length; lia).
    split; [f_equal; exact Zf|]. split; [apply firstn_skipn|]. constructor; [|exact F3].
    intros E0. rewrite E0, zlen_nil in Zf. lia.
Qed.

Lemma sum_zlen_concat : forall frames : list (list Z), sum (map zlen frames) = zlen (concat frames).
Proof.
  unfold sum. induction frames as [|f fs IH]; cbn [map fold_right concat]; [reflexivity|]. rewrite zlen_app, IH. reflexivity.
Qed.

Lemma last_size_complete : forall ls l pos stop, 1 <= l <= LLONG_MAX -> stop - pos = sum ls + l ->
  last_size ls pos stop = Some (ls ++ [l]).
Proof.
  intros ls l pos stop Hl E. unfold last_size. fold (sum ls). rewrite E.
  replace (sum ls + l <? sum ls) with false by lia. replace (sum ls + l - sum ls) with l by lia.
  replace (l >? LLONG_MAX) with false by lia. replace (l <=? 0) with false by lia. reflexivity.
Qed.

Lemma last_size_sound : forall ls pos stop ls', last_size ls pos stop = Some ls' ->
  exists l, ls' = ls ++ [l] /\ 1 <= l /\ stop - pos = sum ls + l.
Proof.
  intros ls pos stop ls' E. unfold last_size in E. fold (sum ls) in E.
  destruct (stop - pos <? sum ls) eqn:E1; [discriminate|].
  destruct (stop - pos - sum ls >? LLONG_MAX); [discriminate|]. cbn [orb] in E.
  destruct (stop - pos - sum ls <=? 0) eqn:E3; [discriminate|]. injection E as <-.
  eexists. split; [reflexivity|]. lia.
Qed.

(* ---------- the whole block ---------- *)

Lemma lacing_sweep : forallb (fun i => Z.shiftr (Z.land (Z.of_nat i) 6) 1 =? (Z.of_nat i / 2) mod 4) (seq 0 256) = true.
Proof. vm_compute. reflexivity. Qed.

Lemma lacing_of_flags : forall f, is_byte f -> Z.shiftr (Z.land f 6) 1 = (f / 2) mod 4.
Proof.
  intros f Hf. unfold is_byte in Hf. pose proof lacing_sweep as S. rewrite forallb_forall in S.
  specialize (S (Z.to_nat f)). rewrite in_seq in S. specialize (S ltac:(lia)). rewrite Z2Nat.id in S by lia. lia.
Qed.

Lemma time_payload : forall t, - 32768 <= t < 32768 -> sint_payload t (be_bytes 2 t).
Proof.
  intros t Ht. split; [apply be_bytes_bytes|]. rewrite be_bytes_zlen. split; [lia|].
  rewrite be_val_be_bytes. change (8 * Z.of_nat 2) with 16. unfold wraps. change (2 ^ 16) with 65536. change (2 ^ (16 - 1)) with 32768.
  rewrite Z.mod_mod by lia. destruct (t mod 65536 <? 32768) eqn:E; zdm.
Qed.

Lemma time_of_bytes : forall a b, is_byte a -> is_byte b ->
  exists t, - 32768 <= t < 32768 /\ [a; b] = be_bytes 2 t.
Proof.
  intros a b Ha Hb. unfold is_byte in *. exists (wraps 16 (a * 256 + b)).
  split; [apply (wraps_range 16); lia|].
  cbn [be_bytes]. change (2 ^ (8 * Z.of_nat 1)) with 256. change (2 ^ (8 * Z.of_nat 0)) with 1.
  unfold wraps. change (2 ^ 16) with 65536. change (2 ^ (16 - 1)) with 32768. rewrite (Z.mod_small (a * 256 + b)) by lia.
  destruct (a * 256 + b <? 32768); apply f_equal2; [zdm|apply f_equal2; [zdm|reflexivity]|zdm|apply f_equal2; [zdm|reflexivity]].
Qed.

Definition lace_parse (r : reader) (flags pos stop : Z) : option (list bframe) :=
  let lacing := Z.shiftr (Z.land flags 6) 1 in
  if lacing =? 0 then
    if pos >? stop then None
    else let frame_size := stop - pos in
         if (frame_size >? LLONG_MAX) || (frame_size <=? 0) then None
         else Some [mkBFrame pos frame_size]
  else if pos >=? stop then None
  else match r_byte r pos with
       | inl _ => None
       | inr biased_count =>
           let pos := pos + 1 in
           if pos >? stop then None
           else let frame_count := biased_count + 1 in
                if lacing =? 1 then parse_xiph r frame_count pos stop
                else if lacing =? 2 then parse_fixed frame_count pos stop
                else parse_ebml r frame_count pos stop
       end.

Lemma Block_Parse_header : forall r start w track t flags rest,
  1 <= w <= 8 -> 1 <= track < 2 ^ (7 * w) -> - 32768 <= t < 32768 ->
  serves r start (vint w track ++ be_bytes 2 t ++ flags :: rest) ->
  Block_Parse r start (zlen (vint w track ++ be_bytes 2 t ++ flags :: rest)) =
  Val (match lace_parse r flags (start + w + 3) (start + w + 3 + zlen rest) with
       | None => None
       | Some fs => Some (mkBlock track t flags fs)
       end).
Proof.
  intros r start w track t flags rest Hw Ht Htm Hs. pose proof (zlen_nonneg _ rest) as HR.
  rewrite !zlen_app, vint_zlen_l, be_bytes_zlen, zlen_cons by lia.
  unfold Block_Parse. rewrite (ReadUInt_vint r start w track) by (auto; try lia; apply (serves_app_l _ _ _ _ Hs)).
  replace (track <=? 0) with false by lia.
  replace (start + w >? start + (w + (Z.of_nat 2 + (1 + zlen rest)))) with false by lia.
  replace (start + (w + (Z.of_nat 2 + (1 + zlen rest))) - (start + w) <? 2) with false by lia.
  apply serves_app_r in Hs. rewrite vint_zlen_l in Hs by lia.
  pose proof (UnserializeInt_payload r (start + w) (be_bytes 2 t) t (time_payload t Htm) (serves_app_l _ _ _ _ Hs)) as EU.
  rewrite be_bytes_zlen in EU. change (Z.of_nat 2) with 2 in *. rewrite EU.
  change (negb (0 =? 0)) with false. cbv iota. unfold SHRT_MIN, SHRT_MAX.
  replace (t <? -32768) with false by lia. replace (t >? 32767) with false by lia.
  assert (ET : sint16 t = t) by (apply wraps_id; simpl (2 ^ _); lia). rewrite ET. clear ET.
  replace (start + (w + (2 + (1 + zlen rest))) - (start + w + 2) <=? 0) with false by lia.
  apply serves_app_r in Hs. rewrite be_bytes_zlen in Hs. change (Z.of_nat 2) with 2 in Hs.
  rewrite (serves_byte _ _ _ _ Hs). unfold lace_parse. cbv zeta.
  replace (start + (w + (2 + (1 + zlen rest)))) with (start + w + 3 + zlen rest) by lia.
  replace (start + w + 2 + 1) with (start + w + 3) by lia.
  destruct (Z.shiftr (Z.land flags 6) 1 =? 0).
  { destruct (_ >? _); [reflexivity|]. destruct (_ || _); reflexivity. }
  destruct (_ >=? _); [reflexivity|]. destruct (r_byte r (start + w + 3)) as [st|bc]; [reflexivity|].
  destruct (_ >? _); [reflexivity|]. destruct (_ =? 1); [reflexivity|]. destruct (_ =? 2); reflexivity.
Qed.

(* a successfully parsed block starts with a track number, a time and flags *)
Lemma Block_Parse_inv : forall r start bs b, wf_reader r -> serves r start bs -> bytes bs ->
  Block_Parse r start (zlen bs) = Val (Some b) ->
  exists w track t flags rest, 1 <= w <= 8 /\ 1 <= track < 2 ^ (7 * w) /\ - 32768 <= t < 32768 /\
    bs = vint w track ++ be_bytes 2 t ++ flags :: rest.
Proof.
  intros r start bs b Hwf Hs Hb E. unfold Block_Parse in E.
  destruct (ReadUInt_dec r start bs Hwf Hs Hb) as [(w & v & rest & -> & Hw & Hv & ER)|(_ & v & w & ER & HB)]; rewrite ER in E.
  2:{ destruct (v <=? 0) eqn:E1; [discriminate|]. destruct (start + w >? start + zlen bs) eqn:E2; [discriminate|]. lia. }
  destruct (v <=? 0) eqn:E1; [discriminate|].
  apply bytes_app in Hb. destruct Hb as [_ Hb].
  destruct (start + w >? _); [discriminate|].
  destruct (start + zlen (vint w v ++ rest) - (start + w) <? 2) eqn:E2; [discriminate|].
  rewrite zlen_app, vint_zlen_l in E2 by lia.
  destruct rest as [|x [|y rest]]; rewrite ?zlen_cons, ?zlen_nil in E2; try lia.
  inversion Hb as [|? ? Hx Hb1]; subst. inversion Hb1 as [|? ? Hy Hb2]; subst.
  destruct (time_of_bytes x y Hx Hy) as (t & Ht & Et).
  destruct rest as [|f rest].
  - exfalso. destruct (UnserializeInt r (start + w) 2) as [[st value]|]; [|discriminate].
    destruct (negb (st =? 0)); [discriminate|]. destruct (_ <? SHRT_MIN); [discriminate|]. destruct (_ >? SHRT_MAX); [discriminate|].
    replace (start + zlen (vint w v ++ [x; y]) - (start + w + 2) <=? 0) with true in E; [discriminate|].
    rewrite zlen_app, vint_zlen_l by lia. change (zlen [x; y]) with 2. lia.
  - exists w, v, t, f, rest. split; [exact Hw|]. split; [lia|]. split; [exact Ht|]. rewrite <- Et. reflexivity.
Qed.

Definition in_range (n : Z) : Prop := n <= LLONG_MAX.

Lemma map_zlen_pos : forall frames : list (list Z), Forall (fun f => f <> []) frames -> Forall (fun l => 1 <= l) (map zlen frames).
Proof.
  intros frames H. rewrite Forall_map. eapply Forall_impl; [|exact H]. intros f Hf. destruct f; [congruence|].
  rewrite zlen_cons. pose proof (zlen_nonneg _ f). lia.
Qed.

Lemma sum_repeat : forall n k, sum (repeat n k) = Z.of_nat k * n.
Proof. unfold sum. induction k as [|k IH]; cbn [repeat fold_right]; [lia|rewrite IH; lia]. Qed.

Lemma lace_complete : forall r pos flags lac frames head,
  is_byte flags -> (flags / 2) mod 4 = lacing_bits lac -> Forall (fun f => f <> []) frames ->
  lace_head lac (map zlen frames) head -> (lac = LEbml -> (2 <= length frames)%nat) ->
  bytes (head ++ concat frames) -> serves r pos (head ++ concat frames) ->
  zlen (head ++ concat frames) <= LLONG_MAX ->
  lace_parse r flags pos (pos + zlen (head ++ concat frames)) =
  Some (layout (pos + zlen head) (map zlen frames)).
Proof.
  intros r pos flags lac frames head Hf Hl HF HH H1 Hb Hs Hmax.
  pose proof (map_zlen_pos _ HF) as HP.
  unfold lace_parse. rewrite lacing_of_flags, Hl by exact Hf.
  rewrite zlen_app in *. pose proof (sum_zlen_concat frames) as SC.
  remember (map zlen frames) as ls eqn:Els.
  assert (HC : zlen ls <= zlen (concat frames)) by (rewrite <- SC; apply sum_pos; exact HP).
  pose proof (zlen_nonneg _ head) as HH0.
  destruct HH as [n|ns n Hns|n k Hk|n|n ns m w ds Hw Hn Hns HD]; cbn [lacing_bits Z.eqb Pos.eqb].
  - rewrite zlen_nil in *. cbn [sum fold_right] in SC. unfold sum in SC. cbn [fold_right] in SC. inversion HP as [|? ? Hn _]; subst.
    replace (pos >? pos + (0 + zlen (concat frames))) with false by lia.
    replace (pos + (0 + zlen (concat frames)) - pos) with n by lia.
    replace (n >? LLONG_MAX) with false by lia. replace (n <=? 0) with false by lia. cbn [orb layout].
    replace (pos + 0) with pos by lia. reflexivity.
  - rewrite zlen_cons in *. cbn [app] in Hb, Hs.
    pose proof (zlen_nonneg _ (concat (map xiph_code ns))) as Z1. pose proof (zlen_nonneg _ (concat frames)) as Z2.
    replace (pos >=? _) with false by lia. rewrite (serves_byte _ _ _ _ Hs).
    replace (pos + 1 >? _) with false by lia. change (1 =? 0) with false. change (1 =? 1) with true. cbv iota.
    unfold parse_xiph. replace (Z.to_nat (zlen ns + 1 - 1)) with (length ns) by (unfold zlen; lia).
    apply Forall_app in HP. destruct HP as [HP1 HP2]. assert (Hn : 1 <= n) by (inversion HP2; auto).
    rewrite (xiph_sizes_complete ns r (pos + 1) (concat frames)); auto.
    + rewrite sum_app in SC. unfold sum in SC at 2. cbn [fold_right] in SC.
      pose proof (sum_pos ns HP1). pose proof (zlen_nonneg _ ns).
      replace (pos + 1 + zlen (concat (map xiph_code ns)) >? _) with false by lia.
      rewrite (last_size_complete ns n) by lia.
      rewrite place_frames_complete.
      * f_equal. f_equal. lia.
      * apply Forall_app. split; auto.
      * rewrite sum_app. unfold sum at 2. cbn [fold_right]. lia.
    + inversion Hb; auto.
    + eapply serves_tail; eauto.
    + rewrite zlen_app. lia.
  - rewrite zlen_cons, zlen_nil in *. cbn [app] in Hs. rewrite sum_repeat in SC.
    pose proof (zlen_nonneg _ (concat frames)) as Z2. assert (Hn : 1 <= n).
    { rewrite Forall_forall in HP. apply HP. destruct k; [lia|]. left. reflexivity. }
    replace (pos >=? _) with false by lia. rewrite (serves_byte _ _ _ _ Hs).
    replace (pos + 1 >? _) with false by lia. change (2 =? 0) with false. change (2 =? 1) with false. change (2 =? 2) with true. cbv iota.
    unfold parse_fixed. replace (pos + 1 >=? _) with false by nia.
    replace (pos + (1 + 0 + zlen (concat frames)) - (pos + 1)) with (n * Z.of_nat k) by lia.
    replace (Z.of_nat k - 1 + 1) with (Z.of_nat k) by lia.
    rewrite Z.rem_mul by lia. change (negb (0 =? 0)) with false. cbv iota.
    rewrite Z.quot_mul by lia. replace (n >? LLONG_MAX) with false by nia. replace (n <=? 0) with false by lia. cbn [orb].
    rewrite Nat2Z.id. rewrite place_frames_complete; auto.
    rewrite sum_repeat. lia.
  - exfalso. specialize (H1 eq_refl). apply (f_equal (@length Z)) in Els. rewrite map_length in Els. cbn in Els. lia.
  - rewrite !zlen_cons, zlen_app, vint_zlen_l in * by lia. cbn [app] in Hb, Hs.
    assert (HPn : 1 <= n) by (inversion HP; auto). assert (HPr : Forall (fun l => 1 <= l) (ns ++ [m])) by (inversion HP; auto).
    apply Forall_app in HPr. destruct HPr as [HP1 HP2]. assert (HPm : 1 <= m) by (inversion HP2; auto).
    pose proof (zlen_nonneg _ ds) as Z1. pose proof (zlen_nonneg _ (concat frames)) as Z2. pose proof (zlen_nonneg _ ns) as Z3.
    unfold sum in SC. cbn [fold_right] in SC. fold (sum (ns ++ [m])) in SC. rewrite sum_app in SC. unfold sum in SC at 2. cbn [fold_right] in SC.
    pose proof (sum_pos ns HP1) as SP.
    replace (pos >=? _) with false by lia. rewrite (serves_byte _ _ _ _ Hs).
    replace (pos + 1 >? _) with false by lia. change (3 =? 0) with false. change (3 =? 1) with false. change (3 =? 2) with false. cbv iota.
    unfold parse_ebml. replace (pos + 1 >=? _) with false by lia.
    apply serves_tail in Hs. rewrite <- app_assoc in Hs.
    rewrite (ReadUInt_vint r (pos + 1) w n Hw Hn) by (apply (serves_app_l _ _ _ _ Hs)).
    replace (n <=? 0) with false by lia. replace (pos + 1 + w >? _) with false by lia.
    apply serves_app_r in Hs. rewrite vint_zlen_l in Hs by lia.
    replace (pos + 1 + w + n >? _) with false by lia.
    replace (zlen ns + 1 + 1 =? 1) with false by lia.
    replace (Z.to_nat (zlen ns + 1 + 1 - 2)) with (length ns) by (unfold zlen; lia).
    rewrite (ebml_sizes_complete ns r (pos + 1 + w) n ds (concat frames)); auto; try lia.
    + replace (pos + 1 + w + zlen ds >? _) with false by lia.
      rewrite (last_size_complete (n :: ns) m).
      * cbn [app]. rewrite place_frames_complete.
        -- f_equal. f_equal. lia.
        -- constructor; auto. apply Forall_app. split; auto.
        -- unfold sum. cbn [fold_right]. fold (sum (ns ++ [m])). rewrite sum_app. unfold sum at 2. cbn [fold_right]. lia.
      * lia.
      * unfold sum. cbn [fold_right]. fold (sum ns). lia.
    + rewrite zlen_app. lia.
    + fold (sum ns). lia.
Qed.

Theorem Block_complete : forall r start track time flags lac frames bs,
  block_content track time flags lac frames bs -> (lac = LEbml -> (2 <= length frames)%nat) ->
  bytes bs -> serves r start bs -> zlen bs <= LLONG_MAX ->
  exists b, Block_Parse r start (zlen bs) = Val (Some b) /\
    bl_track b = track /\ bl_timecode b = time /\ bl_flags b = flags /\
    map (Frame_Read r) (bl_frames b) = map inr frames.
Proof.
  intros r start track time flags lac frames bs (w & head & Hw & Ht & Htm & Hf & Hl & HF & HH & ->) H1 Hb Hs Hmax.
  cbn [app] in *.
  rewrite Block_Parse_header by auto.
  apply bytes_app in Hb. destruct Hb as [_ Hb]. apply bytes_app in Hb. destruct Hb as [_ Hb]. inversion Hb as [|? ? _ Hb']; subst.
  apply serves_app_r in Hs. rewrite vint_zlen_l in Hs by lia. apply serves_app_r in Hs. rewrite be_bytes_zlen in Hs.
  apply serves_tail in Hs. replace (start + w + Z.of_nat 2 + 1) with (start + w + 3) in Hs by lia.
  rewrite !zlen_app, vint_zlen_l, be_bytes_zlen, zlen_cons in Hmax by lia.
  rewrite (lace_complete r (start + w + 3) flags lac frames head) by (auto; lia).
  eexists. split; [reflexivity|]. cbn [bl_track bl_timecode bl_flags bl_frames]. repeat (split; [reflexivity|]).
  apply (layout_read frames r _ []). rewrite app_nil_r. apply serves_app_r in Hs. exact Hs.
Qed.

Lemma lace_sound : forall r pos bs flags fs, wf_reader r -> bytes bs -> serves r pos bs -> is_byte flags ->
  lace_parse r flags pos (pos + zlen bs) = Some fs ->
  ((flags / 2) mod 4 = 3 -> hd 1 bs <> 0) ->
  exists lac frames head, bs = head ++ concat frames /\ lace_head lac (map zlen frames) head /\
    (flags / 2) mod 4 = lacing_bits lac /\ Forall (fun f => f <> []) frames /\
    fs = layout (pos + zlen head) (map zlen frames).
Proof.
  intros r pos bs flags fs Hwf Hb Hs Hf E HN. unfold lace_parse in E. rewrite lacing_of_flags in E by exact Hf.
  assert (HM : 0 <= (flags / 2) mod 4 < 4) by (apply Z.mod_pos_bound; lia).
  set (lc := (flags / 2) mod 4) in *. clearbody lc.
  destruct (lc =? 0) eqn:E0.
  { destruct (pos >? pos + zlen bs); [discriminate|]. replace (pos + zlen bs - pos) with (zlen bs) in E by lia.
    destruct (zlen bs >? LLONG_MAX); [discriminate|]. cbn [orb] in E.
    destruct (zlen bs <=? 0) eqn:E1; [discriminate|]. injection E as <-.
    exists LNone, [bs], []. cbn [concat app map]. rewrite app_nil_r. split; [reflexivity|]. split; [constructor|].
    split; [cbn; lia|]. split; [constructor; [|constructor]; intros ->; rewrite zlen_nil in E1; lia|].
    cbn [layout]. rewrite zlen_nil, Z.add_0_r. reflexivity. }
  destruct (pos >=? pos + zlen bs) eqn:E1; [discriminate|].
  destruct bs as [|c bs]; [rewrite zlen_nil in E1; lia|]. cbn [hd] in HN.
  rewrite (serves_byte _ _ _ _ Hs) in E. inversion Hb as [|? ? Hc Hb']; subst. unfold is_byte in Hc.
  apply serves_tail in Hs. rewrite zlen_cons in *. destruct (pos + 1 >? _); [discriminate|].
  replace (pos + (1 + zlen bs)) with (pos + 1 + zlen bs) in E by lia.
  destruct (lc =? 1) eqn:EL1; [|destruct (lc =? 2) eqn:EL2].
  - unfold parse_xiph in E. destruct (xiph_sizes _ r _ _) as [[ls p]|] eqn:EX; [|discriminate].
    destruct (xiph_sizes_sound _ _ _ _ _ _ Hb' Hs EX) as (F1 & F2 & rest & F3 & F4).
    destruct (p >? _); [discriminate|]. destruct (last_size ls p _) as [ls'|] eqn:EL; [|discriminate].
    destruct (last_size_sound _ _ _ _ EL) as (l & -> & Hl & ES).
    apply place_frames_sound in E. destruct E as (-> & EP).
    assert (HP : Forall (fun x => 1 <= x) (ls ++ [l])) by (apply Forall_app; split; [exact F2|constructor; [lia|constructor]]).
    destruct (cut (ls ++ [l]) rest HP) as (frames & G1 & G2 & G3).
    { rewrite F3, zlen_app in EP. lia. }
    exists LXiph, frames, (zlen ls :: concat (map xiph_code ls)). rewrite G1, G2.
    assert (Ec : c = zlen ls) by (unfold zlen; lia).
    split; [cbn [app]; rewrite Ec, F3; reflexivity|]. split; [constructor; lia|]. split; [cbn; lia|]. split; [exact G3|].
    rewrite zlen_cons. f_equal. lia.
  - unfold parse_fixed in E. destruct (pos + 1 >=? _) eqn:E2; [discriminate|].
    replace (pos + 1 + zlen bs - (pos + 1)) with (zlen bs) in E by lia.
    destruct (negb (Z.rem (zlen bs) (c + 1) =? 0)) eqn:E3; [discriminate|].
    set (q := Z.quot (zlen bs) (c + 1)) in *.
    destruct (q >? LLONG_MAX); [discriminate|]. cbn [orb] in E. destruct (q <=? 0) eqn:E4; [discriminate|].
    apply place_frames_sound in E. destruct E as (-> & EP). rewrite sum_repeat in EP.
    assert (HP : Forall (fun x => 1 <= x) (repeat q (Z.to_nat (c + 1)))).
    { apply Forall_forall. intros x Hx. apply repeat_spec in Hx. lia. }
    destruct (cut _ bs HP) as (frames & G1 & G2 & G3).
    { rewrite sum_repeat. lia. }
    exists LFixed, frames, [c]. rewrite G1, G2. split; [reflexivity|].
    split. { replace c with (Z.of_nat (Z.to_nat (c + 1)) - 1) at 2 by lia. constructor. lia. }
    split; [cbn; lia|]. split; [exact G3|]. change (zlen [c]) with 1. reflexivity.
  - assert (lc = 3) by lia. specialize (HN H). unfold parse_ebml in E. destruct (pos + 1 >=? _) eqn:E2; [discriminate|].
    destruct (ReadUInt_dec r (pos + 1) bs Hwf Hs Hb') as [(w & v & rest & -> & Hw & Hv & ER)|(_ & v & w & ER & HB)]; rewrite ER in E.
    2:{ destruct (v <=? 0) eqn:E3; [discriminate|]. destruct (pos + 1 + w >? pos + 1 + zlen bs) eqn:E4; [discriminate|]. lia. }
    rewrite zlen_app, vint_zlen_l in E by lia.
    destruct (v <=? 0) eqn:E3; [discriminate|]. destruct (pos + 1 + w >? _); [discriminate|].
    destruct (pos + 1 + w + v >? _); [discriminate|]. replace (c + 1 =? 1) with false in E by lia.
    apply bytes_app in Hb'. apply serves_app_r in Hs. rewrite vint_zlen_l in Hs by lia.
    replace (pos + 1 + (w + zlen rest)) with (pos + 1 + w + zlen rest) in E by lia.
    destruct (ebml_sizes _ r _ _ v v) as [[ls p]|] eqn:EX; [|discriminate].
    destruct (ebml_sizes_sound _ _ _ _ _ _ _ _ Hwf (proj2 Hb') Hs EX) as (F1 & F2 & ds & rest' & F3 & F4 & F5).
    destruct (p >? _); [discriminate|]. destruct (last_size _ p _) as [ls'|] eqn:EL; [|discriminate].
    destruct (last_size_sound _ _ _ _ EL) as (l & -> & Hl & ES).
    apply place_frames_sound in E. destruct E as (-> & EP).
    assert (HP : Forall (fun x => 1 <= x) ((v :: ls) ++ [l])).
    { apply Forall_app. split; [constructor; [lia|exact F2]|constructor; [lia|constructor]]. }
    destruct (cut _ rest' HP) as (frames & G1 & G2 & G3).
    { rewrite F3, zlen_app in EP. lia. }
    exists LEbml, frames, ((zlen ls + 1) :: vint w v ++ ds). rewrite G1, G2.
    assert (Ec : c = zlen ls + 1) by (unfold zlen; lia).
    split; [cbn [app]; rewrite Ec, F3, app_assoc; reflexivity|].
    split. { cbn [app]. apply lh_ebml; auto. lia. }
    split; [cbn; lia|]. split; [exact G3|].
    rewrite zlen_cons, zlen_app, vint_zlen_l by lia. f_equal. lia.
Qed.

Theorem Block_sound : forall r start bs b, wf_reader r -> bytes bs -> serves r start bs ->
  Block_Parse r start (zlen bs) = Val (Some b) -> ~ ebml_single bs ->
  exists lac frames, block_content (bl_track b) (bl_timecode b) (bl_flags b) lac frames bs /\
    map (Frame_Read r) (bl_frames b) = map inr frames.
Proof.
  intros r start bs b Hwf Hb Hs E HN.
  destruct (Block_Parse_inv r start bs b Hwf Hs Hb E) as (w & track & t & flags & rest & Hw & Ht & Htm & ->).
  rewrite Block_Parse_header in E by auto.
  destruct (lace_parse r flags _ _) as [fs|] eqn:EL; [|discriminate]. injection E as <-. cbn [bl_track bl_timecode bl_flags bl_frames].
  apply bytes_app in Hb. destruct Hb as [_ Hb]. apply bytes_app in Hb. destruct Hb as [_ Hb]. inversion Hb as [|? ? Hfl Hb']; subst.
  apply serves_app_r in Hs. rewrite vint_zlen_l in Hs by lia. apply serves_app_r in Hs. rewrite be_bytes_zlen in Hs.
  apply serves_tail in Hs. replace (start + w + Z.of_nat 2 + 1) with (start + w + 3) in Hs by lia.
  destruct (lace_sound r _ rest flags fs Hwf Hb' Hs Hfl EL) as (lac & frames & head & -> & HH & HL & HF & ->).
  { intros H3 H0. apply HN. destruct rest as [|c rest]; [cbn in H0; lia|]. cbn in H0. subst c.
    exists w, track, t, flags, rest. repeat (split; [assumption || lia|]). reflexivity. }
  exists lac, frames. split.
  - exists w, head. repeat (split; [assumption|]). reflexivity.
  - apply (layout_read frames r _ []). rewrite app_nil_r. apply serves_app_r in Hs. exact Hs.
Qed.

(* ---------- tiling, for every reader ---------- *)

Lemma xiph_sizes_pos : forall n r pos stop ls p, xiph_sizes n r pos stop = Some (ls, p) ->
  Forall (fun l => 1 <= l) ls /\ pos <= p.
Proof.
  assert (G2 : forall fu r q s a f1 q1, xiph_size fu r q s a = Some (f1, q1) -> q <= q1).
  { induction fu as [|fu IHf]; intros r q s a f1 q1 E; cbn in E; [discriminate|].
    destruct (q >=? s); [discriminate|]. destruct (r_byte r q) as [|v]; [discriminate|].
    destruct (v <? 255); [injection E as _ E; lia|]. apply IHf in E. lia. }
  induction n as [|n IH]; intros r pos stop ls p E; cbn [xiph_sizes] in E; [injection E as <- <-; split; [constructor|lia]|].
  destruct (xiph_size _ r pos stop 0) as [[f p1]|] eqn:E1; [|discriminate]. destruct (f <=? 0) eqn:E2; [discriminate|].
  destruct (xiph_sizes n r p1 stop) as [[ls' p2]|] eqn:E3; [|discriminate]. injection E as <- <-.
  apply IH in E3. apply G2 in E1. split; [constructor; [lia|tauto]|lia].
Qed.

Lemma ebml_sizes_pos : forall n r pos stop prev size ls p, wf_reader r -> 0 <= pos ->
  ebml_sizes n r pos stop prev size = Some (ls, p) -> Forall (fun l => 1 <= l) ls /\ pos <= p.
Proof.
  induction n as [|n IH]; intros r pos stop prev size ls p Hwf Hp E; cbn [ebml_sizes] in E; [injection E as <- <-; split; [constructor|lia]|].
  destruct (pos >=? stop); [discriminate|]. destruct (ReadUInt r pos) as [v w] eqn:ER.
  destruct (v <? 0) eqn:E0; [discriminate|]. destruct (ReadUInt_range r pos v w Hwf Hp ER) as [?|(Hw & _)]; [lia|].
  destruct (pos + w >? stop); [discriminate|]. set (fs := prev + _) in *.
  destruct (fs <=? 0) eqn:E2; [discriminate|]. destruct (size >? _); [discriminate|].
  destruct (ebml_sizes n r (pos + w) stop fs _) as [[ls' p2]|] eqn:E3; [|discriminate]. injection E as <- <-.
  apply IH in E3; auto; [|lia]. split; [constructor; [lia|tauto]|lia].
Qed.

Theorem Block_tiles : forall r start size b, wf_reader r -> 0 <= start ->
  Block_Parse r start size = Val (Some b) ->
  1 <= bl_track b /\ bl_frames b <> [] /\ zlen (bl_frames b) <= 256 /\
  exists p, start + 4 <= p /\ tiles p (start + size) (map fpair (bl_frames b)).
Proof.
  intros r start size b Hwf Hst E. unfold Block_Parse in E. cbv zeta in E.
  destruct (ReadUInt r start) as [track len] eqn:ER. destruct (track <=? 0) eqn:E0; [discriminate|].
  destruct (ReadUInt_range r start track len Hwf Hst ER) as [?|(Hw & _)]; [lia|].
  destruct (start + len >? _); [discriminate|]. destruct (_ <? 2); [discriminate|].
  destruct (UnserializeInt r (start + len) 2) as [[st value]|]; [|discriminate].
  destruct (negb (st =? 0)); [discriminate|]. destruct (_ <? SHRT_MIN); [discriminate|]. destruct (_ >? SHRT_MAX); [discriminate|].
  destruct (start + size - (start + len + 2) <=? 0); [discriminate|].
  destruct (r_byte r (start + len + 2)) as [|flags]; [discriminate|].
  set (pos := start + len + 2 + 1) in *. set (stop := start + size) in *. assert (Hpos : start + 4 <= pos) by lia. clearbody pos stop.
  set (lc := Z.shiftr (Z.land flags 6) 1) in *. clearbody lc. destruct (lc =? 0).
  { destruct (pos >? stop); [discriminate|]. destruct (_ >? LLONG_MAX); [discriminate|]. cbn [orb] in E.
    destruct (stop - pos <=? 0) eqn:E1; [discriminate|]. injection E as <-. cbn [bl_track bl_frames map tiles fpair bf_pos bf_len].
    split; [lia|]. split; [discriminate|]. split; [rewrite zlen_cons, zlen_nil; lia|]. exists pos. repeat split; lia. }
  destruct (pos >=? stop) eqn:E1; [discriminate|].
  destruct (r_byte r pos) as [|c] eqn:EC; [discriminate|]. destruct (r_byte_wf _ _ _ Hwf EC) as [Hc _]. unfold is_byte in Hc.
  destruct (pos + 1 >? stop) eqn:E2; [discriminate|].
  assert (Fin : forall ls p fs, Forall (fun l => 1 <= l) ls -> ls <> [] -> zlen ls <= 256 -> pos <= p ->
     place_frames ls p stop = Some fs -> fs <> [] /\ zlen fs <= 256 /\ exists p, start + 4 <= p /\ tiles p stop (map fpair fs)).
  { intros ls p fs H1 H2 H3 H4 H5. apply place_frames_sound in H5. destruct H5 as [-> H5].
    assert (HL : forall l q, length (layout q l) = length l) by (induction l; intros; cbn; auto).
    split; [intros E0'; apply (f_equal (@length _)) in E0'; rewrite HL in E0'; destruct ls; [congruence|discriminate]|].
    split; [unfold zlen in *; rewrite HL; exact H3|].
    exists p. split; [lia|]. rewrite <- H5. apply layout_tiles; auto. }
  destruct (lc =? 1); [|destruct (lc =? 2)].
  - destruct (parse_xiph r (c + 1) (pos + 1) stop) as [fs|] eqn:EX; [|discriminate]. injection E as <-. cbn [bl_track bl_frames].
    split; [lia|]. unfold parse_xiph in EX. destruct (xiph_sizes _ r _ _) as [[ls p]|] eqn:ES; [|discriminate].
    pose proof (xiph_sizes_pos _ _ _ _ _ _ ES) as (G1 & G2).
    assert (GL : length ls = Z.to_nat (c + 1 - 1)).
    { revert ES. generalize (Z.to_nat (c + 1 - 1)) (pos + 1) ls p. clear. intros n. induction n as [|n IH]; intros q ls p ES; cbn in ES; [injection ES as <- _; reflexivity|].
      destruct (xiph_size _ r q stop 0) as [[f p1]|]; [|discriminate]. destruct (f <=? 0); [discriminate|].
      destruct (xiph_sizes n r p1 stop) as [[l2 p2]|] eqn:E3; [|discriminate]. injection ES as <- _. cbn. f_equal. eapply IH; eauto. }
    destruct (p >? stop); [discriminate|]. destruct (last_size ls p stop) as [ls'|] eqn:EL; [|discriminate].
    destruct (last_size_sound _ _ _ _ EL) as (l & -> & Hl & _).
    apply (Fin (ls ++ [l]) p); auto.
    + apply Forall_app. split; [auto|constructor; [lia|constructor]].
    + destruct ls; discriminate.
    + rewrite zlen_app, zlen_cons, zlen_nil. unfold zlen. lia.
    + lia.
  - destruct (parse_fixed (c + 1) (pos + 1) stop) as [fs|] eqn:EX; [|discriminate]. injection E as <-. cbn [bl_track bl_frames].
    split; [lia|]. unfold parse_fixed in EX. destruct (pos + 1 >=? stop); [discriminate|].
    destruct (negb _); [discriminate|]. set (q := Z.quot _ _) in *. destruct (q >? LLONG_MAX); [discriminate|]. cbn [orb] in EX.
    destruct (q <=? 0) eqn:Eq; [discriminate|]. apply (Fin (repeat q (Z.to_nat (c + 1))) (pos + 1)); auto.
    + apply Forall_forall. intros x Hx. apply repeat_spec in Hx. lia.
    + destruct (Z.to_nat (c + 1)) eqn:Ez; [lia|discriminate].
    + unfold zlen. rewrite repeat_length. lia.
    + lia.
  - destruct (parse_ebml r (c + 1) (pos + 1) stop) as [fs|] eqn:EX; [|discriminate]. injection E as <-. cbn [bl_track bl_frames].
    split; [lia|]. unfold parse_ebml in EX. destruct (pos + 1 >=? stop); [discriminate|].
    destruct (ReadUInt r (pos + 1)) as [v w] eqn:ER2. destruct (v <=? 0) eqn:E3; [discriminate|].
    destruct (ReadUInt_range r (pos + 1) v w Hwf ltac:(lia) ER2) as [?|(Hw2 & _)]; [lia|].
    destruct (pos + 1 + w >? stop); [discriminate|]. destruct (pos + 1 + w + v >? stop); [discriminate|].
    destruct (c + 1 =? 1) eqn:E4.
    + apply (Fin [v] (pos + 1 + w)); auto; try discriminate; try (rewrite zlen_cons, zlen_nil); try lia. constructor; [lia|constructor].
    + destruct (ebml_sizes _ r _ stop v v) as [[ls p]|] eqn:ES; [|discriminate].
      assert (Hp1 : 0 <= pos + 1 + w) by lia. pose proof (ebml_sizes_pos _ _ _ _ _ _ _ _ Hwf Hp1 ES) as (G1 & G2).
      assert (GL : length ls = Z.to_nat (c + 1 - 2)).
      { revert ES. generalize (Z.to_nat (c + 1 - 2)) (pos + 1 + w). clear.
        intros n q ES. assert (G : forall v1 v2, ebml_sizes n r q stop v1 v2 = Some (ls, p) -> length ls = n); [|eapply G; eauto].
        clear. revert q ls p. induction n as [|n IH]; intros q ls p v0 sz ES; cbn [ebml_sizes] in ES; [injection ES as <- _; reflexivity|].
        destruct (q >=? stop); [discriminate|]. destruct (ReadUInt r q) as [d l]. destruct (d <? 0); [discriminate|].
        destruct (q + l >? stop); [discriminate|]. cbv zeta in ES. set (f := v0 + _) in *. destruct (f <=? 0); [discriminate|]. destruct (sz >? LLONG_MAX - f); [discriminate|].
        destruct (ebml_sizes n r (q + l) stop f (sz + f)) as [[l2 p2]|] eqn:E3; [|discriminate]. injection ES as <- _. cbn. f_equal. eapply IH; eauto. }
      destruct (p >? stop); [discriminate|]. destruct (last_size _ p stop) as [ls'|] eqn:EL; [|discriminate].
      destruct (last_size_sound _ _ _ _ EL) as (l & -> & Hl & _).
      apply (Fin ((v :: ls) ++ [l]) p); auto.
      * apply Forall_app. split; [constructor; [lia|auto]|constructor; [lia|constructor]].
      * discriminate.
      * rewrite zlen_app, !zlen_cons, zlen_nil. unfold zlen. lia.
      * lia.
Qed.

Lemma Block_single_ebml : exists track time flags frame bs b,
  block_content track time flags LEbml [frame] bs /\ bytes bs /\
  Block_Parse (file_reader bs) 0 (zlen bs) = Val (Some b) /\
  map (Frame_Read (file_reader bs)) (bl_frames b) <> map inr [frame].
Proof.
  exists 1, 10, 0x86, [0x82; 7; 8], [0x81; 0; 10; 0x86; 0; 0x82; 7; 8],
    (mkBlock 1 10 0x86 [mkBFrame 6 2]).
  split.
  { exists 1, [0]. repeat (split; [vm_compute; intuition congruence|]).
    split; [repeat constructor; discriminate|]. split; [|vm_compute; reflexivity]. apply lh_ebml1. }
  split; [repeat constructor; unfold is_byte; lia|]. split; [vm_compute; reflexivity|]. vm_compute. discriminate.
Qed.

Lemma Block_single_ebml_refused : exists track time flags frame bs,
  block_content track time flags LEbml [frame] bs /\ bytes bs /\
  Block_Parse (file_reader bs) 0 (zlen bs) = Val None.
Proof.
  exists 1, 10, 0x86, [5], [0x81; 0; 10; 0x86; 0; 5].
  split.
  { exists 1, [0]. repeat (split; [vm_compute; intuition congruence|]).
    split; [repeat constructor; discriminate|]. split; [|vm_compute; reflexivity]. apply lh_ebml1. }
  split; [repeat constructor; unfold is_byte; lia|]. vm_compute. reflexivity.
Qed.

Lemma Block_time : forall b tc0 scale,
  0 <= tc0 -> -32768 <= bl_timecode b <= 32767 -> 1 <= scale <= LLONG_MAX ->
  Block_GetTime b tc0 scale =
    let t := tc0 + bl_timecode b in
    if (0 <=? t) && (t * scale <=? LLONG_MAX) then t * scale else -1.
Proof.
  intros b tc0 scale H0 HT HS. unfold Block_GetTime, Block_GetTimeCode. cbv zeta.
  replace (tc0 <? 0) with false by lia. cbn [orb]. set (t := tc0 + bl_timecode b) in *.
  destruct (LLONG_MAX - tc0 <? bl_timecode b) eqn:E.
  - assert (LLONG_MAX < t) by lia. replace (t * scale <=? LLONG_MAX) with false by nia.
    rewrite andb_false_r. change (Z.quot LLONG_MAX (-1)) with (- LLONG_MAX).
    replace (scale >? - LLONG_MAX) with true by (unfold LLONG_MAX in *; lia). reflexivity.
  - destruct (t =? 0) eqn:Et; cbn [negb andb].
    + replace t with 0 by lia. reflexivity.
    + destruct (Z_lt_le_dec t 0) as [Hn|Hn].
      * replace (0 <=? t) with false by lia. cbn [andb].
        assert (Hq : Z.quot LLONG_MAX t <= 0).
        { rewrite <- (Z.opp_involutive t), Z.quot_opp_r by lia.
          pose proof (Z.quot_pos LLONG_MAX (- t)). unfold LLONG_MAX in *. lia. }
        replace (scale >? Z.quot LLONG_MAX t) with true by lia. reflexivity.
      * replace (0 <=? t) with true by lia. cbn [andb].
        rewrite Z.quot_div_nonneg by (unfold LLONG_MAX; lia).
        replace (scale >? LLONG_MAX / t) with (negb (t * scale <=? LLONG_MAX)); [destruct (t * scale <=? LLONG_MAX); reflexivity|].
        destruct (Z.leb_spec (t * scale) LLONG_MAX) as [Hl|Hl]; cbn [negb].
        -- assert (scale <= LLONG_MAX / t) by (apply Z.div_le_lower_bound; lia). lia.
        -- assert (LLONG_MAX / t < scale) by (apply Z.div_lt_upper_bound; lia). lia.
Qed.
