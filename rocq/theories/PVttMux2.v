(* WebVTT cues through a file: loading, sorting and writing. *)
From Coq Require Import ZifyBool ZifyNat Sorting.Sorted.
From Verif Require Import Base MVtt VttSpec PVtt PVtt2 PVtt3 VttMuxSpec MVttMux PVttMux.

(* ---------- the order ---------- *)
Definition st (v : sortable) : Z := millis (q_start (snd v)).
Definition kle (a b : sortable) : Prop := st a < st b \/ st a = st b /\ fst a <= fst b.
Definition vproper (v : sortable) : Prop := proper (q_start (snd v)).
Lemma lt_kle : forall a b, vproper a -> vproper b -> (sortable_lt a b = true <-> ~ kle b a).
Proof.
  intros a b Ha Hb. unfold sortable_lt, time_gt, kle, st. destruct (proper_order _ _ Ha Hb) as [L1 _]. destruct (proper_order _ _ Hb Ha) as [L2 _]. rewrite L1, L2.
  destruct (Z.ltb_spec (millis (q_start (snd a))) (millis (q_start (snd b)))); [split; [lia|reflexivity]|].
  destruct (Z.ltb_spec (millis (q_start (snd b))) (millis (q_start (snd a)))); [split; [discriminate|lia]|]. rewrite Z.ltb_lt. lia.
Qed.
Lemma kle_trans : forall a b c, kle a b -> kle b c -> kle a c. Proof. unfold kle. intros. lia. Qed.
Lemma insert_in : forall v l x, In x (set_insert v l) <-> x = v \/ In x l.
Proof.
  intros v l x. induction l as [|w r IH]; cbn [set_insert]; [cbn [In]; intuition congruence|]. destruct (sortable_lt v w); cbn [In] in *; intuition congruence.
Qed.
Lemma insert_sorted : forall v l, vproper v -> Forall vproper l -> StronglySorted kle l -> StronglySorted kle (set_insert v l).
Proof.
  intros v l Hv HL HS. induction HS as [|w r HS IH HF]; cbn [set_insert]; [repeat constructor|]. apply Forall_cons_iff in HL. destruct HL as [Hw HL].
  destruct (sortable_lt v w) eqn:E.
  - apply (lt_kle v w Hv Hw) in E. assert (K : kle v w) by (unfold kle in *; lia). constructor; [constructor; assumption|]. constructor; [exact K|].
    eapply Forall_impl; [|exact HF]. intros x Hx. exact (kle_trans _ _ _ K Hx).
  - constructor; [exact (IH HL)|]. apply Forall_forall. intros x Hx. apply insert_in in Hx. destruct Hx as [->|Hx].
    + assert (N : ~ (sortable_lt v w = true)) by congruence. rewrite (lt_kle v w Hv Hw) in N. unfold kle in *. lia.
    + rewrite Forall_forall in HF. exact (HF x Hx).
Qed.
Definition on (tr : Z) (l : list sortable) : list sortable := filter (fun v => fst v =? tr) l.
Lemma on_none : forall tr l, (forall x, In x l -> fst x <> tr) -> on tr l = [].
Proof.
  intros tr l H. unfold on. induction l as [|w r IH]; [reflexivity|]. cbn [filter]. pose proof (H w (or_introl eq_refl)). destruct (fst w =? tr) eqn:E; [lia|].
  apply IH. intros x Hx. apply H. right. exact Hx.
Qed.
Lemma insert_other : forall tr v l, fst v <> tr -> on tr (set_insert v l) = on tr l.
Proof.
  intros tr v l H. unfold on. induction l as [|w r IH]; cbn [set_insert filter]; [destruct (fst v =? tr) eqn:E; [lia|reflexivity]|].
  destruct (sortable_lt v w); cbn [filter]; [destruct (fst v =? tr) eqn:E; [lia|reflexivity]|]. rewrite IH. reflexivity.
Qed.
Lemma insert_same : forall v l, vproper v -> Forall vproper l -> StronglySorted kle l -> (forall w, In w l -> fst w = fst v -> st w <= st v) ->
  on (fst v) (set_insert v l) = on (fst v) l ++ [v].
Proof.
  intros v l Hv HL HS. induction HS as [|w r HS IH HF]; intro HB; cbn [set_insert].
  - unfold on. cbn [filter]. rewrite Z.eqb_refl. reflexivity.
  - apply Forall_cons_iff in HL. destruct HL as [Hw HL]. destruct (sortable_lt v w) eqn:E.
    + apply (lt_kle v w Hv Hw) in E. assert (K : on (fst v) (w :: r) = []).
      { apply on_none. intros x Hx Hf. pose proof (HB x Hx Hf) as Hb. destruct Hx as [->|Hx]; [unfold kle in E; lia|]. rewrite Forall_forall in HF. pose proof (HF x Hx). unfold kle in *. lia. }
      transitivity (if fst v =? fst v then v :: on (fst v) (w :: r) else on (fst v) (w :: r)); [reflexivity|]. rewrite Z.eqb_refl, K. reflexivity.
    + unfold on in *. cbn [filter]. rewrite (IH HL) by (intros x Hx; apply HB; right; exact Hx). destruct (fst w =? fst v); reflexivity.
Qed.

(* ---------- loading ---------- *)
Definition qproper (q : cue) : Prop := proper (q_start q) /\ proper (q_stop q).
Definition add_all (tr : Z) (qs : list cue) (cues : list sortable) : list sortable := fold_left (fun s q => set_insert (tr, q) s) qs cues.
Lemma parse_loop_ok : forall qs p c t tm tr cues fuel, yields p qs -> (length qs < fuel)%nat -> Forall qproper qs -> in_order tm qs ->
  (forall u, proper u -> tm <= millis u -> time_ge u t = true) -> parse_loop fuel p c t tr cues = Val (true, add_all tr qs cues).
Proof.
  induction qs as [|q qs IH]; intros p c t tm tr cues fuel HY Hf HP HO HT; (destruct fuel as [|fuel]; [cbn [length] in Hf; lia|]); cbn [parse_loop].
  - inversion HY as [p0 HE|]; subst. destruct (HE c) as (q' & p' & E). rewrite E. cbn [obind]. change (1 <? 0) with false. change (1 >? 0) with true. reflexivity.
  - inversion HY as [|p0 q0 qs0 p' HE HY']; subst. rewrite (HE c). cbn [obind]. change (0 <? 0) with false. change (0 >? 0) with false. cbv iota.
    apply Forall_cons_iff in HP. destruct HP as [[P1 P2] HP]. cbn [in_order] in HO. destruct HO as (O1 & O2 & O3).
    rewrite (HT _ P1 O1). cbn [negb]. destruct (proper_order _ _ P2 P1) as [L _]. rewrite L. destruct (Z.ltb_spec (millis (q_stop q)) (millis (q_start q))); [lia|].
    cbn [length] in Hf. apply (IH p' q (q_start q) (millis (q_start q)) tr (set_insert (tr, q) cues) fuel HY' ltac:(lia) HP O3).
    intros u Hu Hm. unfold time_ge. destruct (proper_order _ _ Hu P1) as [L2 _]. rewrite L2. lia.
Qed.
Lemma yields_len : forall p qs, yields p qs -> wf p -> (length qs <= length (pending p))%nat.
Proof.
  intros p qs H. induction H as [p HE|p q qs p' HE HY IH]; intro HW; [cbn; lia|]. destruct (Parse_total p cue0 HW) as (e & q' & p1 & E & W & _ & L).
  rewrite (HE cue0) in E. injection E as E1 E2 E3. subst e q' p1. specialize (L eq_refl). specialize (IH W). cbn [length]. lia.
Qed.
Lemma wf_chars : forall file, Forall (fun c => 0 <= c < 256) file -> wf (new_parser (map Ch file)).
Proof. intros file H. unfold wf, pending, new_parser. cbn [p_unget p_in]. change (-1 >=? 0) with false. cbv iota. apply Forall_forall. intros a Ha. apply in_map_iff in Ha. destruct Ha as (c & <- & Hc). rewrite Forall_forall in H. cbn. specialize (H c Hc). lia. Qed.

Lemma load_track_ok : forall file qs tr cues, vtt_file scaled file qs -> Forall (fun c => 0 <= c < 256) file -> Forall qproper qs -> in_order 0 qs ->
  load_track (map Ch file) tr cues = Val (true, add_all tr qs cues).
Proof.
  intros file qs tr cues HV HB HP HO. destruct (file_yields file qs HV) as (p & E & HY). unfold load_track. rewrite E. cbn [obind]. change (0 <? 0) with false. cbv iota.
  destruct (Init_total _ (wf_chars file HB)) as (e & p' & E' & W & _). rewrite E in E'. injection E' as E1 E2. subst e p'.
  pose proof (yields_len p qs HY W) as HL. pose proof (pending_len p) as HL2.
  apply (parse_loop_ok qs p cue0 time0 0 tr cues (fuel_of p) HY); [unfold fuel_of; lia|exact HP|exact HO|].
  intros u (U1 & _) _. unfold time_ge, time_lt, time0. cbn [t_h t_m t_s t_ms]. destruct (t_h u <? -1) eqn:X1; [lia|]. destruct (t_h u >? -1) eqn:X2; [reflexivity|lia].
Qed.

Definition good_set (s : list sortable) : Prop := Forall vproper s /\ StronglySorted kle s.
Lemma insert_good : forall v s, vproper v -> good_set s -> good_set (set_insert v s).
Proof.
  intros v s Hv [H1 H2]. split; [|exact (insert_sorted v s Hv H1 H2)]. apply Forall_forall. intros x Hx. apply insert_in in Hx. destruct Hx as [->|Hx]; [exact Hv|]. rewrite Forall_forall in H1. exact (H1 x Hx).
Qed.
Lemma add_all_ok : forall qs tr tm s, Forall qproper qs -> in_order tm qs -> good_set s -> (forall w, In w s -> fst w = tr -> st w <= tm) ->
  let s' := add_all tr qs s in
  good_set s' /\ on tr s' = on tr s ++ map (fun q => (tr, q)) qs /\ (forall tr', tr' <> tr -> on tr' s' = on tr' s) /\
  (forall x, In x s' <-> In x s \/ exists q, In q qs /\ x = (tr, q)).
Proof.
  induction qs as [|q qs IH]; intros tr tm s HP HO HG HB s'.
  - unfold s', add_all. cbn [fold_left map]. split; [exact HG|]. split; [rewrite app_nil_r; reflexivity|]. split; [reflexivity|]. intro x. split; [tauto|]. intros [K|(q & [] & _)]. exact K.
  - apply Forall_cons_iff in HP. destruct HP as [[P1 P2] HP]. cbn [in_order] in HO. destruct HO as (O1 & O2 & O3).
    assert (Hv : vproper (tr, q)) by exact P1.
    specialize (IH tr (millis (q_start q)) (set_insert (tr, q) s) HP O3 (insert_good _ _ Hv HG)). cbv zeta in IH.
    destruct IH as (I1 & I2 & I3 & I4).
    { intros w Hw Hf. apply insert_in in Hw. destruct Hw as [->|Hw]; [unfold st; cbn [snd]; lia|]. specialize (HB w Hw Hf). lia. }
    change s' with (add_all tr qs (set_insert (tr, q) s)). split; [exact I1|]. split; [|split].
    + rewrite I2. destruct HG as [G1 G2]. change tr with (fst (tr, q)) at 1. rewrite (insert_same (tr, q) s Hv G1 G2).
      * cbn [fst map]. rewrite <- app_assoc. reflexivity.
      * cbn [fst]. intros w Hw Hf. specialize (HB w Hw Hf). unfold st in *. cbn [snd]. lia.
    + intros tr' Hn. rewrite (I3 tr' Hn). apply insert_other. cbn [fst]. congruence.
    + intro x. rewrite I4, insert_in. split.
      * intros [[->|K]|(q' & K1 & K2)]; [right; exists q; split; [left; reflexivity|reflexivity]|left; exact K|right; exists q'; split; [right; exact K1|exact K2]].
      * intros [K|(q' & [->|K1] & K2)]; [left; right; exact K|left; left; exact K2|right; exists q'; split; assumption].
Qed.

(* ---------- writing ---------- *)
Definition writable (v : sortable) : Prop := qproper (snd v) /\ st v <= millis (q_stop (snd v)) /\ times_fit (snd v).
Lemma time_ns_ok : forall t, proper t -> millis t * 1000000 < 2 ^ 63 -> time_ns t = Val (millis t * 1000000).
Proof.
  intros t HP HF. unfold time_ns. rewrite (presentation_any t (proper_any t HP)). cbn [obind]. apply s64_ok. destruct HP as (a1 & a2 & a3 & a4). split; [|exact HF].
  assert (0 <= millis t) by (unfold millis; lia). change (- 2 ^ 63) with (-9223372036854775808). lia.
Qed.
Lemma start_ns_ok : forall v, writable v -> time_ns (q_start (snd v)) = Val (millis (q_start (snd v)) * 1000000).
Proof. intros v ((P1 & P2) & HL & HF). apply time_ns_ok; [exact P1|]. unfold times_fit, st in *. lia. Qed.
Lemma write_one : forall v, writable v -> SortableCue_Write v = Val (frame_of v).
Proof.
  intros v H. unfold SortableCue_Write. rewrite (start_ns_ok v H). cbn [obind]. destruct H as ((P1 & P2) & HL & HF). rewrite (time_ns_ok _ P2 HF). cbn [obind].
  unfold times_fit, st in *. assert (0 <= millis (q_start (snd v))) by (destruct P1 as (a1 & a2 & a3 & a4); unfold millis; lia). change (2 ^ 63) with 9223372036854775808 in HF.
  rewrite s64_ok by lia. reflexivity.
Qed.
Lemma write_ok : forall t s, Forall writable s -> exists pre post, s = pre ++ post /\ Write t s = Val (map frame_of pre, post) /\ (t < 0 -> post = []).
Proof.
  intros t s. induction s as [|v r IH]; intro H; [exists [], []; split; [reflexivity|]; split; [reflexivity|auto]|]. apply Forall_cons_iff in H. destruct H as [H1 H2].
  cbn [Write]. rewrite (start_ns_ok v H1). cbn [obind]. destruct ((0 <=? t) && (millis (q_start (snd v)) * 1000000 >? t)) eqn:E.
  - exists [], (v :: r). split; [reflexivity|]. split; [reflexivity|]. lia.
  - rewrite (write_one v H1). cbn [obind]. destruct (IH H2) as (pre & post & E1 & E2 & E3). rewrite E2. cbn [obind fst snd]. exists (v :: pre), post. split; [rewrite E1; reflexivity|]. split; [reflexivity|exact E3].
Qed.
Lemma write_all_ok : forall ts s, Forall writable s -> write_all ts s = Val (map frame_of s).
Proof.
  induction ts as [|t ts IH]; intros s H; cbn [write_all].
  - destruct (write_ok (-1) s H) as (pre & post & E1 & E2 & E3). rewrite E2. cbn [obind fst]. rewrite (E3 ltac:(lia)), app_nil_r in E1. subst s. reflexivity.
  - destruct (write_ok t s H) as (pre & post & E1 & E2 & E3). rewrite E2. cbn [obind fst snd]. subst s. apply Forall_app in H. destruct H as [_ H]. rewrite (IH post H). cbn [obind]. rewrite map_app. reflexivity.
Qed.
Lemma of_track_map : forall tr s, of_track tr (map frame_of s) = map frame_of (on tr s).
Proof. intros tr s. unfold of_track, on. induction s as [|v r IH]; [reflexivity|]. cbn [map filter]. change (mf_track (frame_of v)) with (fst v). destruct (fst v =? tr); cbn [map]; rewrite IH; reflexivity. Qed.

(* ---------- the cues of a file ---------- *)
Lemma lines_from : forall txt ls, text_lines txt ls -> Forall no_eol ls /\ forall l, In l ls -> incl l txt.
Proof.
  intros txt ls H. induction H as [|l Hl HE|l r ls HE HT [I1 I2]|l r ls HE HT [I1 I2]|l r ls HE Hx HT [I1 I2]].
  - split; [constructor|intros l []].
  - split; [constructor; [exact HE|constructor]|]. intros x [->|[]]. apply incl_refl.
  - split; [constructor; assumption|]. intros x [->|Hi]; [apply incl_appl, incl_refl|]. apply incl_appr, incl_appr. exact (I2 x Hi).
  - split; [constructor; assumption|]. intros x [->|Hi]; [apply incl_appl, incl_refl|]. apply incl_appr, incl_appr. exact (I2 x Hi).
  - split; [constructor; assumption|]. intros x [->|Hi]; [apply incl_appl, incl_refl|]. apply incl_appr, incl_appr. exact (I2 x Hi).
Qed.
Lemma doc_blocks : forall P ls qs, cue_doc P ls qs -> forall q, In q qs -> exists b, cue_block P b q /\ incl b ls.
Proof.
  intros P ls qs H. induction H as [|ls cs H IH|b q ls cs HB H IH|b q HB]; intros x Hx; [destruct Hx|..].
  - destruct (IH x Hx) as (b & K1 & K2). exists b. split; [exact K1|]. apply incl_tl. exact K2.
  - destruct Hx as [->|Hx]; [exists b; split; [exact HB|apply incl_appl, incl_refl]|]. destruct (IH x Hx) as (b' & K1 & K2). exists b'. split; [exact K1|]. apply incl_appr, incl_tl. exact K2.
  - destruct Hx as [->|[]]. exists b. split; [exact HB|apply incl_refl].
Qed.
Lemma settings_from : forall t ss, settings_text t ss -> forall s, In s ss -> token (set_name s) /\ token (set_value s) /\ incl (set_name s) t /\ incl (set_value s) t.
Proof.
  intros t ss H. induction H as [b HB|b n v r ss Hb HB Hn Hv H IH]; intros s Hs; [destruct Hs|]. destruct Hs as [<-|Hs].
  - cbn [set_name set_value]. split; [exact Hn|]. split; [exact Hv|]. split; [apply incl_appr, incl_appl, incl_refl|]. apply incl_appr, incl_appr, incl_appr, incl_appl, incl_refl.
  - destruct (IH s Hs) as (K1 & K2 & K3 & K4). split; [exact K1|]. split; [exact K2|]. split; apply incl_appr, incl_appr, incl_appr, incl_appr; assumption.
Qed.
Lemma stamp_round : forall x t, stamp scaled x t -> round_ms t.
Proof.
  intros x t H. destruct H as [x h m s HC|x f h m s ms HC (v & HN & HV & HM)]; [left; reflexivity|]. pose proof (number_nonneg _ _ HN). unfold round_ms. cbn [t_ms]. subst ms.
  destruct (Z.ltb_spec v 10); [lia|]. destruct (Z.ltb_spec v 100); lia.
Qed.
Lemma size_in : forall ss s, In s ss -> zlen (set_name s) <= settings_size ss /\ zlen (set_value s) <= settings_size ss.
Proof.
  unfold settings_size, zlen. induction ss as [|a r IH]; intros s Hs; [destruct Hs|]. cbn [fold_right].
  assert (0 <= fold_right (fun (s0 : setting) (a0 : Z) => Z.of_nat (length (set_name s0)) + Z.of_nat (length (set_value s0)) + 2 + a0) 0 r) by (clear; induction r; cbn [fold_right]; lia).
  destruct Hs as [->|Hs]; [lia|]. specialize (IH s Hs). lia.
Qed.
Lemma order_in : forall qs t q, in_order t qs -> In q qs -> millis (q_start q) <= millis (q_stop q).
Proof. induction qs as [|a r IH]; intros t q HO HI; [destruct HI|]. cbn [in_order] in HO. destruct HO as (_ & H2 & H3). destruct HI as [->|HI]; [exact H2|exact (IH _ q H3 HI)]. Qed.

Lemma file_cues_ok : forall file qs, vtt_file scaled file qs -> ~ In 0 file -> in_order 0 qs -> Forall times_fit qs -> Forall settings_fit qs -> Forall cue_ok qs.
Proof.
  intros file qs (bom & txt & lines & EF & _ & HT & HPL & HL) H0 HO HTF HSF. destruct (lines_from txt lines HT) as [NE HI].
  assert (OK : forall l, In l lines -> text_ok l).
  { intros l Hl. rewrite Forall_forall in HPL, NE. split; [exact (HPL l Hl)|]. split; [exact (NE l Hl)|]. intro K. apply H0. rewrite EF. apply in_or_app. right. apply in_or_app. right. exact (HI l Hl 0 K). }
  assert (HD : forall q, In q qs -> exists b, cue_block scaled b q /\ incl b lines).
  { destruct lines as [|head [|l body]]; [subst qs; intros q []|destruct HL as [_ ->]; intros q []|]. destruct HL as (_ & _ & HD). intros q Hq.
    destruct (doc_blocks _ _ _ HD q Hq) as (b & K1 & K2). exists b. split; [exact K1|]. apply incl_tl, incl_tl. exact K2. }
  apply Forall_forall. intros q Hq. rewrite Forall_forall in HTF, HSF. pose proof (HTF q Hq) as F1. pose proof (HSF q Hq) as F2. pose proof (order_in qs 0 q HO Hq) as F3.
  destruct (HD q Hq) as (b & (ids & tline & pl & EB & HID & HTL & EP & PN & PE) & HINC). destruct HTL as (b1 & s1 & b2 & b3 & s2 & stx & _ & S1 & _ & _ & S2 & SS & EL).
  assert (IL : In tline lines) by (apply HINC; rewrite EB; apply in_or_app; right; left; reflexivity).
  split; [|split; [|split; [exact F2|split; [rewrite EP; exact PN|split; [|split; [|split; [|split; [|split; [|split; [exact F3|exact F1]]]]]]]]]].
  - destruct HID as [[_ K]|(K1 & K2 & K3)]; [left; exact K|right]. split; [|exact K3]. apply OK, HINC. rewrite EB, K1. apply in_or_app. left. left. reflexivity.
  - apply Forall_forall. intros s Hs. destruct (settings_from _ _ SS s Hs) as (K1 & K2 & K3 & K4). destruct (size_in _ s Hs) as [Z1 Z2]. unfold settings_fit in F2.
    pose proof (ok_chars _ (OK tline IL)) as (C1 & C2 & C3).
    assert (SUB : forall w, incl w stx -> chars_ok w).
    { intros w Hw. assert (Hw2 : incl w tline) by (rewrite EL; do 6 apply incl_appr; exact Hw). unfold no_eol in C2. rewrite Forall_forall in C1, C2.
      split; [apply Forall_forall; intros c Hc; exact (C1 c (Hw2 c Hc))|]. split; [apply Forall_forall; intros c Hc; exact (C2 c (Hw2 c Hc))|]. intro K. apply C3. exact (Hw2 0 K). }
    split; [exact K1|]. split; [exact K2|]. split; apply chars_ok_text; try (apply SUB; assumption); lia.
  - rewrite EP. apply Forall_forall. intros l Hl. rewrite Forall_forall in PE. split; [exact (PE l Hl)|]. apply OK, HINC. rewrite EB. apply in_or_app. right. right. exact Hl.
  - exact (stamp_proper _ _ S1).
  - exact (stamp_proper _ _ S2).
  - exact (stamp_round _ _ S1).
  - exact (stamp_round _ _ S2).
Qed.

(* ---------- all tracks ---------- *)
Lemma good_cues : forall file qs, good_file file qs -> Forall cue_ok qs.
Proof. intros file qs (H1 & _ & H2 & H3 & H4 & H5). exact (file_cues_ok file qs H1 H2 H3 H4 H5). Qed.
Lemma cue_ok_proper : forall qs, Forall cue_ok qs -> Forall qproper qs.
Proof. intros qs H. eapply Forall_impl; [|exact H]. intros q (_ & _ & _ & _ & _ & P1 & P2 & _). split; assumption. Qed.
Lemma cue_ok_writable : forall tr q, cue_ok q -> writable (tr, q).
Proof. intros tr q (_ & _ & _ & _ & _ & P1 & P2 & _ & _ & H1 & H2). split; [split; assumption|]. split; assumption. Qed.

Lemma load_all_ok : forall loads s, NoDup (map fst loads) -> (forall x, In x loads -> good_file (fst (snd x)) (snd (snd x))) ->
  good_set s -> (forall w, In w s -> ~ In (fst w) (map fst loads)) -> Forall writable s ->
  exists s', load_all (inputs loads) s = Val (true, s') /\ good_set s' /\ Forall writable s' /\
    (forall tr, ~ In tr (map fst loads) -> on tr s' = on tr s) /\
    (forall x, In x loads -> on (fst x) s' = map (fun q => (fst x, q)) (snd (snd x))) /\
    (forall w, In w s' -> In w s \/ In (fst w) (map fst loads)).
Proof.
  induction loads as [|[tr [file qs]] r IH]; intros s ND HF HG HS HW.
  - exists s. split; [reflexivity|]. split; [exact HG|]. split; [exact HW|]. split; [reflexivity|]. split; [intros x []|auto].
  - cbn [map fst] in ND. apply NoDup_cons_iff in ND. destruct ND as [N1 N2]. pose proof (HF _ (or_introl eq_refl)) as GF. cbn [fst snd] in GF.
    pose proof (good_cues _ _ GF) as CO. pose proof (cue_ok_proper _ CO) as CP. destruct GF as (G1 & G2 & G3 & G4 & G5 & G6).
    destruct (add_all_ok qs tr 0 s CP G4 HG) as (A1 & A2 & A3 & A4). { intros w Hw Hf. exfalso. apply (HS w Hw). left. symmetry. exact Hf. }
    assert (ON : on tr s = []). { apply on_none. intros x Hx Hf. apply (HS x Hx). left. symmetry. exact Hf. }
    rewrite ON in A2. cbn [app] in A2.
    destruct (IH (add_all tr qs s) N2) as (s' & E & B1 & B2 & B3 & B4 & B5).
    { intros x Hx. apply HF. right. exact Hx. }
    { exact A1. }
    { intros w Hw K. apply A4 in Hw. destruct Hw as [Hw|(q & _ & ->)]; [apply (HS w Hw); right; exact K|exact (N1 K)]. }
    { apply Forall_forall. intros w Hw. apply A4 in Hw. destruct Hw as [Hw|(q & Hq & ->)]; [rewrite Forall_forall in HW; exact (HW w Hw)|]. apply cue_ok_writable. rewrite Forall_forall in CO. exact (CO q Hq). }
    exists s'. unfold inputs. cbn [map load_all fst snd]. rewrite (load_track_ok file qs tr s G1 G2 CP G4). cbn [obind fst snd]. split; [exact E|]. split; [exact B1|]. split; [exact B2|].
    split; [|split].
    + intros tr' K. rewrite B3 by (intro K2; apply K; right; exact K2). apply A3. intro K2. apply K. left. symmetry. exact K2.
    + intros x [<-|Hx]; [|exact (B4 x Hx)]. cbn [fst snd]. rewrite (B3 tr N1). exact A2.
    + intros w Hw. destruct (B5 w Hw) as [K|K]; [|right; right; exact K]. apply A4 in K. destruct K as [K|(q & _ & ->)]; [left; exact K|right; left; reflexivity].
Qed.

(* what a call with a time writes, and what it leaves *)
Lemma write_time : forall t s, 0 <= t -> Forall writable s -> StronglySorted kle s -> forall fs rest, Write t s = Val (fs, rest) ->
  Forall (fun f => mf_time f <= t) fs /\ Forall (fun v => t < st v * 1000000) rest.
Proof.
  intros t s Ht. induction s as [|v r IH]; intros HW HS fs rest H.
  - cbn [Write] in H. inversion H. split; constructor.
  - apply Forall_cons_iff in HW. destruct HW as [W1 W2]. apply StronglySorted_inv in HS. destruct HS as [S1 S2]. cbn [Write] in H. rewrite (start_ns_ok v W1) in H. cbn [obind] in H.
    destruct ((0 <=? t) && (millis (q_start (snd v)) * 1000000 >? t)) eqn:E.
    + inversion H. subst. split; [constructor|]. constructor; [unfold st; lia|]. eapply Forall_impl; [|exact S2]. intros w Hk. unfold kle, st in *. cbn beta in *. lia.
    + rewrite (write_one v W1) in H. cbn [obind] in H. destruct (write_ok t r W2) as (pre & post & E1 & E2 & _). rewrite E2 in H. cbn [obind fst snd] in H. inversion H. subst fs rest.
      destruct (IH W2 S1 _ _ E2) as [K1 K2]. split; [|exact K2]. constructor; [|exact K1]. unfold frame_of. cbn [mf_time]. lia.
Qed.
Lemma frames_sorted : forall s, StronglySorted kle s -> StronglySorted (fun a b => mf_time a <= mf_time b) (map frame_of s).
Proof.
  intros s H. induction H as [|v r H IH HF]; [constructor|]. cbn [map]. constructor; [exact IH|]. apply Forall_forall. intros f Hf. apply in_map_iff in Hf. destruct Hf as (w & <- & Hw).
  rewrite Forall_forall in HF. specialize (HF w Hw). unfold kle, st in HF. unfold frame_of. cbn [mf_time]. lia.
Qed.
