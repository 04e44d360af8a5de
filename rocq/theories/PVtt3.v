(* Reading a whole WebVTT text, and the arithmetic of times. *)
From Coq Require Import ZifyBool ZifyNat.
From Verif Require Import Base MVtt VttSpec PVtt PVtt2.

Lemma text_lines_len : forall txt ls, text_lines txt ls -> (length ls <= length txt)%nat.
Proof. intros txt ls H. induction H; rewrite ?app_length; cbn [length]; try lia. destruct l; [congruence|cbn [length]; lia]. Qed.
Lemma text_lines_nil : forall txt, text_lines txt [] -> txt = [].
Proof. intros txt H. inversion H. reflexivity. Qed.

(* p is about to read the lines ls *)
Definition at_lines (p : pstate) (ls : list (list Z)) : Prop := exists txt, reads p txt /\ text_lines txt ls /\ Forall plain_line ls.
Lemma at_lines_fuel : forall p ls, at_lines p ls -> (length ls < fuel_of p)%nat.
Proof. intros p ls (txt & HR & HT & _). pose proof (text_lines_len _ _ HT). pose proof (pending_len p) as HL. unfold reads in HR. rewrite HR, map_length in HL. unfold fuel_of. lia. Qed.
Lemma GetLine_at : forall p l ls, at_lines p (l :: ls) -> exists p', GetLine p = Val (0, l, p') /\ at_lines p' ls.
Proof. intros p l ls (txt & HR & HT & HP). destruct (GetLine_text p txt l ls HR HT HP) as (p' & txt' & E & R & T & P). exists p'. split; [exact E|]. exists txt'. auto. Qed.
Lemma GetLine_at_end : forall p, at_lines p [] -> GetLine p = Val (1, [], p).
Proof. intros p (txt & HR & HT & _). rewrite (text_lines_nil _ HT) in HR. exact (GetLine_end p HR). Qed.

Lemma first_line_at : forall n p fuel l ls, at_lines p (repeat [] n ++ l :: ls) -> l <> [] -> (n < fuel)%nat ->
  exists p', first_line fuel p = Val (0, l, p') /\ at_lines p' ls.
Proof.
  induction n as [|n IH]; intros p fuel l ls HA Hl Hf; (destruct fuel as [|fuel]; [lia|]); cbn [first_line repeat app] in *.
  - destruct (GetLine_at _ _ _ HA) as (p' & -> & HA'). cbn [obind]. change (negb (0 =? 0)) with false. cbv iota. destruct l as [|c l]; [congruence|]. eauto.
  - destruct (GetLine_at _ _ _ HA) as (p' & -> & HA'). cbn [obind]. change (negb (0 =? 0)) with false. cbv iota. apply IH; [assumption..|lia].
Qed.
Lemma first_line_end : forall n p fuel, at_lines p (repeat [] n) -> (n < fuel)%nat -> exists p', first_line fuel p = Val (1, [], p').
Proof.
  induction n as [|n IH]; intros p fuel HA Hf; (destruct fuel as [|fuel]; [lia|]); cbn [first_line repeat] in *.
  - rewrite (GetLine_at_end _ HA). cbn [obind]. change (negb (1 =? 0)) with true. eauto.
  - destruct (GetLine_at _ _ _ HA) as (p' & -> & HA'). cbn [obind]. change (negb (0 =? 0)) with false. cbv iota. apply IH; [assumption|lia].
Qed.
Lemma payload_at : forall pl p fuel acc tail, at_lines p (pl ++ tail) -> Forall (fun l => l <> []) pl -> (length pl < fuel)%nat ->
  tail = [] \/ (exists ls, tail = [] :: ls) -> exists p', payload_loop fuel acc p = Val (0, acc ++ pl, p') /\ at_lines p' (tl tail).
Proof.
  induction pl as [|l pl IH]; intros p fuel acc tail HA HN Hf HT; (destruct fuel as [|fuel]; [cbn in Hf; lia|]); cbn [payload_loop app] in *.
  - rewrite app_nil_r. destruct HT as [->|(ls & ->)].
    + rewrite (GetLine_at_end _ HA). cbn [obind]. change (1 <? 0) with false. cbv iota. eauto.
    + destruct (GetLine_at _ _ _ HA) as (p' & -> & HA'). cbn [obind]. change (0 <? 0) with false. cbv iota. eauto.
  - destruct (GetLine_at _ _ _ HA) as (p' & -> & HA'). cbn [obind]. change (0 <? 0) with false. cbv iota. inversion HN; subst. destruct l as [|c l]; [congruence|].
    destruct (IH p' fuel (acc ++ [c :: l]) tail HA') as (p2 & E & A2); [assumption|cbn in Hf; lia|assumption|]. exists p2. rewrite E, <- app_assoc. auto.
Qed.

Lemma find_none : forall l i, ~ has_arrow l -> find_from kArrow l i = None.
Proof.
  induction l as [|c l IH]; intros i H; [reflexivity|]. cbn [find_from]. destruct (is_prefix kArrow (c :: l)) eqn:E.
  - exfalso. apply H. exists []. cbn [is_prefix kArrow] in E. destruct l as [|d [|e l]]; rewrite ?andb_false_r in E; try discriminate. exists l. unfold arrow. cbn [app].
    assert (c = 45 /\ d = 45 /\ e = 62) as (-> & -> & ->) by lia. reflexivity.
  - apply IH. intros (a & b & ->). apply H. exists (c :: a), b. reflexivity.
Qed.
Lemma timings_nonempty : forall ms l a b ss, timings_line ms l a b ss -> l <> [].
Proof. intros ms l a b ss (b1 & s1 & b2 & b3 & s2 & st & _ & _ & _ & _ & _ & _ & ->) H. apply (f_equal (@length Z)) in H. unfold arrow in H. rewrite !app_length in H. cbn [length] in H. lia. Qed.

Lemma Parse_block : forall p n b q tail, at_lines p (repeat [] n ++ b ++ tail) -> cue_block scaled b q -> tail = [] \/ (exists ls, tail = [] :: ls) ->
  exists p', (forall q0, Parse p q0 = Val (0, q, p')) /\ at_lines p' (tl tail).
Proof.
  intros p n b q tail HA (ids & tline & pl & -> & HI & HT & <- & HN & HF) Htail. pose proof (at_lines_fuel _ _ HA) as Hfuel. rewrite app_length, repeat_length in Hfuel.
  pose proof (timings_nonempty _ _ _ _ _ HT) as Hne. destruct HI as [[-> Hid]|[-> [Hid Hno]]]; cbn [app] in HA; rewrite ?app_length in Hfuel; cbn [length] in Hfuel.
  - destruct (first_line_at _ _ (fuel_of p) _ _ HA Hne ltac:(lia)) as (p1 & E1 & A1). pose proof (at_lines_fuel _ _ A1) as Hf1. rewrite app_length in Hf1.
    destruct (payload_at _ _ (fuel_of p1) [] _ A1 HF ltac:(lia) Htail) as (p2 & E2 & A2). exists p2. split; [|exact A2]. intros q0.
    unfold Parse. rewrite E1. cbn [obind]. change (negb (0 =? 0)) with false. cbv iota.
    destruct (timings_run _ _ _ _ (mkCueV [] (q_start q0) (q_stop q0) (q_settings q0) (q_payload q0)) HT) as (a & -> & E3). cbn [obind]. change (negb (0 =? 0)) with false. cbv iota. rewrite E3. cbn [obind]. change (negb (0 =? 0)) with false. cbv iota.
    rewrite E2. cbn [obind app]. change (negb (0 =? 0)) with false. cbv iota. cbn [q_id q_start q_stop q_settings]. destruct q as [qi qa qb qs qp]. cbn in *. subst qi. destruct qp; [congruence|reflexivity].
  - destruct (first_line_at _ _ (fuel_of p) _ _ HA Hid ltac:(lia)) as (p1 & E1 & A1). destruct (GetLine_at _ _ _ A1) as (p2 & E2 & A2). pose proof (at_lines_fuel _ _ A2) as Hf2. rewrite app_length in Hf2.
    destruct (payload_at _ _ (fuel_of p2) [] _ A2 HF ltac:(lia) Htail) as (p3 & E3 & A3). exists p3. split; [|exact A3]. intros q0.
    unfold Parse. rewrite E1. cbn [obind]. change (negb (0 =? 0)) with false. cbv iota. unfold find_arrow at 1. rewrite find_none by exact Hno. rewrite E2. cbn [obind]. change (0 <? 0) with false. change (0 >? 0) with false. cbv iota.
    destruct (timings_run _ _ _ _ (mkCueV (q_id q) (q_start q0) (q_stop q0) (q_settings q0) (q_payload q0)) HT) as (a & -> & E4). cbn [obind]. change (negb (0 =? 0)) with false. cbv iota. rewrite E4. cbn [obind]. change (negb (0 =? 0)) with false. cbv iota.
    rewrite E3. cbn [obind app]. change (negb (0 =? 0)) with false. cbv iota. cbn [q_id q_start q_stop q_settings]. destruct q as [qi qa qb qs qp]. cbn in *. destruct qp; [congruence|reflexivity].
Qed.

Lemma doc_yields : forall ls qs, cue_doc scaled ls qs -> forall n p, at_lines p (repeat [] n ++ ls) -> yields p qs.
Proof.
  intros ls qs H. induction H as [|ls cs H IH|b q ls cs HB H IH|b q HB]; intros n p HA.
  - constructor. intros q. rewrite app_nil_r in HA. pose proof (at_lines_fuel _ _ HA) as Hf. rewrite repeat_length in Hf. destruct (first_line_end n p (fuel_of p) HA Hf) as (p' & E). unfold Parse. rewrite E. cbn [obind]. change (negb (1 =? 0)) with true. cbv iota. eauto.
  - apply (IH (S n)). replace (repeat [] (S n) ++ ls) with (repeat [] n ++ [] :: ls); [exact HA|]. clear. induction n; cbn [repeat app] in *; [reflexivity|]. f_equal. exact IHn.
  - destruct (Parse_block p n b q ([] :: ls) HA HB ltac:(eauto)) as (p' & HP & A'). apply (yi_cue _ _ _ p' HP). apply (IH 0%nat). exact A'.
  - rewrite <- (app_nil_r b) in HA. destruct (Parse_block p n b q [] HA HB ltac:(auto)) as (p' & HP & A'). apply (yi_cue _ _ _ p' HP). constructor. intros q0. cbn [tl] in A'. pose proof (at_lines_fuel _ _ A') as Hf.
    destruct (first_line_end 0 p' (fuel_of p') A' ltac:(cbn in Hf; lia)) as (p2 & E). unfold Parse. rewrite E. cbn [obind]. change (negb (1 =? 0)) with true. cbv iota. eauto.
Qed.

Lemma match_id_run : forall id p r, reads p (id ++ r) -> exists p', match_id id p = (0, p') /\ reads p' r.
Proof.
  induction id as [|b id IH]; intros p r HR; cbn [match_id]; [eauto|]. pose proof (GetChar_pending p) as HG. unfold reads in HR. rewrite HR in HG. cbn [map app] in HG. destruct HG as (p1 & -> & H1 & _).
  change (0 <? 0) with false. change (0 >? 0) with false. rewrite Z.eqb_refl. cbn [negb]. apply IH. exact H1.
Qed.
Lemma ParseBOM_run : forall bom first p r, reads p (bom ++ r) -> exists p', ParseBOM_loop first bom p = (0, p') /\ reads p' r.
Proof.
  induction bom as [|b id IH]; intros first p r HR; cbn [ParseBOM_loop]; [eauto|]. pose proof (GetChar_pending p) as HG. unfold reads in HR. rewrite HR in HG. cbn [map app] in HG. destruct HG as (p1 & -> & H1 & _).
  change (0 <? 0) with false. change (0 >? 0) with false. rewrite Z.eqb_refl. cbn [negb]. apply IH. exact H1.
Qed.
Lemma ParseBOM_none : forall p c r, reads p (c :: r) -> 0 <= c -> c <> 239 -> exists p', ParseBOM p = (0, p') /\ reads p' (c :: r).
Proof.
  intros p c r HR Hc Hne. unfold ParseBOM, kBOM. cbn [ParseBOM_loop]. pose proof (GetChar_pending p) as HG. unfold reads in HR. rewrite HR in HG. cbn [map app] in HG. destruct HG as (p1 & -> & H1 & Hu).
  change (0 <? 0) with false. change (0 >? 0) with false. cbv iota. replace (c =? 239) with false by lia. cbn [negb]. eexists. split; [reflexivity|]. unfold reads. rewrite (unget_pending p1 c Hu Hc), H1. reflexivity.
Qed.

Theorem file_yields : forall file qs, vtt_file scaled file qs -> exists p, Init (new_parser (map Ch file)) = Val (0, p) /\ yields p qs.
Proof.
  intros file qs (bom & txt & lines & -> & Hbom & HT & HP & HL).
  assert (HB : exists p, ParseBOM (new_parser (map Ch (bom ++ [87; 69; 66; 86; 84; 84] ++ txt))) = (0, p) /\ reads p ([87; 69; 66; 86; 84; 84] ++ txt)).
  { destruct Hbom as [->| ->]; [apply ParseBOM_none; [reflexivity|lia|lia]|]. apply (ParseBOM_run kBOM true). reflexivity. }
  destruct HB as (p1 & E1 & R1). destruct (match_id_run kWebvttId p1 txt R1) as (p2 & E2 & R2). assert (A2 : at_lines p2 lines) by (exists txt; auto).
  assert (HE : forall p, at_lines p [] -> yields p []). { intros p HA. apply (doc_yields [] [] ltac:(constructor) 0 p). exact HA. }
  unfold Init. rewrite E1. change (0 <? 0) with false. change (0 >? 0) with false. cbv iota. rewrite E2. change (negb (0 =? 0)) with false. cbv iota.
  destruct lines as [|head [|l body]].
  - subst qs. rewrite (GetLine_at_end _ A2). cbn [obind]. change (1 <? 0) with false. change (1 >? 0) with true. cbv iota. eauto.
  - destruct HL as [Hh ->]. destruct (GetLine_at _ _ _ A2) as (p3 & -> & A3). cbn [obind]. change (0 <? 0) with false. change (0 >? 0) with false. cbv iota.
    replace (match head with [] => false | c :: _ => negb (c =? kSPACE) && negb (c =? kTAB) end) with false by (destruct Hh as [->|(c & t & -> & [->| ->])]; reflexivity).
    rewrite (GetLine_at_end _ A3). cbn [obind]. change (1 <? 0) with false. change (1 >? 0) with true. cbv iota. eauto.
  - destruct HL as [Hh [-> HD]]. destruct (GetLine_at _ _ _ A2) as (p3 & -> & A3). cbn [obind]. change (0 <? 0) with false. change (0 >? 0) with false. cbv iota.
    replace (match head with [] => false | c :: _ => negb (c =? kSPACE) && negb (c =? kTAB) end) with false by (destruct Hh as [->|(c & t & -> & [->| ->])]; reflexivity).
    destruct (GetLine_at _ _ _ A3) as (p4 & -> & A4). cbn [obind]. change (0 <? 0) with false. change (0 >? 0) with false. cbv iota. exists p4. split; [reflexivity|]. apply (doc_yields _ _ HD 0). exact A4.
Qed.

(* ---------- lines ---------- *)
Lemma at_lines_read : forall ls p, at_lines p ls -> line_by_line p ls.
Proof.
  induction ls as [|l ls IH]; intros p HA; [constructor; rewrite (GetLine_at_end p HA); eauto|].
  destruct (GetLine_at _ _ _ HA) as (p' & E & A'). exact (ll_line _ _ _ _ E (IH _ A')).
Qed.
Lemma text_lines_exist : forall n txt, (length txt <= n)%nat -> exists ls, text_lines txt ls.
Proof.
  induction n as [|n IH]; intros txt Hn; [destruct txt; [exists []; constructor|cbn in Hn; lia]|].
  assert (HS : (txt = [] \/ (txt <> [] /\ no_eol txt)) \/ exists l c r, txt = l ++ c :: r /\ no_eol l /\ (c = 10 \/ c = 13)).
  { clear Hn. induction txt as [|c txt IHt]; [left; left; reflexivity|]. destruct (Z.eq_dec c 10) as [->|N1]; [right; exists [], 10, txt; repeat split; [constructor|auto]|].
    destruct (Z.eq_dec c 13) as [->|N2]; [right; exists [], 13, txt; repeat split; [constructor|auto]|].
    destruct IHt as [[->|[_ H]]|(l & d & r & -> & H1 & H2)]; [left; right; split; [discriminate|repeat constructor; assumption]|left; right; split; [discriminate|constructor; auto]|].
    right. exists (c :: l), d, r. repeat split; [constructor; auto|assumption]. }
  destruct HS as [[->|[Hne H]]|(l & c & r & -> & Hl & Hc)]; [exists []; constructor|exists [txt]; constructor; assumption|].
  rewrite app_length in Hn. cbn [length] in Hn. destruct Hc as [->| ->].
  - destruct (IH r ltac:(lia)) as (ls & H). exists (l :: ls). exact (tl_lf l r ls Hl H).
  - destruct r as [|d r].
    + exists [l]. apply (tl_cr l [] [] Hl); [discriminate|constructor].
    + destruct (Z.eq_dec d 10) as [->|Nd].
      * cbn [length] in Hn. destruct (IH r ltac:(lia)) as (ls & H). exists (l :: ls). exact (tl_crlf l r ls Hl H).
      * destruct (IH (d :: r) ltac:(lia)) as (ls & H). exists (l :: ls). apply (tl_cr l (d :: r) ls Hl); [congruence|exact H].
Qed.
Lemma split_eol : forall l l' c c' r r', no_eol l -> no_eol l' -> l ++ c :: r = l' ++ c' :: r' -> c = 10 \/ c = 13 -> c' = 10 \/ c' = 13 -> l = l' /\ c = c' /\ r = r'.
Proof.
  induction l as [|x l IH]; intros [|x' l'] c c' r r' H H' E Hc Hc'; cbn [app] in E; inversion E; subst.
  - auto.
  - inversion H'; subst. lia.
  - inversion H; subst. lia.
  - inversion H; inversion H'; subst. destruct (IH l' c c' r r') as (-> & -> & ->); auto.
Qed.
Lemma no_eol_in : forall l c r x, no_eol l -> l = x ++ c :: r -> c = 10 \/ c = 13 -> False.
Proof. intros l c r x H -> Hc. apply Forall_app in H. destruct H as [_ H]. inversion H; subst. lia. Qed.
Lemma text_lines_unique' : forall txt ls, text_lines txt ls -> forall txt' ls', text_lines txt' ls' -> txt = txt' -> ls' = ls.
Proof.
  assert (N : forall l c r, [] = l ++ c :: r :> list Z -> False) by (intros [|] c r; discriminate).
  intros txt ls H. induction H as [|l Hne Hl|l r ls Hl H IH|l r ls Hl H IH|l r ls Hl Hx H IH]; intros txt' ls' H' E;
    destruct H' as [|l' Hne' Hl'|l' r' ls1 Hl' H1|l' r' ls1 Hl' H1|l' r' ls1 Hl' Hx' H1]; cbn [app] in E;
    try (exfalso; apply (N _ _ _ E)); try (exfalso; symmetry in E; apply (N _ _ _ E)); try reflexivity; try congruence;
    try (exfalso; apply (no_eol_in _ _ _ _ Hl E); lia); try (exfalso; apply (no_eol_in _ _ _ _ Hl' (eq_sym E)); lia);
    destruct (split_eol _ _ _ _ _ _ Hl Hl' E ltac:(lia) ltac:(lia)) as (-> & Hc & Hr); try lia.
  - f_equal. apply (IH r'); assumption.
  - injection Hr as Hr. f_equal. apply (IH r'); assumption.
  - exfalso. symmetry in Hr. exact (Hx' _ Hr).
  - exfalso. exact (Hx _ Hr).
  - f_equal. apply (IH r'); assumption.
Qed.
Lemma text_lines_unique : forall txt ls, text_lines txt ls -> forall ls', text_lines txt ls' -> ls' = ls.
Proof. intros txt ls H ls' H'. exact (text_lines_unique' txt ls H txt ls' H' eq_refl). Qed.

(* a line with a byte FE or FF, or of more than 10000 bytes *)
Lemma bad_prefix : forall l k, 0 <= k <= 10000 -> Forall (fun c => 0 <= c < 256) l -> ~ (Forall plain_char l /\ k + zlen l <= 10000) ->
  exists a c b, l = a ++ c :: b /\ Forall plain_char a /\ k + zlen a <= 10000 /\ (254 <= c < 256 \/ k + zlen a = 10000).
Proof.
  induction l as [|c l IH]; intros k Hk HB HN.
  - exfalso. apply HN. split; [constructor|]. change (zlen (@nil Z)) with 0. lia.
  - inversion HB; subst. destruct (Z_lt_dec c 254) as [Hc|Hc]; [|exists [], c, l; repeat split; [constructor|change (zlen (@nil Z)) with 0; lia|left; lia]].
    destruct (Z.eq_dec k 10000) as [->|Hk']; [exists [], c, l; repeat split; [constructor|change (zlen (@nil Z)) with 0; lia|right; reflexivity]|].
    destruct (IH (k + 1) ltac:(lia) ltac:(assumption)) as (a & d & b & -> & Ha & Hl & Hd).
    { intros [Q1 Q2]. apply HN. rewrite zlen_cons. split; [constructor; [unfold plain_char; lia|assumption]|lia]. }
    exists (c :: a), d, b. rewrite zlen_cons. repeat split; [constructor; [unfold plain_char; lia|assumption]|lia|]. destruct Hd; [left; lia|right; lia].
Qed.
Lemma GetLine_bad : forall p l r, reads p (l ++ r) -> no_eol l -> Forall (fun c => 0 <= c < 256) l -> ~ plain_line l -> exists ln p', GetLine p = Val (-1, ln, p').
Proof.
  intros p l r HR HE HB HN. destruct (bad_prefix l 0 ltac:(lia) HB HN) as (a & c & b & -> & Ha & Hl & Hc).
  rewrite <- app_assoc in HR. cbn [app] in HR. apply Forall_app in HE. destruct HE as [HEa HEc]. apply Forall_app in HB. destruct HB as [_ HBc]. inversion HEc; inversion HBc; subst.
  unfold GetLine. pose proof (pending_len p) as HP. assert (HPl : length (pending p) = (length a + length (c :: b ++ r))%nat) by (rewrite HR, map_length, app_length; reflexivity). cbn [length] in HPl.
  destruct (GetLine_loop_text a p [] (c :: b ++ r) (S (S (length (p_in p)))) HR Ha HEa ltac:(change (zlen (@nil Z)) with 0; lia) ltac:(lia)) as (p1 & -> & H9 & _ & _).
  assert (Hlt : (0 < S (S (length (p_in p))) - length a)%nat) by lia. destruct (S (S (length (p_in p))) - length a)%nat as [|fuel]; [lia|]. cbn [GetLine_loop app].
  pose proof (GetChar_pending p1) as HG. unfold reads in H9. rewrite H9 in HG. cbn [map] in HG. destruct HG as (p2 & -> & _ & _). change (0 <? 0) with false. change (0 >? 0) with false. cbv iota.
  replace (c =? kLF) with false by (unfold kLF; lia). replace (c =? kCR) with false by (unfold kCR; lia).
  destruct ((c =? 254) || (c =? 255)) eqn:Ec; [cbn [obind]; eauto|]. replace (zlen a >=? kMaxLineLength) with true by (unfold kMaxLineLength; lia). cbn [obind]. eauto.
Qed.
Lemma text_lines_head : forall txt l ls, text_lines txt (l :: ls) -> no_eol l /\ exists r, txt = l ++ r.
Proof. intros txt l ls H. inversion H; subst; (split; [assumption|]); [exists []; rewrite app_nil_r; reflexivity|eauto..]. Qed.
Lemma GetLine_any : forall p txt l ls, reads p txt -> text_lines txt (l :: ls) -> Forall (fun c => 0 <= c < 256) txt -> plain_line l ->
  exists p' txt', GetLine p = Val (0, l, p') /\ reads p' txt' /\ text_lines txt' ls /\ Forall (fun c => 0 <= c < 256) txt'.
Proof.
  intros p txt l ls HR HT HB HL. 
  assert (K : forall l e r, reads p (l ++ e ++ r) -> plain_line l -> no_eol l -> eol_of e r -> Forall (fun c => 0 <= c < 256) r -> exists p', GetLine p = Val (0, l, p') /\ reads p' r).
  { clear. intros l e r HR (HC & HL) HE He Hr. unfold GetLine. pose proof (pending_len p) as HP. assert (HPl : length (pending p) = (length l + length (e ++ r))%nat) by (rewrite HR, map_length, app_length; reflexivity).
    destruct (GetLine_loop_text l p [] (e ++ r) (S (S (length (p_in p)))) HR HC HE ltac:(change (zlen (@nil Z)) with 0; lia) ltac:(lia)) as (p1 & -> & H1 & _ & _).
    assert (Hlt : (0 < S (S (length (p_in p))) - length l)%nat) by lia. destruct (S (S (length (p_in p))) - length l)%nat as [|fuel]; [lia|]. cbn [GetLine_loop app].
    pose proof (GetChar_pending p1) as HG. unfold reads in H1. rewrite H1 in HG. destruct He as [->|[->|[-> Hx]]]; cbn [map app] in HG; destruct HG as (p2 & -> & H2 & Hu); change (0 <? 0) with false; change (0 >? 0) with false; cbv iota.
    - change (10 =? kLF) with true. cbv iota. cbn [obind]. exists p2. auto.
    - change (13 =? kLF) with false. change (13 =? kCR) with true. cbv iota. cbn [obind]. pose proof (GetChar_pending p2) as HG2. rewrite H2 in HG2. destruct HG2 as (p3 & -> & H3 & _).
      change (0 <? 0) with false. change (0 >? 0) with false. change (10 =? kLF) with true. cbv iota. cbn [negb]. exists p3. auto.
    - change (13 =? kLF) with false. change (13 =? kCR) with true. cbv iota. cbn [obind]. pose proof (GetChar_pending p2) as HG2. rewrite H2 in HG2. destruct r as [|c r]; cbn [map] in HG2.
      + rewrite HG2. cbn. exists p2. auto.
      + destruct HG2 as (p3 & -> & H3 & Hu3). change (0 <? 0) with false. change (0 >? 0) with false. cbv iota.
        assert (c <> 10) by (intros ->; apply (Hx r); reflexivity). replace (c =? kLF) with false by (unfold kLF; lia). cbn [negb]. eexists. split; [reflexivity|].
        unfold reads. inversion Hr; subst. rewrite (unget_pending p3 c Hu3) by lia. rewrite H3. reflexivity. }
  inversion HT as [|l' Hne HE|l' r ls' HE HT'|l' r ls' HE HT'|l' r ls' HE Hx HT']; subst; rewrite ?Forall_app in HB.
  - destruct (GetLine_last p l HR Hne HL HE) as (p' & E & R). exists p', []. repeat split; try assumption; constructor.
  - destruct HB as (_ & _ & HB). destruct (K l [10] r HR HL HE (or_introl eq_refl) HB) as (p' & E & R). exists p', r. auto.
  - destruct HB as (_ & _ & HB). destruct (K l [13; 10] r HR HL HE (or_intror (or_introl eq_refl)) HB) as (p' & E & R). exists p', r. auto.
  - destruct HB as (_ & _ & HB). destruct (K l [13] r HR HL HE (or_intror (or_intror (conj eq_refl Hx))) HB) as (p' & E & R). exists p', r. auto.
Qed.
Lemma lines_error : forall good p txt bad ls, reads p txt -> text_lines txt (good ++ bad :: ls) -> Forall (fun c => 0 <= c < 256) txt -> Forall plain_line good -> ~ plain_line bad -> lines_then_error p good.
Proof.
  induction good as [|l good IH]; intros p txt bad ls HR HT HB HG HN; cbn [app] in HT.
  - destruct (text_lines_head _ _ _ HT) as (HE & r & ->). apply Forall_app in HB. destruct (GetLine_bad p bad r HR HE (proj1 HB) HN) as (ln & p' & E). exact (le_end _ _ _ _ E ltac:(lia)).
  - inversion HG; subst. destruct (GetLine_any p txt l _ HR HT HB ltac:(assumption)) as (p' & txt' & E & R & T & B). exact (le_line _ _ _ _ E (IH p' txt' bad ls R T B ltac:(assumption) HN)).
Qed.

(* ---------- times ---------- *)
Lemma s64_ok : forall v, - 2 ^ 63 <= v < 2 ^ 63 -> s64 v = Val v.
Proof. intros v H. unfold s64. replace ((- 2 ^ 63 <=? v) && (v <? 2 ^ 63)) with true by lia. reflexivity. Qed.
Lemma presentation_any : forall t, any_time t -> presentation t = Val (millis t).
Proof.
  intros t (H1 & H2 & H3 & H4). unfold is_int, presentation, millis in *.
  rewrite s64_ok by lia. cbn [obind]. rewrite s64_ok by lia. cbn [obind]. rewrite s64_ok by lia. cbn [obind]. rewrite s64_ok by lia. cbn [obind]. rewrite s64_ok by lia. cbn [obind]. rewrite s64_ok by lia. f_equal. lia.
Qed.
Lemma proper_any : forall t, proper t -> any_time t.
Proof. intros t. unfold proper, any_time, is_int. lia. Qed.
Lemma of_presentation_ok : forall d, 0 <= d <= 2147483999 -> exists t, of_presentation d = Val t /\ proper t /\ millis t = d.
Proof.
  intros d H. unfold of_presentation. replace (d <? 0) with false by lia. rewrite Z.quot_div_nonneg by lia.
  assert (Hq : 0 <= d / 1000 <= 2147483) by (pose proof (Z.div_mod d 1000 ltac:(lia)); pose proof (Z.mod_pos_bound d 1000 ltac:(lia)); lia).
  assert (C : forall v, 0 <= v < 2147483648 -> cast_int v = v). { intros v Hv. unfold cast_int. rewrite Z.mod_small by lia. cbv zeta. replace (v <? 2 ^ 31) with true by lia. reflexivity. }
  rewrite C by lia. unfold s32. replace ((- 2 ^ 31 <=? 1000 * (d / 1000)) && (1000 * (d / 1000) <? 2 ^ 31)) with true by lia. cbn [obind].
  pose proof (Z.div_mod d 1000 ltac:(lia)) as Hd. pose proof (Z.mod_pos_bound d 1000 ltac:(lia)) as Hm. rewrite s64_ok by lia. cbn [obind]. rewrite C by lia.
  rewrite Z.quot_div_nonneg by lia. set (s := d / 1000) in *. pose proof (Z.div_mod s 60 ltac:(lia)) as Hs. pose proof (Z.mod_pos_bound s 60 ltac:(lia)) as Hs2.
  assert (Hmn : 0 <= s / 60) by (apply Z.div_pos; lia). rewrite Z.quot_div_nonneg by lia. set (m := s / 60) in *. pose proof (Z.div_mod m 60 ltac:(lia)) as Hm3. pose proof (Z.mod_pos_bound m 60 ltac:(lia)) as Hm4.
  assert (Hh : 0 <= m / 60) by (apply Z.div_pos; lia).
  eexists. split; [reflexivity|]. unfold proper, millis. cbn [t_h t_m t_s t_ms]. split; [|lia]. repeat split; lia.
Qed.
Lemma proper_order : forall a b, proper a -> proper b -> time_lt a b = (millis a <? millis b) /\ time_eq a b = (millis a =? millis b).
Proof.
  intros a b (A1 & A2 & A3 & A4) (B1 & B2 & B3 & B4). unfold time_lt, time_eq, millis. destruct a as [ah am as_ ams], b as [bh bm bs bms]. cbn [t_h t_m t_s t_ms] in *. split.
  - destruct (ah <? bh) eqn:E1; [lia|]. destruct (ah >? bh) eqn:E2; [lia|]. assert (ah = bh) by lia. subst. destruct (am <? bm) eqn:E3; [lia|]. destruct (am >? bm) eqn:E4; [lia|]. assert (am = bm) by lia. subst.
    destruct (as_ <? bs) eqn:E5; [lia|]. destruct (as_ >? bs) eqn:E6; [lia|]. lia.
  - destruct (ah =? bh) eqn:E1; cbn [negb]; [|lia]. destruct (am =? bm) eqn:E2; cbn [negb]; [|lia]. destruct (as_ =? bs) eqn:E3; cbn [negb]; [|lia]. lia.
Qed.
Lemma proper_unique : forall a b, proper a -> proper b -> millis a = millis b -> a = b.
Proof. intros [a1 a2 a3 a4] [b1 b2 b3 b4]. unfold proper, millis. cbn. intros. assert (a1 = b1 /\ a2 = b2 /\ a3 = b3 /\ a4 = b4) as (-> & -> & -> & ->) by lia. reflexivity. Qed.

(* the times the parser accepts are proper *)
Lemma number_nonneg : forall ds n, number ds n -> 0 <= n.
Proof.
  intros ds n (_ & H & <- & _). unfold decimal. assert (K : forall l a, Forall digit l -> 0 <= a -> 0 <= fold_left (fun a c => 10 * a + (c - 48)) l a).
  { induction l as [|c l IH]; intros a HF Ha; cbn [fold_left]; [exact Ha|]. inversion HF; subst. apply IH; [assumption|]. unfold digit in *. lia. }
  apply K; [exact H|lia].
Qed.
Lemma clock_proper : forall x h m s, clock x h m s -> 0 <= h <= 2147483647 /\ 0 <= m < 60 /\ 0 <= s < 60.
Proof.
  intros x h m s H. destruct H as [a b c h m s Ha Hb Hc H1 H2|a b m s Ha Hb H1 H2|a n Ha].
  - pose proof (number_nonneg _ _ Ha). pose proof (number_nonneg _ _ Hb). pose proof (number_nonneg _ _ Hc). destruct Ha as (_ & _ & _ & Ha). lia.
  - pose proof (number_nonneg _ _ Ha). pose proof (number_nonneg _ _ Hb). lia.
  - pose proof (number_nonneg _ _ Ha). destruct Ha as (_ & _ & _ & Ha). pose proof (Z.mod_pos_bound (n / 60) 60 ltac:(lia)). pose proof (Z.mod_pos_bound n 60 ltac:(lia)). split; [|lia]. split; [apply Z.div_pos; lia|apply Z.div_le_upper_bound; lia].
Qed.
Lemma stamp_proper : forall x t, stamp scaled x t -> proper t.
Proof.
  intros x t H. destruct H as [x h m s HC|x f h m s ms HC (v & Hv & Hv2 & ->)]; pose proof (clock_proper _ _ _ _ HC); unfold proper; cbn [t_h t_m t_s t_ms]; [lia|].
  pose proof (number_nonneg _ _ Hv). destruct (v <? 10) eqn:E; [lia|]. destruct (v <? 100) eqn:E2; lia.
Qed.

(* the standard's fractions the parser reads right *)
Lemma plain_scaled : forall f ms, plain_fraction f ms -> scaled f ms.
Proof.
  intros f ms ((HL & HD & ->) & H). exists (decimal f). assert (HB : 0 <= decimal f <= 999).
  { destruct f as [|a [|b [|c [|]]]]; cbn in HL; try lia. inversion HD as [|? ? Ha HD1]; inversion HD1 as [|? ? Hb HD2]; inversion HD2 as [|? ? Hc HD3]; subst. unfold digit, decimal in *. cbn [fold_left]. lia. }
  split; [split; [destruct f; [cbn in HL; lia|discriminate]|split; [exact HD|split; [reflexivity|lia]]]|]. split; [lia|]. destruct (decimal f <? 10) eqn:E; [lia|]. destruct (decimal f <? 100) eqn:E2; lia.
Qed.
Lemma scaled_plain : forall f ms, thousandths f ms -> (scaled f ms <-> plain_fraction f ms).
Proof.
  intros f ms HT. split; [|apply plain_scaled]. intros (v & (_ & _ & <- & _) & H1 & H2). pose proof HT as (_ & _ & Hms). split; [exact HT|].
  assert (0 <= decimal f) by (destruct HT as (A & B & _); apply (number_nonneg f); split; [destruct f; [cbn in A; lia|discriminate]|]; repeat split; [exact B|lia]).
  rewrite <- Hms in *. destruct (ms <? 10) eqn:E; [lia|]. destruct (ms <? 100) eqn:E2; lia.
Qed.
Lemma stamp_weaken : forall (P Q : list Z -> Z -> Prop), (forall f ms, P f ms -> Q f ms) -> forall x t, stamp P x t -> stamp Q x t.
Proof. intros P Q H x t HS. destruct HS; constructor; auto. Qed.
Lemma timings_weaken : forall (P Q : list Z -> Z -> Prop), (forall f ms, P f ms -> Q f ms) -> forall l a b ss, timings_line P l a b ss -> timings_line Q l a b ss.
Proof. intros P Q H l a b ss (b1 & s1 & b2 & b3 & s2 & st & H1 & H2 & H3 & H4 & H5 & H6 & H7). exists b1, s1, b2, b3, s2, st. repeat split; try assumption; apply (stamp_weaken P Q H); assumption. Qed.
Lemma block_weaken : forall (P Q : list Z -> Z -> Prop), (forall f ms, P f ms -> Q f ms) -> forall b q, cue_block P b q -> cue_block Q b q.
Proof. intros P Q H b q (ids & tline & pl & H1 & H2 & H3 & H4). exists ids, tline, pl. split; [exact H1|]. split; [exact H2|]. split; [apply (timings_weaken P Q H); exact H3|exact H4]. Qed.
Lemma doc_weaken : forall (P Q : list Z -> Z -> Prop), (forall f ms, P f ms -> Q f ms) -> forall ls qs, cue_doc P ls qs -> cue_doc Q ls qs.
Proof. intros P Q H ls qs HD. pose proof (block_weaken P Q H) as HB. induction HD; constructor; auto. Qed.
Lemma file_weaken : forall (P Q : list Z -> Z -> Prop), (forall f ms, P f ms -> Q f ms) -> forall f qs, vtt_file P f qs -> vtt_file Q f qs.
Proof.
  intros P Q H f qs (bom & txt & lines & H1 & H2 & H3 & H4 & H5). exists bom, txt, lines. repeat split; try assumption. destruct lines as [|h [|l b]]; [exact H5..|]. destruct H5 as (A & B & C). repeat split; try assumption. exact (doc_weaken P Q H _ _ C).
Qed.
