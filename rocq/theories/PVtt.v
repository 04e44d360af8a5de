(* Proofs about the WebVTT parser model. *)
From Coq Require Import ZifyBool ZifyNat.
From Verif Require Import Base MVtt VttSpec.

Lemma zlen_app : forall {A} (a b : list A), zlen (a ++ b) = zlen a + zlen b.
Proof. intros. unfold zlen. rewrite app_length. lia. Qed.
Lemma zlen_cons : forall {A} (x : A) l, zlen (x :: l) = 1 + zlen l.
Proof. intros. unfold zlen. cbn [length]. lia. Qed.
Lemma zlen_nonneg : forall {A} (l : list A), 0 <= zlen l.
Proof. intros. unfold zlen. lia. Qed.

(* ---------- indexing ---------- *)
Definition hd0 (l : list Z) : Z := match l with [] => 0 | c :: _ => c end.
Lemma at_app : forall pre l, at_ (pre ++ l) (zlen pre) = Val (hd0 l).
Proof.
  intros pre l. unfold at_. rewrite zlen_app. destruct l as [|c l].
  - replace ((0 <=? zlen pre) && (zlen pre <? zlen pre + zlen (@nil Z))) with false by (unfold zlen; cbn; lia).
    replace (zlen pre =? zlen pre + zlen (@nil Z)) with true by (unfold zlen; cbn; lia). reflexivity.
  - rewrite zlen_cons. pose proof (zlen_nonneg pre). pose proof (zlen_nonneg l).
    replace ((0 <=? zlen pre) && (zlen pre <? zlen pre + (1 + zlen l))) with true by lia.
    unfold zlen at 1. rewrite Nat2Z.id, app_nth2, Nat.sub_diag by lia. reflexivity.
Qed.
Lemma split_at : forall (line : list Z) i, 0 <= i <= zlen line -> exists pre l, line = pre ++ l /\ i = zlen pre.
Proof.
  intros line i H. exists (firstn (Z.to_nat i) line), (skipn (Z.to_nat i) line). split; [symmetry; apply firstn_skipn|].
  unfold zlen in *. rewrite firstn_length. lia.
Qed.

(* ---------- numbers ---------- *)
Fixpoint digits (l : list Z) : list Z := match l with c :: r => if isdigit c then c :: digits r else [] | [] => [] end.
Fixpoint after (l : list Z) : list Z := match l with c :: r => if isdigit c then after r else l | [] => [] end.
Lemma digits_after : forall l, l = digits l ++ after l.
Proof. induction l as [|c r IH]; [reflexivity|]. cbn [digits after]. destruct (isdigit c); [cbn [app]; rewrite <- IH|]; reflexivity. Qed.
Lemma digits_ok : forall l, Forall digit (digits l).
Proof.
  induction l as [|c r IH]; [constructor|]. cbn [digits]. destruct (isdigit c) eqn:E; [|constructor]. constructor; [|exact IH].
  unfold isdigit in E. unfold digit. lia.
Qed.
Lemma after_hd : forall l, isdigit (hd0 (after l)) = false.
Proof. induction l as [|c r IH]; [reflexivity|]. cbn [after]. destruct (isdigit c) eqn:E; [exact IH|exact E]. Qed.
Lemma digits_app : forall ds r, Forall digit ds -> isdigit (hd0 r) = false -> digits (ds ++ r) = ds /\ after (ds ++ r) = r.
Proof.
  intros ds r H Hr. induction H as [|c ds Hc H IH]; cbn [app digits after].
  - destruct r as [|c r]; [auto|]. cbn [hd0] in Hr. cbn [digits after]. rewrite Hr. auto.
  - replace (isdigit c) with true by (unfold isdigit, digit in *; lia). destruct IH as [-> ->]. auto.
Qed.

Definition dec_from (a : Z) (ds : list Z) : Z := fold_left (fun a c => 10 * a + (c - 48)) ds a.
Lemma dec_from_ge : forall ds a, Forall digit ds -> 0 <= a -> a <= dec_from a ds.
Proof.
  induction ds as [|c ds IH]; intros a H Ha; cbn [dec_from fold_left]; [lia|]. inversion H; subst. unfold digit in *.
  change (a <= dec_from (10 * a + (c - 48)) ds). specialize (IH (10 * a + (c - 48))). lia.
Qed.

Lemma number_loop_run : forall l pre fuel r, 0 <= r <= INT_MAX -> (length l < fuel)%nat ->
  exists idx, number_loop fuel (pre ++ l) (zlen pre) r =
    Val (if dec_from r (digits l) <=? INT_MAX then dec_from r (digits l) else -1, idx) /\
    0 <= idx <= zlen (pre ++ l) /\ (dec_from r (digits l) <= INT_MAX -> idx = zlen (pre ++ digits l)).
Proof.
  unfold INT_MAX. induction l as [|c l IH]; intros pre fuel r Hr Hf; (destruct fuel as [|fuel]; [cbn in Hf; lia|]); cbn [number_loop]; rewrite at_app; cbn [obind hd0 digits].
  - change (isdigit 0) with false. cbn [negb dec_from fold_left]. replace (r <=? 2147483647) with true by lia. exists (zlen pre). rewrite app_nil_r. split; [reflexivity|]. pose proof (zlen_nonneg pre). split; [lia|auto].
  - destruct (isdigit c) eqn:Ec; cbn [negb].
    2:{ cbn [dec_from fold_left]. replace (r <=? 2147483647) with true by lia. exists (zlen pre). rewrite app_nil_r. split; [reflexivity|].
        rewrite zlen_app. pose proof (zlen_nonneg pre). pose proof (zlen_nonneg (c :: l)). split; [lia|auto]. }
    assert (Hc : 48 <= c <= 57) by (unfold isdigit in Ec; lia). pose proof (digits_ok l) as HD.
    cbn [dec_from fold_left]. change (fold_left (fun a c => 10 * a + (c - 48)) (digits l) (10 * r + (c - 48))) with (dec_from (10 * r + (c - 48)) (digits l)).
    pose proof (dec_from_ge (digits l) (10 * r + (c - 48)) HD ltac:(lia)) as HG. unfold INT_MAX.
    assert (Hb : 0 <= zlen pre <= zlen (pre ++ c :: l)) by (rewrite zlen_app; pose proof (zlen_nonneg pre); pose proof (zlen_nonneg (c :: l)); lia).
    change (2147483647 / 10) with 214748364.
    destruct (r >? 214748364) eqn:E1.
    { replace (dec_from (10 * r + (c - 48)) (digits l) <=? 2147483647) with false by lia. exists (zlen pre). split; [reflexivity|]. split; [lia|lia]. }
    destruct (r * 10 >? 2147483647 - (c - 48)) eqn:E2.
    { replace (dec_from (10 * r + (c - 48)) (digits l) <=? 2147483647) with false by lia. exists (zlen pre). split; [reflexivity|]. split; [lia|lia]. }
    replace (pre ++ c :: l) with ((pre ++ [c]) ++ l) by (rewrite <- app_assoc; reflexivity).
    replace (zlen pre + 1) with (zlen (pre ++ [c])) by (rewrite zlen_app; reflexivity).
    replace (r * 10 + (c - 48)) with (10 * r + (c - 48)) by lia.
    destruct (IH (pre ++ [c]) fuel (10 * r + (c - 48)) ltac:(lia) ltac:(cbn in Hf; lia)) as (idx & E & H1 & H2).
    exists idx. split; [exact E|]. split; [exact H1|]. intros H. rewrite (H2 H), <- app_assoc. reflexivity.
Qed.

Lemma ParseNumber_run : forall pre l,
  exists idx, ParseNumber (pre ++ l) (zlen pre) =
    Val (if (match digits l with [] => false | _ => decimal (digits l) <=? INT_MAX end) then decimal (digits l) else -1, idx) /\
    0 <= idx <= zlen (pre ++ l) /\ (digits l <> [] -> decimal (digits l) <= INT_MAX -> idx = zlen (pre ++ digits l)).
Proof.
  intros pre l. unfold ParseNumber. pose proof (zlen_nonneg pre) as Hp. pose proof (zlen_nonneg l) as Hl.
  assert (Hb : 0 <= zlen pre <= zlen (pre ++ l)) by (rewrite zlen_app; lia).
  destruct l as [|c l].
  - rewrite app_nil_r. replace (zlen pre >=? zlen pre) with true by lia. exists (zlen pre). cbn [digits]. split; [reflexivity|]. split; [lia|congruence].
  - replace (zlen pre >=? zlen (pre ++ c :: l)) with false by (rewrite zlen_app, zlen_cons; pose proof (zlen_nonneg l); lia).
    rewrite at_app. cbn [obind hd0]. destruct (isdigit c) eqn:Ec; cbn [negb].
    2:{ cbn [digits]. rewrite Ec. exists (zlen pre). split; [reflexivity|]. split; [lia|congruence]. }
    destruct (number_loop_run (c :: l) pre (S (length (pre ++ c :: l))) 0) as (idx & E & H1 & H2).
    { unfold INT_MAX. lia. } { rewrite app_length. cbn [length]. lia. }
    exists idx. change (dec_from 0 (digits (c :: l))) with (decimal (digits (c :: l))) in *. rewrite E. split.
    { cbn [digits]. rewrite Ec. reflexivity. }
    split; [exact H1|auto].
Qed.

(* ParseNumber in terms of the specification *)
Lemma ParseNumber_ok : forall pre ds r n, number ds n -> isdigit (hd0 r) = false ->
  ParseNumber (pre ++ ds ++ r) (zlen pre) = Val (n, zlen (pre ++ ds)).
Proof.
  intros pre ds r n (Hne & HD & Hn & Hle) Hr. destruct (digits_app ds r HD Hr) as [E1 E2].
  destruct (ParseNumber_run pre (ds ++ r)) as (idx & E & _ & H2). rewrite E, E1 in *. rewrite Hn in *. unfold INT_MAX in *.
  destruct ds as [|c ds]; [congruence|]. replace (n <=? 2147483647) with true by lia. rewrite (H2 Hne Hle). reflexivity.
Qed.
Lemma ParseNumber_inv : forall pre l, exists v idx, ParseNumber (pre ++ l) (zlen pre) = Val (v, idx) /\ 0 <= idx <= zlen (pre ++ l) /\
  (v < 0 \/ exists ds r, l = ds ++ r /\ number ds v /\ isdigit (hd0 r) = false /\ idx = zlen (pre ++ ds)).
Proof.
  intros pre l. destruct (ParseNumber_run pre l) as (idx & E & H1 & H2). eexists. exists idx. split; [exact E|]. split; [exact H1|].
  destruct (digits l) as [|c ds] eqn:ED; [left; lia|]. destruct (decimal (c :: ds) <=? INT_MAX) eqn:Ei; [|left; lia].
  right. exists (digits l), (after l). split; [apply digits_after|]. rewrite ED. split; [|split; [apply after_hd|apply H2; [discriminate|lia]]].
  split; [discriminate|]. split; [rewrite <- ED; apply digits_ok|]. unfold INT_MAX in *. split; [reflexivity|lia].
Qed.

Lemma number_nonneg : forall ds n, number ds n -> 0 <= n.
Proof. intros ds n (_ & H & <- & _). exact (dec_from_ge ds 0 H ltac:(lia)). Qed.

(* ---------- blanks ---------- *)
Definition blankb (c : Z) : bool := (c =? kSPACE) || (c =? kTAB).
Lemma blankb_iff : forall c, blankb c = true <-> blank c.
Proof. intros c. unfold blankb, blank, kSPACE, kTAB. lia. Qed.

Lemma skip_blank_run : forall b pre r fuel, Forall blank b -> ~ blank (hd0 r) -> (length b < fuel)%nat ->
  skip_blank fuel (pre ++ b ++ r) (zlen pre) = Val (zlen (pre ++ b)).
Proof.
  induction b as [|c b IH]; intros pre r fuel HB Hr Hf; (destruct fuel as [|fuel]; [cbn in Hf; lia|]); cbn [skip_blank].
  - cbn [app]. rewrite at_app, app_nil_r. cbn [obind]. unfold blank in Hr. unfold kSPACE, kTAB. destruct (hd0 r =? 0); [reflexivity|].
    replace (negb (hd0 r =? 32) && negb (hd0 r =? 9)) with true by lia. reflexivity.
  - rewrite at_app. cbn [obind app hd0]. inversion HB; subst. unfold blank in *. unfold kSPACE, kTAB.
    replace (c =? 0) with false by lia. replace (negb (c =? 32) && negb (c =? 9)) with false by lia.
    replace (pre ++ c :: b ++ r) with ((pre ++ [c]) ++ b ++ r) by (rewrite <- app_assoc; reflexivity).
    replace (zlen pre + 1) with (zlen (pre ++ [c])) by (rewrite zlen_app; reflexivity).
    rewrite IH; [|assumption|assumption|cbn in Hf; lia]. rewrite <- app_assoc. reflexivity.
Qed.
Fixpoint blanks (l : list Z) : list Z := match l with c :: r => if blankb c then c :: blanks r else [] | [] => [] end.
Fixpoint unblank (l : list Z) : list Z := match l with c :: r => if blankb c then unblank r else l | [] => [] end.
Lemma blanks_split : forall l, l = blanks l ++ unblank l /\ Forall blank (blanks l) /\ ~ blank (hd0 (unblank l)).
Proof.
  induction l as [|c r (E & H1 & H2)]; [split; [reflexivity|]; split; [constructor|unfold blank; cbn; lia]|]. cbn [blanks unblank].
  destruct (blankb c) eqn:Eb.
  - split; [cbn [app]; rewrite <- E; reflexivity|]. split; [constructor; [apply blankb_iff; exact Eb|exact H1]|exact H2].
  - split; [reflexivity|]. split; [constructor|]. cbn [hd0]. intros H. apply blankb_iff in H. congruence.
Qed.

(* ---------- times ---------- *)
Lemma stops_hd : forall r, stops r -> isdigit (hd0 r) = false /\ hd0 r <> 58 /\ hd0 r <> 46 /\ (hd0 r = 0 \/ blank (hd0 r)).
Proof. intros [|c r] H; cbn [hd0 stops] in *; unfold isdigit, blank in *; repeat split; lia. Qed.
Lemma hd_stops : forall r, hd0 r = 0 \/ blank (hd0 r) -> stops r.
Proof. intros [|c r] H; cbn [hd0 stops] in *; auto. Qed.

Lemma parse_ms_whole : forall pre r t, stops r ->
  parse_ms (pre ++ r) (zlen pre) t = Val (0, zlen pre, mkTime (t_h t) (t_m t) (t_s t) 0).
Proof.
  intros pre r t Hr. destruct (stops_hd r Hr) as (_ & _ & H2 & H3). unfold parse_ms. rewrite at_app. cbn [obind]. unfold kDOT.
  replace (hd0 r =? 46) with false by lia. cbn [negb obind t_h t_m t_s]. change (negb (0 =? 0)) with false. cbv iota. rewrite at_app. cbn [obind].
  replace (negb (hd0 r =? 0) && negb (hd0 r =? kSPACE) && negb (hd0 r =? kTAB)) with false by (unfold kSPACE, kTAB, blank in *; lia). reflexivity.
Qed.
Lemma parse_ms_frac : forall pre f r t ms, scaled f ms -> stops r ->
  parse_ms (pre ++ [46] ++ f ++ r) (zlen pre) t = Val (0, zlen (pre ++ [46] ++ f), mkTime (t_h t) (t_m t) (t_s t) ms).
Proof.
  intros pre f r t ms (v & Hn & Hv & ->) Hr. destruct (stops_hd r Hr) as (H1 & _ & H2 & H3). pose proof (number_nonneg f v Hn) as H0. unfold parse_ms. rewrite at_app. cbn [obind hd0 app]. unfold kDOT.
  change (46 =? 46) with true. cbn [negb].
  replace (pre ++ 46 :: f ++ r) with ((pre ++ [46]) ++ f ++ r) by (rewrite <- app_assoc; reflexivity).
  replace (zlen pre + 1) with (zlen (pre ++ [46])) by (rewrite zlen_app; reflexivity).
  rewrite (ParseNumber_ok (pre ++ [46]) f r v Hn H1). cbn [obind]. replace (v <? 0) with false by lia. replace (v >=? 1000) with false by lia. cbn [obind].
  change (negb (0 =? 0)) with false. cbv iota. rewrite app_assoc, at_app. cbn [obind t_h t_m t_s].
  replace (negb (hd0 r =? 0) && negb (hd0 r =? kSPACE) && negb (hd0 r =? kTAB)) with false by (unfold kSPACE, kTAB, blank in *; lia).
  rewrite <- app_assoc. reflexivity.
Qed.
(* what an accepted fraction part is *)
Lemma parse_ms_inv : forall pre l t, exists e idx t', parse_ms (pre ++ l) (zlen pre) t = Val (e, idx, t') /\
  (e <> 0 \/ exists f ms r, l = f ++ r /\ stops r /\ idx = zlen (pre ++ f) /\ t' = mkTime (t_h t) (t_m t) (t_s t) ms /\
     (f = [] /\ ms = 0 \/ exists d, f = [46] ++ d /\ scaled d ms)).
Proof.
  intros pre l t. unfold parse_ms. rewrite at_app. cbn [obind]. destruct (hd0 l =? kDOT) eqn:Ed; cbn [negb].
  - destruct l as [|c l]; [discriminate Ed|]. cbn [hd0] in Ed. assert (c = 46) by (unfold kDOT in Ed; lia). subst c.
    replace (pre ++ 46 :: l) with ((pre ++ [46]) ++ l) by (rewrite <- app_assoc; reflexivity).
    replace (zlen pre + 1) with (zlen (pre ++ [46])) by (rewrite zlen_app; reflexivity).
    destruct (ParseNumber_inv (pre ++ [46]) l) as (v & idx & E & H1 & H2). rewrite E. cbn [obind].
    destruct (v <? 0) eqn:Ev; [cbn [obind]; replace (negb (v =? 0)) with true by lia; do 3 eexists; split; [reflexivity|left; lia]|].
    destruct (v >=? 1000) eqn:Ev2; [cbn [obind]; change (negb (-1 =? 0)) with true; do 3 eexists; split; [reflexivity|left; lia]|]. cbn [obind].
    change (negb (0 =? 0)) with false. cbv iota. destruct H2 as [H2|(d & r & -> & Hn & Hr & ->)]; [lia|].
    replace ((pre ++ [46]) ++ d ++ r) with ((pre ++ [46] ++ d) ++ r) by (rewrite <- !app_assoc; reflexivity).
    replace (zlen ((pre ++ [46]) ++ d)) with (zlen (pre ++ [46] ++ d)) by (rewrite <- !app_assoc; reflexivity). rewrite at_app. cbn [obind t_h t_m t_s].
    destruct (negb (hd0 r =? 0) && negb (hd0 r =? kSPACE) && negb (hd0 r =? kTAB)) eqn:Es; [do 3 eexists; split; [reflexivity|left; lia]|].
    do 3 eexists. split; [reflexivity|]. right. exists ([46] ++ d). eexists. exists r. split; [reflexivity|]. split; [apply hd_stops; unfold kSPACE, kTAB, blank in *; lia|].
    split; [reflexivity|]. split; [reflexivity|]. right. exists d. split; [reflexivity|]. exists v. split; [exact Hn|]. split; [lia|reflexivity].
  - cbn [obind]. change (negb (0 =? 0)) with false. cbv iota. rewrite at_app. cbn [obind t_h t_m t_s].
    destruct (negb (hd0 l =? 0) && negb (hd0 l =? kSPACE) && negb (hd0 l =? kTAB)) eqn:Es; [do 3 eexists; split; [reflexivity|left; lia]|].
    do 3 eexists. split; [reflexivity|]. right. exists [], 0, l. split; [reflexivity|]. split; [apply hd_stops; unfold kSPACE, kTAB, blank in *; lia|].
    rewrite app_nil_r. auto.
Qed.

Lemma idx_ge : forall (pre l : list Z), (zlen pre >=? zlen (pre ++ l)) = match l with [] => true | _ => false end.
Proof. intros pre l. rewrite zlen_app. pose proof (zlen_nonneg pre). destruct l as [|c l]; [unfold zlen; cbn; lia|rewrite zlen_cons; pose proof (zlen_nonneg l); lia]. Qed.

Lemma number_hd : forall ds n r, number ds n -> ~ blank (hd0 (ds ++ r)) /\ ds ++ r <> [].
Proof. intros [|c ds] n r (H & HD & _); [congruence|]. inversion HD; subst. cbn [app hd0]. unfold digit, blank in *. split; [lia|discriminate]. Qed.
Lemma clock_hd : forall t h m s r, clock t h m s -> ~ blank (hd0 (t ++ r)) /\ t ++ r <> [].
Proof. intros t h m s r H. inversion H; subst; rewrite <- ?app_assoc; eapply number_hd; eassumption. Qed.

(* after the clock part: what ParseTime does with a clock text *)
Lemma ParseTime_clock : forall pre b t h m s r t0, Forall blank b -> clock t h m s -> isdigit (hd0 r) = false -> hd0 r <> 58 ->
  exists t1, ParseTime (pre ++ b ++ t ++ r) (zlen pre) t0 = parse_ms (pre ++ b ++ t ++ r) (zlen (pre ++ b ++ t)) t1 /\
    t_h t1 = h /\ t_m t1 = m /\ t_s t1 = s.
Proof.
  intros pre b t h m s r t0 HB HC Hr Hr2. destruct (clock_hd t h m s r HC) as [Hh Hne].
  unfold ParseTime. rewrite idx_ge. destruct (b ++ t ++ r) as [|x y] eqn:E; [apply app_eq_nil in E; destruct E; contradiction|]. rewrite <- E. clear x y E.
  rewrite skip_blank_run; [|assumption|assumption|rewrite !app_length; lia]. cbn [obind].
  replace (pre ++ b ++ t ++ r) with ((pre ++ b) ++ t ++ r) by (rewrite <- !app_assoc; reflexivity). replace (pre ++ b ++ t) with ((pre ++ b) ++ t) by (rewrite <- !app_assoc; reflexivity).
  remember (pre ++ b) as p eqn:Ep. clear Ep Hh Hne HB. inversion HC as [a b' c h' m' s' Ha Hb Hc Hm Hs|a b' m' s' Ha Hb Hm Hs|a n Ha]; subst.
  - pose proof (number_nonneg _ _ Ha). pose proof (number_nonneg _ _ Hb). pose proof (number_nonneg _ _ Hc).
    replace (p ++ (a ++ [58] ++ b' ++ [58] ++ c) ++ r) with (p ++ a ++ [58] ++ b' ++ [58] ++ c ++ r) by (rewrite <- !app_assoc; reflexivity).
    rewrite (ParseNumber_ok p a _ _ Ha) by reflexivity. cbn [obind]. replace (h <? 0) with false by lia.
    replace (p ++ a ++ [58] ++ b' ++ [58] ++ c ++ r) with ((p ++ a) ++ [58] ++ b' ++ [58] ++ c ++ r) by (rewrite <- !app_assoc; reflexivity). rewrite at_app. cbn [obind hd0 app].
    change (58 =? kCOLON) with true. cbv iota.
    replace ((p ++ a) ++ 58 :: b' ++ 58 :: c ++ r) with ((p ++ a ++ [58]) ++ b' ++ 58 :: c ++ r) by (rewrite <- !app_assoc; reflexivity).
    replace (zlen (p ++ a) + 1) with (zlen (p ++ a ++ [58])) by (rewrite !zlen_app; change (zlen [58]) with 1; lia).
    rewrite (ParseNumber_ok _ b' _ _ Hb) by reflexivity. cbn [obind]. replace (m <? 0) with false by lia. replace (m >=? 60) with false by lia.
    replace ((p ++ a ++ [58]) ++ b' ++ 58 :: c ++ r) with (((p ++ a ++ [58]) ++ b') ++ 58 :: c ++ r) by (rewrite <- !app_assoc; reflexivity). rewrite at_app. cbn [obind hd0].
    change (58 =? kCOLON) with true. cbv iota. cbn [t_h t_m t_s t_ms].
    replace (((p ++ a ++ [58]) ++ b') ++ 58 :: c ++ r) with ((p ++ a ++ [58] ++ b' ++ [58]) ++ c ++ r) by (rewrite <- !app_assoc; reflexivity).
    replace (zlen ((p ++ a ++ [58]) ++ b') + 1) with (zlen (p ++ a ++ [58] ++ b' ++ [58])) by (rewrite !zlen_app; change (zlen [58]) with 1; lia).
    rewrite (ParseNumber_ok _ c _ _ Hc) by exact Hr. cbn [obind]. replace (s <? 0) with false by lia. replace (s >=? 60) with false by lia.
    exists (mkTime h m s (t_ms t0)). split; [|auto]. f_equal; rewrite <- !app_assoc; reflexivity.
  - pose proof (number_nonneg _ _ Ha). pose proof (number_nonneg _ _ Hb).
    replace (p ++ (a ++ [58] ++ b') ++ r) with (p ++ a ++ [58] ++ b' ++ r) by (rewrite <- !app_assoc; reflexivity).
    rewrite (ParseNumber_ok p a _ _ Ha) by reflexivity. cbn [obind]. replace (m <? 0) with false by lia.
    replace (p ++ a ++ [58] ++ b' ++ r) with ((p ++ a) ++ [58] ++ b' ++ r) by (rewrite <- !app_assoc; reflexivity). rewrite at_app. cbn [obind hd0 app].
    change (58 =? kCOLON) with true. cbv iota.
    replace ((p ++ a) ++ 58 :: b' ++ r) with ((p ++ a ++ [58]) ++ b' ++ r) by (rewrite <- !app_assoc; reflexivity).
    replace (zlen (p ++ a) + 1) with (zlen (p ++ a ++ [58])) by (rewrite !zlen_app; change (zlen [58]) with 1; lia).
    rewrite (ParseNumber_ok _ b' _ _ Hb) by exact Hr. cbn [obind]. replace (s <? 0) with false by lia. replace (s >=? 60) with false by lia.
    replace ((p ++ a ++ [58]) ++ b' ++ r) with (((p ++ a ++ [58]) ++ b') ++ r) by (rewrite <- !app_assoc; reflexivity). rewrite at_app. cbn [obind].
    replace (hd0 r =? kCOLON) with false by (unfold kCOLON; lia). replace (m >=? 60) with false by lia.
    exists (mkTime 0 m s (t_ms t0)). split; [|auto]. f_equal; rewrite <- !app_assoc; reflexivity.
  - pose proof (number_nonneg _ _ Ha) as H0. rewrite (ParseNumber_ok p t r _ Ha Hr). cbn [obind]. replace (n <? 0) with false by lia.
    replace (p ++ t ++ r) with ((p ++ t) ++ r) by (rewrite <- !app_assoc; reflexivity). rewrite at_app. cbn [obind].
    replace (hd0 r =? kCOLON) with false by (unfold kCOLON; lia). eexists. split; [reflexivity|]. cbn [t_h t_m t_s].
    split; [rewrite Zdiv.Zdiv_Zdiv by lia; reflexivity|]. split; [|]; Z.div_mod_to_equations; lia.
Qed.

Lemma ParseTime_accepts : forall pre b x t r t0, Forall blank b -> stamp scaled x t -> stops r ->
  ParseTime (pre ++ b ++ x ++ r) (zlen pre) t0 = Val (0, zlen (pre ++ b ++ x), t).
Proof.
  intros pre b x t r t0 HB HS Hr. destruct (stops_hd r Hr) as (R1 & R2 & R3 & R4). inversion HS as [t' h m s HC|t' f h m s ms HC HF]; subst.
  - destruct (ParseTime_clock pre b x h m s r t0 HB HC R1 R2) as (t1 & E & <- & <- & <-). rewrite E.
    replace (pre ++ b ++ x ++ r) with ((pre ++ b ++ x) ++ r) by (rewrite <- !app_assoc; reflexivity). apply parse_ms_whole. exact Hr.
  - replace (pre ++ b ++ (t' ++ [46] ++ f) ++ r) with (pre ++ b ++ t' ++ [46] ++ f ++ r) by (rewrite <- !app_assoc; reflexivity).
    destruct (ParseTime_clock pre b t' h m s ([46] ++ f ++ r) t0 HB HC) as (t1 & E & <- & <- & <-); [reflexivity|cbn; lia|]. rewrite E.
    replace (pre ++ b ++ t' ++ [46] ++ f ++ r) with ((pre ++ b ++ t') ++ [46] ++ f ++ r) by (rewrite <- !app_assoc; reflexivity).
    rewrite (parse_ms_frac _ f r t1 ms HF Hr). f_equal. f_equal. f_equal. rewrite <- !app_assoc. reflexivity.
Qed.

(* the end of ParseTime, given the clock part *)
Lemma finish_time : forall pre b t h m s l t1, Forall blank b -> clock t h m s -> t_h t1 = h -> t_m t1 = m -> t_s t1 = s ->
  exists e idx t', parse_ms (pre ++ b ++ t ++ l) (zlen (pre ++ b ++ t)) t1 = Val (e, idx, t') /\
    (e <> 0 \/ exists x r, t ++ l = x ++ r /\ stamp scaled x t' /\ stops r /\ idx = zlen (pre ++ b ++ x)).
Proof.
  intros pre b t h m s l t1 HB HC E1 E2 E3. replace (pre ++ b ++ t ++ l) with ((pre ++ b ++ t) ++ l) by (rewrite <- !app_assoc; reflexivity).
  destruct (parse_ms_inv (pre ++ b ++ t) l t1) as (e & idx & t' & E & H). exists e, idx, t'. split; [exact E|]. destruct H as [H|(f & ms & r & -> & Hr & -> & -> & H)]; [left; exact H|].
  right. exists (t ++ f), r. split; [rewrite <- app_assoc; reflexivity|]. rewrite E1, E2, E3. split; [|split; [exact Hr|rewrite <- !app_assoc; reflexivity]].
  destruct H as [[-> ->]|(d & -> & Hd)]; [rewrite app_nil_r; apply st_whole; exact HC|]. apply st_frac; assumption.
Qed.

Lemma ParseTime_inv : forall pre l t0, exists e idx t, ParseTime (pre ++ l) (zlen pre) t0 = Val (e, idx, t) /\
  (e <> 0 \/ exists b x r, l = b ++ x ++ r /\ Forall blank b /\ stamp scaled x t /\ stops r /\ idx = zlen (pre ++ b ++ x)).
Proof.
  intros pre l t0. unfold ParseTime. rewrite idx_ge. destruct l as [|c0 l0] eqn:El; [do 3 eexists; split; [reflexivity|left; lia]|]. rewrite <- El. clear c0 l0 El.
  destruct (blanks_split l) as (El & HB & Hu). remember (blanks l) as b eqn:Eb. remember (unblank l) as u eqn:Eu. clear Eb Eu. subst l.
  rewrite skip_blank_run; [|assumption|assumption|rewrite !app_length; lia]. cbn [obind].
  replace (pre ++ b ++ u) with ((pre ++ b) ++ u) by (rewrite <- app_assoc; reflexivity).
  destruct (ParseNumber_inv (pre ++ b) u) as (v & idx & E & _ & H). rewrite E. cbn [obind]. destruct (v <? 0) eqn:Ev; [do 3 eexists; split; [reflexivity|left; lia]|].
  destruct H as [H|(ds & r & -> & Hn & Hr & ->)]; [lia|]. rewrite (app_assoc (pre ++ b) ds r), at_app. cbn [obind].
  destruct (hd0 r =? kCOLON) eqn:Ec.
  - destruct r as [|c r]; [discriminate Ec|]. assert (c = 58) by (cbn [hd0] in Ec; unfold kCOLON in Ec; lia). subst c. clear Ec Hr.
    replace (((pre ++ b) ++ ds) ++ 58 :: r) with ((pre ++ b ++ ds ++ [58]) ++ r) by (rewrite <- !app_assoc; reflexivity).
    replace (zlen ((pre ++ b) ++ ds) + 1) with (zlen (pre ++ b ++ ds ++ [58])) by (rewrite !zlen_app; change (zlen [58]) with 1; lia).
    destruct (ParseNumber_inv (pre ++ b ++ ds ++ [58]) r) as (v2 & idx2 & E2 & _ & H2). rewrite E2. cbn [obind]. destruct (v2 <? 0) eqn:Ev2; [do 3 eexists; split; [reflexivity|left; lia]|].
    destruct (v2 >=? 60) eqn:Eg; [do 3 eexists; split; [reflexivity|left; lia]|].
    destruct H2 as [H2|(ds2 & r2 & -> & Hn2 & Hr2 & ->)]; [lia|]. rewrite (app_assoc (pre ++ b ++ ds ++ [58]) ds2 r2), at_app. cbn [obind].
    destruct (hd0 r2 =? kCOLON) eqn:Ec2.
    + destruct r2 as [|c r2]; [discriminate Ec2|]. assert (c = 58) by (cbn [hd0] in Ec2; unfold kCOLON in Ec2; lia). subst c. clear Ec2 Hr2. cbn [t_h t_m t_s t_ms].
      replace (((pre ++ b ++ ds ++ [58]) ++ ds2) ++ 58 :: r2) with ((pre ++ b ++ ds ++ [58] ++ ds2 ++ [58]) ++ r2) by (rewrite <- !app_assoc; reflexivity).
      replace (zlen ((pre ++ b ++ ds ++ [58]) ++ ds2) + 1) with (zlen (pre ++ b ++ ds ++ [58] ++ ds2 ++ [58])) by (rewrite !zlen_app; change (zlen [58]) with 1; lia).
      destruct (ParseNumber_inv (pre ++ b ++ ds ++ [58] ++ ds2 ++ [58]) r2) as (v3 & idx3 & E3 & _ & H3). rewrite E3. cbn [obind]. destruct (v3 <? 0) eqn:Ev3; [do 3 eexists; split; [reflexivity|left; lia]|].
      destruct (v3 >=? 60) eqn:Eg3; [do 3 eexists; split; [reflexivity|left; lia]|].
      destruct H3 as [H3|(ds3 & r3 & -> & Hn3 & Hr3 & ->)]; [lia|].
      assert (HC : clock (ds ++ [58] ++ ds2 ++ [58] ++ ds3) v v2 v3) by (constructor; [assumption..|lia|lia]).
      destruct (finish_time pre b _ _ _ _ r3 (mkTime v v2 v3 (t_ms t0)) HB HC eq_refl eq_refl eq_refl) as (e & i & t' & F & G).
      exists e, i, t'. split.
      * rewrite <- F. f_equal; rewrite <- !app_assoc; reflexivity.
      * destruct G as [G|(x & r & G1 & G2 & G3 & G4)]; [left; exact G|]. right. exists b, x, r. split; [|auto]. rewrite <- G1, <- !app_assoc. reflexivity.
    + destruct (v >=? 60) eqn:Eg1; [do 3 eexists; split; [reflexivity|left; lia]|].
      assert (HC : clock (ds ++ [58] ++ ds2) 0 v v2) by (constructor; [assumption..|lia|lia]).
      destruct (finish_time pre b _ _ _ _ r2 (mkTime 0 v v2 (t_ms t0)) HB HC eq_refl eq_refl eq_refl) as (e & i & t' & F & G).
      exists e, i, t'. split.
      * rewrite <- F. f_equal; rewrite <- !app_assoc; reflexivity.
      * destruct G as [G|(x & r & G1 & G2 & G3 & G4)]; [left; exact G|]. right. exists b, x, r. split; [|auto]. rewrite <- G1, <- !app_assoc. reflexivity.
  - pose proof (number_nonneg _ _ Hn) as H0.
    destruct (finish_time pre b ds _ _ _ r (mkTime (v / 60 / 60) (v / 60 - v / 60 / 60 * 60) (v - v / 60 * 60) (t_ms t0)) HB (ck_s ds v Hn)) as (e & i & t' & F & G).
    { cbn [t_h]. rewrite Zdiv.Zdiv_Zdiv by lia. reflexivity. } { cbn [t_m]. Z.div_mod_to_equations; lia. } { cbn [t_s]. Z.div_mod_to_equations; lia. }
    exists e, i, t'. split.
    + rewrite <- F. f_equal; rewrite <- !app_assoc; reflexivity.
    + destruct G as [G|(x & r' & G1 & G2 & G3 & G4)]; [left; exact G|]. right. exists b, x, r'. split; [|auto]. rewrite G1. reflexivity.
Qed.
