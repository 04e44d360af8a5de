(* Proofs about the readers that come with the callback parser. *)
From Coq Require Import ZifyBool ZifyNat.
From Verif Require Import Base WpSpec SourceSpec MWp MReader.

Lemma zlen_nn {A} (l : list A) : 0 <= zlen l.
Proof. unfold zlen; lia. Qed.
Lemma zlen_skip {A} n (l : list A) : 0 <= n -> zlen (skipn (Z.to_nat n) l) = Z.max 0 (zlen l - n).
Proof. intros H; unfold zlen; rewrite skipn_length; lia. Qed.
Lemma zlen_first {A} n (l : list A) : 0 <= n <= zlen l -> zlen (firstn (Z.to_nat n) l) = n.
Proof. intros H; unfold zlen in *; rewrite firstn_length; lia. Qed.
Lemma first_own {A} n (l : list A) : firstn (Z.to_nat n) l = firstn (length (firstn (Z.to_nat n) l)) l.
Proof.
  rewrite firstn_length. destruct (Nat.le_gt_cases (Z.to_nat n) (length l)).
  - now rewrite Nat.min_l by lia.
  - rewrite Nat.min_r by lia. rewrite firstn_all. apply firstn_all2; lia.
Qed.
Lemma wrap64_small z : 0 <= z < 18446744073709551616 -> wrap64 z = z.
Proof. intros H; unfold wrap64; apply Z.mod_small; lia. Qed.
Lemma zlen_zero {A} (l : list A) : zlen l = 0 -> l = [].
Proof. destruct l; [reflexivity | unfold zlen; cbn [length]; lia]. Qed.

Lemma skipn_skipn {A} n m (l : list A) : skipn n (skipn m l) = skipn (n + m) l.
Proof.
  revert l. induction m as [|m IH]; intros l.
  - now rewrite Nat.add_0_r.
  - rewrite Nat.add_succ_r. destruct l; [now rewrite !skipn_nil|cbn [skipn]; apply IH].
Qed.

Lemma status_by n k :
  0 < n -> 0 <= k <= n ->
  status_ok n k (if k =? 0 then kEndOfFile else if k =? n then kOkCompleted else kOkPartial).
Proof.
  intros H1 H2. unfold status_ok, kEndOfFile, kOkCompleted, kOkPartial.
  destruct (Z.eqb_spec k 0); [|destruct (Z.eqb_spec k n)]; lia.
Qed.

(* ---------- histories ---------- *)
(* an invariant Inv, indexed by the position, gives a right log *)
Lemma history_right {R} (step : call -> R -> outcome (answer * R)) (Inv : Z -> R -> Prop)
      (okc : call -> Prop) beyond prompt src :
  (forall c pos r, okc c -> Inv pos r ->
     exists a r1 pos1, step c r = Val (a, r1) /\ Inv pos1 r1 /\
       forall l pos', right beyond prompt src pos1 l pos' -> right beyond prompt src pos ((c, a) :: l) pos') ->
  forall cs pos r, Forall okc cs -> Inv pos r ->
  exists l r' pos', history step cs r = Val (l, r') /\ Inv pos' r' /\ map fst l = cs /\
    right beyond prompt src pos l pos'.
Proof.
  intros Hstep cs. induction cs as [|c cs IH]; intros pos r Hok HI.
  - exists [], r, pos. cbn [history map]. repeat split; auto. constructor.
  - inversion Hok as [|? ? Hc Hcs]; subst.
    destruct (Hstep c pos r Hc HI) as (a & r1 & pos1 & E1 & HI1 & Hr).
    destruct (IH pos1 r1 Hcs HI1) as (l & r' & pos' & E2 & HI2 & Em & Hl).
    exists ((c, a) :: l), r', pos'. cbn [history map fst]. rewrite E1, E2.
    repeat split; auto. now rewrite Em.
Qed.

(* ---------- BufferReader ---------- *)
Definition buffer_inv (data : list Z) (pos : Z) (r : buffer_reader) : Prop :=
  r = mkBR data pos /\ 0 <= pos <= zlen data.

Lemma buffer_step data c pos r :
  allowed c /\ moves c = false -> buffer_inv data pos r ->
  exists a r1 pos1, buffer_call c r = Val (a, r1) /\ buffer_inv data pos1 r1 /\
    forall l pos', right false true data pos1 l pos' -> right false true data pos ((c, a) :: l) pos'.
Proof.
  intros [Ha Hm] [-> Hp]. pose proof (zlen_skip pos data ltac:(lia)) as Hz.
  destruct c as [n|n|p]; [| |discriminate Hm]; cbn [allowed] in Ha; cbn [buffer_call];
    unfold BufferReader_Read, BufferReader_Skip; cbn [br_data br_pos];
    (destruct (Z.eqb_spec (zlen data - pos) 0) as [E0|E0];
     [ eexists _, _, pos; split; [reflexivity|]; split; [split; [reflexivity|lia]|] | ]).
  - intros l pos' Hl. eapply right_read.
    + apply (status_by n 0); lia.
    + reflexivity.
    + intros _ _; split; [reflexivity|lia].
    + replace (pos + zlen (@nil Z)) with pos by (unfold zlen; cbn [length]; lia). exact Hl.
  - set (k := if n >? zlen data - pos then zlen data - pos else n).
    assert (Hk : 0 < k <= n /\ pos + k <= zlen data) by (subst k; destruct (n >? zlen data - pos) eqn:E; lia).
    eexists _, _, (pos + k); split; [reflexivity|]; split; [split; [reflexivity|lia]|].
    intros l pos' Hl.
    assert (Hf : zlen (firstn (Z.to_nat k) (skipn (Z.to_nat pos) data)) = k) by (apply zlen_first; lia).
    eapply right_read.
    + rewrite Hf. pose proof (status_by n k ltac:(lia) ltac:(lia)) as S.
      destruct (Z.eqb_spec k 0); [lia|]. destruct (k =? n); exact S.
    + apply first_own.
    + intros _ Hb. rewrite Hb in Hf. unfold zlen in Hf; cbn [length] in Hf; lia.
    + now rewrite Hf.
  - intros l pos' Hl. eapply right_skip.
    + apply (status_by n 0); lia.
    + lia.
    + intros _ _; split; [reflexivity|lia].
    + now rewrite Z.add_0_r.
  - set (k := if n >? zlen data - pos then zlen data - pos else n).
    assert (Hk : 0 < k <= n /\ pos + k <= zlen data) by (subst k; destruct (n >? zlen data - pos) eqn:E; lia).
    eexists _, _, (pos + k); split; [reflexivity|]; split; [split; [reflexivity|lia]|].
    intros l pos' Hl. eapply right_skip.
    + pose proof (status_by n k ltac:(lia) ltac:(lia)) as S.
      destruct (Z.eqb_spec k 0); [lia|]. destruct (k =? n); exact S.
    + lia.
    + lia.
    + exact Hl.
Qed.

(* ---------- FileReader ---------- *)
Definition beyond_of (k : seek_kind) : bool := match k with seek_anywhere => true | _ => false end.
Definition prompt_of (s : list Z) : bool := forallb (fun c => 1 <=? c) s.

Definition file_inv (data : list Z) (start : Z) (kind : seek_kind) (prompt : bool) (pos : Z) (f : file) : Prop :=
  f_data f = data /\ f_off f = start + pos /\ f_seek f = kind /\ 0 <= pos /\ start + pos <= LLONG_MAX /\
  (prompt = true -> prompt_of (f_sched f) = true).

(* what fread gives *)
Lemma fread_gives data start kind prompt pos f n :
  0 <= start -> zlen data <= LLONG_MAX -> 0 < n -> file_inv data start kind prompt pos f ->
  exists bs f1, fread n f = (bs, f1) /\ file_inv data start kind prompt (pos + zlen bs) f1 /\
    zlen bs <= n /\ bs = firstn (length bs) (skipn (Z.to_nat pos) (skipn (Z.to_nat start) data)) /\
    (0 < zlen bs -> start + pos + zlen bs <= zlen data) /\
    (prompt = true -> bs = [] -> zlen data <= start + pos) /\
    (f_sched f = [] -> f_sched f1 = [] /\ (zlen bs <> n -> zlen data <= start + pos + zlen bs)).
Proof.
  intros Hs Hd Hn (Ed & Eo & Ek & Hp & Hm & Hpr).
  unfold fread. rewrite Ed, Eo, Ek.
  assert (Hsk : skipn (Z.to_nat (start + pos)) data = skipn (Z.to_nat pos) (skipn (Z.to_nat start) data)).
  { rewrite skipn_skipn. f_equal. lia. }
  rewrite Hsk. set (rest := skipn (Z.to_nat pos) (skipn (Z.to_nat start) data)) in *.
  assert (Hr : zlen rest = Z.max 0 (zlen data - (start + pos))) by (rewrite <- Hsk; apply zlen_skip; lia).
  assert (Hk : exists k s, (match f_sched f with [] => (Z.min n (zlen rest), []) | c :: s => (Z.min (Z.min n (zlen rest)) (Z.max 0 c), s) end) = (k, s)
     /\ 0 <= k <= Z.min n (zlen rest) /\ (prompt = true -> prompt_of s = true) /\ (prompt = true -> k = 0 -> zlen rest = 0)
     /\ (f_sched f = [] -> s = [] /\ k = Z.min n (zlen rest))).
  { destruct (f_sched f) as [|c s] eqn:Es.
    - eexists _, _; split; [reflexivity|]. split; [lia|]. repeat split; auto; lia.
    - eexists _, _; split; [reflexivity|]. split; [lia|]. split; [|split; [|discriminate]].
      + intros P. specialize (Hpr P). unfold prompt_of in *. cbn [forallb] in Hpr. now apply andb_prop in Hpr.
      + intros P. specialize (Hpr P). unfold prompt_of in Hpr. cbn [forallb] in Hpr. apply andb_prop in Hpr. lia. }
  destruct Hk as (k & s & -> & Hk1 & Hk2 & Hk3 & Hk4).
  assert (Hf : zlen (firstn (Z.to_nat k) rest) = k) by (apply zlen_first; lia).
  eexists _, _; split; [reflexivity|]. rewrite Hf. cbn [f_sched].
  split; [|split; [lia|split; [apply first_own|split; [lia|split]]]].
  - unfold file_inv; cbn [f_data f_off f_seek f_sched].
    split; [reflexivity|]. split; [lia|]. split; [reflexivity|]. split; [lia|]. split; [lia|exact Hk2].
  - intros P Hb. rewrite Hb in Hf. assert (k = 0) by (unfold zlen in Hf; cbn [length] in Hf; lia).
    specialize (Hk3 P H). lia.
  - intros He. destruct (Hk4 He) as [-> Ek2]. split; [reflexivity|]. lia.
Qed.

Lemma fseek_gives data start kind prompt pos f d :
  0 <= start -> 0 < d -> file_inv data start kind prompt pos f ->
  exists ok f1, fseek_cur d f = (ok, f1) /\ f_sched f1 = f_sched f /\
    if ok then file_inv data start kind prompt (pos + d) f1 /\ (beyond_of kind = false -> start + pos + d <= zlen data)
    else f1 = f.
Proof.
  intros Hs Hd (Ed & Eo & Ek & Hp & Hm & Hpr).
  unfold fseek_cur, fseek_set. rewrite Ed, Eo, Ek.
  set (ok := _ && _ && _).
  eexists ok, _; split; [reflexivity|]. destruct ok eqn:E; [|auto]. split; [reflexivity|].
  subst ok. apply andb_prop in E as [E1 E2]. split.
  - unfold file_inv; cbn [f_data f_off f_seek f_sched].
    split; [reflexivity|]. split; [lia|]. split; [reflexivity|]. split; [lia|]. split; [lia|exact Hpr].
  - destruct kind; cbn [beyond_of]; try discriminate; lia.
Qed.

Definition fr_inv data start kind prompt pos (r : file_rd) : Prop :=
  exists f, fr_file r = Some f /\ fr_pos r = pos /\ file_inv data start kind prompt pos f.

Lemma src_len start pos (data : list Z) : 0 <= start -> 0 <= pos ->
  zlen data <= start + pos -> zlen (skipn (Z.to_nat start) data) <= pos.
Proof. intros H1 H2 H. rewrite zlen_skip by lia. lia. Qed.
Lemma src_len' start pos (data : list Z) : 0 <= start -> 0 < pos ->
  start + pos <= zlen data -> pos <= zlen (skipn (Z.to_nat start) data).
Proof. intros H1 H2 H. rewrite zlen_skip by lia. lia. Qed.

Lemma file_step data start kind prompt c pos r :
  0 <= start -> zlen data <= LLONG_MAX ->
  allowed c /\ (start = 0 \/ moves c = false) -> fr_inv data start kind prompt pos r ->
  exists a r1 pos1, file_call c r = Val (a, r1) /\ fr_inv data start kind prompt pos1 r1 /\
    forall l pos', right (beyond_of kind) prompt (skipn (Z.to_nat start) data) pos1 l pos' ->
                   right (beyond_of kind) prompt (skipn (Z.to_nat start) data) pos ((c, a) :: l) pos'.
Proof.
  intros Hs Hd [Ha Hmv] (f & Ef & Ep & Hf).
  assert (Hpos : 0 <= pos /\ start + pos <= LLONG_MAX) by (destruct Hf as (_ & _ & _ & ? & ? & _); lia).
  unfold LLONG_MAX in Hd, Hpos.
  destruct c as [n|n|p]; cbn [allowed] in Ha; cbn [file_call].
  - unfold FileReader_Read. rewrite Ef.
    destruct (fread_gives data start kind prompt pos f n Hs Hd ltac:(lia) Hf)
      as (bs & f1 & -> & Hf1 & Hle & Hbs & Hin & Hpr & _).
    pose proof (zlen_nn bs) as Hnn.
    assert (Hw : wrap64 (fr_pos r + zlen bs) = pos + zlen bs).
    { rewrite Ep. apply wrap64_small. destruct (Z.eq_dec (zlen bs) 0); lia. }
    assert (HI : fr_inv data start kind prompt (pos + zlen bs) (mkFR (Some f1) (wrap64 (fr_pos r + zlen bs)))).
    { exists f1. split; [reflexivity|]. split; [exact Hw|exact Hf1]. }
    pose proof (status_by n (zlen bs) ltac:(lia) ltac:(lia)) as St.
    exists (ARead (if zlen bs =? 0 then kEndOfFile else if zlen bs =? n then kOkCompleted else kOkPartial) bs).
    eexists _, (pos + zlen bs). split; [|split; [exact HI|]].
    + destruct (zlen bs =? 0); [reflexivity|]. destruct (zlen bs =? n); reflexivity.
    + intros l pos' Hl. eapply right_read; [exact St|exact Hbs| |exact Hl].
      intros P ->. cbn. split; [reflexivity|]. apply src_len; try lia; now apply Hpr.
  - unfold FileReader_Skip. rewrite Ef.
    set (d := if n <? LLONG_MAX then n else LLONG_MAX).
    assert (Hdd : 0 < d <= n) by (subst d; unfold LLONG_MAX; destruct (n <? 9223372036854775807) eqn:E; lia).
    destruct (fseek_gives data start kind prompt pos f d Hs ltac:(lia) Hf) as (ok & f1 & -> & _ & Hok).
    destruct ok.
    + destruct Hok as [Hf1 Hin].
      assert (Hw : wrap64 (fr_pos r + d) = pos + d).
      { rewrite Ep. apply wrap64_small. destruct Hf1 as (_ & _ & _ & ? & Hb & _). unfold LLONG_MAX in Hb. lia. }
      eexists _, _, (pos + d). split; [reflexivity|]. split.
      { exists f1. split; [reflexivity|]. split; [exact Hw|exact Hf1]. }
      intros l pos' Hl. eapply right_skip; [| | |exact Hl].
      * pose proof (status_by n d ltac:(lia) ltac:(lia)) as St. destruct (Z.eqb_spec d 0); [lia|exact St].
      * intros B _. apply src_len'; try lia; specialize (Hin B); lia.
      * lia.
    + subst f1. set (want := if n <? 1024 then n else 1024).
      assert (Hwn : 0 < want <= n) by (subst want; destruct (n <? 1024) eqn:E; lia).
      destruct (fread_gives data start kind prompt pos f want Hs Hd ltac:(lia) Hf)
        as (bs & f1 & -> & Hf1 & Hle & Hbs & Hin & Hpr & _).
      pose proof (zlen_nn bs) as Hnn.
      assert (Hw : wrap64 (fr_pos r + zlen bs) = pos + zlen bs).
      { rewrite Ep. apply wrap64_small. destruct (Z.eq_dec (zlen bs) 0); lia. }
      assert (HI : fr_inv data start kind prompt (pos + zlen bs) (mkFR (Some f1) (wrap64 (fr_pos r + zlen bs)))).
      { exists f1. split; [reflexivity|]. split; [exact Hw|exact Hf1]. }
      pose proof (status_by n (zlen bs) ltac:(lia) ltac:(lia)) as St.
      exists (ASkip (if zlen bs =? 0 then kEndOfFile else if zlen bs =? n then kOkCompleted else kOkPartial) (zlen bs)).
      eexists _, (pos + zlen bs). split; [|split; [exact HI|]].
      * destruct (zlen bs =? 0); [reflexivity|].
        destruct (Z.eqb_spec (n - zlen bs) 0), (Z.eqb_spec (zlen bs) n); try reflexivity; lia.
      * intros l pos' Hl. eapply right_skip; [exact St| | |exact Hl].
        -- intros _ Hb. apply src_len'; try lia.
        -- intros P E. apply zlen_zero in E. subst bs. cbn. split; [reflexivity|]. apply src_len; try lia; now apply Hpr.
  - destruct Hmv as [->|]; [|discriminate].
    unfold FileReader_Seek. rewrite Ef. unfold fseek_set. set (ok := _ && _ && _).
    unfold is_u64 in Ha. destruct ok eqn:E; cbn [negb].
    + eexists _, _, p. split; [reflexivity|]. subst ok. apply andb_prop in E as [E1 E2].
      assert (Hsp : sint64 p = p).
      { unfold sint64, wraps, LLONG_MAX in *. rewrite (Z.mod_small p (2 ^ 64)) in * by lia.
        destruct (p <? 2 ^ (64 - 1)) eqn:E; lia. }
      rewrite Hsp in *. split.
      * eexists. split; [reflexivity|]. split; [reflexivity|].
        destruct Hf as (Ed & Eo & Ek & _ & _ & Hpr). unfold file_inv; cbn [f_data f_off f_seek f_sched].
        split; [exact Ed|]. split; [lia|]. split; [exact Ek|]. split; [lia|]. split; [lia|exact Hpr].
      * intros l pos' Hl. apply right_seek. exact Hl.
    + eexists _, _, pos. split; [reflexivity|]. split.
      * exists f. split; [reflexivity|]. split; [exact Ep|exact Hf].
      * intros l pos' Hl. apply right_seek. exact Hl.
Qed.

(* ---------- IstreamReader ---------- *)
Definition ir_inv data start kind (prompt : bool) pos (r : istream_rd) : Prop :=
  exists s, ir_stream r = Some s /\ ir_pos r = pos /\ file_inv data start kind false pos (is_file s) /\
    (prompt = true -> f_sched (is_file s) = [] /\ (is_eof s || is_fail s = true -> zlen data <= start + pos)).

Lemma istream_gives data start kind (prompt : bool) pos s n :
  0 <= start -> zlen data <= LLONG_MAX -> 0 < n -> file_inv data start kind false pos (is_file s) ->
  (prompt = true -> f_sched (is_file s) = [] /\ (is_eof s || is_fail s = true -> zlen data <= start + pos)) ->
  exists bs s1, istream_read n s = (bs, s1) /\ file_inv data start kind false (pos + zlen bs) (is_file s1) /\
    zlen bs <= n /\ bs = firstn (length bs) (skipn (Z.to_nat pos) (skipn (Z.to_nat start) data)) /\
    (0 < zlen bs -> start + pos + zlen bs <= zlen data) /\
    (prompt = true -> bs = [] -> zlen data <= start + pos) /\
    (prompt = true -> f_sched (is_file s1) = [] /\ (is_eof s1 || is_fail s1 = true -> zlen data <= start + (pos + zlen bs))).
Proof.
  intros Hs Hd Hn Hf Hpr. unfold istream_read.
  destruct (is_eof s || is_fail s) eqn:E.
  - eexists _, _; split; [reflexivity|]. cbn [is_file is_eof is_fail].
    replace (pos + zlen (@nil Z)) with pos by (unfold zlen; cbn [length]; lia).
    split; [exact Hf|]. split; [unfold zlen; cbn [length]; lia|]. split; [reflexivity|].
    split; [unfold zlen; cbn [length]; lia|]. split.
    + intros P _. now apply (Hpr P).
    + intros P. destruct (Hpr P) as [H1 H2]. split; [exact H1|]. intros _. now apply H2.
  - destruct (fread_gives data start kind false pos (is_file s) n Hs Hd Hn Hf)
      as (bs & f1 & -> & Hf1 & Hle & Hbs & Hin & _ & Hend).
    eexists _, _; split; [reflexivity|]. cbn [is_file is_eof is_fail].
    split; [exact Hf1|]. split; [exact Hle|]. split; [exact Hbs|]. split; [exact Hin|]. split.
    + intros P ->. destruct (Hpr P) as [H1 _]. destruct (Hend H1) as [_ H2].
      unfold zlen in H2 at 1 3; cbn [length] in H2. lia.
    + intros P. destruct (Hpr P) as [H1 _]. destruct (Hend H1) as [H2 H3]. split; [exact H2|].
      intros E2. rewrite Z.add_assoc. apply H3. destruct (Z.eqb_spec (zlen bs) n); [discriminate|assumption].
Qed.

Lemma istream_step data start kind prompt c pos r :
  0 <= start -> zlen data <= LLONG_MAX ->
  allowed c /\ moves c = false -> ir_inv data start kind prompt pos r ->
  exists a r1 pos1, istream_call c r = Val (a, r1) /\ ir_inv data start kind prompt pos1 r1 /\
    forall l pos', right (beyond_of kind) prompt (skipn (Z.to_nat start) data) pos1 l pos' ->
                   right (beyond_of kind) prompt (skipn (Z.to_nat start) data) pos ((c, a) :: l) pos'.
Proof.
  intros Hs Hd [Ha Hmv] (s & Es & Ep & Hf & Hpr).
  assert (Hpos : 0 <= pos /\ start + pos <= LLONG_MAX) by (destruct Hf as (_ & _ & _ & ? & ? & _); lia).
  unfold LLONG_MAX in Hd, Hpos.
  destruct c as [n|n|p]; [| |discriminate Hmv]; cbn [allowed] in Ha; cbn [istream_call].
  - unfold IstreamReader_Read. rewrite Es.
    set (d := if n >? LLONG_MAX then LLONG_MAX else n).
    assert (Hdd : 0 < d <= n) by (subst d; unfold LLONG_MAX; destruct (n >? 9223372036854775807) eqn:E; lia).
    destruct (istream_gives data start kind prompt pos s d Hs Hd ltac:(lia) Hf Hpr)
      as (bs & s1 & -> & Hf1 & Hle & Hbs & Hin & Hend & Hpr1).
    pose proof (zlen_nn bs) as Hnn.
    assert (Hw : wrap64 (ir_pos r + zlen bs) = pos + zlen bs).
    { rewrite Ep. apply wrap64_small. destruct (Z.eq_dec (zlen bs) 0); lia. }
    assert (HI : ir_inv data start kind prompt (pos + zlen bs) (mkIR (Some s1) (wrap64 (ir_pos r + zlen bs)))).
    { exists s1. split; [reflexivity|]. split; [exact Hw|]. split; [exact Hf1|exact Hpr1]. }
    pose proof (status_by n (zlen bs) ltac:(lia) ltac:(lia)) as St.
    exists (ARead (if zlen bs =? 0 then kEndOfFile else if zlen bs =? n then kOkCompleted else kOkPartial) bs).
    eexists _, (pos + zlen bs). split; [|split; [exact HI|]].
    + destruct (zlen bs =? 0); [reflexivity|]. destruct (zlen bs =? n); reflexivity.
    + intros l pos' Hl. eapply right_read; [exact St|exact Hbs| |exact Hl].
      intros P ->. cbn. split; [reflexivity|]. apply src_len; try lia; now apply Hend.
  - unfold IstreamReader_Skip. rewrite Es.
    destruct (is_eof s || is_fail s) eqn:Eb.
    { eexists _, _, pos. split; [reflexivity|]. split.
      { exists s. split; [exact Es|]. split; [exact Ep|]. split; [exact Hf|exact (fun P => conj (proj1 (Hpr P)) (fun _ => proj2 (Hpr P) eq_refl))]. }
      intros l pos' Hl. eapply right_skip; [apply (status_by n 0); lia|lia| |now rewrite Z.add_0_r].
      intros P _. split; [reflexivity|]. apply src_len; try lia; now apply (Hpr P). }
    set (d := if n >? LLONG_MAX then LLONG_MAX else n).
    assert (Hdd : 0 < d <= n) by (subst d; unfold LLONG_MAX; destruct (n >? 9223372036854775807) eqn:E; lia).
    unfold istream_seekg. apply orb_false_iff in Eb as [Eb1 Eb2]. rewrite Eb2.
    destruct (fseek_gives data start kind false pos (is_file s) d Hs ltac:(lia) Hf) as (ok & f1 & -> & Hsc & Hok).
    destruct ok; cbn [negb].
    + destruct Hok as [Hf1 Hin].
      assert (Hw : wrap64 (ir_pos r + d) = pos + d).
      { rewrite Ep. apply wrap64_small. destruct Hf1 as (_ & _ & _ & ? & Hb & _). unfold LLONG_MAX in Hb. lia. }
      eexists _, _, (pos + d). split; [reflexivity|]. split.
      { exists (mkIs f1 false false). split; [reflexivity|]. split; [exact Hw|]. cbn [is_file is_eof is_fail orb].
        split; [exact Hf1|]. intros P. rewrite Hsc. split; [now apply (Hpr P)|discriminate]. }
      intros l pos' Hl. eapply right_skip; [| | |exact Hl].
      * pose proof (status_by n d ltac:(lia) ltac:(lia)) as St. destruct (Z.eqb_spec d 0); [lia|exact St].
      * intros B _. apply src_len'; try lia; specialize (Hin B); lia.
      * lia.
    + subst f1. set (want := if n <? 1024 then n else 1024). cbn [is_file].
      assert (Hwn : 0 < want <= n) by (subst want; destruct (n <? 1024) eqn:E; lia).
      destruct (istream_gives data start kind prompt pos (mkIs (is_file s) false false) want Hs Hd ltac:(lia) Hf)
        as (bs & s1 & -> & Hf1 & Hle & Hbs & Hin & Hend & Hpr1).
      { cbn [is_file is_eof is_fail orb]. intros P. split; [now apply (Hpr P)|discriminate]. }
      pose proof (zlen_nn bs) as Hnn.
      assert (Hw : wrap64 (ir_pos r + zlen bs) = pos + zlen bs).
      { rewrite Ep. apply wrap64_small. destruct (Z.eq_dec (zlen bs) 0); lia. }
      assert (HI : ir_inv data start kind prompt (pos + zlen bs) (mkIR (Some s1) (wrap64 (ir_pos r + zlen bs)))).
      { exists s1. split; [reflexivity|]. split; [exact Hw|]. split; [exact Hf1|exact Hpr1]. }
      pose proof (status_by n (zlen bs) ltac:(lia) ltac:(lia)) as St.
      exists (ASkip (if zlen bs =? 0 then kEndOfFile else if zlen bs =? n then kOkCompleted else kOkPartial) (zlen bs)).
      eexists _, (pos + zlen bs). split; [|split; [exact HI|]].
      * destruct (zlen bs =? 0); [reflexivity|].
        destruct (Z.eqb_spec (n - zlen bs) 0), (Z.eqb_spec (zlen bs) n); try reflexivity; lia.
      * intros l pos' Hl. eapply right_skip; [exact St| | |exact Hl].
        -- intros _ Hb. apply src_len'; try lia.
        -- intros P E. apply zlen_zero in E. subst bs. cbn. split; [reflexivity|]. apply src_len; try lia; now apply Hend.
Qed.

(* ---------- the parser's view ---------- *)
Lemma take_some src pos n k s tr :
  0 <= pos -> 0 < k <= n -> pos + k <= zlen src ->
  rd_take n (mk_world (skipn (Z.to_nat pos) src) pos (k :: s) tr) =
    (if k =? n then kOkCompleted else kOkPartial, firstn (Z.to_nat k) (skipn (Z.to_nat pos) src),
     mk_world (skipn (Z.to_nat (pos + k)) src) (pos + k) s tr).
Proof.
  intros Hp Hk Hl. unfold rd_take; cbn [w_sched]. destruct (Z.leb_spec k 0); [lia|].
  unfold rd_give, w_got; cbn [w_data w_pos w_trace].
  pose proof (zlen_skip pos src Hp) as Hz.
  destruct (skipn (Z.to_nat pos) src) as [|x rest] eqn:E;
    [unfold zlen in Hz at 1; cbn [length] in Hz; lia|].
  rewrite <- E in Hz.
  rewrite <- E. clear E.
  replace (Z.min (Z.min n k) (zlen (skipn (Z.to_nat pos) src))) with k by lia.
  rewrite skipn_skipn. replace (Z.to_nat k + Z.to_nat pos)%nat with (Z.to_nat (pos + k)) by lia. reflexivity.
Qed.
Lemma take_none src pos n s tr :
  0 <= pos -> zlen src <= pos ->
  rd_take n (mk_world (skipn (Z.to_nat pos) src) pos (1 :: s) tr) =
    (kEndOfFile, [], mk_world (skipn (Z.to_nat pos) src) pos s tr).
Proof.
  intros Hp Hl. unfold rd_take; cbn [w_sched]. cbn [Z.leb Z.compare].
  rewrite (skipn_all2 src) by (unfold zlen in Hl; lia). reflexivity.
Qed.

Lemma right_source src pos l pos' :
  right false true src pos l pos' -> 0 <= pos ->
  Forall (fun c => moves c = false) (map fst l) ->
  exists sched, Forall (fun k => 0 < k) sched /\
    forall tr, history source_call (map fst l) (mk_world (skipn (Z.to_nat pos) src) pos sched tr)
             = Val (l, mk_world (skipn (Z.to_nat pos') src) pos' [] tr).
Proof.
  intros H. induction H as [pos|pos n st bs l pos' Hst Hbs Hpr Hl IH|pos n st k l pos' Hst Hin Hpr Hl IH|pos p st l pos' Hl IH];
    intros Hp Hm; cbn [map fst] in *.
  - exists []. split; [constructor|]. reflexivity.
  - inversion Hm as [|? ? _ Hm']; subst. pose proof (zlen_nn bs) as Hnn.
    destruct (IH ltac:(lia) Hm') as (s & Hs & Hh).
    destruct Hst as (Hr & S1 & S2 & S3).
    destruct (Z.eq_dec (zlen bs) 0) as [E|E].
    + apply zlen_zero in E. rewrite E in *. destruct (Hpr eq_refl eq_refl) as [-> Hle].
      replace (pos + zlen (@nil Z)) with pos in * by (unfold zlen; cbn [length]; lia).
      exists (1 :: s). split; [constructor; [lia|exact Hs]|]. intros tr. cbn [history source_call].
      rewrite take_none by lia. now rewrite Hh.
    + assert (Hlen : pos + zlen bs <= zlen src).
      { pose proof (f_equal (@length Z) Hbs) as Hl2. rewrite firstn_length, skipn_length in Hl2. unfold zlen in *. lia. }
      exists (zlen bs :: s). split; [constructor; [lia|exact Hs]|]. intros tr. cbn [history source_call].
      rewrite take_some by lia. rewrite Hh.
      replace (Z.to_nat (zlen bs)) with (length bs) by (unfold zlen; lia). rewrite <- Hbs.
      destruct (Z.eqb_spec (zlen bs) n) as [En|En]; [rewrite (S1 En)|rewrite S2 by lia]; reflexivity.
  - inversion Hm as [|? ? _ Hm']; subst.
    destruct Hst as (Hr & S1 & S2 & S3).
    destruct (IH ltac:(lia) Hm') as (s & Hs & Hh).
    destruct (Z.eq_dec k 0) as [->|E].
    + destruct (Hpr eq_refl eq_refl) as [-> Hle]. rewrite Z.add_0_r in *.
      exists (1 :: s). split; [constructor; [lia|exact Hs]|]. intros tr. cbn [history source_call].
      rewrite take_none by lia. now rewrite Hh.
    + exists (k :: s). split; [constructor; [lia|exact Hs]|]. intros tr. cbn [history source_call].
      specialize (Hin eq_refl ltac:(lia)).
      rewrite take_some by lia. rewrite Hh. rewrite zlen_first by (rewrite zlen_skip by lia; lia).
      destruct (Z.eqb_spec k n) as [En|En]; [rewrite (S1 En)|rewrite S2 by lia]; reflexivity.
  - inversion Hm; discriminate.
Qed.
