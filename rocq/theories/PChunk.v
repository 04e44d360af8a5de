From Coq Require Import ZifyBool ZifyNat.
From Verif Require Import Base MWriter MFile ChunkSpec MChunk.

(* ---------- names ---------- *)

Lemma number_snoc : forall l d, number (l ++ [d]) = 10 * number l + (d - 48).
Proof. intros l d. unfold number. rewrite fold_left_app. reflexivity. Qed.
Lemma digits_number : forall f n, 0 <= n < 10 ^ Z.of_nat f -> number (digits f n) = n.
Proof.
  induction f as [|f IH]; intros n H; cbn [digits]; [change (10 ^ Z.of_nat 0) with 1 in H; cbn; lia|].
  destruct (Z.ltb_spec n 10); [unfold number; cbn [fold_left]; lia|].
  rewrite Nat2Z.inj_succ, Z.pow_succ_r in H by lia.
  rewrite number_snoc, IH; [pose proof (Z.div_mod n 10 ltac:(lia)); lia|].
  split; [apply Z.div_pos; lia|apply Z.div_lt_upper_bound; lia].
Qed.
Lemma digits_all : forall f n, 0 <= n -> Forall is_digit (digits f n).
Proof.
  induction f as [|f IH]; intros n H; cbn [digits]; [constructor|]. unfold is_digit in *.
  destruct (Z.ltb_spec n 10); [repeat constructor; lia|]. apply Forall_app. split; [apply IH; apply Z.div_pos; lia|].
  pose proof (Z.mod_pos_bound n 10 ltac:(lia)). repeat constructor; lia.
Qed.
Lemma digits_hd : forall f n, 0 < n < 10 ^ Z.of_nat f -> hd 0 (digits f n) <> 48.
Proof.
  induction f as [|f IH]; intros n H; [change (10 ^ Z.of_nat 0) with 1 in H; lia|]. cbn [digits].
  destruct (Z.ltb_spec n 10); [cbn [hd]; lia|]. rewrite Nat2Z.inj_succ, Z.pow_succ_r in H by lia.
  assert (Q : 0 < n / 10 < 10 ^ Z.of_nat f) by (split; [apply Z.div_str_pos; lia|apply Z.div_lt_upper_bound; lia]).
  specialize (IH _ Q). destruct (digits f (n / 10)) as [|x l] eqn:E.
  - exfalso. pose proof (digits_number f (n / 10) ltac:(lia)) as N. rewrite E in N. cbn in N. lia.
  - exact IH.
Qed.
Lemma number_zeros : forall k l, number (repeat 48 k ++ l) = number l.
Proof. intros k l. unfold number. rewrite fold_left_app. f_equal. induction k as [|k IH]; [reflexivity|]. cbn [repeat fold_left]. exact IH. Qed.

Definition small (n : Z) : Prop := 0 <= n < 2 ^ 31.
Lemma small10 : forall n, small n -> 0 <= n < 10 ^ Z.of_nat 10. Proof. intros n [H1 H2]. split; [exact H1|]. change (10 ^ Z.of_nat 10) with 10000000000. change (2 ^ 31) with 2147483648 in H2. lia. Qed.
Lemma d06_digits : forall n, small n -> Forall is_digit (d06 n) /\ number (d06 n) = n /\ (length (d06 n) = 6%nat \/ (6 < length (d06 n))%nat /\ hd 0 (d06 n) <> 48).
Proof.
  intros n H. pose proof (small10 n H) as H10. unfold d06. replace (n <? 0) with false by lia. unfold padded.
  split; [apply Forall_app; split; [|apply digits_all; lia]|].
  { apply Forall_forall. intros x Hx. apply repeat_spec in Hx. unfold is_digit. lia. }
  split; [rewrite number_zeros; apply digits_number; exact H10|].
  rewrite app_length, repeat_length. destruct (Nat.leb_spec (length (digits 10 n)) 6) as [L|L]; [left; lia|]. right. split; [lia|].
  replace (6 - length (digits 10 n))%nat with 0%nat by lia. cbn [repeat app]. apply digits_hd. split; [|apply H10].
  destruct (Z.eq_dec n 0) as [->|]; [|unfold small in H; lia]. exfalso. cbn in L. lia.
Qed.
Lemma chunk_numbered : forall base ext n, small n -> numbered base ext n (chunk_file base ext n).
Proof. intros base ext n H. destruct (d06_digits n H) as (H1 & H2 & H3). exists (d06 n). repeat (split; [reflexivity || assumption|]). exact H3. Qed.

Lemma cut_at : forall (x : Z) a b r1 r2, ~ In x a -> ~ In x b -> a ++ x :: r1 = b ++ x :: r2 -> a = b.
Proof.
  intros x. induction a as [|y a IH]; intros [|z b] r1 r2 Ha Hb H; cbn [app In] in *; try reflexivity.
  - injection H as E _. exfalso. apply Hb. left. congruence.
  - injection H as E _. exfalso. apply Ha. left. congruence.
  - injection H as E H. f_equal; [exact E|]. apply (IH b r1 r2); tauto.
Qed.
Lemma no_underscore : forall l, Forall is_digit l -> ~ In 95 (rev l).
Proof. intros l H Hin. apply in_rev in Hin. rewrite Forall_forall in H. specialize (H _ Hin). unfold is_digit in H. lia. Qed.
Lemma numbered_inj : forall base base' ext k k' n, numbered base ext k n -> numbered base' ext k' n -> k = k'.
Proof.
  intros base base' ext k k' n (ds & E & D & N & _) (ds' & E' & D' & N' & _). rewrite E in E'. clear E. apply (f_equal (@rev Z)) in E'.
  rewrite !rev_app_distr in E'. rewrite <- !app_assoc in E'. apply app_inv_head in E'. apply app_inv_head in E'. cbn [rev app] in E'.
  apply cut_at in E'; [|apply no_underscore; assumption|apply no_underscore; assumption].
  apply (f_equal (@rev Z)) in E'. rewrite !rev_involutive in E'. congruence.
Qed.
Lemma last_of_numbered : forall base e x k n, numbered base (e ++ [x]) k n -> last n 0 = x.
Proof. intros base e x k n (ds & -> & _). rewrite !app_assoc. apply last_last. Qed.
Lemma chk_last : forall base k n, numbered base ext_chk k n -> last n 0 = 107. Proof. intros base k n H. exact (last_of_numbered base [99; 104] 107 k n H). Qed.
Lemma cues_last : forall base k n, numbered base ext_cues k n -> last n 0 = 115. Proof. intros base k n H. exact (last_of_numbered base [99; 117; 101] 115 k n H). Qed.
Lemma header_last : forall base, last (header_file base) 0 = 114.
Proof. intros base. unfold header_file, ext_hdr. change (base ++ [46; 104; 100; 114]) with (base ++ ([46; 104; 100] ++ [114])). rewrite app_assoc. apply last_last. Qed.

(* ---------- no file is opened twice ---------- *)

Definition inv (s : chunks) : Prop :=
  NoDup (map fst (ck_disk s)) /\ 0 <= ck_count s /\
  forall n, In n (map fst (ck_disk s)) ->
    (exists base k, numbered base ext_chk k n /\ k <= ck_count s /\ (ck_cluster s = None -> k < ck_count s)) \/
    (exists base k, numbered base ext_cues k n /\ 0 < k <= ck_count s) \/
    (exists base, n = header_file base /\ (ck_cluster s <> None \/ 0 < ck_count s)).

Lemma store_names : forall n f d, map fst (store n f d) = map fst d.
Proof. intros n f. induction d as [|(m, g) d IH]; [reflexivity|]. cbn [store]. destruct (same_name m n); cbn [map fst]; [reflexivity|]. rewrite IH. reflexivity. Qed.
Lemma call_names : forall c w d, map fst (snd (call c w d)) = map fst d /\ (fst (call c w d) = None <-> w = None).
Proof.
  intros c w d. unfold call. destruct w as [(n, off)|]; [|split; [reflexivity|tauto]].
  destruct c as [bs|p]; [destruct (zlen bs =? 0)|destruct (p <? 0)]; cbn [fst snd]; try rewrite store_names; split; try reflexivity; split; discriminate.
Qed.

Lemma sint32_small : forall n, 0 <= n < 2 ^ 31 - 1 -> sint32 (n + 1) = n + 1.
Proof.
  intros n H. unfold sint32, wraps. change (2 ^ 32) with 4294967296 in *. change (2 ^ (32 - 1)) with 2147483648. change (2 ^ 31) with 2147483648 in H.
  rewrite Z.mod_small by lia. destruct (Z.ltb_spec (n + 1) 2147483648); lia.
Qed.

Ltac fields := cbn [ck_on ck_base ck_count ck_size ck_in_use ck_cluster ck_cues ck_header ck_disk fst snd negb] in *.

(* a fresh file *)
Lemma inv_step : forall e s, inv s -> ck_count s < 2 ^ 31 - 1 -> inv (step s e) /\ ck_count (step s e) <= ck_count s + 1.
Proof.
  intros e [on base count size use cl cu hd d] (ND & C0 & HN) HC. fields.
  assert (SM : small count) by (split; [exact C0|change (2 ^ 31) with 2147483648 in *; lia]).
  assert (SM1 : small (count + 1)) by (split; [lia|change (2 ^ 31) with 2147483648 in *; lia]).
  pose proof (sint32_small count ltac:(lia)) as SI.
  destruct e as [|on' fn a b|ok|c|c|c|live|i ok|]; cbn [step].
  - split; [|fields; lia]. split; [exact ND|]. split; [exact C0|exact HN].
  - unfold SetChunking. fields. destruct (Z.gtb_spec count 0) as [G|G]; [fields; split; [split; [exact ND|split; [exact C0|exact HN]]|lia]|].
    destruct on'; cbn [negb]; [|fields; split; [split; [exact ND|split; [exact C0|exact HN]]|lia]].
    destruct (on && same_name fn base); [fields; split; [split; [exact ND|split; [exact C0|exact HN]]|lia]|].
    assert (E0 : count = 0) by lia. subst count.
    destruct cl as [h|]; [cbn [Open negb]; fields; split; [split; [exact ND|split; [exact C0|exact HN]]|lia]|].
    destruct a; [|cbn [Open negb]; fields; split; [split; [exact ND|split; [exact C0|exact HN]]|lia]].
    cbn [Open negb].
    assert (Fresh : map fst d = []).
    { destruct (map fst d) as [|n l] eqn:E; [reflexivity|]. exfalso. destruct (HN n (or_introl eq_refl)) as [(bb & k & Hk & L & L2)|[(bb & k & Hk & L)|(bb & Hk & L)]].
      - specialize (L2 eq_refl). destruct Hk as (ds & _ & Dd & Nn & _). assert (0 <= number ds); [|lia].
        clear - Dd. unfold number. assert (Q : forall l a, Forall is_digit l -> 0 <= a -> 0 <= fold_left (fun a d => 10 * a + (d - 48)) l a).
        { induction l as [|x l IH]; intros a0 F A; [exact A|]. cbn [fold_left]. inversion F; subst. apply IH; [assumption|]. unfold is_digit in *. lia. }
        apply Q; [exact Dd|lia].
      - lia.
      - destruct L as [L|L]; [congruence|lia]. }
    assert (CH : numbered fn ext_chk 0 (chunk_file fn ext_chk 0)) by (apply chunk_numbered; exact SM).
    destruct hd as [h|]; [|destruct b]; cbn [Open negb]; fields; (split; [unfold inv; fields|lia]).
    + split; [cbn [map fst]; rewrite Fresh; repeat constructor; auto|]. split; [lia|]. intros n Hn. fields. cbn [map fst In] in Hn. rewrite Fresh in Hn. destruct Hn as [<-|[]].
      left. exists fn, 0. split; [exact CH|]. split; [lia|discriminate].
    + split. { cbn [map fst]. rewrite Fresh. constructor; [|repeat constructor; auto]. intros [E|[]]. pose proof (header_last fn) as L1. pose proof (chk_last _ _ _ CH) as L2. rewrite <- E in L1. rewrite L2 in L1. discriminate. }
      split; [lia|]. intros n Hn. fields. cbn [map fst In] in Hn. rewrite Fresh in Hn. destruct Hn as [<-|[<-|[]]].
      * right. right. exists fn. split; [reflexivity|left; discriminate].
      * left. exists fn, 0. split; [exact CH|]. split; [lia|discriminate].
    + split; [cbn [map fst]; rewrite Fresh; repeat constructor; auto|]. split; [lia|]. intros n Hn. fields. cbn [map fst In] in Hn. rewrite Fresh in Hn. destruct Hn as [<-|[]].
      left. exists fn, 0. split; [exact CH|]. split; [lia|discriminate].
  - unfold MakeNewCluster_files. fields. destruct (on && (size >? 0)); [|fields; split; [split; [exact ND|split; [exact C0|exact HN]]|lia]].
    rewrite SI. assert (OLD : forall n, In n (map fst d) ->
      (exists base k, numbered base ext_chk k n /\ k < count + 1) \/ (exists base k, numbered base ext_cues k n /\ 0 < k <= count + 1) \/ (exists base, n = header_file base)).
    { intros n Hn. destruct (HN n Hn) as [(bb & k & Hk & L & _)|[(bb & k & Hk & L)|(bb & Hk & _)]].
      - left. exists bb, k. split; [exact Hk|lia].
      - right. left. exists bb, k. split; [exact Hk|lia].
      - right. right. exists bb. exact Hk. }
    assert (OLD2 : forall w n, In n (map fst d) ->
      (exists base k, numbered base ext_chk k n /\ k <= count + 1 /\ (w = None :> chunk_writer -> k < count + 1)) \/ (exists base k, numbered base ext_cues k n /\ 0 < k <= count + 1) \/
      (exists base, n = header_file base /\ (w <> None \/ 0 < count + 1))).
    { intros w n Hn. destruct (OLD n Hn) as [(bb & k & Hk & L)|[Q|(bb & Hk)]].
      - left. exists bb, k. split; [exact Hk|]. split; lia.
      - right. left. exact Q.
      - right. right. exists bb. split; [exact Hk|right; lia]. }
    destruct ok; cbn [Open]; fields; (split; [unfold inv; fields|lia]).
    + split.
      { cbn [map fst]. constructor; [|exact ND]. intros Hn. pose proof (chunk_numbered base ext_chk (count + 1) SM1) as CH.
        destruct (OLD _ Hn) as [(bb & k & Hk & L)|[(bb & k & Hk & L)|(bb & Hk)]].
        - pose proof (numbered_inj _ _ _ _ _ _ Hk CH). lia.
        - pose proof (cues_last _ _ _ Hk) as L1. rewrite (chk_last _ _ _ CH) in L1. discriminate.
        - pose proof (header_last bb) as L1. rewrite <- Hk, (chk_last _ _ _ CH) in L1. discriminate. }
      split; [lia|]. intros n Hn. fields. cbn [map fst In] in Hn. destruct Hn as [<-|Hn]; [|apply OLD2; exact Hn].
      left. exists base, (count + 1). split; [apply chunk_numbered; exact SM1|]. split; [lia|discriminate].
    + split; [exact ND|]. split; [lia|]. intros n Hn. apply OLD2. exact Hn.
  - destruct use; fields; [|split; [split; [exact ND|split; [exact C0|exact HN]]|lia]].
    destruct (call c cl d) as (w', d') eqn:E. pose proof (call_names c cl d) as (N1 & N2). rewrite E in N1, N2. fields. split; [|lia].
    split; fields; [rewrite N1; exact ND|]. split; [exact C0|]. rewrite N1. intros n Hn. destruct (HN n Hn) as [(bb & k & Hk & L & L2)|[Q|(bb & Hk & L)]].
    + left. exists bb, k. split; [exact Hk|]. split; [exact L|]. intros Q. apply L2. apply N2. exact Q.
    + right. left. exact Q.
    + right. right. exists bb. split; [exact Hk|]. destruct L as [L|L]; [left; intros Q; apply L, N2, Q|right; exact L].
  - destruct use; fields; [|split; [split; [exact ND|split; [exact C0|exact HN]]|lia]].
    destruct (call c hd d) as (w', d') eqn:E. pose proof (call_names c hd d) as (N1 & N2). rewrite E in N1, N2. fields. split; [|lia].
    split; fields; [rewrite N1; exact ND|]. split; [exact C0|]. rewrite N1. exact HN.
  - destruct use; fields; [|split; [split; [exact ND|split; [exact C0|exact HN]]|lia]].
    destruct (call c cu d) as (w', d') eqn:E. pose proof (call_names c cu d) as (N1 & N2). rewrite E in N1, N2. fields. split; [|lia].
    split; fields; [rewrite N1; exact ND|]. split; [exact C0|]. rewrite N1. exact HN.
  - unfold header_done. fields. destruct (on && live); fields; (split; [split; [exact ND|split; [exact C0|exact HN]]|lia]).
  - unfold Finalize_files. fields. destruct on; [|fields; split; [split; [exact ND|split; [exact C0|exact HN]]|lia]].
    rewrite SI. assert (OLD : forall n, In n (map fst d) ->
      (exists base k, numbered base ext_chk k n /\ k <= count + 1 /\ (None = None :> chunk_writer -> k < count + 1)) \/ (exists base k, numbered base ext_cues k n /\ 0 < k <= count) \/
      (exists base, n = header_file base /\ ((None : chunk_writer) <> None \/ 0 < count + 1))).
    { intros n Hn. destruct (HN n Hn) as [(bb & k & Hk & L & _)|[(bb & k & Hk & L)|(bb & Hk & _)]].
      - left. exists bb, k. split; [exact Hk|]. split; lia.
      - right. left. exists bb, k. split; [exact Hk|lia].
      - right. right. exists bb. split; [exact Hk|right; lia]. }
    assert (OLD2 : forall n, In n (map fst d) ->
      (exists base k, numbered base ext_chk k n /\ k <= count + 1 /\ (None = None :> chunk_writer -> k < count + 1)) \/ (exists base k, numbered base ext_cues k n /\ 0 < k <= count + 1) \/
      (exists base, n = header_file base /\ ((None : chunk_writer) <> None \/ 0 < count + 1))).
    { intros n Hn. destruct (OLD n Hn) as [Q|[(bb & k & Hk & L)|Q]]; [left; exact Q| |right; right; exact Q]. right. left. exists bb, k. split; [exact Hk|lia]. }
    destruct i; cbn [negb]; [|fields; split; [unfold inv; fields; split; [exact ND|split; [lia|exact OLD2]]|lia]].
    destruct cu as [h|]; [|destruct ok]; cbn [Open]; fields; (split; [unfold inv; fields|lia]).
    + split; [exact ND|split; [lia|exact OLD2]].
    + split.
      { cbn [map fst]. constructor; [|exact ND]. intros Hn. pose proof (chunk_numbered base ext_cues (count + 1) SM1) as CH.
        destruct (OLD _ Hn) as [(bb & k & Hk & L)|[(bb & k & Hk & L)|(bb & Hk & _)]].
        - pose proof (chk_last _ _ _ Hk) as L1. rewrite (cues_last _ _ _ CH) in L1. discriminate.
        - pose proof (numbered_inj _ _ _ _ _ _ Hk CH). lia.
        - pose proof (header_last bb) as L1. rewrite <- Hk, (cues_last _ _ _ CH) in L1. discriminate. }
      split; [lia|]. intros n Hn. fields. cbn [map fst In] in Hn. destruct Hn as [<-|Hn]; [|apply OLD2; exact Hn].
      right. left. exists base, (count + 1). split; [apply chunk_numbered; exact SM1|lia].
    + split; [exact ND|split; [lia|exact OLD2]].
  - unfold finalized. fields. destruct on; fields; (split; [split; [exact ND|split; [exact C0|exact HN]]|lia]).
Qed.

Lemma inv_run : forall evs s, inv s -> ck_count s + zlen evs < 2 ^ 31 -> inv (run evs s).
Proof.
  induction evs as [|e evs IH]; intros s HI HL; [exact HI|]. cbn [run fold_left]. rewrite zlen_cons in HL. pose proof (zlen_nonneg _ evs).
  destruct (inv_step e s HI ltac:(lia)) as (HI2 & HC). apply IH; [exact HI2|lia].
Qed.
Lemma inv_init : inv ck_init.
Proof. split; [constructor|]. split; [cbn; lia|]. intros n []. Qed.
