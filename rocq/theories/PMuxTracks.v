(* Proofs about Tracks::AddTrack. *)
From Coq Require Import ZifyBool ZifyNat FinFun.
From Verif Require Import Base MWriter MMuxUtil Ids MMuxBlock MMuxMeta MMuxSegment TracksSpec.

Lemma number_used_In : forall l n, number_used l n = true <-> In n (map tk_number l).
Proof.
  intros l n. unfold number_used. rewrite existsb_exists, in_map_iff. split.
  - intros (t & Ht & He). exists t. split; [lia|exact Ht].
  - intros (t & He & Ht). exists t. split; [exact Ht|lia].
Qed.

Definition upto (n : Z) (k : nat) : list Z := map (fun i => n + Z.of_nat i) (seq 0 k).
Lemma upto_NoDup : forall n k, NoDup (upto n k).
Proof.
  intros n k. unfold upto. apply Injective_map_NoDup; [|apply seq_NoDup]. intros a b H. lia.
Qed.

Lemma next_number_None : forall fuel l n, 0 <= n -> n + Z.of_nat fuel < 4294967296 -> next_number fuel l n = None ->
  forall i, (i < fuel)%nat -> In (n + Z.of_nat i) (map tk_number l).
Proof.
  induction fuel as [|fuel IH]; intros l n Hn Hb H i Hi; [lia|].
  cbn [next_number] in H. destruct (number_used l n) eqn:E; [|discriminate].
  destruct i as [|i].
  - replace (n + Z.of_nat 0) with n by lia. apply number_used_In. exact E.
  - replace (n + Z.of_nat (S i)) with (n + 1 + Z.of_nat i) by lia. apply IH; try lia.
    replace (wrap32 (n + 1)) with (n + 1) in H; [exact H|]. unfold wrap32. rewrite Z.mod_small; lia.
Qed.

Lemma next_number_Some : forall fuel l n m, 0 <= n -> n + Z.of_nat fuel < 4294967296 -> next_number fuel l n = Some m ->
  n <= m < n + Z.of_nat fuel /\ ~ In m (map tk_number l).
Proof.
  induction fuel as [|fuel IH]; intros l n m Hn Hb H; [discriminate|].
  cbn [next_number] in H. destruct (number_used l n) eqn:E.
  - replace (wrap32 (n + 1)) with (n + 1) in H by (unfold wrap32; rewrite Z.mod_small; lia).
    apply IH in H; [|lia|lia]. split; [lia|tauto].
  - injection H as <-. split; [lia|]. rewrite <- number_used_In, E. discriminate.
Qed.

Lemma next_number_total : forall l n, 0 <= n -> n + Z.of_nat (S (length l)) < 4294967296 ->
  exists m, next_number (S (length l)) l n = Some m.
Proof.
  intros l n Hn Hb. destruct (next_number (S (length l)) l n) as [m|] eqn:E; [eauto|]. exfalso.
  pose proof (next_number_None _ _ _ Hn Hb E) as H.
  assert (Hl : (length (upto n (S (length l))) <= length (map tk_number l))%nat).
  { apply NoDup_incl_length; [apply upto_NoDup|]. intros x Hx. unfold upto in Hx. apply in_map_iff in Hx.
    destruct Hx as (i & <- & Hi). apply in_seq in Hi. apply H. lia. }
  unfold upto in Hl. rewrite !map_length, seq_length in Hl. lia.
Qed.

(* AddTrack is defined for every argument, appends the track or changes nothing *)
Lemma AddTrack_result : forall l wrote t number, zlen l < 1000000000 -> -2147483648 <= number <= 2147483647 ->
  (Tracks_AddTrack l wrote t number = Val (false, l) /\
   (wrote = true \/ number < 0 \/ number > 126 \/ (1 <= number /\ In number (map tk_number l)))) \/
  (exists n, Tracks_AddTrack l wrote t number = Val (true, l ++ [tk_set_number n t]) /\
     wrote = false /\ ~ In n (map tk_number l) /\
     ((number = 0 /\ zlen l + 1 <= n <= 2 * zlen l + 1) \/ (1 <= number <= 126 /\ n = number))).
Proof.
  intros l wrote t number Hl Hn. unfold Tracks_AddTrack.
  destruct ((number <? 0) || wrote) eqn:E1; [left; split; [reflexivity|]; destruct wrote; [auto|]; lia|].
  assert (wrote = false /\ 0 <= number) as [-> H0] by (destruct wrote; lia).
  destruct (number >? 126) eqn:E2; [left; split; [reflexivity|lia]|].
  destruct ((number >? 0) && number_used l number) eqn:E3.
  { left. split; [reflexivity|]. right. right. right. split; [lia|]. apply number_used_In. destruct (number_used l number); lia. }
  right. destruct (number =? 0) eqn:E4.
  - assert (Hz : wrap32 (zlen l + 1) = zlen l + 1) by (unfold wrap32; rewrite Z.mod_small; [lia|]; unfold zlen in *; lia).
    rewrite Hz. destruct (next_number_total l (zlen l + 1)) as [m Hm]; [unfold zlen; lia|unfold zlen in *; lia|].
    rewrite Hm. apply next_number_Some in Hm; [|unfold zlen; lia|unfold zlen in *; lia].
    exists m. repeat split; try tauto. left. split; [lia|]. unfold zlen in *. lia.
  - exists number. repeat split; auto. 2: right; lia.
    rewrite <- number_used_In. destruct (number_used l number); [lia|discriminate].
Qed.

Lemma add_tracks_ok : forall adds l, zlen l + zlen adds < 1000000000 ->
  Forall (fun a => -2147483648 <= snd a <= 2147483647) adds -> numbers_ok l ->
  exists rs l', add_tracks l adds = Val (rs, l ++ l') /\ length rs = length adds /\ numbers_ok (l ++ l') /\
    (* the tracks whose addition succeeded, in order, each only with its number set *)
    Forall2 (fun t a => exists n, t = tk_set_number n (fst a) /\ (snd a = 0 \/ n = snd a)) l'
            (map snd (filter fst (combine rs adds))) /\
    (zlen l + zlen l' <= 63 -> Forall (fun t => tk_number t <= 126) l -> Forall (fun t => tk_number t <= 126) (l ++ l')).
Proof.
  induction adds as [|[t number] adds IH]; intros l Hb Hn Hok.
  - exists [], []. cbn. rewrite app_nil_r. repeat split; auto; try apply Hok.
  - pose proof (Forall_inv Hn) as Hn1. cbn [snd] in Hn1. apply Forall_inv_tail in Hn.
    assert (Hl : zlen l < 1000000000) by (unfold zlen in *; cbn [length] in Hb; lia).
    cbn [add_tracks]. destruct (AddTrack_result l false t number Hl Hn1) as [[E _]|(n & E & _ & HNI & Hnum)]; rewrite E; cbn [obind fst snd].
    + destruct (IH l) as (rs & l' & E' & HL & H2 & H3 & H4); auto; [unfold zlen in *; cbn [length] in Hb; lia|].
      rewrite E'. cbn [obind fst snd]. exists (false :: rs), l'. cbn [length combine filter fst map snd]. auto 10.
    + destruct (IH (l ++ [tk_set_number n t])) as (rs & l' & E' & HL & H2 & H3 & H4).
      * unfold zlen in *. cbn [length] in Hb. rewrite app_length. cbn [length]. lia.
      * exact Hn.
      * destruct Hok as [HD HF]. split.
        -- rewrite map_app. cbn [map tk_number tk_set_number]. apply NoDup_rev in HD. rewrite <- (rev_involutive (map tk_number l ++ [n])).
           apply NoDup_rev. rewrite rev_app_distr. cbn [rev app]. constructor; [|exact HD]. rewrite <- in_rev. exact HNI.
        -- apply Forall_app. split; [exact HF|]. constructor; [|constructor]. cbn [tk_number tk_set_number]. unfold zlen in *. lia.
      * rewrite E'. cbn [obind fst snd]. exists (true :: rs), (tk_set_number n t :: l').
        rewrite <- app_assoc in E', H2. cbn [app] in E', H2.
        assert (EA : (l ++ [tk_set_number n t]) ++ l' = l ++ tk_set_number n t :: l') by (rewrite <- app_assoc; reflexivity).
        rewrite EA. cbn [length combine filter fst map snd]. split; [reflexivity|]. split; [lia|]. split; [exact H2|]. split.
        -- constructor; [|exact H3]. exists n. cbn [fst snd]. split; [reflexivity|]. lia.
        -- intros H63 HF. rewrite <- EA. apply H4.
           ++ unfold zlen in *. rewrite app_length. cbn [length] in *. lia.
           ++ apply Forall_app. split; [exact HF|]. constructor; [|constructor]. cbn [tk_number tk_set_number].
              destruct Hnum as [[_ Hr]|[Hr ->]]; [|lia]. unfold zlen in *. cbn [length] in H63. lia.
Qed.
