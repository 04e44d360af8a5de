From Coq Require Import ZifyBool ZifyNat.
From Verif Require Import Base MWriter MFile ChunkSpec MChunk PChunk.

Lemma same_name_true : forall a b, same_name a b = true <-> a = b.
Proof. intros a b. unfold same_name. destruct (list_eq_dec Z.eq_dec a b); split; congruence. Qed.
Lemma same_name_refl : forall a, same_name a a = true. Proof. intros a. apply same_name_true. reflexivity. Qed.
Lemma same_name_false : forall a b, a <> b -> same_name a b = false.
Proof. intros a b H. destruct (same_name a b) eqn:E; [|reflexivity]. apply same_name_true in E. congruence. Qed.
Lemma look_store : forall n f g d, look n d = Some g -> look n (store n f d) = Some f.
Proof.
  intros n f g. induction d as [|(m, x) d IH]; cbn [look store]; [discriminate|]. destruct (same_name m n) eqn:E; cbn [look]; rewrite E; [reflexivity|exact IH].
Qed.
Lemma look_other : forall n m f d, m <> n -> look m (store n f d) = look m d.
Proof.
  intros n m f d H. induction d as [|(x, g) d IH]; [reflexivity|]. cbn [store]. destruct (same_name x n) eqn:E; cbn [look]; [|destruct (same_name x m); [reflexivity|exact IH]].
  apply same_name_true in E. subst x. rewrite (same_name_false n m) by congruence. reflexivity.
Qed.
Lemma call_plays : forall c n f off d, look n d = Some f ->
  exists d', call c (Some (n, off)) d = (Some (n, snd (play_one (f, off) c)), d') /\
    look n d' = Some (fst (play_one (f, off) c)) /\ (forall m, m <> n -> look m d' = look m d) /\ map fst d' = map fst d.
Proof.
  intros c n f off d H. unfold call, play_one. cbn [fst snd]. destruct c as [bs|p].
  - destruct (zlen bs =? 0); cbn [fst snd]; [exists d; auto|]. rewrite H. eexists. split; [reflexivity|].
    split; [exact (look_store _ _ _ _ H)|]. split; [intros m Hm; apply look_other; exact Hm|apply store_names].
  - destruct (p <? 0); cbn [fst snd]; exists d; auto.
Qed.

Definition chk (base : list Z) (k : nat) : list Z := chunk_file base ext_chk (Z.of_nat k).
Definition fine (k : nat) : Prop := Z.of_nat k < 2 ^ 31.
Lemma fine_small : forall k, fine k -> small (Z.of_nat k). Proof. intros k H. split; [lia|exact H]. Qed.
Lemma chk_inj : forall base k k', fine k -> fine k' -> chk base k = chk base k' -> k = k'.
Proof.
  intros base k k' H H' E. pose proof (chunk_numbered base ext_chk _ (fine_small k H)) as A. pose proof (chunk_numbered base ext_chk _ (fine_small k' H')) as B.
  unfold chk in E. rewrite E in A. pose proof (numbered_inj _ _ _ _ _ _ A B). lia.
Qed.
Lemma chk_header : forall base k, fine k -> chk base k <> header_file base.
Proof. intros base k H E. pose proof (chk_last _ _ _ (chunk_numbered base ext_chk _ (fine_small k H))) as L. unfold chk in E. rewrite E, header_last in L. discriminate. Qed.
Lemma cues_chk : forall base j k, small j -> fine k -> chunk_file base ext_cues j <> chk base k.
Proof. intros base j k HJ H E. pose proof (cues_last _ _ _ (chunk_numbered base ext_cues _ HJ)) as L. rewrite E in L. unfold chk in L. rewrite (chk_last _ _ _ (chunk_numbered base ext_chk _ (fine_small k H))) in L. discriminate. Qed.
Lemma cues_header : forall base j, small j -> chunk_file base ext_cues j <> header_file base.
Proof. intros base j HJ E. pose proof (cues_last _ _ _ (chunk_numbered base ext_cues _ HJ)) as L. rewrite E, header_last in L. discriminate. Qed.

(* m clusters have been begun; cs: the chunks, h: the header file *)
Record sess (base : list Z) (m : nat) (cs : nat -> list Z * Z) (h : list Z * Z) (hopen : bool) (s : chunks) : Prop := {
  ss_on : ck_on s = true; ss_base : ck_base s = base; ss_use : ck_in_use s = true; ss_cues : ck_cues s = None;
  ss_size : ck_size s = Z.of_nat m; ss_count : ck_count s = Z.of_nat (Nat.pred m);
  ss_cluster : ck_cluster s = Some (chk base (Nat.pred m), snd (cs (Nat.pred m)));
  ss_look : forall k, (k <= Nat.pred m)%nat -> look (chk base k) (ck_disk s) = Some (fst (cs k));
  ss_later : forall k, (Nat.pred m < k)%nat -> cs k = ([], 0);
  ss_header : look (header_file base) (ck_disk s) = Some (fst h);
  ss_hopen : ck_header s = if hopen then Some (header_file base, snd h) else None;
  ss_len : length (ck_disk s) = S (Nat.max 1 m)
}.

Definition upd (cs : nat -> list Z * Z) (k : nat) (v : list Z * Z) : nat -> list Z * Z := fun j => if Nat.eqb k j then v else cs j.

Lemma sess_cluster : forall base m cs h ho s c, fine m -> sess base m cs h ho s ->
  sess base m (upd cs (Nat.pred m) (play_one (cs (Nat.pred m)) c)) h ho (step s (OnCluster c)).
Proof.
  intros base m cs h ho [on b count size use cl cu hd d] c HF [H1 H2 H3 H4 H5 H6 H7 H8 H9 H10 H11 H12]. fields. subst.
  cbn [step]. fields. destruct (call_plays c (chk base (Nat.pred m)) (fst (cs (Nat.pred m))) (snd (cs (Nat.pred m))) d (H8 _ (le_n _))) as (d' & E & L1 & L2 & L3).
  rewrite <- surjective_pairing in E, L1. rewrite E. apply (f_equal (@length _)) in L3. rewrite !map_length in L3. assert (HF' : fine (Nat.pred m)) by (unfold fine in *; lia).
  constructor; fields; try reflexivity.
  - unfold upd. rewrite Nat.eqb_refl. reflexivity.
  - intros k Hk. unfold upd. destruct (Nat.eqb_spec (Nat.pred m) k) as [<-|N]; [exact L1|]. rewrite L2; [apply H8; exact Hk|].
    intros Q. apply chk_inj in Q; [lia|unfold fine in *; lia|exact HF'].
  - intros k Hk. unfold upd. destruct (Nat.eqb_spec (Nat.pred m) k); [lia|]. apply H9. exact Hk.
  - rewrite L2; [exact H10|]. intros Q. symmetry in Q. revert Q. apply chk_header. exact HF'.
  - congruence.
Qed.
Lemma sess_header : forall base m cs h (ho : bool) s c, fine m -> sess base m cs h ho s ->
  sess base m cs (if ho then play_one h c else h) ho (step s (OnHeader c)).
Proof.
  intros base m cs h ho [on b count size use cl cu hd d] c HF [H1 H2 H3 H4 H5 H6 H7 H8 H9 H10 H11 H12]. fields. subst.
  cbn [step]. fields. destruct ho; [|cbn [call]; constructor; fields; auto].
  destruct (call_plays c (header_file base) (fst h) (snd h) d H10) as (d' & E & L1 & L2 & L3).
  rewrite <- surjective_pairing in E, L1. rewrite E. apply (f_equal (@length _)) in L3. rewrite !map_length in L3. constructor; fields; try reflexivity; try assumption.
  - intros k Hk. rewrite L2; [apply H8; exact Hk|]. apply chk_header. unfold fine in *; lia.
  - congruence.
Qed.
Lemma sess_done : forall base m cs h ho live s, sess base m cs h ho s -> sess base m cs h (ho && negb live) (step s (HeaderDone live)).
Proof.
  intros base m cs h ho live [on b count size use cl cu hd d] [H1 H2 H3 H4 H5 H6 H7 H8 H9 H10 H11 H12]. fields. subst.
  cbn [step]. unfold header_done. fields. destruct live; cbn [andb negb]; constructor; fields; auto.
  - rewrite Bool.andb_false_r. reflexivity.
  - rewrite Bool.andb_true_r. reflexivity.
Qed.
Lemma sess_make : forall base m cs h ho s, fine (S m) -> sess base m cs h ho s -> sess base (S m) cs h ho (step s (MakesCluster true)).
Proof.
  intros base m cs h ho [on b count size use cl cu hd d] HF [H1 H2 H3 H4 H5 H6 H7 H8 H9 H10 H11 H12]. fields. subst.
  cbn [step]. unfold MakeNewCluster_files. fields. cbn [andb]. destruct m as [|m].
  - cbn [Nat.pred] in *. change (Z.of_nat 0 >? 0) with false. fields. constructor; fields; auto.
  - replace (Z.of_nat (S m) >? 0) with true by lia. cbn [Nat.pred] in *. rewrite sint32_small by (unfold fine in HF; lia).
    cbn [Open]. fields. replace (Z.of_nat m + 1) with (Z.of_nat (S m)) by lia. fold (chk base (S m)).
    constructor; fields; try reflexivity; try assumption.
    + lia.
    + cbn [Nat.pred]. rewrite H9 by lia. reflexivity.
    + cbn [Nat.pred]. intros k Hk. cbn [look]. destruct (Nat.eq_dec k (S m)) as [->|N]; [rewrite same_name_refl, H9 by lia; reflexivity|].
      rewrite same_name_false; [apply H8; lia|]. intros Q. apply chk_inj in Q; unfold fine in *; lia.
    + cbn [Nat.pred]. intros k Hk. apply H9. lia.
    + cbn [look]. rewrite same_name_false; [exact H10|]. apply chk_header. unfold fine in *; lia.
    + cbn [length]. lia.
Qed.

Definition played (f : list Z * Z) (cs : list wcall) : list Z * Z := fold_left play_one cs f.
Fixpoint still (evs : list event) : bool :=
  match evs with [] => true | HeaderDone true :: _ => false | _ :: evs => still evs end.

Lemma sess_ext : forall base m cs cs' h h' ho ho' s, (forall k, cs k = cs' k) -> h = h' -> ho = ho' -> sess base m cs h ho s -> sess base m cs' h' ho' s.
Proof.
  intros base m cs cs' h h' ho ho' s E -> -> [H1 H2 H3 H4 H5 H6 H7 H8 H9 H10 H11 H12]. constructor; auto.
  - rewrite <- E. exact H7.
  - intros k Hk. rewrite <- E. exact (H8 k Hk).
  - intros k Hk. rewrite <- E. exact (H9 k Hk).
Qed.

Lemma sess_run : forall base evs m cs h ho s, Forall muxing evs -> Z.of_nat m + zlen evs < 2 ^ 31 -> sess base m cs h ho s ->
  sess base (m + clusters evs) (fun k => played (cs k) (for_cluster m k evs)) (played h (if ho then for_header evs else [])) (ho && still evs) (run evs s).
Proof.
  intros base. induction evs as [|e evs IH]; intros m cs h ho s HM HL HS.
  - cbn [run fold_left clusters]. rewrite Nat.add_0_r. refine (sess_ext _ _ _ _ _ _ _ _ _ _ _ _ HS); [reflexivity|destruct ho; reflexivity|rewrite Bool.andb_true_r; reflexivity].
  - rewrite zlen_cons in HL. pose proof (zlen_nonneg _ evs) as Hn. inversion HM as [|x y He HM']; subst. change (run (e :: evs) s) with (run evs (step s e)).
    destruct e as [| |ok|c|c| |live| |]; cbn [muxing] in He; try contradiction.
    + subst ok. cbn [clusters for_cluster for_header still]. rewrite Nat.add_succ_r. change (S (m + clusters evs)) with (S m + clusters evs)%nat.
      apply IH; [exact HM'|lia|]. apply sess_make; [unfold fine; lia|exact HS].
    + cbn [clusters for_header still]. pose proof (sess_cluster base m cs h ho s c ltac:(unfold fine; lia) HS) as H1. specialize (IH m _ _ _ _ HM' ltac:(lia) H1).
      refine (sess_ext _ _ _ _ _ _ _ _ _ _ eq_refl eq_refl IH). intros k. unfold upd. cbn [for_cluster]. destruct (Nat.eqb_spec (Nat.pred m) k) as [->|N]; reflexivity.
    + cbn [clusters for_cluster for_header still]. pose proof (sess_header base m cs h ho s c ltac:(unfold fine; lia) HS) as H1. specialize (IH m _ _ _ _ HM' ltac:(lia) H1).
      refine (sess_ext _ _ _ _ _ _ _ _ _ (fun k => eq_refl) _ eq_refl IH). destruct ho; reflexivity.
    + pose proof (sess_done base m cs h ho live s HS) as H1. specialize (IH m _ _ _ _ HM' ltac:(lia) H1). cbn [clusters for_cluster].
      refine (sess_ext _ _ _ _ _ _ _ _ _ (fun k => eq_refl) _ _ IH); cbn [for_header still]; destruct ho, live; reflexivity.
Qed.

Lemma sess_begin : forall base s, ck_count s = 0 -> ck_size s = 0 -> ck_on s = false -> ck_cluster s = None -> ck_cues s = None -> ck_header s = None -> ck_disk s = [] ->
  sess base 0 (fun _ => ([], 0)) ([], 0) true (step s (SetsChunking true base true true)).
Proof.
  intros base [on b count size use cl cu hd d] H1 H2 H3 H4 H5 H6 HD. fields. subst. cbn [step]. unfold SetChunking. fields. change (0 >? 0) with false.
  cbn [negb andb Open]. fields. assert (F0 : fine 0) by (unfold fine; reflexivity).
  constructor; fields; try reflexivity.
  - intros k Hk. assert (k = 0%nat) by (cbn [Nat.pred] in Hk; lia). subst k. cbn [look]. rewrite same_name_false by (intros Q; symmetry in Q; revert Q; apply chk_header; exact F0).
    unfold chk. change (Z.of_nat 0) with 0. rewrite same_name_refl. reflexivity.
  - cbn [look]. rewrite same_name_refl. reflexivity.
Qed.

(* the cues file c *)
Record closed (base : list Z) (m : nat) (cs : nat -> list Z * Z) (h : list Z * Z) (hopen : bool) (cuf : list Z) (c : list Z * Z) (s : chunks) : Prop := {
  cd_on : ck_on s = true; cd_use : ck_in_use s = true;
  cd_cues : ck_cues s = Some (cuf, snd c); cd_clook : look cuf (ck_disk s) = Some (fst c);
  cd_look : forall k, (k <= Nat.pred m)%nat -> look (chk base k) (ck_disk s) = Some (fst (cs k));
  cd_header : look (header_file base) (ck_disk s) = Some (fst h);
  cd_hopen : ck_header s = if hopen then Some (header_file base, snd h) else None;
  cd_len : length (ck_disk s) = S (S (Nat.max 1 m))
}.
Lemma closed_begin : forall base m cs h ho s, fine (S m) -> sess base m cs h ho s ->
  closed base m cs h ho (chunk_file base ext_cues (Z.of_nat (Nat.pred m) + 1)) ([], 0) (step s (Finalizes true true)).
Proof.
  intros base m cs h ho [on b count size use cl cu hd d] HF [H1 H2 H3 H4 H5 H6 H7 H8 H9 H10 H11 H12]. fields. subst.
  cbn [step]. unfold Finalize_files. fields. cbn [Open]. fields. rewrite sint32_small by (unfold fine in HF; lia).
  assert (SM : small (Z.of_nat (Nat.pred m) + 1)) by (unfold small, fine in *; lia).
  constructor; fields; try reflexivity; cbn [look].
  - rewrite same_name_refl. reflexivity.
  - intros k Hk. rewrite same_name_false by (apply cues_chk; [exact SM|unfold fine in *; lia]). apply H8. exact Hk.
  - rewrite same_name_false by (apply cues_header; exact SM). exact H10.
  - cbn [length]. lia.
Qed.
Lemma closed_run : forall base m cs ho j, fine m -> small j -> forall evs h c s, Forall closing evs -> closed base m cs h ho (chunk_file base ext_cues j) c s ->
  closed base m cs (played h (if ho then for_header evs else [])) ho (chunk_file base ext_cues j) (played c (for_cues evs)) (run evs s).
Proof.
  intros base m cs ho j HF HJ. induction evs as [|e evs IH]; intros h c s HC HS.
  - cbn [run fold_left for_cues for_header]. destruct ho; exact HS.
  - inversion HC as [|x y He HC']; subst. change (run (e :: evs) s) with (run evs (step s e)).
    destruct s as [on b count size use cl cu hd d]. destruct HS as [H1 H2 H3 H4 H5 H6 H7 H8]. fields. subst.
    destruct e as [| | | |w|w| | |]; cbn [closing] in He; try contradiction; cbn [for_cues for_header step]; fields.
    + destruct ho.
      * destruct (call_plays w (header_file base) (fst h) (snd h) d H6) as (d' & E & L1 & L2 & L3). rewrite <- surjective_pairing in E, L1. rewrite E. apply (f_equal (@length _)) in L3. rewrite !map_length in L3.
        cbn [played fold_left]. apply (IH (play_one h w) c); [exact HC'|]. constructor; fields; try reflexivity; try assumption.
        -- rewrite L2 by (apply cues_header; exact HJ). exact H4.
        -- intros k Hk. rewrite L2 by (apply chk_header; unfold fine in *; lia). apply H5. exact Hk.
        -- congruence.
      * cbn [call]. apply (IH h c); [exact HC'|]. constructor; fields; auto.
    + destruct (call_plays w (chunk_file base ext_cues j) (fst c) (snd c) d H4) as (d' & E & L1 & L2 & L3). rewrite <- surjective_pairing in E, L1. rewrite E. apply (f_equal (@length _)) in L3. rewrite !map_length in L3.
      apply (IH h (play_one c w)); [exact HC'|]. constructor; fields; try reflexivity; try assumption.
      * intros k Hk. rewrite L2 by (intros Q; symmetry in Q; revert Q; apply cues_chk; [exact HJ|unfold fine in *; lia]). apply H5. exact Hk.
      * rewrite L2 by (intros Q; symmetry in Q; revert Q; apply cues_header; exact HJ). exact H6.
      * congruence.
Qed.
