(* What goes into the files of vttdemux. *)
From Coq Require Import ZifyBool ZifyNat.
From Verif Require Import Base VttMuxSpec MVttMux MParMeta MVttChap VttNameSpec MVttName VttFileSpec MVttFile.

Lemma has_key_in : forall n fs, has_key n fs = true <-> In n (map fst fs).
Proof.
  intros n fs. unfold has_key. rewrite existsb_exists, in_map_iff. split; intros (x & H1 & H2); exists x; [split; [lia|exact H1]|split; [exact H2|lia]].
Qed.
Lemma append_keys : forall n t fs, map fst (append n t fs) = map fst fs.
Proof. intros n t fs. unfold append. rewrite map_map. apply map_ext. intros [a b]. cbn [fst]. destruct (a =? n); reflexivity. Qed.
Lemma append_in : forall n t fs k c, In (k, c) (append n t fs) <-> exists c0, In (k, c0) fs /\ c = if k =? n then c0 ++ t else c0.
Proof.
  intros n t fs k c. unfold append. rewrite in_map_iff. split.
  - intros ([a b] & E & H). cbn [fst snd] in E. exists b. destruct (a =? n) eqn:EA; injection E as <- <-; rewrite EA; tauto.
  - intros (c0 & H & ->). exists (k, c0). cbn [fst snd]. split; [destruct (k =? n); reflexivity|exact H].
Qed.
Definition covered (fs : files) (b : block_entry) : Prop := In (be_track b) (map fst fs).

(* the blocks, when all goes well: each file grows by the cues of its track *)
Lemma process_ok : forall scale bs fs fs', NoDup (map fst fs) -> process_blocks scale bs fs = Val (true, fs') ->
  map fst fs' = map fst fs /\ (forall b, In b bs -> covered fs b -> be_group b = true) /\
  forall n c, In (n, c) fs -> exists t, write_cues scale (blocks_of n bs) = Val (Some t) /\ In (n, c ++ t) fs'.
Proof.
  intros scale bs. induction bs as [|b bs IH]; intros fs fs' ND E; cbn [process_blocks] in E.
  - injection E as <-. split; [reflexivity|]. split; [intros b []|]. intros n c H. exists []. split; [reflexivity|]. rewrite app_nil_r. exact H.
  - unfold ProcessBlockEntry in E. destruct (has_key (be_track b) fs) eqn:EK; cbn [negb] in E.
    + destruct (be_group b) eqn:EG; cbn [negb obind] in E; [|discriminate E]. destruct (WriteCue scale (be_block b)) as [[t|]|] eqn:EW; cbn [obind] in E; try discriminate E.
      destruct (IH _ fs' ltac:(rewrite append_keys; exact ND) E) as (H1 & H2 & H3). rewrite append_keys in H1. split; [exact H1|]. split.
      * intros x [<-|Hx] Hc; [exact EG|]. apply (H2 x Hx). unfold covered. rewrite append_keys. exact Hc.
      * intros n c Hn. unfold blocks_of. cbn [filter]. destruct (be_track b =? n) eqn:EN.
        -- destruct (H3 n (c ++ t)) as (t' & W & I); [apply append_in; exists c; split; [exact Hn|]; destruct (n =? be_track b) eqn:Q; [reflexivity|lia]|].
           exists (t ++ t'). cbn [map write_cues]. rewrite EW. cbn [obind]. unfold blocks_of in W. rewrite W. split; [reflexivity|]. rewrite app_assoc. exact I.
        -- destruct (H3 n c) as (t' & W & I); [apply append_in; exists c; split; [exact Hn|]; destruct (n =? be_track b) eqn:Q; [lia|reflexivity]|]. exists t'. split; [exact W|exact I].
    + cbn [obind] in E. destruct (IH fs fs' ND E) as (H1 & H2 & H3). split; [exact H1|]. split.
      * intros x [<-|Hx] Hc; [|exact (H2 x Hx Hc)]. apply has_key_in in Hc. congruence.
      * intros n c Hn. destruct (H3 n c Hn) as (t & W & I). exists t. split; [|exact I]. unfold blocks_of. cbn [filter]. destruct (be_track b =? n) eqn:EN; [|exact W]. exfalso.
        assert (K : In (be_track b) (map fst fs)) by (apply in_map_iff; exists (n, c); split; [cbn [fst]; lia|exact Hn]). apply has_key_in in K. congruence.
Qed.
(* and it does go well when every track's cues can be written *)
Lemma write_cues_hd : forall scale b bs t, write_cues scale (b :: bs) = Val (Some t) -> exists t1 t2, WriteCue scale b = Val (Some t1) /\ write_cues scale bs = Val (Some t2).
Proof.
  intros scale b bs t E. cbn [write_cues] in E. destruct (WriteCue scale b) as [[t1|]|]; cbn [obind] in E; try discriminate E.
  destruct (write_cues scale bs) as [[t2|]|]; cbn [obind] in E; try discriminate E. exists t1, t2. tauto.
Qed.
Lemma process_can : forall scale bs fs, (forall b, In b bs -> covered fs b -> be_group b = true) ->
  (forall n, In n (map fst fs) -> exists t, write_cues scale (blocks_of n bs) = Val (Some t)) -> exists fs', process_blocks scale bs fs = Val (true, fs').
Proof.
  intros scale bs. induction bs as [|b bs IH]; intros fs HG HW; cbn [process_blocks]; [eexists; reflexivity|]. unfold ProcessBlockEntry.
  destruct (has_key (be_track b) fs) eqn:EK; cbn [negb].
  - pose proof (proj1 (has_key_in _ _) EK) as HK. rewrite (HG b ltac:(left; reflexivity) HK). cbn [negb].
    destruct (HW _ HK) as (t & W). unfold blocks_of in W. cbn [filter] in W. rewrite Z.eqb_refl in W. cbn [map] in W. destruct (write_cues_hd _ _ _ _ W) as (t1 & t2 & W1 & _). rewrite W1. cbn [obind].
    apply IH; [intros x Hx Hc; apply (HG x); [right; exact Hx|]; unfold covered in *; rewrite append_keys in Hc; exact Hc|].
    intros n Hn. rewrite append_keys in Hn. destruct (HW n Hn) as (t' & W'). unfold blocks_of in W'. cbn [filter] in W'. destruct (be_track b =? n); [|exists t'; exact W'].
    cbn [map] in W'. destruct (write_cues_hd _ _ _ _ W') as (_ & t3 & _ & W3). exists t3. exact W3.
  - cbn [obind]. apply IH; [intros x Hx; apply HG; right; exact Hx|]. intros n Hn. destruct (HW n Hn) as (t' & W'). unfold blocks_of in W'. cbn [filter] in W'. destruct (be_track b =? n) eqn:EN; [|exists t'; exact W'].
    exfalso. assert (be_track b = n) by lia. subst n. apply has_key_in in Hn. congruence.
Qed.

Lemma combine_of : forall (a : list (Z * list Z)) (fs : files) name c, map fst fs = map fst a -> In (name, c) (combine (map snd a) (map snd fs)) -> exists n, In (n, name) a /\ In (n, c) fs.
Proof.
  induction a as [|[n nm] a IH]; intros [|[n' c'] fs] name c E H; cbn [map fst snd combine] in *; try (destruct H; fail); try discriminate E.
  injection E as -> E. destruct H as [H|H].
  - injection H as -> ->. exists n. split; left; reflexivity.
  - destruct (IH fs name c E H) as (k & H1 & H2). exists k. split; right; assumption.
Qed.
Lemma combine_to : forall (a : list (Z * list Z)) (fs : files) n name, map fst fs = map fst a -> In (n, name) a -> exists c, In (n, c) fs /\ In (name, c) (combine (map snd a) (map snd fs)).
Proof.
  induction a as [|[k nm] a IH]; intros [|[k' c'] fs] n name E H; cbn [map fst snd combine] in *; try (destruct H; fail); try discriminate E.
  injection E as -> E. destruct H as [H|H].
  - injection H as -> ->. exists c'. split; left; reflexivity.
  - destruct (IH fs n name E H) as (c & H1 & H2). exists c. split; right; assumption.
Qed.
Lemma key_once : forall (fs : files) n c c', NoDup (map fst fs) -> In (n, c) fs -> In (n, c') fs -> c = c'.
Proof.
  induction fs as [|[k x] fs IH]; intros n c c' ND H1 H2; [destruct H1|]. cbn [map fst] in ND. inversion ND as [|? ? NI ND']. subst.
  destruct H1 as [E1|H1], H2 as [E2|H2].
  - congruence.
  - injection E1 as -> ->. exfalso. apply NI. change n with (fst (n, c')). apply in_map. exact H2.
  - injection E2 as -> ->. exfalso. apply NI. change n with (fst (n, c)). apply in_map. exact H1.
  - exact (IH n c c' ND' H1 H2).
Qed.
Lemma combine_fst : forall (A B : Type) (a : list A) (b : list B), length a = length b -> map fst (combine a b) = a.
Proof. induction a as [|x a IH]; intros [|y b] E; cbn in *; try reflexivity; try discriminate E. f_equal. apply IH. congruence. Qed.
