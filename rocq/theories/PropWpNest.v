(* Properties of the callback parser: nesting of the notifications. *)
From Coq Require Import ZifyBool ZifyNat.
From Verif Require Import Base WpSpec NestSpec MWp MWpBlock MWpTree PWp1 PWp2 PWp3 PWp4 PWp5 PWp6 PWp7 PWp8 PWp9 PWp10 PWp11 PropWp.

(* A parser in use with one callback object: any number of calls of Feed, whatever
   each call answered, with any bytes to read at each call, but no seeks.  [used cb p t]: p is the
   parser and t what the callback has seen so far, most recent first. *)
Inductive used (cb : callback) : wparser -> list entry -> Prop :=
| used_new : used cb wp_new []
| used_feed : forall fuel p data pos sched t s p' w',
    used cb p t -> Forall (fun b => 0 <= b < 256) data ->
    WebmParser_Feed cb fuel p (mk_world data pos sched t) = Some (s, p', w') ->
    used cb p' (w_trace w').

Lemma used_nests : forall cb p t, proper cb -> used cb p t ->
  reached p /\ okd (wp_doc p) /\ nesting t = Some (opd (wp_doc p)) /\ d_seek (wp_doc p) = false.
Proof.
  intros cb p t P H. induction H as [|fuel p data pos sched t s p' w' H (R & O & S & K) D F].
  - split; [constructor|]. split; [exact I | split; reflexivity].
  - pose proof F as F0. pose proof (reached_ok _ R) as (W & _).
    unfold WebmParser_Feed in F. destruct (is_parsing_error (wp_status p)).
    { injection F as _ <- <-. auto. }
    destruct (dloop cb fuel (d_skip (wp_doc p)) (wp_doc p) _) as [[[c d] w2]|] eqn:Q; [|discriminate].
    injection F as K1 K2 K3. subst s p' w2.
    destruct (doc_nests cb P fuel _ _ (mk_world data pos sched t) _ _ _ W O eq_refl K S Q) as (A & B & _ & K1).
    split; [exact (reached_feed cb fuel p (mk_world data pos sched t) c _ w' R P D F0)|]. split; [exact A | split; [exact B | exact K1]].
Qed.

(* C30.  Whatever the bytes, however they arrive, whatever the callback answers
   and however often Feed is called, the notifications are properly nested. *)
Theorem C30_notifications_nest :
  forall cb p t, proper cb -> used cb p t -> exists open, nesting t = Some open.
Proof. intros cb p t P U. destruct (used_nests cb p t P U) as (_ & _ & S & _). eauto. Qed.
Print Assumptions C30_notifications_nest.

(* ... and when Feed reports that the document is complete, every element that was
   opened has been closed. *)
Theorem C30_all_closed_at_the_end :
  forall cb fuel p data pos sched t p' w', proper cb -> used cb p t ->
    WebmParser_Feed cb fuel p (mk_world data pos sched t) = Some (kOkCompleted, p', w') ->
    nesting (w_trace w') = Some [].
Proof.
  intros cb fuel p data pos sched t p' w' P U F. destruct (used_nests cb p t P U) as (R & O & S & K).
  pose proof (reached_ok _ R) as (W & _). unfold WebmParser_Feed in F.
  destruct (is_parsing_error (wp_status p)) eqn:Ep; [injection F as Q _ _; rewrite Q in Ep; discriminate|].
  destruct (dloop cb fuel (d_skip (wp_doc p)) (wp_doc p) _) as [[[c d] w2]|] eqn:Q; [|discriminate].
  injection F as -> <- <-. destruct (doc_nests cb P fuel _ _ (mk_world data pos sched t) _ _ _ W O eq_refl K S Q) as (_ & B & C & _).
  unfold St in B. rewrite B. unfold opd. rewrite (C eq_refl). reflexivity.
Qed.
Print Assumptions C30_all_closed_at_the_end.

(* What this gives in particular: the data of a frame reaches the callback only
   between the accepted begin and the end of the block it belongs to, and that
   block's begin only after the accepted begin of its Cluster or BlockGroup. *)
Theorem C30_frames_inside_their_block :
  forall cb p after before parent pos size b a,
    proper cb -> used cb p (after ++ (EData (DFrame parent pos size) b, a) :: before) ->
    exists k v enclosing,
      In (EBegin k parent v, (0, false)) before /\
      nesting before = Some ((k, parent) :: enclosing) /\
      (k = KSimpleBlock \/ k = KBlock).
Proof.
  intros cb p after before parent pos size b a P U.
  destruct (C30_notifications_nest cb p _ P U) as (op & N).
  assert (H : exists st, nesting ((EData (DFrame parent pos size) b, a) :: before) = Some st).
  { clear U. revert op N. induction after as [|e after IH]; intros op N; [eauto|]. cbn [app nesting] in N.
    destruct (nesting (after ++ _)) as [st|] eqn:E; [|discriminate]. eapply IH. reflexivity. }
  destruct H as (st & H). cbn [nesting nest] in H. destruct (nesting before) as [op2|] eqn:Nb; [|discriminate].
  destruct (may_read (DFrame parent pos size) op2) eqn:M; [|discriminate]. injection H as ->.
  destruct st as [|[k m] rest]; [discriminate|]. cbn in M. apply andb_prop in M. destruct M as (M1 & M2).
  assert (m = parent).
  { unfold meta_eqb in M2. destruct m, parent. cbn in M2. apply andb_prop in M2. destruct M2 as (M2 & E4).
    apply andb_prop in M2. destruct M2 as (M2 & E3). apply andb_prop in M2. destruct M2 as (E1 & E2).
    apply Z.eqb_eq in E1, E2, E3, E4. congruence. }
  subst m.
  assert (Hk : k = KSimpleBlock \/ k = KBlock) by (destruct k; auto; discriminate).
  assert (Ho : forall t st k m, nesting t = Some st -> In (k, m) st -> exists v, In (EBegin k m v, (0, false)) t).
  { clear. induction t as [|[e [c s]] t IH]; intros st k m N I; cbn [nesting] in N; [injection N as <-; destruct I|].
    destruct (nesting t) as [st0|] eqn:Nt; [|discriminate].
    assert (Old : In (k, m) st0 -> exists v, In (EBegin k m v, (0, false)) ((e, (c, s)) :: t)).
    { intro J. destruct (IH _ _ _ eq_refl J) as (v & V). exists v. right. exact V. }
    destruct e; cbn [nest] in N.
    - destruct (in_block st0); [discriminate|]. injection N as <-. auto.
    - destruct (may_begin k0 st0); [|discriminate]. destruct ((c =? 0) && negb s) eqn:E; injection N as <-; auto.
      destruct I as [I | I]; [|auto]. injection I as <- <-. apply andb_prop in E. destruct E as (E1 & E2).
      exists v. left. apply Z.eqb_eq in E1. subst c. destruct s; [discriminate | reflexivity].
    - destruct st0 as [|[k' m'] st']; [discriminate|]. destruct (_ && _); [|discriminate].
      destruct (c =? 0); injection N as <-; auto. apply Old. right. exact I.
    - destruct (may_report k0 st0); [|discriminate]. injection N as <-. auto.
    - destruct (may_read d st0); [|discriminate]. injection N as <-. auto.
    - destruct (may_read d st0); [|discriminate]. injection N as <-. auto. }
  destruct (Ho before _ k parent Nb (or_introl eq_refl)) as (v & V).
  exists k, v, rest. auto.
Qed.
Print Assumptions C30_frames_inside_their_block.

(* a callback reading everything: in the middle of the block of the sample file the
   SimpleBlock, its Cluster and its Segment are open; at the end nothing is *)
Example C30_example :
  (exists p t, used read_all p t /\ option_map kinds (nesting t) = Some [KSimpleBlock; KCluster; KSegment]) /\
  (exists p t, used read_all p t /\ nesting t = Some [] /\ length t = 14%nat) /\
  (* out of place: a block that begins outside a Cluster, a Cluster that ends while its
     block is open *)
  nesting [(EBegin KSimpleBlock meta0 (VInt 0), (0, false))] = None /\
  nesting [(EEnd KCluster meta0 (VInt 0), (0, false)); (EBegin KSimpleBlock meta0 (VInt 0), (0, false));
           (EBegin KCluster meta0 (VInt 0), (0, false)); (EBegin KSegment meta0 (VInt 0), (0, false))] = None.
Proof.
  assert (D : Forall (fun b => 0 <= b < 256) tiny_file).
  { unfold tiny_file. repeat (constructor; [lia|]). constructor. }
  split; [|split; [|split; reflexivity]].
  - destruct (WebmParser_Feed read_all 200 wp_new (source tiny_file (repeat 1 24 ++ [0]))) as [[[s p] w]|] eqn:F;
      [|vm_compute in F; discriminate].
    exists p, (w_trace w). split; [exact (used_feed _ _ _ _ _ _ _ _ _ _ (used_new _) D F)|].
    vm_compute in F. injection F as _ _ <-. vm_compute. reflexivity.
  - destruct (WebmParser_Feed read_all 200 wp_new (source tiny_file [])) as [[[s p] w]|] eqn:F;
      [|vm_compute in F; discriminate].
    exists p, (w_trace w). split; [exact (used_feed _ _ _ _ _ _ _ _ _ _ (used_new _) D F)|].
    vm_compute in F. injection F as _ _ <-. split; vm_compute; reflexivity.
Qed.
