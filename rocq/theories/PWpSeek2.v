(* Proofs about the callback parser: the document after a seek. *)
From Coq Require Import ZifyBool ZifyNat.
From Verif Require Import Base EbmlSpec LacingSpec WpSpec WpDocSpec WpSeekSpec MWp MWpBlock MWpTree PParUtil PWp3 PWp8 PWp10
  PWpRead PWpLeaf PWpBlk PWpDoc PWpDoc2 PWpDoc3 PWpSeek.

Local Notation W l p t := (mk_world l p [] t).
Local Notation lg := (lg nothing).

Lemma assoc_in : forall (A : Type) (k : Z) (l : list (Z * A)) v, assoc k l = Some v -> In (k, v) l.
Proof.
  induction l as [|[a b] r IH]; intros v H; [discriminate|]. cbn [assoc] in H. destruct (Z.eqb_spec a k) as [->|].
  - injection H as ->. left. reflexivity.
  - right. apply IH. exact H.
Qed.
Lemma last_in : forall (r : list Z) b d, In (last (b :: r) d) (b :: r).
Proof.
  induction r as [|c r IH]; intros b d; [left; reflexivity|]. right. apply (IH c d).
Qed.
Definition up (p : Z) : list Z := match ById p with Some l => l | None => [] end.
Lemma ById_child : forall p c, type_in p c <> None -> p <> 0 -> c <> p -> (c <> 0x55B0 /\ c <> 0x7670) -> (p <> 0x55B0 /\ p <> 0x7670) -> p <> 0x55D0 ->
  ById c = Some (up p ++ [p]).
Proof.
  intros p c H N0 Np (N1 & N2) (N3 & N4) N5.
  assert (A : forallb (fun e => forallb (fun x => (fst e =? 0) || (fst x =? fst e) || (fst x =? 0x55B0) || (fst x =? 0x7670) || (fst e =? 0x55B0) || (fst e =? 0x7670) || (fst e =? 0x55D0)
      || match ById (fst x) with Some l => if list_eq_dec Z.eq_dec l (up (fst e) ++ [fst e]) then true else false | None => false end) (snd e)) schema = true)
    by (vm_compute; reflexivity).
  unfold type_in in H. destruct (assoc p schema) as [l|] eqn:E; [|contradiction].
  destruct (assoc c l) as [ty|] eqn:F; [|contradiction].
  rewrite forallb_forall in A. specialize (A _ (assoc_in _ _ _ _ E)). cbn [fst snd] in A.
  rewrite forallb_forall in A. specialize (A _ (assoc_in _ _ _ _ F)). cbn [fst snd] in A.
  destruct (ById c) as [l'|]; [|lia].
  destruct (list_eq_dec Z.eq_dec l' (up p ++ [p])) as [->|]; [reflexivity | lia].
Qed.
Lemma path_snoc : forall levels p a id, path p (levels ++ [a]) id <-> (path p levels a /\ type_in (last levels p) a = Some TMaster /\ type_in a id <> None).
Proof.
  induction levels as [|b r IH]; intros p a id.
  - cbn [app path last]. split; intro H; [|tauto]. destruct H as [H1 H2]. rewrite H1. repeat split; [discriminate | exact H2].
  - cbn [app path]. rewrite IH. replace (last (b :: r) p) with (last r b); [tauto|].
    clear. revert b. induction r as [|c r IH]; intro b; [reflexivity|]. change (last (c :: r) b = last (c :: r) p).
    destruct r as [|d r]; [reflexivity|]. specialize (IH c). cbn [last] in *. clear IH. revert d. induction r; intro d; [reflexivity|]. apply IHr.
Qed.
Lemma top_ids : forall id, type_in 0 id <> None -> id = Segment \/ id = Ebml.
Proof.
  intros id H. unfold type_in in H.
  match type of H with context [assoc 0 schema] => let x := eval vm_compute in (assoc 0 schema) in change (assoc 0 schema) with x in H end.
  cbn [assoc] in H. unfold Segment, Ebml.
  destruct (Z.eqb_spec 440786851 id); [auto|]. destruct (Z.eqb_spec 408125543 id); [auto|]. contradiction.
Qed.
Lemma placed_ById : forall levels id, placed levels id -> ById id = Some levels.
Proof.
  intros levels. induction levels as [|a levels IH] using rev_ind; intros id (NE & P & ND & X); [contradiction|].
  apply path_snoc in P. destruct P as (P & Ty & H).
  assert (Xa : a <> 0x55B0 /\ a <> 0x7670) by (apply X; rewrite !in_app_iff; cbn; tauto).
  assert (Xi : id <> 0x55B0 /\ id <> 0x7670) by (apply X; rewrite !in_app_iff; cbn; tauto).
  assert (Na : id <> a).
  { intros ->. apply NoDup_remove_2 in ND. apply ND. rewrite app_nil_r, in_app_iff. cbn. tauto. }
  assert (N0 : a <> 0). { intros ->. clear - Ty. unfold type_in in Ty. assert (A : forallb (fun e => match assoc 0 (snd e) with None => true | Some _ => false end) schema = true) by (vm_compute; reflexivity).
    destruct (assoc _ schema) as [l|] eqn:E; [|discriminate]. rewrite forallb_forall in A. specialize (A _ (assoc_in _ _ _ _ E)). cbn [snd] in A. rewrite Ty in A. discriminate. }
  assert (N5 : a <> 0x55D0).
  { intros ->. assert (Q : last levels 0 = 0x55B0) by (apply (schema_parent 0x55D0); [vm_compute; reflexivity | rewrite Ty; discriminate]).
    destruct levels as [|b r]; [discriminate Q|]. destruct (X 0x55B0) as [Q1 _]; [|exact (Q1 eq_refl)].
    rewrite <- Q. rewrite !in_app_iff. left. left. apply last_in. }
  rewrite (ById_child a id H N0 Na Xi Xa N5). do 2 f_equal. unfold up.
  destruct levels as [|b r].
  - cbn [path] in P. apply top_ids in P. destruct P as [-> | ->]; reflexivity.
  - rewrite (IH a); [reflexivity|]. split; [discriminate|]. split; [exact P|]. split.
    + apply NoDup_remove_1 in ND. rewrite app_nil_r in ND. exact ND.
    + intros c Hc. apply X. rewrite in_app_iff. left. exact Hc.
Qed.

Lemma level_ctx : forall a, a = Segment \/ a = Ebml -> ctx (top_node a) = Some (room a, a).
Proof. intros a [-> | ->]; reflexivity. Qed.
Lemma path_top : forall a levels id, path 0 (a :: levels) id -> a = Segment \/ a = Ebml.
Proof. intros a levels id [H _]. apply top_ids. congruence. Qed.
Lemma segment_parent : forall p, type_in p Segment <> None -> p = 0.
Proof. apply (schema_parent Segment). vm_compute. reflexivity. Qed.
Lemma ebml_parent : forall p, type_in p Ebml <> None -> p = 0.
Proof. apply (schema_parent Ebml). vm_compute. reflexivity. Qed.
Lemma path_in : forall levels p id b, path p levels id -> In b levels -> exists q, (q = p \/ In q levels) /\ type_in q b <> None.
Proof.
  induction levels as [|a r IH]; intros p id b H I; [contradiction|]. destruct H as [H1 H2]. destruct I as [<- | I].
  - exists p. split; [left; reflexivity | congruence].
  - destruct (IH _ _ _ H2 I) as (q & Q & T). exists q. split; [right; destruct Q as [<- | Q]; [left; reflexivity | right; exact Q] | exact T].
Qed.
Lemma zero_not_child : forall p, type_in p 0 = None.
Proof.
  intro p. unfold type_in. assert (A : forallb (fun e => match assoc 0 (snd e) with None => true | Some _ => false end) schema = true) by (vm_compute; reflexivity).
  destruct (assoc p schema) as [l|] eqn:E; [|reflexivity]. rewrite forallb_forall in A. specialize (A _ (assoc_in _ _ _ _ E)). cbn [snd] in A.
  destruct (assoc 0 l); [discriminate | reflexivity].
Qed.
Lemma path_id : forall levels p id, path p levels id -> type_in (last levels p) id <> None.
Proof.
  intros levels. induction levels as [|a r _] using rev_ind; intros p id H; [exact H|]. apply path_snoc in H. rewrite last_last. tauto.
Qed.

Lemma seek_run : forall p levels id bs pos parts t, placed levels id -> remains levels pos bs parts -> begins_with parts = Some id ->
  bytes bs -> 0 <= pos -> pos + zlen bs < 2 ^ 62 ->
  exists f p' w, WebmParser_Feed read_all f (WebmParser_DidSeek p) (W bs pos t) = Some (kOkCompleted, p', w) /\
    w_trace w = lg (resume_events levels parts) t.
Proof.
  intros p levels id bs pos parts t Pl R Bw Hb Hp Hl. pose proof (placed_ById _ _ Pl) as By. pose proof (ById_leads _ _ By) as Ld.
  destruct Pl as (NE & P & ND & _). destruct levels as [|a inside]; [contradiction|]. clear NE. cbn [hd tl] in Ld.
  pose proof (path_top _ _ _ P) as Ta.
  assert (Tid : forall q, type_in q id <> None -> id <> Segment /\ id <> Ebml \/ q = 0).
  { intros q Q. destruct (Z.eq_dec id Segment) as [->|]; [right; apply segment_parent; exact Q|].
    destruct (Z.eq_dec id Ebml) as [->|]; [right; apply ebml_parent; exact Q | left; auto]. }
  assert (Z0 : ~ In 0 (a :: inside)).
  { intro I. destruct (path_in _ _ _ _ P I) as (q & _ & Q). apply Q, zero_not_child. }
  assert (Hid : id <> Segment /\ id <> Ebml).
  { pose proof (path_id _ _ _ P) as Q. destruct (Tid _ Q) as [T | T]; [exact T|]. exfalso. apply Z0. rewrite <- T. apply last_in. }
  destruct (sought_chain _ _ _ _ R Hb Hp Hl) as (x & more & Hh & Fi & Hx & S0 & C).
  { cbn [tl]. intro I. destruct P as [P1 P2]. destruct (path_in _ _ _ _ P2 I) as (q & Iq & Q). apply segment_parent in Q. subst q. apply Z0.
    destruct Iq as [<- | Iq]; [left; reflexivity | right; exact Iq]. }
  rewrite Bw in Fi. injection Fi as ->.
  cbn [hd tl] in C. 
  assert (HI : exists q, InitAfterSeek (top_node a) inside x = Some q).
  { clear - Ld. revert Ld. generalize (top_node a). induction inside as [|b r IH]; intros n Ld; cbn [leads InitAfterSeek] in *;
      apply andb_prop in Ld; destruct Ld as [_ Ld].
    - destruct (lookup (me_id x) (children n)); [eauto | discriminate].
    - destruct (lookup b (children n)) as [cn|]; [|discriminate]. destruct (IH _ Ld) as (q & ->). eauto. }
  destruct HI as (q & HI).
  destruct (C (top_node a) q [] t MdEof (level_ctx _ Ta) ltac:(exact Ld) HI eq_refl) as (f & m0 & c0 & v0 & m' & c' & v' & Eq & F & Ca & _).
  cbn [md_k md_rest md_cached] in F, Ca. rewrite app_nil_r, !Z.add_0_r in F.
  pose proof (hdr_len _ _ _ _ Hh) as (HL & _ & _).
  set (d := mk_dst DId id_new vi_new (mk_meta (me_id (d_cm (wp_doc p))) 0 (me_size (d_cm (wp_doc p))) pos) false CNone true).
  destruct (@dl_header nothing d bs pos x more ltac:(repeat split) Hh) as (i & z & DH).
  exists (S (S (S (S (S (S f)))))). eexists _, (W [] (pos + zlen bs) (lg (resume_events (a :: inside) parts) t)).
  split; [|reflexivity].
  unfold WebmParser_Feed. change (is_parsing_error (wp_status (WebmParser_DidSeek p))) with false. cbv iota.
  change (d_skip (wp_doc (WebmParser_DidSeek p))) with false.
  assert (B : forall g, dloop read_all (S g) false (wp_doc (WebmParser_DidSeek p)) (W bs pos t) = dloop read_all g false d (W bs pos t)).
  { intro g. cbn [dloop WebmParser_DidSeek wp_doc d_state d_idp d_szp d_cm d_skip d_child d_seek w_pos]. reflexivity. }
  rewrite B. clear B.
  rewrite DH. change (d_child d) with CNone. change (d_seek d) with true.
  assert (V : forall g w, dloop read_all (S g) false (mk_dst DValidate i z x false CNone true) w
            = dloop read_all g false (mk_dst DBody i z (unseen a) false (CAct q) false) w).
  { intros g w. cbn [dloop d_state d_cm d_seek d_idp d_szp d_skip]. cbv zeta.
    replace (me_id x =? idSegment) with false by (unfold idSegment; unfold Segment in Hid; lia).
    replace (me_id x =? idEbml) with false by (unfold idEbml; unfold Ebml in Hid; lia).
    rewrite By. cbn [hd tl]. unfold top_node in HI. rewrite HI. reflexivity. }
  rewrite V. clear V.
  match goal with |- context [dloop read_all (S ?g) false ?dd ?w0] =>
    change (dloop read_all (S g) false dd w0) with
      (match feed read_all g false q w0 with
              | None => None
              | Some (s, _, p1, w1) =>
                  if negb (s =? kOkCompleted) then Some (s, d_set_child (CAct p1) dd, w1)
                  else
                    let cm := match cached p1 with
                              | Some x => x
                              | None => mk_meta a 0 kUnknownElementSize kUnknownElementPosition
                              end in
                    let st := match cached p1 with Some _ => DValidate | None => DId end in
                    dloop read_all g false
                      (mk_dst st id_new vi_new (mk_meta (me_id cm) (me_hsize cm) (me_size cm) (w_pos w1))
                              false CNone false) w1
              end) end.
  rewrite (feed_mono _ f (S f) _ _ _ _ ltac:(lia) F). change (kOkCompleted =? kOkCompleted) with true. cbn [negb].
  change (cached (PMaster (top_node a) m' c' v')) with (if m_cached m' then Some (m_cm m') else None). rewrite Ca. cbv zeta. cbn [me_id me_hsize me_size w_pos].
  destruct f as [|f]; [discriminate F|].
  cbn [dloop d_state d_idp].
  change (IdParser_Feed id_new (W [] (pos + zlen bs) (lg (resume_events (a :: inside) parts) t))) with (kEndOfFile, 0, id_new, W [] (pos + zlen bs) (lg (resume_events (a :: inside) parts) t)).
  cbn [d_szp d_cm d_skip d_child w_pos me_pos]. change (kEndOfFile =? kOkCompleted) with false. change (kEndOfFile =? kEndOfFile) with true.
  rewrite Z.eqb_refl. cbn [negb andb d_set_state d_state]. reflexivity.
Qed.

(* what remains of a sequence of elements at one of them *)
Lemma elements_from : forall d parent closed pos bs all, elements d parent closed pos bs all ->
  forall before i rest, all = before ++ i :: rest ->
  exists bs1 bs2, bs = bs1 ++ bs2 /\ me_pos (i_meta i) = pos + zlen bs1 /\ elements d parent closed (pos + zlen bs1) bs2 (i :: rest).
Proof.
  intros d parent closed pos bs all H.
  induction H as [d parent closed pos
    | d parent closed pos id ib w payload more events v items Hi Hf Hsk El Els IH
    | d parent closed pos id ib w payload more events v items Hi Hw NE Ends Hsk El Els IH
    | d parent closed pos id ib w payload more items Hi Hf Hsk Op Els IH]; intros before i rest E.
  - destruct before; discriminate E.
  - destruct before as [|b before].
    + injection E as <- <-. exists [], (ib ++ vint w (zlen payload) ++ payload ++ more). rewrite zlen_nil, Z.add_0_r.
      split; [reflexivity|]. split; [reflexivity|]. apply els_sized; assumption.
    + injection E as <- E. destruct (IH _ _ _ E) as (bs1 & bs2 & -> & P & R).
      exists (ib ++ vint w (zlen payload) ++ payload ++ bs1), bs2. rewrite <- !app_assoc. split; [reflexivity|].
      rewrite !zlen_app. destruct Hf as [Hw _]. rewrite vint_len by lia.
      replace (pos + (zlen ib + (w + (zlen payload + zlen bs1)))) with (pos + zlen ib + w + zlen payload + zlen bs1) by lia. split; assumption.
  - destruct before as [|b before].
    + injection E as <- <-. exists [], (ib ++ vint w (2 ^ (7 * w) - 1) ++ payload ++ more). rewrite zlen_nil, Z.add_0_r.
      split; [reflexivity|]. split; [reflexivity|]. apply els_unsized; assumption.
    + injection E as <- E. destruct (IH _ _ _ E) as (bs1 & bs2 & -> & P & R).
      exists (ib ++ vint w (2 ^ (7 * w) - 1) ++ payload ++ bs1), bs2. rewrite <- !app_assoc. split; [reflexivity|].
      rewrite !zlen_app. rewrite vint_len by lia.
      replace (pos + (zlen ib + (w + (zlen payload + zlen bs1)))) with (pos + zlen ib + w + zlen payload + zlen bs1) by lia. split; assumption.
  - discriminate Hsk.
Qed.
(* without unknown elements it does not matter whether the size of the parent is known *)
Lemma element_open : forall d parent closed m bs evs v, element d parent closed m bs evs v ->
  type_in parent (me_id m) <> None \/ me_id m = Void -> element d parent false m bs evs v.
Proof.
  intros d parent closed m bs evs v H K. destruct H; try (econstructor; eassumption). exfalso. destruct K; contradiction.
Qed.
Lemma elements_open : forall d parent closed pos bs items, elements d parent closed pos bs items ->
  (forall i, In i items -> type_in parent (me_id (i_meta i)) <> None \/ me_id (i_meta i) = Void) ->
  elements d parent false pos bs items.
Proof.
  intros d parent closed pos bs items H.
  induction H as [d parent closed pos
    | d parent closed pos id ib w payload more events v items Hi Hf Hsk El Els IH
    | d parent closed pos id ib w payload more events v items Hi Hw NE Ends Hsk El Els IH
    | d parent closed pos id ib w payload more items Hi Hf Hsk Op Els IH]; intro K.
  - apply els_none.
  - apply els_sized; [assumption | assumption | assumption | |].
    + apply (element_open _ _ _ _ _ _ _ El). apply (K _ (or_introl eq_refl)).
    + apply IH. intros j J. apply K. right. exact J.
  - apply els_unsized; [assumption | assumption | assumption | assumption | assumption | |].
    + apply (element_open _ _ _ _ _ _ _ El). apply (K _ (or_introl eq_refl)).
    + apply IH. intros j J. apply K. right. exact J.
  - discriminate Hsk.
Qed.
Lemma elements_types : forall d parent closed pos bs items, elements d parent closed pos bs items -> forall i, In i items ->
  closed = true \/ type_in parent (me_id (i_meta i)) <> None \/ me_id (i_meta i) = Void.
Proof.
  intros d parent closed pos bs items H.
  induction H as [d parent closed pos
    | d parent closed pos id ib w payload more events v items Hi Hf Hsk El Els IH
    | d parent closed pos id ib w payload more events v items Hi Hw NE Ends Hsk El Els IH
    | d parent closed pos id ib w payload more items Hi Hf Hsk Op Els IH]; intros i [].
  - subst i. exact (el_open _ _ _ _ _ _ _ El).
  - apply IH; assumption.
  - subst i. exact (el_open _ _ _ _ _ _ _ El).
  - apply IH; assumption.
  - discriminate Hsk.
  - discriminate Hsk.
Qed.
Lemma segment_child_not_cluster : forall id, id <> Void -> type_in Segment id <> None -> type_in Cluster id = None.
Proof.
  intros id _ H. unfold type_in in *.
  assert (A : match assoc Segment schema with Some l => forallb (fun x => match type_in Cluster (fst x) with None => true | Some _ => false end) l | None => false end = true)
    by (vm_compute; reflexivity).
  destruct (assoc Segment schema) as [l|]; [|discriminate]. destruct (assoc id l) as [ty|] eqn:E; [|contradiction].
  rewrite forallb_forall in A. specialize (A _ (assoc_in _ _ _ _ E)). cbn [fst] in A. unfold type_in in A.
  destruct (assoc Cluster schema) as [lc|]; [|reflexivity]. destruct (assoc id lc); [discriminate | reflexivity].
Qed.
