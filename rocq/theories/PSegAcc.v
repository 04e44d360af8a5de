(* Frames held back by a cluster with accurate durations. *)
From Coq Require Import ZifyBool ZifyNat Sorted.
From Verif Require Import Base EbmlSpec MWriter WriterSpec PWriter MMuxUtil PMuxUtil Ids LacingSpec MMuxBlock BlockSpec
  PMuxBlock MMuxMeta MetaSpec MMuxSegment SegmentSpec PSegRun PSegCluster.

(* ---------- maps ---------- *)

Section Maps.
  Context {A : Type}.
  Definition keys (m : zmap A) : list Z := map fst m.
  Definition increasing (m : zmap A) : Prop := StronglySorted Z.lt (keys m).

  Lemma zm_find_above : forall (m : zmap A) k, Forall (Z.lt k) (keys m) -> zm_find k m = None.
  Proof.
    induction m as [|[k' v] m IH]; intros k H; [reflexivity|]. cbn [zm_find]. inversion H; subst. cbn in H2.
    replace (k =? k') with false by lia. apply IH. assumption.
  Qed.
  Lemma zm_set_keys : forall (m : zmap A) k v x, In x (keys (zm_set k v m)) <-> x = k \/ In x (keys m).
  Proof.
    induction m as [|[k' v'] m IH]; intros k v x; cbn [zm_set keys map fst In].
    - intuition.
    - destruct (Z.ltb_spec k k'); [cbn; intuition|]. destruct (Z.eqb_spec k k') as [->|Hne]; [cbn; intuition|].
      cbn [map fst In]. fold (keys (zm_set k v m)). rewrite IH. unfold keys. intuition.
  Qed.
  Lemma zm_set_increasing : forall (m : zmap A) k v, increasing m -> increasing (zm_set k v m).
  Proof.
    induction m as [|[k' v'] m IH]; intros k v H.
    - repeat constructor.
    - inversion H as [|? ? H1 H2]; subst. cbn [zm_set]. destruct (Z.ltb_spec k k').
      + constructor; [exact H|]. constructor; [assumption|]. eapply Forall_impl; [|exact H2]. cbn. intros; lia.
      + destruct (Z.eqb_spec k k') as [->|Hne]; [constructor; assumption|].
        constructor; [apply IH; assumption|]. apply Forall_forall. intros x Hx.
        apply zm_set_keys in Hx as [->|Hx]; [cbn; lia|]. eapply Forall_forall in H2; eauto.
  Qed.
  Lemma zm_find_set : forall (m : zmap A) k v n, increasing m ->
    zm_find n (zm_set k v m) = if n =? k then Some v else zm_find n m.
  Proof.
    induction m as [|[k' v'] m IH]; intros k v n H.
    - reflexivity.
    - inversion H as [|? ? H1 H2]; subst. cbn [zm_set]. destruct (Z.ltb_spec k k'); [reflexivity|].
      destruct (Z.eqb_spec k k') as [->|Hne].
      + cbn [zm_find]. destruct (n =? k'); reflexivity.
      + cbn [zm_find]. destruct (Z.eqb_spec n k') as [->|]; [replace (k' =? k) with false by lia; reflexivity|].
        apply IH. assumption.
  Qed.
  Lemma zm_del_keys : forall (m : zmap A) k x, In x (keys (zm_del k m)) -> In x (keys m).
  Proof.
    induction m as [|[k' v'] m IH]; intros k x H; [exact H|]. cbn [zm_del] in H. cbn [keys map fst In].
    destruct (k =? k'); [right; exact H|]. cbn in H. destruct H as [->|H]; [left; reflexivity|right; eapply IH; exact H].
  Qed.
  Lemma zm_del_increasing : forall (m : zmap A) k, increasing m -> increasing (zm_del k m).
  Proof.
    induction m as [|[k' v'] m IH]; intros k H; [exact H|]. inversion H as [|? ? H1 H2]; subst. cbn [zm_del].
    destruct (k =? k'); [assumption|]. constructor; [apply IH; assumption|]. apply Forall_forall. intros x Hx.
    apply zm_del_keys in Hx. eapply Forall_forall in H2; eauto.
  Qed.
  Lemma zm_find_del : forall (m : zmap A) k n, increasing m ->
    zm_find n (zm_del k m) = if n =? k then None else zm_find n m.
  Proof.
    induction m as [|[k' v'] m IH]; intros k n H; [destruct (n =? k); reflexivity|].
    inversion H as [|? ? H1 H2]; subst. cbn [zm_del]. destruct (Z.eqb_spec k k') as [->|Hne].
    - cbn [zm_find]. destruct (Z.eqb_spec n k') as [->|]; [|reflexivity]. apply zm_find_above. assumption.
    - cbn [zm_find]. destruct (Z.eqb_spec n k') as [->|]; [replace (k' =? k) with false by lia; reflexivity|].
      apply IH. assumption.
  Qed.
  Lemma zm_In_find : forall (m : zmap A) k v, increasing m -> (In (k, v) m <-> zm_find k m = Some v).
  Proof.
    induction m as [|[k' v'] m IH]; intros k v H.
    - split; [intros []|discriminate].
    - inversion H as [|? ? H1 H2]; subst. cbn [zm_find In]. destruct (Z.eqb_spec k k') as [->|Hne].
      + split.
        * intros [E|HI]; [congruence|]. exfalso. apply (in_map fst) in HI. eapply Forall_forall in H2; [|exact HI]. cbn in H2. lia.
        * intros E. left. congruence.
      + rewrite <- IH by assumption. split; [intros [E|HI]; [congruence|exact HI]|auto].
  Qed.
End Maps.

(* ---------- the held back frames ---------- *)

Definition some_map (st : zmap (list frame)) : zmap (list (option frame)) :=
  map (fun p => (fst p, map Some (snd p))) st.
Definition held (st : zmap (list frame)) (n : Z) : list frame :=
  match zm_find n st with Some l => l | None => [] end.

Lemma some_find : forall st n, zm_find n (some_map st) = option_map (map Some) (zm_find n st).
Proof. induction st as [|[k l] st IH]; intros n; [reflexivity|]. cbn. destruct (n =? k); [reflexivity|apply IH]. Qed.
Lemma some_set : forall st n l, zm_set n (map Some l) (some_map st) = some_map (zm_set n l st).
Proof.
  induction st as [|[k l'] st IH]; intros n l; [reflexivity|]. cbn. destruct (n <? k); [reflexivity|].
  destruct (n =? k); [reflexivity|]. cbn. rewrite IH. reflexivity.
Qed.
Lemma some_del : forall st n, zm_del n (some_map st) = some_map (zm_del n st).
Proof. induction st as [|[k l'] st IH]; intros n; [reflexivity|]. cbn. destruct (n =? k); [reflexivity|]. cbn. rewrite IH. reflexivity. Qed.

(* every track's list is nonempty and holds frames of that track *)
Definition track_lists (st : zmap (list frame)) : Prop :=
  Forall (fun p => snd p <> [] /\ Forall (fun f => fr_track f = fst p) (snd p)) st.
Definition wf_held (st : zmap (list frame)) : Prop := increasing st /\ track_lists st.

Lemma held_set : forall st k l n, increasing st -> held (zm_set k l st) n = if n =? k then l else held st n.
Proof. intros. unfold held. rewrite zm_find_set by assumption. destruct (n =? k); reflexivity. Qed.
Lemma held_del : forall st k n, increasing st -> held (zm_del k st) n = if n =? k then [] else held st n.
Proof. intros. unfold held. rewrite zm_find_del by assumption. destruct (n =? k); reflexivity. Qed.
Lemma track_set : forall st k l, track_lists st -> l <> [] -> Forall (fun f => fr_track f = k) l -> track_lists (zm_set k l st).
Proof.
  intros st k l H Hn Hl. induction H as [|[k' l'] st [H1 H2] Hst IH]; cbn [zm_set].
  - repeat constructor; assumption.
  - destruct (k <? k'); [repeat constructor; assumption|]. destruct (k =? k'); repeat constructor; auto.
Qed.
Lemma track_del : forall st k, track_lists st -> track_lists (zm_del k st).
Proof.
  intros st k H. induction H as [|[k' l'] st [H1 H2] Hst IH]; cbn [zm_del]; [constructor|].
  destruct (k =? k'); [assumption|]. constructor; auto.
Qed.
Lemma held_track : forall st n, wf_held st -> Forall (fun f => fr_track f = n) (held st n).
Proof.
  intros st n [HI HT]. unfold held. destruct (zm_find n st) as [l|] eqn:E; [|constructor].
  apply zm_In_find in E; [|exact HI]. eapply Forall_forall in HT; [|exact E]. apply HT.
Qed.

Definition total (st : zmap (list frame)) : nat := list_sum (map (fun p => length (snd p)) st).
Definition weights (l : list frame) : Z := fold_right (fun f a => frame_weight f + a) 0 l.
Definition held_weight (st : zmap (list frame)) : Z := fold_right (fun p a => weights (snd p) + a) 0 st.
Lemma weights_cons : forall f l, weights (f :: l) = frame_weight f + weights l.
Proof. reflexivity. Qed.
Lemma held_weight_cons : forall k l st, held_weight ((k, l) :: st) = weights l + held_weight st.
Proof. reflexivity. Qed.
Lemma total_cons : forall k l st, total ((k, l) :: st) = (length l + total st)%nat.
Proof. reflexivity. Qed.
Lemma weights_app : forall a b, weights (a ++ b) = weights a + weights b.
Proof. induction a as [|x a IH]; intros b; [reflexivity|]. cbn [app]. rewrite !weights_cons, IH. lia. Qed.
Lemma weights_nonneg : forall l, 0 <= weights l.
Proof. induction l as [|x l IH]; [cbn; lia|]. rewrite weights_cons. pose proof (frame_weight_pos x). lia. Qed.
Lemma held_weight_nonneg : forall st, 0 <= held_weight st.
Proof. induction st as [|[k l] st IH]; [cbn; lia|]. rewrite held_weight_cons. pose proof (weights_nonneg l). lia. Qed.
Lemma held_cons : forall k l st n, held ((k, l) :: st) n = if n =? k then l else held st n.
Proof. intros. unfold held. cbn [zm_find]. destruct (n =? k); reflexivity. Qed.
Lemma held_above : forall st n, Forall (Z.lt n) (keys st) -> held st n = [].
Proof. intros st n H. unfold held. rewrite zm_find_above by exact H. reflexivity. Qed.
Lemma total_set : forall st k l, increasing st -> (total (zm_set k l st) + length (held st k) = total st + length l)%nat.
Proof.
  induction st as [|[k' l'] st IH]; intros k l H; cbn [zm_set]; [cbn; lia|].
  inversion H as [|? ? H1 H2]; subst. rewrite held_cons. destruct (Z.ltb_spec k k').
  - replace (k =? k') with false by lia. rewrite held_above; [rewrite !total_cons; cbn [length]; lia|].
    eapply Forall_impl; [|exact H2]. cbn; intros; lia.
  - destruct (Z.eqb_spec k k'); rewrite !total_cons; [lia|]. specialize (IH k l H1). lia.
Qed.
Lemma total_del : forall st k, increasing st -> (total (zm_del k st) + length (held st k) = total st)%nat.
Proof.
  induction st as [|[k' l'] st IH]; intros k H; cbn [zm_del]; [cbn; lia|].
  inversion H as [|? ? H1 H2]; subst. rewrite held_cons. destruct (Z.eqb_spec k k'); rewrite !total_cons; [lia|].
  specialize (IH k H1). lia.
Qed.
Lemma weight_set : forall st k l, increasing st -> held_weight (zm_set k l st) + weights (held st k) = held_weight st + weights l.
Proof.
  induction st as [|[k' l'] st IH]; intros k l H; cbn [zm_set].
  { rewrite held_weight_cons. change (held_weight []) with 0. change (weights (held [] k)) with 0. lia. }
  inversion H as [|? ? H1 H2]; subst. rewrite held_cons. destruct (Z.ltb_spec k k').
  - replace (k =? k') with false by lia. rewrite held_above; [rewrite !held_weight_cons; change (weights []) with 0; lia|].
    eapply Forall_impl; [|exact H2]. cbn; intros; lia.
  - destruct (Z.eqb_spec k k'); rewrite !held_weight_cons; [lia|]. specialize (IH k l H1). lia.
Qed.
Lemma weight_del : forall st k, increasing st -> held_weight (zm_del k st) + weights (held st k) = held_weight st.
Proof.
  induction st as [|[k' l'] st IH]; intros k H; cbn [zm_del]; [cbn; lia|].
  inversion H as [|? ? H1 H2]; subst. rewrite held_cons. destruct (Z.eqb_spec k k'); rewrite !held_weight_cons; [lia|].
  specialize (IH k H1). lia.
Qed.
Lemma stored_total : forall c st, cl_stored c = some_map st -> stored_count c = total st.
Proof.
  intros c st E. unfold stored_count, total. rewrite E. unfold some_map. rewrite map_map. f_equal. apply map_ext. intros [k l]. cbn. apply map_length.
Qed.

(* ---------- frames that can be written ---------- *)

Definition good_frame (f : frame) : Prop := frame_ok f /\ IsValid f = true.
Definition fits (scale tc : Z) (f : frame) : Prop := 0 <= frame_rel f tc scale <= 32767.

Lemma CopyFrom_good : forall f, good_frame f -> good_frame (CopyFrom f) /\ carries false f (CopyFrom f) /\
  frame_weight (CopyFrom f) = frame_weight f.
Proof.
  intros f [Hok HV]. pose proof Hok as (HB & HL & HA & HI & HD & HT & HTS & HDP & HR).
  destruct f as [data add aid dur ds key tr ts disc rf rs].
  unfold CopyFrom, good_frame, frame_weight, carries in *. cbn [fr_data fr_additional fr_add_id fr_duration fr_duration_set fr_is_key fr_track fr_timestamp fr_discard fr_ref fr_ref_set] in *.
  destruct add as [a|].
  - destruct HA as [HA1 HA2]. replace (zlen a >? 0) with true by lia. split; [split; assumption|]. split; [|reflexivity]. repeat split; auto.
  - split; [split|].
    + unfold frame_ok. cbn [fr_data fr_additional fr_add_id fr_duration fr_duration_set fr_is_key fr_track fr_timestamp fr_discard fr_ref fr_ref_set].
      refine (conj HB (conj HL (conj I (conj _ (conj HD (conj HT (conj HTS (conj HDP HR)))))))). unfold is_u64. lia.
    + exact HV.
    + split; [|reflexivity]. repeat split; auto. intros H; congruence.
Qed.

Definition stored_ok (scale tc : Z) (l : list frame) : Prop := Forall (fun f => good_frame f /\ fits scale tc f) l.

(* ---------- holding back and flushing ---------- *)

Lemma okay_spec : forall o f, track_lists o -> exists b, okay_to_write (some_map o) f = Val b /\
  (b = true -> Forall (fun p => match snd p with [] => True | g :: _ => fr_timestamp f <= fr_timestamp g end) o).
Proof.
  intros o f H. induction H as [|[k l] o [H1 H2] Ho IH]; [exists true; split; [reflexivity|constructor]|].
  cbn [some_map map fst snd okay_to_write]. destruct l as [|g l]; [contradiction H1; reflexivity|]. cbn [map front].
  destruct (Z.ltb_spec (fr_timestamp g) (fr_timestamp f)); [exists false; split; [reflexivity|discriminate]|].
  destruct IH as (b & E & Hb). exists b. split; [exact E|]. intros ->. constructor; [cbn; lia|apply Hb; reflexivity].
Qed.

Lemma flush_run : forall l c o fs pre w done, l <> [] -> track_lists o -> open_cl c fs pre w ->
  0 <= cl_tc c < 2 ^ 63 -> 1 <= cl_scale c -> stored_ok (cl_scale c) (cl_tc c) l ->
  zlen fs + zlen l <= INT_MAX -> zlen (w_file w) + weights l < 2 ^ 55 ->
  exists k c' w', flush_track c (some_map o) (map Some l) done w = Val ((true, (done + k)%nat, c'), w') /\
    (k < length l)%nat /\ open_cl c' (fs ++ firstn k l) pre w' /\ same_cfg c c' /\
    (cl_header c = true -> cl_header c' = true) /\
    w_seekable w' = w_seekable w /\ zlen (w_file w') + weights (skipn k l) <= zlen (w_file w) + weights l /\
    Forall (fun f => Forall (fun p => match snd p with [] => True | g :: _ => fr_timestamp f <= fr_timestamp g end) o) (firstn k l).
Proof.
  induction l as [|f l IH]; intros c o fs pre w done Hne HT Ho Htc Hsc Hst Hn Hb; [congruence|].
  destruct l as [|f2 l].
  - cbn [map flush_track]. exists O, c, w. rewrite Nat.add_0_r. cbn [firstn skipn length]. rewrite app_nil_r. 
    split; [reflexivity|]. split; [lia|]. split; [exact Ho|]. split; [apply same_cfg_refl|]. split; [auto|]. split; [reflexivity|]. split; [lia|constructor].
  - change (map Some (f :: f2 :: l)) with (Some f :: map Some (f2 :: l)). cbn [flush_track].
    destruct (okay_spec o f HT) as (b & Eb & Hbt). rewrite Eb.
    change (map Some (f2 :: l)) with (Some f2 :: map Some l). cbv iota.
    destruct b.
    + inversion Hst as [|? ? [[Hok HV] Hf] Hst']; subst. rewrite weights_cons in Hb.
      rewrite zlen_cons in Hn. pose proof (zlen_nonneg _ (f2 :: l)) as Hl0. pose proof (weights_nonneg (f2 :: l)) as Hw0.
      destruct (DoWriteFrame_run c fs pre w f Ho Hok HV Htc Hsc Hf) as (c1 & w1 & E1 & Ho1 & H1 & HC1 & _ & S1 & B1).
      { rewrite zlen_cons in *. pose proof (zlen_nonneg _ l). lia. }
      { lia. }
      rewrite (bind_run _ _ _ _ _ _ _ E1). cbn [negb].
      change (Some f2 :: map Some l) with (map Some (f2 :: l)).
      pose proof HC1 as (C1 & C2 & C3 & C4 & C5 & C6).
      destruct (IH c1 o (fs ++ [f]) pre w1 (S done)) as (k & c2 & w2 & E2 & Hk & Ho2 & HC2 & H2 & S2 & B2 & HF); auto.
      { congruence. } { rewrite C3; exact Htc. } { rewrite C4; exact Hsc. } { rewrite C3, C4; exact Hst'. }
      { rewrite zlen_app. change (zlen [f]) with 1. lia. }
      { lia. }
      exists (S k), c2, w2. rewrite E2. split; [replace (done + S k)%nat with (S done + k)%nat by lia; reflexivity|]. cbn [firstn skipn length] in *. split; [lia|].
      rewrite <- app_assoc in Ho2. split; [exact Ho2|]. split; [eapply same_cfg_trans; eassumption|].
      split; [auto|]. split; [congruence|]. split.
      { change (weights (f :: f2 :: l)) with (frame_weight f + weights (f2 :: l)). lia. }
      constructor; auto.
    + exists O, c, w. rewrite Nat.add_0_r. cbn [firstn skipn length]. rewrite app_nil_r.
      split; [reflexivity|]. split; [lia|]. split; [exact Ho|]. split; [apply same_cfg_refl|]. split; [auto|]. split; [reflexivity|]. split; [lia|constructor].
Qed.

(* ---------- sorted lists ---------- *)

Lemma sorted_app : forall a b, sorted_ts (a ++ b) <->
  sorted_ts a /\ sorted_ts b /\ (forall x y, In x a -> In y b -> fr_timestamp x <= fr_timestamp y).
Proof.
  unfold sorted_ts. induction a as [|x a IH]; intros b; cbn [app].
  - split; [intros H; split; [constructor|split; [exact H|intros ? ? []]]|intros (_ & H & _); exact H].
  - split.
    + intros H. inversion H as [|? ? H1 H2]; subst. apply IH in H1 as (Ha & Hb & Hab). apply Forall_app in H2 as [F1 F2].
      split; [constructor; assumption|]. split; [exact Hb|]. intros u v [<-|Hu] Hv; [|auto]. eapply Forall_forall in F2; eauto.
    + intros (Ha & Hb & Hab). inversion Ha as [|? ? H1 H2]; subst. constructor.
      * apply IH. split; [exact H1|]. split; [exact Hb|]. intros u v Hu Hv. apply Hab; [right; exact Hu|exact Hv].
      * apply Forall_app. split; [exact H2|]. apply Forall_forall. intros v Hv. apply Hab; [left; reflexivity|exact Hv].
Qed.
Lemma sorted_filter : forall p l, sorted_ts l -> sorted_ts (filter p l).
Proof.
  unfold sorted_ts. intros p l H. induction H as [|x l H IH HF]; cbn [filter]; [constructor|].
  destruct (p x); [|exact IH]. constructor; [exact IH|]. apply Forall_forall. intros y Hy. apply filter_In in Hy as [Hy _].
  eapply Forall_forall in HF; eauto.
Qed.
Lemma sorted_map : forall (h : frame -> frame) l, (forall f, fr_timestamp (h f) = fr_timestamp f) -> sorted_ts l -> sorted_ts (map h l).
Proof.
  unfold sorted_ts. intros h l Hh H. induction H as [|x l H IH HF]; cbn [map]; constructor; [exact IH|].
  apply Forall_forall. intros y Hy. apply in_map_iff in Hy as (z & <- & Hz). rewrite !Hh. eapply Forall_forall in HF; eauto.
Qed.
Lemma CopyFrom_ts : forall f, fr_timestamp (CopyFrom f) = fr_timestamp f.
Proof. reflexivity. Qed.
Lemma CopyFrom_track : forall f, fr_track (CopyFrom f) = fr_track f.
Proof. reflexivity. Qed.
Lemma filter_copy : forall n l, filter (of_track n) (map CopyFrom l) = map CopyFrom (filter (of_track n) l).
Proof.
  intros n l. induction l as [|f l IH]; [reflexivity|]. cbn [map filter].
  change (of_track n (CopyFrom f)) with (of_track n f). destruct (of_track n f); cbn [map]; rewrite IH; reflexivity.
Qed.
Lemma filter_track_all : forall n l, Forall (fun f => fr_track f = n) l -> filter (of_track n) l = l.
Proof.
  intros n l H. induction H as [|f l E H IH]; [reflexivity|]. cbn [filter]. unfold of_track at 1. rewrite E, Z.eqb_refl, IH. reflexivity.
Qed.
Lemma filter_track_none : forall n m l, n <> m -> Forall (fun f => fr_track f = n) l -> filter (of_track m) l = [].
Proof.
  intros n m l Hne H. induction H as [|f l E H IH]; [reflexivity|]. cbn [filter]. unfold of_track at 1. rewrite E.
  replace (n =? m) with false by lia. exact IH.
Qed.
Lemma filter_track_In : forall f l, In f l -> In f (filter (of_track (fr_track f)) l).
Proof. intros f l H. apply filter_In. split; [exact H|]. unfold of_track. apply Z.eqb_refl. Qed.
Lemma In_firstn : forall {A} k (l : list A) x, In x (firstn k l) -> In x l.
Proof. intros A k l x H. rewrite <- (firstn_skipn k l). apply in_or_app. left. exact H. Qed.
Lemma In_skipn : forall {A} k (l : list A) x, In x (skipn k l) -> In x l.
Proof. intros A k l x H. rewrite <- (firstn_skipn k l). apply in_or_app. right. exact H. Qed.

Lemma open_cl_stored : forall c fs pre w st, open_cl c fs pre w -> open_cl (cl_set_stored st c) fs pre w.
Proof. intros c fs pre w st [H1 H2 H3 H4 H5 H6 H7 H8]. constructor; auto. Qed.

(* ---------- adding a frame to a cluster with accurate durations ---------- *)

(* fs are the frames written, ad the frames added, st those held back *)
Record acc_rel (c : cluster) (st : zmap (list frame)) (fs ad : list frame) : Prop := mkAcc {
  ar_stored : cl_stored c = some_map st;
  ar_wf : wf_held st;
  ar_split : forall n, filter (of_track n) fs ++ held st n = filter (of_track n) (map CopyFrom ad);
  ar_sorted : sorted_ts fs;
  ar_le : forall f g n, In f fs -> In g (held st n) -> fr_timestamp f <= fr_timestamp g;
  ar_count : zlen fs + Z.of_nat (total st) = zlen ad
}.
(* what adding a frame to a cluster does not change *)
Definition same_cl (c c' : cluster) : Prop :=
  cl_fixed c' = cl_fixed c /\ cl_cues_pos c' = cl_cues_pos c /\ cl_tc c' = cl_tc c /\ cl_scale c' = cl_scale c /\
  cl_write_last c' = cl_write_last c.
Lemma same_cfg_cl : forall c c', same_cfg c c' -> same_cl c c'.
Proof. unfold same_cfg, same_cl. intuition. Qed.
Lemma same_cl_trans : forall a b c, same_cl a b -> same_cl b c -> same_cl a c.
Proof. unfold same_cl. intuition congruence. Qed.

Lemma acc_from_added : forall c st fs ad x n, acc_rel c st fs ad -> In x fs \/ In x (held st n) -> In x (map CopyFrom ad).
Proof.
  intros c st fs ad x n H HI.
  assert (Hx : In x (filter (of_track (fr_track x)) (map CopyFrom ad))).
  { rewrite <- (ar_split _ _ _ _ H (fr_track x)). apply in_or_app. destruct HI as [HI|HI]; [left; apply filter_track_In; exact HI|right].
    pose proof (held_track st n (ar_wf _ _ _ _ H)) as HT. eapply Forall_forall in HT; [|exact HI]. cbn in HT. rewrite HT. exact HI. }
  apply filter_In in Hx. apply Hx.
Qed.
Lemma acc_held_sorted : forall c st fs ad n, acc_rel c st fs ad -> sorted_ts ad -> sorted_ts (held st n).
Proof.
  intros c st fs ad n H HS. pose proof (sorted_filter (of_track n) _ (sorted_map CopyFrom ad CopyFrom_ts HS)) as HF.
  rewrite <- (ar_split _ _ _ _ H n) in HF. apply sorted_app in HF. apply HF.
Qed.

Lemma Queue_acc_run : forall c st fs ad pre w f, cl_write_last c = true -> open_cl c fs pre w -> acc_rel c st fs ad ->
  sorted_ts (ad ++ [f]) -> 0 <= cl_tc c < 2 ^ 63 -> 1 <= cl_scale c ->
  stored_ok (cl_scale c) (cl_tc c) (ad ++ [f]) -> zlen ad < INT_MAX ->
  zlen (w_file w) + held_weight st + frame_weight f < 2 ^ 55 ->
  exists st' ws c' w', QueueOrWriteFrame c f w = Val ((true, c'), w') /\ open_cl c' (fs ++ ws) pre w' /\
    acc_rel c' st' (fs ++ ws) (ad ++ [f]) /\ same_cl c c' /\ w_seekable w' = w_seekable w /\
    (cl_header c = true -> cl_header c' = true) /\ st' <> [] /\
    zlen (w_file w') + held_weight st' <= zlen (w_file w) + held_weight st + frame_weight f.
Proof.
  intros c st fs ad pre w f HWL Ho HA HS Htc Hsc Hst Hn Hb.
  pose proof HA as [A1 [A2a A2b] A3 A4 A5 A6].
  apply Forall_app in Hst as [Hst Hf]. inversion Hf as [|? ? [Hgf Hff] _]; subst.
  unfold QueueOrWriteFrame. rewrite (proj2 Hgf), HWL. cbn [negb]. cbv zeta. rewrite A1.
  set (n := fr_track f) in *.
  replace (match zm_find n (some_map st) with Some l => l | None => [] end ++ [Some (CopyFrom f)])
    with (map Some (held st n ++ [CopyFrom f])).
  2:{ rewrite map_app. cbn [map]. f_equal. unfold held. rewrite some_find. destruct (zm_find n st); reflexivity. }
  set (l := held st n ++ [CopyFrom f]).
  rewrite some_set. set (st1 := zm_set n l st).
  assert (I1 : increasing st1) by (apply zm_set_increasing; exact A2a).
  assert (Hlt : Forall (fun g => fr_track g = n) l).
  { apply Forall_app. split; [apply held_track; split; assumption|]. constructor; [apply CopyFrom_track|constructor]. }
  assert (Hlne : l <> []) by (unfold l; destruct (held st n); discriminate).
  assert (T1 : track_lists st1) by (apply track_set; assumption).
  cbn [cl_stored cl_set_stored]. rewrite some_del.
  assert (Hlad : forall x, In x l -> In x (map CopyFrom (ad ++ [f]))).
  { intros x Hx. rewrite map_app. apply in_or_app. apply in_app_or in Hx as [Hx|Hx]; [left|right; exact Hx].
    eapply acc_from_added; [exact HA|right; exact Hx]. }
  assert (Hcg : forall x, In x (map CopyFrom (ad ++ [f])) -> good_frame x /\ fits (cl_scale c) (cl_tc c) x).
  { intros x Hx. apply in_map_iff in Hx as (y & <- & Hy).
    assert (HY : good_frame y /\ fits (cl_scale c) (cl_tc c) y).
    { apply in_app_or in Hy as [Hy|[<-|[]]]; [|split; assumption]. eapply Forall_forall in Hst; eauto. }
    split; [apply CopyFrom_good, HY|apply HY]. }
  pose proof (total_set st n l A2a) as HTS. fold st1 in HTS. pose proof (weight_set st n l A2a) as HWS. fold st1 in HWS.
  assert (HWl : weights l = weights (held st n) + frame_weight f).
  { unfold l. rewrite weights_app, weights_cons. destruct (CopyFrom_good f Hgf) as (_ & _ & ->). change (weights []) with 0. lia. }
  assert (Hll : (length l = length (held st n) + 1)%nat) by (unfold l; rewrite app_length; reflexivity).
  pose proof (total_del st1 n I1) as HTD. assert (HH1 : held st1 n = l) by (unfold st1; rewrite held_set, Z.eqb_refl by exact A2a; reflexivity).
  rewrite HH1 in HTD. pose proof (weight_del st1 n I1) as HWD. rewrite HH1 in HWD.
  pose proof (held_weight_nonneg (zm_del n st1)) as HW0.
  destruct (flush_run l (cl_set_stored (some_map st1) c) (zm_del n st1) fs pre w 0 Hlne (track_del _ _ T1) (open_cl_stored _ _ _ _ _ Ho)
              Htc Hsc) as (k & c2 & w2 & E2 & Hk & Ho2 & HC2 & H2 & S2 & B2 & HF).
  { apply Forall_forall. intros x Hx. apply Hcg, Hlad, Hx. }
  { unfold zlen in *. lia. }
  { lia. }
  rewrite (bind_run _ _ _ _ _ _ _ E2). cbn [negb Nat.add].
  pose proof HC2 as (C1 & C2 & C3 & C4 & C5 & C6). cbn [cl_stored cl_set_stored] in C6. rewrite C6, skipn_map, some_set.
  set (st2 := zm_set n (skipn k l) st1).
  assert (Hskne : skipn k l <> []).
  { intros E. apply (f_equal (@length frame)) in E. rewrite skipn_length in E. cbn in E. lia. }
  assert (Hsplit : firstn k l ++ skipn k l = l) by apply firstn_skipn.
  assert (Hheld2 : forall m, held st2 m = if m =? n then skipn k l else held st m).
  { intros m. unfold st2. rewrite held_set by exact I1. destruct (Z.eqb_spec m n); [reflexivity|].
    unfold st1. rewrite held_set by exact A2a. replace (m =? n) with false by lia. reflexivity. }
  assert (HSad : sorted_ts ad) by (apply sorted_app in HS; apply HS).
  assert (Hadf : forall y, In y ad -> fr_timestamp y <= fr_timestamp f).
  { intros y Hy. apply sorted_app in HS as (_ & _ & HS). apply HS; [exact Hy|left; reflexivity]. }
  assert (HSl : sorted_ts l).
  { apply sorted_app. split; [eapply acc_held_sorted; eassumption|]. split; [repeat constructor|].
    intros x y Hx [<-|[]]. apply (or_intror (A := In x fs)), (acc_from_added _ _ _ _ x n HA) in Hx.
    apply in_map_iff in Hx as (z & <- & Hz). rewrite !CopyFrom_ts. auto. }
  assert (Hfl : forall x y, In x fs -> In y l -> fr_timestamp x <= fr_timestamp y).
  { intros x y Hx Hy. apply in_app_or in Hy as [Hy|[<-|[]]]; [eapply A5; eassumption|].
    apply (or_introl (B := In x (held st n))), (acc_from_added _ _ _ _ x n HA) in Hx.
    apply in_map_iff in Hx as (z & <- & Hz). rewrite !CopyFrom_ts. auto. }
  exists st2, (firstn k l), (cl_set_stored (some_map st2) c2), w2.
  split; [reflexivity|]. split; [apply open_cl_stored; exact Ho2|].
  split; [constructor|split; [|split; [exact S2|split; [exact H2|split]]]].
  - reflexivity.
  - split; [apply zm_set_increasing; exact I1|]. apply track_set; auto. apply Forall_forall. intros x Hx.
    apply In_skipn in Hx. eapply Forall_forall in Hlt; eauto.
  - intros m. rewrite Hheld2, filter_app, map_app, filter_app, <- A3. cbn [map filter]. unfold of_track at 4. rewrite CopyFrom_track. fold n.
    assert (Hfk : Forall (fun g => fr_track g = n) (firstn k l)).
    { apply Forall_forall. intros x Hx. apply In_firstn in Hx. eapply Forall_forall in Hlt; eauto. }
    destruct (Z.eqb_spec m n) as [->|Hne].
    + rewrite Z.eqb_refl, (filter_track_all n (firstn k l)) by exact Hfk. rewrite <- !app_assoc, Hsplit. reflexivity.
    + replace (n =? m) with false by lia. rewrite (filter_track_none n m (firstn k l)) by (auto; lia). rewrite !app_nil_r. reflexivity.
  - apply sorted_app. split; [exact A4|]. rewrite <- Hsplit in HSl. apply sorted_app in HSl. split; [apply HSl|].
    intros x y Hx Hy. apply Hfl; [exact Hx|]. eapply In_firstn; exact Hy.
  - intros x g m Hx Hg. rewrite Hheld2 in Hg. apply in_app_or in Hx as [Hx|Hx].
    + destruct (m =? n); [apply Hfl; [exact Hx|eapply In_skipn; exact Hg]|eapply A5; eassumption].
    + destruct (Z.eqb_spec m n) as [->|Hne].
      * rewrite <- Hsplit in HSl. apply sorted_app in HSl as (_ & _ & HSl). auto.
      * eapply Forall_forall in HF; [|exact Hx]. cbn beta in HF.
        assert (HD : held (zm_del n st1) m = held st m).
        { rewrite held_del by exact I1. replace (m =? n) with false by lia. unfold st1. rewrite held_set by exact A2a. replace (m =? n) with false by lia. reflexivity. }
        pose proof (acc_held_sorted _ _ _ _ m HA HSad) as HSm. rewrite <- HD in Hg, HSm. unfold held in Hg, HSm.
        destruct (zm_find m (zm_del n st1)) as [lm|] eqn:Em; [|destruct Hg].
        apply zm_In_find in Em; [|apply zm_del_increasing; exact I1]. eapply Forall_forall in HF; [|exact Em]. cbn [snd] in HF.
        destruct lm as [|g0 lm]; [destruct Hg|]. destruct Hg as [<-|Hg]; [exact HF|].
        inversion HSm as [|? ? _ HSm2]; subst. eapply Forall_forall in HSm2; [|exact Hg]. cbn in HSm2. lia.
  - pose proof (total_set st1 n (skipn k l) I1) as HT2. fold st2 in HT2. rewrite HH1, skipn_length in HT2.
    rewrite !zlen_app. unfold zlen in *. rewrite firstn_length. cbn [length]. lia.
  - apply same_cfg_cl in HC2. exact HC2.
  - unfold st2. intros E. apply (f_equal (fun m => held m n)) in E. rewrite held_set, Z.eqb_refl in E by exact I1. apply Hskne. exact E.
  - pose proof (weight_set st1 n (skipn k l) I1) as HW2. fold st2 in HW2. rewrite HH1 in HW2. lia.
Qed.

(* ---------- writing the held back frames when the cluster is closed ---------- *)

Lemma pick_spec : forall rest cur, track_lists rest -> exists f, pick_min cur (some_map rest) = Val f /\
  fr_timestamp f <= fr_timestamp cur /\
  (forall k g l, In (k, g :: l) rest -> fr_timestamp f <= fr_timestamp g) /\
  (f = cur \/ exists k l, In (k, f :: l) rest).
Proof.
  induction rest as [|[k l] rest IH]; intros cur H.
  - exists cur. split; [reflexivity|]. split; [lia|]. split; [intros ? ? ? []|left; reflexivity].
  - inversion H as [|? ? [H1 H2] H3]; subst. destruct l as [|g l]; [contradiction H1; reflexivity|].
    cbn [some_map map fst snd pick_min front].
    destruct (IH (if fr_timestamp g <? fr_timestamp cur then g else cur) H3) as (f & E & L1 & L2 & O).
    exists f. split; [exact E|]. destruct (Z.ltb_spec (fr_timestamp g) (fr_timestamp cur)).
    + split; [lia|]. split.
      * intros k' g' l' [HE|HI]; [inversion HE; subst; exact L1|eapply L2; exact HI].
      * right. destruct O as [->|(k' & l' & HI)]; [exists k, l; left; reflexivity|exists k', l'; right; exact HI].
    + split; [lia|]. split.
      * intros k' g' l' [HE|HI]; [inversion HE; subst; lia|eapply L2; exact HI].
      * destruct O as [->|(k' & l' & HI)]; [left; reflexivity|right; exists k', l'; right; exact HI].
Qed.

Lemma carries_refl : forall b f, carries b f f.
Proof. intros b f. unfold carries. repeat split; auto. Qed.
Lemma carries_weaken : forall f g, carries false f g -> carries true f g.
Proof. unfold carries. intros f g H. intuition. Qed.
Lemma carries_trans : forall b f g h, carries false f g -> carries b g h -> carries b f h.
Proof.
  unfold carries. intros b f g h (A1 & A2 & A3 & A4 & A5 & A6 & A7 & A8 & A9 & A10) (B1 & B2 & B3 & B4 & B5 & B6 & B7 & B8 & B9 & B10).
  repeat split; try congruence.
  - intros H. rewrite B3, A3; auto. rewrite A2. exact H.
  - intros H. rewrite B8, A8; auto. destruct H as [H|H]; auto.
  - apply B9, A9; assumption.
  - rewrite (proj2 (B9 (proj1 (A9 H)))). apply A9. exact H.
  - auto.
Qed.

Lemma sint64_s64 : forall t, is_s64 (sint64 t).
Proof. intros t. unfold is_s64, sint64, wraps. cbv zeta. change (2 ^ (64 - 1)) with 9223372036854775808. change (2 ^ 64) with 18446744073709551616. pose proof (Z.mod_pos_bound t 18446744073709551616 ltac:(lia)). destruct (Z.ltb_spec (t mod 18446744073709551616) 9223372036854775808); lia. Qed.
Lemma wrap64_u64 : forall t, is_u64 (wrap64 t).
Proof. intros t. unfold is_u64, wrap64. apply Z.mod_pos_bound. lia. Qed.

Lemma lfd_spec : forall c set_last d l f, good_frame f -> let g := last_frame_duration c set_last d l f in
  good_frame g /\ carries true f g /\ frame_weight g = frame_weight f.
Proof.
  intros c set_last d l f Hg. cbv zeta. unfold last_frame_duration.
  destruct (set_last && (zlen l =? 1) && negb (fr_duration_set f)) eqn:E; [|split; [exact Hg|split; [apply carries_refl|reflexivity]]].
  assert (HDS : fr_duration_set f = false) by (destruct (fr_duration_set f); [rewrite andb_false_r in E; discriminate|reflexivity]).
  destruct Hg as [Hok HV]. pose proof Hok as (HB & HL & HA & HI & HD & HT & HTS & HDP & HR).
  assert (Hok1 : frame_ok (set_duration f (wrap64 (d - fr_timestamp f)))).
  { unfold frame_ok, set_duration. cbn. refine (conj HB (conj HL (conj HA (conj HI (conj _ (conj HT (conj HTS (conj HDP HR)))))))). apply wrap64_u64. }
  destruct (negb (fr_is_key f) && negb (fr_ref_set f)) eqn:EK.
  - replace (negb (fr_is_key (set_duration f (wrap64 (d - fr_timestamp f)))) && negb (fr_ref_set (set_duration f (wrap64 (d - fr_timestamp f))))) with true by (cbn; rewrite EK; reflexivity).
    set (t := match zm_find _ _ with Some t => t | None => 0 end).
    assert (Hok2 : frame_ok (set_reference_block_timestamp (set_duration f (wrap64 (d - fr_timestamp f))) t)).
    { unfold frame_ok, set_reference_block_timestamp, set_duration. cbn.
      refine (conj HB (conj HL (conj HA (conj HI (conj _ (conj HT (conj HTS (conj HDP _)))))))); [apply wrap64_u64|apply sint64_s64]. }
    split; [split; [exact Hok2|]|].
    + rewrite IsValid_spec by exact Hok2. cbn. rewrite andb_false_r. reflexivity.
    + split; [|reflexivity]. unfold carries. cbn. repeat split; auto.
      * intros [H|H]; congruence.
      * intros; apply andb_true_iff in EK as [_ EK]. rewrite H in EK. discriminate.
  - replace (negb (fr_is_key (set_duration f (wrap64 (d - fr_timestamp f)))) && negb (fr_ref_set (set_duration f (wrap64 (d - fr_timestamp f))))) with false by (cbn; rewrite EK; reflexivity).
    split; [split; [exact Hok1|]|].
    + rewrite IsValid_spec by exact Hok1. rewrite <- andb_assoc. cbn [set_duration fr_is_key fr_ref_set]. rewrite EK, andb_false_r. reflexivity.
    + split; [|reflexivity]. unfold carries. cbn. repeat split; auto. intros [H|H]; congruence.
Qed.

Lemma merge_step : forall fuel c set_last duration k0 f0 r rest f, cl_stored c = (k0, Some f0 :: r) :: rest ->
  pick_min f0 rest = Val f ->
  merge_stored (S fuel) c set_last duration =
    (let n := fr_track f in
     let l := match zm_find n (cl_stored c) with Some l => l | None => [] end in
     r <- DoWriteFrame c (last_frame_duration c set_last duration l f);;
     let '(wrote, c) := r in
     let l' := tl l in
     let c := cl_set_stored (match l' with
                             | [] => zm_del n (cl_stored c)
                             | _ => zm_set n l' (cl_stored c)
                             end) c in
     if negb wrote then ret (false, c) else merge_stored fuel c set_last duration).
Proof. intros fuel c set_last duration k0 f0 r rest f E EP. cbn [merge_stored]. destruct (cl_stored c) as [|p m]; [discriminate|]. inversion E; subst. cbn [front]. rewrite EP. reflexivity. Qed.

Lemma merge_run : forall fuel c st fs pre w set_last dur, cl_stored c = some_map st -> wf_held st -> (total st < fuel)%nat ->
  open_cl c fs pre w -> 0 <= cl_tc c < 2 ^ 63 -> 1 <= cl_scale c ->
  (forall n, stored_ok (cl_scale c) (cl_tc c) (held st n)) -> (forall n, sorted_ts (held st n)) ->
  zlen fs + Z.of_nat (total st) <= INT_MAX -> zlen (w_file w) + held_weight st < 2 ^ 55 ->
  exists ws c' w', merge_stored fuel c set_last dur w = Val ((true, c'), w') /\ open_cl c' (fs ++ ws) pre w' /\ same_cl c c' /\
    cl_stored c' = [] /\ w_seekable w' = w_seekable w /\ (st <> [] \/ cl_header c = true -> cl_header c' = true) /\
    zlen (w_file w') <= zlen (w_file w) + held_weight st /\ stored_ok (cl_scale c) (cl_tc c) ws /\ sorted_ts ws /\
    (forall n, Forall2 (carries true) (held st n) (filter (of_track n) ws)).
Proof.
  induction fuel as [|fuel IH]; intros c st fs pre w set_last dur HE HW HF Ho Htc Hsc Hst Hso Hn Hb; [lia|].
  destruct st as [|[k0 l0] rest].
  { cbn [merge_stored]. rewrite HE. cbn [some_map map]. exists [], c, w. rewrite app_nil_r.
    split; [reflexivity|]. split; [exact Ho|]. split; [repeat split|]. split; [exact HE|]. split; [reflexivity|].
    split; [intros [H|H]; [congruence|exact H]|]. split; [cbn; lia|]. split; [constructor|]. split; [constructor|]. intros n. constructor. }
  set (st := (k0, l0) :: rest) in *.
  pose proof HW as [HI HT]. inversion HT as [|? ? [T1 T2] T3]; subst. cbn [snd fst] in T1, T2.
  destruct l0 as [|f0 l0]; [contradiction T1; reflexivity|].
  assert (HEc : cl_stored c = (k0, map Some (f0 :: l0)) :: some_map rest) by exact HE.
  destruct (pick_spec rest f0 T3) as (f & EP & L1 & L2 & HO).
  rewrite (merge_step fuel c set_last dur k0 f0 (map Some l0) (some_map rest) f HEc EP). cbv zeta.
  assert (Hmin : forall k g l, In (k, g :: l) st -> fr_timestamp f <= fr_timestamp g).
  { intros k g l [HEq|HIn]; [inversion HEq; subst; exact L1|eapply L2; exact HIn]. }
  assert (Hf : exists k l, In (k, f :: l) st).
  { destruct HO as [->|(k & l & HIn)]; [exists k0, l0; left; reflexivity|exists k, l; right; exact HIn]. }
  destruct Hf as (n & l' & HIn).
  assert (Hn' : fr_track f = n).
  { unfold track_lists in HT. rewrite Forall_forall in HT. specialize (HT _ HIn). cbn [fst snd] in HT. destruct HT as [_ HT]. inversion HT; subst; reflexivity. }
  rewrite Hn'. pose proof HIn as Hfind. apply zm_In_find in Hfind; [|exact HI].
  rewrite HE, some_find, Hfind. cbn [option_map].
  assert (Hheld : held st n = f :: l') by (unfold held; rewrite Hfind; reflexivity).
  pose proof (Hst n) as Hstn. rewrite Hheld in Hstn. inversion Hstn as [|? ? [Hgf Hff] Hstn']; subst.
  set (n := fr_track f) in *.
  destruct (lfd_spec c set_last dur (map Some (f :: l')) f Hgf) as (Hgg & Hcar & Hwt).
  set (g := last_frame_duration c set_last dur (map Some (f :: l')) f) in *.
  assert (HgT : fr_track g = n) by apply Hcar. assert (HgS : fr_timestamp g = fr_timestamp f) by apply Hcar.
  set (st' := match l' with [] => zm_del n st | _ => zm_set n l' st end).
  assert (Hheld' : forall m, held st' m = if m =? n then l' else held st m).
  { intros m. unfold st'. destruct l'; [apply held_del|apply held_set]; exact HI. }
  assert (Htot : (total st' + 1 = total st)%nat).
  { unfold st'. destruct l' as [|x l']; [pose proof (total_del st n HI) as HX|pose proof (total_set st n (x :: l') HI) as HX]; rewrite Hheld in HX; cbn [length] in HX; lia. }
  assert (Hwts : held_weight st' + frame_weight f = held_weight st).
  { unfold st'. destruct l' as [|x l']; [pose proof (weight_del st n HI) as HX|pose proof (weight_set st n (x :: l') HI) as HX]; rewrite Hheld in HX.
    - rewrite weights_cons in HX. change (weights []) with 0 in HX. lia.
    - rewrite (weights_cons f) in HX. lia. }
  assert (HW' : wf_held st').
  { split; [unfold st'; destruct l'; [apply zm_del_increasing|apply zm_set_increasing]; exact HI|].
    unfold st'. destruct l' as [|x l']; [apply track_del; exact HT|]. apply track_set; [exact HT|discriminate|].
    pose proof (held_track st n HW) as HTn. rewrite Hheld in HTn. inversion HTn; assumption. }
  pose proof (held_weight_nonneg st') as HW0.
  destruct (DoWriteFrame_run c fs pre w g Ho (proj1 Hgg) (proj2 Hgg) Htc Hsc) as (c1 & w1 & E1 & Ho1 & H1 & HC1 & _ & S1 & B1).
  { unfold fits, frame_rel in *. rewrite HgS. exact Hff. }
  { lia. }
  { lia. }
  fold g. rewrite (bind_run _ _ _ _ _ _ _ E1). cbn [map tl negb].
  pose proof HC1 as (C1 & C2 & C3 & C4 & C5 & C6).
  assert (Estored : match map Some l' with [] => zm_del n (cl_stored c1) | _ :: _ => zm_set n (map Some l') (cl_stored c1) end = some_map st').
  { rewrite C6, HE. unfold st'. destruct l' as [|x l']; [apply some_del|]. change (map Some (x :: l')) with (Some x :: map Some l'). cbv iota.
    change (Some x :: map Some l') with (map Some (x :: l')). apply some_set. }
  rewrite Estored.
  destruct (IH (cl_set_stored (some_map st') c1) st' (fs ++ [g]) pre w1 set_last dur) as (ws & c2 & w2 & E2 & Ho2 & HC2 & Hs2 & S2 & H2 & B2 & Hok2 & Hso2 & Hf2).
  - reflexivity.
  - exact HW'.
  - lia.
  - apply open_cl_stored. exact Ho1.
  - cbn. rewrite C3. exact Htc.
  - cbn. rewrite C4. exact Hsc.
  - intros m. cbn. rewrite C3, C4, Hheld'. destruct (m =? n); [exact Hstn'|apply Hst].
  - intros m. rewrite Hheld'. destruct (m =? n); [|apply Hso]. pose proof (Hso n) as HX. rewrite Hheld in HX. inversion HX; assumption.
  - rewrite zlen_app. change (zlen [g]) with 1. lia.
  - lia.
  - exists (g :: ws), c2, w2. split; [exact E2|]. rewrite <- app_assoc in Ho2. split; [exact Ho2|].
    cbn in HC2. split; [eapply same_cl_trans; [apply same_cfg_cl; exact HC1|exact HC2]|]. split; [exact Hs2|]. split; [congruence|].
    split; [intros _; apply H2; right; exact H1|]. split; [lia|].
    cbn in Hok2. rewrite C3, C4 in Hok2. split.
    { constructor; [|exact Hok2]. split; [exact Hgg|]. unfold fits, frame_rel in *. rewrite HgS. exact Hff. }
    split.
    { constructor; [exact Hso2|]. apply Forall_forall. intros x Hx. rewrite HgS.
      pose proof (Hf2 (fr_track x)) as HX. apply filter_track_In in Hx.
      assert (HY : exists y, In y (held st' (fr_track x)) /\ fr_timestamp y = fr_timestamp x).
      { clear - HX Hx. induction HX as [|a b la lb Hab HX IH]; [destruct Hx|]. destruct Hx as [->|Hx].
        - exists a. split; [left; reflexivity|]. symmetry. apply Hab.
        - destruct (IH Hx) as (y & Hy & Ey). exists y. split; [right; exact Hy|exact Ey]. }
      destruct HY as (y & Hy & <-). rewrite Hheld' in Hy. destruct (Z.eqb_spec (fr_track x) n) as [En|En].
      - pose proof (Hso n) as HZ. rewrite Hheld in HZ. inversion HZ as [|? ? _ HZ2]; subst. eapply Forall_forall in HZ2; [|exact Hy]. exact HZ2.
      - pose proof (Hso (fr_track x)) as HZ. unfold held in Hy, HZ. destruct (zm_find (fr_track x) st) as [lx|] eqn:Ex; [|destruct Hy].
        apply zm_In_find in Ex; [|exact HI]. destruct lx as [|y0 lx]; [destruct Hy|]. pose proof (Hmin _ _ _ Ex) as HM.
        destruct Hy as [<-|Hy]; [exact HM|]. inversion HZ as [|? ? _ HZ2]; subst. eapply Forall_forall in HZ2; [|exact Hy]. cbn in HZ2. lia. }
    intros m. cbn [filter]. unfold of_track at 1. rewrite HgT. specialize (Hf2 m). rewrite Hheld' in Hf2.
    destruct (Z.eqb_spec m n) as [En|Hne].
    + rewrite En in *. rewrite Z.eqb_refl, Hheld. constructor; assumption.
    + replace (n =? m) with false by lia. exact Hf2.
Qed.
