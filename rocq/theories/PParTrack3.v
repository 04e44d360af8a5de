(* Reading back the tracks: the entries and the list. *)
From Coq Require Import ZifyBool ZifyNat Floats.SpecFloat.
From Verif Require Import Base EbmlSpec MFloat Ids MMuxMeta MParUtil MParMeta MParTrack MetaSpec ReaderSpec ReadBackSpec ReadTrackSpec PParUtil PEbml PParMeta PParMeta2 PParDur PParFloat PParTrack PParTrack2.

Lemma until_nul_id : forall b, ~ In 0 b -> until_nul b = b.
Proof. induction b as [|x b IH]; intros H; cbn [until_nul]; [reflexivity|]. destruct (Z.eqb_spec x 0) as [->|]; [exfalso; apply H; left; reflexivity|]. rewrite IH; [reflexivity|]. intros F. apply H. right. exact F. Qed.
Lemma copy_plain : forall s, plain_string s -> CopyStr s = s.
Proof. intros [b|] H; [|reflexivity]. cbn [CopyStr]. rewrite until_nul_id; [reflexivity|apply H]. Qed.
Lemma plain_short : forall s, plain_string s -> short s.
Proof. intros [b|] H; [apply H|exact I]. Qed.

Lemma uid_loop_serves : forall r bs pos acc, bytes bs -> serves r pos bs -> 0 <= acc -> (acc + 1) * 2 ^ (8 * zlen bs) <= 2 ^ 64 ->
  uid_loop r (length bs) pos acc = inr (acc * 2 ^ (8 * zlen bs) + be_val bs).
Proof.
  intros r bs. induction bs as [|b bs IH]; intros pos acc Hb Hs Ha HB; cbn [length uid_loop].
  - rewrite zlen_nil. unfold be_val. cbn [be_val_acc]. change (2 ^ (8 * 0)) with 1. f_equal. lia.
  - rewrite (serves_byte _ _ _ _ Hs). inversion Hb as [|x xs Hx Hxs]; subst. unfold is_byte in Hx.
    assert (P : 2 ^ (8 * zlen (b :: bs)) = 256 * 2 ^ (8 * zlen bs)) by (unfold zlen; cbn [length]; apply pow2_8S).
    pose proof (pow2_pos (8 * zlen bs) ltac:(pose proof (zlen_nonneg _ bs); lia)). rewrite P in *.
    assert (E : wrap64 (Z.shiftl acc 8) = Z.shiftl acc 8). { unfold wrap64. apply Z.mod_small. rewrite Z.shiftl_mul_pow2 by lia. change (2 ^ 64) with 18446744073709551616 in HB. nia. }
    rewrite E, lor_shiftl_low by (simpl (2 ^ 8); lia). change (2 ^ 8) with 256. rewrite IH; auto; [|eapply serves_tail; eauto|nia|nia]. rewrite be_val_cons. f_equal. ring.
Qed.

Definition track_u64 (t : track) : Prop :=
  is_u64 (tk_uid t) /\ is_u64 (tk_codec_delay t) /\ is_u64 (tk_seek_pre_roll t) /\ is_u64 (tk_default_duration t) /\
  (forall c, In c (tk_encodings t) -> enc_u64 c) /\ match tk_kind t with KVideo v => video_u64 v | _ => True end.

Section Entry.
Context (r : reader).

(* the element lies at the place x *)
Definition located (t : tree) (x : Z * Z) : Prop :=
  exists p, snd x = zlen p /\ content t p /\ serves r (fst x) p /\ fst x + zlen p <= LLONG_MAX.
Definition info_of (t : track) : p_tinfo :=
  mkTI (tk_type t) (tk_number t) (tk_uid t) (tk_default_duration t) (tk_codec_delay t) (tk_seek_pre_roll t)
       (tk_name t) (tk_language t) (tk_codec_id t) None (tk_codec_private t) 1.
Definition nowhere : Z * Z := (-1, -1).
Definition enc_at (l : list content_encoding) (e : Z * Z) : Prop :=
  match l with [] => e = nowhere | _ => located (Master kMkvContentEncodings (map encoding_tree l)) e end.
Definition kind_at (k : track_kind) (v a : Z * Z) : Prop :=
  match k with
  | KPlain => v = nowhere /\ a = nowhere
  | KVideo x => located (video_tree x) v /\ a = nowhere
  | KAudio x => v = nowhere /\ located (audio_tree x) a
  end.

Lemma runs_nonzero : forall S h (set : Z -> S) id v, 0 <= v < 2 ^ 64 ->
  (forall q n, h id q n (set 0) = unsigned_field r q n any 0 set) -> runs r ZPass h (opt (negb (v =? 0)) (uint id v)) (set 0) (set v).
Proof.
  intros S h set id v Hv Hh. apply runs_opt; intros E.
  - apply (runs_unsigned r h set id v any 0 0 Hv eq_refl Hh).
  - f_equal. lia.
Qed.

Lemma entry_chain : forall t, readable_track t -> track_u64 t -> track_valid t = true -> forall p q,
  content (track_tree t) p -> serves r q p -> q + zlen p <= LLONG_MAX ->
  exists v a e, walk_payload r ZPass (entry_element r) q (zlen p) ts_init = Val (0, mkTS (info_of t) v a e) /\ enc_at (tk_encodings t) e /\ kind_at (tk_kind t) v a.
Proof.
  intros [ki ci cp la na mb nu ty ui cd sp dd en] (R1 & R2 & R3 & R4 & R5 & R6 & R7 & _ & _ & R8) (U1 & U2 & U3 & U4 & _) Hv p q He Hs HL.
  unfold track_tree, info_of in *. unfold track_valid in Hv.
  cbn [content tk_kind tk_codec_id tk_codec_private tk_language tk_name tk_max_block_additional_id tk_number tk_type tk_uid tk_codec_delay tk_seek_pre_roll tk_default_duration tk_encodings] in *.
  set (I0 := mkTI ty nu ui dd cd sp na la ci None cp 1).
  assert (NP : match cp with Some b => b <> [] | None => True end).
  { destruct cp as [[|]|]; try exact I; [|discriminate]. rewrite andb_false_r, !andb_false_l in Hv. discriminate Hv. }
  match type of He with encodes_all ?ts _ => assert (G : chain r (entry_element r) ts (eq ts_init) (fun s => exists v a e, s = mkTS I0 v a e /\ enc_at en e /\ kind_at ki v a)) end.
  2: { destruct (walk_chain r (entry_element r) _ p He _ _ G (Z.to_nat (zlen p)) q ts_init eq_refl Hs HL ltac:(lia)) as (s' & E & v & a & e & -> & H1 & H2).
       exists v, a, e. split; [|split; assumption]. unfold walk_payload. destruct (Z.gtb_spec (q + zlen p) LLONG_MAX); [lia|]. exact E. }
  clear He Hs HL Hv.
  match goal with |- chain _ _ (?a :: ?b :: ?c :: ?d1 ++ ?d2 ++ ?d3 ++ ?d4 ++ ?d5 ++ ?d6 ++ ?d7 ++ ?d8 ++ ?d9) _ _ =>
    change (a :: b :: c :: d1 ++ d2 ++ d3 ++ d4 ++ d5 ++ d6 ++ d7 ++ d8 ++ d9) with ([a] ++ [b] ++ [c] ++ d1 ++ d2 ++ d3 ++ d4 ++ d5 ++ d6 ++ d7 ++ d8 ++ d9) end.
  unfold ts_init, ti_init. fold nowhere.
  apply (chain_app r _ _ _ _ (eq (mkTS (mkTI 0 nu 0 0 0 0 None None None None None 1) nowhere nowhere nowhere))).
  { apply runs_chain. apply (runs_uint r (entry_element r) (fun x => mkTS (mkTI 0 x 0 0 0 0 None None None None None 1) nowhere nowhere nowhere) _ nu (fun x => (x <=? 0) || (x >? 127)) 0); [lia|lia|reflexivity]. }
  apply (chain_app r _ _ _ _ (eq (mkTS (mkTI 0 nu ui 0 0 0 None None None None None 1) nowhere nowhere nowhere))).
  { apply runs_chain. apply runs_one. intros p' q' [(Hb & Hl & E) _] Hs' _. right. split; [auto|]. cbn [tid uint].
    match goal with |- entry_element r kMkvTrackUID ?q ?n (mkTS (mkTI ?ty ?nu ?ui ?dd ?cd ?sp ?na ?la ?ci ?cn ?cp ?lc) ?v ?a ?e) = _ =>
      change (entry_element r kMkvTrackUID q n (mkTS (mkTI ty nu ui dd cd sp na la ci cn cp lc) v a e)) with
        (if n >? 8 then Val (Ret E_FILE_FORMAT_INVALID (mkTS (mkTI ty nu ui dd cd sp na la ci cn cp lc) v a e))
         else match uid_loop r (Z.to_nat n) q 0 with inl status => if status =? 0 then UB else Val (Ret status (mkTS (mkTI ty nu ui dd cd sp na la ci cn cp lc) v a e))
              | inr x => Val (Next (mkTS (mkTI ty nu x dd cd sp na la ci cn cp lc) v a e)) end) end.
    destruct (Z.gtb_spec (zlen p') 8); [lia|]. unfold zlen at 1. rewrite Nat2Z.id. rewrite uid_loop_serves; auto; [rewrite E, Z.mul_0_l; reflexivity|lia|].
    rewrite Z.add_0_l, Z.mul_1_l. apply Z.pow_le_mono_r; lia. }
  apply (chain_app r _ _ _ _ (eq (mkTS (mkTI ty nu ui 0 0 0 None None None None None 1) nowhere nowhere nowhere))).
  { apply runs_chain. apply (runs_uint r (entry_element r) (fun x => mkTS (mkTI x nu ui 0 0 0 None None None None None 1) nowhere nowhere nowhere) _ ty (fun x => (x <=? 0) || (x >? 254)) 0); [lia|lia|reflexivity]. }
  apply (chain_app r _ _ _ _ (eq (mkTS (mkTI ty nu ui 0 0 0 None None None None None 1) nowhere nowhere nowhere))).
  { apply runs_chain. apply runs_opt; [intros _; apply runs_skip; reflexivity|reflexivity]. }
  apply (chain_app r _ _ _ _ (eq (mkTS (mkTI ty nu ui 0 cd 0 None None None None None 1) nowhere nowhere nowhere))).
  { apply runs_chain. apply (runs_nonzero _ _ (fun x => mkTS (mkTI ty nu ui 0 x 0 None None None None None 1) nowhere nowhere nowhere)); [exact U2|reflexivity]. }
  apply (chain_app r _ _ _ _ (eq (mkTS (mkTI ty nu ui 0 cd sp None None None None None 1) nowhere nowhere nowhere))).
  { apply runs_chain. apply (runs_nonzero _ _ (fun x => mkTS (mkTI ty nu ui 0 cd x None None None None None 1) nowhere nowhere nowhere)); [exact U3|reflexivity]. }
  apply (chain_app r _ _ _ _ (eq (mkTS (mkTI ty nu ui dd cd sp None None None None None 1) nowhere nowhere nowhere))).
  { apply runs_chain. apply runs_opt; intros E.
    - apply (runs_uint r (entry_element r) (fun x => mkTS (mkTI ty nu ui x cd sp None None None None None 1) nowhere nowhere nowhere) _ dd (fun x => x <? 0) 0); [unfold is_u64 in U4; lia|unfold is_u64 in U4; lia|reflexivity].
    - replace dd with 0 by lia. reflexivity. }
  apply (chain_app r _ _ _ _ (eq (mkTS (mkTI ty nu ui dd cd sp None None ci None None 1) nowhere nowhere nowhere))).
  { apply runs_chain. apply (runs_str r _ (fun x => mkTS (mkTI ty nu ui dd cd sp None None x None None 1) nowhere nowhere nowhere)); [apply plain_short; assumption|reflexivity]. }
  apply (chain_app r _ _ _ _ (eq (mkTS (mkTI ty nu ui dd cd sp None None ci None cp 1) nowhere nowhere nowhere))).
  { apply runs_chain. destruct cp as [k|]; cbn [str]; [|constructor]. apply runs_one. intros p' q' Hc Hs' _. cbn [content leaf_payload] in Hc. subst p'. right. split; [auto|]. cbn [tid].
    match goal with |- entry_element r kMkvCodecPrivate ?q ?n (mkTS (mkTI ?ty ?nu ?ui ?dd ?cd ?sp ?na ?la ?ci ?cn ?cp ?lc) ?v ?a ?e) = _ =>
      change (entry_element r kMkvCodecPrivate q n (mkTS (mkTI ty nu ui dd cd sp na la ci cn cp lc) v a e)) with
        (if n =? 0 then Val (Next (mkTS (mkTI ty nu ui dd cd sp na la ci cn None lc) v a e))
         else if alloc_fails n then Val (Ret (-1) (mkTS (mkTI ty nu ui dd cd sp na la ci cn cp lc) v a e))
         else match r_read r q n with inl status => Val (Ret status (mkTS (mkTI ty nu ui dd cd sp na la ci cn cp lc) v a e)) | inr buf => Val (Next (mkTS (mkTI ty nu ui dd cd sp na la ci cn (Some buf) lc) v a e)) end) end.
    rewrite alloc_ok, (serves_read _ _ _ Hs') by assumption. destruct (Z.eqb_spec (zlen k) 0) as [L|_]; [|reflexivity]. exfalso. clear -L NP. destruct k; [contradiction|]. rewrite zlen_cons in L. pose proof (zlen_nonneg _ k). lia. }
  apply (chain_app r _ _ _ _ (eq (mkTS (mkTI ty nu ui dd cd sp None la ci None cp 1) nowhere nowhere nowhere))).
  { apply runs_chain. apply (runs_str r _ (fun x => mkTS (mkTI ty nu ui dd cd sp None x ci None cp 1) nowhere nowhere nowhere)); [apply plain_short; assumption|reflexivity]. }
  apply (chain_app r _ _ _ _ (eq (mkTS I0 nowhere nowhere nowhere))).
  { apply runs_chain. apply (runs_str r _ (fun x => mkTS (mkTI ty nu ui dd cd sp x la ci None cp 1) nowhere nowhere nowhere)); [apply plain_short; assumption|reflexivity]. }
  apply (chain_app r _ _ _ _ (fun s => exists e, s = mkTS I0 nowhere nowhere e /\ enc_at en e)).
  { destruct en as [|c en]; cbn [map nonempty_master enc_at].
    - apply chain_nil. intros s <-. exists nowhere. auto.
    - eapply chain_cons; [|apply chain_nil; intros s Q; exact Q]. intros p' q' s <- Hc Hs' HL'. eexists. split; [reflexivity|]. exists (q', zlen p'). split; [reflexivity|].
      exists p'. split; [reflexivity|]. split; [exact Hc|]. split; [exact Hs'|exact HL']. }
  destruct ki as [|v|a]; cbn [kind_at].
  - apply chain_nil. intros s (e & -> & H). exists nowhere, nowhere, e. auto.
  - eapply chain_cons; [|apply chain_nil; intros s Q; exact Q]. intros p' q' s (e & -> & H) Hc Hs' HL'. eexists. split; [reflexivity|]. exists (q', zlen p'), nowhere, e. split; [reflexivity|]. split; [exact H|]. split; [|reflexivity].
    exists p'. split; [reflexivity|]. split; [exact Hc|]. split; [exact Hs'|exact HL'].
  - eapply chain_cons; [|apply chain_nil; intros s Q; exact Q]. intros p' q' s (e & -> & H) Hc Hs' HL'. eexists. split; [reflexivity|]. exists nowhere, (q', zlen p'), e. split; [reflexivity|]. split; [exact H|]. split; [reflexivity|].
    exists p'. split; [reflexivity|]. split; [exact Hc|]. split; [exact Hs'|exact HL'].
Qed.

Lemma with_encodings_read : forall l i k e, Forall readable_encoding l -> zlen l < 2 ^ 31 -> forallb encoding_valid l = true -> (forall c, In c l -> enc_u64 c) ->
  enc_at l e -> with_encodings r i k e = Val (0, Some (mkPT i k (map read_encoding l))).
Proof.
  intros l i k e H1 H2 H3 H4 He. unfold with_encodings. destruct l as [|c l]; cbn [enc_at] in He.
  - rewrite He. reflexivity.
  - destruct He as (p & E & Hc & Hs & HL). pose proof Hs as [Hp _]. destruct (Z.geb_spec (fst e) 0); [|lia].
    rewrite E, (encodings_parse r (c :: l) p (fst e)); auto. discriminate.
Qed.
Lemma located_pos : forall t x, located t x -> (fst x <? 0) = false /\ (fst x >=? 0) = true.
Proof. intros t x (p & _ & _ & [H _] & _). lia. Qed.

Lemma entry_parse : forall t l p q, readable_track t -> track_u64 t -> track_valid t = true -> GetTrackByNumber l (tk_number t) = None ->
  content (track_tree t) p -> serves r q p -> q + zlen p <= LLONG_MAX ->
  ParseTrackEntry r l q (zlen p) = Val (0, Some (read_track t)).
Proof.
  intros t l p q Hr Hu Hv Hl He Hs HL. destruct (entry_chain t Hr Hu Hv p q He Hs HL) as (v & a & e & E & H1 & H2).
  unfold ParseTrackEntry. rewrite E. change (negb (0 =? 0)) with false. cbn iota.
  destruct Hr as (R1 & R2 & R3 & R4 & R5 & R6 & R7 & R8 & R9 & R10). destruct Hu as (_ & _ & _ & _ & U5 & U6).
  assert (Hve : forallb encoding_valid (tk_encodings t) = true) by (unfold track_valid in Hv; apply andb_prop in Hv as [Hv _]; apply andb_prop in Hv as [_ Hv]; exact Hv).
  change (ti_number (info_of t)) with (tk_number t). change (ti_type (info_of t)) with (tk_type t). rewrite Hl.
  destruct (Z.leb_spec (tk_number t) 0); [lia|]. destruct (Z.leb_spec (tk_type t) 0); [lia|].
  assert (EC : Info_Copy (info_of t) = info_of t) by (unfold Info_Copy, info_of; rewrite !copy_plain by assumption; reflexivity). rewrite EC.
  unfold read_track. fold (info_of t). destruct (tk_kind t) as [|vi|au]; cbn [kind_at] in H2.
  - destruct H2 as [-> ->]. destruct R10 as (N1 & N2 & N3). destruct (Z.eqb_spec (tk_type t) 1); [contradiction|]. destruct (Z.eqb_spec (tk_type t) 2); [contradiction|].
    change (fst nowhere >=? 0) with false. cbn iota. destruct (Z.eqb_spec (tk_type t) 0x21) as [E21|]; [|reflexivity].
    rewrite (N3 E21) in H1. cbn [enc_at] in H1. rewrite H1. reflexivity.
  - destruct H2 as [Hv' ->]. destruct R10 as [E1 Rv]. rewrite E1. change (1 =? 1) with true. cbn iota. destruct (located_pos _ _ Hv') as [-> _]. change (fst nowhere >=? 0) with false. cbn iota.
    destruct Hv' as (pv & Ep & Hc & Hs' & HL'). rewrite Ep, (video_parse r vi pv (fst v) Rv U6 Hc Hs' HL'). change (negb (0 =? 0)) with false. cbn iota.
    apply with_encodings_read; assumption.
  - destruct H2 as [-> Ha']. destruct R10 as [E1 Ra]. rewrite E1. change (2 =? 1) with false. change (2 =? 2) with true. cbn iota. destruct (located_pos _ _ Ha') as [-> _]. change (fst nowhere >=? 0) with false. cbn iota.
    destruct Ha' as (pa & Ep & Hc & Hs' & HL'). rewrite Ep, (audio_parse r au pa (fst a) Ra Hc Hs' HL'). change (negb (0 =? 0)) with false. cbn iota.
    apply with_encodings_read; assumption.
Qed.

Lemma number_free : forall l n, ~ In n (map tk_number l) -> GetTrackByNumber (map read_track l) n = None.
Proof.
  induction l as [|t l IH]; intros n H; cbn [map GetTrackByNumber]; destruct (n <? 0); try reflexivity.
  change (ti_number (pt_info (read_track t))) with (tk_number t). destruct (Z.eqb_spec n (tk_number t)) as [->|]; [exfalso; apply H; left; reflexivity|]. apply IH. intros F. apply H. right. exact F.
Qed.
Lemma few_tracks : forall l, readable_tracks l -> zlen l <= 127.
Proof.
  intros l [H1 H2]. assert (L : (length (map tk_number l) <= length (map Z.of_nat (seq 1 127)))%nat).
  { apply NoDup_incl_length; [exact H2|]. intros n Hn. apply in_map_iff in Hn as (t & <- & Ht). rewrite Forall_forall in H1. destruct (H1 t Ht) as (R & _). apply in_map_iff. exists (Z.to_nat (tk_number t)). split; [lia|]. apply in_seq. lia. }
  rewrite !map_length, seq_length in L. unfold zlen. lia.
Qed.
Lemma tracks_parse : forall l p q, readable_tracks l -> (forall t, In t l -> track_u64 t) -> forallb track_valid l = true ->
  encodes_all (map track_tree l) p -> serves r q p -> q + zlen p <= LLONG_MAX -> Tracks_Parse r q (zlen p) = Val (0, read_tracks l).
Proof.
  intros l p q Hr Hu Hv He Hs HL. pose proof (few_tracks l Hr) as Hf. destruct Hr as [Hr Hd].
  assert (NE : forall t, ~ content (track_tree t) []) by (intros t; cbn [content track_tree]; apply encodes_all_nonempty).
  unfold Tracks_Parse. rewrite (walk_payload_runs r ZSkip (count_element kMkvTrackEntry) _ p q 0 (zlen l) He); auto.
  2: { apply count_runs; auto. lia. }
  change (negb (0 =? 0)) with false. cbn iota. destruct (Z.leb_spec (zlen l) 0) as [L|L].
  { destruct l; [reflexivity|]. rewrite zlen_cons in L. pose proof (zlen_nonneg _ l). lia. }
  apply (walk_payload_runs r ZSkip (tracks_element r) _ p q [] _ He); auto.
  apply (runs_list r (tracks_element r) ZSkip _ track_tree (fun l => read_tracks l) l). intros l1 t l2 E. apply runs_one. intros p' q' Hc Hs' HL'. right.
  split; [left; intros ->; exact (NE t Hc)|].
  assert (Ht : In t l) by (rewrite E; apply in_elt). rewrite Forall_forall in Hr. rewrite forallb_forall in Hv.
  assert (Hn : ~ In (tk_number t) (map tk_number l1)).
  { rewrite E, map_app in Hd. cbn [map] in Hd. apply NoDup_remove_2 in Hd. intros F. apply Hd. apply in_or_app. left. exact F. }
  change (tracks_element r (tid (track_tree t)) q' (zlen p') (read_tracks l1)) with
    (match ParseTrackEntry r (read_tracks l1) q' (zlen p') with UB => UB | Val (status, t) => if negb (status =? 0) then Val (Ret status (read_tracks l1)) else Val (Next (match t with Some t => read_tracks l1 ++ [t] | None => read_tracks l1 end)) end).
  rewrite (entry_parse t (read_tracks l1) p' q' (Hr t Ht) (Hu t Ht) (Hv t Ht) (number_free l1 _ Hn) Hc Hs' HL'). unfold read_tracks. rewrite map_app. reflexivity.
Qed.
End Entry.

(* ---------- the values fit ---------- *)

Lemma kids_in : forall id kids t, values_ok (Master id kids) -> In t kids -> values_ok t.
Proof. intros id kids t [_ H]. revert H. induction kids as [|k kids IH]; intros H []; cbn [fold_right] in H; [subst; tauto|apply IH; tauto]. Qed.
Lemma uint_in : forall id kids i v, values_ok (Master id kids) -> In (uint i v) kids -> is_u64 v.
Proof. intros id kids i v H Hi. exact (proj2 (kids_in _ _ _ H Hi)). Qed.
Lemma colour_field_u64 : forall id kids i v, values_ok (Master id kids) -> (forall t, In t (colour_field i v) -> In t kids) -> is_u64 v.
Proof.
  intros id kids i v H Hi. unfold colour_field in Hi. destruct (Z.eqb_spec v (2 ^ 64 - 1)) as [->|]; [unfold is_u64; lia|]. apply (uint_in id kids i v H). apply Hi. left. reflexivity.
Qed.
Lemma colour_fits : forall c, (forall t, In t (colour_trees c) -> values_ok t) -> colour_u64 c.
Proof.
  intros c H. unfold colour_trees in H.
  assert (K : forall i v, (forall t, In t (colour_field i v) -> In t (colour_kids c)) -> is_u64 v).
  { intros i v Hi. destruct (Z.eqb_spec v (2 ^ 64 - 1)) as [->|Hn]; [unfold is_u64; lia|]. destruct (colour_kids c) as [|k ks] eqn:E.
    - exfalso. apply (Hi (uint i v)). unfold colour_field. destruct (Z.eqb_spec v (2 ^ 64 - 1)); [contradiction|]. left. reflexivity.
    - cbn [nonempty_master] in H. apply (colour_field_u64 kMkvColour (k :: ks) i v); [apply H; left; reflexivity|exact Hi]. }
  unfold colour_u64. repeat (apply Forall_cons; [eapply K; intros t Ht; unfold colour_kids; rewrite !in_app_iff; eauto 20|]). constructor.
Qed.
Lemma track_fits : forall t, values_ok (track_tree t) -> track_u64 t.
Proof.
  intros t H. unfold track_tree in H.
  assert (N : forall i v, (forall x, In x (opt (negb (v =? 0)) (uint i v)) -> values_ok x) -> is_u64 v).
  { intros i v Hi. destruct (Z.eq_dec v 0) as [E|Hn]; [rewrite E; unfold is_u64; lia|]. replace (v =? 0) with false in Hi by lia. specialize (Hi (uint i v) (or_introl eq_refl)). exact (proj2 Hi). }
  match type of H with values_ok (Master _ ?ks) => assert (K : forall x, In x ks -> values_ok x) by (intros x Hx; exact (kids_in _ _ x H Hx)) end. clear H. unfold track_u64.
  split; [|split; [|split; [|split; [|split]]]].
  - exact (proj2 (K (uint kMkvTrackUID (tk_uid t)) ltac:(right; left; reflexivity))).
  - apply (N kMkvCodecDelay). intros x Hx. apply K. do 3 right. rewrite !in_app_iff. auto.
  - apply (N kMkvSeekPreRoll). intros x Hx. apply K. do 3 right. rewrite !in_app_iff. auto.
  - apply (N kMkvDefaultDuration). intros x Hx. apply K. do 3 right. rewrite !in_app_iff. auto.
  - intros c Hc. apply encoding_u64. destruct (tk_encodings t) as [|c0 cs] eqn:E; [destruct Hc|].
    assert (Hm : values_ok (Master kMkvContentEncodings (map encoding_tree (c0 :: cs)))).
    { apply K. do 3 right. rewrite !in_app_iff. do 8 right. left. left. reflexivity. }
    exact (kids_ok _ _ encoding_tree _ c Hm Hc).
  - destruct (tk_kind t) as [|v|a] eqn:E; [exact I| |exact I]. unfold video_u64. destruct (vi_colour v) as [c|] eqn:Ec; [|exact I]. apply colour_fits. intros x Hx.
    assert (Hm : values_ok (video_tree v)) by (apply K; do 3 right; rewrite !in_app_iff; do 9 right; left; reflexivity).
    unfold video_tree in Hm. rewrite Ec in Hm. apply (kids_in _ _ x Hm). do 2 right. rewrite !in_app_iff. auto 20.
Qed.

Theorem tracks_read : forall r l pos bs, representable [tracks_tree l] -> forallb track_valid l = true -> readable_tracks l ->
  encodes_all [tracks_tree l] bs -> serves r pos bs -> pos + zlen bs <= LLONG_MAX ->
  exists start size, element_at r pos kMkvTracks start size /\ start + size = pos + zlen bs /\ Tracks_Parse r start size = Val (0, read_tracks l).
Proof.
  intros r l pos bs [Hok _] HV HR He Hs HL. apply encodes_one in He. destruct (element_content r pos _ bs He Hs HL) as (start & p & H1 & H2 & Hc & Hsp).
  exists start, (zlen p). split; [exact H1|]. split; [exact H2|]. cbn [content tracks_tree] in Hc. apply tracks_parse; auto; [|lia].
  intros t Ht. apply track_fits. inversion Hok as [|? ? Hok' _]; subst. exact (kids_ok _ _ track_tree _ t Hok' Ht).
Qed.
