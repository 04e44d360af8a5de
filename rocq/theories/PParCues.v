(* Proofs about mkvparser's Cues. *)
From Coq Require Import ZifyBool ZifyNat.
From Verif Require Import Base EbmlSpec Ids MMuxMeta MParUtil MParCues MetaSpec ReaderSpec ReadBackSpec CueReadSpec PParUtil PParMeta PParMeta2.

(* ---------- an encoded element ---------- *)

Lemma element_header : forall r pos t a, encodes t a -> serves r pos a ->
  exists p il w, ReadID r pos = (tid t, il) /\ ReadUInt r (pos + il) = (zlen p, w) /\ 1 <= il /\ 1 <= w /\ zlen a = il + w + zlen p /\
    content t p /\ serves r (pos + il + w) p /\ 0 <= tid t.
Proof.
  intros r pos t a He Hs. destruct (encodes_inv _ _ He) as (p & Hc & ib & w & Hib & (Hw & Hfit) & Ea).
  assert (Lv : zlen (vint w (zlen p)) = w). { unfold vint, zlen. rewrite be_bytes_length. lia. }
  assert (La : zlen a = zlen ib + w + zlen p). { rewrite Ea, !zlen_app, Lv. lia. }
  destruct Hib as (iw & Hiw & Eib). pose proof Hiw as [Hiw1 Hiw2]. assert (Lib : zlen ib = iw) by (rewrite Eib; unfold zlen; rewrite be_bytes_length; lia).
  pose proof (zlen_nonneg _ p). rewrite Ea in Hs. exists p, iw, w.
  split; [apply ReadID_bytes; [exact Hiw|]; rewrite <- Eib; exact (serves_app_l _ _ _ _ Hs)|].
  apply serves_app_r in Hs. rewrite Lib in Hs. split; [apply ReadUInt_vint; [lia|lia|]; exact (serves_app_l _ _ _ _ Hs)|].
  apply serves_app_r in Hs. rewrite Lv in Hs. split; [lia|]. split; [lia|]. split; [lia|]. split; [exact Hc|]. split; [exact Hs|].
  assert (0 <= 2 ^ (7 * iw)) by (apply Z.pow_nonneg; lia). lia.
Qed.
Lemma header_element : forall r pos t a stop, encodes t a -> serves r pos a -> pos + zlen a <= stop -> stop <= LLONG_MAX ->
  exists p q, cue_header r pos stop = Val (Some (tid t, q, zlen p)) /\ pos + 2 <= q /\ q + zlen p = pos + zlen a /\ content t p /\ serves r q p.
Proof.
  intros r pos t a stop He Hs Hst HL. destruct (element_header r pos t a He Hs) as (p & il & w & E1 & E2 & H1 & H2 & La & Hc & Hsp & Ht).
  pose proof (zlen_nonneg _ p). exists p, (pos + il + w). split; [|split; [lia|split; [lia|split; assumption]]].
  unfold cue_header. rewrite E1. destruct (Z.ltb_spec (tid t) 0); [lia|]. destruct (Z.gtb_spec (pos + il) stop); [lia|]. cbn [orb].
  rewrite E2. destruct (Z.ltb_spec (zlen p) 0); [lia|]. destruct (Z.gtb_spec (pos + il + w) stop); [lia|]. cbn [orb].
  destruct (Z.gtb_spec (pos + il + w + zlen p) LLONG_MAX); [lia|]. destruct (Z.gtb_spec (pos + il + w + zlen p) stop); [lia|]. reflexivity.
Qed.

Lemma cue_header_range : forall r, wf_reader r -> r_avail r <= 2 ^ 62 -> forall pos stop, 0 <= pos ->
  cue_header r pos stop = Val None \/ exists id q n, cue_header r pos stop = Val (Some (id, q, n)) /\ pos + 2 <= q /\ 0 <= n /\ q + n <= stop /\ q + n <= LLONG_MAX.
Proof.
  intros r Hwf Hav pos stop Hp. unfold cue_header. destruct (ReadID r pos) as [id il] eqn:E1. destruct (ReadID_range r pos id il Hwf Hp E1) as [H|[[H1 H2] H3]].
  { left. destruct (Z.ltb_spec id 0); [reflexivity|lia]. }
  destruct ((id <? 0) || (pos + il >? stop)); [left; reflexivity|]. destruct (ReadUInt r (pos + il)) as [n w] eqn:E2.
  destruct (ReadUInt_range r (pos + il) n w Hwf ltac:(lia) E2) as [[H4 _]|(H4 & H5 & H6)].
  { left. destruct (Z.ltb_spec n 0); [reflexivity|lia]. }
  destruct ((n <? 0) || (pos + il + w >? stop)); [left; reflexivity|].
  assert (n < 2 ^ 56) by (assert (2 ^ (7 * w) <= 2 ^ 56) by (apply Z.pow_le_mono_r; lia); lia).
  unfold LLONG_MAX in *. destruct (Z.gtb_spec (pos + il + w + n) 9223372036854775807); [lia|].
  destruct (Z.gtb_spec (pos + il + w + n) stop); [left; reflexivity|]. right. exists id, (pos + il + w), n. repeat split; lia.
Qed.

(* ---------- the loop over encoded elements ---------- *)

Section Scan.
Context {S R : Type} (r : reader) (h : Z -> Z -> Z -> Z -> S -> outcome (R + S)).
Definition takes (t : tree) (f : S -> S) : Prop := forall i p q s,
  content t p -> serves r q p -> q + zlen p <= LLONG_MAX -> h i (tid t) q (zlen p) s = Val (inr (f s)).
Lemma scan_end : forall fuel pos s, scan fuel r h pos pos s = Val (inr (true, s)).
Proof. intros [|f] pos s; cbn [scan]; rewrite Z.leb_refl; reflexivity. Qed.
Lemma scan_trees : forall ts bs, encodes_all ts bs -> forall fs, Forall2 takes ts fs ->
  forall fuel pos s, serves r pos bs -> pos + zlen bs <= LLONG_MAX -> zlen bs <= Z.of_nat fuel ->
  scan fuel r h pos (pos + zlen bs) s = Val (inr (true, fold_left (fun s f => f s) fs s)).
Proof.
  induction 1 as [|t ts a b Ha Hb IH]; intros fs HF fuel pos s Hs Hl Hfuel.
  - inversion HF; subst. replace (pos + zlen (@nil Z)) with pos by (rewrite zlen_nil; lia). apply scan_end.
  - inversion HF as [|? f ? fs' Hf HF']; subst. rewrite zlen_app in *. pose proof (zlen_nonneg _ b).
    destruct (header_element r pos t a (pos + (zlen a + zlen b)) Ha (serves_app_l _ _ _ _ Hs) ltac:(lia) Hl) as (p & q & E & Hq & Hq2 & Hc & Hsp).
    pose proof (zlen_nonneg _ p). destruct fuel as [|fuel]; [lia|]. cbn [scan fold_left]. destruct (Z.leb_spec (pos + (zlen a + zlen b)) pos); [lia|].
    rewrite E, (Hf pos p q s Hc Hsp ltac:(lia)), Hq2. replace (pos + (zlen a + zlen b)) with (pos + zlen a + zlen b) by lia.
    apply IH; auto; try lia. exact (serves_app_r _ _ _ _ Hs).
Qed.

Lemma scan_returns : wf_reader r -> r_avail r <= 2 ^ 62 ->
  (forall i id pos size s, 0 <= pos -> 0 <= size -> pos + size <= LLONG_MAX -> exists x, h i id pos size s = Val x) ->
  forall fuel pos stop s, 0 <= pos -> stop - pos <= Z.of_nat fuel -> exists x, scan fuel r h pos stop s = Val x.
Proof.
  intros Hwf Hav Hh. induction fuel as [|fuel IH]; intros pos stop s Hp Hf; cbn [scan]; destruct (Z.leb_spec stop pos); eauto; [lia|].
  destruct (cue_header_range r Hwf Hav pos stop Hp) as [->|(id & q & n & -> & Hq & Hn & Hqs & HqL)]; [eauto|].
  destruct (Hh pos id q n s ltac:(lia) Hn HqL) as [[x|s'] ->]; [eauto|]. apply IH; lia.
Qed.
End Scan.

(* ---------- every call returns ---------- *)

Section Returns.
Context (r : reader) (Hwf : wf_reader r) (Hav : r_avail r <= 2 ^ 62) (Hneg : forall pos len st, r_read r pos len = inl st -> st < 0).

Lemma tp_element_returns : forall i id p n s, exists x, tp_element r i id p n s = Val x.
Proof.
  intros i id p n [a b c]. unfold tp_element. destruct (id =? kMkvCueTrack), (id =? kMkvCueClusterPosition), (id =? kMkvCueBlockNumber); destruct (UInt_returns r Hneg p n) as [v Ev]; rewrite ?Ev; eauto.
Qed.
Lemma TrackPosition_returns : forall pos size, 0 <= pos -> pos + size <= LLONG_MAX -> exists x, TrackPosition_Parse r pos size = Val x.
Proof.
  intros pos size Hp HL. unfold TrackPosition_Parse. destruct (Z.gtb_spec (pos + size) LLONG_MAX); [lia|].
  destruct (scan_returns r (tp_element r) Hwf Hav (fun i id p n s _ _ _ => tp_element_returns i id p n s) (Z.to_nat size) pos (pos + size) (mkTP (-1) (-1) 1) Hp ltac:(lia)) as [[x|[ok t]] ->]; [eauto|].
  destruct (negb ok || _ || _ || _); eauto.
Qed.
Lemma count_element_returns : forall i id p n s, exists x, count_element r i id p n s = Val x.
Proof.
  intros i id p n [a b]. unfold count_element. destruct (UInt_returns r Hneg p n) as [v ->]. destruct (id =? kMkvCueTime), (id =? kMkvCueTrackPositions), (b + 1 >? 4294967295); eauto.
Qed.
Lemma count_grows : forall fuel pos stop tc n tc' count, scan fuel r (count_element r) pos stop (tc, n) = Val (inr (true, (tc', count))) -> n <= count.
Proof.
  induction fuel as [|fuel IH]; intros pos stop tc n tc' count; cbn [scan]; destruct (stop <=? pos).
  - intros E. injection E; intros; lia.
  - intros E. discriminate E.
  - intros E. injection E; intros; lia.
  - destruct (cue_header r pos stop) as [[[[id q] sz]|]|]; [|intros E; discriminate E|intros E; discriminate E].
    destruct (count_element r pos id q sz (tc, n)) as [[x|[tc2 n2]]|] eqn:Ec; [intros E; discriminate E| |intros E; discriminate E].
    intros E. apply IH in E. unfold count_element in Ec.
    destruct (id =? kMkvCueTime); [destruct (UnserializeUInt r q sz); [injection Ec; intros; lia|discriminate Ec]|].
    destruct (id =? kMkvCueTrackPositions); [destruct (n + 1 >? 4294967295); [discriminate Ec|injection Ec; intros; lia]|]. injection Ec; intros; lia.
Qed.
(* the second loop of CuePoint::Load never writes behind the array the first one counted *)
Lemma positions_return : forall fuel pos stop tc n tc' count l, 0 <= pos ->
  scan fuel r (count_element r) pos stop (tc, n) = Val (inr (true, (tc', count))) -> zlen l <= n ->
  exists x, load_positions fuel r count pos stop l = Val x.
Proof.
  induction fuel as [|fuel IH]; intros pos stop tc n tc' count l Hp; cbn [scan load_positions]; destruct (stop <=? pos); eauto; [intros E; discriminate E|].
  destruct (cue_header_range r Hwf Hav pos stop Hp) as [->|(id & q & sz & Eh & Hq & Hn & Hqs & HqL)]; [intros E; discriminate E|]. rewrite Eh.
  unfold cue_header in Eh. destruct (ReadID r pos) as [id0 il]. destruct ((id0 <? 0) || (pos + il >? stop)); [discriminate Eh|].
  destruct (ReadUInt r (pos + il)) as [sz0 w]. destruct ((sz0 <? 0) || (pos + il + w >? stop)); [discriminate Eh|].
  destruct (Z.gtb_spec (pos + il + w + sz0) LLONG_MAX); [discriminate Eh|]. destruct (Z.gtb_spec (pos + il + w + sz0) stop); [discriminate Eh|].
  assert (E : id0 = id /\ q = pos + il + w /\ sz0 = sz) by (injection Eh; auto). destruct E as (-> & <- & ->). clear Eh.
  unfold count_element at 1. destruct (Z.eqb_spec id kMkvCueTime) as [->|].
  - change (kMkvCueTime =? kMkvCueTrackPositions) with false. cbn iota. destruct (UnserializeUInt r q sz); [|intros E; discriminate E]. intros E Hl. refine (IH _ _ _ _ _ _ l _ E Hl); lia.
  - destruct (id =? kMkvCueTrackPositions).
    + destruct (n + 1 >? 4294967295); [intros E; discriminate E|]. intros E Hl. pose proof (count_grows _ _ _ _ _ _ _ E). destruct (Z.leb_spec count (zlen l)); [lia|].
      destruct (TrackPosition_returns q sz ltac:(lia) HqL) as [[t|] ->]; [|eauto]. refine (IH _ _ _ _ _ _ (l ++ [t]) _ E _); [lia|]. rewrite zlen_app, zlen_cons, zlen_nil. lia.
    + intros E Hl. refine (IH _ _ _ _ _ _ l _ E Hl); lia.
Qed.
Lemma Load_returns : forall c, cp_timecode c < 0 -> exists x, CuePoint_Load r c = Val x.
Proof.
  intros c Hc. unfold CuePoint_Load. destruct (Z.geb_spec (cp_timecode c) 0); [lia|]. destruct (ReadID r (- cp_timecode c)) as [id il] eqn:E1.
  destruct (Z.eqb_spec id kMkvCuePoint) as [->|]; [|cbn [negb]; eauto]. cbn [negb].
  destruct (ReadID_range r (- cp_timecode c) _ il Hwf ltac:(lia) E1) as [HH|[[H1 H2] H3]]; [discriminate HH|].
  destruct (ReadUInt r (- cp_timecode c + il)) as [n w] eqn:E2.
  assert (Hn : 1 <= w <= 8 /\ n < 2 ^ 56 /\ - cp_timecode c + il + w <= 2 ^ 62 + 8).
  { destruct (ReadUInt_range r (- cp_timecode c + il) n w Hwf ltac:(lia) E2) as [[H4 ->]|(H4 & H5 & H6)]; [lia|]. assert (2 ^ (7 * w) <= 2 ^ 56) by (apply Z.pow_le_mono_r; lia). lia. }
  set (pos := - cp_timecode c + il + w). assert (Hpos : 0 <= pos) by (unfold pos; lia).
  unfold LLONG_MAX. destruct (Z.gtb_spec (pos + n) 9223372036854775807); [lia|].
  destruct (scan_returns r (count_element r) Hwf Hav (fun i id p n s _ _ _ => count_element_returns i id p n s) (Z.to_nat n) pos (pos + n) (cp_timecode c, 0) Hpos ltac:(lia)) as [[x|[ok [tc count]]] Es]; rewrite Es; [eauto|].
  destruct ok; [|eauto]. destruct ((tc <? 0) || (count <=? 0)); [eauto|].
  destruct (positions_return _ _ _ _ _ _ _ [] Hpos Es ltac:(reflexivity)) as [[l|] ->]; eauto.
Qed.

(* what the states of a Cues object have in common *)
Definition cues_ok (start size : Z) (c : p_cues) : Prop :=
  cu_start c = start /\ cu_size c = size /\ start <= cu_pos c /\ 0 <= cu_count c /\ 0 <= cu_preload c /\ zlen (cu_points c) = cu_count c + cu_preload c /\
  forall k p, nth_error (cu_points c) k = Some p -> cu_count c <= Z.of_nat k -> cp_timecode p < 0 \/ start + size <= cu_pos c.

Lemma init_ok : forall fuel pos stop l x, 0 < pos -> scan fuel r init_element pos stop l = Val x -> Forall (fun p => cp_timecode p < 0) l ->
  exists b l', x = inr (b, l') /\ Forall (fun p => cp_timecode p < 0) l'.
Proof.
  induction fuel as [|fuel IH]; intros pos stop l x Hp; cbn [scan]; destruct (stop <=? pos).
  - intros E Hl. injection E as <-. eauto.
  - intros E. discriminate E.
  - intros E Hl. injection E as <-. eauto.
  - destruct (cue_header_range r Hwf Hav pos stop ltac:(lia)) as [->|(id & q & n & -> & Hq & Hn & _)]; [intros E Hl; injection E as <-; eauto|].
    unfold init_element. destruct (id =? kMkvCuePoint); intros E Hl; apply IH in E; auto; try lia.
    apply Forall_app. split; [exact Hl|]. constructor; [|constructor]. cbn [cue_new cp_timecode]. lia.
Qed.
Lemma Init_ok : forall start size c, 0 < start -> cues_ok start size c -> cu_pos c < start + size ->
  exists b c', Cues_Init r c = Val (b, c') /\ cues_ok start size (if b then c' else mkPCs (cu_start c') (cu_size c') (start + size) (cu_points c') (cu_count c') (cu_preload c')) /\ cu_pos c' = cu_pos c /\ cu_start c' = start /\ cu_size c' = size.
Proof.
  intros start size c Hs (H1 & H2 & H3 & H4 & H5 & H6 & H7) Hlt. unfold Cues_Init. destruct c as [st sz pos points count preload]. cbn [cu_start cu_size cu_pos cu_points cu_count cu_preload] in *. subst st sz.
  destruct (Z.eqb_spec (zlen points) 0) as [E0|E0]; cbn [negb].
  2:{ eexists _, _. split; [reflexivity|]. cbn iota. split; [|auto]. unfold cues_ok. cbn [cu_start cu_size cu_pos cu_points cu_count cu_preload]. repeat split; try lia; assumption. }
  assert (count = 0 /\ preload = 0) as [-> ->] by lia. cbn [Z.eqb negb orb].
  destruct (scan_returns r init_element Hwf Hav (R := unit) (fun i id p n s _ _ _ => ltac:(unfold init_element; destruct (id =? kMkvCuePoint); eauto)) (Z.to_nat size) start (start + size) [] ltac:(lia) ltac:(lia)) as [x Ex]. rewrite Ex.
  destruct (init_ok _ _ _ _ _ Hs Ex (Forall_nil _)) as (b & l & -> & Hl). eexists _, _. split; [reflexivity|]. cbn [cu_start cu_size cu_pos cu_points cu_count cu_preload]. split; [|auto].
  rewrite Forall_forall in Hl. pose proof (zlen_nonneg _ l). destruct b; unfold cues_ok; cbn [cu_start cu_size cu_pos cu_points cu_count cu_preload]; repeat split; try lia; intros k p Hk _; apply nth_error_In in Hk; auto.
Qed.

Lemma set_nth : forall (l : list p_cue) n p x, nth_error l n = Some x ->
  zlen (firstn n l ++ p :: skipn (S n) l) = zlen l /\ (forall k, k <> n -> nth_error (firstn n l ++ p :: skipn (S n) l) k = nth_error l k) /\ nth_error (firstn n l ++ p :: skipn (S n) l) n = Some p.
Proof.
  intros l n p x Hx. pose proof (nth_error_split _ _ Hx) as (l1 & l2 & -> & <-).
  assert (F : firstn (length l1) (l1 ++ x :: l2) = l1) by (rewrite firstn_app, Nat.sub_diag, firstn_all; cbn [firstn]; apply app_nil_r).
  assert (K : skipn (S (length l1)) (l1 ++ x :: l2) = l2) by (rewrite skipn_app; replace (S (length l1) - length l1)%nat with 1%nat by lia; rewrite skipn_all2 by lia; reflexivity).
  rewrite F, K. split; [rewrite !zlen_app, !zlen_cons; reflexivity|]. split.
  - intros k Hk. destruct (Nat.lt_ge_cases k (length l1)); [rewrite !nth_error_app1 by lia; reflexivity|].
    rewrite !nth_error_app2 by lia. destruct (k - length l1)%nat eqn:E; [lia|reflexivity].
  - rewrite nth_error_app2, Nat.sub_diag by lia. reflexivity.
Qed.

Lemma loop_ok : forall start size, 0 < start -> forall fuel c, cues_ok start size c -> start + size - cu_pos c <= Z.of_nat fuel ->
  exists b c', load_loop fuel r (start + size) c = Val (b, c') /\ cues_ok start size c'.
Proof.
  intros start size Hst. set (stop := start + size).
  assert (Chk : forall st sz pos points count preload pos', cues_ok start size (mkPCs st sz pos points count preload) -> pos <= pos' -> cues_ok start size (mkPCs st sz pos' points count preload)).
  { intros st sz pos points count preload pos' (H1 & H2 & H3 & H4 & H5 & H6 & H7) Hle. unfold cues_ok. cbn [cu_start cu_size cu_pos cu_points cu_count cu_preload] in *. (do 6 (split; [lia|])). intros k p Hk Hc. destruct (H7 k p Hk Hc); [left; assumption|right; lia]. }
  induction fuel as [|fuel IH]; intros c Hc Hf; destruct c as [st sz pos points count preload] eqn:Ec; cbn [load_loop]; rewrite <- Ec in *.
  { destruct (Z.leb_spec stop pos); [eauto|]. rewrite Ec in Hf. cbn [cu_pos] in Hf. lia. }
  destruct (Z.leb_spec stop pos) as [Hge|Hlt]; [eauto|].
  assert (Hc' : cues_ok start size (mkPCs st sz pos points count preload)) by (rewrite <- Ec; exact Hc).
  pose proof Hc' as (H1 & H2 & H3 & H4 & H5 & H6 & H7). cbn [cu_start cu_size cu_pos cu_points cu_count cu_preload] in H1, H2, H3, H4, H5, H6, H7. rewrite Ec in Hf. cbn [cu_pos] in Hf.
  destruct (ReadID r pos) as [id il] eqn:E1. destruct ((id <? 0) || (pos + il >? stop)) eqn:B1; [eauto|].
  destruct (ReadID_range r pos id il Hwf ltac:(lia) E1) as [H|[[H8 H9] H10]]; [lia|].
  destruct (ReadUInt r (pos + il)) as [n w] eqn:E2. destruct ((n <? 0) || (pos + il + w >? stop)) eqn:B2; [eexists _, _; split; [reflexivity|]; apply (Chk _ _ pos); [exact Hc'|lia]|].
  destruct (ReadUInt_range r (pos + il) n w Hwf ltac:(lia) E2) as [[H11 _]|(H11 & H12 & H13)]; [lia|].
  assert (n < 2 ^ 56) by (assert (2 ^ (7 * w) <= 2 ^ 56) by (apply Z.pow_le_mono_r; lia); lia).
  unfold LLONG_MAX. destruct (Z.gtb_spec (pos + il + w + n) 9223372036854775807); [lia|].
  destruct (Z.gtb_spec (pos + il + w + n) stop); [eexists _, _; split; [reflexivity|]; apply (Chk _ _ pos); [exact Hc'|lia]|].
  destruct (id =? kMkvCuePoint); cbn [negb].
  2:{ apply IH; [apply (Chk _ _ pos); [exact Hc'|lia]|cbn [cu_pos]; lia]. }
  destruct (Z.ltb_spec preload 1); [eexists _, _; split; [reflexivity|]; apply (Chk _ _ pos); [exact Hc'|lia]|].
  destruct (nth_error points (Z.to_nat count)) as [p|] eqn:En; [|apply nth_error_None in En; unfold zlen in H6; lia].
  destruct ((cp_timecode p <? 0) && negb (- cp_timecode p =? pos)); [eexists _, _; split; [reflexivity|]; apply (Chk _ _ pos); [exact Hc'|lia]|].
  destruct (H7 _ _ En ltac:(lia)) as [Hng|]; [|lia].
  destruct (Load_returns p Hng) as [[[|] p'] ->]; (eexists _, _; split; [reflexivity|]); destruct (set_nth points (Z.to_nat count) p' p En) as (L1 & L2 & L3);
    unfold cues_ok; cbn [cu_start cu_size cu_pos cu_points cu_count cu_preload]; (split; [assumption|]); (split; [assumption|]); (split; [lia|]); (split; [lia|]); (split; [lia|]); (split; [lia|]); intros k q Hk Hkc.
  - destruct (Nat.eq_dec k (Z.to_nat count)); [lia|]. rewrite L2 in Hk by assumption. destruct (H7 k q Hk ltac:(lia)); [left; assumption|lia].
  - right. reflexivity.
Qed.
Lemma LoadCuePoint_ok : forall start size c, 0 < start -> cues_ok start size c -> exists b c', LoadCuePoint r c = Val (b, c') /\ cues_ok start size c'.
Proof.
  intros start size c Hs Hc. pose proof Hc as (H1 & H2 & H3 & _). unfold LoadCuePoint. rewrite H1, H2.
  destruct (Z.geb_spec (cu_pos c) (start + size)); [eauto|].
  destruct (Init_ok start size c Hs Hc ltac:(lia)) as (b & c' & -> & Hc' & Hp & Hs' & Hz'). destruct b.
  - rewrite Hz'. apply loop_ok; [exact Hs|exact Hc'|lia].
  - eexists _, _. split; [reflexivity|]. exact Hc'.
Qed.
Lemma cues_state_ok : forall start size c, 0 < start -> cues_state r start size c -> cues_ok start size c.
Proof.
  intros start size c Hs H. induction H as [|c b c' _ IH E].
  - unfold cues_ok, cues_new. cbn [cu_start cu_size cu_pos cu_points cu_count cu_preload]. repeat split; try lia; try reflexivity. intros [|k] p Hk; discriminate.
  - destruct (LoadCuePoint_ok start size c Hs IH) as (b2 & c2 & E2 & H2). rewrite E in E2. injection E2 as _ <-. exact H2.
Qed.
End Returns.
