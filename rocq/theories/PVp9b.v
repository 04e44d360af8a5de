(* Proofs about the VP9 header parser: it always returns, the tile limits, and the
   fields of headers. *)
From Coq Require Import ZifyBool ZifyNat.
From Verif Require Import Base MVtt MVp9 Vp9Spec PVtt PVp9.

(* ---------- always returns ---------- *)
Definition returns {A} (m : B A) (P : A -> Prop) : Prop := forall off, 0 <= off -> exists v off', m off = Val (v, off') /\ 0 <= off' /\ P v.
Lemma returns_ret : forall A (v : A) (P : A -> Prop), P v -> returns (bret v) P.
Proof. intros A v P H off Ho. exists v, off. auto. Qed.
Lemma returns_bind : forall A C (m : B A) (k : A -> B C) P Q, returns m P -> (forall v, P v -> returns (k v) Q) -> returns (bbind m k) Q.
Proof. intros A C m k P Q H1 H2 off Ho. destruct (H1 off Ho) as (v & o & E & Ho' & HP). destruct (H2 v HP o Ho') as (w & o' & E' & Ho'' & HQ). exists w, o'. unfold bbind. rewrite E. cbn [obind fst snd]. auto. Qed.
Lemma returns_weaken : forall A (m : B A) (P Q : A -> Prop), returns m P -> (forall v, P v -> Q v) -> returns m Q.
Proof. intros A m P Q H HPQ off Ho. destruct (H off Ho) as (v & o & E & Ho' & HP). exists v, o. auto. Qed.
Lemma returns_bit : forall frame, returns (ReadBit frame) (fun b => b = 0 \/ b = 1).
Proof. intros frame off Ho. destruct (ReadBit_total frame off Ho) as (b & o & E & H). eauto. Qed.
Lemma literal_returns : forall n frame a, 0 <= a -> returns (literal_loop frame n (a * 2 ^ Z.of_nat n)) (fun v => a * 2 ^ Z.of_nat n <= v < (a + 1) * 2 ^ Z.of_nat n).
Proof.
  induction n as [|n IH]; intros frame a Ha; cbn [literal_loop].
  - apply returns_ret. cbn. lia.
  - apply (returns_bind _ _ _ _ (fun b => b = 0 \/ b = 1)); [apply returns_bit|]. intros b Hb. replace (Z.of_nat (S n)) with (Z.of_nat n + 1) by lia. rewrite lor_bit by (lia || exact Hb). rewrite Z.pow_add_r, Z.pow_1_r by lia.
    assert (HP : 0 < 2 ^ Z.of_nat n) by (apply Z.pow_pos_nonneg; lia).
    replace (a * (2 ^ Z.of_nat n * 2) + b * 2 ^ Z.of_nat n) with ((2 * a + b) * 2 ^ Z.of_nat n) by lia. apply (returns_weaken _ _ _ _ (IH frame (2 * a + b) ltac:(lia))). intros v Hv. nia.
Qed.
Lemma returns_literal : forall n frame, returns (VpxReadLiteral frame n) (field n).
Proof. intros n frame. pose proof (literal_returns n frame 0 ltac:(lia)) as H. rewrite Z.mul_0_l in H. apply (returns_weaken _ _ _ _ H). intros v Hv. unfold field. lia. Qed.
Definition any {A} : A -> Prop := fun _ => True.
Ltac ret := apply returns_ret; unfold any; auto.
Ltac rbit b := apply (returns_bind _ _ _ _ (fun b => b = 0 \/ b = 1)); [apply returns_bit|intros b ?; cbv beta in *].
Ltac rlit v := eapply returns_bind; [apply returns_literal|intros v ?].

Lemma returns_sync : forall frame, returns (ValidateVp9SyncCode frame) any.
Proof. intros frame. unfold ValidateVp9SyncCode. rlit a. rlit b. rlit c. ret. Qed.
Lemma returns_color : forall frame p, returns (ParseColorSpace frame p) any.
Proof.
  intros frame p. unfold ParseColorSpace. apply (returns_bind _ _ _ _ any).
  - destruct (p >=? 2); [rbit b; ret|ret].
  - intros d _. rlit cs. destruct (negb (cs =? 7)); [rbit r|]; (destruct ((p =? 1) || (p =? 3)); [|ret]); repeat (let y := fresh in rbit y); ret.
Qed.
Definition sized (x : Z * Z * Z * Z) : Prop := let '(w, h, dw, dh) := x in 1 <= w <= 65536 /\ 1 <= h <= 65536 /\ 1 <= dw <= 65536 /\ 1 <= dh <= 65536.
Lemma returns_resolution : forall frame, returns (ParseFrameResolution frame) sized.
Proof.
  intros frame. unfold ParseFrameResolution. rlit w. rlit h. rbit d. unfold field in *. change (2 ^ Z.of_nat 16) with 65536 in *. destruct (negb (d =? 0)).
  - rlit dw. rlit dh. unfold field in *. change (2 ^ Z.of_nat 16) with 65536 in *. apply returns_ret. unfold sized. lia.
  - apply returns_ret. unfold sized. lia.
Qed.
Lemma returns_parallel : forall frame e, returns (ParseFrameParallelMode frame e) (fun b => b = 0 \/ b = 1).
Proof. intros frame e. unfold ParseFrameParallelMode. destruct (e =? 0); [rbit r; apply returns_bit|ret]. Qed.
Lemma returns_delta : forall frame, returns (SkipDeltaQ frame) any.
Proof. intros frame. unfold SkipDeltaQ. rbit b. destruct (negb (b =? 0)); [rlit v|]; ret. Qed.
Lemma returns_deltas : forall n frame, returns (skip_deltas frame n) any.
Proof.
  induction n as [|n IH]; intros frame; cbn [skip_deltas]; [ret|]. rbit b. apply (returns_bind _ _ _ _ any); [|intros v _; apply IH]. destruct (negb (b =? 0)); [|ret]. eapply returns_weaken; [apply returns_literal|intros; exact I].
Qed.

(* superblock columns *)
Lemma align_spec : forall v, 0 <= v -> AlignPowerOfTwo v 3 = (v + 7) / 8 * 8.
Proof.
  intros v Hv. unfold AlignPowerOfTwo. change (Z.shiftl 1 3 - 1) with (Z.ones 3). rewrite <- Z.ldiff_land, Z.ldiff_ones_r by lia. rewrite Z.shiftl_mul_pow2, Z.shiftr_div_pow2 by lia. reflexivity.
Qed.
Lemma sb_cols_spec : forall w, 0 <= w -> Z.shiftr (AlignPowerOfTwo (Z.shiftr (AlignPowerOfTwo w 3) 3) 3) 3 = superblocks w.
Proof.
  intros w Hw. assert (K : forall v, 0 <= v -> Z.shiftr (AlignPowerOfTwo v 3) 3 = (v + 7) / 8). { intros v Hv. rewrite align_spec by exact Hv. rewrite Z.shiftr_div_pow2 by lia. change (2 ^ 3) with 8. apply Z.div_mul. lia. }
  rewrite (K w Hw). pose proof (Z.div_pos (w + 7) 8 ltac:(lia) ltac:(lia)) as Hp. rewrite K by exact Hp. unfold superblocks. rewrite <- (Z.div_add (w + 7) 7 8) by lia. rewrite Z.div_div by lia. change (8 * 8) with 64. f_equal. lia.
Qed.
Lemma shl_pow : forall a k, 0 <= k -> Z.shiftl a k = a * 2 ^ k.
Proof. intros. apply Z.shiftl_mul_pow2. assumption. Qed.
Lemma max_log2_spec : forall fuel sb k, 0 <= k -> 0 < sb -> sb < 4 * 2 ^ (k + Z.of_nat fuel - 1) -> (k = 0 \/ 4 * 2 ^ (k - 1) <= sb) ->
  exists m, max_log2 fuel sb k = Val m /\ 0 <= m /\ sb < 4 * 2 ^ m /\ (m = 0 \/ 4 * 2 ^ (m - 1) <= sb).
Proof.
  induction fuel as [|fuel IH]; intros sb k Hk Hsb Hf Hl; cbn [max_log2].
  - exfalso. destruct Hl as [->|Hl]; [cbn in Hf; lia|]. replace (k + Z.of_nat 0 - 1) with (k - 1) in Hf by lia. lia.
  - rewrite Z.shiftr_div_pow2 by lia. assert (HP : 0 < 2 ^ k) by (apply Z.pow_pos_nonneg; lia). destruct (sb / 2 ^ k >=? 4) eqn:E.
    + apply IH; [lia|lia| |right].
      * replace (k + 1 + Z.of_nat fuel - 1) with (k + Z.of_nat (S fuel) - 1) by lia. exact Hf.
      * replace (k + 1 - 1) with k by lia. assert (4 <= sb / 2 ^ k) by lia. pose proof (Z.mul_div_le sb (2 ^ k) HP). nia.
    + exists k. split; [reflexivity|]. split; [lia|]. split; [|exact Hl]. assert (sb / 2 ^ k < 4) by lia. pose proof (Z.mod_pos_bound sb (2 ^ k) HP). pose proof (Z.div_mod sb (2 ^ k) ltac:(lia)). nia.
Qed.
Lemma min_log2_spec : forall fuel sb k, 0 <= k -> sb <= 64 * 2 ^ (k + Z.of_nat fuel - 1) -> 0 < sb -> (k = 0 \/ 64 * 2 ^ (k - 1) < sb) ->
  exists m, min_log2 fuel sb k = Val m /\ 0 <= m /\ sb <= 64 * 2 ^ m /\ (m = 0 \/ 64 * 2 ^ (m - 1) < sb).
Proof.
  induction fuel as [|fuel IH]; intros sb k Hk Hf Hsb Hl; cbn [min_log2].
  - exfalso. destruct Hl as [->|Hl]; [cbn in Hf; lia|]. replace (k + Z.of_nat 0 - 1) with (k - 1) in Hf by lia. lia.
  - rewrite shl_pow by lia. destruct (64 * 2 ^ k <? sb) eqn:E.
    + apply IH; [lia| |lia|right; replace (k + 1 - 1) with k by lia; lia]. replace (k + 1 + Z.of_nat fuel - 1) with (k + Z.of_nat (S fuel) - 1) by lia. exact Hf.
    + exists k. split; [reflexivity|]. split; [lia|]. split; [lia|exact Hl].
Qed.
Lemma superblocks_range : forall w, 1 <= w <= 65536 -> 1 <= superblocks w <= 1024.
Proof. intros w H. unfold superblocks. split; [apply Z.div_le_lower_bound; lia|]. apply Z.lt_succ_r. apply Z.div_lt_upper_bound; lia. Qed.
Lemma limits : forall w, 1 <= w <= 65536 -> exists mx mn, max_log2 32 (superblocks w) 0 = Val mx /\ min_log2 32 (superblocks w) 0 = Val mn /\
  most_tiles w (if mx - 1 <? 0 then 0 else mx - 1) /\ least_tiles w mn.
Proof.
  intros w H. pose proof (superblocks_range w H) as HS. destruct (max_log2_spec 32 (superblocks w) 0) as (mx & E1 & H0 & H1 & H2); [lia|lia|cbn; lia|left; reflexivity|]. destruct (min_log2_spec 32 (superblocks w) 0) as (mn & E2 & G0 & G1 & G2); [lia|cbn; lia|lia|left; reflexivity|].
  exists mx, mn. split; [exact E1|]. split; [exact E2|]. split.
  - unfold most_tiles. destruct (mx - 1 <? 0) eqn:E.
    + assert (mx = 0) by lia. subst. split; [lia|]. split; [|left; reflexivity]. cbn in *. lia.
    + split; [lia|]. replace (mx - 1 + 1) with mx by lia. split; [exact H1|]. destruct H2 as [->|H2]; [lia|]. right. exact H2.
  - unfold least_tiles. auto.
Qed.
Lemma pow_lt : forall a b, 0 <= a -> 0 <= b -> 2 ^ a < 2 ^ b -> a < b.
Proof. intros a b Ha Hb H. apply (Z.pow_lt_mono_r_iff 2); [lia|lia|exact H]. Qed.
Lemma least_le_most : forall w a b, least_tiles w a -> most_tiles w b -> a <= b.
Proof.
  intros w a b (H1 & H2 & H3) (G1 & G2 & G3). destruct H3 as [->|H3]; [lia|]. destruct (Z.eq_dec a 0) as [->|]; [lia|].
  assert (E : 64 * 2 ^ (a - 1) < 4 * 2 ^ (b + 1)) by lia. assert (2 ^ (a + 3) < 2 ^ (b + 1)). { replace (a + 3) with (4 + (a - 1)) by lia. rewrite (Z.pow_add_r 2 4) by lia. change (2 ^ 4) with 16. lia. }
  pose proof (pow_lt (a + 3) (b + 1) ltac:(lia) ltac:(lia) H). lia.
Qed.
Lemma least_unique : forall w a b, least_tiles w a -> least_tiles w b -> a = b.
Proof.
  assert (K : forall w a b, least_tiles w a -> least_tiles w b -> a <= b).
  { intros w a b (H1 & H2 & H3) (G1 & G2 & G3). destruct H3 as [->|H3]; [lia|]. destruct (Z.eq_dec a 0) as [->|]; [lia|]. assert (2 ^ (a - 1) < 2 ^ b) by lia. pose proof (pow_lt (a - 1) b ltac:(lia) ltac:(lia) H). lia. }
  intros w a b H G. pose proof (K w a b H G). pose proof (K w b a G H). lia.
Qed.
Lemma most_unique : forall w a b, most_tiles w a -> most_tiles w b -> a = b.
Proof.
  assert (K : forall w a b, most_tiles w a -> most_tiles w b -> a <= b).
  { intros w a b (H1 & H2 & H3) (G1 & G2 & G3). destruct H3 as [->|H3]; [lia|]. assert (2 ^ a < 2 ^ (b + 1)) by lia. pose proof (pow_lt a (b + 1) ltac:(lia) ltac:(lia) H). lia. }
  intros w a b H G. pose proof (K w a b H G). pose proof (K w b a G H). lia.
Qed.
Lemma most_small : forall w m, 1 <= w <= 65536 -> most_tiles w m -> m <= 8.
Proof.
  intros w m H (H1 & H2 & H3). pose proof (superblocks_range w H). destruct H3 as [->|H3]; [lia|]. assert (2 ^ m < 2 ^ 9) by (change (2 ^ 9) with 512; lia). pose proof (pow_lt m 9 H1 ltac:(lia) H4). lia.
Qed.
Lemma returns_ones : forall fuel frame n k, 0 <= n < Z.of_nat fuel -> returns (tile_ones fuel frame n k) (fun v => k <= v <= k + n).
Proof.
  induction fuel as [|fuel IH]; intros frame n k Hn; [lia|]. cbn [tile_ones]. destruct (n =? 0) eqn:E; [apply returns_ret; lia|]. rbit b. destruct (b =? 0); [apply returns_ret; lia|]. eapply returns_weaken; [apply IH; lia|]. intros v Hv. cbv beta in *. lia.
Qed.
Definition good_tiles (w : Z) (t : option (Z * Z)) : Prop :=
  match t with
  | None => True
  | Some (rows, cols) => In rows [1; 2; 4] /\ exists k least most, cols = 2 ^ k /\ least_tiles w least /\ most_tiles w most /\ least <= k <= most
  end.
Lemma returns_tiles : forall frame w, 1 <= w <= 65536 -> returns (ParseTileInfo frame w) (good_tiles w).
Proof.
  intros frame w Hw. unfold ParseTileInfo. rlit v1. rlit v2. rlit v3. rbit en. apply (returns_bind _ _ _ _ any).
  { destruct (negb (en =? 0)); [|ret]. rbit up. destruct (negb (up =? 0)); [|ret]. eapply returns_bind; [apply returns_deltas|intros u _; apply returns_deltas]. }
  intros v4 _. rlit v5. eapply returns_bind; [apply returns_delta|intros v6 _]. eapply returns_bind; [apply returns_delta|intros v7 _]. eapply returns_bind; [apply returns_delta|intros v8 _]. rbit seg. destruct (negb (seg =? 0)); [apply returns_ret; exact I|].
  rewrite sb_cols_spec by lia. destruct (limits w Hw) as (mx & mn & -> & -> & HM & HL). cbn [obind]. set (most := if mx - 1 <? 0 then 0 else mx - 1) in *.
  pose proof (least_le_most _ _ _ HL HM). pose proof (most_small _ _ Hw HM). assert (0 <= mn) by apply HL.
  change (returns (blet k := tile_ones 32 frame (most - mn) mn in blet r1 := ReadBit frame in blet rows := (if negb (r1 =? 0) then blet r2 := ReadBit frame in bret (r1 + r2) else bret r1) in bret (Some (Z.shiftl 1 rows, Z.shiftl 1 k))) (good_tiles w)).
  eapply returns_bind; [apply returns_ones; lia|]. intros k Hk. rbit r1. apply (returns_bind _ _ _ _ (fun r => 0 <= r <= 2)).
  { destruct (negb (r1 =? 0)); [rbit r2|]; apply returns_ret; lia. }
  intros rows Hr. apply returns_ret. unfold good_tiles. split; [assert (rows = 0 \/ rows = 1 \/ rows = 2) as [->|[->| ->]] by lia; cbn; tauto|]. exists k, mn, most. rewrite shl_pow by lia. split; [lia|]. split; [exact HL|]. split; [exact HM|lia].
Qed.

Definition kept_or_good (h h' : header) : Prop :=
  hd_row_tiles h' = hd_row_tiles h /\ hd_column_tiles h' = hd_column_tiles h \/ good_tiles (hd_width h') (Some (hd_row_tiles h', hd_column_tiles h')).
Definition sized_header (h : header) : Prop :=
  1 <= hd_width h <= 65536 /\ 1 <= hd_height h <= 65536 /\ 1 <= hd_display_width h <= 65536 /\ 1 <= hd_display_height h <= 65536.
Definition kept_or_sized (h h' : header) : Prop :=
  hd_width h' = hd_width h /\ hd_height h' = hd_height h /\ hd_display_width h' = hd_display_width h /\ hd_display_height h' = hd_display_height h \/ sized_header h'.
Definition sane (h : header) (x : bool * header) : Prop := kept_or_good h (snd x) /\ kept_or_sized h (snd x) /\ hd_frame_size (snd x) = hd_frame_size h.

Lemma returns_key : forall frame h, returns (key_frame frame h) (sane h).
Proof.
  intros frame h. unfold key_frame. eapply returns_bind; [apply returns_sync|intros ok _]. destruct (negb ok); [apply returns_ret; repeat split; [left; auto|left; auto]|]. eapply returns_bind; [apply returns_color|intros cs _]. eapply returns_bind; [apply returns_resolution|]. intros [[[w hh] dw] dh] Hs.
  eapply returns_bind; [apply returns_parallel|]. intros par _. destruct Hs as (Hw & Hh & Hdw & Hdh). eapply returns_bind; [apply returns_tiles; exact Hw|]. intros t Ht. apply returns_ret. repeat split; cbn [snd hd_row_tiles hd_column_tiles hd_width hd_height hd_display_width hd_display_height hd_frame_size].
  - unfold kept_or_good. cbn [hd_row_tiles hd_column_tiles hd_width]. destruct t as [[rows cols]|]; [right; exact Ht|left; auto].
  - right. unfold sized_header. cbn [hd_width hd_height hd_display_width hd_display_height]. auto.
Qed.
Lemma returns_refs : forall n frame, returns (skip_refs frame n) any.
Proof. induction n as [|n IH]; intros frame; cbn [skip_refs]; [ret|]. rlit r. rbit s. apply IH. Qed.
Lemma returns_found : forall n frame, returns (found_ref frame n) any.
Proof. induction n as [|n IH]; intros frame; cbn [found_ref]; [ret|]. rbit s. destruct (negb (s =? 0)); [ret|apply IH]. Qed.
Lemma returns_inter : forall frame h, returns (inter_frame frame h) (sane h).
Proof.
  intros frame h. unfold inter_frame. apply (returns_bind _ _ _ _ any); [destruct (negb (hd_altref h =? 0)); [eapply returns_weaken; [apply returns_bit|intros; exact I]|ret]|]. intros io _.
  apply (returns_bind _ _ _ _ any); [destruct (negb (hd_error_resilient h =? 0)); [ret|eapply returns_weaken; [apply returns_literal|intros; exact I]]|]. intros rs _. destruct (negb (io =? 0)).
  - eapply returns_bind; [apply returns_sync|intros ok _]. destruct (negb ok); [apply returns_ret; repeat split; left; auto|]. apply (returns_bind _ _ _ _ any); [destruct (hd_profile h >? 0); [apply returns_color|ret]|]. intros cs _. rlit fl. eapply returns_bind; [apply returns_resolution|]. intros [[[w hh] dw] dh] Hs. destruct Hs as (Hw & Hh & Hdw & Hdh).
    apply returns_ret. repeat split; [left; auto|right]. unfold sized_header. cbn [snd hd_width hd_height hd_display_width hd_display_height]. auto.
  - rlit fl. eapply returns_bind; [apply returns_refs|intros u _]. eapply returns_bind; [apply returns_found|intros found _]. destruct found.
    + apply (returns_bind _ _ _ _ (fun x => x = (hd_width h, hd_height h, hd_display_width h, hd_display_height h))); [ret|]. intros x ->. apply returns_ret. repeat split; left; auto.
    + eapply returns_bind; [apply returns_resolution|]. intros [[[w hh] dw] dh] Hs. destruct Hs as (Hw & Hh & Hdw & Hdh). apply returns_ret. repeat split; [left; auto|right]. unfold sized_header. cbn [snd hd_width hd_height hd_display_width hd_display_height]. auto.
Qed.
Lemma returns_marker : forall frame h, returns (after_marker frame h) (sane h).
Proof.
  intros frame h. unfold after_marker. rbit p0. rbit p1. cbv zeta. apply (returns_bind _ _ _ _ any); [destruct (_ >? 2); [rbit r|]; ret|]. intros p _. rbit se. destruct (negb (se =? 0)); [apply returns_ret; repeat split; left; auto|]. rbit k. rbit s. rbit er.
  match goal with |- returns (if _ then key_frame _ ?h' else _) _ => set (hh := h') end. assert (E : forall x, sane hh x -> sane h x) by (intros x Hx; exact Hx). destruct (negb (not_ k =? 0)); (eapply returns_weaken; [|exact E]); [apply returns_key|apply returns_inter].
Qed.
Lemma parse_returns : forall frame h, exists ok h', ParseUncompressedHeader frame h = Val (ok, h') /\ kept_or_good h h' /\ kept_or_sized h h' /\ (frame <> [] -> hd_frame_size h' = zlen frame).
Proof.
  intros frame h. unfold ParseUncompressedHeader. destruct frame as [|x frame]; [exists false, h; repeat split; [left; auto|left; auto|congruence]|]. cbv zeta. set (fr := x :: frame). set (h0 := SetFrame h fr).
  assert (R : returns (blet marker := VpxReadLiteral fr 2 in if negb (marker =? 2) then bret (false, h0) else after_marker fr h0) (sane h0)).
  { rlit m. destruct (negb (m =? 2)); [apply returns_ret; repeat split; left; auto|apply returns_marker]. }
  destruct (R 0 ltac:(lia)) as ([ok h'] & o & E & _ & (A & C & D)). rewrite E. cbn [obind fst]. exists ok, h'. split; [reflexivity|]. split; [exact A|]. split; [exact C|]. intros _. exact D.
Qed.
