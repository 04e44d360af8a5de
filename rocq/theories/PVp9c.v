(* Proofs about the VP9 header parser: the fields of well-formed headers. *)
From Coq Require Import ZifyBool ZifyNat.
From Verif Require Import Base MVtt MVp9 Vp9Spec PVtt PVp9 PVp9b.

Lemma at_bits_pos : forall frame off l, at_bits frame off l -> 0 <= off.
Proof. intros frame off l (pre & _ & <-). apply zlen_nonneg. Qed.
Lemma go : forall A C frame (m : B A) (k : A -> B C) l r v off, runs frame m l v -> at_bits frame off (l ++ r) -> exists off', bbind m k off = k v off' /\ at_bits frame off' r.
Proof. intros A C frame m k l r v off H HA. destruct (H off r HA) as (o & E & HA'). exists o. unfold bbind. rewrite E. cbn [obind fst snd]. auto. Qed.
Lemma go0 : forall A C frame (m : B A) (k : A -> B C) r v off, runs frame m [] v -> at_bits frame off r -> exists off', bbind m k off = k v off' /\ at_bits frame off' r.
Proof. intros A C frame m k r v off H HA. exact (go A C frame m k [] r v off H HA). Qed.
Ltac step H l v HA lem :=
  let o := fresh "o" in let E := fresh "E" in
  match goal with |- context [bbind ?m ?k ?off] =>
    destruct (go _ _ _ m k l _ v off lem HA) as (o & E & H); rewrite E; clear E HA end.

Lemma runs_flag : forall frame b, runs frame (ReadBit frame) (flag b) (if b then 1 else 0).
Proof. intros frame b. apply runs_bit. Qed.
Lemma runs_bit' : forall frame b C (k : Z -> B C) l w, runs frame (k b) l w -> runs frame (bbind (ReadBit frame) k) (b :: l) w.
Proof. intros frame b C k l w H. exact (runs_bind _ _ frame _ k [b] l b w (runs_bit frame b) H). Qed.
Lemma runs_lit : forall frame n v C (k : Z -> B C) l w, field n v -> runs frame (k v) l w -> runs frame (bbind (VpxReadLiteral frame n) k) (bits n v ++ l) w.
Proof. intros frame n v C k l w Hf H. exact (runs_bind _ _ frame _ k _ l v w (runs_literal n frame v Hf) H). Qed.
Lemma runs_sync : forall frame, runs frame (ValidateVp9SyncCode frame) sync_bits true.
Proof.
  intros frame. change sync_bits with (bits 8 0x49 ++ bits 8 0x83 ++ bits 8 0x42). unfold ValidateVp9SyncCode. apply runs_lit; [unfold field; cbn; lia|]. apply runs_lit; [unfold field; cbn; lia|]. rewrite <- (app_nil_r (bits 8 0x42)). apply runs_lit; [unfold field; cbn; lia|]. apply runs_ret.
Qed.
Lemma runs_color : forall frame p depth space c, 0 <= p <= 3 -> color_bits p depth space c -> runs frame (ParseColorSpace frame p) c (depth, space).
Proof.
  intros frame p depth space c Hp H. destruct H as [depth space dbits tail HD HS HT]. unfold ParseColorSpace.
  assert (EP : ((p =? 1) || (p =? 3)) = (p mod 2 =? 1)) by (assert (p = 0 \/ p = 1 \/ p = 2 \/ p = 3) as [->|[->|[->| ->]]] by lia; reflexivity). rewrite EP.
  apply (runs_bind _ _ frame _ _ dbits (bits 3 space ++ tail) depth).
  - destruct HD as [(Hlt & -> & ->)|[(Hge & -> & ->)|(Hge & -> & ->)]].
    + replace (p >=? 2) with false by lia. apply runs_ret.
    + replace (p >=? 2) with true by lia. apply (runs_bit' frame 0). apply runs_ret.
    + replace (p >=? 2) with true by lia. apply (runs_bit' frame 1). apply runs_ret.
  - apply runs_lit; [exact HS|]. destruct HT as [(Hne & Hm & range & ->)|[(Hne & Hm & range & x & y & ->)|(-> & Hm & ->)]].
    + replace (negb (space =? 7)) with true by lia. replace (p mod 2 =? 1) with false by lia. apply runs_bit'. apply runs_ret.
    + replace (negb (space =? 7)) with true by lia. replace (p mod 2 =? 1) with true by lia. cbn [flag app]. do 4 apply runs_bit'. apply runs_ret.
    + change (negb (7 =? 7)) with false. cbv iota. replace (p mod 2 =? 1) with true by lia. apply runs_bit'. apply runs_ret.
Qed.
Lemma runs_size : forall frame w h rw rh s, size_bits w h rw rh s -> runs frame (ParseFrameResolution frame) s (w, h, rw, rh).
Proof.
  intros frame w h rw rh s H. unfold ParseFrameResolution. destruct H as [w h Hw Hh|w h rw rh Hw Hh Hrw Hrh].
  - apply runs_lit; [exact Hw|]. apply runs_lit; [exact Hh|]. apply runs_bit'. change (negb (0 =? 0)) with false. cbv iota. replace (w - 1 + 1) with w by lia. replace (h - 1 + 1) with h by lia. apply runs_ret.
  - apply runs_lit; [exact Hw|]. apply runs_lit; [exact Hh|]. apply runs_bit'. change (negb (1 =? 0)) with true. cbv iota. apply runs_lit; [exact Hrw|]. rewrite <- (app_nil_r (bits 16 (rh - 1))). apply runs_lit; [exact Hrh|].
    replace (w - 1 + 1) with w by lia. replace (h - 1 + 1) with h by lia. replace (rw - 1 + 1) with rw by lia. replace (rh - 1 + 1) with rh by lia. apply runs_ret.
Qed.
Lemma runs_parallel : forall frame err par pb, parallel_bits err par pb -> runs frame (ParseFrameParallelMode frame (if err then 1 else 0)) pb par.
Proof.
  intros frame err par pb H. unfold ParseFrameParallelMode. destruct H as [->|refresh par ->].
  - apply runs_ret.
  - apply runs_bit'. apply runs_flag.
Qed.
Lemma delta_split : forall n m l, delta_bits (n + m) l -> exists a b, l = a ++ b /\ delta_bits n a /\ delta_bits m b.
Proof.
  induction n as [|n IH]; intros m l H; [exists [], l; repeat split; [constructor|exact H]|]. cbn [Nat.add] in H. remember (S (n + m)) as k eqn:Ek. destruct H as [|k r H|k v r Hv H]; [discriminate| |]; injection Ek as ->.
  - destruct (IH _ _ H) as (a & b & -> & A & C). exists ([0] ++ a), b. repeat split; [constructor; exact A|exact C].
  - destruct (IH _ _ H) as (a & b & -> & A & C). exists ([1] ++ bits 7 v ++ a), b. split; [rewrite <- !app_assoc; reflexivity|]. split; [constructor; assumption|exact C].
Qed.
Lemma runs_deltas : forall n frame l, delta_bits n l -> runs frame (skip_deltas frame n) l tt.
Proof.
  intros n frame l H. induction H as [|n r H IH|n v r Hv H IH]; cbn [skip_deltas]; [apply runs_ret| |].
  - apply (runs_bit' frame 0). change (negb (0 =? 0)) with false. cbv iota. apply (runs_bind0 _ _ _ _ _ _ 0); [apply runs_ret|exact IH].
  - apply (runs_bit' frame 1). change (negb (1 =? 0)) with true. cbv iota. apply runs_lit; [exact Hv|exact IH].
Qed.
Lemma runs_ones_all : forall n fuel frame k, (n < fuel)%nat -> runs frame (tile_ones fuel frame (Z.of_nat n) k) (repeat 1 n) (k + Z.of_nat n).
Proof.
  induction n as [|n IH]; intros fuel frame k H; (destruct fuel as [|fuel]; [lia|]); cbn [tile_ones repeat].
  - change (Z.of_nat 0 =? 0) with true. cbv iota. replace (k + Z.of_nat 0) with k by lia. apply runs_ret.
  - replace (Z.of_nat (S n) =? 0) with false by lia. apply (runs_bit' frame 1). change (1 =? 0) with false. cbv iota. replace (Z.of_nat (S n) - 1) with (Z.of_nat n) by lia. replace (k + Z.of_nat (S n)) with (k + 1 + Z.of_nat n) by lia. apply IH. lia.
Qed.
Lemma runs_ones_some : forall n fuel frame mx k, (n < fuel)%nat -> Z.of_nat n < mx -> runs frame (tile_ones fuel frame mx k) (repeat 1 n ++ [0]) (k + Z.of_nat n).
Proof.
  induction n as [|n IH]; intros fuel frame mx k H Hm; (destruct fuel as [|fuel]; [lia|]); cbn [tile_ones repeat app].
  - replace (mx =? 0) with false by lia. apply (runs_bit' frame 0). change (0 =? 0) with true. cbv iota. replace (k + Z.of_nat 0) with k by lia. apply runs_ret.
  - replace (mx =? 0) with false by lia. apply (runs_bit' frame 1). change (1 =? 0) with false. cbv iota. replace (k + Z.of_nat (S n)) with (k + 1 + Z.of_nat n) by lia. apply IH; lia.
Qed.
Lemma runs_quant : forall frame C (k : unit -> B C) l w q, quant_delta false q -> runs frame (k tt) l w -> runs frame (bbind (SkipDeltaQ frame) k) (q ++ l) w.
Proof. intros frame C k l w q H HK. inversion H. subst. apply (runs_bind _ _ _ _ _ [0] l tt); [|exact HK]. unfold SkipDeltaQ. apply (runs_bit' frame 0). apply runs_ret. Qed.
Lemma runs_tiles : forall frame w ctx l q cols rows t, 1 <= w <= 65536 -> field 2 ctx -> loop_filter_bits l -> quant_bits false q -> tile_bits w cols rows t ->
  runs frame (ParseTileInfo frame w) (bits 2 ctx ++ l ++ q ++ [0] ++ t) (Some (2 ^ rows, 2 ^ cols)).
Proof.
  intros frame w ctx l q cols rows t Hw Hc HL HQ HT. unfold ParseTileInfo. apply runs_lit; [exact Hc|].
  set (rest := fun v4 : unit => _ : B (option (Z * Z))). 
  assert (HR : runs frame (rest tt) (q ++ [0] ++ t) (Some (2 ^ rows, 2 ^ cols))).
  { unfold rest. remember false as cd eqn:Ecd in HQ. destruct HQ as [base a b c x y z Hb Hx Hy Hz]. assert (a = false /\ b = false /\ c = false) as (-> & -> & ->) by (destruct a, b, c; auto; discriminate). rewrite <- !app_assoc.
    apply runs_lit; [exact Hb|]. apply runs_quant; [exact Hx|]. apply runs_quant; [exact Hy|]. apply runs_quant; [exact Hz|]. apply (runs_bit' frame 0). change (negb (0 =? 0)) with false. cbv iota.
    rewrite sb_cols_spec by lia. destruct (limits w Hw) as (mx & mn & -> & -> & HM & HN). cbn [obind]. set (most := if mx - 1 <? 0 then 0 else mx - 1) in *.
    match goal with |- runs frame (fun off => ?m off) _ _ => change (runs frame m t (Some (2 ^ rows, 2 ^ cols))) end.
    destruct HT as [least most' cols rows rbits H1 H2 H3 H4]. pose proof (least_unique _ _ _ H1 HN). pose proof (most_unique _ _ _ H2 HM). subst least most'. pose proof (most_small _ _ Hw HM).
    assert (0 <= mn) by apply HN.
    assert (HO : runs frame (tile_ones 32 frame (most - mn) mn) (repeat 1 (Z.to_nat (cols - mn)) ++ (if cols <? most then [0] else [])) cols).
    { replace cols with (mn + Z.of_nat (Z.to_nat (cols - mn))) at 3 by lia. destruct (cols <? most) eqn:E.
      - apply runs_ones_some; lia.
      - rewrite app_nil_r. replace (most - mn) with (Z.of_nat (Z.to_nat (cols - mn))) by lia. apply runs_ones_all. lia. }
    rewrite app_assoc. apply (runs_bind _ _ frame _ _ _ rbits cols w0) || eapply runs_bind; [exact HO|].
    destruct H4 as [(-> & ->)|[(-> & ->)|(-> & ->)]].
    - apply (runs_bit' frame 0). change (negb (0 =? 0)) with false. cbv iota. apply (runs_bind0 _ _ _ _ _ _ 0); [apply runs_ret|]. rewrite !shl_pow by lia. rewrite !Z.mul_1_l. apply runs_ret.
    - apply (runs_bit' frame 1). change (negb (1 =? 0)) with true. cbv iota. apply (runs_last _ _ _ _ _ [0] 1); [apply (runs_bit' frame 0); apply runs_ret|]. rewrite !shl_pow by lia. rewrite !Z.mul_1_l. apply runs_ret.
    - apply (runs_bit' frame 1). change (negb (1 =? 0)) with true. cbv iota. apply (runs_last _ _ _ _ _ [1] 2); [apply (runs_bit' frame 1); apply runs_ret|]. rewrite !shl_pow by lia. rewrite !Z.mul_1_l. apply runs_ret. }
  destruct HL as [lv sh H1 H2|lv sh H1 H2|lv sh d H1 H2 Hd]; rewrite <- !app_assoc; (apply runs_lit; [exact H1|]); (apply runs_lit; [exact H2|]).
  - apply (runs_bit' frame 0). change (negb (0 =? 0)) with false. cbv iota. apply (runs_bind0 _ _ _ _ _ _ tt); [apply runs_ret|exact HR].
  - apply (runs_bit' frame 1). change (negb (1 =? 0)) with true. cbv iota. apply (runs_bind _ _ frame _ _ [0] _ tt); [|exact HR]. apply (runs_bit' frame 0). apply runs_ret.
  - apply (runs_bit' frame 1). change (negb (1 =? 0)) with true. cbv iota. change ([1] ++ d ++ q ++ [0] ++ t) with ((1 :: d) ++ q ++ [0] ++ t). apply (runs_bind _ _ frame _ _ (1 :: d) _ tt); [|exact HR]. apply (runs_bit' frame 1). change (negb (1 =? 0)) with true. cbv iota.
    destruct (delta_split 4 2 d Hd) as (a & b & -> & Ha & Hb). apply (runs_bind _ _ _ _ _ a b tt); apply runs_deltas; assumption.
Qed.
Lemma size_range : forall w h rw rh s, size_bits w h rw rh s -> 1 <= w <= 65536.
Proof. intros w h rw rh s H. destruct H; unfold field in *; change (2 ^ Z.of_nat 16) with 65536 in *; lia. Qed.
Lemma go_profile : forall C frame p (k : Z -> B C) r off, 0 <= p <= 3 -> at_bits frame off (profile_bits p ++ r) -> exists off', at_bits frame off' r /\
  (blet p0 := ReadBit frame in blet p1 := ReadBit frame in let q := Z.lor p0 (Z.shiftl p1 1) in blet profile := (if q >? 2 then blet r := ReadBit frame in bret (q + r) else bret q) in k profile) off = k p off'.
Proof.
  intros C frame p k r off Hp HA. assert (p = 0 \/ p = 1 \/ p = 2 \/ p = 3) as [->|[->|[->| ->]]] by lia.
  - change (profile_bits 0 ++ r) with ([0] ++ [0] ++ r) in HA. step HB [0] 0 HA (runs_bit frame 0). step HD [0] 0 HB (runs_bit frame 0). exists o0. split; [exact HD|reflexivity].
  - change (profile_bits 1 ++ r) with ([1] ++ [0] ++ r) in HA. step HB [1] 1 HA (runs_bit frame 1). step HD [0] 0 HB (runs_bit frame 0). exists o0. split; [exact HD|reflexivity].
  - change (profile_bits 2 ++ r) with ([0] ++ [1] ++ r) in HA. step HB [0] 0 HA (runs_bit frame 0). step HD [1] 1 HB (runs_bit frame 1). exists o0. split; [exact HD|reflexivity].
  - change (profile_bits 3 ++ r) with ([1] ++ [1] ++ [0] ++ r) in HA. step HB [1] 1 HA (runs_bit frame 1). step HD [1] 1 HB (runs_bit frame 1). cbv zeta. change (Z.lor 1 (Z.shiftl 1 1) >? 2) with true. cbv iota.
    assert (HR : runs frame (blet r := ReadBit frame in bret (Z.lor 1 (Z.shiftl 1 1) + r)) [0] 3) by (apply (runs_bit' frame 0); apply runs_ret). step HE [0] 3 HD HR. exists o1. split; [exact HE|reflexivity].
Qed.

(* everything before the tiles of a key frame, on its own *)
Lemma key_prefix : forall frame h r off p err depth space w hh rw rh par c s pb, 0 <= p <= 3 -> hd_profile h = p -> hd_error_resilient h = (if err : bool then 1 else 0) ->
  color_bits p depth space c -> size_bits w hh rw rh s -> parallel_bits err par pb -> at_bits frame off (sync_bits ++ c ++ s ++ pb ++ r) ->
  exists off', at_bits frame off' r /\ key_frame frame h off =
    (blet tiles := ParseTileInfo frame w in
     bret (true, mkHd (hd_frame_size h) p (hd_key h) (hd_altref h) (if err then 1 else 0) depth space (hd_refresh h)
                w hh rw rh (match tiles with Some t => fst t | None => hd_row_tiles h end)
                (match tiles with Some t => snd t | None => hd_column_tiles h end) par)) off'.
Proof.
  intros frame h r off p err depth space w hh rw rh par c s pb Hp EP EE HC HS HPB HA. unfold key_frame. rewrite EP, EE.
  step HA1 sync_bits true HA (runs_sync frame). cbn [negb]. step HA2 c (depth, space) HA1 (runs_color frame p depth space c Hp HC). step HA3 s (w, hh, rw, rh) HA2 (runs_size frame w hh rw rh s HS). cbn [fst snd].
  step HA4 pb par HA3 (runs_parallel frame err par pb HPB). exists o2. split; [exact HA4|reflexivity].
Qed.
Definition same_but_tiles (h h' : header) : Prop :=
  hd_frame_size h = hd_frame_size h' /\ hd_profile h = hd_profile h' /\ hd_key h = hd_key h' /\ hd_altref h = hd_altref h' /\ hd_error_resilient h = hd_error_resilient h' /\
  hd_bit_depth h = hd_bit_depth h' /\ hd_color_space h = hd_color_space h' /\ hd_refresh h = hd_refresh h' /\ hd_width h = hd_width h' /\ hd_height h = hd_height h' /\
  hd_display_width h = hd_display_width h' /\ hd_display_height h = hd_display_height h' /\ hd_parallel h = hd_parallel h'.

(* the bits up to the error resilient flag *)
Lemma parse_start : forall frame h0 p k (show err : bool) r, 0 <= p <= 3 -> k = 0 \/ k = 1 ->
  bits_of_frame frame = bits 2 2 ++ profile_bits p ++ [0] ++ [k] ++ flag show ++ flag err ++ r ->
  exists off, at_bits frame off r /\ ParseUncompressedHeader frame h0 =
    olet x := (let h := mkHd (zlen frame) p (not_ k) (if show then 0 else 1) (if err then 1 else 0) (hd_bit_depth h0) 0 0 (hd_width h0) (hd_height h0) (hd_display_width h0) (hd_display_height h0) (hd_row_tiles h0) (hd_column_tiles h0) (hd_parallel h0) in
               if negb (not_ k =? 0) then key_frame frame h else inter_frame frame h) off in Val (fst x).
Proof.
  intros frame h0 p k show err r Hp Hk EB. assert (HA : at_bits frame 0 (bits 2 2 ++ profile_bits p ++ [0] ++ [k] ++ flag show ++ flag err ++ r)) by (exists []; split; [exact EB|reflexivity]).
  unfold ParseUncompressedHeader. destruct frame as [|b0 frame]; [cbn in EB; discriminate|]. cbv zeta. set (fr := b0 :: frame) in *. set (h := SetFrame h0 fr).
  step HB (bits 2 2) 2 HA (runs_literal 2 fr 2 ltac:(unfold field; cbn; lia)). change (negb (2 =? 2)) with false. cbv iota. unfold after_marker.
  edestruct (fun k => go_profile (bool * header) fr p k _ _ Hp HB) as (o1 & HD & E).
  erewrite E. clear E HB. cbv beta. step HE [0] 0 HD (runs_bit fr 0). change (negb (0 =? 0)) with false. cbv iota. step HF [k] k HE (runs_bit fr k). step HG (flag show) (if show then 1 else 0) HF (runs_flag fr show). step HH (flag err) (if err then 1 else 0) HG (runs_flag fr err).
  eexists. split; [exact HH|]. cbv zeta. unfold h, SetFrame. cbn [hd_frame_size hd_bit_depth hd_color_space hd_refresh hd_width hd_height hd_display_width hd_display_height hd_row_tiles hd_column_tiles hd_parallel]. destruct show; reflexivity.
Qed.
Lemma parse_key : forall frame h0 hdr coded b rest, key_header hdr coded b -> bits_of_frame frame = b ++ rest -> hd_frame_size hdr = zlen frame ->
  exists h', ParseUncompressedHeader frame h0 = Val (true, h') /\ same_but_tiles h' hdr /\ (coded = false -> h' = hdr).
Proof.
  intros frame h0 hdr coded b rest HK EB EN. destruct HK as [n p show err depth space w h rw rh par cols rows ctx c s l q t pb coded Hp HC HS HPB Hx HL HQ HT]. cbn [hd_frame_size] in EN. rewrite <- !app_assoc in EB.
  destruct (parse_start frame h0 p 0 show err _ Hp (or_introl eq_refl) EB) as (off & HA & E). rewrite E. clear E. cbv zeta. change (negb (not_ 0 =? 0)) with true. cbv iota.
  match goal with |- context [key_frame frame ?hh off] => edestruct (key_prefix frame hh) as (off' & HA' & E) end; [exact Hp| | |exact HC|exact HS|exact HPB|exact HA|]; [reflexivity|reflexivity|]. rewrite E. clear E. cbn [hd_frame_size hd_key hd_altref hd_refresh hd_row_tiles hd_column_tiles].
  pose proof (at_bits_pos _ _ _ HA') as Ho. destruct coded.
  - destruct (returns_tiles frame w (size_range _ _ _ _ _ HS) off' Ho) as (ti & o & E & _). unfold bbind. rewrite E. cbn [obind fst snd bret]. eexists. split; [reflexivity|]. split; [|discriminate]. unfold same_but_tiles. cbn. repeat split; auto.
  - replace (bits 2 ctx ++ l ++ q ++ [0] ++ t ++ rest) with ((bits 2 ctx ++ l ++ q ++ [0] ++ t) ++ rest) in HA' by (rewrite <- !app_assoc; reflexivity).
    destruct (runs_tiles frame w ctx l q cols rows t (size_range _ _ _ _ _ HS) Hx HL HQ HT off' rest HA') as (o & E & _). unfold bbind. rewrite E. cbn [obind fst snd bret]. eexists. split; [reflexivity|]. split; [unfold same_but_tiles; cbn; repeat split; auto|]. intros _. rewrite EN. reflexivity.
Qed.
Lemma parse_intra : forall frame h0 p err depth space flags w h rw rh b rest, intra_header p err depth space flags w h rw rh b -> bits_of_frame frame = b ++ rest ->
  ParseUncompressedHeader frame h0 = Val (true, mkHd (zlen frame) p 0 1 (if err then 1 else 0) depth space flags w h rw rh (hd_row_tiles h0) (hd_column_tiles h0) (hd_parallel h0)).
Proof.
  intros frame h0 p err depth space flags w h rw rh b rest HK EB. destruct HK as [p err depth space flags w h rw rh reset c s rb Hp HR Hre HC Hf HS]. rewrite <- !app_assoc in EB.
  destruct (parse_start frame h0 p 1 false err _ Hp (or_intror eq_refl) EB) as (off & HA & E). rewrite E. clear E. cbv zeta. change (negb (not_ 1 =? 0)) with false. cbv iota. unfold inter_frame. cbn [hd_altref hd_error_resilient hd_profile]. change (negb (1 =? 0)) with true. cbv iota.
  step HB [1] 1 HA (runs_bit frame 1).
  assert (HRB : exists v, runs frame (if negb ((if err then 1 else 0) =? 0) then bret 0 else VpxReadLiteral frame 2) rb v) by (destruct err; subst rb; [exists 0; apply runs_ret|exists reset; apply runs_literal; exact Hre]).
  destruct HRB as (v & HRB). step HD rb v HB HRB. change (negb (1 =? 0)) with true. cbv iota. step HE sync_bits true HD (runs_sync frame). cbn [negb].
  assert (HCS : runs frame (if p >? 0 then ParseColorSpace frame p else bret (8, 1)) c (depth, space)).
  { destruct HC as [(-> & -> & -> & ->)|(H1 & HC)]; [apply runs_ret|]. replace (p >? 0) with true by lia. apply runs_color; assumption. }
  step HG c (depth, space) HE HCS. step HH (bits 8 flags) flags HG (runs_literal 8 frame flags Hf). step HI s (w, h, rw, rh) HH (runs_size frame w h rw rh s HS). reflexivity.
Qed.
Lemma runs_refs : forall n frame l, ref_bits n l -> runs frame (skip_refs frame n) l tt.
Proof.
  intros n frame l H. induction H as [|n i sign r Hi H IH]; cbn [skip_refs]; [apply runs_ret|]. apply runs_lit; [exact Hi|]. apply runs_bit'. exact IH.
Qed.
Lemma parse_inter : forall frame h0 p show err flags size b rest, inter_header p show err flags size b -> bits_of_frame frame = b ++ rest ->
  let '(w, h, rw, rh) := match size with Some x => x | None => (hd_width h0, hd_height h0, hd_display_width h0, hd_display_height h0) end in
  ParseUncompressedHeader frame h0 = Val (true, mkHd (zlen frame) p 0 (if show then 0 else 1) (if err then 1 else 0) (hd_bit_depth h0) 0 flags w h rw rh (hd_row_tiles h0) (hd_column_tiles h0) (hd_parallel h0)).
Proof.
  intros frame h0 p show err flags size b rest HK EB. destruct HK as [p show err flags reset size rb r s Hp HR Hre Hf HRF HS]. rewrite <- !app_assoc in EB.
  destruct (parse_start frame h0 p 1 show err _ Hp (or_intror eq_refl) EB) as (off & HA & E). rewrite E. clear E. cbv zeta. change (negb (not_ 1 =? 0)) with false. cbv iota. unfold inter_frame. cbn [hd_altref hd_error_resilient hd_profile].
  assert (HIO : runs frame (if negb ((if show then 0 else 1) =? 0) then ReadBit frame else bret 0) (if show then [] else [0]) 0) by (destruct show; [apply runs_ret|apply (runs_bit frame 0)]).
  step HB (if show then [] else [0]) 0 HA HIO.
  assert (HRB : exists v, runs frame (if negb ((if err then 1 else 0) =? 0) then bret 0 else VpxReadLiteral frame 2) rb v) by (destruct err; subst rb; [exists 0; apply runs_ret|exists reset; apply runs_literal; exact Hre]).
  destruct HRB as (v & HRB). step HD rb v HB HRB. change (negb (0 =? 0)) with false. cbv iota. step HE (bits 8 flags) flags HD (runs_literal 8 frame flags Hf). step HG r tt HE (runs_refs 3 frame r HRF).
  destruct HS as [| | |w h rw rh s HS].
  - assert (HX : runs frame (found_ref frame 3) [1] true) by (apply (runs_bit' frame 1); apply runs_ret). step HH [1] true HG HX. reflexivity.
  - assert (HX : runs frame (found_ref frame 3) [0; 1] true) by (apply (runs_bit' frame 0); apply (runs_bit' frame 1); apply runs_ret). step HH [0; 1] true HG HX. reflexivity.
  - assert (HX : runs frame (found_ref frame 3) [0; 0; 1] true) by (apply (runs_bit' frame 0); apply (runs_bit' frame 0); apply (runs_bit' frame 1); apply runs_ret). step HH [0; 0; 1] true HG HX. reflexivity.
  - assert (HX : runs frame (found_ref frame 3) [0; 0; 0] false) by (do 3 apply (runs_bit' frame 0); apply runs_ret). rewrite <- app_assoc in HG. step HH [0; 0; 0] false HG HX. step HI s (w, h, rw, rh) HH (runs_size frame w h rw rh s HS). reflexivity.
Qed.
