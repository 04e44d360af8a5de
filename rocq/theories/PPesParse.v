(* The PES parser on the muxer's output. *)
From Coq Require Import ZifyBool ZifyNat.
From Verif Require Import Base MFloat MPes PesSpec PPes PPesPts PPesStream.

Lemma pbyte_app : forall pre l k, 0 <= k < zlen l -> pbyte (pre ++ l) (zlen pre + k) = Val (nth (Z.to_nat k) l 0).
Proof.
  intros pre l k Hk. unfold pbyte. pose proof (zlen_nonneg _ pre). rewrite zlen_app.
  replace ((0 <=? zlen pre + k) && (zlen pre + k <? zlen pre + zlen l)) with true by lia.
  f_equal. rewrite app_nth2 by (unfold zlen in *; lia).
  f_equal. unfold zlen in *. lia.
Qed.

Definition file_small (d : list Z) : Prop := zlen d < 2 ^ 31.

Lemma BytesAvailable_app : forall pre l, file_small (pre ++ l) -> BytesAvailable (pre ++ l) (zlen pre) = zlen l.
Proof.
  intros pre l H. unfold BytesAvailable, file_small in *. rewrite zlen_app in *.
  pose proof (zlen_nonneg _ pre). pose proof (zlen_nonneg _ l).
  replace (zlen pre + zlen l - zlen pre) with (zlen l) by lia.
  unfold sint32. apply wraps_id; [lia|]. change (2 ^ (32 - 1)) with (2 ^ 31). lia.
Qed.

Lemma FindStartCode_here : forall pre x y rest,
  FindStartCode (pre ++ 0 :: 0 :: 1 :: x :: y :: rest) (zlen pre) = Some (zlen pre).
Proof.
  intros. unfold FindStartCode. rewrite zlen_app, !zlen_cons. pose proof (zlen_nonneg _ rest).
  replace (_ <=? _) with false by lia.
  replace (_ <? 3) with false by lia.
  rewrite skipn_zlen_app. reflexivity.
Qed.

Lemma ParsePesHeader_here : forall pre hi lo rest, file_small (pre ++ 0 :: 0 :: 1 :: 0xE0 :: hi :: lo :: rest) ->
  is_byte hi -> is_byte lo ->
  ParsePesHeader (pre ++ 0 :: 0 :: 1 :: 0xE0 :: hi :: lo :: rest) (zlen pre) =
  Val (Some (hi * 256 + lo, zlen pre + 6)).
Proof.
  intros pre hi lo rest Hs Hh Hl. set (l := 0 :: 0 :: 1 :: 0xE0 :: hi :: lo :: rest) in *.
  assert (HL : 6 <= zlen l) by (subst l; rewrite !zlen_cons; pose proof (zlen_nonneg _ rest); lia).
  unfold ParsePesHeader, VerifyPacketStartCode. rewrite BytesAvailable_app by exact Hs.
  replace (zlen (pre ++ l) <? zlen pre + 2) with false by (rewrite zlen_app; lia).
  assert (P0 : pbyte (pre ++ l) (zlen pre) = Val 0).
  { replace (zlen pre) with (zlen pre + 0) by lia. rewrite pbyte_app by lia. reflexivity. }
  assert (P1 : pbyte (pre ++ l) (zlen pre + 1) = Val 0) by (rewrite pbyte_app by lia; reflexivity).
  assert (P2 : pbyte (pre ++ l) (zlen pre + 2) = Val 1) by (rewrite pbyte_app by lia; reflexivity).
  assert (P3 : pbyte (pre ++ l) (zlen pre + 3) = Val 0xE0) by (rewrite pbyte_app by lia; reflexivity).
  assert (P4 : pbyte (pre ++ l) (zlen pre + 4) = Val hi) by (rewrite pbyte_app by lia; reflexivity).
  assert (P5 : pbyte (pre ++ l) (zlen pre + 5) = Val lo) by (rewrite pbyte_app by lia; reflexivity).
  rewrite P0, P1, P2, P3, P4, P5. cbn [obind negb Z.eqb Pos.eqb].
  replace (zlen l <? 4) with false by lia. replace (zlen l <? 6) with false by lia. cbn [orb Z.ltb Z.compare Pos.compare Pos.compare_cont].
  unfold is_byte in *. rewrite lor_shiftl_low by (change (2 ^ 8) with 256; lia). change (2 ^ 8) with 256.
  unfold wrap16. rewrite Z.mod_small by lia. reflexivity.
Qed.

(* reading an escaped string of which nothing is damaged *)
Lemma RemoveEmulation_here : forall pre p rest, p <> [] -> has_long 0 p = false ->
  RemoveEmulation (pre ++ escape_loop 0 p ++ rest) (zlen pre) (zlen p) = Val (Some (p, zlen (escape_loop 0 p))).
Proof.
  intros pre p rest Hp HL. apply remove_emulation_iff; auto.
  intros H. apply has_long_complete in H. congruence.
Qed.

Lemma ParseOptional_pts : forall pre pts rest,
  ParsePesOptionalHeader (pre ++ escape_loop 0 (opt_header_bytes true (SetPtsBits pts)) ++ rest) (zlen pre) =
  (olet v := pts_read pts in Val (Some (v, zlen pre + 9))).
Proof.
  intros pre pts rest. set (h := opt_header_bytes true (SetPtsBits pts)).
  assert (L9 : zlen h = 9) by apply opt_header_len.
  assert (NE : h <> []) by (subst h; destruct (opt_header_cons true (SetPtsBits pts)) as (t & ->); discriminate).
  pose proof (opt_header_esc true pts) as [He Hl]. fold h in He, Hl.
  pose proof (RemoveEmulation_here pre h rest NE Hl) as ER. rewrite (escape_id h 0 He) in *. rewrite L9 in *.
  unfold ParsePesOptionalHeader.
  replace (zlen (pre ++ h ++ rest) <=? zlen pre) with false
    by (rewrite !zlen_app; pose proof (zlen_nonneg _ rest); lia).
  rewrite ER. cbn [obind]. unfold pts_read.
  assert (EH : h = [0x80; 0x80; 6] ++ pts_stored pts ++ [0xFF]) by apply opt_header_pts.
  destruct (pts_stored_odd pts) as (a & b & c & d & e & E5 & Ha & Hc & He2 & Hb & Hd & Oc & Oe & Oa).
  rewrite E5 in *. cbn [app] in EH. rewrite EH. cbn [nth].
  change (Z.shiftr (Z.land 128 128) 7) with 1. cbn [Z.eqb Pos.eqb negb].
  assert (O1 : forall x, Z.odd x = true -> Z.land x 1 =? 1 = true).
  { intros x Hx. change 1 with (Z.ones 1) at 1. rewrite Z.land_ones by lia. change (2 ^ 1) with 2.
    rewrite Zmod_odd, Hx. reflexivity. }
  rewrite !O1 by assumption. cbn [negb orb]. destruct (parse_pts a b c d e); reflexivity.
Qed.

Lemma ParseOptional_nopts : forall pre pts rest,
  ParsePesOptionalHeader (pre ++ escape_loop 0 (opt_header_bytes false (SetPtsBits pts)) ++ rest) (zlen pre) =
  Val (Some (0, zlen pre + 9)).
Proof.
  intros pre pts rest. set (h := opt_header_bytes false (SetPtsBits pts)).
  assert (NE : h <> []) by discriminate.
  pose proof (opt_header_esc false pts) as [He Hl]. fold h in He, Hl.
  pose proof (RemoveEmulation_here pre h rest NE Hl) as ER. rewrite (escape_id h 0 He) in *.
  change (zlen h) with 9 in *.
  unfold ParsePesOptionalHeader.
  replace (zlen (pre ++ h ++ rest) <=? zlen pre) with false
    by (rewrite !zlen_app; change (zlen h) with 9; pose proof (zlen_nonneg _ rest); lia).
  rewrite ER. cbn [obind]. reflexivity.
Qed.

Lemma bcmv_long : forall len, 1 <= len -> len + 10 < 4294967296 ->
  has_long 0 ([66; 67; 77; 86] ++ bcmv6 len) = false.
Proof.
  intros len H1 H2. unfold bcmv6. cbn [app has_long]. cbn [Z.eqb Pos.eqb Z.leb Z.compare Pos.compare Pos.compare_cont andb].
  destruct ((len + 10) / 16777216 mod 256 =? 0) eqn:E3;
  destruct ((len + 10) / 65536 mod 256 =? 0) eqn:E2;
  destruct ((len + 10) / 256 mod 256 =? 0) eqn:E1;
  destruct ((len + 10) mod 256 =? 0) eqn:E0; cbn [andb Z.leb Z.compare Pos.compare Pos.compare_cont Z.add Pos.add Pos.succ];
  try reflexivity.
  replace (((len + 10) mod 256 =? 1) || ((len + 10) mod 256 =? 3)) with false by zdm. reflexivity.
Qed.

Lemma bcmv_value : forall t, 0 <= t < 4294967296 ->
  Z.lor (Z.lor (Z.lor (Z.shiftl (t / 16777216 mod 256) 24) (Z.shiftl (t / 65536 mod 256) 16))
               (Z.shiftl (t / 256 mod 256) 8)) (t mod 256) = t.
Proof.
  intros t Ht.
  set (a := t / 16777216 mod 256). set (b := t / 65536 mod 256). set (c := t / 256 mod 256). set (e := t mod 256).
  assert (Ha : 0 <= a < 256) by (subst a; apply Z.mod_pos_bound; lia).
  assert (Hb : 0 <= b < 256) by (subst b; apply Z.mod_pos_bound; lia).
  assert (Hc : 0 <= c < 256) by (subst c; apply Z.mod_pos_bound; lia).
  assert (He : 0 <= e < 256) by (subst e; apply Z.mod_pos_bound; lia).
  rewrite (lor_shiftl_low a) by (try lia; rewrite shiftl_mul by lia; change (2 ^ 16) with 65536; change (2 ^ 24) with 16777216; lia).
  rewrite !shiftl_mul by lia.
  replace (a * 2 ^ 24 + b * 2 ^ 16) with ((a * 256 + b) * 2 ^ 16) by (change (2 ^ 16) with 65536; change (2 ^ 24) with 16777216; lia).
  rewrite lor_mul_low by (try lia; change (2 ^ 8) with 256; change (2 ^ 16) with 65536; lia).
  replace ((a * 256 + b) * 2 ^ 16 + c * 2 ^ 8) with (((a * 256 + b) * 256 + c) * 2 ^ 8) by (change (2 ^ 8) with 256; change (2 ^ 16) with 65536; lia).
  rewrite lor_mul_low by (try lia; change (2 ^ 8) with 256; lia).
  subst a b c e. change (2 ^ 8) with 256.
  assert (E1 : t / 65536 = t / 256 / 256) by (rewrite Z.div_div by lia; reflexivity).
  assert (E2 : t / 16777216 = t / 256 / 256 / 256) by (rewrite !Z.div_div by lia; reflexivity).
  rewrite E1, E2. zdm.
Qed.

Definition bcmv_bytes (len : Z) : list Z := [66; 67; 77; 86] ++ escape_loop 0 (bcmv6 len).

Lemma bcmv_bytes_escape : forall len, bcmv_bytes len = escape_loop 0 ([66; 67; 77; 86] ++ bcmv6 len).
Proof. reflexivity. Qed.

Lemma ParseBcmv_here : forall pre len rest, 1 <= len -> len + 10 < 4294967296 ->
  ParseBcmvHeader (pre ++ bcmv_bytes len ++ rest) (zlen pre) =
  Val (Some (len + 10, zlen pre + zlen (bcmv_bytes len))).
Proof.
  intros pre len rest H1 H2.
  set (b := [66; 67; 77; 86] ++ bcmv6 len).
  pose proof (RemoveEmulation_here pre b rest ltac:(discriminate) (bcmv_long len H1 H2)) as ER.
  unfold ParseBcmvHeader. rewrite bcmv_bytes_escape. fold b.
  change (zlen b) with 10 in ER. rewrite ER. cbn [obind].
  subst b. unfold bcmv6. cbn [app nth].
  rewrite bcmv_value by lia. unfold wrap32. rewrite Z.mod_small by lia.
  cbn [Z.eqb negb orb Pos.eqb]. rewrite !andb_true_r.
  replace (0 <? len + 10) with true by lia. reflexivity.
Qed.

Lemma not_long : forall p, ~ has_long_zero_run p -> has_long 0 p = false.
Proof.
  intros p H. destruct (has_long 0 p) eqn:E; auto. exfalso. apply H. apply (has_long_sound p 0 ltac:(lia) E).
Qed.

Lemma escapable_sub : forall a b c, has_escapable b -> has_escapable (a ++ b ++ c).
Proof.
  intros a b c (x & y & z & -> & Hz). exists (a ++ x), (y ++ c), z. split; auto.
  rewrite <- !app_assoc. reflexivity.
Qed.

Lemma chunks_no_esc : forall f l, has_esc 0 l = false -> ~ has_escapable l ->
  Forall (fun c => ~ has_escapable c) (chunks f l).
Proof.
  induction f as [|f IH]; intros l H HN; destruct l as [|b l]; cbn [chunks]; auto.
  assert (E : b :: l = firstn kChunk (b :: l) ++ skipn kChunk (b :: l)) by (symmetry; apply firstn_skipn).
  constructor.
  - intros HC. apply HN. rewrite E. apply (escapable_sub [] _ _ HC).
  - assert (HS : ~ has_escapable (skipn kChunk (b :: l))).
    { intros HC. apply HN. rewrite E. pose proof (escapable_sub (firstn kChunk (b :: l)) _ [] HC) as X.
      rewrite app_nil_r in X. exact X. }
    apply IH; auto. apply no_esc; auto.
Qed.

Lemma chunks_concat : forall f l, zlen l <= Z.of_nat f -> concat (chunks f l) = l.
Proof.
  pose proof kChunk_z as KC.
  induction f as [|f IH]; intros l H; destruct l as [|b l]; cbn [chunks concat]; auto.
  - rewrite zlen_cons in H. pose proof (zlen_nonneg _ l). lia.
  - rewrite IH. apply firstn_skipn. unfold zlen in *. rewrite skipn_length. cbn [length] in *. lia.
Qed.

Lemma escape_id' : forall l, ~ has_escapable l -> escape_loop 0 l = l.
Proof. intros. apply escape_id, no_esc; auto. Qed.

Lemma has_long_esc : forall l z, has_esc z l = false -> has_long z l = false.
Proof.
  induction l as [|b l IH]; intros z Hz; cbn [has_esc has_long] in *; auto.
  destruct (b =? 0); [auto|]. destruct ((2 <=? z) && ((b =? 1) || (b =? 3))) eqn:E; [discriminate|].
  replace ((3 <=? z) && ((b =? 1) || (b =? 3))) with false by lia. auto.
Qed.

Lemma pes_hdr_zlen : forall wp n pts, zlen (pes_hdr wp n (SetPtsBits pts)) = 15.
Proof.
  intros. unfold pes_hdr. rewrite opt_header_escape, zlen_app, opt_header_len. reflexivity.
Qed.

(* the fragments after the first packet *)
Lemma accumulate_here : forall pts cs fuel pre rest payload,
  Forall (fun c => 1 <= zlen c <= 32768 /\ ~ has_escapable c) cs ->
  (length cs <= fuel)%nat ->
  file_small (pre ++ concat (map (frag_bytes (SetPtsBits pts)) cs) ++ rest) ->
  accumulate_loop fuel (pre ++ concat (map (frag_bytes (SetPtsBits pts)) cs) ++ rest) (zlen pre)
    (zlen payload + zlen (concat cs)) payload =
  Val (Some (payload ++ concat cs, zlen pre + zlen (concat (map (frag_bytes (SetPtsBits pts)) cs)))).
Proof.
  intros pts. induction cs as [|c cs IH]; intros fuel pre rest payload HF Hfuel Hs.
  - cbn [map concat app]. rewrite zlen_nil, !Z.add_0_r, app_nil_r. destruct fuel; cbn [accumulate_loop];
    rewrite Z.leb_refl; reflexivity.
  - inversion HF as [|? ? (HC1 & HC2) HF']; subst. cbn [length] in Hfuel.
    destruct fuel as [|fuel]; [lia|].
    cbn [map concat] in *. rewrite <- app_assoc in *.
    set (tl := concat (map (frag_bytes (SetPtsBits pts)) cs) ++ rest) in *.
    cbn [accumulate_loop]. pose proof (zlen_nonneg _ (concat cs)).
    replace (zlen payload + zlen (c ++ concat cs) <=? zlen payload) with false by (rewrite zlen_app; lia).
    (* the header *)
    assert (EB : frag_bytes (SetPtsBits pts) c ++ tl =
        0 :: 0 :: 1 :: 0xE0 :: (zlen c + 9) / 256 :: (zlen c + 9) mod 256 ::
        (escape_loop 0 (opt_header_bytes false (SetPtsBits pts)) ++ escape_loop 0 c ++ tl)).
    { unfold frag_bytes, pes_hdr. rewrite <- !app_assoc. reflexivity. }
    rewrite EB in *.
    rewrite FindStartCode_here.
    rewrite ParsePesHeader_here; [|exact Hs|unfold is_byte; zdm|unfold is_byte; zdm]. cbn [obind].
    replace ((zlen c + 9) / 256 * 256 + (zlen c + 9) mod 256) with (zlen c + 9) by zdm.
    set (six := [0; 0; 1; 0xE0; (zlen c + 9) / 256; (zlen c + 9) mod 256]).
    assert (ED : pre ++ 0 :: 0 :: 1 :: 0xE0 :: (zlen c + 9) / 256 :: (zlen c + 9) mod 256 ::
        (escape_loop 0 (opt_header_bytes false (SetPtsBits pts)) ++ escape_loop 0 c ++ tl) =
        (pre ++ six) ++ escape_loop 0 (opt_header_bytes false (SetPtsBits pts)) ++ escape_loop 0 c ++ tl).
    { rewrite <- app_assoc. reflexivity. }
    assert (E6 : zlen pre + 6 = zlen (pre ++ six)) by (rewrite zlen_app; reflexivity).
    rewrite E6, ED, ParseOptional_nopts. cbn [obind].
    rewrite opt_header_escape.
    set (oh := opt_header_bytes false (SetPtsBits pts)).
    assert (E15 : zlen (pre ++ six) + 9 = zlen ((pre ++ six) ++ oh)) by (rewrite (zlen_app _ (pre ++ six)); reflexivity).
    rewrite E15. rewrite (app_assoc (pre ++ six) oh).
    replace (wrap64 (zlen c + 9 - 9)) with (zlen c) by (unfold wrap64; rewrite Z.mod_small by lia; lia).
    assert (NE : c <> []) by (intros ->; unfold zlen in HC1; cbn in HC1; lia).
    rewrite RemoveEmulation_here; [|exact NE|apply has_long_esc, no_esc, HC2]. cbn [obind].
    rewrite (escape_id' c HC2).
    replace (zlen ((pre ++ six) ++ oh) + zlen c) with (zlen ((pre ++ six ++ oh) ++ c)) by (rewrite !zlen_app; lia).
    replace (((pre ++ six) ++ oh) ++ c ++ tl) with (((pre ++ six ++ oh) ++ c) ++ tl) by (rewrite <- !app_assoc; reflexivity).
    subst tl.
    replace (zlen payload + zlen (c ++ concat cs)) with (zlen (payload ++ c) + zlen (concat cs)) by (rewrite !zlen_app; lia).
    rewrite IH; auto; try lia.
    + f_equal. f_equal. apply f_equal2; [rewrite <- app_assoc; reflexivity|].
      rewrite !zlen_app. unfold frag_bytes at 2. rewrite zlen_app, pes_hdr_zlen, (escape_id' c HC2).
      change (zlen six) with 6. change (zlen oh) with 9. lia.
    + rewrite ED in Hs. rewrite opt_header_escape in Hs. fold oh in Hs. rewrite (escape_id' c HC2) in Hs.
      unfold file_small in *. rewrite !zlen_app in *. lia.
Qed.

(* one payload, anywhere in a stream *)
Lemma ParseNextPacket_here : forall pre rest pts v p,
  payload_ok p -> pts_read pts = Val v -> 0 <= v < 2 ^ 63 ->
  file_small (pre ++ range_bytes (SetPtsBits pts) p ++ rest) ->
  ParseNextPacket (pre ++ range_bytes (SetPtsBits pts) p ++ rest) (zlen pre) =
  (olet ns := Khz90TicksToNanoseconds v in
   Val (Some (mkPesFrame ns v p, zlen pre + zlen (range_bytes (SetPtsBits pts) p)))).
Proof.
  pose proof kChunk_z as KC.
  intros pre rest pts v p (Hp1 & Hp2) Hv Hv63 Hs.
  set (d := pre ++ range_bytes (SetPtsBits pts) p ++ rest) in *.
  assert (Hsz : zlen p < 2 ^ 31).
  { unfold file_small in Hs. subst d. unfold range_bytes, first_bytes in Hs. 
    assert (G : forall fuel l, zlen l <= Z.of_nat fuel -> zlen l <= zlen (concat (map (frag_bytes (SetPtsBits pts)) (chunks fuel l)))).
    { induction fuel as [|fuel IH]; intros l Hl; destruct l as [|b l]; cbn [chunks map concat]; try lia.
      - rewrite zlen_cons in Hl. pose proof (zlen_nonneg _ l). lia.
      - set (m := b :: l) in *.
        assert (EM : zlen m = zlen (firstn kChunk m) + zlen (skipn kChunk m))
          by (rewrite <- zlen_app, firstn_skipn; reflexivity).
        assert (1 <= zlen (firstn kChunk m)).
        { subst m. unfold zlen. rewrite firstn_length. cbn [length]. lia. }
        rewrite zlen_app. specialize (IH (skipn kChunk m) ltac:(lia)).
        unfold frag_bytes at 1. rewrite zlen_app. pose proof (escape_zlen (firstn kChunk m) 0).
        pose proof (zlen_nonneg _ (pes_hdr false (zlen (firstn kChunk m) + 9) (SetPtsBits pts))). lia. }
    assert (ES : zlen (skipn kChunk p) <= Z.of_nat (length p)) by (unfold zlen; rewrite skipn_length; lia).
    specialize (G (length p) (skipn kChunk p) ES).
    assert (EM : zlen p = zlen (firstn kChunk p) + zlen (skipn kChunk p))
      by (rewrite <- zlen_app, firstn_skipn; reflexivity).
    rewrite !zlen_app in Hs. pose proof (escape_zlen (firstn kChunk p) 0).
    pose proof (zlen_nonneg _ pre). pose proof (zlen_nonneg _ rest).
    pose proof (zlen_nonneg _ (pes_hdr true (zlen (firstn kChunk p) + 19) (SetPtsBits pts))).
    pose proof (zlen_nonneg _ [66; 67; 77; 86]). pose proof (zlen_nonneg _ (escape_loop 0 (bcmv6 (zlen p)))). lia. }
  change (2 ^ 31) with 2147483648 in Hsz.
  set (c := firstn kChunk p). set (cs := chunks (length p) (skipn kChunk p)).
  assert (Hc : zlen c = Z.min 32768 (zlen p)) by (subst c; unfold zlen; rewrite firstn_length; lia).
  set (tl := concat (map (frag_bytes (SetPtsBits pts)) cs) ++ rest).
  assert (ED : d = pre ++ 0 :: 0 :: 1 :: 0xE0 :: (zlen c + 19) / 256 :: (zlen c + 19) mod 256 ::
     (escape_loop 0 (opt_header_bytes true (SetPtsBits pts)) ++ bcmv_bytes (zlen p) ++ escape_loop 0 c ++ tl)).
  { subst d tl. unfold range_bytes, first_bytes, pes_hdr, bcmv_bytes. fold c. fold cs. rewrite <- !app_assoc. reflexivity. }
  unfold ParseNextPacket.
  assert (BA : BytesAvailable d (zlen pre) =? 0 = false).
  { rewrite ED. rewrite BytesAvailable_app by (rewrite <- ED; exact Hs). rewrite !zlen_cons.
    match goal with |- context [zlen ?l] => pose proof (zlen_nonneg _ l) end. lia. }
  rewrite BA.
  assert (EFS : FindStartCode d (zlen pre) = Some (zlen pre)) by (rewrite ED; apply FindStartCode_here).
  rewrite EFS.
  assert (EPH : ParsePesHeader d (zlen pre) = Val (Some (zlen c + 19, zlen pre + 6))).
  { rewrite ED. rewrite ParsePesHeader_here; [|rewrite <- ED; exact Hs|unfold is_byte; zdm|unfold is_byte; zdm].
    do 2 f_equal. apply f_equal2; [zdm|reflexivity]. }
  rewrite EPH. cbn [obind].
  set (six := [0; 0; 1; 0xE0; (zlen c + 19) / 256; (zlen c + 19) mod 256]).
  assert (ED2 : d = (pre ++ six) ++ escape_loop 0 (opt_header_bytes true (SetPtsBits pts)) ++
                    bcmv_bytes (zlen p) ++ escape_loop 0 c ++ tl).
  { rewrite ED, <- app_assoc. reflexivity. }
  assert (EO : ParsePesOptionalHeader d (zlen pre + 6) = Val (Some (v, zlen pre + 15))).
  { replace (zlen pre + 6) with (zlen (pre ++ six)) by (rewrite zlen_app; reflexivity).
    rewrite ED2, ParseOptional_pts, Hv. cbn [obind]. do 3 f_equal. rewrite zlen_app. change (zlen six) with 6. lia. }
  rewrite EO. cbn [obind].
  set (oh := opt_header_bytes true (SetPtsBits pts)) in *.
  assert (ED3 : d = (pre ++ six ++ oh) ++ bcmv_bytes (zlen p) ++ escape_loop 0 c ++ tl).
  { rewrite ED2. subst oh. rewrite opt_header_escape, <- !app_assoc. reflexivity. }
  assert (EBC : ParseBcmvHeader d (zlen pre + 15) = Val (Some (zlen p + 10, zlen pre + 15 + zlen (bcmv_bytes (zlen p))))).
  { replace (zlen pre + 15) with (zlen (pre ++ six ++ oh)).
    2: { rewrite !zlen_app. change (zlen six) with 6. subst oh. rewrite opt_header_len. lia. }
    rewrite ED3. apply ParseBcmv_here; lia. }
  rewrite EBC. cbn [obind].
  set (pre3 := pre ++ six ++ oh ++ bcmv_bytes (zlen p)).
  assert (ED4 : d = pre3 ++ escape_loop 0 c ++ tl).
  { rewrite ED3. subst pre3. rewrite <- !app_assoc. reflexivity. }
  assert (L3 : zlen pre + 15 + zlen (bcmv_bytes (zlen p)) = zlen pre3).
  { subst pre3. rewrite !zlen_app. change (zlen six) with 6. subst oh. rewrite opt_header_len. lia. }
  rewrite L3.
  replace (wrap64 (zlen p + 10 - 10)) with (zlen p) by (unfold wrap64; rewrite Z.mod_small by lia; lia).
  assert (LD : zlen d = zlen pre3 + zlen (escape_loop 0 c) + zlen tl) by (rewrite ED4, !zlen_app; lia).
  assert (LR : zlen pre + zlen (range_bytes (SetPtsBits pts) p) =
               zlen pre3 + zlen (escape_loop 0 c) + zlen (concat (map (frag_bytes (SetPtsBits pts)) cs))).
  { assert (zlen d = zlen pre + zlen (range_bytes (SetPtsBits pts) p) + zlen rest) by (subst d; rewrite !zlen_app; lia).
    subst tl. rewrite zlen_app in LD. lia. }
  pose proof (zlen_nonneg _ pre3). pose proof (escape_zlen c 0) as LE.
  unfold file_small in Hs. change (2 ^ 31) with 2147483648 in Hs.
  assert (V63 : sint64 v = v) by (unfold sint64; apply wraps_id; [lia|change (2 ^ (64 - 1)) with (2 ^ 63); lia]).
  destruct (zlen p <=? 32768) eqn:EL.
  - (* a single packet *)
    assert (Ecs : cs = []).
    { subst cs. rewrite skipn_all2 by (unfold zlen in *; lia). destruct (length p); reflexivity. }
    assert (Ecp : c = p) by (subst c; apply firstn_big; unfold zlen in *; lia).
    rewrite Ecs, Ecp in *. cbn [map concat app] in *. rewrite zlen_nil in LR.
    pose proof (zlen_nonneg _ tl).
    replace (zlen d <? wrap64 (zlen pre3 + zlen p)) with false by (unfold wrap64; rewrite Z.mod_small by lia; lia).
    replace (IsPayloadFragmented (zlen p + 19) (zlen p + 10)) with false.
    2: { unfold IsPayloadFragmented, wrap64. rewrite Z.mod_small by lia.
         replace (zlen p + 19 - 9 =? zlen p + 10) with true by lia. rewrite andb_false_r. reflexivity. }
    rewrite ED4, RemoveEmulation_here.
    2: { intros ->. unfold zlen in Hp1; cbn in Hp1; lia. }
    2: { apply not_long; exact Hp2. }
    cbn [obind]. rewrite V63. destruct (Khz90TicksToNanoseconds v); [|reflexivity]. cbn [obind].
    do 3 f_equal. lia.
  - (* several packets *)
    assert (NEp : ~ has_escapable p) by exact Hp2.
    assert (Esp : p = c ++ skipn kChunk p) by (symmetry; apply firstn_skipn).
    assert (NEc : ~ has_escapable c).
    { intros HC. apply NEp. rewrite Esp. apply (escapable_sub [] _ _ HC). }
    assert (NEs : ~ has_escapable (skipn kChunk p)).
    { intros HC. apply NEp. rewrite Esp. pose proof (escapable_sub c _ [] HC) as X. rewrite app_nil_r in X. exact X. }
    rewrite (escape_id' c NEc) in *.
    assert (LC : zlen (concat cs) = zlen p - 32768).
    { subst cs. rewrite chunks_concat by (unfold zlen; rewrite skipn_length; lia). unfold zlen in *. rewrite skipn_length. lia. }
    assert (LT : zlen (concat cs) <= zlen tl).
    { subst tl. rewrite zlen_app. pose proof (zlen_nonneg _ rest).
      assert (G : forall l, zlen (concat l) <= zlen (concat (map (frag_bytes (SetPtsBits pts)) l))).
      { induction l as [|x l IHl]; cbn [map concat]; [lia|]. rewrite !zlen_app. unfold frag_bytes at 1.
        rewrite zlen_app. pose proof (escape_zlen x 0). pose proof (zlen_nonneg _ (pes_hdr false (zlen x + 9) (SetPtsBits pts))). lia. }
      specialize (G cs). lia. }
    replace (zlen d <? wrap64 (zlen pre3 + zlen p)) with false by (unfold wrap64; rewrite Z.mod_small by lia; lia).
    replace (IsPayloadFragmented (zlen c + 19) (zlen p + 10)) with true.
    2: { unfold IsPayloadFragmented, wrap64. rewrite Z.mod_small by lia. lia. }
    unfold AccumulateFragmentedPayload.
    replace (wrap64 (zlen c + 19 - 9 - 10)) with (zlen c) by (unfold wrap64; rewrite Z.mod_small by lia; lia).
    pose proof (zlen_nonneg _ tl).
    replace (zlen d <? zlen pre3 + zlen c) with false by lia.
    rewrite ED4 at 3. rewrite skipn_zlen_app.
    replace (firstn (Z.to_nat (zlen c)) (c ++ tl)) with c.
    2: { unfold zlen. rewrite Nat2Z.id, firstn_app, Nat.sub_diag, firstn_all. cbn. rewrite app_nil_r. reflexivity. }
    replace (zlen pre3 + zlen c) with (zlen (pre3 ++ c)) by (rewrite zlen_app; lia).
    assert (ED5 : d = (pre3 ++ c) ++ concat (map (frag_bytes (SetPtsBits pts)) cs) ++ rest).
    { rewrite ED4. subst tl. rewrite <- app_assoc. reflexivity. }
    rewrite ED5 at 2. cbn [app].
    assert (HA := accumulate_here pts cs (length d) (pre3 ++ c) rest c).
    replace (zlen c + zlen (concat cs)) with (zlen p) in HA by lia.
    rewrite HA.
    + cbn [obind]. rewrite V63. destruct (Khz90TicksToNanoseconds v); [|reflexivity]. cbn [obind].
      do 2 f_equal. apply f_equal2.
      * f_equal. subst cs. rewrite chunks_concat by (unfold zlen; rewrite skipn_length; lia). symmetry; exact Esp.
      * rewrite zlen_app. lia.
    + pose proof (chunks_small (length p) (skipn kChunk p)) as S1. fold cs in S1.
      pose proof (chunks_no_esc (length p) (skipn kChunk p) (no_esc _ NEs) NEs) as S2. fold cs in S2.
      rewrite Forall_forall in *. intros x Hx. split; [apply S1|apply S2]; auto.
    + assert (G : forall l : list (list Z), Forall (fun c => 1 <= zlen c <= 32768) l -> Z.of_nat (length l) <= zlen (concat l)).
      { induction l as [|x l IHl]; intros HF; cbn [length concat]; [unfold zlen; cbn; lia|].
        inversion HF as [|? ? HX HY]; subst. rewrite zlen_app. specialize (IHl HY). lia. }
      specialize (G cs (chunks_small _ _)). unfold zlen in *. lia.
    + rewrite <- ED5. unfold file_small. change (2 ^ 31) with 2147483648. lia.
Qed.

(* ---------- statements used by the property file ---------- *)

Lemma Some_inj : forall A (a b : A), Some a = Some b -> a = b.
Proof. intros A a b E. congruence. Qed.

Lemma pts_header_round_trip : forall p, 0 <= p < 2 ^ 33 ->
  (exists h, PesOptionalHeader_Write true (SetPtsBits p) [] = Some h /\
             ParsePesOptionalHeader h 0 = Val (Some (p, 9))) <-> pts_clean p.
Proof.
  intros p Hp. rewrite <- (pts_round_trip_iff p Hp).
  assert (EW : PesOptionalHeader_Write true (SetPtsBits p) [] = Some (opt_header_bytes true (SetPtsBits p))).
  { unfold PesOptionalHeader_Write, CopyAndEscapeStartCodes. rewrite opt_header_escape.
    rewrite opt_header_pts. reflexivity. }
  rewrite EW. clear EW.
  pose proof (ParseOptional_pts [] p []) as E. cbn [app] in E. rewrite app_nil_r in E.
  change (zlen []) with 0 in E. rewrite opt_header_escape in E. split.
  - intros (h & E1 & E2). apply Some_inj in E1. subst h. rewrite E in E2.
    destruct (pts_read p) as [v|]; cbn [obind] in E2; [|discriminate].
    apply Val_inj, Some_inj in E2. f_equal. exact (f_equal fst E2).
  - intros E1. eexists. split; [reflexivity|]. rewrite E, E1. reflexivity.
Qed.

(* header bytes on the wire *)
Lemma pts_wire_iff : forall p, 0 <= p < 2 ^ 33 ->
  opt_header_bytes true (SetPtsBits p) = [0x80; 0x80; 6] ++ pts_field p ++ [0xFF] <->
  Z.land ((p / 2 ^ 22) mod 256) ((p / 2 ^ 7) mod 256) = (p / 2 ^ 22) mod 256.
Proof.
  intros p Hp. rewrite opt_header_pts, <- lor_absorb_iff. unfold pts_stored, pts_field. cbn [app]. split.
  - intros E. exact (f_equal (fun l => nth 6 l 0) E).
  - intros ->. reflexivity.
Qed.

Lemma WritePes_parse : forall pre rest frame pts out,
  payload_ok frame -> 0 <= pts -> pts_clean pts ->
  WritePes false frame pts = Some out -> zlen frame + 10 < 2 ^ 32 ->
  zlen (pre ++ out ++ rest) < 2 ^ 31 ->
  ParseNextPacket (pre ++ out ++ rest) (zlen pre) =
  (olet ns := Khz90TicksToNanoseconds pts in
   Val (Some (mkPesFrame ns pts frame, zlen pre + zlen out))).
Proof.
  intros pre rest frame pts out Hok Hp Hc HW Hl Hs.
  change (2 ^ 32) with 4294967296 in Hl.
  rewrite WritePes_eq in HW; [|destruct Hok; auto|lia]. apply Some_inj in HW. subst out.
  assert (HP : 0 <= pts < 2 ^ 33).
  { destruct Hc as [Hc _]. change (2 ^ 31) with 2147483648 in Hc. change (2 ^ 33) with 8589934592. lia. }
  apply ParseNextPacket_here; auto.
  - apply pts_round_trip_iff; auto.
  - change (2 ^ 33) with 8589934592 in HP. change (2 ^ 63) with 9223372036854775808. lia.
Qed.

(* a stream of frames *)
Inductive parses (d : list Z) : Z -> list (Z * list Z) -> Z -> Prop :=
| parses_nil : forall pos, parses d pos [] pos
| parses_cons : forall pos f pos1 fs pos2,
    ParseNextPacket d pos = Val (Some (f, pos1)) -> parses d pos1 fs pos2 ->
    parses d pos ((pf_ticks f, pf_data f) :: fs) pos2.

Fixpoint write_stream (fs : list (Z * list Z)) : option (list Z) :=
  match fs with
  | [] => Some []
  | (pts, frame) :: fs' =>
      match WritePes false frame pts, write_stream fs' with
      | Some a, Some b => Some (a ++ b)
      | _, _ => None
      end
  end.

Definition frame_ok (f : Z * list Z) : Prop :=
  payload_ok (snd f) /\ zlen (snd f) + 10 < 2 ^ 32 /\ 0 <= fst f /\ pts_clean (fst f) /\
  exists ns, Khz90TicksToNanoseconds (fst f) = Val ns.

Lemma stream_round_trip : forall fs pre out, Forall frame_ok fs ->
  write_stream fs = Some out -> zlen (pre ++ out) < 2 ^ 31 ->
  parses (pre ++ out) (zlen pre) fs (zlen (pre ++ out)).
Proof.
  induction fs as [|(pts & frame) fs IH]; intros pre out HF HW Hs; cbn [write_stream] in HW.
  - injection HW as <-. rewrite app_nil_r. constructor.
  - inversion HF as [|? ? HO HF']; subst. destruct HO as (H1 & H2 & H3 & H4 & ns & H5). cbn [fst snd] in *.
    destruct (WritePes false frame pts) as [a|] eqn:EA; [|discriminate].
    destruct (write_stream fs) as [b|] eqn:EB; [|discriminate]. injection HW as <-.
    pose proof (WritePes_parse pre b frame pts a H1 H3 H4 EA H2 Hs) as EP. rewrite H5 in EP. cbn [obind] in EP.
    apply (parses_cons _ _ (mkPesFrame ns pts frame) (zlen pre + zlen a) fs _ EP).
    rewrite app_assoc in *. rewrite <- zlen_app. apply IH; auto.
Qed.

Lemma WritePes_start_codes : forall frame pts out,
  1 <= zlen frame -> zlen frame + 10 < 2 ^ 32 -> ~ starts_like_code frame ->
  WritePes false frame pts = Some out ->
  exists pkts, out = concat pkts /\
    Forall (fun p => exists b, p = [0; 0; 1; 0xE0] ++ b) pkts /\
    (forall i, start_code_at out i <-> exists k, (k < length pkts)%nat /\ i = zlen (concat (firstn k pkts))).
Proof.
  intros frame pts out H1 H2 H3 HW. change (2 ^ 32) with 4294967296 in H2.
  rewrite WritePes_eq in HW by lia. apply Some_inj in HW. subst out.
  exists (packets (SetPtsBits pts) frame). rewrite <- packets_concat.
  assert (HF : Forall (fun p => exists b, p = [0; 0; 1; 0xE0] ++ b) (packets (SetPtsBits pts) frame)).
  { unfold packets. constructor.
    - unfold first_bytes, pes_hdr. eexists. cbn [app]. reflexivity.
    - rewrite Forall_map. apply Forall_forall. intros c _. unfold frag_bytes, pes_hdr. eexists. cbn [app]. reflexivity. }
  split; [reflexivity|]. split; [exact HF|]. intros i.
  destruct (packets_codes pts frame 0 0 ltac:(lia) H1 H2 H3) as (EP & _). split.
  - intros Hi. apply start_code_in_positions in Hi. rewrite EP in Hi.
    apply in_map_iff in Hi. destruct Hi as (k & Ek & Hk). apply in_seq in Hk.
    exists k. split; [lia|]. unfold offset_of in Ek. lia.
  - intros (k & Hk & ->). set (ps := packets (SetPtsBits pts) frame) in *.
    destruct (nth_error ps k) as [p|] eqn:EN; [|apply nth_error_None in EN; lia].
    assert (ES : concat ps = concat (firstn k ps) ++ p ++ concat (skipn (S k) ps)).
    { rewrite <- (firstn_skipn k ps) at 1. rewrite concat_app. f_equal.
      clear -EN. revert k EN. induction ps as [|x ps IH]; intros [|k] EN; cbn in *; try discriminate.
      - injection EN as <-. reflexivity.
      - apply IH; auto. }
    rewrite Forall_forall in HF. destruct (HF p (nth_error_In _ _ EN)) as (b & ->).
    exists (concat (firstn k ps)), (0xE0 :: b ++ concat (skipn (S k) ps)). split; [|reflexivity].
    rewrite ES. cbn [app]. reflexivity.
Qed.

Lemma well_formed_in_bounds : forall pre frame pts out rest,
  frame_ok (pts, frame) -> WritePes false frame pts = Some out -> zlen (pre ++ out ++ rest) < 2 ^ 31 ->
  ParseNextPacket (pre ++ out ++ rest) (zlen pre) <> UB.
Proof.
  intros pre frame pts out rest (H1 & H2 & H3 & H4 & ns & H5) HW Hs. cbn [fst snd] in *.
  rewrite (WritePes_parse pre rest frame pts out) by auto. rewrite H5. discriminate.
Qed.

Fixpoint list_eqb {A} (eqb : A -> A -> bool) (a b : list A) : bool :=
  match a, b with
  | [], [] => true
  | x :: a', y :: b' => eqb x y && list_eqb eqb a' b'
  | _, _ => false
  end.

Definition frag_check (frame : list Z) : bool :=
  match WritePes false frame 0 with
  | Some out => match ParseNextPacket out 0 with
                | Val (Some (f, pos)) => negb (list_eqb Z.eqb (pf_data f) frame) && negb (has_long 0 frame)
                | _ => false
                end
  | None => false
  end.

Lemma frag_check_sound : forall b, frag_check ([7; 0; 0; 1] ++ b) = true -> exists frame out f pos,
  WritePes false frame 0 = Some out /\ has_escapable frame /\ ~ has_long_zero_run frame /\
  ParseNextPacket out 0 = Val (Some (f, pos)) /\ pf_data f <> frame.
Proof.
  intros b E.
  assert (HE : has_escapable ([7; 0; 0; 1] ++ b)) by (exists [7], b, 1; split; [reflexivity|auto]).
  set (frame := [7; 0; 0; 1] ++ b) in *. clearbody frame. unfold frag_check in E.
  destruct (WritePes false frame 0) as [out|] eqn:E1; [|discriminate].
  destruct (ParseNextPacket out 0) as [[[f pos]|]|] eqn:E2; try discriminate.
  apply andb_prop in E. destruct E as [E E3].
  exists frame, out, f, pos. split; [exact E1|]. split; [exact HE|]. split.
  { intros H. apply has_long_complete in H. rewrite H in E3. discriminate. }
  split; [exact E2|]. intros EQ. rewrite EQ in E.
  assert (R : forall l, list_eqb Z.eqb l l = true).
  { induction l as [|x l IH]; cbn; [reflexivity|]. rewrite Z.eqb_refl. exact IH. }
  rewrite R in E. discriminate.
Qed.

Lemma fragmented_refuted : exists frame out f pos,
  WritePes false frame 0 = Some out /\ has_escapable frame /\ ~ has_long_zero_run frame /\
  ParseNextPacket out 0 = Val (Some (f, pos)) /\ pf_data f <> frame.
Proof.
  apply (frag_check_sound (repeat 7 (Z.to_nat 32800))). vm_cast_no_check (eq_refl true).
Qed.

Lemma unescape_iff : forall pre raw esc rest, raw <> [] ->
  CopyAndEscapeStartCodes raw [] = Some esc ->
  RemoveEmulation (pre ++ esc ++ rest) (zlen pre) (zlen raw) = Val (Some (raw, zlen esc)) <->
  ~ has_long_zero_run raw.
Proof.
  intros pre raw esc rest Hr E. unfold CopyAndEscapeStartCodes in E.
  destruct (zlen raw <? 1); [discriminate|]. apply Some_inj in E. subst esc. cbn [app].
  apply remove_emulation_iff; exact Hr.
Qed.
