(* Reading back segment information and the EBML header. *)
From Coq Require Import ZifyBool ZifyNat Floats.SpecFloat.
From Verif Require Import Base EbmlSpec MFloat Ids MMuxMeta MParUtil MParMeta MetaSpec ReaderSpec ReadBackSpec PParUtil PEbml PParMeta.

Lemma f32_of_bits_mod : forall u, f32_of_bits (u mod 2 ^ 32) = f32_of_bits u.
Proof.
  intros u. unfold f32_of_bits. change (2 ^ 32) with 4294967296.
  replace (u mod 4294967296 / 2147483648 mod 2) with (u / 2147483648 mod 2) by (Z.to_euclidean_division_equations; lia).
  replace (u mod 4294967296 / 8388608 mod 256) with (u / 8388608 mod 256) by (Z.to_euclidean_division_equations; lia).
  replace ((u mod 4294967296) mod 8388608) with (u mod 8388608) by (Z.to_euclidean_division_equations; lia). reflexivity.
Qed.

Lemma nonfinite32_of : forall u, 0 <= u -> positive32 u -> nonfinite32 u = false.
Proof.
  intros u Hu H. unfold nonfinite32. rewrite Z.shiftr_div_pow2 by lia. change 255 with (Z.ones 8) at 1. rewrite Z.land_ones by lia. change (2 ^ 23) with 8388608. change (2 ^ 8) with 256.
  unfold positive32, f32_of_bits in H. destruct (u / 8388608 mod 256 =? 255); [|reflexivity]. destruct (u mod 8388608 =? 0); destruct H as [H|(m & e & H)]; discriminate.
Qed.

Lemma binary_round_sign : forall prec emax s m e, match binary_round prec emax s m e with
  | S754_zero s' | S754_infinity s' | S754_finite s' _ _ => s' = s | S754_nan => True end.
Proof.
  intros prec emax s m e. unfold binary_round. destruct (shl_align m e _) as [mz ez]. unfold binary_round_aux.
  destruct (shr_fexp prec emax (Zpos mz) ez loc_Exact) as [mrs' e']. destruct (shr_fexp prec emax _ e' loc_Exact) as [mrs'' e'']. destruct (shr_m mrs''); [reflexivity| |exact I]. destruct (e'' <=? emax - prec); reflexivity.
Qed.
Lemma positive32_not_negative : forall u, positive32 u -> f64_neg (f64_of_bits32 u) = false.
Proof.
  intros u [H|(m & e & H)]; unfold f64_of_bits32; rewrite H; [reflexivity|]. pose proof (binary_round_sign 53 1024 false m e) as B. unfold f64_neg. destruct (binary_round 53 1024 false m e); subst; try reflexivity.
Qed.

Theorem info_read : forall r i pos bs, readable_info i ->
  encodes_all [info_tree i] bs -> serves r pos bs -> pos + zlen bs <= LLONG_MAX ->
  exists start size, element_at r pos kMkvInfo start size /\ start + size = pos + zlen bs /\
    SegmentInfo_Parse r start size = Val (0, read_info i).
Proof.
  intros r [du mu sc wr da dp] pos bs (Hsc & Hmu & Hwr & Hdu & Hprod) He Hs HL. apply encodes_one in He. destruct (element_content r pos _ bs He Hs HL) as (start & p & H1 & H2 & Hc & Hsp).
  exists start, (zlen p). split; [exact H1|]. split; [exact H2|]. cbn [content info_tree si_timecode_scale si_duration si_date_utc si_muxing_app si_writing_app] in *.
  unfold SegmentInfo_Parse.
  rewrite (walk_payload_trees r ZPass (info_element r) _ p
    ((fun s => mkPI sc (p_duration s) (p_muxing_app s) (p_writing_app s) (p_title s)) ::
     (if f64_pos du then [fun s => mkPI (p_scale s) (f64_of_bits32 (f32_of_f64 du)) (p_muxing_app s) (p_writing_app s) (p_title s)] else []) ++
     (if negb (da =? - 2 ^ 63) then [fun s => s] else []) ++
     (match mu with None => [] | Some b => [fun s => mkPI (p_scale s) (p_duration s) (Some b) (p_writing_app s) (p_title s)] end) ++
     (match wr with None => [] | Some b => [fun s => mkPI (p_scale s) (p_duration s) (p_muxing_app s) (Some b) (p_title s)] end)) start si_init Hc); auto; [| |lia].
  - match goal with |- context [fold_left ?f ?l ?a] => replace (fold_left f l a) with (read_info (MMuxMeta.mkSI du mu sc wr da dp)) end.
    2: { unfold read_info. cbn [si_timecode_scale si_duration si_muxing_app si_writing_app]. destruct (f64_pos du), (negb (da =? - 2 ^ 63)), mu, wr; reflexivity. }
    change (negb (0 =? 0)) with false. cbn iota. change (p_scale (read_info (MMuxMeta.mkSI du mu sc wr da dp))) with sc. change LLONG_MAX with (2 ^ 63 - 1). rewrite Hprod. reflexivity.
  - constructor; [|apply Forall2_app; [|apply Forall2_app; [|apply Forall2_app]]].
    + apply (field_uint r seg_info ZPass (info_element r) kMkvTimecodeScale sc (fun x => x <=? 0) (fun x s => mkPI x (p_duration s) (p_muxing_app s) (p_writing_app s) (p_title s))); try lia. intros q n [a b c d e]. reflexivity.
    + destruct (f64_pos du); [|constructor]. constructor; [|constructor]. intros p' q [a b c d e] Hc' Hs' _. right. split; [auto|]. specialize (Hdu eq_refl).
      cbn [content leaf_payload] in Hc'. set (u := f32_of_f64 du) in *.
      assert (Lp : zlen p' = 4) by (rewrite Hc'; unfold zlen; rewrite be_bytes_length; reflexivity).
      assert (Vp : be_val p' = u mod 2 ^ 32) by (rewrite Hc', be_val_be_bytes; reflexivity).
      assert (Pm : positive32 (u mod 2 ^ 32)) by (unfold positive32; rewrite f32_of_bits_mod; exact Hdu).
      change (info_element r (tid (Leaf kMkvDuration (LFloat u))) q (zlen p') (mkPI a b c d e)) with
        (match ParseFloat r q (zlen p') b with UB => UB | Val (status, x) => if status <? 0 then Val (Ret status (mkPI a x c d e)) else if f64_neg x then Val (Ret E_FILE_FORMAT_INVALID (mkPI a x c d e)) else Val (Next (mkPI a x c d e)) end).
      unfold ParseFloat. rewrite UnserializeFloat_payload; [|rewrite Hc'; apply be_bytes_bytes|auto|exact Hs']. rewrite Lp, Vp. cbn [Z.eqb Pos.eqb].
      rewrite (nonfinite32_of (u mod 2 ^ 32) ltac:(pose proof (Z.mod_pos_bound u (2 ^ 32) ltac:(lia)); lia) Pm). cbn [Z.eqb orb Z.ltb Z.compare]. cbn iota.
      replace (f64_of_bits32 (u mod 2 ^ 32)) with (f64_of_bits32 u) by (unfold f64_of_bits32; rewrite f32_of_bits_mod; reflexivity). rewrite (positive32_not_negative u Hdu). reflexivity.
    + destruct (negb (da =? - 2 ^ 63)); [|constructor]. constructor; [|constructor]. apply field_skipped; [reflexivity|]. intros q n [a b c d e]. reflexivity.
    + destruct mu as [b|]; [|constructor]. constructor; [|constructor]. apply (field_string_any r seg_info (info_element r) kMkvMuxingApp b (fun x s => mkPI (p_scale s) (p_duration s) x (p_writing_app s) (p_title s))); [exact Hmu|]. intros q n [a b' c d e]. reflexivity.
    + destruct wr as [b|]; [|constructor]. constructor; [|constructor]. apply (field_string_any r seg_info (info_element r) kMkvWritingApp b (fun x s => mkPI (p_scale s) (p_duration s) (p_muxing_app s) x (p_title s))); [exact Hwr|]. intros q n [a b' c d e]. reflexivity.
Qed.

Lemma id4 : forall id ib, is_id_bytes id ib -> 2 ^ 28 <= id < 2 ^ 29 -> ib = be_bytes 4 id /\ id_width 4 id.
Proof.
  intros id ib (w & Hw & ->) H. assert (w = 4); [|subst; auto]. destruct Hw as [H1 H2]. assert (w = 1 \/ w = 2 \/ w = 3 \/ w = 4) as [|[|[|]]] by lia; subst; cbn in H2; lia.
Qed.

Theorem header_read : forall r version dt bs, 1 <= version < 2 ^ 63 -> dt <> [] -> zlen dt <= 20000000 ->
  encodes_all [ebml_header_tree version dt] bs -> serves r 0 bs -> r_avail r <= LLONG_MAX ->
  zlen bs <= r_avail r -> r_total r = -1 \/ r_avail r <= r_total r ->
  EBMLHeader_Parse r = Val (0, zlen bs, read_header version dt).
Proof.
  intros r version dt bs Hv Hne Hdt He Hs HA2 HA HT. apply encodes_one in He.
  destruct (encodes_inv _ _ He) as (p & Hc & ib & w & Hib & Hfit & Ea). pose proof Hfit as [Hw Hf2]. cbn [tid ebml_header_tree] in Hib.
  destruct (id4 _ _ Hib ltac:(unfold kMkvEBML; lia)) as [Eib Hid].
  assert (Lib : zlen ib = 4) by (rewrite Eib; reflexivity).
  assert (Lv : zlen (vint w (zlen p)) = w). { unfold vint, zlen. rewrite be_bytes_length. lia. }
  assert (La : zlen bs = 4 + w + zlen p). { rewrite Ea, !zlen_app, Lv, Lib. lia. }
  pose proof (zlen_nonneg _ p) as Hp0. rewrite Ea in Hs.
  assert (Hsi : serves r 0 ib) by exact (serves_app_l _ _ _ _ Hs).
  assert (Hsv : serves r 4 (vint w (zlen p) ++ p)). { apply serves_app_r in Hs. rewrite Lib in Hs. exact Hs. }
  assert (Hsp : serves r (4 + w) p). { apply serves_app_r in Hsv. rewrite Lv in Hsv. exact Hsv. }
  assert (B0 : r_byte r 0 = inr 0x1A). { rewrite Eib in Hsi. apply (serves_byte r 0 0x1A (tl (be_bytes 4 kMkvEBML))). exact Hsi. }
  unfold EBMLHeader_Parse.
  assert (EF : forall n m, 0 < m -> scan_ebml (S n) r 0 m = inr 0).
  { intros n m Hm. cbn [scan_ebml]. rewrite B0. destruct (Z.ltb_spec 0 m); [reflexivity|lia]. }
  assert (ES : scan_ebml 1024 r 0 (if r_avail r >=? 1024 then 1024 else r_avail r) = inr 0).
  { apply (EF 1023%nat). destruct (Z.geb_spec (r_avail r) 1024); lia. }
  rewrite ES. rewrite (ReadID_bytes r 0 4 kMkvEBML Hid) by (rewrite Eib in Hsi; exact Hsi).
  change (kMkvEBML =? E_BUFFER_NOT_FULL) with false. change (negb (4 =? 4) || negb (kMkvEBML =? kMkvEBML)) with false. cbn iota. change (0 + 4) with 4.
  rewrite (GetUIntLength_vint r 4 w (zlen p) p HT Hfit Hsv) by lia.
  change (0 <? 0) with false. change (0 >? 0) with false. cbn iota.
  replace ((w <? 1) || (w >? 8)) with false by lia. replace ((r_total r >=? 0) && (r_total r - 4 <? w)) with false by lia.
  replace (r_avail r - 4 <? w) with false by lia. rewrite (ReadUInt_vint r 4 w (zlen p)) by (try apply (serves_app_l _ _ _ _ Hsv); lia).
  replace (zlen p <? 0) with false by lia. replace ((r_total r >=? 0) && (r_total r - (4 + w) <? zlen p)) with false by lia. replace (r_avail r - (4 + w) <? zlen p) with false by lia.
  cbn [content ebml_header_tree] in Hc.
  rewrite (walk_payload_runs r ZFail (ebml_element r) _ p (4 + w) eh_init (read_header version dt) Hc); auto; [| |unfold LLONG_MAX in *; lia].
  - unfold read_header. cbn [eh_version eh_read_version eh_max_id_length eh_max_size_length eh_doc_type eh_doc_type_version eh_doc_type_read_version].
    change (negb (0 =? 0)) with false. cbn iota. cbn [orb]. change (2 <=? 0) with false. cbn [orb]. replace (version <=? 0) with false by lia. change ((4 <=? 0) || (4 >? 4) || (8 <=? 0) || (8 >? 8)) with false. cbn iota.
    do 3 f_equal. lia.
  - eapply runs_cons. { apply handles_run. apply (field_uint r ebml_header ZFail (ebml_element r) kMkvEBMLVersion 1 (fun x => x <=? 0) (fun x s => mkEH x (eh_read_version s) (eh_max_id_length s) (eh_max_size_length s) (eh_doc_type s) (eh_doc_type_version s) (eh_doc_type_read_version s))); [lia|reflexivity|]. intros q n [a b c d e f g]. reflexivity. }
    eapply runs_cons. { apply handles_run. apply (field_uint r ebml_header ZFail (ebml_element r) kMkvEBMLReadVersion 1 (fun x => x <=? 0) (fun x s => mkEH (eh_version s) x (eh_max_id_length s) (eh_max_size_length s) (eh_doc_type s) (eh_doc_type_version s) (eh_doc_type_read_version s))); [lia|reflexivity|]. intros q n [a b c d e f g]. reflexivity. }
    eapply runs_cons. { apply handles_run. apply (field_uint r ebml_header ZFail (ebml_element r) kMkvEBMLMaxIDLength 4 (fun x => x <=? 0) (fun x s => mkEH (eh_version s) (eh_read_version s) x (eh_max_size_length s) (eh_doc_type s) (eh_doc_type_version s) (eh_doc_type_read_version s))); [lia|reflexivity|]. intros q n [a b c d e f g]. reflexivity. }
    eapply runs_cons. { apply handles_run. apply (field_uint r ebml_header ZFail (ebml_element r) kMkvEBMLMaxSizeLength 8 (fun x => x <=? 0) (fun x s => mkEH (eh_version s) (eh_read_version s) (eh_max_id_length s) x (eh_doc_type s) (eh_doc_type_version s) (eh_doc_type_read_version s))); [lia|reflexivity|]. intros q n [a b c d e f g]. reflexivity. }
    cbn [eh_init eh_version eh_read_version eh_max_id_length eh_max_size_length eh_doc_type eh_doc_type_version eh_doc_type_read_version].
    eapply runs_cons with (s' := mkEH 1 1 4 8 (Some dt) 1 1).
    { intros p' q Hc' Hs' _. cbn [content leaf_payload] in Hc'. subst p'. right. split; [left; exact Hne|].
      change (ebml_element r (tid (Leaf kMkvDocType (LBytes dt))) q (zlen dt) (mkEH 1 1 4 8 None 1 1)) with (string_field r q (zlen dt) (fun x => mkEH 1 1 4 8 x 1 1)).
      unfold string_field. rewrite UnserializeString_payload by assumption. reflexivity. }
    eapply runs_cons. { apply handles_run. apply (field_uint r ebml_header ZFail (ebml_element r) kMkvDocTypeVersion version (fun x => x <=? 0) (fun x s => mkEH (eh_version s) (eh_read_version s) (eh_max_id_length s) (eh_max_size_length s) (eh_doc_type s) x (eh_doc_type_read_version s))); [lia|lia|]. intros q n [a b c d e f g]. reflexivity. }
    eapply runs_cons. { apply handles_run. apply (field_uint r ebml_header ZFail (ebml_element r) kMkvDocTypeReadVersion 2 (fun x => x <=? 0) (fun x s => mkEH (eh_version s) (eh_read_version s) (eh_max_id_length s) (eh_max_size_length s) (eh_doc_type s) (eh_doc_type_version s) x)); [lia|reflexivity|]. intros q n [a b c d e f g]. reflexivity. }
    apply runs_nil.
Qed.

(* ---------- the parsers return ---------- *)

Section Returns.
Context (r : reader) (Hwf : wf_reader r) (Hav : r_avail r <= 2 ^ 62) (Hneg : forall pos len st, r_read r pos len = inl st -> st < 0).

Lemma byte_neg : forall pos st, r_byte r pos = inl st -> st < 0.
Proof. intros pos st H. unfold r_byte in H. destruct (r_read r pos 1) eqn:E; [|discriminate]. injection H as <-. exact (Hneg _ _ _ E). Qed.

Lemma UInt_returns : forall pos size, exists v, UnserializeUInt r pos size = Val v.
Proof.
  intros pos size. unfold UnserializeUInt. destruct (_ || _ || _); [eauto|]. generalize (Z.to_nat size) as n. intros n. generalize 0 as acc. revert pos.
  induction n as [|n IH]; intros pos acc; cbn [UnserializeUInt_loop]; [eauto|]. destruct (r_byte r pos) as [st|b] eqn:E; [|apply IH]. apply byte_neg in E. destruct (Z.ltb_spec st 0); [eauto|lia].
Qed.
Lemma Int_returns : forall pos size, exists v, UnserializeInt r pos size = Val v.
Proof.
  intros pos size. unfold UnserializeInt. destruct (_ || _ || _); [eauto|].
  assert (G : forall n p acc, exists v, UnserializeInt_loop r n p acc = Val v).
  { induction n as [|n IH]; intros p acc; cbn [UnserializeInt_loop]; [eauto|]. destruct (r_byte r p) as [st|b] eqn:E; [|apply IH]. apply byte_neg in E. destruct (Z.ltb_spec st 0); [eauto|lia]. }
  destruct (r_byte r pos) as [st|b] eqn:E; [|apply G]. apply byte_neg in E. destruct (Z.ltb_spec st 0); [eauto|lia].
Qed.
Lemma Float_returns : forall pos size old, exists v, ParseFloat r pos size old = Val v.
Proof.
  intros pos size old. unfold ParseFloat, UnserializeFloat. destruct (_ || _); [eauto|]. destruct (r_read r pos size) as [st|b] eqn:E.
  - apply Hneg in E. destruct (Z.ltb_spec st 0); [eauto|lia].
  - destruct (size =? 4); [destruct (nonfinite32 _)|destruct (nonfinite64 _)]; eauto.
Qed.
Lemma uint_field_returns : forall S pos size bad (set : Z -> S), exists x, uint_field r pos size bad set = Val x.
Proof. intros. unfold uint_field. destruct (UInt_returns pos size) as [v ->]. destruct (bad v); eauto. Qed.
Lemma on_status_returns : forall S st (s : S), exists x, on_status st s = Val x.
Proof. intros. unfold on_status. destruct (st =? 0); eauto. Qed.
Lemma on_negative_returns : forall S st (s : S), exists x, on_negative st s = Val x.
Proof. intros. unfold on_negative. destruct (st <? 0); eauto. Qed.
Lemma string_field_returns : forall S pos size (set : option (list Z) -> S), exists x, string_field r pos size set = Val x.
Proof. intros. unfold string_field. destruct (UnserializeString r pos size). apply on_status_returns. Qed.

Lemma payload_returns : forall S zr (h : Z -> Z -> Z -> S -> outcome (step S)) pos size s,
  (forall id p n s, 0 <= p -> p + n <= LLONG_MAX -> exists x, h id p n s = Val x) -> 0 <= pos -> pos + size <= LLONG_MAX ->
  exists x, walk_payload r zr h pos size s = Val x.
Proof.
  intros S zr h pos size s Hh Hp HL. unfold walk_payload. destruct (Z.gtb_spec (pos + size) LLONG_MAX); [lia|].
  apply walk_returns; auto. lia.
Qed.

Ltac ret1 :=
  match goal with
  | |- exists x, (if ?b then _ else _) = Val x => destruct b
  | |- exists x, Val _ = Val x => eexists; reflexivity
  | |- exists x, string_field _ _ _ _ = Val x => apply string_field_returns
  | |- exists x, uint_field _ _ _ _ _ = Val x => apply uint_field_returns
  | |- exists x, on_negative _ _ = Val x => apply on_negative_returns
  | |- exists x, on_status _ _ = Val x => apply on_status_returns
  | |- exists x, (match UnserializeUInt r ?p ?n with _ => _ end) = Val x => let v := fresh in let E := fresh in destruct (UInt_returns p n) as [v E]; rewrite E
  | |- exists x, (match UnserializeInt r ?p ?n with _ => _ end) = Val x => let v := fresh in let E := fresh in destruct (Int_returns p n) as [[? v] E]; rewrite E
  | |- exists x, (match ParseFloat r ?p ?n ?o with _ => _ end) = Val x => let v := fresh in let E := fresh in destruct (Float_returns p n o) as [[? v] E]; rewrite E
  | |- exists x, (let '(_, _) := UnserializeString ?r ?p ?n in _) = Val x => destruct (UnserializeString r p n)
  end.

Lemma ebml_element_returns : forall id p n s, exists x, ebml_element r id p n s = Val x.
Proof. intros id p n [v rv il sl dt dv drv]. unfold ebml_element. destruct dt; repeat ret1. Qed.
Lemma info_element_returns : forall id p n s, exists x, info_element r id p n s = Val x.
Proof. intros id p n [sc du mu wr ti]. unfold info_element. repeat ret1. Qed.

Lemma SegmentInfo_returns : forall pos size, 0 <= pos -> pos + size <= LLONG_MAX -> exists x, SegmentInfo_Parse r pos size = Val x.
Proof.
  intros pos size Hp HL. unfold SegmentInfo_Parse.
  destruct (payload_returns _ ZPass (info_element r) pos size si_init) as [[st i] ->]; auto using info_element_returns. repeat ret1.
Qed.

Lemma Display_returns : forall pos size, 0 <= pos -> pos + size <= LLONG_MAX -> exists x, Display_Parse r pos size = Val x.
Proof.
  intros pos size Hp HL. apply payload_returns; auto. intros id p n [a b c] _ _. unfold display_element. repeat ret1.
Qed.
Lemma Atom_returns : forall pos size, 0 <= pos -> pos + size <= LLONG_MAX -> exists x, Atom_Parse r pos size = Val x.
Proof.
  intros pos size Hp HL. apply payload_returns; auto. intros id p n [su u b e ds] P1 P2. unfold atom_element.
  destruct (id =? kMkvChapterDisplay); [|repeat ret1]. destruct (Display_returns p n P1 P2) as [[? ?] ->]. repeat ret1.
Qed.
Lemma Edition_returns : forall pos size, 0 <= pos -> pos + size <= LLONG_MAX -> exists x, Edition_Parse r pos size = Val x.
Proof.
  intros pos size Hp HL. apply payload_returns; auto. intros id p n l P1 P2. unfold edition_element.
  destruct (id =? kMkvChapterAtom); [|repeat ret1]. destruct (Atom_returns p n P1 P2) as [[? ?] ->]. repeat ret1.
Qed.
Lemma Chapters_returns : forall pos size, 0 <= pos -> pos + size <= LLONG_MAX -> exists x, Chapters_Parse r pos size = Val x.
Proof.
  intros pos size Hp HL. apply payload_returns; auto. intros id p n l P1 P2. unfold chapters_element.
  destruct (id =? kMkvEditionEntry); [|repeat ret1]. destruct (Edition_returns p n P1 P2) as [[? ?] ->]. repeat ret1.
Qed.
Lemma SimpleTag_returns : forall pos size, 0 <= pos -> pos + size <= LLONG_MAX -> exists x, SimpleTag_Parse r pos size = Val x.
Proof.
  intros pos size Hp HL. apply payload_returns; auto. intros id p n [a b] _ _. unfold simple_tag_element. repeat ret1.
Qed.
Lemma Tag_returns : forall pos size, 0 <= pos -> pos + size <= LLONG_MAX -> exists x, Tag_Parse r pos size = Val x.
Proof.
  intros pos size Hp HL. apply payload_returns; auto. intros id p n l P1 P2. unfold tag_element.
  destruct (id =? kMkvSimpleTag); [|repeat ret1]. destruct (SimpleTag_returns p n P1 P2) as [[? ?] ->]. repeat ret1.
Qed.
Lemma Tags_returns : forall pos size, 0 <= pos -> pos + size <= LLONG_MAX -> exists x, Tags_Parse r pos size = Val x.
Proof.
  intros pos size Hp HL. apply payload_returns; auto. intros id p n l P1 P2. unfold tags_element.
  destruct (id =? kMkvTag); [|repeat ret1]. destruct (Tag_returns p n P1 P2) as [[? ?] ->]. repeat ret1.
Qed.

Lemma scan_range : forall fuel pos max p, scan_ebml fuel r pos max = inr p -> 0 <= pos -> pos <= p /\ p <= Z.max pos max.
Proof.
  induction fuel as [|fuel IH]; intros pos max p H Hp; cbn [scan_ebml] in H; [injection H as <-; lia|].
  destruct (Z.ltb_spec pos max); [|injection H as <-; lia].
  destruct (r_byte r pos); [destruct (_ <? 0); discriminate|]. destruct (_ =? 0x1A); [injection H as <-; lia|].
  apply IH in H; lia.
Qed.
Lemma EBMLHeader_returns : exists x, EBMLHeader_Parse r = Val x.
Proof.
  unfold EBMLHeader_Parse. cbv zeta. set (mx := if r_avail r >=? 1024 then 1024 else r_avail r).
  assert (Hmx : mx <= 1024) by (unfold mx; destruct (Z.geb_spec (r_avail r) 1024); lia).
  destruct (scan_ebml _ r 0 mx) as [st|pos] eqn:E; [eauto|]. apply scan_range in E; [|lia].
  destruct (ReadID r pos) as [eid len]. repeat ret1.
  destruct (GetUIntLength r (pos + 4)) as [res len2] eqn:E2. do 5 ret1; try (eexists; reflexivity).
  destruct (ReadUInt r (pos + 4)) as [res3 len3] eqn:E3. destruct (Z.ltb_spec res3 0); [eauto|]. do 2 ret1; try (eexists; reflexivity).
  apply ReadUInt_range in E3; auto; [|lia]. destruct E3 as [|(L1 & L2 & L3)]; [lia|].
  assert (2 ^ (7 * len3) <= 2 ^ 56) by (apply Z.pow_le_mono_r; lia).
  destruct (payload_returns _ ZFail (ebml_element r) (pos + 4 + len3) res3 eh_init) as [[st e] ->]; auto using ebml_element_returns; try (unfold LLONG_MAX; lia).
  repeat ret1.
Qed.
End Returns.
