(* Reading back the tracks. *)
From Coq Require Import ZifyBool ZifyNat Floats.SpecFloat.
From Verif Require Import Base EbmlSpec MFloat Ids MMuxMeta MParUtil MParMeta MParTrack MetaSpec ReaderSpec ReadBackSpec ReadTrackSpec PParUtil PEbml PParMeta PParMeta2 PParDur PParFloat.

(* ---------- single fields ---------- *)

Section Runs.
Context (r : reader) {S : Type} (h : Z -> Z -> Z -> S -> outcome (step S)).

Lemma runs_one : forall zr t s s', handles_at r zr h t s s' -> runs r zr h [t] s s'.
Proof. intros zr t s s' H. econstructor; [exact H|constructor]. Qed.
Lemma runs_skip : forall t s, (forall q n, h (tid t) q n s = Val (Next s)) -> runs r ZPass h [t] s s.
Proof. intros t s H. apply runs_one. intros p q _ _ _. right. split; [auto|apply H]. Qed.
Lemma runs_opt : forall zr b t s s', (b = true -> runs r zr h [t] s s') -> (b = false -> s = s') -> runs r zr h (opt b t) s s'.
Proof. intros zr [|] t s s' H1 H2; cbn [opt]; [auto|]. rewrite (H2 eq_refl). constructor. Qed.
Lemma runs_uint : forall (set : Z -> S) id v bad old, 0 <= v < 2 ^ 63 -> bad v = false ->
  (forall q n, h id q n (set old) = uint_field r q n bad set) -> runs r ZPass h [uint id v] (set old) (set v).
Proof.
  intros set id v bad old Hv Hb Hh. apply runs_one. intros p q [Hc _] Hs _. right. split; [auto|]. cbn [tid uint]. rewrite Hh. unfold uint_field.
  rewrite (UnserializeUInt_payload _ _ _ _ Hc Hs), sint64_small by (change (2 ^ 63) with 9223372036854775808 in Hv; lia). rewrite Hb. reflexivity.
Qed.
Lemma runs_unsigned : forall (set : Z -> S) id v bad err old, 0 <= v < 2 ^ 64 -> bad v = false ->
  (forall q n, h id q n (set old) = unsigned_field r q n bad err set) -> runs r ZPass h [uint id v] (set old) (set v).
Proof.
  intros set id v bad err old Hv Hb Hh. apply runs_one. intros p q [Hc _] Hs _. right. split; [auto|]. cbn [tid uint]. rewrite Hh. unfold unsigned_field.
  rewrite (UnserializeUInt_payload _ _ _ _ Hc Hs).
  assert (E : wrap64 (sint64 v) = v). { unfold wrap64, sint64, wraps. rewrite (Z.mod_small v) by lia. destruct (v <? 2 ^ (64 - 1)); [apply Z.mod_small; lia|]. change (2 ^ 64) with 18446744073709551616 in *. replace (v - 18446744073709551616) with (v + (-1) * 18446744073709551616) by lia. rewrite Z_mod_plus_full. apply Z.mod_small. lia. }
  rewrite E, Hb. reflexivity.
Qed.
Lemma runs_str : forall (set : option (list Z) -> S) id o, short o ->
  (forall q n, h id q n (set None) = string_field r q n set) -> runs r ZPass h (str id o) (set None) (set o).
Proof.
  intros set id [b|] Hl Hh; cbn [str]; [|constructor]. apply runs_one. intros p q Hc Hs _. cbn [content leaf_payload] in Hc. subst p. right. split; [auto|].
  cbn [tid]. rewrite Hh. unfold string_field. rewrite UnserializeString_payload by assumption. reflexivity.
Qed.
(* an unsigned number that may be absent *)
Lemma runs_pos : forall (set : Z -> S) id v bad, 0 <= v < 2 ^ 63 -> (0 < v -> bad v = false) ->
  (forall q n, h id q n (set 0) = uint_field r q n bad set) -> runs r ZPass h (opt (0 <? v) (uint id v)) (set 0) (set v).
Proof.
  intros set id v bad Hv Hb Hh. apply runs_opt; intros E.
  - eapply runs_uint; eauto. apply Hb. lia.
  - f_equal. lia.
Qed.
Lemma runs_number : forall (set : Z -> S) id v, readable_number v -> 0 <= v < 2 ^ 64 ->
  (forall q n, h id q n (set LLONG_MAX) = uint_field r q n (fun x => x <? 0) set) -> runs r ZPass h (colour_field id v) (set LLONG_MAX) (set (read_number v)).
Proof.
  intros set id v Hv Hu Hh. unfold colour_field, read_number. destruct (Z.eqb_spec v (2 ^ 64 - 1)); cbn [negb opt]; [constructor|].
  destruct Hv as [Hv|Hv]; [contradiction|]. apply (runs_uint set id v (fun x => x <? 0) LLONG_MAX); [lia|lia|exact Hh].
Qed.
Lemma runs_master : forall zr id kids s s', (zr = ZPass \/ kids <> []) ->
  (forall p q, encodes_all kids p -> serves r q p -> q + zlen p <= LLONG_MAX -> h id q (zlen p) s = Val (Next s')) ->
  runs r zr h [Master id kids] s s'.
Proof.
  intros zr id kids s s' Hz Hh. apply runs_one. intros p q Hc Hs HL. cbn [content tid] in *. right. split; [|auto].
  destruct Hz as [->|Hz]; [auto|]. left. intros ->. destruct kids; [contradiction|]. exact (encodes_all_nonempty _ _ Hc).
Qed.
(* several of a kind *)
Lemma runs_list : forall zr (X : Type) (tr : X -> tree) (st : list X -> S) l, (forall l1 x l2, l = l1 ++ x :: l2 -> runs r zr h [tr x] (st l1) (st (l1 ++ [x]))) ->
  runs r zr h (map tr l) (st []) (st l).
Proof.
  intros zr X tr st l H. assert (G : forall l2 l1, l = l1 ++ l2 -> runs r zr h (map tr l2) (st l1) (st l)).
  { induction l2 as [|x l2 IH]; intros l1 E; cbn [map]; [rewrite app_nil_r in E; subst l1; constructor|].
    change (tr x :: map tr l2) with ([tr x] ++ map tr l2). eapply runs_app; [apply (H l1 x l2 E)|]. apply IH. rewrite <- app_assoc. exact E. }
  apply G. reflexivity.
Qed.
End Runs.
Arguments runs_app {S r zr h a b}.

Lemma any_false : forall v, any v = false.
Proof. reflexivity. Qed.

(* ---------- content encodings ---------- *)

Definition key_of (c : content_encoding) : list Z := match ce_key_id c with Some k => k | None => [] end.
Lemma key_present : forall c, encoding_valid c = true -> ce_key_id c = Some (key_of c) /\ key_of c <> [].
Proof. intros c H. unfold encoding_valid, nonempty_buf in H. unfold key_of. destruct (ce_key_id c) as [[|x k]|]; try discriminate H. split; [reflexivity|discriminate]. Qed.

Definition enc_u64 (c : content_encoding) : Prop := is_u64 (ce_order c) /\ is_u64 (ce_scope c) /\ is_u64 (ce_type c).
Lemma encoding_u64 : forall c, values_ok (encoding_tree c) -> enc_u64 c.
Proof. intros c (_ & (_ & A) & (_ & B) & (_ & C) & _). split; [exact A|split; [exact B|exact C]]. Qed.

Lemma aes_parse : forall r p q m, encodes_all [uint kMkvAESSettingsCipherMode 1] p -> serves r q p -> q + zlen p <= LLONG_MAX ->
  AESSettings_Parse r q (zlen p) m = Val (0, 1).
Proof.
  intros r p q m He Hs HL. unfold AESSettings_Parse. apply (walk_payload_runs r ZPass (aes_element r) _ p q m 1 He); auto.
  apply (runs_unsigned r (aes_element r) (fun x => x) _ 1 (fun x => negb (x =? 1)) E_FILE_FORMAT_INVALID m); [lia|reflexivity|]. reflexivity.
Qed.
Lemma alloc_ok : forall b : list Z, b <> [] -> zlen b <= 2 ^ 31 -> alloc_fails (zlen b) = false.
Proof. intros b Hb Hl. unfold alloc_fails. destruct b; [contradiction|]. rewrite zlen_cons in *. pose proof (zlen_nonneg _ b). change (2 ^ 31) with 2147483648 in Hl. lia. Qed.

Lemma encryption_parse : forall r c p q, readable_encoding c -> encoding_valid c = true ->
  encodes_all (uint kMkvContentEncAlgo (ce_enc_algo c) :: str kMkvContentEncKeyID (ce_key_id c) ++ [Master kMkvContentEncAESSettings [uint kMkvAESSettingsCipherMode (ce_cipher_mode c)]]) p ->
  serves r q p -> q + zlen p <= LLONG_MAX ->
  Encryption_Parse r q (zlen p) = Val (0, mkPEnc (ce_enc_algo c) (ce_key_id c) None None 0 0 (ce_cipher_mode c)).
Proof.
  intros r c p q (Ha & Hm & _ & Hk) Hv He Hs HL. destruct (key_present c Hv) as [Ek Nk]. rewrite Ha, Hm, Ek in *. cbn [str app] in He.
  set (k := key_of c) in *. unfold Encryption_Parse. apply (walk_payload_runs r ZPass (encryption_element r) _ p q _ _ He); auto.
  change [uint kMkvContentEncAlgo 5; Leaf kMkvContentEncKeyID (LBytes k); Master kMkvContentEncAESSettings [uint kMkvAESSettingsCipherMode 1]]
    with ([uint kMkvContentEncAlgo 5] ++ [Leaf kMkvContentEncKeyID (LBytes k)] ++ [Master kMkvContentEncAESSettings [uint kMkvAESSettingsCipherMode 1]]).
  apply (runs_app _ (mkPEnc 5 None None None 0 0 1)).
  { apply (runs_unsigned r (encryption_element r) (fun x => mkPEnc x None None None 0 0 1) _ 5 (fun x => negb (x =? 5)) E_FILE_FORMAT_INVALID 0); [lia|reflexivity|reflexivity]. }
  apply (runs_app _ (mkPEnc 5 (Some k) None None 0 0 1)).
  - apply runs_one. intros p' q' Hc Hs' _. cbn [content leaf_payload] in Hc. subst p'. right. split; [auto|]. cbn [tid].
    change (encryption_element r kMkvContentEncKeyID q' (zlen k) (mkPEnc 5 None None None 0 0 1)) with (binary_field r q' (zlen k) (mkPEnc 5 None None None 0 0 1) (fun b => mkPEnc 5 (Some b) None None 0 0 1)).
    unfold binary_field. rewrite alloc_ok, (serves_read _ _ _ Hs') by assumption.
    destruct (Z.leb_spec (zlen k) 0) as [L|_]; [|reflexivity]. exfalso. clear -L Nk. destruct k; [contradiction|]. rewrite zlen_cons in L. pose proof (zlen_nonneg _ k). lia.
  - apply runs_master; [auto|]. intros p' q' He' Hs' HL'.
    change (encryption_element r kMkvContentEncAESSettings q' (zlen p') (mkPEnc 5 (Some k) None None 0 0 1)) with
      (match AESSettings_Parse r q' (zlen p') 1 with UB => UB | Val (status, m) => on_status status (mkPEnc 5 (Some k) None None 0 0 m) end).
    rewrite (aes_parse r p' q' 1 He' Hs' HL'). reflexivity.
Qed.

Lemma encoding_parse : forall r c p q, readable_encoding c -> encoding_valid c = true -> enc_u64 c ->
  content (encoding_tree c) p -> serves r q p -> q + zlen p <= LLONG_MAX ->
  Encoding_Parse r q (zlen p) = Val (0, read_encoding c).
Proof.
  intros r c p q Hr Hv (U1 & U2 & U3) He Hs HL. cbn [content encoding_tree] in He. unfold Encoding_Parse, is_u64 in *.
  rewrite (walk_payload_runs r ZPass count_two _ p q (0, 0) (0, 1) He); auto.
  2: { match goal with |- runs _ _ _ [?a; ?b; ?c; ?d] _ _ => change [a; b; c; d] with ([a] ++ [b] ++ [c] ++ [d]) end.
       do 3 (apply (runs_app _ (0, 0)); [apply runs_skip; reflexivity|]). apply runs_master; [auto|reflexivity]. }
  change (negb (0 =? 0)) with false. change ((0 <=? 0) && (1 <=? 0)) with false. cbn iota.
  apply (walk_payload_runs r ZPass (encoding_element r) _ p q _ _ He); auto. unfold read_encoding.
  match goal with |- runs _ _ _ [?a; ?b; ?c; ?d] _ _ => change [a; b; c; d] with ([a] ++ [b] ++ [c] ++ [d]) end.
  apply (runs_app _ (mkPEd [] [] (ce_order c) 1 0)).
  { apply (runs_unsigned r (encoding_element r) (fun x => mkPEd [] [] x 1 0) _ (ce_order c) any 0 0); [lia|reflexivity|reflexivity]. }
  apply (runs_app _ (mkPEd [] [] (ce_order c) (ce_scope c) 0)).
  { apply (runs_unsigned r (encoding_element r) (fun x => mkPEd [] [] (ce_order c) x 0) _ (ce_scope c) (fun x => x <? 1) (-1) 1); [lia| |reflexivity]. destruct Hr as (_ & _ & Hr & _). lia. }
  apply (runs_app _ (mkPEd [] [] (ce_order c) (ce_scope c) (ce_type c))).
  { apply (runs_unsigned r (encoding_element r) (fun x => mkPEd [] [] (ce_order c) (ce_scope c) x) _ (ce_type c) any 0 0); [lia|reflexivity|reflexivity]. }
  apply runs_master; [auto|]. intros p' q' He' Hs' HL'.
  match goal with |- encoding_element r kMkvContentEncryption ?q ?n (mkPEd ?a ?b ?c ?d ?e) = _ => change (encoding_element r kMkvContentEncryption q n (mkPEd a b c d e)) with
    (match Encryption_Parse r q n with UB => UB | Val (status, x) => if status =? 0 then Val (Next (mkPEd a (b ++ [x]) c d e)) else Val (Ret status (mkPEd a b c d e)) end) end.
  rewrite (encryption_parse r c p' q' Hr Hv He' Hs' HL'). reflexivity.
Qed.

Lemma zlen_snoc : forall (A : Type) (l : list A) x, zlen (l ++ [x]) = zlen l + 1.
Proof. intros. rewrite zlen_app, zlen_cons, zlen_nil. lia. Qed.

(* counting *)
Lemma count_runs : forall r zr (X : Type) (tr : X -> tree) id l, (forall x, tid (tr x) = id) -> (zr = ZPass \/ forall x, In x l -> ~ content (tr x) []) -> zlen l < 2 ^ 31 ->
  runs r zr (count_element id) (map tr l) 0 (zlen l).
Proof.
  intros r zr X tr id l Hid Hz Hl. apply (runs_list r (count_element id) zr X tr (fun l => zlen l) l). intros l1 x l2 E. apply runs_one. intros p q Hc _ _. right. split.
  - destruct Hz as [->|Hz]; [auto|]. left. intros ->. apply (Hz x); [rewrite E; apply in_elt|exact Hc].
  - unfold count_element. rewrite Hid, Z.eqb_refl, zlen_snoc. rewrite E, zlen_app, zlen_cons in Hl. pose proof (zlen_nonneg _ l2). change (2 ^ 31) with 2147483648 in Hl.
    destruct (Z.gtb_spec (zlen l1 + 1) 2147483647); [lia|reflexivity].
Qed.

Lemma encodings_parse : forall r l p q, l <> [] -> Forall readable_encoding l -> zlen l < 2 ^ 31 -> forallb encoding_valid l = true -> (forall c, In c l -> enc_u64 c) ->
  encodes_all (map encoding_tree l) p -> serves r q p -> q + zlen p <= LLONG_MAX ->
  Encodings_Parse r q (zlen p) = Val (0, map read_encoding l).
Proof.
  intros r l p q Hne Hr Hn Hv Hu He Hs HL. unfold Encodings_Parse.
  rewrite (walk_payload_runs r ZPass (count_element kMkvContentEncoding) _ p q 0 (zlen l) He); auto.
  2: { apply count_runs; auto. }
  change (negb (0 =? 0)) with false. cbn iota. destruct (Z.leb_spec (zlen l) 0) as [L|_].
  { exfalso. destruct l; [contradiction|]. rewrite zlen_cons in L. pose proof (zlen_nonneg _ l). lia. }
  apply (walk_payload_runs r ZPass (encodings_element r) _ p q [] _ He); auto.
  apply (runs_list r (encodings_element r) ZPass _ encoding_tree (fun l => map read_encoding l) l). intros l1 c l2 E. apply runs_one. intros p' q' Hc Hs' HL'. right. split; [auto|].
  assert (In c l) by (rewrite E; apply in_elt). rewrite Forall_forall in Hr. rewrite forallb_forall in Hv.
  change (encodings_element r (tid (encoding_tree c)) q' (zlen p') (map read_encoding l1)) with
    (match Encoding_Parse r q' (zlen p') with UB => UB | Val (status, e) => if status =? 0 then Val (Next (map read_encoding l1 ++ [e])) else Val (Ret status (map read_encoding l1)) end).
  rewrite (encoding_parse r c p' q' (Hr c H) (Hv c H) (Hu c H) Hc Hs' HL'), map_app. reflexivity.
Qed.

(* ---------- floats ---------- *)

Lemma plain_range : forall u, plain_float u -> 0 <= u < 0x7F800000.
Proof. intros u [->|H]; lia. Qed.
Lemma finite_pattern : forall u, 0 <= u < 2 ^ 32 -> u mod 2 ^ 31 < 0x7F800000 -> nonfinite32 u = false.
Proof.
  intros u Hu H. unfold nonfinite32. rewrite Z.shiftr_div_pow2 by lia. change 255 with (Z.ones 8) at 1. rewrite Z.land_ones by lia. change (2 ^ 23) with 8388608. change (2 ^ 8) with 256. change (2 ^ 31) with 2147483648 in H. change (2 ^ 32) with 4294967296 in Hu.
  apply Z.eqb_neq. clear -Hu H. Z.to_euclidean_division_equations. lia.
Qed.
Lemma float_parse : forall r u p q old, 0 <= u < 2 ^ 32 -> nonfinite32 u = false -> content (Leaf 0 (LFloat u)) p -> serves r q p ->
  ParseFloat r q (zlen p) old = Val (0, f64_of_bits32 u).
Proof.
  intros r u p q old Hu Hf Hc Hs. cbn [content leaf_payload] in Hc.
  assert (Lp : zlen p = 4) by (rewrite Hc; unfold zlen; rewrite be_bytes_length; reflexivity).
  assert (Vp : be_val p = u) by (rewrite Hc, be_val_be_bytes; apply Z.mod_small; exact Hu).
  unfold ParseFloat. rewrite UnserializeFloat_payload; [|rewrite Hc; apply be_bytes_bytes|auto|exact Hs]. rewrite Lp, Vp. cbn [Z.eqb Pos.eqb]. rewrite Hf. reflexivity.
Qed.

Lemma zero_bits : d_zero = f64_of_bits32 0.
Proof. reflexivity. Qed.
Lemma one_bits : d_one = f64_of_bits32 0x3F800000.
Proof. vm_compute. reflexivity. Qed.
Lemma neg_max : forall x v, norm53 x v -> f64_lt x (SFopp FLT_MAX) = false.
Proof. intros x v [[-> _]|(m & e & -> & _)]; reflexivity. Qed.
Lemma plain_checked : forall u, plain_float u -> f64_lt d_zero (f64_of_bits32 u) && f64_lt (f64_of_bits32 u) FLT_MIN = false.
Proof.
  intros u Hu. pose proof (plain_range u Hu). unfold f64_lt, FLT_MIN. rewrite zero_bits, !lt_bits32 by lia. destruct Hu as [->|Hu]; [reflexivity|]. lia.
Qed.
Lemma plain_is_float : forall u, plain_float u -> not_a_float (f64_of_bits32 u) = false.
Proof.
  intros u Hu. pose proof (plain_range u Hu). unfold not_a_float. rewrite (neg_max _ _ (norm_bits32 u ltac:(lia))), plain_checked by assumption. unfold f64_lt, FLT_MAX. rewrite lt_bits32 by lia. lia.
Qed.
Lemma le_limit : forall lim v u c, norm53 lim v -> 0 <= u <= c -> c < 0x7F800000 -> pval c <= v -> f64_lt lim (f64_of_bits32 u) = false.
Proof.
  intros lim v u c Hl Hu Hc Hv. unfold f64_lt, SFltb. rewrite (compare53 _ _ _ _ Hl (norm_bits32 u ltac:(lia))).
  assert (pval u <= pval c). { destruct (Z.eq_dec u c) as [->|]; [lia|]. apply Z.lt_le_incl, pval_lt; lia. }
  destruct (Z.compare_spec v (pval u)); [reflexivity|lia|reflexivity].
Qed.

Lemma pose_is_float : forall u, readable_pose u -> not_a_float (f64_of_bits32 u) = false.
Proof.
  intros u [Hu Hp]. pose proof (plain_range _ Hp) as Hr. change (2 ^ 32) with 4294967296 in Hu. destruct (Z.lt_ge_cases u (2 ^ 31)) as [L|L].
  - rewrite Z.mod_small in Hp by lia. apply plain_is_float. exact Hp.
  - assert (E : u = u mod 2 ^ 31 + 2 ^ 31). { change (2 ^ 31) with 2147483648 in *. clear -Hu L. Z.to_euclidean_division_equations. lia. }
    rewrite E. set (w := u mod 2 ^ 31) in *. clearbody w. clear E L Hu u.
    assert (F : nonfinite32 w = false) by (apply finite_pattern; [lia|rewrite Z.mod_small; lia]).
    rewrite bits32_opp by (lia || exact F). unfold not_a_float, f64_lt, SFltb. rewrite compare_opp.
    pose proof (norm_bits32 w ltac:(lia)) as N. unfold FLT_MAX at 1. rewrite compare_bits32 by lia.
    destruct N as [[-> _]|(m & e & -> & _)].
    + destruct (Z.compare_spec w 0x7F7FFFFF); cbn [CompOpp]; [reflexivity|reflexivity|lia].
    + destruct (Z.compare_spec w 0x7F7FFFFF); cbn [CompOpp]; [reflexivity|reflexivity|lia].
Qed.

Section Settings.
Context (r : reader).

Lemma chroma_parse : forall u p q is_x c, plain_float u -> u <= 0x3F800000 -> leaf_payload (LFloat u) p -> serves r q p ->
  Chromaticity_Parse r q (zlen p) is_x c =
    Val (Some (let '(x, y) := match c with None => (0, 0) | Some c => c end in if is_x then (u, y) else (x, u))).
Proof.
  intros u p q is_x c Hp Hu Hc Hs. pose proof (plain_range u Hp). unfold Chromaticity_Parse.
  assert (F : nonfinite32 u = false) by (apply finite_pattern; [lia|rewrite Z.mod_small; lia]).
  rewrite (float_parse r u p q d_zero ltac:(lia) F Hc Hs). rewrite plain_checked by assumption. unfold f64_lt. rewrite one_bits, zero_bits, !lt_bits32 by lia.
  replace (u <? 0) with false by lia. replace (0x3F800000 <? u) with false by lia. cbn [Z.ltb Z.compare orb]. cbn iota. rewrite narrow_widen by (lia || exact F).
  destruct (match c with None => (0, 0) | Some c => c end). destruct is_x; reflexivity.
Qed.
Lemma luminance_parse : forall u lim v p q c, norm53 lim v -> pval c <= v -> c < 0x7F800000 -> plain_float u -> u <= c -> leaf_payload (LFloat u) p -> serves r q p ->
  Luminance_Parse r q (zlen p) lim = Val (Some u).
Proof.
  intros u lim v p q c Hl Hv Hc0 Hp Hu Hc Hs. pose proof (plain_range u Hp). unfold Luminance_Parse.
  assert (F : nonfinite32 u = false) by (apply finite_pattern; [lia|rewrite Z.mod_small; lia]).
  rewrite (float_parse r u p q d_zero ltac:(lia) F Hc Hs). rewrite plain_is_float by assumption. cbn iota. rewrite narrow_widen by (lia || exact F).
  rewrite (le_limit lim v u c Hl ltac:(lia) Hc0 Hv). unfold f64_lt. rewrite zero_bits, lt_bits32 by lia. replace (u <? 0) with false by lia. reflexivity.
Qed.

Lemma runs_chroma : forall (set : option chroma -> p_mastering) x_id y_id c, readable_chroma c ->
  (forall q n cr, mastering_element r x_id q n (set cr) = on_some (Chromaticity_Parse r q n true cr) (set cr) (fun c => set (Some c))) ->
  (forall q n cr, mastering_element r y_id q n (set cr) = on_some (Chromaticity_Parse r q n false cr) (set cr) (fun c => set (Some c))) ->
  runs r ZPass (mastering_element r) (chroma_trees c x_id y_id) (set None) (set c).
Proof.
  intros set x_id y_id [[x y]|] Hc Hx Hy; cbn [chroma_trees]; [|constructor]. destruct Hc as (H1 & H2 & H3 & H4).
  apply (runs_cons r ZPass _ _ _ _ (set (Some (x, 0)))); [|apply runs_one].
  - intros p q Hp Hs _. right. split; [auto|]. cbn [tid]. rewrite Hx, (chroma_parse x p q true None H1 H2 Hp Hs). reflexivity.
  - intros p q Hp Hs _. right. split; [auto|]. cbn [tid]. rewrite Hy, (chroma_parse y p q false _ H3 H4 Hp Hs). reflexivity.
Qed.
Lemma runs_lum : forall (set : Z -> p_mastering) id lim v c u, norm53 lim v -> pval c <= v -> c < 0x7F800000 ->
  (lum_present u = true -> plain_float u /\ u <= c) ->
  (forall q n, mastering_element r id q n (set 0x7F7FFFFF) = on_some (Luminance_Parse r q n lim) (set 0x7F7FFFFF) set) ->
  runs r ZPass (mastering_element r) (opt (lum_present u) (Leaf id (LFloat u))) (set 0x7F7FFFFF) (set (read_luminance u)).
Proof.
  intros set id lim v c u Hl Hv Hc Hu Hh. unfold read_luminance. destruct (lum_present u); cbn [opt]; [|constructor]. destruct (Hu eq_refl) as [H1 H2].
  apply runs_one. intros p q Hp Hs _. right. split; [auto|]. cbn [tid]. rewrite Hh, (luminance_parse u lim v p q c Hl Hv Hc H1 H2 Hp Hs). reflexivity.
Qed.

Definition v_9999_99 : Z := Eval vm_compute in match d_9999_99 with S754_finite _ m e => Zpos m * 2 ^ (e + 1100) | _ => 0 end.
Definition v_999_9999 : Z := Eval vm_compute in match d_999_9999 with S754_finite _ m e => Zpos m * 2 ^ (e + 1100) | _ => 0 end.
Lemma norm_9999_99 : norm53 d_9999_99 v_9999_99 /\ pval 0x461C3FF5 <= v_9999_99.
Proof.
  split; [right; exists 5497552641321861%positive, (-39); split; [vm_compute; reflexivity|split; [lia|split; [lia|vm_compute; reflexivity]]]|].
  apply Z.leb_le. vm_compute. reflexivity.
Qed.
Lemma norm_999_9999 : norm53 d_999_9999 v_999_9999 /\ pval 0x4479FF5C <= v_999_9999.
Proof.
  split; [right; exists 8796092142598698%positive, (-43); split; [vm_compute; reflexivity|split; [lia|split; [lia|vm_compute; reflexivity]]]|].
  apply Z.leb_le. vm_compute. reflexivity.
Qed.

Lemma mastering_parse : forall m p q, readable_mastering m -> encodes_all (mastering_kids m) p -> serves r q p -> q + zlen p <= LLONG_MAX ->
  MasteringMetadata_Parse r q (zlen p) = Val (true, read_mastering m).
Proof.
  intros [mx mn cr cg cb cw] p q (H1 & H2 & H3 & H4 & H5 & H6) He Hs HL. unfold mastering_kids in He. cbn [mm_luminance_max mm_luminance_min mm_r mm_g mm_b mm_white] in *.
  unfold MasteringMetadata_Parse, as_bool. unfold read_mastering. cbn [mm_luminance_max mm_luminance_min mm_r mm_g mm_b mm_white].
  rewrite (walk_payload_runs r ZPass (mastering_element r) _ p q pm_init (mkPM (read_luminance mx) (read_luminance mn) cr cg cb cw) He); auto.
  unfold pm_init. destruct norm_9999_99 as [N1 N2]. destruct norm_999_9999 as [N3 N4].
  apply (runs_app _ (mkPM (read_luminance mx) 0x7F7FFFFF None None None None)).
  { apply (runs_lum (fun x => mkPM x 0x7F7FFFFF None None None None) _ d_9999_99 v_9999_99 0x461C3FF5 mx N1 N2 ltac:(lia) H1). reflexivity. }
  apply (runs_app _ (mkPM (read_luminance mx) (read_luminance mn) None None None None)).
  { apply (runs_lum (fun x => mkPM (read_luminance mx) x None None None None) _ d_999_9999 v_999_9999 0x4479FF5C mn N3 N4 ltac:(lia) H2). reflexivity. }
  apply (runs_app _ (mkPM (read_luminance mx) (read_luminance mn) cr None None None)).
  { apply (runs_chroma (fun x => mkPM (read_luminance mx) (read_luminance mn) x None None None)); [exact H3|reflexivity|reflexivity]. }
  apply (runs_app _ (mkPM (read_luminance mx) (read_luminance mn) cr cg None None)).
  { apply (runs_chroma (fun x => mkPM (read_luminance mx) (read_luminance mn) cr x None None)); [exact H4|reflexivity|reflexivity]. }
  apply (runs_app _ (mkPM (read_luminance mx) (read_luminance mn) cr cg cb None)).
  { apply (runs_chroma (fun x => mkPM (read_luminance mx) (read_luminance mn) cr cg x None)); [exact H5|reflexivity|reflexivity]. }
  apply (runs_chroma (fun x => mkPM (read_luminance mx) (read_luminance mn) cr cg cb x)); [exact H6|reflexivity|reflexivity].
Qed.

Definition colour_u64 (c : colour) : Prop :=
  Forall is_u64 [co_matrix_coefficients c; co_bits_per_channel c; co_chroma_subsampling_horz c; co_chroma_subsampling_vert c; co_cb_subsampling_horz c; co_cb_subsampling_vert c; co_chroma_siting_horz c; co_chroma_siting_vert c; co_range c; co_transfer_characteristics c; co_primaries c; co_max_cll c; co_max_fall c].

Lemma colour_parse : forall c p q, readable_colour c -> colour_u64 c -> colour_kids c <> [] -> encodes_all (colour_kids c) p -> serves r q p -> q + zlen p <= LLONG_MAX ->
  exists x, Colour_Parse r q (zlen p) = Val (true, x) /\ read_colour c = Some x.
Proof.
  intros c p q Hr Hu Hne He Hs HL.
  assert (E : exists x, read_colour c = Some x) by (unfold read_colour; destruct (colour_kids c); [contradiction|eauto]). destruct E as [x E]. exists x. split; [|exact E].
  unfold Colour_Parse, as_bool.
  rewrite (walk_payload_runs r ZPass (colour_element r) _ p q pc_init x He); auto.
  assert (X : x = mkPC (read_number (co_matrix_coefficients c)) (read_number (co_bits_per_channel c))
        (read_number (co_chroma_subsampling_horz c)) (read_number (co_chroma_subsampling_vert c))
        (read_number (co_cb_subsampling_horz c)) (read_number (co_cb_subsampling_vert c))
        (read_number (co_chroma_siting_horz c)) (read_number (co_chroma_siting_vert c))
        (read_number (co_range c)) (read_number (co_transfer_characteristics c)) (read_number (co_primaries c))
        (read_number (co_max_cll c)) (read_number (co_max_fall c))
        (match co_mastering c with
         | None => None
         | Some m => match mastering_kids m with [] => None | _ => Some (read_mastering m) end
         end)).
  { unfold read_colour in E. destruct (colour_kids c); [discriminate E|]. injection E as <-. reflexivity. }
  rewrite X. clear E X Hne He Hs HL. unfold colour_kids. unfold readable_colour in Hr. unfold colour_u64 in Hu.
  destruct c as [v0 v1 v2 v3 v4 v5 v6 v7 v8 v9 v10 v11 v12 mm].
  cbn [co_matrix_coefficients co_bits_per_channel co_chroma_subsampling_horz co_chroma_subsampling_vert co_cb_subsampling_horz co_cb_subsampling_vert co_chroma_siting_horz co_chroma_siting_vert co_range co_transfer_characteristics co_primaries co_max_cll co_max_fall co_mastering] in *.
  destruct Hr as (R0 & R1 & R2 & R3 & R4 & R5 & R6 & R7 & R8 & R9 & R10 & R11 & R12 & Rm).
  assert (U : forall v, In v [v0; v1; v2; v3; v4; v5; v6; v7; v8; v9; v10; v11; v12] -> 0 <= v < 2 ^ 64) by (intros v Hv; rewrite Forall_forall in Hu; exact (Hu v Hv)).
  unfold pc_init.
  apply (runs_app _ (mkPC  (read_number v0) LLONG_MAX LLONG_MAX LLONG_MAX LLONG_MAX LLONG_MAX LLONG_MAX LLONG_MAX LLONG_MAX LLONG_MAX LLONG_MAX LLONG_MAX LLONG_MAX None)); [apply (runs_number r (colour_element r) (fun x => mkPC  x LLONG_MAX LLONG_MAX LLONG_MAX LLONG_MAX LLONG_MAX LLONG_MAX LLONG_MAX LLONG_MAX LLONG_MAX LLONG_MAX LLONG_MAX LLONG_MAX None) kMkvMatrixCoefficients v0); [assumption|apply U; cbn [In]; tauto|reflexivity]|].
  apply (runs_app _ (mkPC (read_number v0) (read_number v1) LLONG_MAX LLONG_MAX LLONG_MAX LLONG_MAX LLONG_MAX LLONG_MAX LLONG_MAX LLONG_MAX LLONG_MAX LLONG_MAX LLONG_MAX None)); [apply (runs_number r (colour_element r) (fun x => mkPC (read_number v0) x LLONG_MAX LLONG_MAX LLONG_MAX LLONG_MAX LLONG_MAX LLONG_MAX LLONG_MAX LLONG_MAX LLONG_MAX LLONG_MAX LLONG_MAX None) kMkvBitsPerChannel v1); [assumption|apply U; cbn [In]; tauto|reflexivity]|].
  apply (runs_app _ (mkPC (read_number v0) (read_number v1) (read_number v2) LLONG_MAX LLONG_MAX LLONG_MAX LLONG_MAX LLONG_MAX LLONG_MAX LLONG_MAX LLONG_MAX LLONG_MAX LLONG_MAX None)); [apply (runs_number r (colour_element r) (fun x => mkPC (read_number v0) (read_number v1) x LLONG_MAX LLONG_MAX LLONG_MAX LLONG_MAX LLONG_MAX LLONG_MAX LLONG_MAX LLONG_MAX LLONG_MAX LLONG_MAX None) kMkvChromaSubsamplingHorz v2); [assumption|apply U; cbn [In]; tauto|reflexivity]|].
  apply (runs_app _ (mkPC (read_number v0) (read_number v1) (read_number v2) (read_number v3) LLONG_MAX LLONG_MAX LLONG_MAX LLONG_MAX LLONG_MAX LLONG_MAX LLONG_MAX LLONG_MAX LLONG_MAX None)); [apply (runs_number r (colour_element r) (fun x => mkPC (read_number v0) (read_number v1) (read_number v2) x LLONG_MAX LLONG_MAX LLONG_MAX LLONG_MAX LLONG_MAX LLONG_MAX LLONG_MAX LLONG_MAX LLONG_MAX None) kMkvChromaSubsamplingVert v3); [assumption|apply U; cbn [In]; tauto|reflexivity]|].
  apply (runs_app _ (mkPC (read_number v0) (read_number v1) (read_number v2) (read_number v3) (read_number v4) LLONG_MAX LLONG_MAX LLONG_MAX LLONG_MAX LLONG_MAX LLONG_MAX LLONG_MAX LLONG_MAX None)); [apply (runs_number r (colour_element r) (fun x => mkPC (read_number v0) (read_number v1) (read_number v2) (read_number v3) x LLONG_MAX LLONG_MAX LLONG_MAX LLONG_MAX LLONG_MAX LLONG_MAX LLONG_MAX LLONG_MAX None) kMkvCbSubsamplingHorz v4); [assumption|apply U; cbn [In]; tauto|reflexivity]|].
  apply (runs_app _ (mkPC (read_number v0) (read_number v1) (read_number v2) (read_number v3) (read_number v4) (read_number v5) LLONG_MAX LLONG_MAX LLONG_MAX LLONG_MAX LLONG_MAX LLONG_MAX LLONG_MAX None)); [apply (runs_number r (colour_element r) (fun x => mkPC (read_number v0) (read_number v1) (read_number v2) (read_number v3) (read_number v4) x LLONG_MAX LLONG_MAX LLONG_MAX LLONG_MAX LLONG_MAX LLONG_MAX LLONG_MAX None) kMkvCbSubsamplingVert v5); [assumption|apply U; cbn [In]; tauto|reflexivity]|].
  apply (runs_app _ (mkPC (read_number v0) (read_number v1) (read_number v2) (read_number v3) (read_number v4) (read_number v5) (read_number v6) LLONG_MAX LLONG_MAX LLONG_MAX LLONG_MAX LLONG_MAX LLONG_MAX None)); [apply (runs_number r (colour_element r) (fun x => mkPC (read_number v0) (read_number v1) (read_number v2) (read_number v3) (read_number v4) (read_number v5) x LLONG_MAX LLONG_MAX LLONG_MAX LLONG_MAX LLONG_MAX LLONG_MAX None) kMkvChromaSitingHorz v6); [assumption|apply U; cbn [In]; tauto|reflexivity]|].
  apply (runs_app _ (mkPC (read_number v0) (read_number v1) (read_number v2) (read_number v3) (read_number v4) (read_number v5) (read_number v6) (read_number v7) LLONG_MAX LLONG_MAX LLONG_MAX LLONG_MAX LLONG_MAX None)); [apply (runs_number r (colour_element r) (fun x => mkPC (read_number v0) (read_number v1) (read_number v2) (read_number v3) (read_number v4) (read_number v5) (read_number v6) x LLONG_MAX LLONG_MAX LLONG_MAX LLONG_MAX LLONG_MAX None) kMkvChromaSitingVert v7); [assumption|apply U; cbn [In]; tauto|reflexivity]|].
  apply (runs_app _ (mkPC (read_number v0) (read_number v1) (read_number v2) (read_number v3) (read_number v4) (read_number v5) (read_number v6) (read_number v7) (read_number v8) LLONG_MAX LLONG_MAX LLONG_MAX LLONG_MAX None)); [apply (runs_number r (colour_element r) (fun x => mkPC (read_number v0) (read_number v1) (read_number v2) (read_number v3) (read_number v4) (read_number v5) (read_number v6) (read_number v7) x LLONG_MAX LLONG_MAX LLONG_MAX LLONG_MAX None) kMkvRange v8); [assumption|apply U; cbn [In]; tauto|reflexivity]|].
  apply (runs_app _ (mkPC (read_number v0) (read_number v1) (read_number v2) (read_number v3) (read_number v4) (read_number v5) (read_number v6) (read_number v7) (read_number v8) (read_number v9) LLONG_MAX LLONG_MAX LLONG_MAX None)); [apply (runs_number r (colour_element r) (fun x => mkPC (read_number v0) (read_number v1) (read_number v2) (read_number v3) (read_number v4) (read_number v5) (read_number v6) (read_number v7) (read_number v8) x LLONG_MAX LLONG_MAX LLONG_MAX None) kMkvTransferCharacteristics v9); [assumption|apply U; cbn [In]; tauto|reflexivity]|].
  apply (runs_app _ (mkPC (read_number v0) (read_number v1) (read_number v2) (read_number v3) (read_number v4) (read_number v5) (read_number v6) (read_number v7) (read_number v8) (read_number v9) (read_number v10) LLONG_MAX LLONG_MAX None)); [apply (runs_number r (colour_element r) (fun x => mkPC (read_number v0) (read_number v1) (read_number v2) (read_number v3) (read_number v4) (read_number v5) (read_number v6) (read_number v7) (read_number v8) (read_number v9) x LLONG_MAX LLONG_MAX None) kMkvPrimaries v10); [assumption|apply U; cbn [In]; tauto|reflexivity]|].
  apply (runs_app _ (mkPC (read_number v0) (read_number v1) (read_number v2) (read_number v3) (read_number v4) (read_number v5) (read_number v6) (read_number v7) (read_number v8) (read_number v9) (read_number v10) (read_number v11) LLONG_MAX None)); [apply (runs_number r (colour_element r) (fun x => mkPC (read_number v0) (read_number v1) (read_number v2) (read_number v3) (read_number v4) (read_number v5) (read_number v6) (read_number v7) (read_number v8) (read_number v9) (read_number v10) x LLONG_MAX None) kMkvMaxCLL v11); [assumption|apply U; cbn [In]; tauto|reflexivity]|].
  apply (runs_app _ (mkPC (read_number v0) (read_number v1) (read_number v2) (read_number v3) (read_number v4) (read_number v5) (read_number v6) (read_number v7) (read_number v8) (read_number v9) (read_number v10) (read_number v11) (read_number v12)  None)); [apply (runs_number r (colour_element r) (fun x => mkPC (read_number v0) (read_number v1) (read_number v2) (read_number v3) (read_number v4) (read_number v5) (read_number v6) (read_number v7) (read_number v8) (read_number v9) (read_number v10) (read_number v11) x  None) kMkvMaxFALL v12); [assumption|apply U; cbn [In]; tauto|reflexivity]|].
  destruct mm as [m|]; [|constructor]. destruct (mastering_kids m) as [|t ts] eqn:Ek; [constructor|]. cbn [nonempty_master]. apply runs_master; [auto|]. intros p' q' He' Hs' HL'.
  match goal with |- colour_element r kMkvMasteringMetadata ?q ?n (mkPC ?a ?b ?c ?d ?e ?f ?g ?h ?i ?j ?k ?l ?m None) = _ => change (colour_element r kMkvMasteringMetadata q n (mkPC a b c d e f g h i j k l m None)) with
    (match MasteringMetadata_Parse r q n with UB => UB | Val (ok, x) => if ok then Val (Next (mkPC a b c d e f g h i j k l m (Some x))) else Val (Ret (-1) (mkPC a b c d e f g h i j k l m None)) end) end.
  rewrite <- Ek in He'. rewrite (mastering_parse m p' q' Rm He' Hs' HL'). reflexivity.
Qed.
End Settings.
