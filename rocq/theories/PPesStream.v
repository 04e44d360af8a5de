(* Whole PES packets: their layout, their start codes, and reading them back. *)
From Coq Require Import ZifyBool ZifyNat.
From Verif Require Import Base MFloat MPes PesSpec PPes PPesPts.

(* ---------- layout ---------- *)

(* 32768 as a nat that does not unfold *)
Lemma kChunk_sig : {n : nat | Z.of_nat n = 32768}.
Proof. exists (Z.to_nat 32768). reflexivity. Qed.
Definition kChunk : nat := proj1_sig kChunk_sig.
Lemma kChunk_z : Z.of_nat kChunk = 32768.
Proof. exact (proj2_sig kChunk_sig). Qed.
Global Opaque kChunk.

(* packet header; n is the value of the length field *)
Definition pes_hdr (wp : bool) (n bits : Z) : list Z :=
  [0; 0; 1; 0xE0; n / 256; n mod 256] ++ escape_loop 0 (opt_header_bytes wp bits).

Definition bcmv6 (len : Z) : list Z :=
  [(len + 10) / 16777216 mod 256; (len + 10) / 65536 mod 256; (len + 10) / 256 mod 256; (len + 10) mod 256; 0; 0].

Fixpoint chunks (fuel : nat) (l : list Z) : list (list Z) :=
  match l with
  | [] => []
  | _ => match fuel with
         | O => []
         | S f => firstn kChunk l :: chunks f (skipn kChunk l)
         end
  end.

Definition frag_bytes (bits : Z) (c : list Z) : list Z :=
  pes_hdr false (zlen c + 9) bits ++ escape_loop 0 c.

(* the PES packets of one payload *)
Definition first_bytes (bits : Z) (p : list Z) : list Z :=
  let c := firstn kChunk p in
  pes_hdr true (zlen c + 19) bits ++ [66; 67; 77; 86] ++ escape_loop 0 (bcmv6 (zlen p)) ++ escape_loop 0 c.

Definition range_bytes (bits : Z) (p : list Z) : list Z :=
  first_bytes bits p ++ concat (map (frag_bytes bits) (chunks (length p) (skipn kChunk p))).

Lemma shr8_255 : forall n, 0 <= n < 65536 -> Z.land (Z.shiftr n 8) 0xff = n / 256.
Proof. intros. rewrite land_255, shiftr_div by lia. change (2 ^ 8) with 256. zdm. Qed.

Lemma opt_header_len : forall wp bits, zlen (opt_header_bytes wp bits) = 9.
Proof. intros [|] bits; reflexivity. Qed.

Lemma PesHeader_Write_eq : forall wp n bits buf, 0 <= n <= 32778 ->
  PesHeader_Write wp n bits buf = Some (buf ++ pes_hdr wp (n + 9) bits).
Proof.
  intros wp n bits buf Hn. unfold PesHeader_Write, wrap16. rewrite Z.mod_small by lia.
  replace (65535 <? n + 9) with false by lia.
  unfold PesOptionalHeader_Write, CopyAndEscapeStartCodes. rewrite opt_header_len. cbn [Z.ltb Z.compare Pos.compare Pos.compare_cont].
  rewrite shr8_255, land_255 by lia. unfold pes_hdr. rewrite <- !app_assoc. reflexivity.
Qed.

Lemma copy_escape_eq : forall raw buf, raw <> [] ->
  CopyAndEscapeStartCodes raw buf = Some (buf ++ escape_loop 0 raw).
Proof.
  intros raw buf H. unfold CopyAndEscapeStartCodes.
  destruct raw as [|b raw]; [congruence|]. rewrite zlen_cons. pose proof (zlen_nonneg _ raw).
  replace (1 + zlen raw <? 1) with false by lia. reflexivity.
Qed.

Lemma BCMV_Write_eq : forall len buf, 0 <= len -> len + 10 < 4294967296 ->
  BCMVHeader_Write len buf = Some (buf ++ [66; 67; 77; 86] ++ escape_loop 0 (bcmv6 len)).
Proof.
  intros len buf H1 H2. unfold BCMVHeader_Write, wrap32. rewrite Z.mod_small by lia.
  rewrite copy_escape_eq by discriminate. rewrite !land_255, !shiftr_div by lia.
  rewrite <- app_assoc. reflexivity.
Qed.

Lemma chunks_fuel : forall f l, zlen l <= Z.of_nat f -> forall f', (f <= f')%nat -> chunks f l = chunks f' l.
Proof.
  pose proof kChunk_z as KC.
  induction f as [|f IH]; intros l Hl f' Hf.
  - destruct l; [destruct f'; reflexivity|]. rewrite zlen_cons in Hl. pose proof (zlen_nonneg _ l); lia.
  - destruct f' as [|f']; [lia|]. destruct l as [|b l]; [reflexivity|].
    cbn [chunks]. f_equal. apply IH; [|lia].
    unfold zlen in *. rewrite skipn_length. cbn [length] in *. lia.
Qed.

Lemma firstn_app_le : forall A n (a b : list A), (n <= length a)%nat -> firstn n (a ++ b) = firstn n a.
Proof. intros. rewrite firstn_app. replace (n - length a)%nat with O by lia. cbn. apply app_nil_r. Qed.

Lemma skipn_app_le : forall A n (a b : list A), (n <= length a)%nat -> skipn n (a ++ b) = skipn n a ++ b.
Proof. intros. rewrite skipn_app. replace (n - length a)%nat with O by lia. reflexivity. Qed.

Lemma firstn_big : forall A n (l : list A), (length l <= n)%nat -> firstn n l = l.
Proof. intros. apply firstn_all2. lia. Qed.

Lemma write_fragments_eq : forall fuel bits r1 r2 buf, zlen r1 <= Z.of_nat fuel ->
  write_fragments fuel bits (zlen r1) (r1 ++ r2) buf =
  Some (buf ++ concat (map (frag_bytes bits) (chunks fuel r1))).
Proof.
  pose proof kChunk_z as KC.
  induction fuel as [|fuel IH]; intros bits r1 r2 buf Hf.
  - destruct r1 as [|b r1]; [|rewrite zlen_cons in Hf; pose proof (zlen_nonneg _ r1); lia].
    cbn. rewrite app_nil_r. reflexivity.
  - destruct r1 as [|b r1]; [cbn; rewrite app_nil_r; reflexivity|].
    set (l := b :: r1) in *.
    assert (Hpos : 0 < zlen l) by (subst l; rewrite zlen_cons; pose proof (zlen_nonneg _ r1); lia).
    assert (EC : chunks (S fuel) l = firstn kChunk l :: chunks fuel (skipn kChunk l)) by reflexivity.
    rewrite EC. cbn [write_fragments]. replace (zlen l =? 0) with false by lia.
    unfold kMaxPayloadSize. set (n := Z.min 32768 (zlen l)).
    assert (EF : firstn (Z.to_nat n) (l ++ r2) = firstn kChunk l).
    { subst n. destruct (Z_le_dec 32768 (zlen l)).
      - rewrite Z.min_l by lia. replace (Z.to_nat 32768) with kChunk by lia.
        rewrite firstn_app_le by (unfold zlen in *; lia). reflexivity.
      - rewrite Z.min_r by lia. rewrite firstn_app_le by (unfold zlen; lia).
        rewrite !firstn_big by (unfold zlen in *; lia). reflexivity. }
    assert (ES : skipn (Z.to_nat n) (l ++ r2) = skipn kChunk l ++ r2).
    { subst n. destruct (Z_le_dec 32768 (zlen l)).
      - rewrite Z.min_l by lia. replace (Z.to_nat 32768) with kChunk by lia. rewrite skipn_app_le by (unfold zlen in *; lia). reflexivity.
      - rewrite Z.min_r by lia. rewrite skipn_app_le by (unfold zlen; lia).
        rewrite !skipn_all2 by (unfold zlen in *; lia). reflexivity. }
    assert (EL : zlen (firstn kChunk l) = n).
    { subst n. unfold zlen. rewrite firstn_length. lia. }
    assert (EM : zlen l - n = zlen (skipn kChunk l)).
    { subst n. unfold zlen. rewrite skipn_length. lia. }
    assert (NE : firstn kChunk l <> []).
    { intros E. rewrite E in EL. unfold zlen in EL at 1. cbn in EL. lia. }
    rewrite PesHeader_Write_eq by lia. rewrite EF, ES, EM.
    rewrite copy_escape_eq by exact NE.
    rewrite IH by (unfold zlen in *; rewrite skipn_length; lia).
    cbn [map concat].
    assert (EFR : frag_bytes bits (firstn kChunk l) = pes_hdr false (n + 9) bits ++ escape_loop 0 (firstn kChunk l))
      by (unfold frag_bytes; rewrite EL; reflexivity).
    rewrite EFR, <- !app_assoc. reflexivity.
Qed.

(* the bytes of the range r of the frame *)
Definition slice (frame : list Z) (r : range) : list Z :=
  firstn (Z.to_nat (rg_length r)) (skipn (Z.to_nat (rg_offset r)) frame).

Definition range_ok (frame : list Z) (r : range) : Prop :=
  0 <= rg_offset r /\ 1 <= rg_length r /\ rg_offset r + rg_length r <= zlen frame /\
  rg_length r + 10 < 4294967296.

Lemma slice_zlen : forall frame r, range_ok frame r -> zlen (slice frame r) = rg_length r.
Proof.
  intros frame r (H1 & H2 & H3 & H4). unfold slice, zlen in *. rewrite firstn_length, skipn_length. lia.
Qed.

Lemma write_range_eq : forall frame bits r buf, range_ok frame r ->
  write_range frame bits r buf = Some (buf ++ range_bytes bits (slice frame r)).
Proof.
  pose proof kChunk_z as KC.
  intros frame bits r buf H. pose proof (slice_zlen _ _ H) as HL.
  destruct H as (H1 & H2 & H3 & H4). unfold write_range.
  replace (zlen frame <? rg_length r + rg_offset r) with false by lia.
  unfold kMaxPayloadSize.
  set (extra := if 32768 <? rg_length r then rg_length r - 32768 else 0).
  assert (HE : rg_length r - extra = Z.min 32768 (rg_length r)).
  { subst extra. destruct (32768 <? rg_length r) eqn:E; lia. }
  rewrite HE, PesHeader_Write_eq by lia.
  unfold wrap32. rewrite Z.mod_small by lia. rewrite BCMV_Write_eq by lia.
  set (payload := skipn (Z.to_nat (rg_offset r)) frame).
  set (p := slice frame r) in *.
  assert (EP : payload = p ++ skipn (Z.to_nat (rg_length r)) payload).
  { subst p payload. unfold slice. symmetry. apply firstn_skipn. }
  set (n := Z.min 32768 (rg_length r)).
  assert (EF : firstn (Z.to_nat n) payload = firstn kChunk p).
  { rewrite EP. subst n. destruct (Z_le_dec 32768 (rg_length r)).
    - rewrite Z.min_l by lia. replace (Z.to_nat 32768) with kChunk by lia. rewrite firstn_app_le by (unfold zlen in *; lia). reflexivity.
    - rewrite Z.min_r by lia. rewrite firstn_app_le by (unfold zlen in *; lia).
      rewrite !firstn_big by (unfold zlen in *; lia). reflexivity. }
  assert (ES : skipn (Z.to_nat n) payload = skipn kChunk p ++ skipn (Z.to_nat (rg_length r)) payload).
  { rewrite EP at 1. subst n. destruct (Z_le_dec 32768 (rg_length r)).
    - rewrite Z.min_l by lia. replace (Z.to_nat 32768) with kChunk by lia. rewrite skipn_app_le by (unfold zlen in *; lia). reflexivity.
    - rewrite Z.min_r by lia. rewrite skipn_app_le by (unfold zlen in *; lia).
      rewrite !(skipn_all2 p) by (unfold zlen in *; lia). reflexivity. }
  assert (EL : zlen (firstn kChunk p) = n).
  { subst n. unfold zlen in *. rewrite firstn_length. lia. }
  assert (EM : extra = zlen (skipn kChunk p)).
  { unfold zlen in *. rewrite skipn_length. lia. }
  rewrite EF, ES.
  rewrite copy_escape_eq.
  2: { intros E. rewrite E in EL. unfold zlen in EL at 1. cbn in EL. lia. }
  rewrite EM. rewrite write_fragments_eq by lia.
  unfold range_bytes, first_bytes. rewrite EL, HL.
  rewrite (chunks_fuel _ (skipn kChunk p)) with (f' := length p).
  - rewrite <- !app_assoc. replace (n + 10 + 9) with (n + 19) by lia. reflexivity.
  - lia.
  - unfold zlen. rewrite skipn_length. lia.
Qed.

Lemma write_ranges_eq : forall frame bits rs buf, Forall (range_ok frame) rs ->
  write_ranges frame bits rs buf = Some (buf ++ concat (map (fun r => range_bytes bits (slice frame r)) rs)).
Proof.
  induction rs as [|r rs IH]; intros buf H; cbn [write_ranges map concat].
  - rewrite app_nil_r. reflexivity.
  - inversion H as [|? ? H1 H2]; subst. rewrite write_range_eq, IH by auto. rewrite <- app_assoc. reflexivity.
Qed.

Lemma write_range_some : forall frame bits r buf out, 0 <= rg_offset r -> 0 <= rg_length r ->
  zlen frame + 10 < 4294967296 ->
  write_range frame bits r buf = Some out -> range_ok frame r.
Proof.
  intros frame bits r buf out Ho Hl Hf H. unfold write_range in H.
  destruct (zlen frame <? rg_length r + rg_offset r) eqn:E; [discriminate|].
  unfold range_ok. destruct (Z.eq_dec (rg_length r) 0) as [E0|]; [exfalso|lia].
  rewrite E0 in H. cbn [Z.ltb] in H. replace (kMaxPayloadSize <? 0) with false in H by reflexivity.
  destruct (PesHeader_Write _ _ _ _); [|discriminate]. destruct (BCMVHeader_Write _ _); discriminate.
Qed.

Lemma WritePes_eq : forall frame pts, 1 <= zlen frame -> zlen frame + 10 < 4294967296 ->
  WritePes false frame pts = Some (range_bytes (SetPtsBits pts) frame).
Proof.
  intros frame pts H1 H2. unfold WritePes. replace (zlen frame <? 1) with false by lia.
  cbn [frame_ranges]. rewrite write_ranges_eq.
  - cbn [map concat app]. rewrite app_nil_r. unfold slice. cbn [rg_length rg_offset Z.to_nat skipn].
    unfold zlen. rewrite Nat2Z.id, firstn_all. reflexivity.
  - constructor; [|constructor]. unfold range_ok. cbn. lia.
Qed.

(* ---------- start codes ---------- *)

Definition no_two_zeros_tail (l : list Z) : Prop := forall nz, tail_nz nz l <= 1 \/ has_sc nz l = true.

Lemma pts_stored_odd : forall p, exists a b c d e, pts_stored p = [a; b; c; d; e] /\
  0 < a < 256 /\ 0 < c < 256 /\ 0 < e < 256 /\ 0 <= b < 256 /\ 0 <= d < 256 /\ Z.odd c = true /\ Z.odd e = true /\ Z.odd a = true.
Proof.
  intros p. unfold pts_stored.
  assert (HD : 0 <= Z.lor ((p / 2 ^ 7) mod 256) ((p / 2 ^ 22) mod 256) < 2 ^ 8)
    by (apply lor_bound; try lia; apply Z.mod_pos_bound; lia).
  change (2 ^ 8) with 256 in HD.
  do 5 eexists. split; [reflexivity|].
  pose proof (Z.mod_pos_bound (p / 2 ^ 30) 8 ltac:(lia)).
  pose proof (Z.mod_pos_bound (p / 2 ^ 22) 256 ltac:(lia)).
  pose proof (Z.mod_pos_bound (p / 2 ^ 15) 128 ltac:(lia)).
  pose proof (Z.mod_pos_bound p 128 ltac:(lia)).
  repeat split; try lia; rewrite Z.odd_add_mul_2; reflexivity.
Qed.

(* the optional header never needs escaping *)
Lemma opt_header_esc : forall wp pts,
  has_esc 0 (opt_header_bytes wp (SetPtsBits pts)) = false /\
  has_long 0 (opt_header_bytes wp (SetPtsBits pts)) = false.
Proof.
  intros [|] pts; [|split; reflexivity].
  rewrite opt_header_pts. destruct (pts_stored_odd pts) as (a & b & c & d & e & -> & Ha & Hc & He & Hb & Hd & _).
  cbn [app has_esc has_long]. cbn [Z.eqb Z.leb andb orb Z.compare Pos.compare Pos.compare_cont].
  replace (a =? 0) with false by lia. replace (c =? 0) with false by lia. replace (e =? 0) with false by lia.
  destruct (b =? 0), (d =? 0); cbn; split; reflexivity.
Qed.

Lemma opt_header_escape : forall wp pts,
  escape_loop 0 (opt_header_bytes wp (SetPtsBits pts)) = opt_header_bytes wp (SetPtsBits pts).
Proof. intros. apply escape_id. apply opt_header_esc. Qed.

(* start codes of a concatenation, located *)
Fixpoint sc_positions (i nz : Z) (l : list Z) : list Z :=
  match l with
  | [] => []
  | b :: l' => if b =? 0 then sc_positions (i + 1) (nz + 1) l'
               else if (2 <=? nz) && (b =? 1) then (i - 2) :: sc_positions (i + 1) 0 l'
               else sc_positions (i + 1) 0 l'
  end.

Lemma sc_positions_app : forall a b i nz,
  sc_positions i nz (a ++ b) = sc_positions i nz a ++ sc_positions (i + zlen a) (tail_nz nz a) b.
Proof.
  induction a as [|x a IH]; intros b i nz; cbn [app sc_positions tail_nz].
  - rewrite zlen_nil, Z.add_0_r. reflexivity.
  - rewrite zlen_cons. replace (i + (1 + zlen a)) with (i + 1 + zlen a) by lia.
    destruct (x =? 0); [apply IH|]. destruct (_ && _); [cbn [app]; f_equal|]; apply IH.
Qed.

Lemma sc_positions_none : forall l i nz, has_sc nz l = false -> sc_positions i nz l = [].
Proof.
  induction l as [|x l IH]; intros i nz H; cbn [has_sc sc_positions] in *; auto.
  destruct (x =? 0); [auto|]. destruct (_ && _); [discriminate|auto].
Qed.

Lemma start_code_in_positions : forall l i, start_code_at l i -> In i (sc_positions 0 0 l).
Proof.
  intros l i (a & b & -> & <-). rewrite sc_positions_app. apply in_or_app. right.
  pose proof (tail_nz_nonneg a 0 ltac:(lia)).
  cbn [app sc_positions]. cbn [Z.eqb Pos.eqb andb]. 
  replace (2 <=? tail_nz 0 a + 1 + 1) with true by lia. cbn [andb]. left. lia.
Qed.

Lemma tail_nz_last : forall l x nz, x <> 0 -> tail_nz nz (l ++ [x]) = 0.
Proof. intros l x nz H. rewrite tail_nz_app. cbn. replace (x =? 0) with false by lia. reflexivity. Qed.

Lemma escape_tail_nz : forall l nz, tail_nz nz (escape_loop nz l) = tail_nz nz l.
Proof.
  induction l as [|b l IH]; intros nz; cbn [escape_loop tail_nz]; auto.
  destruct (b =? 0) eqn:E; [cbn [tail_nz]; rewrite E; auto|].
  destruct (_ && _); cbn [tail_nz]; cbn [Z.eqb]; rewrite E; auto.
Qed.

Lemma opt_header_last : forall wp bits, exists l, opt_header_bytes wp bits = l ++ [255].
Proof. intros [|] bits; unfold opt_header_bytes; eexists (_ :: _ :: _ :: _ :: _ :: _ :: _ :: _ :: nil); reflexivity. Qed.

Lemma opt_header_cons : forall wp bits, exists l, opt_header_bytes wp bits = 128 :: l.
Proof. intros [|] bits; eexists; reflexivity. Qed.

(* one packet header: exactly one start code, at its beginning, and no zeros
   pending afterwards *)
Lemma pes_hdr_codes : forall wp n pts i nz, 0 <= nz -> 0 <= n < 65536 ->
  sc_positions i nz (pes_hdr wp n (SetPtsBits pts)) = [i] /\ tail_nz nz (pes_hdr wp n (SetPtsBits pts)) = 0.
Proof.
  intros wp n pts i nz Hnz Hn. unfold pes_hdr. rewrite opt_header_escape. split.
  - rewrite sc_positions_app. cbn [sc_positions]. cbn [Z.eqb Pos.eqb andb Z.leb Z.compare Pos.compare Pos.compare_cont].
    replace (2 <=? nz + 1 + 1) with true by lia. cbn [andb].
    replace (i + 1 + 1 - 2) with i by lia.
    assert (E1 : forall j z, z <= 1 -> (if n / 256 =? 0
       then if n mod 256 =? 0 then [] else if (2 <=? z + 1) && (n mod 256 =? 1) then [j - 2] else []
       else if (2 <=? z) && (n / 256 =? 1) then (j - 1 - 2) :: if n mod 256 =? 0 then [] else [] else if n mod 256 =? 0 then [] else []) = []
       \/ True) by (intros; right; exact I). clear E1.
    cbn [tail_nz]. cbn [Z.eqb Pos.eqb].
    destruct (opt_header_cons wp (SetPtsBits pts)) as (t & Et).
    pose proof (opt_header_esc wp pts) as [He _]. rewrite Et in *.
    assert (HS : forall l z, has_esc z l = false -> has_sc z l = false).
    { induction l as [|b l IH]; intros z Hz; cbn [has_esc has_sc] in *; auto.
      destruct (b =? 0); [auto|]. destruct (2 <=? z), (b =? 1), (b =? 3); cbn in *; auto; discriminate. }
    cbn [has_esc] in He. cbn in He.
    assert (Hsc : forall j z, sc_positions j z (128 :: t) = []).
    { intros j z. cbn [sc_positions]. cbn. rewrite andb_false_r. apply sc_positions_none, HS, He. }
    rewrite Hsc, app_nil_r.
    f_equal. destruct (n / 256 =? 0); destruct (n mod 256 =? 0); cbn; try reflexivity.
  - rewrite tail_nz_app. destruct (opt_header_last wp (SetPtsBits pts)) as (t & ->).
    apply tail_nz_last. lia.
Qed.

(* bodies without start codes *)
Lemma frag_codes : forall pts c i nz, 0 <= nz -> 0 <= zlen c <= 32768 ->
  sc_positions i nz (frag_bytes (SetPtsBits pts) c) = [i] /\ 0 <= tail_nz nz (frag_bytes (SetPtsBits pts) c).
Proof.
  intros pts c i nz Hnz Hc. unfold frag_bytes.
  destruct (pes_hdr_codes false (zlen c + 9) pts i nz Hnz ltac:(lia)) as (E1 & E2).
  rewrite sc_positions_app, E1, E2, tail_nz_app, E2, escape_tail_nz.
  rewrite (sc_positions_none (escape_loop 0 c)) by apply escape_no_sc.
  split; [reflexivity|]. apply tail_nz_nonneg; lia.
Qed.

Lemma chunks_small : forall f l, Forall (fun c => 1 <= zlen c <= 32768) (chunks f l).
Proof.
  pose proof kChunk_z as KC.
  induction f as [|f IH]; intros l; destruct l as [|b l]; cbn [chunks]; auto.
  constructor; auto. unfold zlen. rewrite firstn_length. cbn [length]. lia.
Qed.

Lemma frags_codes : forall pts cs i nz, 0 <= nz -> Forall (fun c => 1 <= zlen c <= 32768) cs ->
  sc_positions i nz (concat (map (frag_bytes (SetPtsBits pts)) cs)) =
    map (fun k => i + zlen (concat (map (frag_bytes (SetPtsBits pts)) (firstn k cs)))) (seq 0 (length cs)) /\
  0 <= tail_nz nz (concat (map (frag_bytes (SetPtsBits pts)) cs)).
Proof.
  intros pts. induction cs as [|c cs IH]; intros i nz Hnz H; cbn [map concat length seq].
  - split; [reflexivity|auto].
  - inversion H as [|? ? H1 H2]; subst.
    destruct (frag_codes pts c i nz Hnz ltac:(lia)) as (E1 & E2).
    rewrite sc_positions_app, E1, tail_nz_app.
    destruct (IH (i + zlen (frag_bytes (SetPtsBits pts) c)) _ E2 H2) as (E3 & E4).
    rewrite E3. split; [|exact E4]. cbn [app firstn map concat].
    rewrite zlen_nil, Z.add_0_r. f_equal.
    rewrite <- seq_shift, map_map. apply map_ext. intros k. cbn [firstn map concat].
    rewrite zlen_app. lia.
Qed.

Lemma bcmv6_sc : forall len, 0 <= len -> len + 10 < 4294967296 ->
  has_sc 0 (escape_loop 0 (bcmv6 len)) = false /\
  tail_nz 0 (escape_loop 0 (bcmv6 len)) >= 2.
Proof.
  intros len H1 H2. split; [apply escape_no_sc|]. rewrite escape_tail_nz.
  unfold bcmv6.
  change [(len + 10) / 16777216 mod 256; (len + 10) / 65536 mod 256; (len + 10) / 256 mod 256; (len + 10) mod 256; 0; 0]
    with ([(len + 10) / 16777216 mod 256; (len + 10) / 65536 mod 256; (len + 10) / 256 mod 256; (len + 10) mod 256] ++ [0; 0]).
  rewrite tail_nz_app.
  match goal with |- context [tail_nz 0 ?l] => pose proof (tail_nz_nonneg l 0 ltac:(lia)); set (z := tail_nz 0 l) in * end.
  cbn [tail_nz Z.eqb]. lia.
Qed.

(* escaping started with no zeros seen although nz >= 2 zeros precede: a start
   code appears exactly when the payload looks like 01... or 00 01... *)
Lemma escape_after_zeros : forall l nz, 2 <= nz -> has_sc nz (escape_loop 0 l) = true <-> starts_like_code l.
Proof.
  assert (IND : forall l k nz, 2 <= nz -> 2 <= k -> has_sc (nz + k) (escape_loop k l) = false).
  { induction l as [|b l IH]; intros k nz Hnz Hk; cbn [escape_loop]; auto.
    destruct (b =? 0) eqn:E0.
    - cbn [has_sc]. rewrite E0. replace (nz + k + 1) with (nz + (k + 1)) by lia. apply IH; lia.
    - destruct ((2 <=? k) && ((b =? 1) || (b =? 3))) eqn:E1; cbn [has_sc].
      + cbn [Z.eqb Pos.eqb]. rewrite andb_false_r, E0. cbn. apply escape_no_sc.
      + rewrite E0. replace ((2 <=? nz + k) && (b =? 1)) with false by lia. apply escape_no_sc. }
  intros l nz Hnz. split.
  - intros H. destruct l as [|b l]; [discriminate|]. cbn [escape_loop] in H.
    destruct (b =? 0) eqn:E0.
    + cbn [has_sc] in H. rewrite E0 in H. destruct l as [|c l]; [discriminate|].
      cbn [escape_loop] in H. destruct (c =? 0) eqn:E1.
      * cbn [has_sc] in H. rewrite E1 in H. exfalso.
        replace (nz + 1 + 1) with (nz + (0 + 1 + 1)) in H by lia. rewrite IND in H by lia. discriminate.
      * replace ((2 <=? 0 + 1) && ((c =? 1) || (c =? 3))) with false in H by reflexivity.
        cbn [has_sc] in H. rewrite E1 in H.
        destruct ((2 <=? nz + 1) && (c =? 1)) eqn:E2.
        -- exists l. right. f_equal; [lia|]. f_equal; lia.
        -- rewrite escape_no_sc in H. discriminate.
    + replace ((2 <=? 0) && ((b =? 1) || (b =? 3))) with false in H by reflexivity.
      cbn [has_sc] in H. rewrite E0 in H. destruct ((2 <=? nz) && (b =? 1)) eqn:E2.
      * exists l. left. f_equal; lia.
      * rewrite escape_no_sc in H. discriminate.
  - intros (b & [-> | ->]); cbn [escape_loop]; cbn; replace (2 <=? nz) with true by lia; cbn; auto.
    replace (2 <=? nz + 1) with true by lia. reflexivity.
Qed.

Lemma first_codes : forall pts p i nz, 0 <= nz -> 1 <= zlen p -> zlen p + 10 < 4294967296 ->
  ~ starts_like_code (firstn kChunk p) ->
  sc_positions i nz (first_bytes (SetPtsBits pts) p) = [i] /\
  0 <= tail_nz nz (first_bytes (SetPtsBits pts) p).
Proof.
  pose proof kChunk_z as KC.
  intros pts p i nz Hnz H1 H2 Hs. unfold first_bytes. set (c := firstn kChunk p) in *.
  assert (Hc : 0 <= zlen c <= 32768).
  { subst c. unfold zlen. rewrite firstn_length. lia. }
  destruct (pes_hdr_codes true (zlen c + 19) pts i nz Hnz ltac:(lia)) as (E1 & E2).
  destruct (bcmv6_sc (zlen p) ltac:(lia) H2) as (E3 & E4).
  rewrite sc_positions_app, E1, E2, tail_nz_app, E2.
  rewrite sc_positions_app, tail_nz_app.
  assert (E5 : sc_positions (i + zlen (pes_hdr true (zlen c + 19) (SetPtsBits pts))) 0 [66; 67; 77; 86] = []) by reflexivity.
  assert (E6 : tail_nz 0 [66; 67; 77; 86] = 0) by reflexivity.
  rewrite E5, E6. cbn [app].
  rewrite sc_positions_app, tail_nz_app.
  rewrite (sc_positions_none (escape_loop 0 (bcmv6 (zlen p)))) by exact E3.
  set (z := tail_nz 0 (escape_loop 0 (bcmv6 (zlen p)))) in *.
  rewrite (sc_positions_none (escape_loop 0 c)).
  - split; [reflexivity|]. apply tail_nz_nonneg; lia.
  - destruct (has_sc z (escape_loop 0 c)) eqn:E; auto.
    exfalso. apply Hs. apply (escape_after_zeros c z); auto. lia.
Qed.

(* the packets of one payload *)
Definition packets (bits : Z) (p : list Z) : list (list Z) :=
  first_bytes bits p :: map (frag_bytes bits) (chunks (length p) (skipn kChunk p)).

Lemma packets_concat : forall bits p, concat (packets bits p) = range_bytes bits p.
Proof. intros. reflexivity. Qed.

Definition offset_of (ps : list (list Z)) (k : nat) : Z := zlen (concat (firstn k ps)).

Lemma packets_codes : forall pts p i nz, 0 <= nz -> 1 <= zlen p -> zlen p + 10 < 4294967296 ->
  ~ starts_like_code p ->
  sc_positions i nz (concat (packets (SetPtsBits pts) p)) =
    map (fun k => i + offset_of (packets (SetPtsBits pts) p) k) (seq 0 (length (packets (SetPtsBits pts) p))) /\
  0 <= tail_nz nz (concat (packets (SetPtsBits pts) p)).
Proof.
  pose proof kChunk_z as KC.
  intros pts p i nz Hnz H1 H2 Hs. unfold packets, offset_of. cbn [concat].
  assert (Hs' : ~ starts_like_code (firstn kChunk p)).
  { intros (b & Hb). apply Hs.
    assert (KM : exists m, kChunk = S (S m)) by (exists (kChunk - 2)%nat; lia).
    destruct KM as (m & KM). rewrite KM in Hb. destruct p as [|x [|y p]]; cbn in Hb.
    - destruct Hb; discriminate.
    - destruct Hb as [Hb|Hb]; [|discriminate]. exists []. left. congruence.
    - destruct Hb as [Hb|Hb].
      + exists (y :: p). left. f_equal. congruence.
      + exists p. right. f_equal; [congruence|]. f_equal; congruence. }
  destruct (first_codes pts p i nz Hnz H1 H2 Hs') as (E1 & E2).
  rewrite sc_positions_app, E1, tail_nz_app.
  destruct (frags_codes pts (chunks (length p) (skipn kChunk p)) (i + zlen (first_bytes (SetPtsBits pts) p)) _ E2
     (chunks_small _ _)) as (E3 & E4).
  rewrite E3. split; [|exact E4].
  cbn [length seq map firstn concat app]. rewrite zlen_nil, Z.add_0_r. f_equal.
  rewrite <- seq_shift, map_map, map_length. apply map_ext. intros k. cbn [firstn concat].
  rewrite zlen_app, firstn_map. lia.
Qed.
