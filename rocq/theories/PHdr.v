From Coq Require Import ZifyBool ZifyNat Floats.SpecFloat.
From Verif Require Import Base Ids MFloat MMuxMeta MParUtil MParMeta MParTrack MetaSpec ReadTrackSpec HdrSpec MHdr PParDur.

(* ---------- what can be parsed ---------- *)

Definition lum_ok (l : Z) : Prop := l = 0x7F7FFFFF \/ lum_present l = true.
Definition good_mastering (m : p_mastering) : Prop := lum_ok (pm_max m) /\ lum_ok (pm_min m).

Lemma eq_max : forall x, SFeqb x (S754_finite false 16777215 104) = true -> x = S754_finite false 16777215 104.
Proof.
  intros x H. destruct x as [s|s| |s m e]; unfold SFeqb, SFcompare in H; try (destruct s; discriminate); try discriminate.
  destruct s; [discriminate|]. destruct (e ?= 104) eqn:Ee; try discriminate. apply Z.compare_eq in Ee. subst e.
  destruct (Pos.compare_cont Eq m 16777215) eqn:E; try discriminate. assert (Em : m = 16777215%positive) by (apply Pos.compare_eq; unfold Pos.compare; exact E). rewrite Em. reflexivity.
Qed.

Lemma too_bright : forall l, lum_present l = false -> f64_of_bits32 l = FLT_MAX.
Proof.
  intros l H. unfold lum_present in H. apply Bool.negb_false_iff in H. unfold f32_eq, kLuminanceNotPresent in H.
  assert (E : f32_of_bits l = f32_of_bits 0x7F7FFFFF).
  { change (f32_of_bits 0x7F7FFFFF) with (S754_finite false 16777215 104) in *. exact (eq_max _ H). }
  unfold FLT_MAX, f64_of_bits32. rewrite E. reflexivity.
Qed.

Lemma lum_parsed : forall r pos size lim l, f64_lt lim FLT_MAX = true -> Luminance_Parse r pos size lim = Val (Some l) -> lum_ok l.
Proof.
  intros r pos size lim l HL H. right. destruct (lum_present l) eqn:E; [reflexivity|]. apply too_bright in E.
  unfold Luminance_Parse in H. destruct (ParseFloat r pos size d_zero) as [(st, v)|]; [|discriminate].
  destruct (not_a_float v); [discriminate|]. cbv zeta in H.
  destruct (f64_lt lim (f64_of_bits32 (f32_of_f64 v))) eqn:El; [rewrite Bool.orb_true_r in H; discriminate|].
  destruct (_ || _); [discriminate|]. assert (E2 : f32_of_f64 v = l) by congruence. rewrite E2, E in El. congruence.
Qed.

Lemma on_some_next : forall S A (x : outcome (option A)) (s : S) set s', on_some x s set = Val (Next s') -> exists a, x = Val (Some a) /\ s' = set a.
Proof. intros S A [[a|]|] s set s' H; cbn [on_some] in H; try discriminate. exists a. split; [reflexivity|congruence]. Qed.
Lemma on_some_ret : forall S A (x : outcome (option A)) (s : S) set st s', on_some x s set = Val (Ret st s') -> st <> 0.
Proof. intros S A [[a|]|] s set st s' H; cbn [on_some] in H; try discriminate. injection H as <- _. discriminate. Qed.

Lemma mastering_keeps : forall r id pos size m m', good_mastering m -> mastering_element r id pos size m = Val (Next m') -> good_mastering m'.
Proof.
  intros r id pos size [mx mn cr cg cb cw] m' [H1 H2] H. unfold mastering_element in H. cbn [pm_max pm_min] in *.
  repeat match type of H with (if ?c then _ else _) = _ => destruct c end; try discriminate;
    apply on_some_next in H; destruct H as (a & Ha & ->); split; cbn [pm_max pm_min]; try assumption.
  - refine (lum_parsed _ _ _ _ _ _ Ha). vm_compute. reflexivity.
  - refine (lum_parsed _ _ _ _ _ _ Ha). vm_compute. reflexivity.
Qed.
Lemma mastering_ret : forall r id pos size m st m', good_mastering m -> mastering_element r id pos size m = Val (Ret st m') -> st <> 0.
Proof.
  intros r id pos size [mx mn cr cg cb cw] st m' _ H. unfold mastering_element in H.
  repeat match type of H with (if ?c then _ else _) = _ => destruct c end; try (exact (on_some_ret _ _ _ _ _ _ _ H)).
  injection H as <- _. discriminate.
Qed.

Lemma as_bool_true : forall S (x : outcome (Z * S)) s, as_bool x = Val (true, s) -> x = Val (0, s).
Proof. intros S [(st, s0)|] s H; cbn [as_bool] in H; [|discriminate]. destruct (Z.eqb_spec st 0); congruence. Qed.

Lemma mastering_good : forall r start size m, MasteringMetadata_Parse r start size = Val (true, m) -> good_mastering m.
Proof.
  intros r start size m H. apply as_bool_true in H. unfold walk_payload in H. destruct (_ >? LLONG_MAX); [discriminate|].
  refine (walk_keeps _ r ZPass (mastering_element r) good_mastering (mastering_keeps r) (mastering_ret r) _ _ _ _ _ _ H).
  split; left; reflexivity.
Qed.

Definition num_ok (v : Z) : Prop := 0 <= v < 2 ^ 63.
Definition good_colour (c : p_colour) : Prop :=
  num_ok (pc_matrix_coefficients c) /\ num_ok (pc_bits_per_channel c) /\ num_ok (pc_chroma_subsampling_horz c) /\
  num_ok (pc_chroma_subsampling_vert c) /\ num_ok (pc_cb_subsampling_horz c) /\ num_ok (pc_cb_subsampling_vert c) /\
  num_ok (pc_chroma_siting_horz c) /\ num_ok (pc_chroma_siting_vert c) /\ num_ok (pc_range c) /\
  num_ok (pc_transfer_characteristics c) /\ num_ok (pc_primaries c) /\ num_ok (pc_max_cll c) /\ num_ok (pc_max_fall c) /\
  match pc_mastering c with None => True | Some m => good_mastering m end.

Lemma uint_next : forall S r pos size (set : Z -> S) s', uint_field r pos size (fun x => x <? 0) set = Val (Next s') -> exists v, num_ok v /\ s' = set v.
Proof.
  intros S r pos size set s' H. unfold uint_field in H. destruct (UnserializeUInt r pos size) as [v|] eqn:E; [|discriminate].
  apply UInt_range in E. destruct (Z.ltb_spec v 0); [discriminate|]. exists v. split; [split; assumption|congruence].
Qed.
Lemma uint_ret : forall S r pos size bad (set : Z -> S) st s', uint_field r pos size bad set = Val (Ret st s') -> st <> 0.
Proof.
  intros S r pos size bad set st s' H. unfold uint_field in H. destruct (UnserializeUInt r pos size) as [v|]; [|discriminate].
  destruct (bad v); [|discriminate]. injection H as <- _. discriminate.
Qed.

Lemma colour_keeps : forall r id pos size c c', good_colour c -> colour_element r id pos size c = Val (Next c') -> good_colour c'.
Proof.
  intros r id pos size [mc bpc csh csv cbh cbv sih siv rg tc pr cll fall mm] c' HG H. unfold colour_element in H.
  unfold good_colour in *.
  cbn [pc_matrix_coefficients pc_bits_per_channel pc_chroma_subsampling_horz pc_chroma_subsampling_vert pc_cb_subsampling_horz pc_cb_subsampling_vert pc_chroma_siting_horz pc_chroma_siting_vert pc_range pc_transfer_characteristics pc_primaries pc_max_cll pc_max_fall pc_mastering] in *.
  cbv zeta in H.
  repeat match type of H with (if ?c then uint_field _ _ _ _ _ else _) = _ => destruct c;
    [apply uint_next in H; destruct H as (v & Hv & ->); cbn [pc_matrix_coefficients pc_bits_per_channel pc_chroma_subsampling_horz pc_chroma_subsampling_vert pc_cb_subsampling_horz pc_cb_subsampling_vert pc_chroma_siting_horz pc_chroma_siting_vert pc_range pc_transfer_characteristics pc_primaries pc_max_cll pc_max_fall pc_mastering]; tauto|] end.
  destruct (id =? kMkvMasteringMetadata); [|discriminate]. destruct mm; [discriminate|].
  destruct (MasteringMetadata_Parse r pos size) as [([|], m)|] eqn:E; try discriminate.
  apply mastering_good in E. injection H as <-. cbn [pc_matrix_coefficients pc_bits_per_channel pc_chroma_subsampling_horz pc_chroma_subsampling_vert pc_cb_subsampling_horz pc_cb_subsampling_vert pc_chroma_siting_horz pc_chroma_siting_vert pc_range pc_transfer_characteristics pc_primaries pc_max_cll pc_max_fall pc_mastering]. tauto.
Qed.
Lemma colour_ret : forall r id pos size c st c', good_colour c -> colour_element r id pos size c = Val (Ret st c') -> st <> 0.
Proof.
  intros r id pos size [mc bpc csh csv cbh cbv sih siv rg tc pr cll fall mm] st c' _ H. unfold colour_element in H. cbv zeta in H.
  repeat match type of H with (if ?c then uint_field _ _ _ _ _ else _) = _ => destruct c; [exact (uint_ret _ _ _ _ _ _ _ _ H)|] end.
  destruct (id =? kMkvMasteringMetadata); [|injection H as <- _; discriminate]. destruct mm; [injection H as <- _; discriminate|].
  destruct (MasteringMetadata_Parse r pos size) as [([|], m)|]; try discriminate. injection H as <- _. discriminate.
Qed.
Lemma colour_good : forall r start size c, Colour_Parse r start size = Val (true, c) -> good_colour c.
Proof.
  intros r start size c H. apply as_bool_true in H. unfold walk_payload in H. destruct (_ >? LLONG_MAX); [discriminate|].
  refine (walk_keeps _ r ZPass (colour_element r) good_colour (colour_keeps r) (colour_ret r) _ _ _ _ _ _ H).
  unfold good_colour, pc_init. cbn [pc_matrix_coefficients pc_bits_per_channel pc_chroma_subsampling_horz pc_chroma_subsampling_vert pc_cb_subsampling_horz pc_cb_subsampling_vert pc_chroma_siting_horz pc_chroma_siting_vert pc_range pc_transfer_characteristics pc_primaries pc_max_cll pc_max_fall pc_mastering].
  assert (N : num_ok LLONG_MAX) by (vm_compute; split; [discriminate|reflexivity]). tauto.
Qed.

(* ---------- copying ---------- *)

Definition num (v : Z) : Z := copy_number v kValueNotPresent.
Lemma num_read : forall v, num_ok v -> read_number (num v) = v.
Proof.
  intros v H. unfold num, num_ok, copy_number, ColourValuePresent, read_number, kValueNotPresent, wrap64, LLONG_MAX in *. change (2 ^ 63) with 9223372036854775808 in *.
  destruct (Z.eqb_spec v 9223372036854775807); cbn [negb]; [subst; reflexivity|].
  rewrite Z.mod_small by (split; [apply H|apply Z.lt_trans with (1 := proj2 H); reflexivity]).
  change (2 ^ 64 - 1) with 18446744073709551615. destruct (Z.eqb_spec v 18446744073709551615); lia.
Qed.
Lemma num_field : forall id v, num_ok v -> colour_field id (num v) = [] <-> v = LLONG_MAX.
Proof.
  intros id v H. unfold colour_field. pose proof (num_read v H) as R. unfold read_number in R.
  destruct (Z.eqb_spec (num v) (2 ^ 64 - 1)) as [E|E]; cbn [negb opt]; split; intros K; try discriminate.
  - rewrite <- R. reflexivity.
  - reflexivity.
  - exfalso. subst v. apply E. reflexivity.
Qed.

Definition copied_mastering (p : p_mastering) : mastering :=
  mkMM (if lum_present (pm_max p) then pm_max p else 0x7F7FFFFF) (if lum_present (pm_min p) then pm_min p else 0x7F7FFFFF)
    (pm_r p) (pm_g p) (pm_b p) (pm_white p).
Lemma copy_mastering : forall p, CopyMasteringMetadata p new_mastering = copied_mastering p.
Proof.
  intros [mx mn a b c d]. unfold CopyMasteringMetadata, copied_mastering, new_mastering, MasteringMetadataValuePresent, lum_present, kLuminanceNotPresent. cbn [pm_max pm_min pm_r pm_g pm_b pm_white].
  destruct (f32_eq mx 0x7F7FFFFF), (f32_eq mn 0x7F7FFFFF); reflexivity.
Qed.
Lemma lum_copied : forall l, lum_ok l -> (if lum_present l then l else 0x7F7FFFFF) = l.
Proof. intros l [->|H]; [vm_compute; reflexivity|]. rewrite H. reflexivity. Qed.
Lemma not_present_max : lum_present 0x7F7FFFFF = false. Proof. vm_compute. reflexivity. Qed.

Lemma mastering_read : forall p, good_mastering p ->
  match mastering_kids (copied_mastering p) with [] => None | _ => Some (read_mastering (copied_mastering p)) end =
  if pm_blank p then None else Some p.
Proof.
  intros [mx mn a b c d] [H1 H2]. cbn [pm_max pm_min] in *. unfold copied_mastering. cbn [pm_max pm_min pm_r pm_g pm_b pm_white].
  rewrite (lum_copied mx H1), (lum_copied mn H2).
  assert (R : read_mastering (mkMM mx mn a b c d) = mkPM mx mn a b c d).
  { unfold read_mastering, read_luminance. cbn [mm_luminance_max mm_luminance_min mm_r mm_g mm_b mm_white]. rewrite (lum_copied mx H1), (lum_copied mn H2). reflexivity. }
  rewrite R. unfold mastering_kids. cbn [mm_luminance_max mm_luminance_min mm_r mm_g mm_b mm_white].
  assert (P : forall l, lum_ok l -> lum_present l = negb (l =? 0x7F7FFFFF)).
  { intros l [->|H]; [reflexivity|]. rewrite H. destruct (Z.eqb_spec l 0x7F7FFFFF) as [->|_]; [rewrite not_present_max in H; discriminate|reflexivity]. }
  rewrite (P mx H1), (P mn H2). clear P R H1 H2. unfold pm_blank.
  destruct (mx =? 0x7F7FFFFF), (mn =? 0x7F7FFFFF), a as [(?, ?)|], b as [(?, ?)|], c as [(?, ?)|], d as [(?, ?)|]; reflexivity.
Qed.

Lemma copied_fields : forall mc bpc csh csv cbh cbv sih siv rg tc pr cll fall mm,
  copied (mkPC mc bpc csh csv cbh cbv sih siv rg tc pr cll fall mm) =
  mkColour (num mc) (num bpc) (num csh) (num csv) (num cbh) (num cbv) (num sih) (num siv) (num rg) (num tc) (num pr) (num cll) (num fall)
    (match mm with Some m => Some (copied_mastering m) | None => None end).
Proof.
  intros. unfold copied, SetColour, CopyColour, new_colour. cbn [pc_matrix_coefficients pc_bits_per_channel pc_chroma_subsampling_horz pc_chroma_subsampling_vert pc_cb_subsampling_horz pc_cb_subsampling_vert pc_chroma_siting_horz pc_chroma_siting_vert pc_range pc_transfer_characteristics pc_primaries pc_max_cll pc_max_fall pc_mastering
    co_matrix_coefficients co_bits_per_channel co_chroma_subsampling_horz co_chroma_subsampling_vert co_cb_subsampling_horz co_cb_subsampling_vert co_chroma_siting_horz co_chroma_siting_vert co_range co_transfer_characteristics co_primaries co_max_cll co_max_fall co_mastering].
  destruct mm as [m|]; [|reflexivity]. rewrite copy_mastering. unfold SetMasteringMetadata, SetChromaticity, set_luminance_max, set_luminance_min, copied_mastering.
  cbn [co_matrix_coefficients co_bits_per_channel co_chroma_subsampling_horz co_chroma_subsampling_vert co_cb_subsampling_horz co_cb_subsampling_vert co_chroma_siting_horz co_chroma_siting_vert co_range co_transfer_characteristics co_primaries co_max_cll co_max_fall co_mastering
    mm_luminance_max mm_luminance_min mm_r mm_g mm_b mm_white]. reflexivity.
Qed.

Lemma app_nil2 : forall (A : Type) (a b : list A), a ++ b = [] <-> a = [] /\ b = [].
Proof. intros A [|x a] b; cbn [app]; split; [auto|tauto|discriminate|intros [H _]; discriminate]. Qed.

Lemma copied_shows : forall c, good_colour c -> copy_shows c (read_colour (copied c)).
Proof.
  intros [mc bpc csh csv cbh cbv sih siv rg tc pr cll fall mm] HG. rewrite copied_fields. unfold good_colour in HG.
  cbn [pc_matrix_coefficients pc_bits_per_channel pc_chroma_subsampling_horz pc_chroma_subsampling_vert pc_cb_subsampling_horz pc_cb_subsampling_vert pc_chroma_siting_horz pc_chroma_siting_vert pc_range pc_transfer_characteristics pc_primaries pc_max_cll pc_max_fall pc_mastering] in HG.
  destruct HG as (H1 & H2 & H3 & H4 & H5 & H6 & H7 & H8 & H9 & H10 & H11 & H12 & H13 & HM).
  set (cc := mkColour _ _ _ _ _ _ _ _ _ _ _ _ _ _).
  assert (Hm : (match co_mastering cc with None => None | Some m => match mastering_kids m with [] => None | _ => Some (read_mastering m) end end)
               = match mm with Some m => if pm_blank m then None else Some m | None => None end).
  { unfold cc. cbn [co_mastering]. destruct mm as [m|]; [|reflexivity]. exact (mastering_read m HM). }
  assert (Hk : colour_kids cc = [] <-> said (mkPC mc bpc csh csv cbh cbv sih siv rg tc pr cll fall mm) = pc_init).
  { unfold colour_kids. repeat rewrite app_nil2. unfold cc at 1 2 3 4 5 6 7 8 9 10 11 12 13.
    cbn [co_matrix_coefficients co_bits_per_channel co_chroma_subsampling_horz co_chroma_subsampling_vert co_cb_subsampling_horz co_cb_subsampling_vert co_chroma_siting_horz co_chroma_siting_vert co_range co_transfer_characteristics co_primaries co_max_cll co_max_fall].
    rewrite !num_field by assumption.
    assert (Q : (match co_mastering cc with None => [] | Some m => nonempty_master kMkvMasteringMetadata (mastering_kids m) end) = []
                <-> match mm with Some m => if pm_blank m then None else Some m | None => None end = None).
    { rewrite <- Hm. destruct (co_mastering cc) as [m|]; [|tauto]. unfold nonempty_master. destruct (mastering_kids m); split; auto; discriminate. }
    rewrite Q. unfold said, pc_init. set (x := match mm with Some m => _ | None => _ end). clearbody x. clear. split.
    - intros (E1 & E2 & E3 & E4 & E5 & E6 & E7 & E8 & E9 & E10 & E11 & E12 & E13 & E14). rewrite E1, E2, E3, E4, E5, E6, E7, E8, E9, E10, E11, E12, E13, E14. reflexivity.
    - intros E. injection E as E1 E2 E3 E4 E5 E6 E7 E8 E9 E10 E11 E12 E13 E14. repeat (split; [assumption|]). assumption. }
  unfold read_colour. rewrite Hm. destruct (colour_kids cc) as [|t ts] eqn:Ek; [apply Hk; reflexivity|].
  split; [|intros E; apply Hk in E; discriminate].
  unfold cc. cbn [co_matrix_coefficients co_bits_per_channel co_chroma_subsampling_horz co_chroma_subsampling_vert co_cb_subsampling_horz co_cb_subsampling_vert co_chroma_siting_horz co_chroma_siting_vert co_range co_transfer_characteristics co_primaries co_max_cll co_max_fall].
  rewrite !num_read by assumption. reflexivity.
Qed.
