(* Proofs about mkvparser's metadata parsers. *)
From Coq Require Import ZifyBool ZifyNat Floats.SpecFloat.
From Verif Require Import Base EbmlSpec MFloat Ids MMuxMeta MParUtil MParMeta MetaSpec ReaderSpec ReadBackSpec PParUtil.

Ltac zd := Z.to_euclidean_division_equations; nia.

(* ---------- the loop over an encoded list of elements ---------- *)

Definition tid (t : tree) : Z := match t with Leaf id _ => id | Master id _ => id end.
Definition content (t : tree) (p : list Z) : Prop :=
  match t with Leaf _ l => leaf_payload l p | Master _ ks => encodes_all ks p end.

Lemma encodes_inv : forall t bs, encodes t bs -> exists p, content t p /\ is_element (tid t) p bs.
Proof. intros t bs H. inversion H; subst; eexists; (split; [|eassumption]); assumption. Qed.

Lemma element_nonempty : forall id p, ~ is_element id p [].
Proof.
  intros id p (ib & w & (iw & [Hiw _] & ->) & _ & E). apply (f_equal (@length Z)) in E. rewrite app_length, be_bytes_length in E. cbn [length] in E. lia.
Qed.
Lemma encodes_all_nonempty : forall t ts, ~ encodes_all (t :: ts) [].
Proof.
  intros t ts H. inversion H as [|? ? a b Ha Hb E1 E2]; subst. apply app_eq_nil in E2 as [-> ->]. destruct (encodes_inv _ _ Ha) as (p & _ & Hp). exact (element_nonempty _ _ Hp).
Qed.

Section Walk.
Context {S : Type} (r : reader) (zr : zero_rule) (h : Z -> Z -> Z -> S -> outcome (step S)).

(* what the body of the loop does with an encoding of t *)
Definition handles (t : tree) (f : S -> S) : Prop := forall p q s,
  content t p -> serves r q p -> q + zlen p <= LLONG_MAX ->
  (p = [] /\ zr = ZSkip /\ f s = s) \/
  ((p <> [] \/ zr = ZPass) /\ h (tid t) q (zlen p) s = Val (Next (f s))).

Lemma walk_end : forall fuel pos s, walk fuel r zr h pos pos s = Val (0, s).
Proof. intros [|f] pos s; cbn [walk]; rewrite Z.leb_refl, Z.eqb_refl; reflexivity. Qed.

(* the same from one state to another, and for a list *)
Definition handles_at (t : tree) (s s' : S) : Prop := forall p q,
  content t p -> serves r q p -> q + zlen p <= LLONG_MAX ->
  (p = [] /\ zr = ZSkip /\ s' = s) \/
  ((p <> [] \/ zr = ZPass) /\ h (tid t) q (zlen p) s = Val (Next s')).
Inductive runs : list tree -> S -> S -> Prop :=
| runs_nil : forall s, runs [] s s
| runs_cons : forall t ts s s' s'', handles_at t s s' -> runs ts s' s'' -> runs (t :: ts) s s''.

Lemma walk_runs : forall ts bs, encodes_all ts bs -> forall s s', runs ts s s' ->
  forall fuel pos, serves r pos bs -> pos + zlen bs <= LLONG_MAX -> zlen bs <= Z.of_nat fuel ->
  walk fuel r zr h pos (pos + zlen bs) s = Val (0, s').
Proof.
  induction 1 as [|t ts a b Ha Hb IH]; intros s s' HF fuel pos Hs Hl Hfuel.
  - inversion HF; subst. replace (pos + zlen (@nil Z)) with pos by (rewrite zlen_nil; lia). apply walk_end.
  - inversion HF as [|? ? ? s1 ? Hf HF']; subst.
    destruct (encodes_inv _ _ Ha) as (p & Hc & ib & w & Hib & (Hw & Hfit) & Ea).
    assert (Lib : 1 <= zlen ib). { destruct Hib as (iw & [Hiw _] & ->). unfold zlen. rewrite be_bytes_length. lia. }
    assert (Lv : zlen (vint w (zlen p)) = w). { unfold vint, zlen. rewrite be_bytes_length. lia. }
    assert (La : zlen a = zlen ib + w + zlen p). { rewrite Ea, !zlen_app, Lv. lia. }
    pose proof (zlen_nonneg _ p) as Hp0. pose proof (zlen_nonneg _ b) as Hb0. rewrite zlen_app in *.
    pose proof Hs as [Hpos _].
    assert (Hsa : serves r pos a) by exact (serves_app_l _ _ _ _ Hs).
    assert (Hsb : serves r (pos + zlen a) b) by exact (serves_app_r _ _ _ _ Hs).
    assert (Hh : ParseElementHeader r pos (pos + (zlen a + zlen b)) = (0, pos + zlen ib + w, tid t, zlen p)).
    { apply ParseElementHeader_element; auto; try lia. apply (serves_app_l _ _ _ p). rewrite <- app_assoc, <- Ea. exact Hsa. }
    assert (Hsp : serves r (pos + zlen ib + w) p).
    { rewrite Ea in Hsa. apply serves_app_r in Hsa. apply serves_app_r in Hsa. rewrite Lv in Hsa. exact Hsa. }
    destruct fuel as [|fuel]; [lia|]. cbn [walk]. destruct (Z.leb_spec (pos + (zlen a + zlen b)) pos); [lia|].
    rewrite Hh. change (0 <? 0) with false. cbn iota.
    replace (pos + (zlen a + zlen b)) with (pos + zlen a + zlen b) by lia.
    destruct (Hf p (pos + zlen ib + w) Hc Hsp ltac:(lia)) as [(E0 & Ez & Ef)|(E0 & Ef)].
    + rewrite E0, Ez. change (zlen (@nil Z)) with 0. cbn [Z.eqb andb]. cbn iota. rewrite Ef in HF'.
      assert (La' : zlen a = zlen ib + w) by (rewrite La, E0, zlen_nil; lia).
      replace (pos + zlen ib + w) with (pos + zlen a) by lia. rewrite <- Ez. apply IH; auto; lia.
    + assert (Z1 : (zlen p =? 0) && match zr with ZSkip => true | _ => false end = false).
      { destruct zr; rewrite ?andb_false_r; auto. destruct E0 as [E0|E0]; [|discriminate]. destruct p; [congruence|]. rewrite zlen_cons. pose proof (zlen_nonneg _ p). destruct (Z.eqb_spec (1 + zlen p) 0); [lia|reflexivity]. }
      assert (Z2 : (zlen p =? 0) && match zr with ZFail => true | _ => false end = false).
      { destruct zr; rewrite ?andb_false_r; auto. destruct E0 as [E0|E0]; [|discriminate]. destruct p; [congruence|]. rewrite zlen_cons. pose proof (zlen_nonneg _ p). destruct (Z.eqb_spec (1 + zlen p) 0); [lia|reflexivity]. }
      rewrite Z1, Z2, Ef. destruct (Z.gtb_spec (pos + zlen ib + w + zlen p) LLONG_MAX); [lia|]. destruct (Z.gtb_spec (pos + zlen ib + w + zlen p) (pos + zlen a + zlen b)); [lia|].
      replace (pos + zlen ib + w + zlen p) with (pos + zlen a) by lia. apply IH; auto; lia.
Qed.

Lemma walk_payload_runs : forall ts bs pos s s', encodes_all ts bs -> runs ts s s' ->
  serves r pos bs -> pos + zlen bs <= LLONG_MAX -> walk_payload r zr h pos (zlen bs) s = Val (0, s').
Proof.
  intros ts bs pos s s' He HF Hs Hl. unfold walk_payload. destruct (Z.gtb_spec (pos + zlen bs) LLONG_MAX); [lia|]. apply (walk_runs ts bs He s s' HF); auto. pose proof (zlen_nonneg _ bs). lia.
Qed.
Lemma runs_app : forall a b s s' s'', runs a s s' -> runs b s' s'' -> runs (a ++ b) s s''.
Proof. induction 1; intros; cbn [app]; [assumption|]. econstructor; eauto. Qed.
Lemma handles_run : forall t f s, handles t f -> handles_at t s (f s).
Proof. intros t f s H p q. apply H. Qed.
Lemma walk_trees : forall ts bs, encodes_all ts bs -> forall fs, Forall2 handles ts fs ->
  forall fuel pos s, serves r pos bs -> pos + zlen bs <= LLONG_MAX -> zlen bs <= Z.of_nat fuel ->
  walk fuel r zr h pos (pos + zlen bs) s = Val (0, fold_left (fun s f => f s) fs s).
Proof.
  intros ts bs He fs HF fuel pos s Hs HL Hf. apply (walk_runs ts bs He); auto. clear -HF. revert s. induction HF as [|t f ts fs H HF IH]; intros s; cbn [fold_left]; [constructor|].
  econstructor; [apply handles_run; exact H|apply IH].
Qed.

Lemma walk_payload_trees : forall ts bs fs pos s, encodes_all ts bs -> Forall2 handles ts fs ->
  serves r pos bs -> pos + zlen bs <= LLONG_MAX ->
  walk_payload r zr h pos (zlen bs) s = Val (0, fold_left (fun s f => f s) fs s).
Proof.
  intros ts bs fs pos s He HF Hs Hl. unfold walk_payload. destruct (Z.gtb_spec (pos + zlen bs) LLONG_MAX); [lia|]. apply (walk_trees ts bs He fs HF); auto. pose proof (zlen_nonneg _ bs). lia.
Qed.

(* On a source of at most 2^62 bytes and with a body that returns, the loop returns. *)
Lemma walk_returns : wf_reader r -> r_avail r <= 2 ^ 62 ->
  (forall id pos size s, 0 <= pos -> pos + size <= LLONG_MAX -> exists x, h id pos size s = Val x) ->
  forall fuel pos stop s, 0 <= pos -> stop - pos <= Z.of_nat fuel -> exists x, walk fuel r zr h pos stop s = Val x.
Proof.
  intros Hwf Hav Hh. induction fuel as [|fuel IH]; intros pos stop s Hp Hf; cbn [walk].
  - destruct (Z.leb_spec stop pos); [eauto|lia].
  - destruct (Z.leb_spec stop pos); [eauto|].
    destruct (ParseElementHeader r pos stop) as (((st, pos'), id), size) eqn:E.
    destruct (Z.ltb_spec st 0); [eauto|].
    assert (st = 0).
    { unfold ParseElementHeader in E. repeat match type of E with (if ?b then _ else _) = _ => destruct b | (let '(_, _) := ?x in _) = _ => destruct x end; injection E; intros; unfold E_FILE_FORMAT_INVALID in *; lia. }
    subst st. destruct (ParseElementHeader_range _ _ _ _ _ _ Hwf Hp E) as (H1 & H2 & H4 & H5 & H3).
    assert (HL : pos' + size <= LLONG_MAX).
    { unfold LLONG_MAX in *. lia. }
    destruct ((size =? 0) && _); [apply IH; lia|]. destruct ((size =? 0) && _); [eauto|].
    destruct (Hh id pos' size s ltac:(lia) HL) as [[s'|st' s'] ->]; [|eauto].
    destruct (Z.gtb_spec (pos' + size) LLONG_MAX); [lia|].
    destruct (pos' + size >? stop); [eauto|]. apply IH; lia.
Qed.
End Walk.

(* ---------- payloads ---------- *)

Section Fields.
Context (r : reader).

Lemma field_string : forall S (h : Z -> Z -> Z -> S -> outcome (step S)) id b (g : option (list Z) -> S -> S),
  zlen b <= 20000000 ->
  (forall q n s, h id q n s = string_field r q n (fun x => g x s)) -> b <> [] ->
  forall zr, handles r zr h (Leaf id (LBytes b)) (g (Some b)).
Proof.
  intros S h id b g Hl Hh Hne zr p q s Hc Hs _. cbn [content leaf_payload] in Hc. subst p. right. split; [auto|].
  cbn [tid]. rewrite Hh. unfold string_field. rewrite UnserializeString_payload by assumption. reflexivity.
Qed.
Lemma field_string_any : forall S (h : Z -> Z -> Z -> S -> outcome (step S)) id b (g : option (list Z) -> S -> S),
  zlen b <= 20000000 ->
  (forall q n s, h id q n s = string_field r q n (fun x => g x s)) ->
  handles r ZPass h (Leaf id (LBytes b)) (g (Some b)).
Proof.
  intros S h id b g Hl Hh p q s Hc Hs _. cbn [content leaf_payload] in Hc. subst p. right. split; [auto|].
  cbn [tid]. rewrite Hh. unfold string_field. rewrite UnserializeString_payload by assumption. reflexivity.
Qed.
Lemma field_uint : forall S zr (h : Z -> Z -> Z -> S -> outcome (step S)) id v (bad : Z -> bool) (g : Z -> S -> S),
  0 <= v < 2 ^ 63 -> bad v = false ->
  (forall q n s, h id q n s = uint_field r q n bad (fun x => g x s)) ->
  handles r zr h (Leaf id (LUint v)) (g v).
Proof.
  intros S zr h id v bad g Hv Hb Hh p q s [Hc _] Hs _. right.
  split; [left; destruct Hc as (_ & Hc & _); intros ->; rewrite zlen_nil in Hc; lia|].
  cbn [tid]. rewrite Hh. unfold uint_field. rewrite (UnserializeUInt_payload _ _ _ _ Hc Hs).
  replace (sint64 v) with v by (unfold sint64, wraps; rewrite Z.mod_small by lia; destruct (Z.ltb_spec v (2 ^ (64 - 1))); lia).
  rewrite Hb. reflexivity.
Qed.
Lemma field_skipped : forall S zr (h : Z -> Z -> Z -> S -> outcome (step S)) id l,
  zr = ZPass -> (forall q n s, h id q n s = Val (Next s)) -> handles r zr h (Leaf id l) (fun s => s).
Proof. intros S zr h id l Hz Hh p q s _ _ _. right. split; [auto|apply Hh]. Qed.
End Fields.

(* optional strings where empty elements are skipped *)
Lemma handles_str : forall r S (h : Z -> Z -> Z -> S -> outcome (step S)) id o (g : option (list Z) -> S -> S),
  short o ->
  (forall q n s, h id q n s = string_field r q n (fun x => g x s)) ->
  Forall2 (handles r ZSkip h) (str id o) (match o with None => [] | Some [] => [fun s => s] | Some b => [g (Some b)] end).
Proof.
  intros r S h id [b|] g Hl Hh; [|constructor]. cbn [str]. destruct b as [|x b].
  - constructor; [|constructor]. intros p q s Hc _ _. cbn in Hc. left. auto.
  - constructor; [|constructor]. apply (field_string r S h id (x :: b) g); auto. discriminate.
Qed.

Lemma handles_map : forall r S zr (h : Z -> Z -> Z -> S -> outcome (step S)) X (tr : X -> tree) (f : X -> S -> S) l,
  (forall x, In x l -> handles r zr h (tr x) (f x)) -> Forall2 (handles r zr h) (map tr l) (map f l).
Proof. intros r S zr h X tr f l. induction l as [|x l IH]; intros H; constructor; [apply H; left; reflexivity|apply IH; intros; apply H; right; assumption]. Qed.

Lemma fold_left_map : forall (S X : Type) (f : X -> S -> S) l s, fold_left (fun s g => g s) (map f l) s = fold_left (fun s x => f x s) l s.
Proof. intros S X f l. induction l as [|x l IH]; intros s; cbn [map fold_left]; auto. Qed.

(* ---------- chapters ---------- *)

Lemma display_parse : forall r d pos bs, readable_display d -> content (display_tree d) bs -> serves r pos bs -> pos + zlen bs <= LLONG_MAX ->
  Display_Parse r pos (zlen bs) = Val (0, read_display d).
Proof.
  intros r [t l c] pos bs (Ht & Hl & Hc) He Hs HL. cbn [content display_tree di_title di_language di_country] in *. unfold Display_Parse.
  rewrite (walk_payload_trees r ZSkip (display_element r) _ bs
    ((match t with None => [] | Some [] => [fun s => s] | Some b => [fun s => mkPD (Some b) (pd_language s) (pd_country s)] end) ++
     (match l with None => [] | Some [] => [fun s => s] | Some b => [fun s => mkPD (pd_string s) (Some b) (pd_country s)] end) ++
     (match c with None => [] | Some [] => [fun s => s] | Some b => [fun s => mkPD (pd_string s) (pd_language s) (Some b)] end)) pos pd_init He); auto.
  - unfold read_display. cbn [di_title di_language di_country]. destruct t as [[|]|], l as [[|]|], c as [[|]|]; reflexivity.
  - apply Forall2_app; [|apply Forall2_app].
    + apply (handles_str r _ _ _ t (fun x s => mkPD x (pd_language s) (pd_country s)) Ht). intros q n [a b e]. reflexivity.
    + apply (handles_str r _ _ _ l (fun x s => mkPD (pd_string s) x (pd_country s)) Hl). intros q n [a b e]. reflexivity.
    + apply (handles_str r _ _ _ c (fun x s => mkPD (pd_string s) (pd_language s) x) Hc). intros q n [a b e]. reflexivity.
Qed.

Lemma octets_shortest : forall v bs, 0 <= v < 2 ^ 64 -> leaf_payload (LUint v) bs -> zlen bs = octets v.
Proof.
  intros v bs Hv [(Hb & Hl & E) Hmin]. pose proof (be_val_bound bs Hb) as Hbd. rewrite E in Hbd.
  assert (U : forall n, 1 <= n <= 8 -> v < 2 ^ (8 * n) -> zlen bs <= n).
  { intros n Hn Hvn. replace n with (zlen (be_bytes (Z.to_nat n) v)) by (unfold zlen; rewrite be_bytes_length; lia). apply Hmin.
    split; [apply be_bytes_bytes|]. split; [unfold zlen; rewrite be_bytes_length; lia|].
    rewrite be_val_be_bytes. rewrite Z.mod_small; [reflexivity|]. replace (8 * Z.of_nat (Z.to_nat n)) with (8 * n) by lia. lia. }
  assert (D : forall n, 1 <= n <= 8 -> 2 ^ (8 * n) <= v -> n < zlen bs).
  { intros n Hn Hvn. destruct (Z.ltb_spec n (zlen bs)); [assumption|]. exfalso. assert (2 ^ (8 * zlen bs) <= 2 ^ (8 * n)) by (apply Z.pow_le_mono_r; lia). lia. }
  unfold octets.
  repeat match goal with |- _ = if ?a <? ?b then _ else _ => destruct (Z.ltb_spec a b) end;
    match goal with |- _ = ?n => pose proof (U n ltac:(lia) ltac:(assumption || (cbn; lia))); try (pose proof (D (n - 1) ltac:(lia) ltac:(assumption)); lia); lia end.
Qed.

Lemma uid_parse : forall r v pos bs, 0 <= v < 2 ^ 64 -> leaf_payload (LUint v) bs -> serves r pos bs ->
  exists x, UnserializeInt r pos (zlen bs) = Val (0, x) /\ wrap64 x = sign_extended v.
Proof.
  intros r v pos bs Hv Hp Hs. pose proof (octets_shortest v bs Hv Hp) as EL. destruct Hp as [(Hb & Hl & E) _].
  exists (wraps (8 * zlen bs) v). split; [apply UnserializeInt_payload; [|assumption]; split; [assumption|]; split; [assumption|]; rewrite E; reflexivity|].
  pose proof (be_val_bound bs Hb) as Hbd. rewrite E in Hbd. unfold sign_extended. rewrite <- EL. unfold wraps, wrap64.
  rewrite (Z.mod_small v) by lia. assert (2 ^ (8 * zlen bs) <= 2 ^ 64) by (apply Z.pow_le_mono_r; lia). 
  assert (2 ^ (8 * zlen bs) = 2 * 2 ^ (8 * zlen bs - 1)) by (rewrite <- Z.pow_succ_r by lia; f_equal; lia).
  destruct (v <? 2 ^ (8 * zlen bs - 1)) eqn:C; [apply Z.mod_small; lia|].
  replace (v - 2 ^ (8 * zlen bs)) with (v + 2 ^ 64 - 2 ^ (8 * zlen bs) + (-1) * 2 ^ 64) by lia. rewrite Z_mod_plus_full. apply Z.mod_small. lia.
Qed.

Lemma atom_parse : forall r c pos bs, readable_chapter c -> chapter_valid c = true -> values_ok (chapter_tree c) -> content (chapter_tree c) bs -> serves r pos bs -> pos + zlen bs <= LLONG_MAX ->
  Atom_Parse r pos (zlen bs) = Val (0, read_chapter c).
Proof.
  intros r [i st en u ds] pos bs (Hi & Hst & Hen & Hds) HV Hv He Hs HL.
  cbn [content chapter_tree ch_id ch_start ch_end ch_uid ch_displays] in *. unfold Atom_Parse.
  assert (Vu : is_u64 u /\ is_u64 st /\ is_u64 en).
  { unfold chapter_tree in Hv. cbn [values_ok ch_id ch_start ch_end ch_uid ch_displays] in Hv. destruct Hv as [_ Hv]. 
    assert (G : forall a b, fold_right (fun k acc => values_ok k /\ acc) True (a ++ b) -> fold_right (fun k acc => values_ok k /\ acc) True b).
    { induction a as [|x a IH]; intros b Hx; [exact Hx|]. apply IH. apply Hx. }
    apply G in Hv. cbn [fold_right uint values_ok leaf_ok] in Hv. tauto. }
  destruct Vu as (Vu & Vs & Ve). unfold is_u64 in *.
  rewrite (walk_payload_trees r ZSkip (atom_element r) _ bs
    ((match i with None => [] | Some [] => [fun s => s] | Some b => [fun s => mkPA (Some b) (pa_uid s) (pa_start s) (pa_stop s) (pa_displays s)] end) ++
     (fun s => mkPA (pa_string_uid s) (sign_extended u) (pa_start s) (pa_stop s) (pa_displays s)) ::
     (fun s => mkPA (pa_string_uid s) (pa_uid s) st (pa_stop s) (pa_displays s)) ::
     (fun s => mkPA (pa_string_uid s) (pa_uid s) (pa_start s) en (pa_displays s)) ::
     map (fun d s => mkPA (pa_string_uid s) (pa_uid s) (pa_start s) (pa_stop s) (pa_displays s ++ [read_display d])) ds) pos pa_init He); auto.
  - f_equal. f_equal. unfold read_chapter. cbn [ch_id ch_start ch_end ch_uid ch_displays]. rewrite fold_left_app. cbn [fold_left]. rewrite fold_left_map.
    assert (G : forall l a su uu b e, fold_left (fun s d => mkPA (pa_string_uid s) (pa_uid s) (pa_start s) (pa_stop s) (pa_displays s ++ [read_display d])) l (mkPA su uu b e a)
      = mkPA su uu b e (a ++ map read_display l)).
    { induction l as [|d l IH]; intros a su uu b e; cbn [fold_left map]; [rewrite app_nil_r; reflexivity|]. cbn [pa_string_uid pa_uid pa_start pa_stop pa_displays]. rewrite IH, <- app_assoc. reflexivity. }
    destruct i as [[|]|]; cbn [fold_left pa_init pa_string_uid pa_uid pa_start pa_stop pa_displays read_str]; rewrite G; reflexivity.
  - apply Forall2_app; [|constructor; [|constructor; [|constructor]]].
    + destruct i as [[|x b]|]; [| |constructor].
      * constructor; [|constructor]. intros p q s Hc _ _. cbn in Hc. left. auto.
      * constructor; [|constructor]. intros p q [su uu bb ee dd] Hc Hsp _. cbn [content leaf_payload] in Hc. subst p. right. split; [left; discriminate|].
        change (atom_element r (tid (Leaf kMkvChapterStringUID (LBytes (x :: b)))) q (zlen (x :: b)) (mkPA su uu bb ee dd)) with
          (let '(status, y) := UnserializeString r q (zlen (x :: b)) in on_negative status (mkPA y uu bb ee dd)).
        rewrite UnserializeString_payload by assumption. reflexivity.
    + intros p q [su uu bb ee dd] Hc Hsp _. right. destruct (uid_parse r u q p Vu Hc Hsp) as (x & Ex & Ew).
      split; [left; destruct Hc as [(_ & Hc & _) _]; intros ->; rewrite zlen_nil in Hc; lia|].
      change (atom_element r (tid (uint kMkvChapterUID u)) q (zlen p) (mkPA su uu bb ee dd)) with
        (match UnserializeInt r q (zlen p) with UB => UB | Val (status, v) => if status <? 0 then Val (Ret status (mkPA su uu bb ee dd)) else Val (Next (mkPA su (wrap64 v) bb ee dd)) end).
      rewrite Ex, Ew. reflexivity.
    + intros p q [su uu bb ee dd] Hc Hsp _. right. split; [left; destruct Hc as [(_ & Hc & _) _]; intros ->; rewrite zlen_nil in Hc; lia|].
      change (atom_element r (tid (uint kMkvChapterTimeStart st)) q (zlen p) (mkPA su uu bb ee dd)) with
        (match UnserializeUInt r q (zlen p) with UB => UB | Val v => if v <? 0 then Val (Ret v (mkPA su uu bb ee dd)) else Val (Next (mkPA su uu v ee dd)) end).
      rewrite (UnserializeUInt_payload _ _ _ _ (proj1 Hc) Hsp).
      replace (sint64 st) with st by (unfold sint64, wraps; rewrite Z.mod_small by lia; destruct (Z.ltb_spec st (2 ^ (64 - 1))); lia).
      destruct (Z.ltb_spec st 0); [lia|]. reflexivity.
    + intros p q [su uu bb ee dd] Hc Hsp _. right. split; [left; destruct Hc as [(_ & Hc & _) _]; intros ->; rewrite zlen_nil in Hc; lia|].
      change (atom_element r (tid (uint kMkvChapterTimeEnd en)) q (zlen p) (mkPA su uu bb ee dd)) with
        (match UnserializeUInt r q (zlen p) with UB => UB | Val v => if v <? 0 then Val (Ret v (mkPA su uu bb ee dd)) else Val (Next (mkPA su uu bb v dd)) end).
      rewrite (UnserializeUInt_payload _ _ _ _ (proj1 Hc) Hsp).
      replace (sint64 en) with en by (unfold sint64, wraps; rewrite Z.mod_small by lia; destruct (Z.ltb_spec en (2 ^ (64 - 1))); lia).
      destruct (Z.ltb_spec en 0); [lia|]. reflexivity.
    + apply handles_map. intros d Hd p q [su uu bb ee dd] Hc Hsp Hq. rewrite Forall_forall in Hds. specialize (Hds d Hd).
      destruct p as [|x p].
      * left. split; [reflexivity|]. split; [reflexivity|]. exfalso. unfold chapter_valid in HV. cbn [ch_displays] in HV. apply andb_prop in HV as [_ HV]. rewrite forallb_forall in HV. specialize (HV d Hd).
        cbn [content display_tree] in Hc. destruct (di_title d) as [b|]; [|discriminate]. cbn [str app] in Hc. exact (encodes_all_nonempty _ _ Hc).
      * right. split; [left; discriminate|].
        change (atom_element r (tid (display_tree d)) q (zlen (x :: p)) (mkPA su uu bb ee dd)) with
          (match Display_Parse r q (zlen (x :: p)) with UB => UB | Val (status, y) => on_negative status (mkPA su uu bb ee (dd ++ [y])) end).
        rewrite (display_parse r d q (x :: p) Hds Hc Hsp Hq). reflexivity.
Qed.

Lemma fold_append : forall X Y (f : X -> Y) l a, fold_left (fun s x => s ++ [f x]) l a = a ++ map f l.
Proof. intros X Y f l. induction l as [|x l IH]; intros a; cbn [fold_left map]; [rewrite app_nil_r; reflexivity|]. rewrite IH, <- app_assoc. reflexivity. Qed.

Lemma kids_ok : forall id (X : Type) (tr : X -> tree) l x, values_ok (Master id (map tr l)) -> In x l -> values_ok (tr x).
Proof.
  intros id X tr l x [_ H]. revert H. induction l as [|y l IH]; intros H []; cbn [map fold_right] in H; [subst; tauto|]. apply IH; tauto.
Qed.

(* parsers that collect sub-objects of one kind *)
Lemma collect : forall r (X Y : Type) (tr : X -> tree) (f : X -> Y) (parse : reader -> Z -> Z -> outcome (Z * Y)) (h : Z -> Z -> Z -> list Y -> outcome (step (list Y))) id l pos bs,
  (forall x, tid (tr x) = id) ->
  (forall q n s, h id q n s = match parse r q n with UB => UB | Val (st, y) => on_negative st (s ++ [y]) end) ->
  (forall x, In x l -> ~ content (tr x) [] /\ forall q p, content (tr x) p -> serves r q p -> q + zlen p <= LLONG_MAX -> parse r q (zlen p) = Val (0, f x)) ->
  encodes_all (map tr l) bs -> serves r pos bs -> pos + zlen bs <= LLONG_MAX ->
  walk_payload r ZSkip h pos (zlen bs) [] = Val (0, map f l).
Proof.
  intros r X Y tr f parse h id l pos bs Hid Hh Hp He Hs HL.
  rewrite (walk_payload_trees r ZSkip h _ bs (map (fun x s => s ++ [f x]) l) pos [] He); auto.
  - rewrite fold_left_map, fold_append. reflexivity.
  - apply handles_map. intros x Hx p q s Hc Hsp Hq. destruct (Hp x Hx) as [Hn Hpar]. right. split; [left; intros ->; exact (Hn Hc)|].
    rewrite Hid, Hh, (Hpar q p Hc Hsp Hq). reflexivity.
Qed.

Lemma edition_parse : forall r l pos bs, Forall readable_chapter l -> forallb chapter_valid l = true -> (forall c, In c l -> values_ok (chapter_tree c)) ->
  encodes_all (map chapter_tree l) bs -> serves r pos bs -> pos + zlen bs <= LLONG_MAX ->
  Edition_Parse r pos (zlen bs) = Val (0, map read_chapter l).
Proof.
  intros r l pos bs HR HV Hok He Hs HL. unfold Edition_Parse.
  apply (collect r chapter p_atom chapter_tree read_chapter Atom_Parse _ kMkvChapterAtom); auto.
  intros c Hc. rewrite Forall_forall in HR. rewrite forallb_forall in HV. split.
  - cbn [content chapter_tree]. destruct (ch_id c) as [b|]; cbn [str app]; apply encodes_all_nonempty.
  - intros q p H1 H2 H3. apply atom_parse; auto.
Qed.

Lemma element_content : forall r pos t bs, encodes t bs -> serves r pos bs -> pos + zlen bs <= LLONG_MAX ->
  exists start p, element_at r pos (tid t) start (zlen p) /\ start + zlen p = pos + zlen bs /\ content t p /\ serves r start p.
Proof.
  intros r pos t bs He Hs HL. destruct (encodes_inv _ _ He) as (p & Hc & ib & w & Hib & (Hw & Hfit) & Ea).
  assert (Lv : zlen (vint w (zlen p)) = w). { unfold vint, zlen. rewrite be_bytes_length. lia. }
  assert (La : zlen bs = zlen ib + w + zlen p). { rewrite Ea, !zlen_app, Lv. lia. }
  pose proof (zlen_nonneg _ p) as Hp0. pose proof (zlen_nonneg _ ib).
  exists (pos + zlen ib + w), p. split; [|split; [lia|split; [exact Hc|]]].
  - unfold element_at. apply ParseElementHeader_element; auto; try lia. apply (serves_app_l _ _ _ p). rewrite <- app_assoc, <- Ea. exact Hs.
  - rewrite Ea in Hs. apply serves_app_r in Hs. apply serves_app_r in Hs. rewrite Lv in Hs. exact Hs.
Qed.

Lemma encodes_one : forall t bs, encodes_all [t] bs -> encodes t bs.
Proof. intros t bs H. inversion H as [|? ? a b Ha Hb]; subst. inversion Hb; subst. rewrite app_nil_r. exact Ha. Qed.

Theorem chapters_read : forall r l pos bs, representable [chapters_tree l] -> forallb chapter_valid l = true -> Forall readable_chapter l ->
  encodes_all [chapters_tree l] bs -> serves r pos bs -> pos + zlen bs <= LLONG_MAX ->
  exists start size, element_at r pos kMkvChapters start size /\ start + size = pos + zlen bs /\
    Chapters_Parse r start size = Val (0, read_chapters l).
Proof.
  intros r l pos bs [Hok _] HV HR He Hs HL. apply encodes_one in He. destruct (element_content r pos _ bs He Hs HL) as (start & p & H1 & H2 & Hc & Hsp).
  exists start, (zlen p). split; [exact H1|]. split; [exact H2|]. inversion Hok as [|? ? Hok1 _]; subst. cbn [chapters_tree values_ok] in Hok1.
  change (content (chapters_tree l) p) with (encodes_all [Master kMkvEditionEntry (map chapter_tree l)] p) in Hc.
  destruct Hok1 as [_ [Hok1 _]]. unfold Chapters_Parse, read_chapters. destruct l as [|c l'] eqn:El.
  - rewrite (walk_payload_trees r ZSkip (chapters_element r) _ p [fun s => s] start [] Hc); auto; [|lia]. constructor; [|constructor].
    intros p' q s Hc' _ _. cbn in Hc'. inversion Hc'; subst. left. auto.
  - rewrite <- El in *. change [map read_chapter l] with (map (map read_chapter) [l]).
    apply (collect r (list chapter) (list p_atom) (fun k => Master kMkvEditionEntry (map chapter_tree k)) (map read_chapter) Edition_Parse _ kMkvEditionEntry); auto; [|lia].
    intros x [<-|[]]. split; [rewrite El; apply encodes_all_nonempty|]. intros q p' Hc' Hs' Hq. apply edition_parse; auto. intros c' Hc''. apply (kids_ok kMkvEditionEntry chapter chapter_tree l); auto.
Qed.

(* ---------- tags ---------- *)

Lemma simple_tag_parse : forall r t pos bs, short (st_name t) /\ short (st_string t) -> content (simple_tag_tree t) bs -> serves r pos bs -> pos + zlen bs <= LLONG_MAX ->
  SimpleTag_Parse r pos (zlen bs) = Val (0, read_simple_tag t).
Proof.
  intros r [n v] pos bs (Hn & Hv) He Hs HL. cbn [content simple_tag_tree st_name st_string] in *. unfold SimpleTag_Parse.
  rewrite (walk_payload_trees r ZSkip (simple_tag_element r) _ bs
    ((match n with None => [] | Some [] => [fun s => s] | Some b => [fun s => mkPS (Some b) (ps_string s)] end) ++
     (match v with None => [] | Some [] => [fun s => s] | Some b => [fun s => mkPS (ps_name s) (Some b)] end)) pos ps_init He); auto.
  - unfold read_simple_tag. cbn [st_name st_string]. destruct n as [[|]|], v as [[|]|]; reflexivity.
  - apply Forall2_app.
    + apply (handles_str r _ _ _ n (fun x s => mkPS x (ps_string s)) Hn). intros q m [a b]. reflexivity.
    + apply (handles_str r _ _ _ v (fun x s => mkPS (ps_name s) x) Hv). intros q m [a b]. reflexivity.
Qed.

Theorem tags_read : forall r l pos bs, forallb tag_valid l = true -> Forall readable_tag l ->
  encodes_all [tags_tree l] bs -> serves r pos bs -> pos + zlen bs <= LLONG_MAX ->
  exists start size, element_at r pos kMkvTags start size /\ start + size = pos + zlen bs /\
    Tags_Parse r start size = Val (0, read_tags l).
Proof.
  intros r l pos bs HV HR He Hs HL. apply encodes_one in He. destruct (element_content r pos _ bs He Hs HL) as (start & p & H1 & H2 & Hc & Hsp).
  exists start, (zlen p). split; [exact H1|]. split; [exact H2|]. cbn [content tags_tree] in Hc. unfold Tags_Parse, read_tags.
  rewrite (walk_payload_trees r ZSkip (tags_element r) _ p (map (fun t s => match t with [] => s | _ => s ++ [map read_simple_tag t] end) l) start [] Hc); auto; [| |lia].
  - rewrite fold_left_map. do 2 f_equal. assert (G : forall k a, fold_left (fun s (t : tag) => match t with [] => s | _ => s ++ [map read_simple_tag t] end) k a = a ++ map (map read_simple_tag) (filter (fun t : tag => match t with [] => false | _ => true end) k)).
    { induction k as [|t k IH]; intros a; cbn [fold_left filter map]; [rewrite app_nil_r; reflexivity|]. destruct t; rewrite IH; [reflexivity|]. cbn [map]. rewrite <- app_assoc. reflexivity. }
    apply G.
  - rewrite Forall_forall in HR. rewrite forallb_forall in HV. apply handles_map. intros t Ht p' q s Hc' Hs' Hq. cbn [content tag_tree] in Hc'. destruct t as [|x t'] eqn:Et.
    + inversion Hc'; subst. left. auto.
    + rewrite <- Et in *. specialize (HR t Ht). specialize (HV t Ht). right. split; [left; intros ->; rewrite Et in Hc'; exact (encodes_all_nonempty _ _ Hc')|].
      change (tags_element r (tid (tag_tree t)) q (zlen p') s) with (match Tag_Parse r q (zlen p') with UB => UB | Val (st, y) => on_negative st (s ++ [y]) end).
      replace (Tag_Parse r q (zlen p')) with (Val (0, map read_simple_tag t)); [reflexivity|]. symmetry. unfold Tag_Parse.
      apply (collect r simple_tag p_simple_tag simple_tag_tree read_simple_tag SimpleTag_Parse _ kMkvSimpleTag); auto.
      intros y Hy. unfold readable_tag in HR. rewrite Forall_forall in HR. unfold tag_valid in HV. rewrite forallb_forall in HV. specialize (HV y Hy). split.
      * cbn [content simple_tag_tree]. apply andb_prop in HV as [HV _]. destruct (st_name y); [|discriminate]. cbn [str app]. apply encodes_all_nonempty.
      * intros q' p'' A B C. apply simple_tag_parse; auto.
Qed.
