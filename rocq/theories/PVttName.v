(* The output files of vttdemux. *)
From Coq Require Import ZifyBool ZifyNat Sorting.Sorted String Ascii.
From Verif Require Import Base VttSpec VttNameSpec MVttMux PVttMux MVttName.

Definition msorted (m : metadata_map) : Prop := StronglySorted (fun a b => fst a < fst b) m.
Lemma set_in : forall n k m n' k', msorted m -> (In (n', k') (map_set n k m) <-> n' = n /\ k' = k \/ n' <> n /\ In (n', k') m).
Proof.
  intros n k m n' k'. induction m as [|[a b] m IH]; intro HS; cbn [map_set].
  - cbn [In]. split; [intros [E|[]]; injection E as <- <-; tauto|intros [[-> ->]|[_ []]]; left; reflexivity].
  - apply StronglySorted_inv in HS. destruct HS as [HS HF]. rewrite Forall_forall in HF.
    destruct (n <? a) eqn:E1.
    + cbn [In]. split.
      * intros [E|[E|E]]; [injection E as <- <-; tauto|injection E as <- <-; right; split; [lia|tauto]|]. right. specialize (HF _ E). cbn [fst] in HF. split; [lia|tauto].
      * intros [[-> ->]|[_ E]]; tauto.
    + destruct (n =? a) eqn:E2.
      * assert (n = a) by lia. subst a. cbn [In]. split.
        -- intros [E|E]; [injection E as <- <-; tauto|]. right. specialize (HF _ E). cbn [fst] in HF. split; [lia|tauto].
        -- intros [[-> ->]|[H [E|E]]]; [tauto|injection E; intros; congruence|tauto].
      * cbn [In]. rewrite (IH HS). split.
        -- intros [E|[E|[H E]]]; [injection E as <- <-; right; split; [lia|tauto]|tauto|tauto].
        -- intros [E|[H [E|E]]]; tauto.
Qed.
Lemma set_sorted : forall n k m, msorted m -> msorted (map_set n k m).
Proof.
  intros n k m. induction m as [|[a b] m IH]; intro HS; cbn [map_set]; [repeat constructor|]. pose proof HS as HS0. apply StronglySorted_inv in HS. destruct HS as [HS HF].
  destruct (n <? a) eqn:E1.
  - constructor; [exact HS0|]. constructor; [cbn [fst]; lia|]. eapply Forall_impl; [|exact HF]. cbn [fst]. intros x Hx. lia.
  - destruct (n =? a) eqn:E2.
    + assert (n = a) by lia. subst a. constructor; [exact HS|exact HF].
    + constructor; [exact (IH HS)|]. apply Forall_forall. intros [x y] Hx. apply (set_in n k m x y HS) in Hx. rewrite Forall_forall in HF. cbn [fst]. destruct Hx as [[-> _]|[_ Hx]]; [lia|exact (HF _ Hx)].
Qed.
Lemma bytes_eqb_eq : forall a b, bytes_eqb a b = true <-> a = b.
Proof.
  induction a as [|x a IH]; intros [|y b]; cbn [bytes_eqb]; try (split; congruence). rewrite Bool.andb_true_iff, IH. split; [intros [E ->]; f_equal; lia|intro E; injection E as -> ->; split; [lia|reflexivity]].
Qed.
Lemma codec_kind_is : forall c k, no_nul c -> (codec_kind c = Some k <-> k <> Chapters /\ c = codec_name k).
Proof.
  intros c k H. unfold codec_kind. cbv zeta. rewrite (c_str_id _ H).
  destruct (bytes_eqb c (text "D_WEBVTT/SUBTITLES")) eqn:E1; [apply bytes_eqb_eq in E1; subst c; destruct k; vm_compute; intuition congruence|].
  destruct (bytes_eqb c (text "D_WEBVTT/CAPTIONS")) eqn:E2; [apply bytes_eqb_eq in E2; subst c; destruct k; vm_compute; intuition congruence|].
  destruct (bytes_eqb c (text "D_WEBVTT/DESCRIPTIONS")) eqn:E3; [apply bytes_eqb_eq in E3; subst c; destruct k; vm_compute; intuition congruence|].
  destruct (bytes_eqb c (text "D_WEBVTT/METADATA")) eqn:E4; [apply bytes_eqb_eq in E4; subst c; destruct k; vm_compute; intuition congruence|].
  split; [discriminate|]. intros [K ->]. exfalso. destruct k; cbn [codec_name] in *; [rewrite (proj2 (bytes_eqb_eq _ _) eq_refl) in E1|rewrite (proj2 (bytes_eqb_eq _ _) eq_refl) in E2|rewrite (proj2 (bytes_eqb_eq _ _) eq_refl) in E3|rewrite (proj2 (bytes_eqb_eq _ _) eq_refl) in E4|]; congruence.
Qed.
Definition codecs_ok (ts : list track_info) : Prop := forall t c, In t ts -> snd t = Some c -> no_nul c.
Definition last_says (ts : list track_info) (n : Z) (k : kind) : Prop := exists a t b, ts = a ++ t :: b /\ says t n k /\ forall t' k', In t' b -> ~ says t' n k'.
Definition silent (ts : list track_info) (n : Z) : Prop := forall t k, In t ts -> ~ says t n k.
Lemma last_cons : forall t ts n k, last_says (t :: ts) n k <-> last_says ts n k \/ says t n k /\ silent ts n.
Proof.
  intros t ts n k. split.
  - intros (a & t' & b & E & HS & HN). destruct a as [|x a]; cbn [app] in E; injection E as -> ->; [right; split; [exact HS|exact HN]|left; exists a, t', b; split; [reflexivity|split; assumption]].
  - intros [(a & t' & b & -> & HS & HN)|[HS HN]]; [exists (t :: a), t', b|exists [], t, ts]; split; try reflexivity; split; assumption.
Qed.
Lemma tracks_in : forall ts m n k, codecs_ok ts -> msorted m ->
  msorted (tracks_loop ts m) /\ (In (n, k) (tracks_loop ts m) <-> last_says ts n k \/ In (n, k) m /\ silent ts n).
Proof.
  induction ts as [|[tn codec] ts IH]; intros m n k HC HS.
  - cbn [tracks_loop]. split; [exact HS|]. split; [intro H; right; split; [exact H|intros t k' []]|]. intros [(a & t & b & E & _)|[H _]]; [destruct a; discriminate E|exact H].
  - assert (HC' : codecs_ok ts) by (intros t c Ht; apply HC; right; exact Ht).
    assert (SIL : forall P : Prop, (forall k', ~ says (tn, codec) n k') ->
      ((last_says ts n k \/ P /\ silent ts n) <-> (last_says ((tn, codec) :: ts) n k \/ P /\ silent ((tn, codec) :: ts) n))).
    { intros P HN. rewrite last_cons. assert (E : silent ts n <-> silent ((tn, codec) :: ts) n).
      { split; [intros H t k' [<-|Ht]; [apply HN|exact (H t k' Ht)]|intros H t k' Ht; apply (H t k'); right; exact Ht]. }
      rewrite <- E. specialize (HN k). tauto. }
    cbn [tracks_loop]. destruct (tn <=? 0) eqn:E0.
    { destruct (IH m n k HC' HS) as [IH1 IH2]. split; [exact IH1|]. rewrite IH2. apply SIL. intros k' (K1 & K2 & _). cbn [fst] in K1. lia. }
    destruct codec as [c|].
    2:{ destruct (IH m n k HC' HS) as [IH1 IH2]. split; [exact IH1|]. rewrite IH2. apply SIL. intros k' (_ & _ & _ & K). cbn [snd] in K. discriminate K. }
    assert (Hc : no_nul c) by (apply (HC (tn, Some c) c); [left; reflexivity|reflexivity]).
    destruct (codec_kind c) as [kd|] eqn:EK.
    2:{ destruct (IH m n k HC' HS) as [IH1 IH2]. split; [exact IH1|]. rewrite IH2. apply SIL. intros k' (_ & _ & K1 & K2). cbn [snd] in K2. injection K2 as K2.
        rewrite (proj2 (codec_kind_is c k' Hc) (conj K1 K2)) in EK. discriminate EK. }
    destruct (IH (map_set tn kd m) n k HC' (set_sorted tn kd m HS)) as [IH1 IH2]. split; [exact IH1|]. rewrite IH2, last_cons, (set_in tn kd m n k HS).
    apply (codec_kind_is c kd Hc) in EK. destruct EK as [K1 K2].
    assert (SY : forall k', says (tn, Some c) n k' <-> n = tn /\ k' = kd).
    { intro k'. unfold says. cbn [fst snd]. split.
      - intros (-> & _ & A & B). split; [reflexivity|]. injection B as B. rewrite K2 in B. destruct k', kd; try congruence; vm_compute in B; discriminate B.
      - intros [-> ->]. split; [reflexivity|]. split; [lia|]. split; [exact K1|]. rewrite K2. reflexivity. }
    assert (E : silent ((tn, Some c) :: ts) n <-> n <> tn /\ silent ts n).
    { split.
      - intro H. split; [intro K; apply (H (tn, Some c) kd); [left; reflexivity|apply SY; tauto]|intros t k' Ht; apply H; right; exact Ht].
      - intros [H1 H2] t k' [<-|Ht]; [rewrite SY; tauto|exact (H2 t k' Ht)]. }
    rewrite E, SY. tauto.
Qed.
Lemma build_in : forall chapters ts n k, codecs_ok ts -> msorted (BuildMap chapters ts) /\ (In (n, k) (BuildMap chapters ts) <-> is_kind chapters ts n k).
Proof.
  intros chapters ts n k HC. unfold BuildMap. assert (HS : msorted (if chapters then map_set 0 Chapters [] else [])) by (destruct chapters; cbn; repeat constructor).
  destruct (tracks_in ts _ n k HC HS) as [H1 H2]. split; [exact H1|]. rewrite H2. unfold is_kind. fold (last_says ts n k).
  assert (S0 : silent ts 0) by (intros t k' _ (_ & K & _); lia).
  destruct chapters; cbn [map_set In].
  - split; [intros [H|[[H|[]] _]]; [tauto|injection H as <- <-; tauto]|]. intros [(-> & -> & _)|H]; tauto.
  - split; [intros [H|[[] _]]; tauto|]. intros [(_ & _ & H)|H]; [discriminate H|tauto].
Qed.

(* names *)
Lemma output_is : forall base m v, output_name base m v = base ++ kind_name (snd v) ++ (if count_of (snd v) m >? 1 then ll_text 0 (fst v) else []) ++ text ".vtt".
Proof. intros base m [n k]. unfold output_name. cbn [fst snd]. cbv zeta. destruct (count_of k m >? 1), k; cbn [kind_name]; rewrite <- ?app_assoc; reflexivity. Qed.
Lemma kinds_differ : forall k k' x y, kind_name k ++ x = kind_name k' ++ y -> k = k'.
Proof. intros k k' x y E. destruct k, k'; try reflexivity; vm_compute in E; discriminate E. Qed.
Lemma kind_hd : forall k x, hd 0 (kind_name k ++ x) = 95.
Proof. intros k x. destruct k; reflexivity. Qed.
Lemma kind_eqb_eq : forall a b, kind_eqb a b = true <-> a = b.
Proof. intros a b. destruct a, b; cbn; split; congruence. Qed.
Lemma count_many : forall k m n n', msorted m -> In (n, k) m -> In (n', k) m -> n <> n' -> (count_of k m >? 1) = true.
Proof.
  intros k m n n' HS H1 H2 Hn. unfold count_of. set (f := fun v : Z * kind => kind_eqb (snd v) k).
  assert (I1 : In (n, k) (filter f m)) by (apply filter_In; split; [exact H1|apply kind_eqb_eq; reflexivity]).
  assert (I2 : In (n', k) (filter f m)) by (apply filter_In; split; [exact H2|apply kind_eqb_eq; reflexivity]).
  destruct (filter f m) as [|x [|y l]]; [destruct I1|destruct I1 as [->|[]]; destruct I2 as [E|[]]; injection E; congruence|]. unfold zlen. cbn [length]. lia.
Qed.
Lemma sorted_key : forall m n k k', msorted m -> In (n, k) m -> In (n, k') m -> k = k'.
Proof.
  induction m as [|[a b] m IH]; intros n k k' HS H1 H2; [destruct H1|]. apply StronglySorted_inv in HS. destruct HS as [HS HF]. rewrite Forall_forall in HF.
  destruct H1 as [E1|H1], H2 as [E2|H2].
  - congruence.
  - injection E1 as -> ->. specialize (HF _ H2). cbn [fst] in HF. lia.
  - injection E2 as -> ->. specialize (HF _ H1). cbn [fst] in HF. lia.
  - exact (IH n k k' HS H1 H2).
Qed.
Lemma count_one : forall k m n, msorted m -> In (n, k) m -> (forall n', In (n', k) m -> n' = n) -> (count_of k m >? 1) = false.
Proof.
  intros k m n HS H1 H2. unfold count_of. set (f := fun v : Z * kind => kind_eqb (snd v) k).
  assert (HS2 : msorted (filter f m)).
  { clear H1 H2. induction m as [|x m IH]; [constructor|]. apply StronglySorted_inv in HS. destruct HS as [HS HF]. cbn [filter]. destruct (f x); [|exact (IH HS)].
    constructor; [exact (IH HS)|]. rewrite Forall_forall in *. intros y Hy. apply filter_In in Hy. exact (HF y (proj1 Hy)). }
  assert (HA : forall v, In v (filter f m) -> v = (n, k)).
  { intros [a b] Hv. apply filter_In in Hv. destruct Hv as [Hv Hk]. apply kind_eqb_eq in Hk. cbn [snd] in Hk. subst b. rewrite (H2 a Hv). reflexivity. }
  destruct (filter f m) as [|x [|y l]]; [reflexivity|reflexivity|]. exfalso. apply StronglySorted_inv in HS2. destruct HS2 as [_ HF]. apply Forall_cons_iff in HF. destruct HF as [HF _].
  rewrite (HA x ltac:(left; reflexivity)), (HA y ltac:(right; left; reflexivity)) in HF. cbn [fst] in HF. lia.
Qed.

Lemma ll0_text : forall n, 0 <= n -> ll_text 0 n = ll_digits 20 n.
Proof. intros n H. unfold ll_text. destruct (n <? 0) eqn:E; [lia|]. unfold ll_padded. cbv zeta. reflexivity. Qed.
Lemma ll_hd : forall f n, 0 <= n < 10 ^ Z.of_nat f -> f <> O -> ll_digits f n = [48] /\ n = 0 \/ 0 < n /\ hd 48 (ll_digits f n) <> 48.
Proof.
  induction f as [|f IH]; intros n H Hf; [congruence|]. cbn [ll_digits]. destruct (n <? 10) eqn:E.
  - destruct (Z.eq_dec n 0) as [->|Hn]; [left; split; reflexivity|right; cbn [hd]; lia].
  - right. split; [lia|]. rewrite Nat2Z.inj_succ, Z.pow_succ_r in H by lia.
    assert (Q : 0 <= n / 10 < 10 ^ Z.of_nat f) by (split; [apply Z.div_pos; lia|apply Z.div_lt_upper_bound; lia]).
    assert (Q1 : 1 <= n / 10) by (apply Z.div_le_lower_bound; lia).
    destruct f as [|f]; [change (10 ^ Z.of_nat 0) with 1 in Q; lia|]. destruct (IH (n / 10) Q ltac:(discriminate)) as [[_ K]|[_ K]]; [lia|].
    pose proof (ll_ne (S f) (n / 10) ltac:(discriminate)) as NE. destruct (ll_digits (S f) (n / 10)) as [|x l]; [congruence|]. exact K.
Qed.
Lemma pow20 : forall n, 0 <= n < 2 ^ 63 -> 0 <= n < 10 ^ Z.of_nat 20.
Proof. intros n H. change (10 ^ Z.of_nat 20) with 100000000000000000000. change (2 ^ 63) with 9223372036854775808 in H. lia. Qed.
Lemma ll_decimal_of : forall n, 0 <= n < 2 ^ 63 -> decimal_of n (ll_text 0 n).
Proof.
  intros n H. rewrite ll0_text by lia. split; [apply ll_all; lia|]. split; [exact (ll_decimal 20 n (pow20 n H))|]. destruct (ll_hd 20 n (pow20 n H) ltac:(discriminate)) as [[K _]|[_ K]]; tauto.
Qed.
Lemma names_differ : forall base m v w, msorted m -> In v m -> In w m -> (forall x, In x m -> 0 <= fst x < 2 ^ 63) -> output_name base m v = output_name base m w -> v = w.
Proof.
  intros base m [n k] [n' k'] HS Hv Hw HR E. rewrite !output_is in E. cbn [fst snd] in E. apply app_inv_head in E. pose proof (kinds_differ _ _ _ _ E) as EK. subst k'.
  apply app_inv_head in E. apply app_inv_tail in E. destruct (Z.eq_dec n n') as [->|Hn]; [reflexivity|]. exfalso.
  rewrite (count_many k m n n' HS Hv Hw Hn) in E. pose proof (HR _ Hv) as R1. pose proof (HR _ Hw) as R2. cbn [fst] in R1, R2.
  destruct (ll_decimal_of n R1) as (_ & V1 & _). destruct (ll_decimal_of n' R2) as (_ & V2 & _). rewrite E in V1. congruence.
Qed.
Lemma in_no0 : forall l, forallb (fun c => negb (c =? 0)) l = true -> ~ In 0 l.
Proof. intros l H K. rewrite forallb_forall in H. specialize (H 0 K). discriminate H. Qed.
Lemma output_no0 : forall base m v, no_nul base -> 0 <= fst v < 2 ^ 63 -> no_nul (output_name base m v).
Proof.
  intros base m [n k] HB HR K. rewrite output_is in K. cbn [fst snd] in *. apply in_app_or in K. destruct K as [K|K]; [exact (HB K)|]. apply in_app_or in K.
  destruct K as [K|K]; [revert K; apply in_no0; destruct k; reflexivity|]. apply in_app_or in K. destruct K as [K|K]; [|revert K; apply in_no0; reflexivity].
  destruct (count_of k m >? 1); [|destruct K]. destruct (ll_decimal_of n HR) as (D & _). rewrite Forall_forall in D. specialize (D 0 K). lia.
Qed.

Lemma last_dot : forall l, match before_last_dot l with Some b => exists e, l = b ++ [46] ++ e /\ ~ In 46 e | None => ~ In 46 l end.
Proof.
  induction l as [|c l IH]; cbn [before_last_dot]; [intros []|]. destruct (before_last_dot l) as [b|].
  - destruct IH as (e & -> & H). exists e. split; [reflexivity|exact H].
  - destruct (c =? 46) eqn:E; [exists l; split; [assert (c = 46) by lia; subst c; reflexivity|exact IH]|]. intros [K|K]; [lia|exact (IH K)].
Qed.
Lemma last_dot_is : forall base e, ~ In 46 e -> before_last_dot (base ++ [46] ++ e) = Some base.
Proof.
  induction base as [|c base IH]; intros e H; cbn [app before_last_dot].
  - pose proof (last_dot e) as K. destruct (before_last_dot e) as [b|]; [destruct K as (e' & -> & _); exfalso; apply H; apply in_or_app; right; left; reflexivity|]. reflexivity.
  - specialize (IH e H). cbn [app] in IH. rewrite IH. reflexivity.
Qed.
Lemma open_is : forall can_open base all m ok fs, no_nul base -> (forall x, In x m -> 0 <= fst x < 2 ^ 63) -> open_loop can_open base all m = (ok, fs) ->
  exists pre post, m = pre ++ post /\ fs = map (fun v => (fst v, output_name base all v)) pre /\ (ok = true -> post = []) /\ ((forall name, can_open name = true) -> ok = true).
Proof.
  intros can_open base all. induction m as [|v m IH]; intros ok fs HB HR E; cbn [open_loop] in E.
  - injection E as <- <-. exists [], []. tauto.
  - rewrite (c_str_id _ (output_no0 base all v HB (HR v ltac:(left; reflexivity)))) in E. cbv zeta in E. destruct (can_open (output_name base all v)) eqn:EO.
    + destruct (open_loop can_open base all m) as [ok' l] eqn:EL. injection E as <- <-. destruct (IH ok' l HB ltac:(intros x Hx; apply HR; right; exact Hx) eq_refl) as (pre & post & -> & -> & H1 & H2).
      exists (v :: pre), post. split; [reflexivity|]. split; [reflexivity|]. tauto.
    + injection E as <- <-. exists [], (v :: m). split; [reflexivity|]. split; [reflexivity|]. split; [discriminate|]. intro K. rewrite K in EO. discriminate EO.
Qed.
