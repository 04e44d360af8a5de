(* WebVTT cues through a file: the blocks. *)
From Coq Require Import ZifyBool ZifyNat.
From Verif Require Import Base MVtt VttSpec PVtt PVtt2 PVtt3 VttMuxSpec MVttMux.

Definition text_ok (l : list Z) : Prop := plain_line l /\ no_eol l /\ ~ In 0 l.
Definition round_ms (t : time) : Prop := t_ms t = 0 \/ 100 <= t_ms t.
Definition setting_ok (s : setting) : Prop := token (set_name s) /\ token (set_value s) /\ text_ok (set_name s) /\ text_ok (set_value s).
Definition cue_ok (q : cue) : Prop :=
  (q_id q = [] \/ text_ok (q_id q) /\ ~ has_arrow (q_id q)) /\ Forall setting_ok (q_settings q) /\ settings_fit q /\
  q_payload q <> [] /\ Forall (fun l => l <> [] /\ text_ok l) (q_payload q) /\
  proper (q_start q) /\ proper (q_stop q) /\ round_ms (q_start q) /\ round_ms (q_stop q) /\
  millis (q_start q) <= millis (q_stop q) /\ times_fit q.

Lemma c_str_id : forall l, ~ In 0 l -> c_str l = l.
Proof. induction l as [|c l IH]; intro H; [reflexivity|]. cbn [c_str]. destruct (c =? 0) eqn:E; [exfalso; apply H; left; lia|]. rewrite IH; [reflexivity|]. intro K. apply H. right. exact K. Qed.

(* lines *)
Definition unlines (ls : list (list Z)) : list Z := flat_map (fun l => l ++ [10]) ls.
Lemma unlines_lines : forall ls, Forall no_eol ls -> text_lines (unlines ls) ls.
Proof.
  induction ls as [|l ls IH]; intro H; [constructor|]. apply Forall_cons_iff in H. destruct H as [H1 H2].
  unfold unlines. cbn [flat_map]. rewrite <- app_assoc. apply tl_lf; [exact H1|exact (IH H2)].
Qed.
Lemma unlines_app : forall a b, unlines (a ++ b) = unlines a ++ unlines b.
Proof. intros. unfold unlines. apply flat_map_app. Qed.
Lemma at_unlines : forall ls, Forall no_eol ls -> Forall plain_line ls -> at_lines (new_parser (map Ch (unlines ls))) ls.
Proof. intros ls H1 H2. exists (unlines ls). split; [reflexivity|]. split; [exact (unlines_lines ls H1)|exact H2]. Qed.

Lemma frame_is : forall q, MakeFrame q = unlines (q_id q :: settings_items (q_settings q) :: q_payload q).
Proof.
  intro q. unfold MakeFrame, frame_identifier, frame_settings, frame_payload, unlines. cbn [flat_map]. unfold kLF.
  destruct (q_settings q) as [|s r]; reflexivity.
Qed.

Lemma app_ok : forall a b, Forall plain_char a -> no_eol a -> ~ In 0 a -> Forall plain_char b -> no_eol b -> ~ In 0 b ->
  Forall plain_char (a ++ b) /\ no_eol (a ++ b) /\ ~ In 0 (a ++ b).
Proof.
  intros a b A1 A2 A3 B1 B2 B3. split; [apply Forall_app; auto|]. split; [apply Forall_app; auto|]. intro H. apply in_app_or in H. tauto.
Qed.
Definition chars_ok (l : list Z) : Prop := Forall plain_char l /\ no_eol l /\ ~ In 0 l.
Lemma chars_app : forall a b, chars_ok a -> chars_ok b -> chars_ok (a ++ b).
Proof. intros a b (A1 & A2 & A3) (B1 & B2 & B3). apply app_ok; assumption. Qed.
Lemma chars_one : forall c, 14 <= c < 254 -> chars_ok [c].
Proof. intros c H. split; [constructor; [unfold plain_char; lia|constructor]|]. split; [constructor; [lia|constructor]|]. intros [K|[]]. lia. Qed.
Lemma chars_nil : chars_ok []. Proof. split; [constructor|]. split; [constructor|]. intros []. Qed.
Lemma chars_cons : forall c l, 14 <= c < 254 -> chars_ok l -> chars_ok (c :: l).
Proof. intros c l H HL. exact (chars_app [c] l (chars_one c H) HL). Qed.
Lemma ok_chars : forall l, text_ok l -> chars_ok l. Proof. intros l ((A & _) & B & C). split; [exact A|]. split; assumption. Qed.
Lemma chars_ok_text : forall l, chars_ok l -> zlen l <= 10000 -> text_ok l. Proof. intros l (A & B & C) H. split; [split; assumption|]. split; assumption. Qed.

Lemma items_chars : forall ss, Forall setting_ok ss -> chars_ok (settings_items ss).
Proof.
  induction ss as [|s r IH]; intro H; [exact chars_nil|]. apply Forall_cons_iff in H. destruct H as [(_ & _ & H1 & H2) H3]. cbn [settings_items]. unfold kCOLON, kSPACE.
  apply chars_app; [apply ok_chars; exact H1|]. apply chars_app; [apply chars_one; lia|]. apply chars_app; [apply ok_chars; exact H2|].
  destruct r; [exact chars_nil|]. apply chars_app; [apply chars_one; lia|exact (IH H3)].
Qed.
Lemma items_len : forall ss, zlen (settings_items ss) <= settings_size ss.
Proof.
  unfold zlen. induction ss as [|s r IH]; [cbn; lia|]. cbn [settings_items]. unfold settings_size in *. cbn [fold_right]. unfold zlen in *. rewrite !app_length. cbn [length].
  destruct r as [|s' r']; [cbn [length fold_right]; lia|]. rewrite app_length. cbn [length] in *. lia.
Qed.
(* written after a blank they are settings *)
Lemma items_text : forall ss, Forall setting_ok ss -> ss <> [] -> settings_text (32 :: settings_items ss) ss.
Proof.
  induction ss as [|s r IH]; intros H Hne; [congruence|]. apply Forall_cons_iff in H. destruct H as [(H1 & H2 & _) H3]. cbn [settings_items]. unfold kCOLON, kSPACE.
  destruct s as [n v]. cbn [set_name set_value] in *.
  assert (HB : Forall blank [32]) by (constructor; [left; reflexivity|constructor]).
  destruct r as [|s' r'].
  - apply (se_one [32] n v [] []); [discriminate|exact HB|exact H1|exact H2|]. constructor. constructor.
  - change (32 :: n ++ [58] ++ v ++ [32] ++ settings_items (s' :: r')) with ([32] ++ n ++ [58] ++ v ++ (32 :: settings_items (s' :: r'))).
    apply se_one; [discriminate|exact HB|exact H1|exact H2|]. apply IH; [exact H3|discriminate].
Qed.

(* numbers and times *)
Lemma ll_all : forall f n, 0 <= n -> Forall digit (ll_digits f n).
Proof.
  induction f as [|f IH]; intros n H; cbn [ll_digits]; [constructor|]. destruct (n <? 10) eqn:E; [constructor; [unfold digit; lia|constructor]|].
  apply Forall_app. split; [apply IH; apply Z.div_pos; lia|]. constructor; [|constructor]. unfold digit. pose proof (Z.mod_pos_bound n 10 ltac:(lia)). lia.
Qed.
Lemma ll_decimal : forall f n, 0 <= n < 10 ^ Z.of_nat f -> decimal (ll_digits f n) = n.
Proof.
  induction f as [|f IH]; intros n H; [change (10 ^ Z.of_nat 0) with 1 in H; cbn; lia|]. cbn [ll_digits].
  destruct (n <? 10) eqn:E; [unfold decimal; cbn [fold_left]; lia|]. unfold decimal. rewrite fold_left_app. fold (decimal (ll_digits f (n / 10))). rewrite IH.
  - cbn [fold_left]. pose proof (Z.div_mod n 10 ltac:(lia)). lia.
  - rewrite Nat2Z.inj_succ, Z.pow_succ_r in H by lia. split; [apply Z.div_pos; lia|apply Z.div_lt_upper_bound; lia].
Qed.
Lemma ll_len : forall f n k, 0 <= n < 10 ^ Z.of_nat k -> (1 <= k)%nat -> (length (ll_digits f n) <= k)%nat.
Proof.
  induction f as [|f IH]; intros n k H Hk; cbn [ll_digits]; [cbn; lia|]. destruct (n <? 10) eqn:E; [cbn; lia|].
  rewrite app_length. cbn [length]. destruct k as [|[|k]]; [lia|change (10 ^ Z.of_nat 1) with 10 in H; lia|].
  assert (length (ll_digits f (n / 10)) <= S k)%nat; [|lia]. apply IH; [|lia].
  rewrite Nat2Z.inj_succ, Z.pow_succ_r in H by lia. split; [apply Z.div_pos; lia|apply Z.div_lt_upper_bound; lia].
Qed.
Lemma ll_ne : forall f n, f <> O -> ll_digits f n <> [].
Proof. intros [|f] n H; [congruence|]. cbn [ll_digits]. destruct (n <? 10); [discriminate|]. intro K. apply app_eq_nil in K. destruct K as [_ K]. discriminate K. Qed.
Lemma decimal_zeros : forall k ds, decimal (repeat 48 k ++ ds) = decimal ds.
Proof. intros k ds. unfold decimal. induction k as [|k IH]; [reflexivity|]. cbn [repeat app fold_left]. exact IH. Qed.

Lemma ll_text_ok : forall w n, 0 <= n < 10 ^ 10 -> number (ll_text w n) n \/ 2147483647 < n.
Proof.
  intros w n H. destruct (Z.leb_spec n 2147483647) as [L|L]; [left|right; exact L].
  unfold ll_text. destruct (n <? 0) eqn:E; [lia|]. unfold ll_padded. cbv zeta. split; [intro K; apply app_eq_nil in K; destruct K as [_ K]; exact (ll_ne 20 n ltac:(discriminate) K)|].
  split; [apply Forall_app; split; [apply Forall_forall; intros x Hx; apply repeat_spec in Hx; subst x; unfold digit; lia|apply ll_all; lia]|].
  split; [|exact L]. rewrite decimal_zeros. apply ll_decimal. change (10 ^ Z.of_nat 20) with 100000000000000000000. change (10 ^ 10) with 10000000000 in H. lia.
Qed.
Lemma ll_text_number : forall w n, 0 <= n <= 2147483647 -> number (ll_text w n) n.
Proof. intros w n H. destruct (ll_text_ok w n) as [K|K]; [change (10 ^ 10) with 10000000000; lia|exact K|lia]. Qed.
Lemma ll_text_len : forall w n k, 0 <= n < 10 ^ Z.of_nat k -> (1 <= k)%nat -> (w <= length (ll_text w n) <= Nat.max w k)%nat.
Proof.
  intros w n k H Hk. unfold ll_text. destruct (n <? 0) eqn:E; [lia|]. unfold ll_padded. cbv zeta. rewrite app_length, repeat_length. pose proof (ll_len 20 n k H Hk). lia.
Qed.
Lemma digits_chars : forall l, Forall digit l -> chars_ok l.
Proof.
  induction l as [|c l IH]; intro H; [exact chars_nil|]. apply Forall_cons_iff in H. destruct H as [H1 H2]. apply chars_cons; [unfold digit in H1; lia|exact (IH H2)].
Qed.

Lemma cue_time_parts : forall t, proper t -> Z.quot (millis t * 1000000) 1000000 = millis t /\ Z.quot (millis t) 1000 = (t_h t * 60 + t_m t) * 60 + t_s t /\
  Z.quot ((t_h t * 60 + t_m t) * 60 + t_s t) 60 = t_h t * 60 + t_m t /\ Z.quot (t_h t * 60 + t_m t) 60 = t_h t.
Proof.
  intros t (H1 & H2 & H3 & H4). unfold millis. split; [apply Z.quot_mul; lia|].
  rewrite !Z.quot_div_nonneg by lia. split; [|split].
  - symmetry. apply Z.div_unique with (r := t_ms t); lia.
  - symmetry. apply Z.div_unique with (r := t_s t); lia.
  - symmetry. apply Z.div_unique with (r := t_m t); lia.
Qed.
Lemma cue_time_text : forall t, proper t -> WriteCueTime (millis t * 1000000) =
  (if t_h t >? 0 then ll_text 2 (t_h t) ++ [58] else []) ++ ll_text 2 (t_m t) ++ [58] ++ ll_text 2 (t_s t) ++ [46] ++ ll_text 3 (t_ms t).
Proof.
  intros t HP. destruct (cue_time_parts t HP) as (E1 & E2 & E3 & E4). unfold WriteCueTime. cbv zeta. rewrite E1, E2, E3, E4. unfold kCOLON, kDOT.
  replace (t_h t * 60 + t_m t - 60 * t_h t) with (t_m t) by lia. replace ((t_h t * 60 + t_m t) * 60 + t_s t - 60 * (t_h t * 60 + t_m t)) with (t_s t) by lia.
  replace (millis t - ((t_h t * 60 + t_m t) * 60 + t_s t) * 1000) with (t_ms t) by (unfold millis; lia). reflexivity.
Qed.
Lemma cue_time_stamp : forall t, proper t -> round_ms t -> stamp plain_fraction (WriteCueTime (millis t * 1000000)) t.
Proof.
  intros t HP HR. rewrite cue_time_text by exact HP. destruct t as [h m s ms]. destruct HP as (H1 & H2 & H3 & H4). unfold round_ms in HR. cbn [t_h t_m t_s t_ms] in *.
  assert (F : plain_fraction (ll_text 3 ms) ms).
  { split; [|exact HR]. pose proof (ll_text_number 3 ms ltac:(lia)) as (_ & N2 & N3 & _). split; [|split; [exact N2|symmetry; exact N3]].
    pose proof (ll_text_len 3 ms 3 ltac:(change (10 ^ Z.of_nat 3) with 1000; lia) ltac:(lia)). lia. }
  destruct (h >? 0) eqn:E.
  - replace ((ll_text 2 h ++ [58]) ++ ll_text 2 m ++ [58] ++ ll_text 2 s ++ [46] ++ ll_text 3 ms) with ((ll_text 2 h ++ [58] ++ ll_text 2 m ++ [58] ++ ll_text 2 s) ++ [46] ++ ll_text 3 ms) by (rewrite <- !app_assoc; reflexivity).
    apply st_frac; [|exact F]. apply ck_hms; try (apply ll_text_number; lia); lia.
  - assert (h = 0) by lia. subst h. cbn [app].
    replace (ll_text 2 m ++ 58 :: ll_text 2 s ++ 46 :: ll_text 3 ms) with ((ll_text 2 m ++ [58] ++ ll_text 2 s) ++ [46] ++ ll_text 3 ms) by (rewrite <- !app_assoc; reflexivity).
    apply st_frac; [|exact F]. apply ck_ms; try (apply ll_text_number; lia); lia.
Qed.
Lemma num_chars : forall w n, 0 <= n <= 2147483647 -> chars_ok (ll_text w n).
Proof. intros w n H. apply digits_chars. exact (proj1 (proj2 (ll_text_number w n H))). Qed.
Lemma cue_time_ok : forall t, proper t -> chars_ok (WriteCueTime (millis t * 1000000)) /\ zlen (WriteCueTime (millis t * 1000000)) <= 20.
Proof.
  intros t HP. rewrite cue_time_text by exact HP. destruct HP as (H1 & H2 & H3 & H4). split.
  - apply chars_app; [destruct (t_h t >? 0); [apply chars_app; [apply num_chars; lia|apply chars_one; lia]|exact chars_nil]|].
    apply chars_app; [apply num_chars; lia|]. apply chars_app; [apply chars_one; lia|]. apply chars_app; [apply num_chars; lia|]. apply chars_app; [apply chars_one; lia|apply num_chars; lia].
  - unfold zlen. rewrite !app_length. cbn [length].
    pose proof (ll_text_len 2 (t_h t) 10 ltac:(change (10 ^ Z.of_nat 10) with 10000000000; lia) ltac:(lia)).
    pose proof (ll_text_len 2 (t_m t) 2 ltac:(change (10 ^ Z.of_nat 2) with 100; lia) ltac:(lia)).
    pose proof (ll_text_len 2 (t_s t) 2 ltac:(change (10 ^ Z.of_nat 2) with 100; lia) ltac:(lia)).
    pose proof (ll_text_len 3 (t_ms t) 3 ltac:(change (10 ^ Z.of_nat 3) with 1000; lia) ltac:(lia)).
    destruct (t_h t >? 0); rewrite ?app_length; cbn [length]; lia.
Qed.

(* one cue written out *)
Definition tl_of (q : cue) : list Z :=
  WriteCueTime (millis (q_start q) * 1000000) ++ [32; 45; 45; 62; 32] ++ WriteCueTime (millis (q_stop q) * 1000000) ++
  match settings_items (q_settings q) with [] => [] | _ => 32 :: settings_items (q_settings q) end.
Definition out_lines (q : cue) : list (list Z) := match q_id q with [] => [] | _ => [q_id q] end ++ tl_of q :: q_payload q.

Lemma tl_ok : forall q, cue_ok q -> text_ok (tl_of q).
Proof.
  intros q (_ & HS & HF & _ & _ & P1 & P2 & _). unfold settings_fit in HF. pose proof (items_len (q_settings q)) as HL. pose proof (items_chars _ HS) as HC.
  destruct (cue_time_ok _ P1) as [C1 L1]. destruct (cue_time_ok _ P2) as [C2 L2]. apply chars_ok_text.
  - unfold tl_of. apply chars_app; [exact C1|]. apply chars_app; [repeat (apply chars_cons; [lia|]); exact chars_nil|]. apply chars_app; [exact C2|].
    destruct (settings_items (q_settings q)); [exact chars_nil|]. apply chars_cons; [lia|exact HC].
  - unfold tl_of. unfold zlen in *. rewrite !app_length. cbn [length]. destruct (settings_items (q_settings q)); cbn [length] in *; lia.
Qed.
Lemma tl_timings : forall q, cue_ok q -> timings_line plain_fraction (tl_of q) (q_start q) (q_stop q) (q_settings q).
Proof.
  intros q (_ & HS & _ & _ & _ & P1 & P2 & R1 & R2 & _). assert (HB : Forall blank [32]) by (constructor; [left; reflexivity|constructor]).
  exists [], (WriteCueTime (millis (q_start q) * 1000000)), [32], [32], (WriteCueTime (millis (q_stop q) * 1000000)),
    (match settings_items (q_settings q) with [] => [] | _ => 32 :: settings_items (q_settings q) end).
  split; [constructor|]. split; [exact (cue_time_stamp _ P1 R1)|]. split; [exact HB|]. split; [exact HB|]. split; [exact (cue_time_stamp _ P2 R2)|]. split; [|reflexivity].
  destruct (q_settings q) as [|s r] eqn:E; [constructor; constructor|].
  assert (HN : settings_items (s :: r) <> []). { cbn [settings_items]. intro K. apply app_eq_nil in K. destruct K as [_ K]. discriminate K. }
  destruct (settings_items (s :: r)) as [|c l] eqn:E2; [congruence|]. rewrite <- E2. apply items_text; [exact HS|discriminate].
Qed.
Lemma out_block : forall q, cue_ok q -> cue_block plain_fraction (out_lines q) q.
Proof.
  intros q H. exists (match q_id q with [] => [] | _ => [q_id q] end), (tl_of q), (q_payload q). split; [reflexivity|].
  split; [|split; [exact (tl_timings q H)|]].
  - destruct H as (HI & _). destruct (q_id q) as [|c l]; [left; split; reflexivity|right]. split; [reflexivity|]. split; [discriminate|]. destruct HI as [K|[_ K]]; [discriminate K|exact K].
  - destruct H as (_ & _ & _ & HN & HP & _). split; [reflexivity|]. split; [exact HN|]. eapply Forall_impl; [|exact HP]. intros l [K _]. exact K.
Qed.
Lemma out_text : forall q, cue_ok q -> Forall text_ok (out_lines q).
Proof.
  intros q H. pose proof (tl_ok q H) as HT. destruct H as (HI & _ & _ & _ & HP & _). unfold out_lines. apply Forall_app. split.
  - destruct (q_id q) as [|c l]; [constructor|]. constructor; [|constructor]. destruct HI as [K|[K _]]; [discriminate K|exact K].
  - constructor; [exact HT|]. eapply Forall_impl; [|exact HP]. intros l [_ K]. exact K.
Qed.
Lemma text_nil : text_ok []. Proof. apply chars_ok_text; [exact chars_nil|cbn; lia]. Qed.

Lemma payload_lines_ok : forall pl fuel count p, at_lines p pl -> (length pl < fuel)%nat -> 0 <= count -> (pl <> [] \/ 0 < count) ->
  Forall (fun l => l <> [] /\ text_ok l) pl -> payload_lines fuel count p = Val (Some (unlines pl)).
Proof.
  induction pl as [|l pl IH]; intros fuel count p HA Hf Hc Hne HP; (destruct fuel as [|fuel]; [lia|]); cbn [payload_lines].
  - rewrite (GetLine_at_end p HA). cbn [obind]. change (1 <? 0) with false. cbv iota. destruct (count <=? 0) eqn:E; [destruct Hne; [congruence|lia]|reflexivity].
  - destruct (GetLine_at _ _ _ HA) as (p' & E & HA'). rewrite E. cbn [obind]. change (0 <? 0) with false. cbv iota.
    apply Forall_cons_iff in HP. destruct HP as [[Hl (_ & _ & H0)] HP]. destruct l as [|c l]; [congruence|].
    cbn [length] in Hf. rewrite (IH fuel (count + 1) p' HA' ltac:(lia) ltac:(lia) ltac:(right; lia) HP). cbn [obind].
    rewrite (c_str_id _ H0). unfold unlines. cbn [flat_map]. rewrite <- app_assoc. reflexivity.
Qed.

Lemma write_cue_ok : forall q scale b, cue_ok q -> 0 < scale -> 0 <= mb_duration b -> mb_time b = millis (q_start q) * 1000000 ->
  mb_duration b * scale = millis (q_stop q) * 1000000 - millis (q_start q) * 1000000 -> mb_data b = MakeFrame q ->
  WriteCue scale b = Val (Some (unlines ([] :: out_lines q))).
Proof.
  intros q scale b H Hs Hd Et Ed Ef. pose proof (tl_ok q H) as HTL. pose proof H as (HI & HS & HF & HN & HP & P1 & P2 & R1 & R2 & Hle & Hfit).
  assert (TI : text_ok (q_id q)) by (destruct HI as [->|[K _]]; [exact text_nil|exact K]).
  assert (TS : text_ok (settings_items (q_settings q))).
  { apply chars_ok_text; [exact (items_chars _ HS)|]. pose proof (items_len (q_settings q)). unfold settings_fit in HF. lia. }
  assert (HA : at_lines (new_parser (map Ch (mb_data b))) (q_id q :: settings_items (q_settings q) :: q_payload q)).
  { rewrite Ef, frame_is. apply at_unlines; (constructor; [apply TI|]; constructor; [apply TS|]; eapply Forall_impl; [|exact HP]; intros l [_ K]; apply K). }
  unfold WriteCue, WriteCueIdentifier. destruct (GetLine_at _ _ _ HA) as (p1 & E1 & A1). rewrite E1. cbn [obind]. change (negb (0 =? 0)) with false. cbv iota.
  destruct (GetLine_at _ _ _ A1) as (p2 & E2 & A2).
  assert (ET : WriteCueTimings scale b p1 = Val (Some (tl_of q ++ [10]), p2)).
  { unfold WriteCueTimings. destruct (mb_duration b <? 0) eqn:X1; [lia|]. destruct (scale <=? 0) eqn:X2; [lia|]. rewrite Ed, Et.
    assert (0 <= millis (q_start q)) by (destruct P1 as (a1 & a2 & a3 & a4); unfold millis; lia). unfold times_fit in Hfit. change (2 ^ 63) with 9223372036854775808 in Hfit.
    rewrite s64_ok by lia. cbn [obind]. replace (millis (q_start q) * 1000000 + (millis (q_stop q) * 1000000 - millis (q_start q) * 1000000)) with (millis (q_stop q) * 1000000) by lia.
    rewrite s64_ok by lia. cbn [obind]. rewrite E2. cbn [obind]. change (negb (0 =? 0)) with false. cbv iota zeta.
    rewrite (c_str_id _ (proj2 (proj2 TS))). unfold tl_of. do 3 f_equal. rewrite <- !app_assoc. destruct (settings_items (q_settings q)); reflexivity. }
  assert (EP : payload_lines (fuel_of p2) 0 p2 = Val (Some (unlines (q_payload q)))).
  { apply payload_lines_ok; [exact A2|exact (at_lines_fuel _ _ A2)|lia|left; exact HN|exact HP]. }
  unfold out_lines. destruct (q_id q) as [|c l] eqn:EI.
  - cbn [obind]. rewrite ET. cbn [obind]. rewrite EP. cbn [obind]. unfold unlines. cbn [flat_map app]. rewrite <- !app_assoc. reflexivity.
  - cbn [obind]. rewrite ET. cbn [obind]. rewrite EP. cbn [obind]. rewrite (c_str_id _ (proj2 (proj2 TI))). unfold unlines. cbn [flat_map app]. rewrite <- !app_assoc. reflexivity.
Qed.

(* all cues of a track *)
Definition frame_of (v : Z * cue) : meta_frame :=
  mkMF (fst v) (millis (q_start (snd v)) * 1000000) (millis (q_stop (snd v)) * 1000000 - millis (q_start (snd v)) * 1000000) (MakeFrame (snd v)).
Lemma stored_ok : forall scale tr q, cue_ok q -> 0 < scale -> (scale | 1000000) ->
  WriteCue scale (stored scale (frame_of (tr, q))) = Val (Some (unlines ([] :: out_lines q))).
Proof.
  intros scale tr q H Hs [k Hk]. pose proof H as (_ & _ & _ & _ & _ & P1 & P2 & _ & _ & Hle & _).
  unfold stored, frame_of. cbn [mf_time mf_duration mf_data fst snd]. rewrite Hk.
  apply write_cue_ok; cbn [mb_time mb_duration mb_data]; [exact H|exact Hs|..|reflexivity].
  - replace (millis (q_stop q) * (k * scale) - millis (q_start q) * (k * scale)) with ((millis (q_stop q) - millis (q_start q)) * k * scale) by ring.
    rewrite Z.div_mul by lia. assert (0 < k) by nia. nia.
  - rewrite Hk. replace (millis (q_start q) * (k * scale)) with (millis (q_start q) * k * scale) by ring. rewrite Z.div_mul by lia. reflexivity.
  - rewrite Hk. replace (millis (q_stop q) * (k * scale) - millis (q_start q) * (k * scale)) with ((millis (q_stop q) - millis (q_start q)) * k * scale) by ring.
    rewrite Z.div_mul by lia. reflexivity.
Qed.
Definition all_lines (qs : list cue) : list (list Z) := flat_map (fun q => [] :: out_lines q) qs.
Lemma write_cues_ok : forall scale tr qs, Forall cue_ok qs -> 0 < scale -> (scale | 1000000) ->
  write_cues scale (map (fun q => stored scale (frame_of (tr, q))) qs) = Val (Some (unlines (all_lines qs))).
Proof.
  intros scale tr qs H Hs Hk. induction qs as [|q qs IH]; [reflexivity|]. apply Forall_cons_iff in H. destruct H as [H1 H2].
  cbn [map write_cues]. rewrite (stored_ok scale tr q H1 Hs Hk). cbn [obind]. rewrite (IH H2). cbn [obind]. unfold all_lines. cbn [flat_map]. rewrite <- unlines_app. reflexivity.
Qed.
Lemma all_doc : forall qs q, Forall cue_ok (q :: qs) -> cue_doc plain_fraction (out_lines q ++ all_lines qs) (q :: qs).
Proof.
  induction qs as [|q' qs IH]; intros q H; apply Forall_cons_iff in H; destruct H as [H1 H2].
  - cbn [all_lines flat_map]. rewrite app_nil_r. apply cd_last. exact (out_block q H1).
  - change (all_lines (q' :: qs)) with (([] :: out_lines q') ++ all_lines qs). cbn [app]. apply cd_cue; [exact (out_block q H1)|exact (IH q' H2)].
Qed.
Lemma all_text : forall qs, Forall cue_ok qs -> Forall text_ok (all_lines qs).
Proof.
  induction qs as [|q qs IH]; intro H; [constructor|]. apply Forall_cons_iff in H. destruct H as [H1 H2]. unfold all_lines. cbn [flat_map]. apply Forall_app. split; [|exact (IH H2)].
  constructor; [exact text_nil|exact (out_text q H1)].
Qed.
Lemma demux_ok : forall scale tr qs, Forall cue_ok qs -> 0 < scale -> (scale | 1000000) ->
  exists txt, demux_track scale (map (fun q => stored scale (frame_of (tr, q))) qs) = Val (Some txt) /\ vtt_file plain_fraction txt qs.
Proof.
  intros scale tr qs H Hs Hk. unfold demux_track. rewrite (write_cues_ok scale tr qs H Hs Hk). cbn [obind]. eexists. split; [reflexivity|].
  exists [], (unlines ([] :: all_lines qs)), ([] :: all_lines qs). split; [reflexivity|]. split; [left; reflexivity|].
  pose proof (all_text qs H) as HT. assert (HT2 : Forall text_ok ([] :: all_lines qs)) by (constructor; [exact text_nil|exact HT]).
  split; [apply unlines_lines; eapply Forall_impl; [|exact HT2]; intros l K; apply K|]. split; [eapply Forall_impl; [|exact HT2]; intros l K; apply K|].
  split; [left; reflexivity|]. destruct qs as [|q qs]; [reflexivity|]. change (all_lines (q :: qs)) with ([] :: out_lines q ++ all_lines qs).
  split; [reflexivity|]. exact (all_doc qs q H).
Qed.
