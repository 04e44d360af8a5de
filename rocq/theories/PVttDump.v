From Coq Require Import ZifyBool ZifyNat String Ascii.
From Verif Require Import Base MVtt VttSpec PVtt PVtt3 PropVtt VttMuxSpec MVttMux PVttMux PVttMux2 VttNameSpec MVttName PVttName VttDumpSpec MVttDump.

(* ---------- it ends ---------- *)
Lemma dump_ends : forall l fuel n p q, Forall fair_answer l -> used l n p -> (length l < n + fuel)%nat -> exists ok t, dump_loop fuel p q = Val (Some (ok, t)).
Proof.
  intros l fuel. induction fuel as [|fuel IH]; intros n p q HL HU Hf.
  - pose proof (C42_finitely_many_cues l n p HL HU). lia.
  - cbn [dump_loop]. destruct (proj2 (C42_every_call_returns l n p HL HU) q) as (e & q' & p' & E). pose proof (us_parse l n p q e q' p' HU E) as HU'. rewrite E. cbn [obind].
    destruct (e <? 0) eqn:E1; [eexists _, _; reflexivity|]. destruct (e >? 0) eqn:E2; [eexists _, _; reflexivity|]. destruct (e =? 0) eqn:E3; [|lia].
    destruct (IH (S n) p' q' HL HU' ltac:(lia)) as (ok & t & ->). cbn [obind]. eexists _, _. reflexivity.
Qed.

(* ---------- what it shows ---------- *)
Definition line_ok (l : list Z) : Prop := ~ In 10 l /\ ~ In 0 l.
Definition dump_ok (q : cue) : Prop :=
  line_ok (q_id q) /\ proper (q_start q) /\ proper (q_stop q) /\
  Forall (fun s => token (set_name s) /\ line_ok (set_name s) /\ line_ok (set_value s)) (q_settings q) /\
  q_payload q <> [] /\ Forall line_ok (q_payload q).
Lemma line_incl : forall a b, line_ok b -> incl a b -> line_ok a.
Proof. intros a b [H1 H2] HI. split; intro K; [apply H1|apply H2]; exact (HI _ K). Qed.
Lemma file_dump_ok : forall file qs, vtt_file scaled file qs -> ~ In 0 file -> Forall dump_ok qs.
Proof.
  intros file qs (bom & txt & lines & EF & _ & HT & HPL & HL) H0. destruct (lines_from txt lines HT) as [NE HI].
  assert (OK : forall l, In l lines -> line_ok l).
  { intros l Hl. rewrite Forall_forall in NE. pose proof (NE l Hl) as K. unfold no_eol in K. rewrite Forall_forall in K. split; [intro X; specialize (K 10 X); lia|].
    intro X. apply H0. rewrite EF. apply in_or_app. right. apply in_or_app. right. exact (HI l Hl 0 X). }
  assert (HD : forall q, In q qs -> exists b, cue_block scaled b q /\ incl b lines).
  { destruct lines as [|head [|l body]]; [subst qs; intros q []|destruct HL as [_ ->]; intros q []|]. destruct HL as (_ & _ & HD). intros q Hq.
    destruct (doc_blocks _ _ _ HD q Hq) as (b & K1 & K2). exists b. split; [exact K1|]. apply incl_tl, incl_tl. exact K2. }
  apply Forall_forall. intros q Hq. destruct (HD q Hq) as (b & (ids & tline & pl & EB & HID & HTL & EP & PN & PE) & HINC). destruct HTL as (b1 & s1 & b2 & b3 & s2 & stx & _ & S1 & _ & _ & S2 & SS & EL).
  assert (IL : In tline lines) by (apply HINC; rewrite EB; apply in_or_app; right; left; reflexivity).
  split; [|split; [exact (stamp_proper _ _ S1)|split; [exact (stamp_proper _ _ S2)|split; [|split; [rewrite EP; exact PN|]]]]].
  - destruct HID as [[_ ->]|(K1 & _ & _)]; [split; intros []|]. apply OK, HINC. rewrite EB, K1. apply in_or_app. left. left. reflexivity.
  - apply Forall_forall. intros s Hs. destruct (settings_from _ _ SS s Hs) as (K1 & _ & K3 & K4). split; [exact K1|].
    split; apply (line_incl _ tline (OK tline IL)); rewrite EL; do 6 apply incl_appr; assumption.
  - rewrite EP. apply Forall_forall. intros l Hl. apply OK, HINC. rewrite EB. apply in_or_app. right. right. exact Hl.
Qed.

Lemma as_text_app : forall a b, as_text (a ++ b) = as_text a ++ as_text b.
Proof. intros a b. unfold as_text. rewrite map_app. apply concat_app. Qed.
Lemma as_text_cons : forall l ls, as_text (l :: ls) = (l ++ [10]) ++ as_text ls.
Proof. reflexivity. Qed.
Lemma time_shown : forall which t, proper t -> exists l, shown_time which t l /\ print_time which t = l ++ [10].
Proof.
  intros which t (H1 & H2 & H3 & H4). eexists. split.
  - exists (ll_text 0 (t_h t)), (ll_text 0 (t_m t)), (ll_text 0 (t_s t)), (ll_text 0 (t_ms t)). do 4 (split; [apply ll_decimal_of; lia|]). reflexivity.
  - unfold print_time, quote. rewrite <- !app_assoc. reflexivity.
Qed.
Lemma settings_shown : forall ss, Forall (fun s => token (set_name s) /\ line_ok (set_name s) /\ line_ok (set_value s)) ss -> print_settings ss = as_text (shown_settings ss).
Proof.
  intros ss H. destruct ss as [|s0 ss]; [reflexivity|]. unfold print_settings, shown_settings. revert H. generalize (s0 :: ss). intros l H. induction H as [|s l (_ & [_ K1] & [_ K2]) H IH]; [reflexivity|].
  cbn [flat_map map]. rewrite as_text_cons, IH. unfold print_setting. rewrite (c_str_id _ K1), (c_str_id _ K2), <- !app_assoc. reflexivity.
Qed.
Lemma payload_shown : forall ls i, Forall line_ok ls -> 0 <= i -> i + zlen ls < 2 ^ 63 -> exists ps, shown_payload i ls ps /\ print_payload i ls = as_text ps.
Proof.
  induction ls as [|l ls IH]; intros i H Hi Hb; [exists []; split; [constructor|reflexivity]|]. inversion H as [|? ? [_ K] H']. subst. unfold zlen in *. cbn [length] in Hb.
  destruct (IH (i + 1) H' ltac:(lia) ltac:(lia)) as (ps & S & E). eexists. split; [apply sp_line; [apply ll_decimal_of; lia|exact S]|].
  cbn [print_payload]. rewrite as_text_cons, E, (c_str_id _ K). unfold quote. rewrite <- !app_assoc. reflexivity.
Qed.
Lemma cue_shown : forall q, dump_ok q -> few_lines q -> exists ls, shown_cue q ls /\ print_cue q = as_text ls.
Proof.
  intros q ([_ H1] & H2 & H3 & H4 & _ & H6) HF. unfold few_lines in HF. destruct (time_shown (text "start") _ H2) as (st & S1 & E1). destruct (time_shown (text "stop") _ H3) as (sp & S2 & E2).
  destruct (payload_shown (q_payload q) 1 H6 ltac:(lia) ltac:(lia)) as (ps & S3 & E3). eexists. split; [exists st, sp, ps; repeat (split; [eassumption|]); reflexivity|].
  unfold print_cue. rewrite E1, E2, E3, (settings_shown _ H4), (c_str_id _ H1), !as_text_cons, !as_text_app. unfold quote. rewrite <- !app_assoc. reflexivity.
Qed.
Lemma dump_yields : forall p qs, yields p qs -> forall fuel q, (length qs < fuel)%nat -> dump_loop fuel p q = Val (Some (true, concat (map print_cue qs))).
Proof.
  intros p qs H. induction H as [p HE|p q0 qs p' HE HY IH]; intros fuel q Hf; (destruct fuel as [|fuel]; [cbn [length] in Hf; lia|]); cbn [dump_loop].
  - destruct (HE q) as (q' & p' & ->). reflexivity.
  - rewrite (HE q). cbn [obind]. change (0 <? 0) with false. change (0 >? 0) with false. cbv iota. cbn [length] in Hf. rewrite (IH fuel q0) by lia. reflexivity.
Qed.
Lemma dump_file : forall file qs, vtt_file scaled file qs -> Forall (fun c => 0 <= c < 256) file -> dumpvtt (map Ch file) = Val (Some (true, concat (map print_cue qs))).
Proof.
  intros file qs HV HB. destruct (C48_file_yields_its_cues file qs HV) as (p & EI & HY). unfold dumpvtt. rewrite EI. cbn [obind]. change (negb (0 =? 0)) with false. cbv iota.
  apply dump_yields; [exact HY|].
  assert (HL : Forall fair_answer (map Ch file)) by (apply Forall_map; exact HB).
  destruct (used_wf (map Ch file) 0 p HL (us_init _ 0 _ 0 p (us_new _) EI)) as [W L]. pose proof (yields_len p qs HY W). lia.
Qed.

(* ---------- it tells cues apart ---------- *)
Lemma cut : forall (c : Z) a b r r', ~ In c a -> ~ In c b -> a ++ c :: r = b ++ c :: r' -> a = b /\ r = r'.
Proof.
  intros c. induction a as [|x a IH]; intros [|y b] r r' Ha Hb E; cbn [app] in E.
  - injection E as ->. split; reflexivity.
  - injection E as -> _. exfalso. apply Hb. left. reflexivity.
  - injection E as -> _. exfalso. apply Ha. left. reflexivity.
  - injection E as -> E. destruct (IH b r r' ltac:(intro K; apply Ha; right; exact K) ltac:(intro K; apply Hb; right; exact K) E) as [-> ->]. split; reflexivity.
Qed.
Lemma ll_not : forall n c, 0 <= n -> c < 48 -> ~ In c (ll_text 0 n).
Proof. intros n c Hn Hc K. rewrite ll0_text in K by lia. pose proof (ll_all 20 n Hn) as H. rewrite Forall_forall in H. specialize (H c K). unfold digit in H. lia. Qed.
Lemma ll_inj : forall n m, 0 <= n < 2 ^ 63 -> 0 <= m < 2 ^ 63 -> ll_text 0 n = ll_text 0 m -> n = m.
Proof. intros n m Hn Hm E. destruct (ll_decimal_of n Hn) as (_ & V1 & _). destruct (ll_decimal_of m Hm) as (_ & V2 & _). rewrite <- V1, <- V2, E. reflexivity. Qed.
Lemma num_cut : forall c n m r r', 0 <= n < 2 ^ 63 -> 0 <= m < 2 ^ 63 -> c < 48 -> ll_text 0 n ++ c :: r = ll_text 0 m ++ c :: r' -> n = m /\ r = r'.
Proof. intros c n m r r' Hn Hm Hc E. destruct (cut c _ _ r r' (ll_not n c ltac:(lia) Hc) (ll_not m c ltac:(lia) Hc) E) as [E1 E2]. split; [exact (ll_inj n m Hn Hm E1)|exact E2]. Qed.
Lemma time_inv : forall which t t' r r', proper t -> proper t' -> print_time which t ++ r = print_time which t' ++ r' -> t = t' /\ r = r'.
Proof.
  intros which [h m s ms] [h' m' s' ms'] r r' (H1 & H2 & H3 & H4) (G1 & G2 & G3 & G4) E. unfold print_time in E. cbn [t_h t_m t_s t_ms] in *. rewrite <- !app_assoc in E. do 5 apply app_inv_head in E.
  change (text " MM=") with (32 :: text "MM=") in E. change (text " SS=") with (32 :: text "SS=") in E. change (text " SSS=") with (32 :: text "SSS=") in E. rewrite <- !app_comm_cons in E.
  apply num_cut in E; [|lia..]. destruct E as [-> E]. apply app_inv_head in E. apply num_cut in E; [|lia..]. destruct E as [-> E]. apply app_inv_head in E. apply num_cut in E; [|lia..]. destruct E as [-> E]. apply app_inv_head in E.
  change ([34] ++ [10] ++ r) with (34 :: 10 :: r) in E. change ([34] ++ [10] ++ r') with (34 :: 10 :: r') in E. apply num_cut in E; [|lia..]. destruct E as [-> E]. injection E as ->. split; reflexivity.
Qed.
Lemma quoted_inv : forall l l' r r', line_ok l -> line_ok l' -> l ++ [34] ++ [10] ++ r = l' ++ [34] ++ [10] ++ r' -> l = l' /\ r = r'.
Proof.
  intros l l' r r' [H _] [G _] E. change ([34] ++ [10] ++ r) with ([34] ++ 10 :: r) in E. change ([34] ++ [10] ++ r') with ([34] ++ 10 :: r') in E. rewrite !app_assoc in E.
  assert (N : forall x, ~ In 10 x -> ~ In 10 (x ++ [34])) by (intros x Hx K; apply in_app_or in K; destruct K as [K|[K|[]]]; [exact (Hx K)|lia]).
  destruct (cut 10 _ _ r r' (N l H) (N l' G) E) as [E1 E2]. split; [exact (app_inv_tail _ _ _ E1)|exact E2].
Qed.
Lemma payload_inv : forall ls ls' i r r', Forall line_ok ls -> Forall line_ok ls' -> print_payload i ls ++ [10] ++ r = print_payload i ls' ++ [10] ++ r' -> ls = ls' /\ r = r'.
Proof.
  induction ls as [|l ls IH]; intros [|l' ls'] i r r' H H' E; cbn [print_payload] in E.
  - injection E as ->. split; reflexivity.
  - exfalso. rewrite <- !app_assoc in E. apply (f_equal (hd 0)) in E. cbn in E. lia.
  - exfalso. rewrite <- !app_assoc in E. apply (f_equal (hd 0)) in E. cbn in E. lia.
  - apply Forall_cons_iff in H. apply Forall_cons_iff in H'. destruct H as [K H], H' as [K' H']. rewrite (c_str_id _ (proj2 K)), (c_str_id _ (proj2 K')), <- !app_assoc in E.
    do 4 apply app_inv_head in E. apply quoted_inv in E; [|assumption..]. destruct E as [-> E]. destruct (IH ls' (i + 1) r r' H H' E) as [-> ->]. split; reflexivity.
Qed.
Definition sok (s : setting) : Prop := token (set_name s) /\ line_ok (set_name s) /\ line_ok (set_value s).
Lemma setting_inv : forall s s' r r', sok s -> sok s' -> print_setting s ++ r = print_setting s' ++ r' -> s = s' /\ r = r'.
Proof.
  intros [n v] [n' v'] r r' ([_ T] & [_ H1] & [H2 H3]) ([_ T'] & [_ G1] & [G2 G3]) E. unfold print_setting in E. cbn [set_name set_value] in *. rewrite (c_str_id _ H1), (c_str_id _ H3), (c_str_id _ G1), (c_str_id _ G3), <- !app_assoc in E.
  apply app_inv_head in E. change (text " value=") with (32 :: text "value=") in E. rewrite <- !app_comm_cons in E.
  assert (N : forall x, Forall (fun c => c <> 0 /\ c <> 58 /\ ~ blank c) x -> ~ In 32 x) by (intros x Hx K; rewrite Forall_forall in Hx; destruct (Hx 32 K) as (_ & _ & B); apply B; left; reflexivity).
  destruct (cut 32 _ _ _ _ (N n T) (N n' T') E) as [-> E2]. apply app_inv_head in E2. destruct (cut 10 _ _ r r' H2 G2 E2) as [-> ->]. split; reflexivity.
Qed.
Lemma setting_hd : forall s r k, (k < 14)%nat -> nth k (print_setting s ++ r) 0 = nth k (text "cue setting: name=") 0.
Proof. intros s r k Hk. unfold print_setting. rewrite <- app_assoc. apply app_nth1. change (length (text "cue setting: name=")) with 18%nat. lia. Qed.
Lemma many_inv : forall ss ss' r r', Forall sok ss -> Forall sok ss' -> nth 4 r 0 = 112 -> nth 4 r' 0 = 112 -> flat_map print_setting ss ++ r = flat_map print_setting ss' ++ r' -> ss = ss' /\ r = r'.
Proof.
  induction ss as [|s ss IH]; intros [|s' ss'] r r' H H' Hr Hr' E; cbn [flat_map] in E; rewrite <- ?app_assoc in E.
  - split; [reflexivity|exact E].
  - exfalso. cbn [app] in E. apply (f_equal (fun l => nth 4 l 0)) in E. rewrite (setting_hd s' _ 4) in E by lia. rewrite Hr in E. vm_compute in E. discriminate E.
  - exfalso. cbn [app] in E. apply (f_equal (fun l => nth 4 l 0)) in E. rewrite (setting_hd s _ 4) in E by lia. rewrite Hr' in E. vm_compute in E. discriminate E.
  - apply Forall_cons_iff in H. apply Forall_cons_iff in H'. destruct H as [K H], H' as [K' H']. apply setting_inv in E; [|assumption..]. destruct E as [-> E]. destruct (IH ss' r r' H H' Hr Hr' E) as [-> ->]. split; reflexivity.
Qed.
Lemma settings_inv : forall ss ss' r r', Forall sok ss -> Forall sok ss' -> nth 4 r 0 = 112 -> nth 4 r' 0 = 112 -> print_settings ss ++ r = print_settings ss' ++ r' -> ss = ss' /\ r = r'.
Proof.
  intros [|s ss] [|s' ss'] r r' H H' Hr Hr' E.
  - apply app_inv_head in E. split; [reflexivity|exact E].
  - exfalso. cbn [print_settings flat_map] in E. rewrite <- !app_assoc in E. apply (f_equal (fun l => nth 13 l 0)) in E. rewrite (setting_hd s' _ 13) in E by lia. cbn in E. lia.
  - exfalso. cbn [print_settings flat_map] in E. rewrite <- !app_assoc in E. apply (f_equal (fun l => nth 13 l 0)) in E. rewrite (setting_hd s _ 13) in E by lia. cbn in E. lia.
  - exact (many_inv (s :: ss) (s' :: ss') r r' H H' Hr Hr' E).
Qed.
Lemma payload_hd : forall ls i r, ls <> [] -> nth 4 (print_payload i ls ++ r) 0 = 112.
Proof. intros [|l ls] i r H; [congruence|]. cbn [print_payload]. rewrite <- !app_assoc. reflexivity. Qed.
Lemma cue_inv : forall q q' r r', dump_ok q -> dump_ok q' -> print_cue q ++ r = print_cue q' ++ r' -> q = q' /\ r = r'.
Proof.
  intros [i st sp ss pl] [i' st' sp' ss' pl'] r r' (H1 & H2 & H3 & H4 & H5 & H6) (G1 & G2 & G3 & G4 & G5 & G6) E. unfold print_cue in E. cbn [q_id q_start q_stop q_settings q_payload] in *.
  rewrite (c_str_id _ (proj2 H1)), (c_str_id _ (proj2 G1)), <- !app_assoc in E. do 2 apply app_inv_head in E. apply quoted_inv in E; [|assumption..]. destruct E as [-> E].
  apply time_inv in E; [|assumption..]. destruct E as [-> E]. apply time_inv in E; [|assumption..]. destruct E as [-> E].
  apply settings_inv in E; [|assumption|assumption|apply payload_hd; assumption|apply payload_hd; assumption]. destruct E as [-> E].
  apply payload_inv in E; [|assumption..]. destruct E as [-> ->]. split; reflexivity.
Qed.
Lemma cue_ne : forall q, print_cue q <> [].
Proof. intros q E. apply (f_equal (hd 0)) in E. unfold print_cue in E. rewrite <- !app_assoc in E. cbn in E. lia. Qed.
Lemma cues_inv : forall qs qs', Forall dump_ok qs -> Forall dump_ok qs' -> concat (map print_cue qs) = concat (map print_cue qs') -> qs = qs'.
Proof.
  induction qs as [|q qs IH]; intros [|q' qs'] H H' E; cbn [map concat] in E; [reflexivity|..].
  - exfalso. symmetry in E. apply app_eq_nil in E. exact (cue_ne q' (proj1 E)).
  - exfalso. apply app_eq_nil in E. exact (cue_ne q (proj1 E)).
  - apply Forall_cons_iff in H. apply Forall_cons_iff in H'. destruct H as [K H], H' as [K' H']. apply cue_inv in E; [|assumption..]. destruct E as [-> E]. f_equal. exact (IH qs' H H' E).
Qed.
