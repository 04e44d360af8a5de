(* Properties of the WebVTT parser. *)
From Coq Require Import ZifyBool ZifyNat.
From Verif Require Import Base MVtt VttSpec PVtt PVtt2 PVtt3.

(* ---------- C41: time stamps ---------- *)

(* Reading a time at position i of a line always returns a status.  It is 0 exactly
   when blanks and a time stamp stand there, followed by a blank, a NUL or the end
   of the line, and then the time is the one denoted. *)
Theorem C41_times_accepted_exactly : forall pre l t0, exists e idx t,
  ParseTime (pre ++ l) (zlen pre) t0 = Val (e, idx, t) /\
  (e = 0 <-> exists b x t' r, l = b ++ x ++ r /\ Forall blank b /\ stamp scaled x t' /\ stops r) /\
  (forall b x t' r, l = b ++ x ++ r -> Forall blank b -> stamp scaled x t' -> stops r ->
     t = t' /\ idx = zlen (pre ++ b ++ x)).
Proof.
  intros pre l t0. destruct (ParseTime_inv pre l t0) as (e & idx & t & E & H). exists e, idx, t. split; [exact E|].
  assert (K : forall b x t' r, l = b ++ x ++ r -> Forall blank b -> stamp scaled x t' -> stops r -> e = 0 /\ t = t' /\ idx = zlen (pre ++ b ++ x)).
  { intros b x t' r -> HB HS Hr. rewrite (ParseTime_accepts pre b x t' r t0 HB HS Hr) in E. injection E as <- <- <-. auto. }
  split; [|intros b x t' r H1 H2 H3 H4; destruct (K b x t' r H1 H2 H3 H4) as (_ & K1 & K2); auto]. split.
  - intros He. destruct H as [H|(b & x & r & -> & H1 & H2 & H3 & _)]; [congruence|]. exists b, x, t, r. auto.
  - intros (b & x & t' & r & H1 & H2 & H3 & H4). exact (proj1 (K b x t' r H1 H2 H3 H4)).
Qed.
Print Assumptions C41_times_accepted_exactly.

(* An accepted time has minutes and seconds below 60, milliseconds below 1000 and
   hours that fit an int. *)
Theorem C41_accepted_times_proper : forall x t, stamp scaled x t -> proper t.
Proof. exact stamp_proper. Qed.
Print Assumptions C41_accepted_times_proper.

(* Standard time stamps, with three digit fractions 000 or 100..999, are read as
   the time they denote ... *)
Theorem C41_standard_times_read : forall pre b x t r t0, Forall blank b -> stamp plain_fraction x t -> stops r ->
  ParseTime (pre ++ b ++ x ++ r) (zlen pre) t0 = Val (0, zlen (pre ++ b ++ x), t).
Proof. intros pre b x t r t0 HB HS Hr. apply ParseTime_accepts; [exact HB| |exact Hr]. exact (stamp_weaken _ _ plain_scaled _ _ HS). Qed.
Print Assumptions C41_standard_times_read.
(* ... and no other fractions of the standard are. *)
Theorem C41_fractions_read_exactly : forall x h m s f ms t0, clock x h m s -> thousandths f ms ->
  (ParseTime (x ++ [46] ++ f) 0 t0 = Val (0, zlen (x ++ [46] ++ f), mkTime h m s ms) <-> ms = 0 \/ 100 <= ms).
Proof.
  intros x h m s f ms t0 HC HF. assert (Hv : exists v, number f v /\ v = ms /\ v < 1000).
  { exists (decimal f). destruct HF as (HL & HD & ->). split; [|split; [reflexivity|]]; destruct f as [|a [|b [|c [|]]]]; cbn in HL; try lia;
      inversion HD as [|? ? Ha HD1]; inversion HD1 as [|? ? Hb HD2]; inversion HD2 as [|? ? Hc HD3]; subst; unfold digit, number, decimal in *; cbn [fold_left]; [|lia].
    split; [discriminate|]. split; [exact HD|]. split; [reflexivity|lia]. }
  destruct Hv as (v & Hn & -> & Hlt). pose proof (number_nonneg _ _ Hn) as Hp.
  pose proof (ParseTime_accepts [] [] (x ++ [46] ++ f) (mkTime h m s (if ms <? 10 then ms * 100 else if ms <? 100 then ms * 10 else ms)) [] t0 ltac:(constructor)
    ltac:(apply st_frac; [exact HC|]; exists ms; auto) I) as E.
  cbn [app] in E. rewrite app_nil_r in E. change (zlen (@nil Z)) with 0 in E. cbn [app]. rewrite E. split.
  - intros H. injection H as H. destruct (ms <? 10) eqn:E1; [lia|]. destruct (ms <? 100) eqn:E2; lia.
  - intros H. destruct (ms <? 10) eqn:E1; [replace (ms * 100) with ms by lia; reflexivity|]. destruct (ms <? 100) eqn:E2; [lia|reflexivity].
Qed.
Print Assumptions C41_fractions_read_exactly.

(* "01:02:03.450" *)
Definition ex_stamp : list Z := [48;49;58;48;50;58;48;51;46;52;53;48].
Lemma ex_num : forall a b, 48 <= a <= 57 -> 48 <= b <= 57 -> number [a; b] (10 * (a - 48) + (b - 48)).
Proof. intros a b Ha Hb. unfold number, decimal, digit. cbn [fold_left]. split; [discriminate|]. split; [constructor; [exact Ha|constructor; [exact Hb|constructor]]|]. split; lia. Qed.
Example C41_nonvacuous : stamp plain_fraction ex_stamp (mkTime 1 2 3 450).
Proof.
  apply (st_frac _ [48;49;58;48;50;58;48;51] [52;53;48]).
  - apply (ck_hms [48;49] [48;50] [48;51]); try (apply ex_num; lia); lia.
  - split; [|right; lia]. split; [reflexivity|]. split; [repeat constructor; unfold digit; lia|reflexivity].
Qed.

(* "00:00:00.005" is read as half a second *)
Definition five_ms : list Z := [48;48;58;48;48;58;48;48;46;48;48;53].
Theorem C41_small_fractions_refuted : stamp thousandths five_ms (mkTime 0 0 0 5) /\
  forall t0, ParseTime five_ms 0 t0 = Val (0, 12, mkTime 0 0 0 500).
Proof.
  split; [|reflexivity]. apply (st_frac _ [48;48;58;48;48;58;48;48] [48;48;53]).
  - apply (ck_hms [48;48] [48;48] [48;48]); try (apply ex_num; lia); lia.
  - split; [reflexivity|]. split; [repeat constructor; unfold digit; lia|reflexivity].
Qed.
Print Assumptions C41_small_fractions_refuted.

(* ---------- C42: scanning ---------- *)

Lemma used_wf : forall l n p, Forall fair_answer l -> used l n p -> wf p /\ (n + length (pending p) <= length l)%nat.
Proof.
  intros l n p HL H. induction H as [|n p e p' H [IH1 IH2] HI|n p q e q' p' H [IH1 IH2] HI].
  - split; [|unfold pending; cbn; lia]. unfold wf, pending. cbn. eapply Forall_impl; [|exact HL]. intros [c|e]; cbn; lia.
  - destruct (Init_total p IH1) as (e1 & p1 & E & W & L). rewrite E in HI. injection HI as <- <-. split; [exact W|lia].
  - destruct (Parse_total p q IH1) as (e1 & q1 & p1 & E & W & L & L2). rewrite E in HI. injection HI as <- <- <-. split; [exact W|]. destruct (e1 =? 0) eqn:E0; [specialize (L2 ltac:(lia)); lia|lia].
Qed.

(* Whatever the reader answers and in whatever order the user calls Init and Parse,
   each call returns: no index is out of range and no loop fails to end. *)
Theorem C42_every_call_returns : forall l n p, Forall fair_answer l -> used l n p ->
  (exists e p', Init p = Val (e, p')) /\ (forall q, exists e q' p', Parse p q = Val (e, q', p')).
Proof.
  intros l n p HL HU. destruct (used_wf l n p HL HU) as [HW _]. split.
  - destruct (Init_total p HW) as (e & p' & E & _). eauto.
  - intros q. destruct (Parse_total p q HW) as (e & q' & p' & E & _). eauto.
Qed.
Print Assumptions C42_every_call_returns.
(* The number of cues returned is at most the length of the stream, so asking for
   cues until one is refused ends. *)
Theorem C42_finitely_many_cues : forall l n p, Forall fair_answer l -> used l n p -> (n <= length l)%nat.
Proof. intros l n p HL HU. pose proof (proj2 (used_wf l n p HL HU)). lia. Qed.
Print Assumptions C42_finitely_many_cues.
(* Any timings line, with any position for the arrow. *)
Theorem C42_timings_line_returns : forall line a q, 0 <= a -> exists e q', ParseTimingsLine line a q = Val (e, q').
Proof. exact ParseTimingsLine_total. Qed.
Print Assumptions C42_timings_line_returns.

(* ---------- C48: a file yields its cues ---------- *)

(* A well-formed file (fractions read by the parser's own rule) is accepted by
   Init, and Parse then returns its cues one after the other, unchanged, and then
   reports the end. *)
Theorem C48_file_yields_its_cues : forall file qs, vtt_file scaled file qs ->
  exists p, Init (new_parser (map Ch file)) = Val (0, p) /\ yields p qs.
Proof. exact file_yields. Qed.
Print Assumptions C48_file_yields_its_cues.
(* The same for standard fractions 000 or 100..999. *)
Theorem C48_standard_file_yields_its_cues : forall file qs, vtt_file plain_fraction file qs ->
  exists p, Init (new_parser (map Ch file)) = Val (0, p) /\ yields p qs.
Proof. intros file qs H. exact (file_yields file qs (file_weaken _ _ plain_scaled file qs H)). Qed.
Print Assumptions C48_standard_file_yields_its_cues.

(* BOM "WEBVTT" CR LF, CR LF, "id" LF, "01:02:03.450 --> 01:02:04.500 a:b" LF, "hi" CR, LF-less end *)
Definition ex_line : list Z := ex_stamp ++ [32] ++ arrow ++ [32] ++ [48;49;58;48;50;58;48;52;46;53;48;48] ++ [32;97;58;98].
Definition ex_cue : cue := mkCueV [105;100] (mkTime 1 2 3 450) (mkTime 1 2 4 500) [mkSetting [97] [98]] [[104;105]; [63]].
Definition ex_text : list Z := [] ++ [13;10] ++ ([] ++ [13;10] ++ ([105;100] ++ [10] ++ (ex_line ++ [10] ++ ([104;105] ++ [13] ++ [63])))).
Definition ex_file : list Z := [239;187;191] ++ [87;69;66;86;84;84] ++ ex_text.
Example C48_nonvacuous : vtt_file plain_fraction ex_file [ex_cue].
Proof.
  assert (NE : forall l, forallb (fun c => negb (c =? 10) && negb (c =? 13)) l = true -> no_eol l).
  { intros l H. apply Forall_forall. intros c Hc. rewrite forallb_forall in H. specialize (H c Hc). lia. }
  assert (PL : forall l, forallb (fun c => (0 <=? c) && (c <? 254)) l = true -> zlen l <=? 10000 = true -> plain_line l).
  { intros l H H2. split; [|lia]. apply Forall_forall. intros c Hc. rewrite forallb_forall in H. specialize (H c Hc). unfold plain_char. lia. }
  exists [239;187;191], ex_text, [[]; []; [105;100]; ex_line; [104;105]; [63]]. split; [reflexivity|]. split; [auto|]. split.
  { apply tl_crlf; [apply NE; reflexivity|]. apply tl_crlf; [apply NE; reflexivity|]. apply tl_lf; [apply NE; reflexivity|]. apply tl_lf; [apply NE; reflexivity|]. apply tl_cr; [apply NE; reflexivity|discriminate|]. apply tl_last; [discriminate|apply NE; reflexivity]. }
  split; [repeat (constructor; [apply PL; reflexivity|]); constructor|]. split; [auto|]. split; [reflexivity|]. apply cd_last.
  exists [[105;100]], ex_line, [[104;105]; [63]]. split; [reflexivity|]. split.
  { right. split; [reflexivity|]. split; [discriminate|]. intros (a & b & H). apply (f_equal (@length Z)) in H. unfold arrow in H. rewrite !app_length in H. cbn in H. lia. }
  split; [|split; [reflexivity|split; [discriminate|repeat (constructor; [discriminate|]); constructor]]].
  exists [], ex_stamp, [32], [32], [48;49;58;48;50;58;48;52;46;53;48;48], [32;97;58;98]. split; [constructor|]. split; [exact C41_nonvacuous|]. split; [repeat constructor|]. split; [repeat constructor|]. split.
  { apply (st_frac _ [48;49;58;48;50;58;48;52] [53;48;48]).
    - apply (ck_hms [48;49] [48;50] [48;52]); try (apply ex_num; lia); lia.
    - split; [|right; lia]. split; [reflexivity|]. split; [repeat constructor; unfold digit; lia|reflexivity]. }
  split; [|reflexivity]. apply (se_one [32] [97] [98] []); [discriminate|repeat constructor| | |constructor; constructor]; (split; [discriminate|repeat constructor; unfold blank; lia]).
Qed.

(* ---------- C44: lines ---------- *)

(* Every text has exactly one list of lines, ... *)
Theorem C44_lines_of_a_text : forall txt, exists ls, text_lines txt ls /\ forall ls', text_lines txt ls' -> ls' = ls.
Proof. intros txt. destruct (text_lines_exist (length txt) txt ltac:(lia)) as (ls & H). exists ls. split; [exact H|]. exact (text_lines_unique txt ls H). Qed.
Print Assumptions C44_lines_of_a_text.
(* ... and reading it line by line yields them and then the end; with a line that
   contains FE or FF or is longer than 10000 bytes, the lines before it and then an
   error. *)
Theorem C44_lines_read : forall txt ls, text_lines txt ls -> Forall (fun c => 0 <= c < 256) txt ->
  (Forall plain_line ls -> line_by_line (new_parser (map Ch txt)) ls) /\
  (forall good bad rest, ls = good ++ bad :: rest -> Forall plain_line good -> ~ plain_line bad ->
     lines_then_error (new_parser (map Ch txt)) good).
Proof.
  intros txt ls HT HB. split.
  - intros HP. apply at_lines_read. exists txt. split; [reflexivity|auto].
  - intros good bad rest -> HG HN. exact (lines_error good (new_parser (map Ch txt)) txt bad rest eq_refl HT HB HG HN).
Qed.
Print Assumptions C44_lines_read.
Example C44_nonvacuous : text_lines [65; 13; 13; 10; 10; 66] [[65]; []; []; [66]].
Proof.
  apply (tl_cr [65] [13; 10; 10; 66]); [repeat constructor; lia|discriminate|]. apply (tl_crlf [] [10; 66]); [constructor|]. apply (tl_lf [] [66]); [constructor|]. apply tl_last; [discriminate|repeat constructor; lia].
Qed.

(* ---------- C43: Time ---------- *)

(* A time of 0..2147483999 ms set from a presentation time gives it back, with all
   fields in range; a negative one gives zero. *)
Theorem C43_presentation_round_trip : forall d,
  (0 <= d <= 2147483999 -> exists t, of_presentation d = Val t /\ proper t /\ millis t = d /\ presentation t = Val d) /\
  (d < 0 -> of_presentation d = Val (mkTime 0 0 0 0)).
Proof.
  intros d. split.
  - intros H. destruct (of_presentation_ok d H) as (t & E & HP & HM). exists t. repeat (split; [assumption|]). rewrite <- HM. apply presentation_any, proper_any, HP.
  - intros H. unfold of_presentation. replace (d <? 0) with true by lia. reflexivity.
Qed.
Print Assumptions C43_presentation_round_trip.
(* From any four ints presentation() is the number of milliseconds denoted: nothing
   overflows. *)
Theorem C43_presentation_exact : forall t, any_time t -> presentation t = Val (millis t).
Proof. exact presentation_any. Qed.
Print Assumptions C43_presentation_exact.
(* Proper times are equal, or ordered, exactly as their presentation times; the
   difference is the difference, and adding or subtracting within the range adds or
   subtracts. *)
Theorem C43_order_and_arithmetic : forall a b, proper a -> proper b ->
  time_lt a b = (millis a <? millis b) /\ time_gt a b = (millis a >? millis b) /\
  time_le a b = (millis a <=? millis b) /\ time_ge a b = (millis a >=? millis b) /\
  time_eq a b = (millis a =? millis b) /\ (millis a = millis b -> a = b) /\
  time_diff a b = Val (millis a - millis b) /\
  (forall d, 0 <= millis a + d <= 2147483999 -> exists t, time_add a d = Val t /\ proper t /\ millis t = millis a + d) /\
  (forall d, 0 <= millis a - d <= 2147483999 -> exists t, time_sub a d = Val t /\ proper t /\ millis t = millis a - d).
Proof.
  intros a b Ha Hb. destruct (proper_order a b Ha Hb) as [L1 E1]. destruct (proper_order b a Hb Ha) as [L2 _].
  assert (R : forall t, proper t -> 0 <= millis t < 2 ^ 62) by (intros t (T1 & T2 & T3 & T4); unfold millis; lia). pose proof (R a Ha) as Ra. pose proof (R b Hb) as Rb.
  assert (ADD : forall d, 0 <= millis a + d <= 2147483999 -> exists t, time_add a d = Val t /\ proper t /\ millis t = millis a + d).
  { intros d Hd. unfold time_add. rewrite (presentation_any a (proper_any a Ha)). cbn [obind]. rewrite s64_ok by lia. cbn [obind]. exact (of_presentation_ok _ Hd). }
  split; [exact L1|]. split; [unfold time_gt; rewrite L2; lia|]. split; [unfold time_le, time_gt; rewrite L2; lia|]. split; [unfold time_ge; rewrite L1; lia|]. split; [exact E1|]. split; [exact (proper_unique a b Ha Hb)|]. split.
  - unfold time_diff. rewrite (presentation_any b (proper_any b Hb)), (presentation_any a (proper_any a Ha)). cbn [obind]. apply s64_ok. lia.
  - split; [exact ADD|]. intros d Hd. unfold time_sub. rewrite s64_ok by lia. cbn [obind]. apply (ADD (- d)). lia.
Qed.
Print Assumptions C43_order_and_arithmetic.
Example C43_nonvacuous : proper (mkTime 596 31 23 999) /\ millis (mkTime 596 31 23 999) = 2147483999 /\ proper (mkTime 1 2 3 450).
Proof. unfold proper, millis. cbn. lia. Qed.
(* 2147484000 ms (about 24.8 days) overflows an int multiplication *)
Theorem C43_long_times_refuted : of_presentation 2147484000 = UB /\ proper (mkTime 596 31 24 0) /\ millis (mkTime 596 31 24 0) = 2147484000 /\
  time_add (mkTime 596 31 24 0) 0 = UB.
Proof. unfold proper, millis. cbn [t_h t_m t_s t_ms]. split; [vm_compute; reflexivity|]. split; [lia|]. split; [lia|vm_compute; reflexivity]. Qed.
Print Assumptions C43_long_times_refuted.
