(* C73: WebVTT files stored in a file and taken out again. *)
From Coq Require Import ZifyBool ZifyNat Sorting.Sorted.
From Verif Require Import Base MVtt VttSpec PVtt PVtt2 PVtt3 PropVtt VttMuxSpec MVttMux PVttMux PVttMux2.

(* Any number of WebVTT files are loaded, each for a track of its own.  Whenever cues
   are written in between (ts), in the end the frames of each track, stored and read
   from a file with a time unit that divides a millisecond, make a text which the
   WebVTT parser reads as exactly the cues of the original file: the same identifiers,
   times, settings and lines, in the same order.  The text is a standard file too, in
   which the fractions mean the same by the WebVTT rule.  All frames together come in
   order of time, and there are none but those of the tracks. *)
Theorem C73_webvtt_survives : forall loads ts scale,
  NoDup (map fst loads) -> (forall x, In x loads -> good_file (fst (snd x)) (snd (snd x))) ->
  0 < scale -> (scale | 1000000) ->
  exists cues frames,
    load_all (inputs loads) [] = Val (true, cues) /\ write_all ts cues = Val frames /\
    StronglySorted (fun a b => mf_time a <= mf_time b) frames /\
    (forall f, In f frames -> In (mf_track f) (map fst loads)) /\
    forall x, In x loads -> exists txt p,
      demux_track scale (map (stored scale) (of_track (fst x) frames)) = Val (Some txt) /\
      vtt_file plain_fraction txt (snd (snd x)) /\
      Init (new_parser (map Ch txt)) = Val (0, p) /\ yields p (snd (snd x)).
Proof.
  intros loads ts scale ND HF Hs Hk.
  destruct (load_all_ok loads [] ND HF) as (s & E & G & W & _ & B & C); [split; constructor|intros w []|constructor|].
  exists s, (map frame_of s). split; [exact E|]. split; [exact (write_all_ok ts s W)|]. split; [exact (frames_sorted s (proj2 G))|]. split.
  - intros f Hf. apply in_map_iff in Hf. destruct Hf as (w & <- & Hw). destruct (C w Hw) as [[]|K]. exact K.
  - intros x Hx. pose proof (good_cues _ _ (HF x Hx)) as CO. destruct (demux_ok scale (fst x) (snd (snd x)) CO Hs Hk) as (txt & D1 & D2).
    destruct (C48_standard_file_yields_its_cues txt _ D2) as (p & I1 & I2). exists txt, p. split; [|split; [exact D2|split; assumption]].
    rewrite of_track_map, (B x Hx), !map_map. exact D1.
Qed.
Print Assumptions C73_webvtt_survives.

(* Write(t) with t >= 0 writes the cues that start at or before t and keeps the others. *)
Theorem C73_written_in_time : forall loads cues t fs rest,
  NoDup (map fst loads) -> (forall x, In x loads -> good_file (fst (snd x)) (snd (snd x))) ->
  load_all (inputs loads) [] = Val (true, cues) -> 0 <= t -> Write t cues = Val (fs, rest) ->
  Forall (fun f => mf_time f <= t) fs /\ Forall (fun v => t < millis (q_start (snd v)) * 1000000) rest /\
  exists gone, cues = gone ++ rest /\ length fs = length gone.
Proof.
  intros loads cues t fs rest ND HF HL Ht HWr.
  destruct (load_all_ok loads [] ND HF) as (s & E & G & W & _); [split; constructor|intros w []|constructor|]. rewrite HL in E. inversion E. subst s.
  destruct (write_time t cues Ht W (proj2 G) fs rest HWr) as [K1 K2]. split; [exact K1|]. split; [exact K2|].
  destruct (write_ok t cues W) as (pre & post & E1 & E2 & _). rewrite HWr in E2. inversion E2. subst. exists pre. split; [reflexivity|]. apply map_length.
Qed.
Print Assumptions C73_written_in_time.

(* two tracks with the file of C48 and with a file of two cues that start together *)
Definition two_cues : list Z :=
  kWebvttId ++ [10; 10] ++ [49;46;53] ++ [32] ++ arrow ++ [32] ++ [50] ++ [10; 72; 105; 10; 10] ++
  [49;46;53] ++ [32] ++ arrow ++ [32] ++ [50;46;57] ++ [32; 97; 58; 98; 10; 33].
Definition two_cues_read : list cue :=
  [mkCueV [] (mkTime 0 0 1 500) (mkTime 0 0 2 0) [] [[72; 105]]; mkCueV [] (mkTime 0 0 1 500) (mkTime 0 0 2 900) [mkSetting [97] [98]] [[33]]].
Lemma two_cues_file : vtt_file scaled two_cues two_cues_read.
Proof.
  assert (NE : forall l, forallb (fun c => negb (c =? 10) && negb (c =? 13)) l = true -> no_eol l).
  { intros l H. apply Forall_forall. intros c Hc. rewrite forallb_forall in H. specialize (H c Hc). lia. }
  assert (PL : forall l, forallb (fun c => (0 <=? c) && (c <? 254)) l = true -> zlen l <=? 10000 = true -> plain_line l).
  { intros l H H2. split; [|lia]. apply Forall_forall. intros c Hc. rewrite forallb_forall in H. specialize (H c Hc). unfold plain_char. lia. }
  assert (N1 : forall d, 48 <= d <= 57 -> number [d] (d - 48)).
  { intros d Hd. split; [discriminate|]. split; [constructor; [exact Hd|constructor]|]. split; [unfold decimal; cbn [fold_left]; lia|lia]. }
  assert (ST : forall a f, 48 <= a <= 57 -> 48 < f <= 57 -> stamp scaled [a; 46; f] (mkTime 0 0 (a - 48) ((f - 48) * 100))).
  { intros a f Ha Hf. change [a; 46; f] with ([a] ++ [46] ++ [f]). apply st_frac.
    - pose proof (ck_s [a] (a - 48) (N1 a Ha)) as K. rewrite (Z.div_small (a - 48) 3600), (Z.div_small (a - 48) 60), (Z.mod_small (a - 48) 60) in K by lia. exact K.
    - exists (f - 48). split; [apply N1; lia|]. split; [lia|]. destruct (Z.ltb_spec (f - 48) 10); [reflexivity|lia]. }
  assert (ST0 : stamp scaled [50] (mkTime 0 0 2 0)). { apply st_whole. exact (ck_s [50] 2 (N1 50 ltac:(lia))). }
  assert (B1 : Forall blank [32]) by (constructor; [left; reflexivity|constructor]).
  set (l1 := [49;46;53;32;45;45;62;32;50]). set (l2 := [49;46;53;32;45;45;62;32;50;46;57;32;97;58;98]).
  exists [], ([] ++ [10] ++ ([] ++ [10] ++ (l1 ++ [10] ++ ([72; 105] ++ [10] ++ ([] ++ [10] ++ (l2 ++ [10] ++ [33])))))), [[]; []; l1; [72; 105]; []; l2; [33]].
  split; [reflexivity|]. split; [left; reflexivity|]. split.
  { repeat (apply tl_lf; [apply NE; reflexivity|]). apply tl_last; [discriminate|apply NE; reflexivity]. }
  split; [repeat (constructor; [apply PL; reflexivity|]); constructor|]. split; [left; reflexivity|]. split; [reflexivity|].
  apply (cd_cue scaled [l1; [72; 105]] (mkCueV [] (mkTime 0 0 1 500) (mkTime 0 0 2 0) [] [[72; 105]]) [l2; [33]]); [|apply cd_last].
  - exists [], l1, [[72; 105]]. split; [reflexivity|]. split; [left; split; reflexivity|]. split; [|split; [reflexivity|split; [discriminate|constructor; [discriminate|constructor]]]].
    exists [], [49;46;53], [32], [32], [50], []. split; [constructor|]. split; [exact (ST 49 53 ltac:(lia) ltac:(lia))|]. split; [exact B1|]. split; [exact B1|]. split; [exact ST0|]. split; [constructor; constructor|reflexivity].
  - exists [], l2, [[33]]. split; [reflexivity|]. split; [left; split; reflexivity|]. split; [|split; [reflexivity|split; [discriminate|constructor; [discriminate|constructor]]]].
    exists [], [49;46;53], [32], [32], [50;46;57], [32;97;58;98]. split; [constructor|]. split; [exact (ST 49 53 ltac:(lia) ltac:(lia))|]. split; [exact B1|]. split; [exact B1|]. split; [exact (ST 50 57 ltac:(lia) ltac:(lia))|]. split; [|reflexivity].
    apply (se_one [32] [97] [98] [] []); [discriminate|exact B1|split; [discriminate|constructor; [unfold blank; lia|constructor]]|split; [discriminate|constructor; [unfold blank; lia|constructor]]|constructor; constructor].
Qed.
Definition ex_loads : list (Z * (list Z * list cue)) := [(2, (ex_file, [ex_cue])); (1, (two_cues, two_cues_read))].
Lemma ex_bytes : forall l, forallb (fun c => (0 <? c) && (c <? 256)) l = true -> bytes l /\ ~ In 0 l.
Proof.
  intros l H. rewrite forallb_forall in H. split; [apply Forall_forall; intros c Hc; specialize (H c Hc); unfold is_byte; lia|]. intro K. specialize (H 0 K). discriminate H.
Qed.
Example C73_ex_meets : NoDup (map fst ex_loads) /\ (forall x, In x ex_loads -> good_file (fst (snd x)) (snd (snd x))).
Proof.
  split; [repeat constructor; cbn; intuition lia|]. intros x [<-|[<-|[]]]; cbn [fst snd].
  - split; [exact (file_weaken _ _ plain_scaled _ _ C48_nonvacuous)|]. destruct (ex_bytes ex_file ltac:(vm_compute; reflexivity)) as [B1 B2]. split; [exact B1|]. split; [exact B2|].
    split; [unfold in_order, millis; cbn; lia|]. split; (constructor; [|constructor]); [unfold times_fit, millis; cbn; lia|unfold settings_fit, settings_size, zlen; cbn; lia].
  - split; [exact two_cues_file|]. destruct (ex_bytes two_cues ltac:(vm_compute; reflexivity)) as [B1 B2]. split; [exact B1|]. split; [exact B2|].
    split; [unfold in_order, millis; cbn; lia|]. split; (constructor; [|constructor; [|constructor]]); unfold times_fit, millis, settings_fit, settings_size, zlen; cbn; lia.
Qed.
(* the second track comes out as standard text *)
Definition two_cues_out : list Z :=
  kWebvttId ++ [10; 10] ++ [48;48;58;48;49;46;53;48;48;32;45;45;62;32;48;48;58;48;50;46;48;48;48;10;72;105;10;10] ++
  [48;48;58;48;49;46;53;48;48;32;45;45;62;32;48;48;58;48;50;46;57;48;48;32;97;58;98;10;33;10].
Example C73_ex : (olet x := load_all (inputs ex_loads) [] in olet fs := write_all [0; 1500000000] (snd x) in demux_track 1000000 (map (stored 1000000) (of_track 1 fs))) = Val (Some two_cues_out).
Proof. vm_compute. reflexivity. Qed.

(* A NUL byte in the text: what follows it on the line is lost.  Here the line is A NUL B. *)
Definition nul_file : list Z := kWebvttId ++ [10; 10] ++ [49] ++ arrow ++ [50] ++ [10; 65; 0; 66; 10].
Theorem C73_nul_bytes_refuted : exists file p q p',
  Init (new_parser (map Ch file)) = Val (0, p) /\ Parse p cue0 = Val (0, q, p') /\ q_payload q = [[65; 0; 66]] /\
  exists txt p2 q2 p2',
    (olet x := load_all [(1, map Ch file)] [] in olet fs := write_all [] (snd x) in demux_track 1000000 (map (stored 1000000) (of_track 1 fs))) = Val (Some txt) /\
    Init (new_parser (map Ch txt)) = Val (0, p2) /\ Parse p2 cue0 = Val (0, q2, p2') /\ q_payload q2 = [[65]].
Proof.
  exists nul_file. do 3 eexists. split; [vm_compute; reflexivity|]. split; [vm_compute; reflexivity|]. split; [reflexivity|].
  do 4 eexists. split; [vm_compute; reflexivity|]. split; [vm_compute; reflexivity|]. split; [vm_compute; reflexivity|]. reflexivity.
Qed.
Print Assumptions C73_nul_bytes_refuted.

(* A cue that begins after 2562048 hours is loaded; its time in nanoseconds overflows. *)
Definition late_file : list Z := kWebvttId ++ [10; 10] ++ [50;53;54;50;48;52;56;58;48;48;58;48;48] ++ arrow ++ [50;53;54;50;48;52;56;58;48;48;58;48;49] ++ [10; 65; 10].
Theorem C73_late_times_refuted : exists file cues, load_all [(1, map Ch file)] [] = Val (true, cues) /\ write_all [] cues = UB.
Proof. exists late_file. eexists. split; [vm_compute; reflexivity|]. vm_compute. reflexivity. Qed.
Print Assumptions C73_late_times_refuted.
