(* C74: WebVTT files stored as chapters and taken out again. *)
From Coq Require Import ZifyBool ZifyNat.
From Verif Require Import Base Ids MVtt VttSpec PVtt PVtt2 PVtt3 PropVtt VttMuxSpec MVttMux PVttMux PVttMux2 PropVttMux.
From Verif Require Import MWriter WriterSpec MMuxMeta MetaSpec PropMeta MParUtil MParMeta ReaderSpec ReadBackSpec PropParMeta VttChapSpec MVttChap PVttChap.

(* A WebVTT file whose cues all have identifiers is loaded as chapters.  Writing them
   succeeds on a writer that does not fail.  When it has succeeded, then whatever reader
   serves the bytes, parsing the chapters gives what vttdemux makes a text of, for a file
   with a time unit that divides a millisecond.  The WebVTT parser reads this text as the
   cues of the original file, in the same order, with the same identifiers, times and
   lines, but without settings. *)
Theorem C74_chapters_survive : forall file qs scale uids,
  good_chapters file qs -> Forall named qs -> 0 < scale -> (scale | 1000000) ->
  exists chs, LoadChapters (map Ch file) [] = Val (true, qs) /\ AddChapters scale uids qs = Val chs /\
    forall s, representable [chapters_tree chs] -> good s ->
      exists ok s', Chapters_Write chs s = Val (ok, s') /\ (no_fail s -> ok = true) /\
        (ok = true -> exists bs, advanced s bs s' /\
           forall r pos, serves r pos bs -> pos + zlen bs <= LLONG_MAX ->
             exists start size l txt p,
               element_at r pos kMkvChapters start size /\ start + size = pos + zlen bs /\ Chapters_Parse r start size = Val (0, l) /\
               demux_chapters scale l = Val (Some txt) /\ vtt_file plain_fraction txt (map without_settings qs) /\
               Init (new_parser (map Ch txt)) = Val (0, p) /\ yields p (map without_settings qs)).
Proof.
  intros file qs scale uids HG HN Hs Hk. pose proof (chapter_cues_ok file qs HG) as HC. pose proof HG as (HV & HB & _ & HO & _).
  exists (chapters_of scale uids qs). split; [exact (load_chapters_ok file qs HV HB (chapters_proper qs HC) HO)|]. split; [exact (add_chapters_ok scale qs uids HC Hs)|].
  intros s HR Hg. destruct (C11_chapters _ HR) as [sz HW]. destruct (HW s Hg) as (ok & s' & E & _ & Hok). exists ok, s'. split; [exact E|].
  split; [intro NF; apply Hok; [apply chapters_valid; exact HN|exact NF]|]. intros ->.
  destruct (C27_chapters_read_back _ s s' Hg HR (chapters_readable scale qs uids HC Hs) E) as (bs & Ha & Hread). exists bs. split; [exact Ha|]. intros r pos HS HL.
  destruct (Hread r pos HS HL) as (start & size & E1 & E2 & E3). destruct (demux_chapters_ok scale qs uids HC Hs Hk) as (txt & D1 & D2).
  destruct (C48_standard_file_yields_its_cues txt _ D2) as (p & I1 & I2). exists start, size, (read_chapters (chapters_of scale uids qs)), txt, p. tauto.
Qed.
Print Assumptions C74_chapters_survive.

(* If a cue has no identifier, the chapters are made but can never be written. *)
Theorem C74_identifiers_needed : forall file qs scale uids,
  good_chapters file qs -> ~ Forall named qs -> 0 < scale ->
  exists chs, LoadChapters (map Ch file) [] = Val (true, qs) /\ AddChapters scale uids qs = Val chs /\
    forall s, representable [chapters_tree chs] -> good s -> exists s', Chapters_Write chs s = Val (false, s').
Proof.
  intros file qs scale uids HG HN Hs. pose proof (chapter_cues_ok file qs HG) as HC. pose proof HG as (HV & HB & _ & HO & _).
  exists (chapters_of scale uids qs). split; [exact (load_chapters_ok file qs HV HB (chapters_proper qs HC) HO)|]. split; [exact (add_chapters_ok scale qs uids HC Hs)|].
  intros s HR Hg. destruct (C11_chapters _ HR) as [sz HW]. destruct (HW s Hg) as (ok & s' & E & Hok & _). exists s'. destruct ok; [|exact E].
  exfalso. apply HN. apply (chapters_valid scale qs uids). exact (proj1 (Hok eq_refl)).
Qed.
Print Assumptions C74_identifiers_needed.

(* Chapters of any file, of whatever origin: if each chapter has no title, or one that
   stands for a cue, then vttdemux makes a standard text of exactly these cues, whatever
   the time unit; what is below a millisecond is cut off.  Chapters without titles are
   left out.  With two editions, a second title or another language there is no text. *)
Theorem C74_extracted : forall scale l qs, 0 < scale -> stand_for scale l qs ->
  exists txt p, demux_chapters scale [l] = Val (Some txt) /\ vtt_file plain_fraction txt qs /\
    Init (new_parser (map Ch txt)) = Val (0, p) /\ yields p qs.
Proof.
  intros scale l qs Hs H. destruct (demux_any_ok scale l qs Hs H) as (txt & D1 & D2). destruct (C48_standard_file_yields_its_cues txt _ D2) as (p & I1 & I2). exists txt, p. tauto.
Qed.
Print Assumptions C74_extracted.
Theorem C74_not_extracted : forall scale l1 a l2 qs e1 e2 es d1 d2 ds d x, 0 < scale -> stand_for scale l1 qs ->
  (pa_displays a = d1 :: d2 :: ds \/ pa_displays a = [d] /\ pd_language d = Some x /\ ~ In 0 x /\ x <> [101; 110; 103]) ->
  demux_chapters scale (e1 :: e2 :: es) = Val None /\ demux_chapters scale [l1 ++ a :: l2] = Val None.
Proof.
  intros scale l1 a l2 qs e1 e2 es d1 d2 ds d x Hs H HA. split; [reflexivity|]. unfold demux_chapters, WriteChaptersFile.
  assert (E : chapters_text scale (l1 ++ a :: l2) = Val None); [|rewrite E; reflexivity].
  induction H as [|b l qs E H IH|b q l qs HSF HC H IH]; cbn [app chapters_text].
  - destruct HA as [->|(-> & EX & H0 & HX)]; [reflexivity|]. rewrite EX. unfold is_eng. rewrite (c_str_id _ H0).
    destruct x as [|x1 [|x2 [|x3 [|x4 x]]]]; try reflexivity;
    repeat match goal with |- context [match ?z with Z0 => _ | Zpos _ => _ | Zneg _ => _ end] => destruct z; try reflexivity
      | |- context [match ?z with xI _ => _ | xO _ => _ | xH => _ end] => destruct z; try reflexivity end; congruence.
  - rewrite E. exact IH.
  - pose proof HSF as ((language & country & ED & HL) & _). rewrite ED. cbn [pd_language].
    assert (EL : match language with Some s => negb (is_eng s) | None => false end = false) by (destruct HL as [->| ->]; reflexivity). rewrite EL.
    rewrite (stands_cue_ok scale b q _ HC HSF ED Hs). cbn [obind]. rewrite IH. reflexivity.
Qed.
Print Assumptions C74_not_extracted.
(* a chapter of 1.5 s to 2.2504 s in units of 100 microseconds, one without title *)
Example C74_ex_any : stand_for 100000
  [mkPA None 5 0 7 []; mkPA None 6 15000 22504 [mkPD (Some [72; 105]) (Some [101; 110; 103]) None]]
  [mkCueV [] (mkTime 0 0 1 500) (mkTime 0 0 2 250) [] [[72; 105]]].
Proof.
  apply sf_untitled; [reflexivity|]. apply sf_titled; [| |constructor].
  - split; [do 2 eexists; split; [reflexivity|right; reflexivity]|]. cbn. repeat split; lia.
  - unfold clean_cue. cbn [q_id q_settings q_payload q_start q_stop]. split; [left; reflexivity|]. split; [reflexivity|]. split; [discriminate|]. split.
    { constructor; [|constructor]. split; [discriminate|]. split; [split; [repeat constructor; unfold plain_char; lia|cbn; lia]|]. split; [repeat constructor; lia|cbn; intuition lia]. }
    unfold clean_time, times_fit, millis. cbn. repeat split; lia.
Qed.

(* the file of C48, whose cue has an identifier and settings *)
Example C74_ex_meets : good_chapters ex_file [ex_cue] /\ Forall named [ex_cue].
Proof.
  split; [|constructor; [discriminate|constructor]]. split; [exact (file_weaken _ _ plain_scaled _ _ C48_nonvacuous)|].
  destruct (ex_bytes ex_file ltac:(vm_compute; reflexivity)) as [B1 B2]. split; [exact B1|]. split; [exact B2|].
  split; [unfold in_order, millis; cbn; lia|]. split; (constructor; [|constructor]); [unfold times_fit, millis; cbn; lia|unfold title_fits, zlen; cbn; lia].
Qed.
(* the whole way there and back *)
Definition ex_writer : wstate := mkW [] 0 true [].
Definition ex_way (file : list Z) (scale : Z) (uids : list Z) : outcome (option (list Z)) :=
  olet x := LoadChapters (map Ch file) [] in
  olet chs := AddChapters scale uids (snd x) in
  olet y := Chapters_Write chs ex_writer in
  if fst y then
    let r := file_reader (w_file (snd y)) in
    let '(_, start, _, size) := ParseElementHeader r 0 (-1) in
    olet z := Chapters_Parse r start size in
    demux_chapters scale (snd z)
  else Val None.
Example C74_ex_chapters : exists chs, AddChapters 1000000 [7] [ex_cue] = Val chs /\ representable [chapters_tree chs] /\ good ex_writer /\ no_fail ex_writer.
Proof.
  eexists. split; [vm_compute; reflexivity|]. split; [rep|]. split; [split; [vm_compute; split; discriminate|constructor]|constructor].
Qed.
(* two chapters: 1 --> 2 with the lines Hi and !, then 2 --> 3.5 with the line Yo *)
Definition chap_file : list Z :=
  kWebvttId ++ [10; 10] ++ [97; 10; 49] ++ arrow ++ [50; 10; 72; 105; 10; 33; 10; 10] ++ [98; 10; 50] ++ arrow ++ [51; 46; 53; 32; 120; 58; 121; 10; 89; 111; 10].
Example C74_ex : ex_way chap_file 1000000 [7; 8] = Val (Some (kWebvttId ++ [10; 10] ++
  [97;10;48;48;58;48;49;46;48;48;48;32;45;45;62;32;48;48;58;48;50;46;48;48;48;10;72;105;10;33;10;10] ++
  [98;10;48;48;58;48;50;46;48;48;48;32;45;45;62;32;48;48;58;48;51;46;53;48;48;10;89;111;10])).
Proof. vm_compute. reflexivity. Qed.

(* C74 without identifiers is false: the two cues of C73 are loaded, and the chapters
   made of them are refused by the muxer. *)
Theorem C74_no_identifier_refuted : exists file qs chs s',
  good_chapters file qs /\ LoadChapters (map Ch file) [] = Val (true, qs) /\ AddChapters 1000000 [7; 8] qs = Val chs /\
  representable [chapters_tree chs] /\ Chapters_Write chs ex_writer = Val (false, s').
Proof.
  exists two_cues, two_cues_read. do 2 eexists. split; [|split; [vm_compute; reflexivity|]; split; [vm_compute; reflexivity|]; split; [rep|vm_compute; reflexivity]].
  split; [exact two_cues_file|]. destruct (ex_bytes two_cues ltac:(vm_compute; reflexivity)) as [B1 B2]. split; [exact B1|]. split; [exact B2|].
  split; [unfold in_order, millis; cbn; lia|]. split; (constructor; [|constructor; [|constructor]]); unfold times_fit, millis, title_fits, zlen; cbn; lia.
Qed.
Print Assumptions C74_no_identifier_refuted.

(* Settings are lost: the chapter that had x:y comes out without. *)
Theorem C74_settings_refuted : exists file q q' txt, ex_way file 1000000 [7] = Val (Some txt) /\
  LoadChapters (map Ch file) [] = Val (true, [q]) /\ q_settings q <> [] /\ LoadChapters (map Ch txt) [] = Val (true, [q']) /\ q_settings q' = [].
Proof.
  exists (kWebvttId ++ [10; 10] ++ [98; 10; 50] ++ arrow ++ [51; 46; 53; 32; 120; 58; 121; 10; 89; 111; 10]). do 3 eexists.
  split; [vm_compute; reflexivity|]. split; [vm_compute; reflexivity|]. split; [discriminate|]. split; [vm_compute; reflexivity|reflexivity].
Qed.
Print Assumptions C74_settings_refuted.
