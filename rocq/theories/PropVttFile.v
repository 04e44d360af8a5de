(* C76: the files vttdemux writes. *)
From Coq Require Import ZifyBool ZifyNat String.
From Verif Require Import Base MVtt VttSpec PVtt PVtt3 PropVtt VttMuxSpec MVttMux PVttMux PVttMux2 PropVttMux MParMeta MVttChap VttNameSpec MVttName PVttName PropVttName VttFileSpec MVttFile PVttFile.

(* When extracting succeeds, the file of a track holds what its own blocks give (as in
   C73), however they are mixed with the blocks of other tracks, and the file of the
   chapters what these give (as in C74). *)
Theorem C76_own_blocks : forall scale editions bs keys fs,
  NoDup keys -> (forall b, In b bs -> 0 < be_track b) ->
  WriteFiles scale editions bs (map (fun n => (n, [])) keys) = Val (true, fs) ->
  map fst fs = keys /\
  (forall n, In n keys -> n <> 0 -> exists c, In (n, c) fs /\ demux_track scale (blocks_of n bs) = Val (Some c)) /\
  (forall es, In 0 keys -> editions = Some es -> exists c, In (0, c) fs /\ demux_chapters scale es = Val (Some c)) /\
  (forall b, In b bs -> In (be_track b) keys -> be_group b = true).
Proof.
  intros scale editions bs keys fs ND HT HW. unfold WriteFiles in HW. cbv zeta in HW.
  assert (EI : InitializeFiles (map (fun n => (n, [])) keys) = map (fun n => (n, kWebvttId ++ [10])) keys) by (unfold InitializeFiles; rewrite map_map; reflexivity). rewrite EI in HW. clear EI.
  set (f0 := map (fun n => (n, kWebvttId ++ [10])) keys) in *. assert (K0 : map fst f0 = keys) by (unfold f0; rewrite map_map; apply map_id).
  destruct (if has_key 0 f0 then match editions with None => Val (Some []) | Some es => WriteChaptersFile scale es end else Val (Some [])) as [[t|]|] eqn:EC; cbn [obind] in HW; try discriminate HW.
  destruct (process_ok scale bs _ fs ltac:(rewrite append_keys, K0; exact ND) HW) as (H1 & H2 & H3). rewrite append_keys, K0 in H1. split; [exact H1|].
  assert (IN : forall n, In n keys -> In (n, kWebvttId ++ [10]) f0) by (intros n Hn; unfold f0; apply in_map_iff; exists n; tauto).
  split; [|split].
  - intros n Hn H0. destruct (H3 n (kWebvttId ++ [10])) as (t' & W & I).
    { apply append_in. eexists. split; [exact (IN n Hn)|]. destruct (n =? 0) eqn:Q; [lia|reflexivity]. }
    eexists. split; [exact I|]. unfold demux_track. rewrite W. cbn [obind]. rewrite <- app_assoc. reflexivity.
  - intros es Hn ->. destruct (H3 0 ((kWebvttId ++ [10]) ++ t)) as (t' & W & I).
    { apply append_in. eexists. split; [exact (IN 0 Hn)|]. reflexivity. }
    assert (EB : blocks_of 0 bs = []).
    { unfold blocks_of. clear - HT. induction bs as [|b bs IH]; [reflexivity|]. cbn [filter]. pose proof (HT b ltac:(left; reflexivity)). destruct (be_track b =? 0) eqn:Q; [lia|]. apply IH. intros x Hx. apply HT. right. exact Hx. }
    rewrite EB in W. cbn [write_cues] in W. injection W as <-. rewrite app_nil_r in I. eexists. split; [exact I|].
    assert (HK : has_key 0 f0 = true) by (apply has_key_in; rewrite K0; exact Hn). rewrite HK in EC. unfold demux_chapters. rewrite EC. cbn [obind]. rewrite <- app_assoc. reflexivity.
  - intros b Hb Hk. apply (H2 b Hb). unfold covered. rewrite append_keys, K0. exact Hk.
Qed.
Print Assumptions C76_own_blocks.

(* Extracting succeeds when the WebVTT blocks are in block groups, each track by itself
   can be extracted, and so can the chapters. *)
Theorem C76_succeeds : forall scale editions bs keys,
  NoDup keys -> (forall b, In b bs -> 0 < be_track b) -> (forall b, In b bs -> In (be_track b) keys -> be_group b = true) ->
  (forall n, In n keys -> exists c, demux_track scale (blocks_of n bs) = Val (Some c)) ->
  (forall es, editions = Some es -> exists c, demux_chapters scale es = Val (Some c)) ->
  exists fs, WriteFiles scale editions bs (map (fun n => (n, [])) keys) = Val (true, fs).
Proof.
  intros scale editions bs keys ND HT HG HD HC. unfold WriteFiles. cbv zeta.
  assert (EI : InitializeFiles (map (fun n => (n, [])) keys) = map (fun n => (n, kWebvttId ++ [10])) keys) by (unfold InitializeFiles; rewrite map_map; reflexivity). rewrite EI.
  set (f0 := map (fun n => (n, kWebvttId ++ [10])) keys) in *. assert (K0 : map fst f0 = keys) by (unfold f0; rewrite map_map; apply map_id).
  assert (EC : exists t, (if has_key 0 f0 then match editions with None => Val (Some []) | Some es => WriteChaptersFile scale es end else Val (Some [])) = Val (Some t)).
  { destruct (has_key 0 f0); [|eexists; reflexivity]. destruct editions as [es|]; [|eexists; reflexivity]. destruct (HC es eq_refl) as (c & E). unfold demux_chapters in E.
    destruct (WriteChaptersFile scale es) as [[t|]|]; cbn [obind] in E; try discriminate E. exists t. reflexivity. }
  destruct EC as (t & EC). rewrite EC. cbn [obind]. apply process_can.
  - intros b Hb Hk. apply (HG b Hb). unfold covered in Hk. rewrite append_keys, K0 in Hk. exact Hk.
  - intros n Hn. rewrite append_keys, K0 in Hn. destruct (HD n Hn) as (c & E). unfold demux_track in E. destruct (write_cues scale (blocks_of n bs)) as [[t'|]|]; cbn [obind] in E; try discriminate E. exists t'. reflexivity.
Qed.
Print Assumptions C76_succeeds.

(* From WebVTT files to WebVTT files, all tracks together: the files of C73 are loaded
   and written as frames, the frames are stored in block groups, mixed in any way that
   keeps the order within each track with blocks of other tracks (video, audio).  Then
   extracting succeeds, and the parser reads each file as the cues of the original. *)
Theorem C76_end_to_end : forall loads ts scale bs,
  NoDup (map fst loads) -> (forall x, In x loads -> 0 < fst x /\ good_file (fst (snd x)) (snd (snd x))) ->
  0 < scale -> (scale | 1000000) ->
  exists cues frames, load_all (inputs loads) [] = Val (true, cues) /\ write_all ts cues = Val frames /\
    ((forall b, In b bs -> 0 < be_track b) -> (forall b, In b bs -> In (be_track b) (map fst loads) -> be_group b = true) ->
     (forall x, In x loads -> blocks_of (fst x) bs = map (stored scale) (of_track (fst x) frames)) ->
     exists fs, WriteFiles scale None bs (map (fun n => (n, [])) (map fst loads)) = Val (true, fs) /\
       forall x, In x loads -> exists c p, In (fst x, c) fs /\ Init (new_parser (map Ch c)) = Val (0, p) /\ yields p (snd (snd x))).
Proof.
  intros loads ts scale bs ND HF Hs Hk. destruct (C73_webvtt_survives loads ts scale ND (fun x Hx => proj2 (HF x Hx)) Hs Hk) as (cues & frames & E1 & E2 & _ & _ & HD).
  exists cues, frames. split; [exact E1|]. split; [exact E2|]. intros HT HG HB.
  destruct (C76_succeeds scale None bs (map fst loads) ND HT HG) as (fs & EW).
  - intros n Hn. apply in_map_iff in Hn. destruct Hn as (x & <- & Hx). destruct (HD x Hx) as (txt & p & D & _). rewrite (HB x Hx). exists txt. exact D.
  - discriminate.
  - exists fs. split; [exact EW|]. intros x Hx. destruct (C76_own_blocks scale None bs (map fst loads) fs ND HT EW) as (_ & HO & _).
    destruct (HO (fst x) ltac:(apply in_map; exact Hx) ltac:(destruct (HF x Hx); lia)) as (c & I & D). destruct (HD x Hx) as (txt & p & D' & _ & I1 & I2).
    rewrite (HB x Hx), D' in D. injection D as <-. exists txt, p. tauto.
Qed.
Print Assumptions C76_end_to_end.

(* the two tracks of C73 mixed with video blocks *)
Definition ex_blocks : list block_entry :=
  match (olet x := load_all (inputs ex_loads) [] in write_all [0; 1500000000] (snd x)) with
  | Val frames => flat_map (fun f => [mkBE 7 false (mkMB 0 0 [1; 2]); mkBE (mf_track f) true (stored 1000000 f)]) frames
  | UB => []
  end.
Example C76_ex : exists c2, WriteFiles 1000000 None ex_blocks (map (fun n => (n, [])) (map fst ex_loads)) = Val (true, [(2, c2); (1, two_cues_out)]).
Proof. eexists. vm_compute. reflexivity. Qed.
Example C76_ex_meets : (forall b, In b ex_blocks -> 0 < be_track b) /\ (forall b, In b ex_blocks -> In (be_track b) (map fst ex_loads) -> be_group b = true) /\ length ex_blocks = 6%nat.
Proof.
  split; [|split; [|vm_compute; reflexivity]].
  - intros b Hb. assert (H : forallb (fun b => 0 <? be_track b) ex_blocks = true) by (vm_compute; reflexivity). rewrite forallb_forall in H. specialize (H b Hb). lia.
  - intros b Hb Hk. assert (H : forallb (fun b => (be_track b =? 7) || be_group b) ex_blocks = true) by (vm_compute; reflexivity). rewrite forallb_forall in H. specialize (H b Hb).
    destruct (be_group b); [reflexivity|]. exfalso. assert (be_track b = 7) by lia. cbn in Hk. lia.
Qed.

(* The whole program, once the WebM file is parsed. *)
Definition has_chapters (editions : option (list (list p_atom))) : bool := match editions with None => false | Some _ => true end.
(* c is what the chapters, or the blocks of track n alone, give *)
Definition content_of (scale : Z) (editions : option (list (list p_atom))) (bs : list block_entry) (n : Z) (c : list Z) : Prop :=
  (n = 0 /\ exists es, editions = Some es /\ demux_chapters scale es = Val (Some c)) \/ (n <> 0 /\ demux_track scale (blocks_of n bs) = Val (Some c)).

(* If vttdemux exits with success, it has written at least one file, none of them twice
   or over the input.  Each holds exactly the text of the chapters or of one WebVTT track
   and is named for it, and none of these is missing. *)
Theorem C76_program : forall can_open scale editions ts filename base ext bs out,
  (forall t c, In t ts -> snd t = Some c -> no_nul c) -> (forall t, In t ts -> fst t < 2 ^ 63) ->
  no_nul filename -> filename = base ++ text "." ++ ext -> ~ In 46 ext -> (forall b, In b bs -> 0 < be_track b) ->
  demux_main can_open scale editions ts filename bs = Val (true, out) ->
  out <> [] /\ NoDup (map fst out) /\ ~ In filename (map fst out) /\
  (forall name c, In (name, c) out -> exists n k, is_kind (has_chapters editions) ts n k /\ named_for (has_chapters editions) ts base n k name /\ content_of scale editions bs n c) /\
  (forall n k, is_kind (has_chapters editions) ts n k -> exists name c, In (name, c) out /\ named_for (has_chapters editions) ts base n k name /\ content_of scale editions bs n c).
Proof.
  intros can_open scale editions ts filename base ext bs out HC HN HF EF HE HT HM. unfold demux_main in HM. fold (has_chapters editions) in HM. cbv zeta in HM.
  destruct (BuildMap (has_chapters editions) ts) as [|v0 m0] eqn:EM; [discriminate HM|]. rewrite <- EM in HM.
  assert (HV : In (fst v0, snd v0) (BuildMap (has_chapters editions) ts)) by (rewrite EM; left; destruct v0; reflexivity). clear EM m0.
  destruct (OpenFiles can_open (BuildMap (has_chapters editions) ts) filename) as [ok opened] eqn:EO.
  destruct (C75_own_file can_open (has_chapters editions) ts filename base ext ok opened HC HN HF EF HE EO) as (D1 & D2 & D3 & D4 & D5 & _).
  destruct ok; cbn [negb] in HM; [|discriminate HM].
  assert (EK : map (fun f : Z * list Z => (fst f, @nil Z)) opened = map (fun n => (n, [])) (map fst opened)) by (rewrite map_map; reflexivity). rewrite EK in HM. clear EK.
  destruct (WriteFiles scale editions bs (map (fun n => (n, [])) (map fst opened))) as [[ok fs]|] eqn:EW; cbn [obind fst snd] in HM; [|discriminate HM]. injection HM as -> <-.
  destruct (C76_own_blocks scale editions bs (map fst opened) fs D2 HT EW) as (K & W1 & W2 & _).
  assert (NK : NoDup (map fst fs)) by (rewrite K; exact D2).
  assert (CO : forall n c, In n (map fst opened) -> In (n, c) fs -> content_of scale editions bs n c).
  { intros n c Hn Hc. unfold content_of. destruct (Z.eq_dec n 0) as [->|H0].
    - left. split; [reflexivity|]. destruct editions as [es|].
      + exists es. split; [reflexivity|]. destruct (W2 es Hn eq_refl) as (c' & I & E). rewrite (key_once fs 0 c c' NK Hc I). exact E.
      + exfalso. apply in_map_iff in Hn. destruct Hn as ([n name] & En & Hi). cbn [fst] in En. subst n. destruct (D4 0 name Hi) as (k & [(_ & _ & X)|(a & t & b & _ & (_ & X & _) & _)] & _); [discriminate X|lia].
    - right. split; [exact H0|]. destruct (W1 n Hn H0) as (c' & I & E). rewrite (key_once fs n c c' NK Hc I). exact E. }
  assert (EF2 : map fst (combine (map snd opened) (map snd fs)) = map snd opened) by (apply combine_fst; rewrite !map_length, <- (map_length fst fs), K, map_length; reflexivity).
  assert (ALL : forall n k, is_kind (has_chapters editions) ts n k -> exists name c, In (name, c) (combine (map snd opened) (map snd fs)) /\ named_for (has_chapters editions) ts base n k name /\ content_of scale editions bs n c).
  { intros n k Hk. destruct (D5 eq_refl n k Hk) as (name & Hi). destruct (combine_to opened fs n name K Hi) as (c & I1 & I2). exists name, c. split; [exact I2|]. split.
    - destruct (D4 n name Hi) as (k' & Hk' & NF). pose proof (build_in (has_chapters editions) ts n k HC) as [S B]. pose proof (build_in (has_chapters editions) ts n k' HC) as [_ B'].
      rewrite (sorted_key _ n k k' S (proj2 B Hk) (proj2 B' Hk')). exact NF.
    - apply CO; [|exact I1]. change n with (fst (n, name)). apply in_map. exact Hi. }
  split; [|split; [rewrite EF2; exact D1|split; [rewrite EF2; exact D3|split; [|exact ALL]]]].
  - intro E. pose proof (build_in (has_chapters editions) ts (fst v0) (snd v0) HC) as [_ B]. destruct (ALL _ _ (proj1 B HV)) as (name & c & I & _). rewrite E in I. destruct I.
  - intros name c Hi. destruct (combine_of opened fs name c K Hi) as (n & I1 & I2). destruct (D4 n name I1) as (k & Hk & NF). exists n, k. split; [exact Hk|]. split; [exact NF|]. apply CO; [|exact I2]. change n with (fst (n, name)). apply in_map. exact I1.
Qed.
Print Assumptions C76_program.

(* It exits with success when the input name has an extension, all files can be opened,
   there is any WebVTT text and all of it can be extracted. *)
Theorem C76_program_succeeds : forall scale editions ts filename base ext bs,
  (forall t c, In t ts -> snd t = Some c -> no_nul c) -> (forall t, In t ts -> fst t < 2 ^ 63) ->
  no_nul filename -> filename = base ++ text "." ++ ext -> ~ In 46 ext -> (forall b, In b bs -> 0 < be_track b) ->
  (exists n k, is_kind (has_chapters editions) ts n k) ->
  (forall n k, is_kind (has_chapters editions) ts n k -> exists c, content_of scale editions bs n c) ->
  (forall n k b, is_kind (has_chapters editions) ts n k -> In b bs -> be_track b = n -> be_group b = true) ->
  exists out, demux_main (fun _ => true) scale editions ts filename bs = Val (true, out).
Proof.
  intros scale editions ts filename base ext bs HC HN HF EF HE HT (n0 & k0 & H0) HX HG. unfold demux_main. fold (has_chapters editions). cbv zeta.
  pose proof (build_in (has_chapters editions) ts n0 k0 HC) as [_ B0]. apply B0 in H0. destruct (BuildMap (has_chapters editions) ts) as [|v0 m0] eqn:EM; [destruct H0|]. rewrite <- EM. clear H0 B0 EM v0 m0.
  destruct (OpenFiles (fun _ => true) (BuildMap (has_chapters editions) ts) filename) as [ok opened] eqn:EO.
  destruct (C75_own_file (fun _ => true) (has_chapters editions) ts filename base ext ok opened HC HN HF EF HE EO) as (_ & D2 & _ & D4 & _ & D6).
  rewrite (D6 (fun _ => eq_refl)). cbn [negb].
  assert (EK : map (fun f : Z * list Z => (fst f, @nil Z)) opened = map (fun n => (n, [])) (map fst opened)) by (rewrite map_map; reflexivity). rewrite EK. clear EK.
  assert (KO : forall n, In n (map fst opened) -> exists k, is_kind (has_chapters editions) ts n k) by (intros n Hn; apply in_map_iff in Hn; destruct Hn as ([n' name] & <- & Hi); destruct (D4 n' name Hi) as (k & Hk & _); exists k; exact Hk).
  destruct (C76_succeeds scale editions bs (map fst opened) D2 HT) as (fs & EW).
  - intros b Hb Hk. destruct (KO _ Hk) as (k & K). exact (HG _ k b K Hb eq_refl).
  - intros n Hn. destruct (KO n Hn) as (k & K). destruct (HX n k K) as (c & [[-> _]|[_ E]]); [|exists c; exact E].
    assert (EB : blocks_of 0 bs = []).
    { unfold blocks_of. clear - HT. induction bs as [|b bs IH]; [reflexivity|]. cbn [filter]. pose proof (HT b ltac:(left; reflexivity)). destruct (be_track b =? 0) eqn:Q; [lia|]. apply IH. intros x Hx. apply HT. right. exact Hx. }
    rewrite EB. eexists. reflexivity.
  - intros es ->. destruct (HX 0 Chapters) as (c & [(_ & es' & E & D)|[X _]]); [left; repeat split|injection E as <-; exists c; exact D|congruence].
  - rewrite EW. cbn [obind fst snd]. eexists. reflexivity.
Qed.
Print Assumptions C76_program_succeeds.

(* a.webm with the blocks above, two WebVTT tracks and a video *)
Example C76_program_ex : exists c2, demux_main (fun _ => true) 1000000 None
  [(7, Some (text "V_VP8")); (1, Some (text "D_WEBVTT/SUBTITLES")); (2, Some (text "D_WEBVTT/SUBTITLES"))] (text "a.webm") ex_blocks =
  Val (true, [(text "a_SUBTITLES1.vtt", two_cues_out); (text "a_SUBTITLES2.vtt", c2)]).
Proof. eexists. vm_compute. reflexivity. Qed.

(* A WebVTT block that is not in a block group ends the extraction: later cues, of other
   tracks too, are not written. *)
Theorem C76_simple_block_refuted : exists bs fs, blocks_of 1 bs = [mkMB 0 1 [10; 10; 65; 10]] /\
  WriteFiles 1000000 None bs [(1, []); (2, [])] = Val (false, fs) /\ In (1, kWebvttId ++ [10]) fs.
Proof.
  exists [mkBE 2 false (mkMB 0 1 [10; 10; 65; 10]); mkBE 1 true (mkMB 0 1 [10; 10; 65; 10])]. eexists. split; [reflexivity|]. split; [vm_compute; reflexivity|]. left. reflexivity.
Qed.
Print Assumptions C76_simple_block_refuted.
