(* The callback parser after a seek. *)
From Coq Require Import ZifyBool.
From Verif Require Import Base EbmlSpec LacingSpec WpSpec WpDocSpec WpSeekSpec MWp MWpBlock MWpTree PWpBlk PWpSeek2 PropWp PropWpDoc.

(* C61.  Whatever a parser was doing, when its user has moved the data source to the
   start of an element inside a document and says so, a callback that reads everything
   is told exactly what the data holds from there on, and the parse completes.  t is
   what was reported before. *)
Theorem C61_resumes :
  forall p levels id pos data parts sched t,
    reached p -> placed levels id -> remains levels pos data parts -> begins_with parts = Some id ->
    Forall (fun b => 0 <= b < 256) data -> 0 <= pos -> pos + zlen data < 2 ^ 62 ->
    let start := mk_world data pos sched t in
    (exists s w, parse read_all (WebmParser_DidSeek p) start s w) /\
    forall s w, parse read_all (WebmParser_DidSeek p) start s w ->
      s = kOkCompleted /\ notifications w = rev (map fst t) ++ resume_events levels parts.
Proof.
  intros p levels id pos data parts sched t R Pl Rm Bw B Hp L start. assert (P : proper read_all) by (intros t0 e; cbn; lia).
  pose proof (reached_seek _ R) as R2.
  split; [apply C50_sessions_end; [exact P | exact B | exact R2]|].
  intros s w H. destruct (seek_run p levels id data pos parts t Pl Rm Bw B Hp L) as (f & p' & w2 & F & T).
  assert (H2 : parse read_all (WebmParser_DidSeek p) (mk_world data pos [] t) kOkCompleted w2) by (eapply parse_done; [exact F | discriminate]).
  destruct (C28_from_any_point _ _ _ _ _ _ _ _ _ _ _ P B R2 H H2) as [-> E]. split; [reflexivity|].
  unfold notifications. rewrite E, T. unfold lg. rewrite map_app, rev_app_distr, map_map, map_id, rev_involutive. reflexivity.
Qed.
Print Assumptions C61_resumes.

(* Seeking to a child of the Segment: the user is told of that child and of those
   after it just as if the whole document had been read (C59), and of the Segment's
   end, without the Segment's size and position. *)
Theorem C61_rest_of_segment :
  forall p closed start payload before i rest sched t,
    reached p ->
    elements O Segment closed start payload (before ++ i :: rest) ->
    type_in Segment (me_id (i_meta i)) <> None ->
    (forall j, In j rest -> type_in Segment (me_id (i_meta j)) <> None \/ me_id (i_meta j) = Void) ->
    Forall (fun b => 0 <= b < 256) payload -> 0 <= start -> start + zlen payload < 2 ^ 62 ->
    let pos := me_pos (i_meta i) in
    let data := skipn (Z.to_nat (pos - start)) payload in
    forall s w, parse read_all (WebmParser_DidSeek p) (mk_world data pos sched t) s w ->
      s = kOkCompleted /\
      notifications w = rev (map fst t) ++ item_events (i :: rest) ++ [EEnd KSegment (not_seen Segment) (VRec [])].
Proof.
  intros p closed start payload before i rest sched t R El Ti Tr B Hs L pos data s w H.
  destruct (elements_from _ _ _ _ _ _ El _ _ _ eq_refl) as (bs1 & bs2 & -> & Pos & El2).
  assert (D : data = bs2).
  { unfold data, pos. rewrite Pos. replace (Z.to_nat (start + zlen bs1 - start)) with (length bs1) by (unfold zlen; lia).
    rewrite skipn_app, skipn_all, Nat.sub_diag. reflexivity. }
  rewrite D in H. rewrite <- Pos in El2. apply Forall_app in B. destruct B as [_ B]. rewrite zlen_app in L.
  pose proof (zlen_nonneg _ bs1). 
  destruct (C61_resumes p [Segment] (me_id (i_meta i)) pos bs2 [i :: rest] sched t R) as (_ & K).
  - split; [discriminate|]. split; [split; [reflexivity | exact Ti]|]. split.
    + repeat constructor; [|intros []]. intros [Q | []]. rewrite Q in Ti. apply Ti. reflexivity.
    + intros a [<- | [<- | []]]; (split; [intro Q | intro Q]); try discriminate Q; rewrite Q in Ti; apply Ti; reflexivity.
  - apply rem_inner; [discriminate|]. refine (elements_open _ _ _ _ _ _ El2 _).
    intros j [<- | J]; [left; exact Ti | apply Tr; exact J].
  - reflexivity.
  - exact B.
  - unfold pos. lia.
  - unfold pos. lia.
  - exact (K s w H).
Qed.
Print Assumptions C61_rest_of_segment.

(* Seeking to a child of a Cluster, for example to a block: what remains of the
   Cluster, the Cluster's end, what remains of the Segment and its end. *)
Theorem C61_inside_cluster :
  forall p pos inside after i items rest sched t,
    reached p ->
    elements O Cluster false pos inside (i :: items) -> type_in Cluster (me_id (i_meta i)) <> None ->
    elements O Segment false (pos + zlen inside) after rest ->
    (forall j more, rest = j :: more -> me_id (i_meta j) <> Void) ->
    Forall (fun b => 0 <= b < 256) (inside ++ after) -> 0 <= pos -> pos + zlen (inside ++ after) < 2 ^ 62 ->
    forall s w, parse read_all (WebmParser_DidSeek p) (mk_world (inside ++ after) pos sched t) s w ->
      s = kOkCompleted /\
      notifications w = rev (map fst t)
        ++ item_events (i :: items) ++ [EEnd KCluster (not_seen Cluster) (VRec (item_values (i :: items)))]
        ++ item_events rest ++ [EEnd KSegment (not_seen Segment) (VRec [])].
Proof.
  intros p pos inside after i items rest sched t R El Ti El2 Nv B Hp L s w H.
  destruct (C61_resumes p [Segment; Cluster] (me_id (i_meta i)) pos (inside ++ after) [rest; i :: items] sched t R) as (_ & K).
  - split; [discriminate|]. split; [split; [reflexivity | split; [reflexivity | exact Ti]]|]. split.
    + repeat constructor; cbn [In]; try tauto; intros Q; repeat (destruct Q as [Q|Q]; [|]); try contradiction; try discriminate Q;
        rewrite Q in Ti; apply Ti; reflexivity.
    + intros a [<- | [<- | [<- | []]]]; (split; intro Q); try discriminate Q; rewrite Q in Ti; apply Ti; reflexivity.
  - apply rem_outer; [apply rem_inner; [discriminate | exact El] | exact El2|].
    intros j J. destruct rest as [|j0 rest]; [discriminate J|]. injection J as ->. pose proof (Nv _ _ eq_refl) as V. split; [exact V|].
    intros b [<- | []]. apply segment_child_not_cluster; [exact V|].
    destruct (elements_types _ _ _ _ _ _ El2 j (or_introl eq_refl)) as [Q | [Q | Q]]; [discriminate Q | exact Q | contradiction].
  - reflexivity.
  - exact B.
  - exact Hp.
  - exact L.
  - cbn [resume_events seen_values app] in K. rewrite <- !app_assoc in K. exact (K s w H).
Qed.
Print Assumptions C61_inside_cluster.

(* in the sample document, the Xiph-laced block inside the first Cluster *)
Example C61_example : exists parts,
  placed [Segment; Cluster] SimpleBlock /\
  remains [Segment; Cluster] 50 (skipn 50 sample) parts /\ begins_with parts = Some SimpleBlock /\
  In (EData (DFrame (mk_meta SimpleBlock 2 9 50) 58 2) 7) (resume_events [Segment; Cluster] parts) /\
  In (EElement (mk_meta Cluster 5 10 73)) (resume_events [Segment; Cluster] parts) /\
  In (EEnd KCluster (mk_meta Cluster 4294967295 18446744073709551615 18446744073709551615)
        (VRec [(SimpleBlock, VBlock (mk_blockv 1 0 true 2 2 true false));
               (BlockGroup, VRec [(0xA1, VBlock (mk_blockv 1 1 true 0 1 false false)); (0x9B, VInt 4)])]))
     (resume_events [Segment; Cluster] parts).
Proof.
  eexists [_; _]. split; [|split; [|split]].
  - split; [discriminate|]. split; [repeat split; discriminate|]. split.
    + repeat constructor; cbn [In]; intro H; repeat (destruct H as [H|H]; [discriminate H|]); exact H.
    + intros a H. cbn [app In] in H. repeat (destruct H as [<-|H]; [split; discriminate|]). contradiction.
  - change (skipn 50 sample) with ([0xA3; 0x89; 0x81; 0; 0; 0x82; 1; 2; 7; 8; 9; 0xA0; 0x8A; 0xA1; 0x85; 0x81; 0; 1; 0; 77; 0x9B; 0x81; 4]
      ++ [0x1F; 0x43; 0xB6; 0x75; 0x8A; 0xE7; 0x81; 6; 0xEC; 0x81; 0; 0x42; 0x86; 0x81; 9]).
    apply rem_outer.
    + apply rem_inner; [|change (room Cluster) with O].
      2:{ sized SimpleBlock 1%nat 1%nat 9%nat.
        { refine (e_block _ _ _ _ _ true 1 0 130 LXiph [[7; 8]; [9]] _ _ _ _); [reflexivity | reflexivity | | discriminate].
          exists 1, [1; 2]. split; [lia|]. split; [lia|]. split; [lia|]. split; [unfold is_byte; lia|].
          split; [reflexivity|]. split; [repeat constructor; discriminate|]. split; [|reflexivity].
          apply (lh_xiph [2] 1). discriminate. }
        sized BlockGroup 1%nat 1%nat 10%nat; [|apply els_none].
        eapply e_master; [reflexivity | reflexivity |].
        sized 0xA1 1%nat 1%nat 5%nat; [|sized 0x9B 1%nat 1%nat 1%nat; [leaf s_uint | apply els_none]].
        refine (e_block _ _ _ _ _ false 1 1 0 LNone [[77]] _ _ _ _); [reflexivity | reflexivity | | discriminate].
        exists 1, []. split; [lia|]. split; [lia|]. split; [lia|]. split; [unfold is_byte; lia|].
        split; [reflexivity|]. split; [repeat constructor; discriminate|]. split; [apply lh_none | reflexivity]. }
      discriminate.
    + change (room Segment) with O. sized Cluster 4%nat 1%nat 10%nat; [|apply els_none].
      eapply e_master; [reflexivity | reflexivity |].
      sized 0xE7 1%nat 1%nat 1%nat; [leaf s_uint|].
      sized Void 1%nat 1%nat 1%nat; [eapply e_void; reflexivity|].
      sized 0x4286 2%nat 1%nat 1%nat; [eapply e_unknown; [reflexivity | discriminate | reflexivity] | apply els_none].
    + intros i H. injection H as <-. split; [discriminate|]. intros b [<- | []]. reflexivity.
  - reflexivity.
  - split; [|split]; vm_compute; repeat (first [left; reflexivity | right]).
Qed.

(* The Colour element of a video track, and everything in it, is missing from the
   table of ancestors (webm_parser/src/ancestory.cc): after a seek to it, it is
   reported as an unknown element. *)
Definition colour : list Z := [0x55; 0xB0; 0x84; 0x55; 0xB1; 0x81; 1].
Theorem C61_colour_refuted :
  type_in 0xE0 0x55B0 = Some TMaster /\
  exists w, parse read_all (WebmParser_DidSeek wp_new) (mk_world colour 200 [] []) kOkCompleted w /\
    In (EData (DUnknown (mk_meta 0x55B0 3 4 200)) 0x55) (notifications w).
Proof.
  split; [reflexivity|]. eexists. split; [eapply (session_parse _ 30); vm_compute; reflexivity|].
  vm_compute. repeat (first [left; reflexivity | right]).
Qed.
Print Assumptions C61_colour_refuted.

(* An unknown element among the children of the Segment: read from the start, the
   Cluster behind it is reported; after a seek to the Cluster before it, the unknown
   element passes for the end of the Segment, and the second Cluster, at position 23,
   is reported as an unknown element with its content. *)
Definition unknown_between : list Z :=
  [0x1A; 0x45; 0xDF; 0xA3; 0x80; 0x18; 0x53; 0x80; 0x67; 0x95;
   0x1F; 0x43; 0xB6; 0x75; 0x83; 0xE7; 0x81; 6; 0x4F; 0x86; 0x82; 9; 9;
   0x1F; 0x43; 0xB6; 0x75; 0x83; 0xE7; 0x81; 7].
Theorem C61_unknown_element_refuted :
  (exists w, parse read_all wp_new (source unknown_between []) kOkCompleted w /\
     In (EEnd KCluster (mk_meta Cluster 5 3 23) (VRec [(0xE7, VInt 7)])) (notifications w)) /\
  (exists w, parse read_all (WebmParser_DidSeek wp_new) (mk_world (skipn 10 unknown_between) 10 [] []) kOkCompleted w /\
     In (EData (DUnknown (mk_meta Cluster 5 3 23)) 7) (notifications w) /\
     ~ In (EEnd KCluster (mk_meta Cluster 5 3 23) (VRec [(0xE7, VInt 7)])) (notifications w)).
Proof.
  split; (eexists; split; [eapply (session_parse _ 30); vm_compute; reflexivity|]).
  - vm_compute. repeat (first [left; reflexivity | right]).
  - split; [vm_compute; repeat (first [left; reflexivity | right])|].
    intro I. vm_compute in I. repeat (destruct I as [I|I]; [discriminate I|]). exact I.
Qed.
Print Assumptions C61_unknown_element_refuted.

(* After a seek into a chapter the chapter's size is not known, so the chapter after it,
   a sibling in the document, is taken for one nested in it. *)
Definition two_chapters : list Z := [0x73; 0xC4; 0x81; 1; 0xB6; 0x84; 0x73; 0xC4; 0x81; 2].
Theorem C61_sibling_chapter_refuted :
  exists w, parse read_all (WebmParser_DidSeek wp_new) (mk_world two_chapters 300 [] []) kOkCompleted w /\
    In (EReport KEdition (not_seen EditionEntry)
          (VRec [(ChapterAtom, VRec [(0x73C4, VInt 1); (ChapterAtom, VRec [(0x73C4, VInt 2)])])])) (notifications w).
Proof.
  eexists. split; [eapply (session_parse _ 30); vm_compute; reflexivity|]. vm_compute. repeat (first [left; reflexivity | right]).
Qed.
Print Assumptions C61_sibling_chapter_refuted.

(* The Segment after an EBML header entered by a seek is reported five bytes too far:
   webm_parser/src/webm_parser.cc 174 overwrites the position of an element whose
   header was read by its predecessor. *)
Definition from_doctype : list Z := [0x42; 0x82; 0x84; 119; 101; 98; 109; 0x18; 0x53; 0x80; 0x67; 0x80].
Theorem C61_position_refuted :
  exists w, parse read_all (WebmParser_DidSeek wp_new) (mk_world from_doctype 5 [] []) kOkCompleted w /\
    firstn 4 (skipn 7 from_doctype) = [0x18; 0x53; 0x80; 0x67] /\
    In (EElement (mk_meta Segment 5 0 (5 + 7 + 5))) (notifications w).
Proof.
  eexists. split; [eapply (session_parse _ 30); vm_compute; reflexivity|]. split; [reflexivity|].
  vm_compute. repeat (first [left; reflexivity | right]).
Qed.
Print Assumptions C61_position_refuted.
