(* The callback parser reports what a document contains. *)
From Coq Require Import ZifyBool.
From Verif Require Import Base EbmlSpec LacingSpec WpSpec WpDocSpec MWp MWpBlock MWpTree PWpBlk PWpDoc3 PropWp.

(* the notifications of a session, first one first *)
Definition notifications (w : world) : list event := rev (map fst (w_trace w)).

(* C59.  A callback that reads everything is told, in order, exactly the events of
   the document, however the data arrives, and the parse completes. *)
Theorem C59_document_reported :
  forall data events sched,
    document data events -> Forall (fun b => 0 <= b < 256) data -> zlen data < 2 ^ 62 ->
    (exists s w, parse read_all wp_new (source data sched) s w) /\
    forall s w, parse read_all wp_new (source data sched) s w -> s = kOkCompleted /\ notifications w = events.
Proof.
  intros data events sched D B L. assert (P : proper read_all) by (intros t e; cbn; lia).
  split; [apply C50_sessions_end; [exact P | exact B | apply reached_new]|].
  intros s w H. destruct (document_read data events D B L) as (f & p & w2 & F & T).
  assert (H2 : parse read_all wp_new (source data []) kOkCompleted w2) by (eapply parse_done; [exact F | discriminate]).
  destruct (C28_schedule_independent _ _ _ _ _ _ _ _ P B H H2) as [-> E]. split; [reflexivity|].
  unfold notifications. rewrite E, T. unfold lg. rewrite app_nil_r, map_map, map_id. apply rev_involutive.
Qed.
Print Assumptions C59_document_reported.

(* EBML header; Segment of unknown size with information, a track, a cluster of
   unknown size with a Xiph-laced block and a block group, and a further cluster
   with a Void element and an unknown one *)
Definition sample : list Z :=
  [0x1A; 0x45; 0xDF; 0xA3; 0x87; 0x42; 0x82; 0x84; 119; 101; 98; 109;
   0x18; 0x53; 0x80; 0x67; 0xFF;
     0x15; 0x49; 0xA9; 0x66; 0x87; 0x2A; 0xD7; 0xB1; 0x83; 0x0F; 0x42; 0x40;
     0x16; 0x54; 0xAE; 0x6B; 0x88; 0xAE; 0x86; 0xD7; 0x81; 1; 0x83; 0x81; 2;
     0x1F; 0x43; 0xB6; 0x75; 0xFF;
       0xE7; 0x81; 5;
       0xA3; 0x89; 0x81; 0; 0; 0x82; 1; 2; 7; 8; 9;
       0xA0; 0x8A; 0xA1; 0x85; 0x81; 0; 1; 0; 77; 0x9B; 0x81; 4;
     0x1F; 0x43; 0xB6; 0x75; 0x8A;
       0xE7; 0x81; 6; 0xEC; 0x81; 0; 0x42; 0x86; 0x81; 9].
Ltac sized id iw w n :=
  match goal with |- elements ?d ?p ?c ?pos ?bs _ =>
    let po := eval vm_compute in pos in
    let ib := eval vm_compute in (firstn iw bs) in
    let pl := eval vm_compute in (firstn n (skipn (iw + w) bs)) in
    let rest := eval vm_compute in (skipn (iw + w + n) bs) in
    let wz := eval vm_compute in (Z.of_nat w) in
    let iz := eval vm_compute in (Z.of_nat iw) in
    refine (els_sized d p c po id ib wz pl rest _ _ _ _ _ eq_refl _ _);
      [exists iz; split; [vm_compute; repeat split; first [reflexivity | discriminate] | reflexivity] | vm_compute; repeat split; first [reflexivity | discriminate] | | ]
  end.
Ltac unsized id iw w n :=
  match goal with |- elements ?d ?p ?c ?pos ?bs _ =>
    let po := eval vm_compute in pos in
    let ib := eval vm_compute in (firstn iw bs) in
    let pl := eval vm_compute in (firstn n (skipn (iw + w) bs)) in
    let rest := eval vm_compute in (skipn (iw + w + n) bs) in
    let wz := eval vm_compute in (Z.of_nat w) in
    let iz := eval vm_compute in (Z.of_nat iw) in
    refine (els_unsized d p c po id ib wz pl rest _ _ _ _ _ _ _ eq_refl _ _);
      [exists iz; split; [vm_compute; repeat split; first [reflexivity | discriminate] | reflexivity] | lia | discriminate | | | ]
  end.
Ltac leaf c := eapply e_scalar; [reflexivity | apply c; [discriminate | vm_compute; discriminate] | reflexivity].
Example C59_example : exists events, document sample events /\ length events = 45%nat /\
  In (EData (DFrame (mk_meta 0xA3 2 9 50) 58 2) 7) events.
Proof.
  eexists. split; [eexists; split; [unfold sample|reflexivity]|].
  - sized Ebml 4%nat 1%nat 7%nat.
    { eapply e_master; [reflexivity | reflexivity |]. sized 0x4282 2%nat 1%nat 4%nat.
      - eapply e_scalar; [reflexivity | | reflexivity]. apply (s_string matroska [119; 101; 98; 109] 0); [discriminate | cbn; lia].
      - apply els_none. }
    unsized Segment 4%nat 1%nat 74%nat.
    { left. split; reflexivity. }
    { eapply e_master; [reflexivity | reflexivity |]. sized Info 4%nat 1%nat 7%nat.
      { eapply e_master; [reflexivity | reflexivity |]. sized 0x2AD7B1 3%nat 1%nat 3%nat; [leaf s_uint | apply els_none]. }
      sized 0x1654AE6B 4%nat 1%nat 8%nat.
      { eapply e_master; [reflexivity | reflexivity |]. sized TrackEntry 1%nat 1%nat 6%nat; [|apply els_none].
        eapply e_master; [reflexivity | reflexivity |].
        sized 0xD7 1%nat 1%nat 1%nat; [leaf s_uint|]. sized 0x83 1%nat 1%nat 1%nat; [leaf s_uint | apply els_none]. }
      unsized Cluster 4%nat 1%nat 26%nat.
      2: { eapply e_master; [reflexivity | reflexivity |].
        sized 0xE7 1%nat 1%nat 1%nat; [leaf s_uint|].
        sized SimpleBlock 1%nat 1%nat 9%nat.
        { refine (e_block _ _ _ _ _ true 1 0 130 LXiph [[7; 8]; [9]] _ _ _ _); [reflexivity | reflexivity | | discriminate].
          exists 1, [1; 2]. split; [lia|]. split; [lia|]. split; [lia|]. split; [unfold is_byte; lia|].
          split; [reflexivity|]. split; [repeat constructor; discriminate|]. split; [|reflexivity].
          apply (lh_xiph [2] 1). discriminate. }
        sized BlockGroup 1%nat 1%nat 10%nat; [|apply els_none].
        eapply e_master; [reflexivity | reflexivity |].
        sized 0xA1 1%nat 1%nat 5%nat; [|sized 0x9B 1%nat 1%nat 1%nat; [leaf s_uint | apply els_none]].
        refine (e_block _ _ _ _ _ false 1 1 0 LNone [[77]] _ _ _ _); [reflexivity | reflexivity | | discriminate].
        exists 1, []. split; [lia|]. split; [lia|]. split; [lia|]. split; [unfold is_byte; lia|].
        split; [reflexivity|]. split; [repeat constructor; discriminate|]. split; [apply lh_none | reflexivity]. }
      2: { sized Cluster 4%nat 1%nat 10%nat; [|apply els_none].
        eapply e_master; [reflexivity | reflexivity |].
        sized 0xE7 1%nat 1%nat 1%nat; [leaf s_uint|].
        sized Void 1%nat 1%nat 1%nat; [eapply e_void; reflexivity|].
        sized 0x4286 2%nat 1%nat 1%nat; [eapply e_unknown; [reflexivity | discriminate | reflexivity] | apply els_none]. }
      right. split; [reflexivity|]. split; [reflexivity|]. split; [discriminate|]. left. discriminate. }
    apply els_none.
  - split; [vm_compute; reflexivity|].
    vm_compute. repeat (first [left; reflexivity | right]).
Qed.

(* The position given for a frame is that of its first byte in the data -- except
   for fixed-size lacing, where webm_parser/src/block_parser.cc 205-223 leaves out
   the size of the block's header. *)
Definition fixed_file : list Z :=
  [0x1A; 0x45; 0xDF; 0xA3; 0x80; 0x18; 0x53; 0x80; 0x67; 0x93;
   0x1F; 0x43; 0xB6; 0x75; 0x8E; 0xE7; 0x81; 5; 0xA3; 0x89; 0x81; 0; 0; 4; 1; 7; 8; 9; 10].
Theorem C59_fixed_lacing_position_refuted :
  exists w m pos,
    block_content 1 0 4 LFixed [[7; 8]; [9; 10]] (skipn 20 fixed_file) /\
    m = mk_meta SimpleBlock 2 9 18 /\
    parse read_all wp_new (source fixed_file []) kOkCompleted w /\
    In (EData (DFrame m pos 2) 7) (notifications w) /\ In (EData (DFrame m pos 2) 8) (notifications w) /\
    firstn 2 (skipn (Z.to_nat pos) fixed_file) <> [7; 8].
Proof.
  do 2 eexists. exists 23. split; [|split; [reflexivity|split; [eapply (session_parse _ 30); vm_compute; reflexivity|]]].
  - exists 1, [1]. split; [lia|]. split; [lia|]. split; [lia|]. split; [unfold is_byte; lia|].
    split; [reflexivity|]. split; [repeat constructor; discriminate|]. split; [apply (lh_fixed 2 2); lia | reflexivity].
  - split; [vm_compute; repeat (first [left; reflexivity | right])|].
    split; [vm_compute; repeat (first [left; reflexivity | right]) | discriminate].
Qed.
Print Assumptions C59_fixed_lacing_position_refuted.

(* An element of size zero right after a Cluster of unknown size and at the very end
   is lost: nothing is reported about the Tags element at the end of this file. *)
Definition empty_end_file : list Z :=
  [0x1A; 0x45; 0xDF; 0xA3; 0x80; 0x18; 0x53; 0x80; 0x67; 0x8D;
   0x1F; 0x43; 0xB6; 0x75; 0xFF; 0xE7; 0x81; 5; 0x12; 0x54; 0xC3; 0x67; 0x80].
Theorem C59_empty_end_refuted :
  exists w,
    parse read_all wp_new (source empty_end_file []) kOkCompleted w /\
    In (EElement (mk_meta Cluster 5 kUnknownElementSize 10)) (notifications w) /\
    ~ exists m, In (EElement m) (notifications w) /\ me_id m = 0x1254C367.
Proof.
  eexists. split; [eapply (session_parse _ 30); vm_compute; reflexivity|].
  split; [vm_compute; repeat (first [left; reflexivity | right])|].
  intros (m & I & E). vm_compute in I. 
  repeat (destruct I as [I|I]; [first [discriminate | injection I as I; rewrite <- I in E; discriminate E]|]). exact I.
Qed.
Print Assumptions C59_empty_end_refuted.

(* The same happens without a seek: the second EBML header of two streams joined
   together, the first with a Segment of unknown size, starts at position 18 and is
   reported at 23 (webm_parser/src/webm_parser.cc 174). *)
Definition joined_file : list Z :=
  [0x1A; 0x45; 0xDF; 0xA3; 0x80; 0x18; 0x53; 0x80; 0x67; 0xFF; 0x1F; 0x43; 0xB6; 0x75; 0x83; 0xE7; 0x81; 6;
   0x1A; 0x45; 0xDF; 0xA3; 0x83; 0x42; 0x86; 0x80].
Theorem C59_joined_streams_position_refuted :
  exists w,
    parse read_all wp_new (source joined_file []) kOkCompleted w /\
    firstn 4 (skipn 18 joined_file) = [0x1A; 0x45; 0xDF; 0xA3] /\
    In (EElement (mk_meta Ebml 5 3 23)) (notifications w) /\ ~ In (EElement (mk_meta Ebml 5 3 18)) (notifications w).
Proof.
  eexists. split; [eapply (session_parse _ 30); vm_compute; reflexivity|]. split; [reflexivity|].
  split; [vm_compute; repeat (first [left; reflexivity | right])|].
  intro I. vm_compute in I. repeat (destruct I as [I|I]; [discriminate I|]). exact I.
Qed.
Print Assumptions C59_joined_streams_position_refuted.
