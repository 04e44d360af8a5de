(* The callback parser reports a document without the elements the user skips. *)
From Coq Require Import ZifyBool.
From Verif Require Import Base EbmlSpec LacingSpec WpSpec WpDocSpec MWp MWpBlock MWpTree PWpBlk PWpDoc3 PWpSkip PropWp PropWpDoc.

(* C65.  A callback that asks to skip some of the elements when they are announced is
   told, in order, exactly the events of the document without the contents of those
   elements, whatever they contain and however the data arrives, and the parse
   completes. *)
Theorem C65_skipped_elements :
  forall skip data events sched,
    document_skip skip data events -> Forall (fun b => 0 <= b < 256) data -> zlen data < 2 ^ 62 ->
    (exists s w, parse (skipping skip) wp_new (source data sched) s w) /\
    forall s w, parse (skipping skip) wp_new (source data sched) s w -> s = kOkCompleted /\ notifications w = events.
Proof.
  intros skip data events sched D B L. assert (P : proper (skipping skip)) by (intros t e; cbn; lia).
  split; [apply C50_sessions_end; [exact P | exact B | apply reached_new]|].
  intros s w H. destruct (document_read data events D B L) as (f & p & w2 & F & T).
  assert (H2 : parse (skipping skip) wp_new (source data []) kOkCompleted w2) by (eapply parse_done; [exact F | discriminate]).
  destruct (C28_schedule_independent _ _ _ _ _ _ _ _ P B H H2) as [-> E]. split; [reflexivity|].
  unfold notifications. rewrite E, T. unfold lg. rewrite app_nil_r, map_map, map_id. apply rev_involutive.
Qed.
Print Assumptions C65_skipped_elements.

(* ... and of a document that can be read completely, any elements of known size can
   be skipped. *)
Theorem C65_any_selection :
  forall skip data events,
    document data events -> Forall (fun b => 0 <= b < 256) data -> zlen data < 2 ^ 62 ->
    (forall m, skip m = true -> me_size m <> kUnknownElementSize) ->
    exists told, document_skip skip data told /\
      forall sched, (exists s w, parse (skipping skip) wp_new (source data sched) s w) /\
        forall s w, parse (skipping skip) wp_new (source data sched) s w -> s = kOkCompleted /\ notifications w = told.
Proof.
  intros skip data events D B L K. destruct (document_selected skip K data events D) as (told & T).
  exists told. split; [exact T|]. intro sched. exact (C65_skipped_elements skip data told sched T B L).
Qed.
Print Assumptions C65_any_selection.

(* A file whose Info element, at 17, is damaged, as is the first block, at 33: both
   are skipped.  The second block is read. *)
Definition damaged : list Z :=
  [0x1A; 0x45; 0xDF; 0xA3; 0x87; 0x42; 0x82; 0x84; 119; 101; 98; 109;
   0x18; 0x53; 0x80; 0x67; 0xFF;
     0x15; 0x49; 0xA9; 0x66; 0x83; 0; 0; 0;
     0x1F; 0x43; 0xB6; 0x75; 0xFF;
       0xE7; 0x81; 5; 0xA3; 0x82; 0; 0; 0xA3; 0x86; 0x81; 0; 0; 0x80; 7; 8].
Definition damaged_at (m : meta) : bool := (me_pos m =? 17) || (me_pos m =? 33).
Ltac element_of id iw w n con :=
  match goal with |- elements_skip _ ?d ?p ?c ?pos ?bs _ =>
    let po := eval vm_compute in pos in
    let ib := eval vm_compute in (firstn iw bs) in
    let pl := eval vm_compute in (firstn n (skipn (iw + w) bs)) in
    let rest := eval vm_compute in (skipn (iw + w + n) bs) in
    let wz := eval vm_compute in (Z.of_nat w) in
    con d p c po id ib wz pl rest
  end.
Ltac an_id iw := let iz := eval vm_compute in (Z.of_nat iw) in
  exists iz; split; [vm_compute; repeat split; first [reflexivity | discriminate] | reflexivity].
Ltac a_size := vm_compute; repeat split; first [reflexivity | discriminate].
Ltac read_one id iw w n :=
  element_of id iw w n ltac:(fun d p c po id ib wz pl rest => refine (els_sized d p c po id ib wz pl rest _ _ _ _ _ eq_refl _ _));
  [an_id iw | a_size | | ].
Ltac read_open id iw w n :=
  element_of id iw w n ltac:(fun d p c po id ib wz pl rest => refine (els_unsized d p c po id ib wz pl rest _ _ _ _ _ _ _ eq_refl _ _));
  [an_id iw | lia | discriminate | | | ].
Ltac skip_one id iw w n :=
  element_of id iw w n ltac:(fun d p c po id ib wz pl rest => refine (els_skipped d p c po id ib wz pl rest _ _ _ eq_refl _ _));
  [an_id iw | a_size | right; left; discriminate | ].
Example C65_example :
  (exists events, document_skip damaged_at damaged events /\ length events = 18%nat) /\
  (exists s w, parse read_all wp_new (source damaged []) s w /\ s <> kOkCompleted).
Proof.
  split.
  - eexists. split; [eexists; split; [unfold damaged | reflexivity]|].
    + read_one Ebml 4%nat 1%nat 7%nat.
      { eapply e_master; [reflexivity | reflexivity |]. read_one 0x4282 2%nat 1%nat 4%nat; [|apply els_none].
        eapply e_scalar; [reflexivity | apply (s_string _ [119; 101; 98; 109] 0); [discriminate | discriminate] | reflexivity]. }
      read_open Segment 4%nat 1%nat 28%nat; [ | | apply els_none]; [left; split; reflexivity |].
      eapply e_master; [reflexivity | reflexivity |].
      skip_one Info 4%nat 1%nat 3%nat.
      read_open Cluster 4%nat 1%nat 15%nat; [ | | apply els_none]; [right; split; [reflexivity | exact I] |].
      eapply e_master; [reflexivity | reflexivity |].
      read_one 0xE7 1%nat 1%nat 1%nat; [leaf s_uint|].
      skip_one SimpleBlock 1%nat 1%nat 2%nat.
      read_one SimpleBlock 1%nat 1%nat 6%nat; [|apply els_none].
      eapply (e_block O Cluster false _ _ true 1 0 0x80 LNone [[7; 8]]); [reflexivity | reflexivity | | discriminate].
      exists 1, []. split; [lia|]. split; [lia|]. split; [lia|]. split; [unfold is_byte; lia|].
      split; [reflexivity|]. split; [repeat constructor; discriminate|]. split; [apply lh_none | reflexivity].
    + vm_compute. reflexivity.
  - destruct (WebmParser_Feed read_all 200 wp_new (source damaged [])) as [[[s p] w]|] eqn:F; [|vm_compute in F; discriminate].
    exists s, w. split.
    + eapply parse_done; [exact F|]. vm_compute in F. injection F as <- _ _. discriminate.
    + vm_compute in F. injection F as <- _ _. discriminate.
Qed.
