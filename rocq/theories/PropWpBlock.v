(* Property C24 for the callback parser: blocks are split into frames. *)
From Coq Require Import ZifyBool.
From Verif Require Import Base EbmlSpec LacingSpec WpSpec WpBlockSpec WpDocSpec MWp MWpBlock PWpBlk PWpBlkInv PropWp PropWpDoc.

Definition block_kind (simple : bool) : bkind := if simple then KSimpleBlock else KBlock.

(* [block_reported simple m track time flags lac frames events]: events tell about one
   block, described by m, with these contents.  With fixed-size lacing the positions
   are wrong (C59_fixed_lacing_position_refuted). *)
Definition block_reported (simple : bool) (m : meta) (track time flags : Z) (lac : lacing) (frames : list (list Z))
    (events : list event) : Prop :=
  exists pos,
    events = EBegin (block_kind simple) m (VBlock (block_value simple track time flags lac frames))
             :: frame_events m pos frames
             ++ [EEnd (block_kind simple) m (VBlock (block_value simple track time flags lac frames))] /\
    (lac <> LFixed -> pos = me_pos m + me_hsize m + (me_size m - zlen (concat frames))).

Lemma lg_notifications : forall events data pos, notifications (mk_world data pos [] (lg nothing events [])) = events.
Proof. intros. unfold notifications, lg. cbn [w_trace]. rewrite app_nil_r, map_map, map_id. apply rev_involutive. Qed.

Lemma any_block : forall simple m track time flags lac frames bs rest,
  accepted_content track time flags lac frames bs -> me_size m = zlen bs ->
  0 <= me_pos m -> 0 <= me_hsize m -> me_pos m + me_hsize m + me_size m < 2 ^ 63 ->
  exists st st' w, BlockParser_Init m = (kOkCompleted, st) /\
    BlockParser_Feed read_all simple false st (source (bs ++ rest) []) = (kOkCompleted, zlen bs, st', w) /\
    w_data w = rest /\ block_reported simple m track time flags lac frames (notifications w).
Proof.
  intros simple m track time flags lac frames bs rest H Sz P1 P2 B.
  destruct (@block_read_any nothing simple m track time flags lac frames bs rest 0 [] H Sz P1 P2 B) as (st0 & st1 & I & F & _ & _).
  exists st0, st1. eexists. split; [exact I|]. split; [exact F|]. split; [reflexivity|]. rewrite lg_notifications.
  eexists. split; [reflexivity|]. intro N. rewrite Sz. destruct lac; [reflexivity..|congruence|reflexivity].
Qed.

(* Every block coded as the format prescribes is accepted and the frames reported
   are those that were coded. *)
Theorem C24_callback_lacing_decoded : forall simple m track time flags lac frames bs rest,
  block_content track time flags lac frames bs -> me_size m = zlen bs ->
  0 <= me_pos m -> 0 <= me_hsize m -> me_pos m + me_hsize m + me_size m < 2 ^ 63 ->
  exists st st' w, BlockParser_Init m = (kOkCompleted, st) /\
    BlockParser_Feed read_all simple false st (source (bs ++ rest) []) = (kOkCompleted, zlen bs, st', w) /\
    w_data w = rest /\ block_reported simple m track time flags lac frames (notifications w).
Proof. intros simple m track time flags lac frames bs rest H. apply any_block, block_accepted, H. Qed.
Print Assumptions C24_callback_lacing_decoded.

(* Conversely, what is accepted is such a coding of the frames reported, up to track
   number 0 and empty frames before the last one. *)
Theorem C24_callback_accepted_is_wellformed : forall simple m data st n st' w,
  Forall (fun b => 0 <= b < 256) data -> zlen data < 2 ^ 55 ->
  0 <= me_pos m -> 0 <= me_hsize m -> me_pos m + me_hsize m + me_size m < 2 ^ 63 ->
  BlockParser_Init m = (kOkCompleted, st) ->
  BlockParser_Feed read_all simple false st (source data []) = (kOkCompleted, n, st', w) ->
  exists track time flags lac frames bs,
    data = bs ++ w_data w /\ zlen bs = me_size m /\ n = me_size m /\
    accepted_content track time flags lac frames bs /\
    block_reported simple m track time flags lac frames (notifications w).
Proof.
  intros simple m data st n st' w B L P1 P2 S I F.
  destruct (block_inv simple m st data 0 [] B L) as (track & time & flags & lac & frames & bs & rest & A & E & Sz); [lia|exact I| |].
  { change (mk_world data 0 [] []) with (source data []). rewrite F. reflexivity. }
  destruct (any_block simple m track time flags lac frames bs rest A Sz P1 P2 S) as (st2 & st3 & w2 & I2 & F2 & D & R).
  rewrite I2 in I. injection I as <-. rewrite <- E, F in F2. injection F2 as -> _ ->.
  exists track, time, flags, lac, frames, bs. rewrite D. auto.
Qed.
Print Assumptions C24_callback_accepted_is_wellformed.

(* an EBML-laced block of three frames of 2, 3 and 1 bytes, and one more byte *)
Example C24_callback_ex :
  block_content 1 10 0x86 LEbml [[1; 2]; [3; 4; 5]; [6]] [0x81; 0x00; 0x0A; 0x86; 2; 0x82; 0xC0; 1; 2; 3; 4; 5; 6] /\
  exists st st' w, BlockParser_Init (mk_meta 0xA3 2 13 100) = (kOkCompleted, st) /\
    BlockParser_Feed read_all true false st
      (source [0x81; 0x00; 0x0A; 0x86; 2; 0x82; 0xC0; 1; 2; 3; 4; 5; 6; 99] []) = (kOkCompleted, 13, st', w) /\
    In (EDataEnd (DFrame (mk_meta 0xA3 2 13 100) 111 3)) (notifications w).
Proof.
  split.
  - exists 1, [2; 0x82; 0xC0]. repeat (split; [vm_compute; intuition congruence|]).
    split; [repeat constructor; discriminate|]. split; [|vm_compute; reflexivity].
    change (map zlen [[1; 2]; [3; 4; 5]; [6]]) with (2 :: [3] ++ [1]).
    change [2; 130; 192] with ((zlen [3] + 1) :: vint 1 2 ++ (delta_code 1 (3 - 2) ++ [])).
    apply lh_ebml; try (cbn; lia). constructor; [|constructor]. unfold delta_fits. cbn. lia.
  - do 3 eexists. split; [vm_compute; reflexivity|]. split; [vm_compute; reflexivity|].
    vm_compute. repeat (first [left; reflexivity | right]).
Qed.

(* Track number 0 does not exist, yet a block of it is reported. *)
Theorem C24_callback_track_zero_refuted : exists data st st' w b,
  BlockParser_Init (mk_meta 0xA3 2 5 0) = (kOkCompleted, st) /\
  BlockParser_Feed read_all true false st (source data []) = (kOkCompleted, 5, st', w) /\
  In (EBegin KSimpleBlock (mk_meta 0xA3 2 5 0) (VBlock b)) (notifications w) /\ bv_track b = 0.
Proof.
  exists [0x80; 0; 0; 0x80; 7]. do 4 eexists. split; [vm_compute; reflexivity|]. split; [vm_compute; reflexivity|].
  split; [left; reflexivity | reflexivity].
Qed.
Print Assumptions C24_callback_track_zero_refuted.

(* Frames of size 0 are reported. *)
Theorem C24_callback_empty_frame_refuted : exists data st st' w pos,
  BlockParser_Init (mk_meta 0xA3 2 7 0) = (kOkCompleted, st) /\
  BlockParser_Feed read_all true false st (source data []) = (kOkCompleted, 7, st', w) /\
  In (EDataEnd (DFrame (mk_meta 0xA3 2 7 0) pos 0)) (notifications w).
Proof.
  exists [0x81; 0; 0; 0x82; 1; 0; 7]. do 4 eexists. split; [vm_compute; reflexivity|]. split; [vm_compute; reflexivity|].
  right. left. reflexivity.
Qed.
Print Assumptions C24_callback_empty_frame_refuted.
