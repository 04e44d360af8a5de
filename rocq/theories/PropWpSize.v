(* Properties of the callback parser: elements and the bytes they occupy. *)
From Coq Require Import ZifyBool ZifyNat.
From Verif Require Import Base WpSpec MWp MWpBlock MWpTree PWp1 PWp2 PWp3 PWp4 PWp5 PWp6 PWp7 PWp8 PWp9 PWp12 PropWp.

(* One element parser, initialised for an element, is fed until it completes: any
   number of calls that stop early (no more data, the callback interrupting), each
   followed by another one at the position where the reader was left, with whatever
   data then is available.  [reads cb p w w']: fed so from the reader state w, p
   completes with the reader in state w'. *)
Inductive reads (cb : callback) : pstate -> world -> world -> Prop :=
| reads_done : forall fuel sk p w k p' w',
    feed cb fuel sk p w = Some (kOkCompleted, k, p', w') -> reads cb p w w'
| reads_more : forall fuel sk p w c k p' w1 w2 w',
    feed cb fuel sk p w = Some (c, k, p', w1) -> c <> kOkCompleted ->
    w_pos w2 = w_pos w1 -> Forall (fun b => 0 <= b < 256) (w_data w2) ->
    reads cb p' w2 w' -> reads cb p w w'.

Lemma reads_left : forall cb p w w', proper cb -> octets w -> wfp p -> sized p -> reads cb p w w' -> cg (w_pos w' - w_pos w) (left p).
Proof.
  intros cb p w w' P O W S H. induction H as [fuel sk p w k p' w' F | fuel sk p w c k p' w1 w2 w' F C E O2 H IH].
  - pose proof (feeds_moved cb P _ _ _ _ _ _ _ O W (ex_intro _ fuel F)) as (bs & t & us & M).
    destruct (feed_left cb P _ _ _ _ _ _ _ _ O S F) as (_ & (q & A) & B). destruct (B eq_refl) as (r & B').
    destruct M as (_ & _ & M & _). exists (q - r). lia.
  - pose proof (feeds_moved cb P _ _ _ _ _ _ _ O W (ex_intro _ fuel F)) as (bs & t & us & M).
    destruct (feed_left cb P _ _ _ _ _ _ _ _ O S F) as (S' & (q & A) & _).
    pose proof (proj1 (feed_keeps cb P fuel) _ _ _ _ _ _ _ W F) as (_ & _ & W').
    destruct (IH O2 W' S') as (r & B). destruct M as (_ & _ & M & _). exists (q + r). lia.
Qed.

Lemma Init_sized : forall n x max p, parser_Init n x max = (kOkCompleted, p) -> n <> NVirtual ->
  0 <= me_size x < kUnknownElementSize -> sized p /\ left p = me_size x.
Proof.
  intros n x max p H V B.
  assert (M : forall n0, sized (PMaster n0 (MasterParser_Init x max) CNone v_new) /\
                         left (PMaster n0 (MasterParser_Init x max) CNone v_new) = me_size x).
  { intro n0. cbn. split; [|lia]. split; [lia|]. intros [X | X]; [|destruct n0; discriminate].
    destruct (me_size x =? 0) eqn:E; [lia | discriminate]. }
  destruct n; cbn [parser_Init] in H;
    unfold IntParser_Init, FloatParser_Init, DateParser_Init, BoolParser_Init, IdElementParser_Init, ByteParser_Init,
          SkipParser_Init, BlockParser_Init in H;
    try (repeat match type of H with context [if ?b then _ else _] => destruct b eqn:?; try discriminate end;
         injection H as <-; cbn; split; try lia; fail);
    try congruence; try (injection H as <-; apply M).
  - destruct (_ || _); [discriminate|]. injection H as <-. cbn. unfold bleft. cbn. split; [|lia].
    split; [split; cbn; [constructor | lia] | cbn; reflexivity].
  - destruct d; [discriminate|]. injection H as <-. cbn [sized left]. apply M.
  - destruct d; [discriminate|]. injection H as <-. cbn [sized left]. apply M.
Qed.

(* C29.  An element parser that completes has moved the reader by exactly the size
   the element's header declares, whatever the element, the data, the pieces in which
   it arrives, the interruptions and the callback's answers (reading, skipping,
   interrupting).  BlockVirtual is the exception; elements of unknown size declare
   none. *)
Theorem C29_element_consumes_its_size :
  forall cb n x max p w w',
    proper cb -> n <> NVirtual -> 0 <= me_size x < kUnknownElementSize ->
    parser_Init n x max = (kOkCompleted, p) ->
    Forall (fun b => 0 <= b < 256) (w_data w) ->
    reads cb p w w' -> 0 <= w_pos w' - w_pos w < 2 ^ 64 ->
    w_pos w' = w_pos w + me_size x.
Proof.
  intros cb n x max p w w' P V B I O R L.
  pose proof (Init_wf n x max _ p (proj1 B) I eq_refl) as W. destruct (Init_sized n x max p I V B) as (S & E).
  pose proof (reads_left cb p w w' P O W S R) as G. rewrite E in G. apply cg_small in G; [lia | exact L|].
  unfold kUnknownElementSize in B. lia.
Qed.
Print Assumptions C29_element_consumes_its_size.

(* A BlockVirtual longer than its header completes early: the rest of it is left to
   be taken for the next element. *)
Theorem C29_block_virtual_refuted :
  exists x p w w', me_size x = 6 /\
    parser_Init NVirtual x 6 = (kOkCompleted, p) /\ Forall (fun b => 0 <= b < 256) (w_data w) /\
    reads read_all p w w' /\ w_pos w' = w_pos w + 4.
Proof.
  exists (mk_meta 0xA2 2 6 100), (PVirtual (mk_vbst VBHeader 6 0 h_new)), (mk_world [129; 0; 7; 0; 55; 66] 102 [] []).
  eexists. split; [reflexivity|]. split; [reflexivity|]. split; [repeat (constructor; [lia|]); constructor|].
  split; [eapply (reads_done _ 1 false); vm_compute; reflexivity | reflexivity].
Qed.
Print Assumptions C29_block_virtual_refuted.

(* a SimpleBlock of 7 bytes arriving in two parts, followed by other data *)
Example C29_example : exists p w',
  let x := mk_meta 0xA3 2 7 100 in
  parser_Init (NBlock true) x 7 = (kOkCompleted, p) /\
  reads read_all p (mk_world [129; 0; 7] 102 [] []) w' /\ w_pos w' = 109 /\ w_data w' = [77; 88].
Proof.
  eexists. eexists. cbv zeta. split; [reflexivity|]. split; [|split].
  - eapply (reads_more _ 3 false) with (w2 := mk_world [128; 1; 2; 3; 77; 88] 105 [] []); [vm_compute; reflexivity | discriminate | reflexivity | |].
    { repeat (constructor; [lia|]). constructor. }
    eapply (reads_done _ 3 false). vm_compute. reflexivity.
  - reflexivity.
  - reflexivity.
Qed.
