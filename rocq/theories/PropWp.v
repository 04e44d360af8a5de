(* Properties of the callback parser (webm_parser). *)
From Coq Require Import ZifyBool ZifyNat.
From Verif Require Import Base WpSpec MWp MWpBlock MWpTree PWp1 PWp2 PWp3 PWp4 PWp5 PWp6 PWp7 PWp8 PWp9 PWp10.

(* A user's session: Feed is called again as long as it answers kWouldBlock
   (webm_parser/include/webm/webm_parser.h, Feed).  [parse cb p w s w']: the
   session that starts with parser p and data source w ends with status s. *)
Inductive parse (cb : callback) : wparser -> world -> Z -> world -> Prop :=
| parse_done : forall fuel p w s p' w',
    WebmParser_Feed cb fuel p w = Some (s, p', w') -> s <> kWouldBlock -> parse cb p w s w'
| parse_again : forall fuel p w p1 w1 s w',
    WebmParser_Feed cb fuel p w = Some (kWouldBlock, p1, w1) -> parse cb p1 w1 s w' -> parse cb p w s w'.

Lemma parse_full : forall cb p w s w', proper cb -> parse cb p w s w' ->
  octets w -> wfd (wp_doc p) -> is_parsing_error (wp_status p) = false ->
  exists r, dloops cb (d_skip (wp_doc p)) (wp_doc p) (full w) r /\
            fst (fst r) = s /\ w_trace (snd r) = w_trace w'.
Proof.
  intros cb p w s w' P H. induction H as [fuel p w s p' w' F N | fuel p w p1 w1 s w' F H IH]; intros O W E;
    unfold WebmParser_Feed in F; rewrite E in F;
    destruct (dloop cb fuel (d_skip (wp_doc p)) (wp_doc p) w) as [[[c d] w2]|] eqn:D; try discriminate;
    injection F as K1 K2 K3; subst c; try subst p'; try subst p1; subst w2;
    pose proof (doc_resumes cb P fuel _ _ _ _ O W eq_refl D) as ((k & M) & R1 & R2).
  - destruct (R2 N) as (r & A & B). exists r. split; [exact A|].
    destruct B as [-> | (B1 & _ & B3)]; [split; reflexivity|]. split; [exact B1 | exact B3].
  - destruct (R1 eq_refl) as (_ & W2 & R). destruct (IH (octets_moved _ _ _ M O) W2 eq_refl) as (r2 & A & B & C).
    destruct (R _ A) as (r & A1 & [-> | (B1 & _ & B3)]).
    + exists r2. auto.
    + exists r. split; [exact A1|]. split; congruence.
Qed.

(* the states a parser can be in: after any calls of Feed, on any data and with any
   callback, and of DidSeek *)
Inductive reached : wparser -> Prop :=
| reached_new : reached wp_new
| reached_feed : forall cb fuel p w s p' w',
    reached p -> proper cb -> Forall (fun b => 0 <= b < 256) (w_data w) ->
    WebmParser_Feed cb fuel p w = Some (s, p', w') -> reached p'
| reached_seek : forall p, reached p -> reached (WebmParser_DidSeek p).
Lemma reached_ok : forall p, reached p -> wfd (wp_doc p) /\ consd (wp_doc p).
Proof.
  intros p H. induction H as [|cb fuel p w s p' w' H (W & C) P D F | p H IH].
  3: { split; [|left; reflexivity]. destruct IH as ((W & _) & _). split; [exact W | exact I]. }
  - split; [split; cbn; [lia | exact I] | left; reflexivity].
  - unfold WebmParser_Feed in F. destruct (is_parsing_error (wp_status p)); [injection F as _ <- _; auto|].
    destruct (dloop cb fuel (d_skip (wp_doc p)) (wp_doc p) w) as [[[c d] w2]|] eqn:Q; [|discriminate]. injection F as _ <- _.
    destruct (doc_ends cb P (length (w_data w)) (d_skip (wp_doc p)) (wp_doc p) w D W C eq_refl (le_n _)) as (c2 & d2 & w3 & A & B).
    pose proof (dloops_det _ _ _ _ _ _ (ex_intro _ fuel Q) A) as E. injection E as -> -> ->. cbn. tauto.
Qed.

(* the bytes of a document, delivered according to a schedule *)
Definition source (data sched : list Z) : world := mk_world data 0 sched [].

(* C28.  Whatever the bytes, however they arrive and whatever the callback
   answers, the notifications delivered and the final status are the same. *)
Theorem C28_schedule_independent :
  forall cb data schedA schedB sA sB wA wB,
    proper cb -> Forall (fun b => 0 <= b < 256) data ->
    parse cb wp_new (source data schedA) sA wA ->
    parse cb wp_new (source data schedB) sB wB ->
    sA = sB /\ w_trace wA = w_trace wB.
Proof.
  intros cb data schedA schedB sA sB wA wB P D A B.
  apply parse_full in A; [|assumption | exact D | split; cbn; [lia | exact I] | reflexivity].
  apply parse_full in B; [|assumption | exact D | split; cbn; [lia | exact I] | reflexivity].
  destruct A as (r & A & A1 & A2). destruct B as (r2 & B & B1 & B2).
  pose proof (dloops_det _ _ _ _ _ _ A B) as <-. split; congruence.
Qed.
Print Assumptions C28_schedule_independent.
(* The same from any point of a parser's life, in particular after DidSeek, and
   wherever the data source stands. *)
Theorem C28_from_any_point :
  forall cb p data pos t schedA schedB sA sB wA wB,
    proper cb -> Forall (fun b => 0 <= b < 256) data -> reached p ->
    parse cb p (mk_world data pos schedA t) sA wA ->
    parse cb p (mk_world data pos schedB t) sB wB ->
    sA = sB /\ w_trace wA = w_trace wB.
Proof.
  intros cb p data pos t schedA schedB sA sB wA wB P D R A B.
  destruct (is_parsing_error (wp_status p)) eqn:E.
  - assert (K : forall w s w', parse cb p w s w' -> s = wp_status p /\ w' = w).
    { intros w s w' H. destruct H as [fuel p w s p' w' F N | fuel p w p1 w1 s w' F H]; unfold WebmParser_Feed in F; rewrite E in F.
      - injection F as <- _ <-. auto.
      - injection F as Q _ _. rewrite Q in E. discriminate. }
    apply K in A, B. destruct A as (-> & ->), B as (-> & ->). auto.
  - apply reached_ok in R. destruct R as (W & _).
    apply parse_full in A; [|assumption | exact D | exact W | exact E].
    apply parse_full in B; [|assumption | exact D | exact W | exact E].
    destruct A as (r & A & A1 & A2). destruct B as (r2 & B & B1 & B2).
    pose proof (dloops_det _ _ _ _ _ _ A B) as <-. split; congruence.
Qed.
Print Assumptions C28_from_any_point.

(* a session as a computation, for examples *)
Fixpoint session (cb : callback) (n : nat) (p : wparser) (w : world) : option (Z * world) :=
  match n with
  | O => None
  | S n' => match WebmParser_Feed cb 200 p w with
            | Some (s, p1, w1) => if s =? kWouldBlock then session cb n' p1 w1 else Some (s, w1)
            | None => None
            end
  end.
Lemma session_parse : forall cb n p w s w', session cb n p w = Some (s, w') -> parse cb p w s w'.
Proof.
  induction n as [|n IH]; intros p w s w' H; [discriminate|]. cbn [session] in H.
  destruct (WebmParser_Feed cb 200 p w) as [[[c p1] w1]|] eqn:F; [|discriminate].
  destruct (c =? kWouldBlock) eqn:E.
  - apply Z.eqb_eq in E. subst c. eapply parse_again; eauto.
  - injection H as K1 K2. subst c w1. eapply parse_done; eauto. apply Z.eqb_neq. exact E.
Qed.
(* EBML header, Segment, Cluster with a timecode and one block with one byte of data *)
Definition tiny_file : list Z :=
  [0x1A; 0x45; 0xDF; 0xA3; 0x80; 0x18; 0x53; 0x80; 0x67; 0x8F;
   0x1F; 0x43; 0xB6; 0x75; 0x8A; 0xE7; 0x81; 0x05; 0xA3; 0x85; 0x81; 0x00; 0x00; 0x80; 0xAA].
Definition choppy : list Z := [1; 0; 2; 1; 0; 0; 1; 1; 1; 0; 1; 1; 1; 1; 1; 0; 1; 0; 1; 1; 1; 0; 1; 1; 0; 1].
Example C28_example : exists wA wB,
  parse read_all wp_new (source tiny_file []) kOkCompleted wA /\
  parse read_all wp_new (source tiny_file choppy) kOkCompleted wB /\
  w_trace wA = w_trace wB /\ length (w_trace wA) = 14%nat.
Proof.
  do 2 eexists. split; [eapply (session_parse _ 30); vm_compute; reflexivity|].
  split; [eapply (session_parse _ 30); vm_compute; reflexivity|]. split; reflexivity.
Qed.

(* C31.  After a parsing error every later call, on any data source, gives the
   same error and reads and reports nothing. *)
Inductive later (cb : callback) : wparser -> list (Z * world * world) -> Prop :=
| later_nil : forall p, later cb p []
| later_cons : forall fuel p w s p' w' l,
    WebmParser_Feed cb fuel p w = Some (s, p', w') -> later cb p' l -> later cb p ((s, w, w') :: l).
Theorem C31_errors_sticky :
  forall cb fuel p w s p' w' calls,
    WebmParser_Feed cb fuel p w = Some (s, p', w') -> is_parsing_error s = true ->
    later cb p' calls -> Forall (fun '(s2, w1, w2) => s2 = s /\ w2 = w1) calls.
Proof.
  intros cb fuel p w s p' w' calls F E L.
  assert (St : wp_status p' = s).
  { unfold WebmParser_Feed in F. destruct (is_parsing_error (wp_status p)); [injection F as <- <- _; reflexivity|].
    destruct (dloop cb fuel _ _ w) as [[[c d] w2]|]; [|discriminate]. injection F as <- <- _. reflexivity. }
  clear F. induction L as [|f q w1 s2 q' w2 l F L IH]; [constructor|].
  unfold WebmParser_Feed in F. rewrite St, E in F. injection F as <- <- <-.
  constructor; [split; reflexivity | apply IH; exact St].
Qed.
Print Assumptions C31_errors_sticky.
(* a first byte of zero is not an element identifier *)
Example C31_example : exists p' w' q u,
  WebmParser_Feed read_all 20 wp_new (source [0x00; 0x80] []) = Some (kInvalidElementId, p', w') /\
  is_parsing_error kInvalidElementId = true /\
  WebmParser_Feed read_all 20 p' (source tiny_file []) = Some (kInvalidElementId, q, u) /\ u = source tiny_file [].
Proof. do 4 eexists. split; [vm_compute; reflexivity|]. split; [reflexivity|]. split; [vm_compute; reflexivity | reflexivity]. Qed.

(* C50.  Every call of Feed returns, in every state the parser can be in and
   whatever the data; and a session that calls Feed again after every
   kWouldBlock comes to an end. *)
Theorem C50_feed_returns :
  forall cb p w, proper cb -> Forall (fun b => 0 <= b < 256) (w_data w) -> reached p ->
    exists fuel s p' w', WebmParser_Feed cb fuel p w = Some (s, p', w').
Proof.
  intros cb p w P D R. apply reached_ok in R. destruct R as (W & C).
  destruct (doc_ends cb P (length (w_data w)) (d_skip (wp_doc p)) (wp_doc p) w D W C eq_refl (le_n _)) as (c & d & w2 & (f & F) & _).
  exists f. unfold WebmParser_Feed. destruct (is_parsing_error (wp_status p)); [eauto|]. rewrite F. eauto.
Qed.
Print Assumptions C50_feed_returns.
Theorem C50_sessions_end :
  forall cb p w, proper cb -> Forall (fun b => 0 <= b < 256) (w_data w) -> reached p ->
    exists s w', parse cb p w s w'.
Proof.
  intros cb p w P. remember (length (w_sched w)) as n eqn:E. revert p w E.
  induction n as [n IH] using lt_wf_ind. intros p w E D R.
  destruct (C50_feed_returns cb p w P D R) as (fuel & s & p' & w' & F).
  destruct (Z.eq_dec s kWouldBlock) as [-> | N]; [|exists s, w'; eapply parse_done; eauto].
  pose proof (reached_feed _ _ _ _ _ _ _ R P D F) as R2. pose proof (reached_ok _ R) as (W & _).
  pose proof F as F0. unfold WebmParser_Feed in F. destruct (is_parsing_error (wp_status p)) eqn:Ep.
  { injection F as Q _ _. rewrite Q in Ep. discriminate. }
  destruct (dloop cb fuel (d_skip (wp_doc p)) (wp_doc p) w) as [[[c d] w2]|] eqn:Q; [|discriminate].
  injection F as K1 K2 K3. subst c p' w2.
  pose proof (doc_resumes cb P fuel _ _ _ _ D W eq_refl Q) as ((k & M) & R1 & _).
  destruct (R1 eq_refl) as (Ls & _ & _).
  destruct (IH (length (w_sched w')) ltac:(lia) _ w' eq_refl (octets_moved _ _ _ M D) R2) as (s & u & H).
  exists s, u. eapply parse_again; eauto.
Qed.
Print Assumptions C50_sessions_end.
(* a parser waiting for more data, in the middle of a cluster *)
Example C50_example : exists p w,
  WebmParser_Feed read_all 200 wp_new (source tiny_file [1; 1; 1; 1; 1; 1; 1; 1; 1; 1; 1; 1; 0]) = Some (kWouldBlock, p, w) /\
  reached p /\ d_state (wp_doc p) = DBody.
Proof.
  assert (D : Forall (fun b => 0 <= b < 256) tiny_file).
  { unfold tiny_file. repeat (constructor; [lia|]). constructor. }
  assert (P : proper read_all) by (intros t e; cbn; lia).
  destruct (WebmParser_Feed read_all 200 wp_new (source tiny_file [1; 1; 1; 1; 1; 1; 1; 1; 1; 1; 1; 1; 0])) as [[[s p] w]|] eqn:F;
    [|vm_compute in F; discriminate].
  exists p, w. pose proof F as F0. vm_compute in F0. injection F0 as <- Q _. split; [reflexivity|].
  split; [exact (reached_feed _ _ _ (source tiny_file _) _ _ _ reached_new P D F)|]. rewrite <- Q. reflexivity.
Qed.
