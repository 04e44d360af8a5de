(* Proofs about MkvReader and MkvWriter over a file. *)
From Coq Require Import ZifyBool ZifyNat.
From Verif Require Import Base SourceSpec MReader MWriter MParUtil MFile PReader.

(* ---------- MkvReader ---------- *)
Definition mr_inv (data : list Z) (r : mkv_reader) : Prop :=
  exists off, mr_file r = Some (mkF data off seek_anywhere []) /\ mr_length r = zlen data.

Lemma mkv_read_is data r offset len :
  zlen data <= LLONG_MAX -> mr_inv data r ->
  exists r1, MkvReader_Read offset len r = (r_read (file_reader data) offset len, r1) /\ mr_inv data r1.
Proof.
  intros Hd (off & Ef & El). unfold MkvReader_Read, r_read, file_reader. rewrite Ef, El. cbn [r_err r_avail r_data r_short].
  cbn [Z.eqb negb]. destruct (Z.ltb_spec offset 0); cbn [orb]; [eexists; split; [reflexivity|exists off; split; assumption]|].
  destruct (Z.ltb_spec len 0); [eexists; split; [reflexivity|exists off; split; assumption]|].
  destruct (Z.eqb_spec len 0); [eexists; split; [reflexivity|exists off; split; assumption]|].
  destruct (offset >=? zlen data) eqn:E.
  - exists r; split; [|exists off; split; assumption]. destruct (Z.leb_spec (offset + len) (zlen data)); [lia|reflexivity].
  - unfold fseek_set; cbn [f_seek f_data f_sched].
    replace (_ && _ && true) with true by (unfold LLONG_MAX in *; lia).
    unfold fread; cbn [f_seek f_data f_sched f_off].
    pose proof (zlen_skip offset data ltac:(lia)) as Hz.
    eexists; split; [apply f_equal2; [|reflexivity]|eexists; split; reflexivity].
    rewrite zlen_first by (pose proof (zlen_nn data); lia). unfold zslice.
    destruct (Z.leb_spec (offset + len) (zlen data)).
    + rewrite Hz. replace (Z.min len (Z.max 0 (zlen data - offset))) with len by lia.
      now rewrite Z.ltb_irrefl.
    + rewrite Hz. destruct (Z.ltb_spec (Z.min len (Z.max 0 (zlen data - offset))) len); [reflexivity|lia].
Qed.

Lemma mkv_reads_are data calls : zlen data <= LLONG_MAX -> forall r, mr_inv data r ->
  mkv_reads calls r = map (fun c => r_read (file_reader data) (fst c) (snd c)) calls.
Proof.
  intros Hd. induction calls as [|[o l] calls IH]; intros r Hr; [reflexivity|].
  destruct (mkv_read_is data r o l Hd Hr) as (r1 & E & Hr1).
  cbn [mkv_reads map fst snd]. rewrite E. f_equal. now apply IH.
Qed.

Lemma r_read_is data offset len :
  r_read (file_reader data) offset len =
    if (0 <=? offset) && (0 <=? len) && ((len =? 0) || (offset + len <=? zlen data))
    then inr (firstn (Z.to_nat len) (skipn (Z.to_nat offset) data)) else inl (-1).
Proof.
  unfold r_read, file_reader, zslice; cbn [r_err r_avail r_data r_short]. cbn [Z.eqb negb].
  destruct (Z.ltb_spec offset 0), (Z.ltb_spec len 0), (Z.eqb_spec len 0), (Z.leb_spec (offset + len) (zlen data)),
    (Z.leb_spec 0 offset), (Z.leb_spec 0 len); try lia; cbn [orb andb]; subst; reflexivity.
Qed.

(* ---------- MkvWriter ---------- *)
(* the schedule of IMkvWriter (MWriter) that does what the file does *)
Lemma writer_sim calls : Forall (fun c => match c with WCWrite bs => bs <> [] | WCSeek _ => True end) calls ->
  forall f, exists sched statuses f',
    mkv_writes calls (mkMW (Some f)) = (statuses, mkMW (Some f')) /\
    writer_calls calls (mkW (o_data f) (o_off f) true sched) = Val (statuses, mkW (o_data f') (o_off f') true []) /\
    Forall (fun e => match e with WOk => True | WFail st _ => st = -1 end) sched.
Proof.
  induction calls as [|c calls IH]; intros Hc f.
  - exists [], [], f. repeat split. constructor.
  - inversion Hc as [|? ? Hx Hcs]; subst. cbn [mkv_writes writer_calls].
    assert (Hstep : exists e st f1,
      (match c with WCWrite bs => MkvWriter_Write bs (mkMW (Some f)) | WCSeek p => MkvWriter_SetPosition p (mkMW (Some f)) end)
        = (st, mkMW (Some f1)) /\
      (forall s, match c with WCWrite bs => w_write bs | WCSeek p => w_seek p end (mkW (o_data f) (o_off f) true (e :: s))
        = Val (st, mkW (o_data f1) (o_off f1) true s)) /\
      match e with WOk => True | WFail st _ => st = -1 end).
    { destruct c as [bs|p].
      - unfold MkvWriter_Write; cbn [mw_file].
        assert (Hb : 0 < zlen bs) by (destruct bs; [congruence|unfold zlen; cbn [length]; lia]).
        destruct (Z.eqb_spec (zlen bs) 0); [lia|]. unfold fwrite.
        assert (Hk : exists k s, match o_room f with [] => (zlen bs, []) | c :: s => (Z.min (zlen bs) (Z.max 0 c), s) end = (k, s) /\ 0 <= k <= zlen bs)
          by (destruct (o_room f); eexists _, _; split; try reflexivity; lia).
        destruct Hk as (k & s & -> & Hk).
        destruct (Z.eqb_spec k (zlen bs)) as [->|Hne].
        + exists WOk. eexists _, _. split; [reflexivity|]. split; [|exact I].
          intros s0. unfold w_write, store; cbn [w_sched w_file w_pos w_seekable o_data o_off].
          rewrite firstn_all2 by (unfold zlen; lia). reflexivity.
        + exists (WFail (-1) (Z.to_nat k)). eexists _, _. split; [reflexivity|]. split; [|reflexivity].
          intros s0. unfold w_write, store; cbn [w_sched w_file w_pos w_seekable o_data o_off].
          rewrite zlen_first by lia. reflexivity.
      - unfold MkvWriter_SetPosition; cbn [mw_file]. destruct (p <? 0).
        + exists (WFail (-1) 0). eexists _, _. split; [reflexivity|]. split; [|reflexivity]. reflexivity.
        + exists WOk. eexists _, _. split; [reflexivity|]. split; [|exact I]. reflexivity. }
    destruct Hstep as (e & st & f1 & E1 & E2 & He).
    destruct (IH Hcs f1) as (sched & l & f' & E3 & E4 & Hs).
    exists (e :: sched), (st :: l), f'. rewrite E1, E3. split; [reflexivity|]. split; [|now constructor].
    unfold bind. rewrite E2, E4. reflexivity.
Qed.
