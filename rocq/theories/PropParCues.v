(* mkvparser's Cues: C25 (cue points), C52 and C54. *)
From Coq Require Import ZifyBool ZifyNat.
From Verif Require Import Base Ids MMuxMeta MParUtil MParCues MetaSpec ReaderSpec ReadBackSpec CueReadSpec TableSpec MWriter WriterSpec PropMeta PropParMeta PParCues PParCues2.

(* Whatever the file, LoadCuePoint returns, also after earlier calls. *)
Theorem C52_cues_return : forall r start size c, bounded_source r -> 0 < start -> cues_state r start size c ->
  exists b c', LoadCuePoint r c = Val (b, c').
Proof.
  intros r start size c (Hwf & Hav & Hneg) Hs H. destruct (LoadCuePoint_ok r Hwf Hav Hneg start size c Hs (cues_state_ok r Hwf Hav Hneg start size c Hs H)) as (b & c' & E & _). eauto.
Qed.
Print Assumptions C52_cues_return.

(* C25: among the loaded cue points of any file, whose times in nanoseconds are ts,
   Find selects one, not later than asked for unless it is the first, and gives its
   entry for the track; if the times are sorted, it is exactly the last one not
   later. *)
Theorem C25_cues_find : forall r start size c, bounded_source r -> 0 < start -> cues_state r start size c ->
  forall scale ts x track, 0 <= x -> 0 < cu_count c ->
  map (CuePoint_GetTime scale) (firstn (Z.to_nat (cu_count c)) (cu_points c)) = map Val ts ->
  exists k p, Cues_Find c scale x track = Val (Some (k, find (fun t => tp_track t =? track) (cp_tps p))) /\
    0 <= k < cu_count c /\ nth_error (cu_points c) (Z.to_nat k) = Some p /\
    (k = 0 \/ exists t, nth_error ts (Z.to_nat k) = Some t /\ t <= x) /\
    (sorted ts -> found_by_time ts x k).
Proof.
  intros r start size c (Hwf & Hav & Hneg) Hs H scale ts x track Hx Hc Ht.
  destruct (cues_state_ok r Hwf Hav Hneg start size c Hs H) as (_ & _ & _ & H4 & H5 & H6 & _).
  exact (cues_find_ok c scale ts x track Hx ltac:(lia) Ht).
Qed.
Print Assumptions C25_cues_find.

(* C54: Cues written by the muxer are read back: each call of LoadCuePoint loads the
   next cue point, there are as many as were written, with the same times, tracks,
   cluster positions and block numbers, and then no more. *)
Theorem C54_cues_read_back : forall l s s', good s -> representable [cues_tree l] -> Forall readable_cue l ->
  Cues_Write l s = Val (true, s') ->
  exists bs, advanced s bs s' /\
    forall r pos, serves r pos bs -> pos + zlen bs <= LLONG_MAX ->
      exists start size c, element_at r pos kMkvCues start size /\ start + size = pos + zlen bs /\
        loads r (length l) (cues_new start size) c /\ LoadCuePoint r c = Val (false, c) /\
        cu_count c = zlen l /\ length (cu_points c) = length l /\
        forall i x, nth_error l i = Some x -> exists p, nth_error (cu_points c) i = Some p /\ reads_cue (Z.of_nat i) x p.
Proof.
  intros l s s' Hg Hr Hl HW. destruct (C11_cues l Hr s Hg) as (b & s2 & E & Hok & _).
  rewrite HW in E. injection E as <- <-. destruct (Hok eq_refl) as (Hv & bs & He & _ & Ha).
  exists bs. split; [exact Ha|]. intros r pos Hs HL. exact (cues_read r l pos bs Hr Hv Hl He Hs HL).
Qed.
Print Assumptions C54_cues_read_back.

(* ---------- cases ---------- *)

Definition ex_cues : list cue_point := [mkCue 0 1 47 1 true; mkCue 5000 1 0x1234 3 true; mkCue 9000 2 0x123456 4 false].
Example C54_ex : representable [cues_tree ex_cues] /\ Forall readable_cue ex_cues /\
  good (mkW [] 0 true []) /\ (exists s', Cues_Write ex_cues (mkW [] 0 true []) = Val (true, s')).
Proof.
  split; [rep|]. split; [repeat constructor; vm_compute; reflexivity|].
  split; [split; [vm_compute; split; discriminate|constructor]|]. eexists. vm_compute. reflexivity.
Qed.

(* ex_cues as a file, and the state after loading all of them *)
Definition ex_file : list Z := match Cues_Write ex_cues (mkW [] 0 true []) with Val (_, s) => w_file s | UB => [] end.
Definition load_once (r : reader) (c : p_cues) : p_cues := match LoadCuePoint r c with Val (_, c') => c' | UB => c end.
Definition ex_loaded : p_cues :=
  let r := file_reader ex_file in load_once r (load_once r (load_once r (cues_new 5 (zlen ex_file - 5)))).
Lemma bounded_file : forall data, bytes data -> zlen data <= 2 ^ 62 -> bounded_source (file_reader data).
Proof.
  intros data Hb Hl. pose proof (zlen_nonneg _ data). assert (2 ^ 62 <= LLONG_MAX) by (vm_compute; discriminate). split; [|split].
  - unfold wf_reader, file_reader. cbn [r_data r_avail r_short]. repeat split; try assumption; lia.
  - unfold file_reader. cbn [r_avail]. exact Hl.
  - intros pos len st. unfold r_read, file_reader. cbn [r_err r_avail r_short]. change (negb (0 =? 0)) with false. cbn iota.
    destruct (_ || _); [intros E; injection E as <-; lia|]. destruct (len =? 0); [discriminate|]. destruct (_ <=? _); [discriminate|]. intros E; injection E as <-; lia.
Qed.
Lemma state_once : forall r start size c, cues_state r start size c -> cues_state r start size (load_once r c).
Proof. intros r start size c H. unfold load_once. destruct (LoadCuePoint r c) as [[b c']|] eqn:E; [exact (cs_load r start size c b c' H E)|exact H]. Qed.
Lemma bytes_dec : forall l, forallb (fun b => (0 <=? b) && (b <? 256)) l = true -> bytes l.
Proof. intros l H. apply Forall_forall. intros x Hx. rewrite forallb_forall in H. specialize (H x Hx). unfold is_byte. lia. Qed.
Example C25_cues_ex : bounded_source (file_reader ex_file) /\ cues_state (file_reader ex_file) 5 (zlen ex_file - 5) ex_loaded /\ cu_count ex_loaded = 3 /\
  map (CuePoint_GetTime 1000) (firstn 3 (cu_points ex_loaded)) = map Val [0; 5000000; 9000000] /\
  Cues_Find ex_loaded 1000 6000000 1 = Val (Some (1, Some (mkTP 1 0x1234 3))) /\
  Cues_Find ex_loaded 1000 9000000 1 = Val (Some (2, None)).
Proof.
  split; [apply bounded_file; [apply bytes_dec; vm_compute; reflexivity|vm_compute; discriminate]|].
  split; [unfold ex_loaded; cbv zeta; do 3 apply state_once; constructor|]. vm_compute. auto.
Qed.

(* The times must be given: with a cue time of 2^62 the product with the default
   timecode scale overflows. *)
Definition late_file : list Z :=
  match Cues_Write [mkCue (2 ^ 62) 1 47 1 true] (mkW [] 0 true []) with Val (_, s) => w_file s | UB => [] end.
Theorem C25_any_cue_times_refuted : exists r start size c, bounded_source r /\ 0 < start /\ cues_state r start size c /\
  0 < cu_count c /\ Cues_Find c 1000000 0 1 = UB.
Proof.
  exists (file_reader late_file), 5, (zlen late_file - 5), (load_once (file_reader late_file) (cues_new 5 (zlen late_file - 5))).
  split; [apply bounded_file; [apply bytes_dec; vm_compute; reflexivity|vm_compute; discriminate]|]. split; [lia|].
  split; [apply state_once; constructor|]. vm_compute. auto.
Qed.
Print Assumptions C25_any_cue_times_refuted.
