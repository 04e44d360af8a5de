(* C58: opening and loading any data returns. *)
From Coq Require Import ZifyBool ZifyNat Sorted.
From Verif Require Import Base EbmlSpec ReaderSpec Ids MParUtil MParMeta MParTrack MParCues MParCluster ClusterSpec ClusterSafeSpec ReadTrackSpec
  MParSegment SegSafeSpec PSegSafe MuxFileSpec PSegFind.

(* Whatever bytes the source delivers, as long as it delivers the ones it announces:
   creating the segment returns, and in every state that calls of ParseHeaders,
   LoadCluster, Load and ParseCues can lead to, each of them returns, and the clusters
   found so far are in order and usable. *)
Theorem C58_loading_returns : forall r, intact r -> r_avail r <= 2 ^ 62 ->
  (forall pos, exists x, CreateInstance r pos = Val x) /\
  forall s, seg_state r s ->
    clusters_sound r s /\
    (exists x, ParseHeaders r s = Val x) /\ (exists x, LoadCluster r s = Val x) /\ (exists x, Segment_Load r s = Val x) /\
    (forall off, pg_start s + off <= LLONG_MAX -> exists x, ParseCues r s off = Val x).
Proof.
  intros r HI HA. split.
  - intros pos. destruct (CreateInstance_ok r HI pos) as (st & o & E & _). eauto.
  - intros s H. pose proof (seg_state_inv r HI HA s H) as Hi. split; [split; [exact (si_clusters r s Hi)|exact (si_sorted r s Hi)]|].
    split; [destruct (ParseHeaders_ok r HI HA s Hi) as (st & s' & E & _); eauto|].
    split; [destruct (LoadCluster_ok r HI s Hi) as (st & s' & E & _); eauto|].
    split; [destruct (Segment_Load_ok r HI HA s Hi) as (st & s' & E & _); eauto|].
    intros off Ho. destruct (ParseCues_ok r HI s off Hi Ho) as (st & s' & E & _). eauto.
Qed.
Print Assumptions C58_loading_returns.

(* When loading a new segment reports success, its info and its tracks are there, the
   tracks are sound, and the clusters are in order. *)
Theorem C58_loaded_usable : forall r pos s s1, intact r -> r_avail r <= 2 ^ 62 ->
  CreateInstance r pos = Val (0, Some s) -> Segment_Load r s = Val (0, s1) ->
  (exists i, pg_info s1 = Some i) /\ (exists l, pg_tracks s1 = Some l /\ sound_tracks l) /\ clusters_sound r s1.
Proof.
  intros r pos s s1 HI HA E1 E2. destruct (CreateInstance_ok r HI pos) as (st & o & E & Ho). assert (o = Some s) by congruence. subst o. destruct Ho as (_ & Hi & Ht).
  destruct (Segment_Load_ok r HI HA s Hi) as (st2 & s2 & E3 & X1 & X2). assert (st2 = 0 /\ s2 = s1) as [-> ->] by (split; congruence).
  destruct (X2 eq_refl Ht) as [U1 U2]. split; [exact U1|]. split; [exact U2|]. split; [exact (si_clusters r s1 X1)|exact (si_sorted r s1 X1)].
Qed.
Print Assumptions C58_loaded_usable.

(* Whatever elements of known size precede it, the segment is found, with the start and
   the size of its content. *)
Theorem C58_segment_found : forall r (sized : bool) els bss body seg pos, total_ok r ->
  Forall2 (fun x bs => fst x <> kMkvSegment /\ is_element (fst x) (snd x) bs) els bss -> is_sized_element sized kMkvSegment body seg ->
  serves r pos (concat bss ++ seg) -> pos + zlen (concat bss ++ seg) = r_avail r -> r_total r = r_avail r ->
  exists s, CreateInstance r pos = Val (0, Some s) /\ pg_start s + zlen body = r_avail r /\ serves r (pg_start s) body /\
    pg_size s = (if sized then zlen body else -1) /\ pg_pos s = pg_start s /\ pg_clusters s = [].
Proof.
  intros r sized els bss body seg pos HT HF He Hs HA HTA. destruct (segment_found r HT sized els bss body seg pos HF He Hs HA HTA) as (start & S1 & S2 & S3).
  eexists. split; [exact S3|]. split; [exact S1|]. split; [exact S2|]. auto.
Qed.
Print Assumptions C58_segment_found.
(* a Void element and an unknown one in front of a segment of known size, at position 1 *)
Example C58_ex_found : exists r, total_ok r /\
  Forall2 (fun x bs => fst x <> kMkvSegment /\ is_element (fst x) (snd x) bs) [(0xEC, [7; 7]); (0xAF, [])] [[0xEC; 0x82; 7; 7]; [0xAF; 0x80]] /\
  is_sized_element true kMkvSegment [0xEC; 0x80] [0x18; 0x53; 0x80; 0x67; 0x82; 0xEC; 0x80] /\
  serves r 1 (concat [[0xEC; 0x82; 7; 7]; [0xAF; 0x80]] ++ [0x18; 0x53; 0x80; 0x67; 0x82; 0xEC; 0x80]) /\ 1 + 13 = r_avail r /\ r_total r = r_avail r.
Proof.
  exists (file_reader (0 :: [0xEC; 0x82; 7; 7; 0xAF; 0x80; 0x18; 0x53; 0x80; 0x67; 0x82; 0xEC; 0x80])). split; [right; cbn; lia|].
  assert (EL : forall w id p bs, id_width w id -> zlen p < 127 -> bs = be_bytes (Z.to_nat w) id ++ [128 + zlen p] ++ p -> is_element id p bs).
  { intros w id p bs Hw Hp ->. pose proof (zlen_nonneg _ p). exists (be_bytes (Z.to_nat w) id), 1. split; [exists w; auto|]. split; [split; [lia|change (2 ^ (7 * 1)) with 128; lia]|].
    replace (vint 1 (zlen p)) with [128 + zlen p]; [reflexivity|]. unfold vint. change (Z.to_nat 1) with 1%nat. cbn [be_bytes]. change (2 ^ (7 * 1)) with 128. change (2 ^ (8 * Z.of_nat 0)) with 1. rewrite Z.div_1_r, Z.mod_small by lia. reflexivity. }
  split; [|split; [|split; [|split; reflexivity]]].
  - constructor; [|constructor; [|constructor]]; (split; [discriminate|]); apply (EL 1); try reflexivity; unfold id_width; cbn; lia.
  - apply (EL 4); try reflexivity. unfold id_width. vm_compute. intuition discriminate.
  - pose proof (PParUtil.serves_file [0] [0xEC; 0x82; 7; 7; 0xAF; 0x80; 0x18; 0x53; 0x80; 0x67; 0x82; 0xEC; 0x80] []) as X. exact X.
Qed.

Lemma bytes_dec : forall l, forallb (fun b => (0 <=? b) && (b <? 256)) l = true -> bytes l.
Proof. intros l H. unfold bytes. rewrite Forall_forall. rewrite forallb_forall in H. intros b Hb. specialize (H b Hb). unfold is_byte. lia. Qed.
Lemma file_intact : forall l, forallb (fun b => (0 <=? b) && (b <? 256)) l = true -> zlen l <= LLONG_MAX -> intact (file_reader l).
Proof.
  intros l H HL. pose proof (zlen_nonneg _ l). split; [|split; [|split]].
  - split; [apply bytes_dec; exact H|]. cbn [file_reader r_avail r_data r_short]. lia.
  - right. cbn [file_reader r_avail r_total]. lia.
  - reflexivity.
  - reflexivity.
Qed.

(* a segment of unknown size whose seek head points to cues at the highest position
   there is, with one audio track and two clusters of unknown size, the second cut
   off in its second block *)
Definition ex_head : list Z :=
  [0x18; 0x53; 0x80; 0x67; 0x01; 0xFF; 0xFF; 0xFF; 0xFF; 0xFF; 0xFF; 0xFF;
   0x11; 0x4D; 0x9B; 0x74; 0x95; 0x4D; 0xBB; 0x92; 0x53; 0xAB; 0x84; 0x1C; 0x53; 0xBB; 0x6B; 0x53; 0xAC; 0x88; 0x7F; 0xFF; 0xFF; 0xFF; 0xFF; 0xFF; 0xFF; 0xFF;
   0x15; 0x49; 0xA9; 0x66; 0x87; 0x2A; 0xD7; 0xB1; 0x83; 0x0F; 0x42; 0x40;
   0x16; 0x54; 0xAE; 0x6B; 0x8D; 0xAE; 0x8B; 0xD7; 0x81; 1; 0x83; 0x81; 2; 0xE1; 0x83; 0x9F; 0x81; 2].
Definition ex_clusters : list Z :=
  [0x1F; 0x43; 0xB6; 0x75; 0xFF; 0xE7; 0x81; 0; 0xA3; 0x85; 0x81; 0; 0; 0x80; 0xAA; 0xA3; 0x85; 0x81; 0; 1; 0x80; 0xBB;
   0x1F; 0x43; 0xB6; 0x75; 0xFF; 0xE7; 0x81; 5; 0xA3; 0x85; 0x81; 0; 0; 0x80; 0xCC; 0xA3; 0x85; 0x81].
Definition ex_cut : reader := file_reader (ex_head ++ ex_clusters).
Definition ex_whole : reader := file_reader (ex_head ++ firstn 37 ex_clusters).
Definition after_load (r : reader) : option (Z * pseg) :=
  match CreateInstance r 0 with Val (0, Some s) => match Segment_Load r s with Val x => Some x | UB => None end | _ => None end.
Lemma after_load_state : forall r st s, after_load r = Some (st, s) -> seg_state r s.
Proof.
  intros r st s H. unfold after_load in H. destruct (CreateInstance r 0) as [[z [s0|]]|] eqn:E; try (destruct z; discriminate H); [|discriminate H].
  destruct z; try discriminate H. destruct (Segment_Load r s0) as [[st1 s1]|] eqn:E2; [|discriminate H]. injection H as -> ->.
  eapply ss_load; [eapply ss_created; exact E|exact E2].
Qed.

Definition ex_short : reader := file_reader (firstn 60 ex_head).

(* the hypotheses of the two theorems hold for them: the whole file and the one cut
   off in a block load, with their whole blocks; one cut off in its tracks does not *)
Example C58_ex :
  intact ex_cut /\ intact ex_whole /\ r_avail ex_cut <= 2 ^ 62 /\ r_avail ex_whole <= 2 ^ 62 /\
  match after_load ex_cut with Some (st, s) => st = 0 /\ map (fun c => zlen (entries c)) (pg_clusters s) = [2; 1] | None => False end /\
  match after_load ex_short with Some (st, s) => st = E_BUFFER_NOT_FULL /\ pg_clusters s = [] | None => False end /\
  match after_load ex_whole with Some (st, s) => st = 0 /\ map (fun c => zlen (entries c)) (pg_clusters s) = [2; 1] | None => False end.
Proof.
  split; [apply file_intact; [vm_compute; reflexivity|vm_compute; discriminate]|]. split; [apply file_intact; [vm_compute; reflexivity|vm_compute; discriminate]|].
  split; [vm_compute; discriminate|]. split; [vm_compute; discriminate|]. split; [vm_compute; split; reflexivity|]. split; vm_compute; split; reflexivity.
Qed.
Example C58_ex_states : (exists s, seg_state ex_cut s /\ zlen (pg_clusters s) = 2) /\ exists s, seg_state ex_whole s /\ zlen (pg_clusters s) = 2.
Proof.
  split.
  - destruct (after_load ex_cut) as [[st s]|] eqn:E; [|exfalso; revert E; vm_compute; discriminate]. exists s. split; [exact (after_load_state _ _ _ E)|].
    assert (X : match after_load ex_cut with Some (_, s) => zlen (pg_clusters s) = 2 | None => False end) by (vm_compute; reflexivity). rewrite E in X. exact X.
  - destruct (after_load ex_whole) as [[st s]|] eqn:E; [|exfalso; revert E; vm_compute; discriminate]. exists s. split; [exact (after_load_state _ _ _ E)|].
    assert (X : match after_load ex_whole with Some (_, s) => zlen (pg_clusters s) = 2 | None => False end) by (vm_compute; reflexivity). rewrite E in X. exact X.
Qed.

(* Without the condition on the offset, ParseCues overflows: the position that the
   file's own seek entry gives for the cues is enough for that. *)
Theorem C58_cues_position_refuted : exists r s h e, intact r /\ r_avail r <= 2 ^ 62 /\ seg_state r s /\
  pg_seek s = Some h /\ SeekHead_GetEntry h 0 = Some e /\ se_id e = kMkvCues /\ ParseCues r s (se_pos e) = UB.
Proof.
  destruct (after_load ex_whole) as [[st s]|] eqn:E; [|exfalso; revert E; vm_compute; discriminate].
  assert (X : match after_load ex_whole with
              | Some (_, s) => match pg_seek s with Some h => match SeekHead_GetEntry h 0 with Some e => se_id e = kMkvCues /\ ParseCues ex_whole s (se_pos e) = UB | None => False end | None => False end
              | None => False end) by (vm_compute; split; reflexivity).
  rewrite E in X. cbn iota in X. destruct (pg_seek s) as [h|] eqn:E1; [|destruct X]. destruct (SeekHead_GetEntry h 0) as [e|] eqn:E2; [|destruct X]. destruct X as [X1 X2].
  exists ex_whole, s, h, e. destruct C58_ex as (_ & I1 & _ & I2 & _). split; [exact I1|]. split; [exact I2|]. split; [exact (after_load_state _ _ _ E)|].
  split; [exact E1|]. split; [exact E2|]. split; [exact X1|exact X2].
Qed.
Print Assumptions C58_cues_position_refuted.
