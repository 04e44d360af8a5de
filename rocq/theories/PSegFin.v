(* Finishing a segment: duration, cues, seek head and sizes. *)
From Coq Require Import ZifyBool ZifyNat Sorted.
From Verif Require Import Base EbmlSpec MWriter WriterSpec PWriter MMuxUtil PMuxUtil EbmlPropSpec PEbml Ids LacingSpec MMuxBlock BlockSpec
  PMuxBlock MFloat MMuxMeta MetaSpec PMeta PMetaObj PMetaObj2 MMuxSegment SegmentSpec MuxFileSpec PSegRun PSegCluster PSegAcc PSegStream PSegHead.

(* overwriting with a serialiser *)
Lemma run_ser_over : forall m bs w a b c, ser true m bs -> no_fail w -> w_file w = a ++ b ++ c -> w_pos w = zlen a -> zlen b = zlen bs ->
  exists w', m w = Val (true, w') /\ no_fail w' /\ w_file w' = a ++ bs ++ c /\ w_pos w' = zlen a + zlen bs /\ w_seekable w' = w_seekable w.
Proof.
  intros m bs w a b c H Hn Hf Hp Hl.
  assert (Hg : good w).
  { split; [|apply no_fail_neg; exact Hn]. rewrite Hp, Hf, !zlen_app. pose proof (zlen_nonneg _ a). pose proof (zlen_nonneg _ b). pose proof (zlen_nonneg _ c). lia. }
  destruct (H w Hg) as (r & w' & p & E & Ha & [(HG & _ & ->)|(_ & HB)]); [|destruct (HB eq_refl Hn)].
  pose proof (advanced_no_fail _ _ _ Ha Hn) as Hn'. destruct Ha as (F & P & S & _). rewrite Hf, Hp, write_at_mid in F by exact Hl.
  hnf in HG. subst r. exists w'. repeat split; auto. rewrite P, Hp. reflexivity.
Qed.

(* ---------- seek head ---------- *)

Definition seek_ok (u : list (Z * Z)) : Prop :=
  (0 < length u <= 5)%nat /\ Forall (fun e : Z * Z => 1 <= fst e < 2 ^ 32 /\ 0 <= snd e < 2 ^ 56) u.


Lemma seek_tree_rep : forall e : Z * Z, 1 <= fst e < 2 ^ 32 -> 0 <= snd e < 2 ^ 56 -> representable [seek_tree e].
Proof.
  intros [i p] H1 H2. cbn [fst snd] in *. change (2 ^ 32) with 4294967296 in H1. change (2 ^ 56) with 72057594037927936 in H2. apply rep_of.
  - unfold seek_tree. cbn [fst snd uint values_ok fold_right leaf_ok]. unfold is_u64. change (2 ^ 64) with 18446744073709551616.
    repeat split; try lia; exists 2; (split; [lia|vm_compute; split; congruence]).
  - unfold seek_tree. cbn [fst snd uint weight fold_right leaf_weight]. pw. lia.
Qed.
Lemma seek_trees_rep : forall u, seek_ok u -> representable (map seek_tree u) /\ weight_all (map seek_tree u) <= 64 * zlen u.
Proof.
  intros u [HL HF]. assert (H : Forall values_ok (map seek_tree u) /\ weight_all (map seek_tree u) <= 64 * zlen u).
  { clear HL. induction HF as [|e u [H1 H2] HF [IH1 IH2]]; [split; [constructor|cbn; lia]|]. cbn [map weight_all fold_right]. rewrite zlen_cons. split.
    - constructor; [|exact IH1]. apply (Forall_inv (proj1 (seek_tree_rep e H1 H2))).
    - unfold weight_all in IH2. unfold seek_tree at 1. cbn [fst snd uint weight fold_right leaf_weight]. lia. }
  destruct H as [H1 H2]. split; [|exact H2]. split; [exact H1|]. unfold zlen in H2. change (2 ^ 56) with 72057594037927936. lia.
Qed.
Lemma seek_head_rep : forall u, seek_ok u -> representable [seek_head_tree u].
Proof.
  intros u H. destruct (seek_trees_rep u H) as [[H1 _] H2]. apply rep_of.
  - unfold seek_head_tree. cbn [values_ok]. split; [exists 4; split; [lia|vm_compute; split; congruence]|]. apply values_fold. exact H1.
  - unfold seek_head_tree. cbn [weight]. unfold weight_all in H2. destruct H as [HL _]. unfold zlen in H2. pw. lia.
Qed.
Lemma seek_kids_len : forall e : Z * Z, 1 <= fst e < 2 ^ 32 -> 0 <= snd e < 2 ^ 56 ->
  seek_entry_size e = zlen (enc_all [uint kMkvSeekID (fst e); uint kMkvSeekPosition (snd e)]) /\ 8 <= seek_entry_size e <= 17.
Proof.
  intros [i p] H1 H2. cbn [fst snd] in *. unfold seek_entry_size. cbn [fst snd]. rewrite !enc_all_cons. change (enc_all []) with (@nil Z). rewrite app_nil_r, zlen_app.
  cbn [enc uint enc_leaf_bytes]. rewrite <- !e_uint_zlen. split; [reflexivity|]. rewrite !e_uint_zlen'.
  change (GetUIntSize kMkvSeekID) with 2. change (GetUIntSize kMkvSeekPosition) with 2. pose proof (GetUIntSize_range i). pose proof (GetUIntSize_range p).
  assert (GetUIntSize i <= 4). { apply GetUIntSize_minimal; [unfold is_u64; change (2 ^ 32) with 4294967296 in H1; change (2 ^ 64) with 18446744073709551616; lia|lia|]. change (8 * 4) with 32. lia. }
  assert (GetUIntSize p <= 7). { apply GetUIntSize_minimal; [unfold is_u64; change (2 ^ 56) with 72057594037927936 in H2; change (2 ^ 64) with 18446744073709551616; lia|lia|]. change (8 * 7) with 56. lia. }
  lia.
Qed.
Lemma seek_len : forall e : Z * Z, 1 <= fst e < 2 ^ 32 -> 0 <= snd e < 2 ^ 56 ->
  EbmlMasterElementSize kMkvSeek (seek_entry_size e) + seek_entry_size e = zlen (enc (seek_tree e)) /\ 11 <= zlen (enc (seek_tree e)) <= 20.
Proof.
  intros e H1 H2. destruct (seek_kids_len e H1 H2) as [E1 E2]. unfold seek_tree. rewrite enc_master, e_buf_zlen', <- E1.
  rewrite <- e_master_zlen. unfold e_master. rewrite zlen_app, id_bytes_zlen, size_bytes_zlen, GetCodedUIntSize_small by lia.
  change (GetUIntSize kMkvSeek) with 2. lia.
Qed.
Lemma seek_ser : forall e : Z * Z, 1 <= fst e < 2 ^ 32 -> 0 <= snd e < 2 ^ 56 -> ser true (write_seek e) (enc (seek_tree e)).
Proof.
  intros e H1 H2. destruct (seek_kids_len e H1 H2) as [E1 E2]. unfold write_seek, seek_tree. apply s_master_seq; [|exact E1|].
  - apply (representable_kids kMkvSeek). apply (seek_tree_rep e H1 H2).
  - repeat swrite.
Qed.
Lemma seek_payload_eq : forall u st, used_ok u -> seek_ok u -> seek_payload (mkSH (pad5 u) st) = zlen (enc_all (map seek_tree u)) /\
  11 <= zlen (enc_all (map seek_tree u)) <= 20 * zlen u.
Proof.
  intros u st HU HS. unfold seek_payload. rewrite seek_used_pad by exact HU. split.
  - apply size_is; [apply seek_trees_rep; exact HS|usize|]. destruct HS as [_ HF]. apply size_sum_map. intros x Hx. rewrite Forall_forall in HF. apply seek_len; apply HF; exact Hx.
  - destruct HS as [HL HF]. assert (H : 11 * zlen u <= zlen (enc_all (map seek_tree u)) <= 20 * zlen u).
    { clear HL HU. induction HF as [|e u [H1 H2] HF IH]; [cbn; lia|]. cbn [map]. rewrite enc_all_cons, zlen_app, zlen_cons. pose proof (proj2 (seek_len e H1 H2)). lia. }
    unfold zlen in *. lia.
Qed.

(* the seek head and the Void element after it *)
Lemma SH_run : forall u w a c, used_ok u -> seek_ok u -> at_end w -> w_seekable w = true -> forall b, w_file w = a ++ b ++ c -> zlen b = 110 ->
  exists vp sv void w', SeekHead_Finalize (mkSH (pad5 u) (zlen a)) w = Val (true, w') /\ at_end w' /\ w_seekable w' = true /\
    w_file w' = a ++ sv ++ c /\ zlen sv = 110 /\ sv = enc (seek_head_tree u) ++ void /\ is_element kMkvVoid (repeat 0 vp) void.
Proof.
  intros u w a c HU HS [Hn Hp] HK b HF Hb. unfold SeekHead_Finalize. rewrite bind_seekable, HK. cbn [negb sh_start].
  pose proof (zlen_nonneg _ a) as Ha. pose proof (zlen_nonneg _ c) as Hc. replace (zlen a =? -1) with false by lia.
  destruct (seek_payload_eq u (zlen a) HU HS) as [EP BP]. rewrite EP. replace (zlen (enc_all (map seek_tree u)) =? 0) with false by lia.
  rewrite bind_position. destruct (seek_run (zlen a) w Hn) as (w1 & E1 & N1 & F1 & P1 & S1). rewrite (check_status_run _ _ _ _ _ _ E1).
  assert (H5 : zlen u <= 5) by (destruct HS as [HL _]; unfold zlen; lia).
  rewrite seek_used_pad by exact HU.
  assert (HSER : ser true (write_seq (map write_seek u)) (enc_all (map seek_tree u))).
  { replace true with (forallb (fun _ : Z * Z => true) u) by (clear; induction u; auto). unfold enc_all. rewrite map_map. apply ser_write_map. intros x Hx. destruct HS as [_ HS].
    rewrite Forall_forall in HS. apply seek_ser; apply HS; exact Hx. }
  set (k := enc_all (map seek_tree u)) in *. set (m := e_master kMkvSeekHead (zlen k)).
  assert (HM : zlen m = 5). { unfold m, e_master. rewrite zlen_app, id_bytes_zlen, size_bytes_zlen, GetCodedUIntSize_small by lia. reflexivity. }
  (* split the reserved bytes *)
  assert (HSP : exists b1 b2 b3, b = b1 ++ b2 ++ b3 /\ zlen b1 = zlen m /\ zlen b2 = zlen k /\ zlen b3 = 105 - zlen k).
  { exists (firstn 5 b), (firstn (Z.to_nat (zlen k)) (skipn 5 b)), (skipn (Z.to_nat (zlen k)) (skipn 5 b)). rewrite !firstn_skipn. split; [reflexivity|].
    rewrite HM. clear - Hb BP H5. unfold zlen in *. repeat rewrite ?firstn_length, ?skipn_length. 
    lia. }
  destruct HSP as (b1 & b2 & b3 & -> & L1 & L2 & L3).
  destruct (run_ser_over (WriteEbmlMasterElement kMkvSeekHead (zlen k)) m w1 a b1 (b2 ++ b3 ++ c)) as (w2 & E2 & N2 & F2 & P2 & S2);
    [apply ser_emits, emits_WriteEbmlMasterElement; change (2 ^ 56 - 2) with 72057594037927934; lia|exact N1|rewrite F1, HF, <- !app_assoc; reflexivity|exact P1|exact L1|].
  rewrite (check_true_run _ _ _ _ _ _ E2).
  destruct (run_ser_over (write_seq (map write_seek u)) k w2 (a ++ m) b2 (b3 ++ c)) as (w3 & E3 & N3 & F3 & P3 & S3);
    [exact HSER|exact N2|rewrite F2, <- !app_assoc; reflexivity|rewrite P2, zlen_app; reflexivity|exact L2|].
  rewrite (check_true_run _ _ _ _ _ _ E3), bind_position.
  assert (EL : wrap64 (seek_total_size - (w_pos w3 - zlen a)) = 105 - zlen k).
  { rewrite P3, zlen_app. change seek_total_size with 110. rewrite wrap64_small by lia. lia. }
  rewrite EL. assert (HG : void_gap (105 - zlen k) = false) by (unfold void_gap; lia).
  destruct (void_written (105 - zlen k) ltac:(change (2 ^ 31) with 2147483648; lia) HG) as (n & HV & HVL & HVE). set (v := e_buf kMkvVoid (repeat 0 n)) in *.
  destruct (run_over _ _ _ _ v w3 ((a ++ m) ++ k) b3 c HVE N3) as (r & w4 & E4 & -> & N4 & F4 & P4 & S4);
    [rewrite F3, <- !app_assoc; reflexivity|rewrite P3, !zlen_app; lia|lia|].
  rewrite (bind_run _ _ _ _ _ _ _ E4). replace (zlen v =? 0) with false by lia.
  destruct (seek_run (w_pos w) w4 N4) as (w5 & E5 & N5 & F5 & P5 & S5). rewrite (check_status_run _ _ _ _ _ _ E5).
  exists n, ((m ++ k) ++ v), v, w5. split; [reflexivity|].
  assert (HF5 : w_file w5 = a ++ ((m ++ k) ++ v) ++ c) by (rewrite F5, F4, <- !app_assoc; reflexivity).
  split; [split; [exact N5|]|].
  { rewrite P5, Hp, HF5, HF, !zlen_app. lia. }
  split; [congruence|]. split; [exact HF5|]. split; [rewrite !zlen_app; lia|]. split; [|exact HV].
  f_equal.
Qed.

(* ---------- duration ---------- *)

Definition dur_leaf (i : segment_info) : tree := Leaf kMkvDuration (LFloat (f32_of_f64 (si_duration i))).
Definition info_rest (i : segment_info) : list tree :=
  match info_kids (si_set_duration (f64_of_Z 0) i) with _ :: r => r | [] => [] end.
Lemma info_split : forall i, f64_pos (si_duration i) = true ->
  enc (info_tree i) = (e_master kMkvInfo (zlen (enc_all (info_kids i))) ++ enc (uint kMkvTimecodeScale (si_timecode_scale i))) ++
    enc (dur_leaf i) ++ enc_all (info_rest i) /\
  info_kids i = uint kMkvTimecodeScale (si_timecode_scale i) :: dur_leaf i :: info_rest i.
Proof.
  intros i H. assert (EK : info_kids i = uint kMkvTimecodeScale (si_timecode_scale i) :: dur_leaf i :: info_rest i).
  { unfold info_rest, info_kids, info_tree, dur_leaf. rewrite H. change (f64_pos (si_duration (si_set_duration (f64_of_Z 0) i))) with false. reflexivity. }
  split; [|exact EK]. change (info_tree i) with (Master kMkvInfo (info_kids i)). rewrite enc_master. unfold e_buf, e_master. rewrite <- !app_assoc. rewrite EK at 2. rewrite !enc_all_cons. reflexivity.
Qed.
Lemma dur_leaf_len : forall i, zlen (enc (dur_leaf i)) = 7.
Proof. intros i. unfold dur_leaf. cbn [enc enc_leaf_bytes]. rewrite e_float_zlen. reflexivity. Qed.

Lemma segment_duration_ok : forall s, zlen (sg_track_ts s) = 126 -> zlen (sg_track_frames s) = 126 -> (length (sg_tracks s) <= 126)%nat ->
  exists d, segment_duration s = Val d.
Proof.
  intros s H1 H2 H3. unfold segment_duration. destruct (f64_pos (sg_duration s)); [eauto|]. destruct (_ && _); [|eauto].
  assert (H : forall n i d, 0 <= i -> i + Z.of_nat n <= 126 -> exists r, estimate_duration s n i d = Val r).
  { induction n as [|n IH]; intros i d Hi Hn; cbn [estimate_duration]; [eauto|].
    destruct (arr_get_ok _ i H2 ltac:(lia)) as (v & E). rewrite E. cbn [obind]. destruct (v <? 2); [apply IH; lia|].
    destruct (arr_get_ok _ i H1 ltac:(lia)) as (t & E'). rewrite E'. cbn [obind]. apply IH; lia. }
  apply H; lia.
Qed.
Lemma tracks_le : forall l : list track, NoDup (map tk_number l) -> Forall (fun t => 1 <= tk_number t <= 126) l -> (length l <= 126)%nat.
Proof.
  intros l HN HF.
  assert (HI : incl (map tk_number l) (map Z.of_nat (seq 1 126))).
  { intros x Hx. apply in_map_iff in Hx as (t & <- & Ht). rewrite Forall_forall in HF. specialize (HF _ Ht). apply in_map_iff. exists (Z.to_nat (tk_number t)). split; [lia|]. apply in_seq. lia. }
  pose proof (NoDup_incl_length HN HI) as HL. rewrite !map_length, seq_length in HL. exact HL.
Qed.
