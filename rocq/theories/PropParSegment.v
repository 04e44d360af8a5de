(* C57: a file that the muxer finished is loaded by the parser, and shows everything
   that was put in. *)
From Coq Require Import ZifyBool ZifyNat SpecFloat Sorted.
From Verif Require Import Base EbmlSpec MWriter Ids MFloat MMuxBlock BlockSpec MMuxMeta MetaSpec MMuxSegment SegmentSpec MuxFileSpec
  MParUtil MParMeta MParTrack MParCues MParCluster MParSegment ClusterSpec CueReadSpec ReadBackSpec ReadTrackSpec SegReadSpec
  PSegLayout PParSegment2 PParSegment3 PropMux.

Lemma full_ends : forall sized cues cs, Forall (fun c => mc_frames c <> []) cs -> ends_well sized cues cs.
Proof. intros sized cues cs H _ _ before c ->. apply Forall_app in H as [_ H]. inversion H; assumption. Qed.
Lemma muxed_file_loads : forall s seekable strict cs w,
  session s seekable cs w -> (sg_accurate s = true -> strict = true) -> (strict = true -> orderly s cs) ->
  exists h s1 b file, muxes s cs w h s1 b file /\
    (b = true -> exists dt d cues entries l,
       doc_type_of dt /\ is_muxed seekable s dt d cues file l /\
       (cues = None <-> sg_output_cues s1 = false) /\
       match cues with None => True | Some qs => Forall (fun q => if sg_accurate s then exists f, locates_cluster (si_timecode_scale (sg_info s)) l q f else exists f, locates (si_timecode_scale (sg_info s)) l q f) qs end /\
       (sg_accurate s = false -> retained (fun f => held_back s f = true) (accepted h) (lo_frames l)) /\
       (strict = true -> forall n, Forall2 (carries (sg_accurate s)) (filter (of_track n) (given cs)) (filter (of_track n) (lo_frames l))) /\
       (strict = true -> sorted_ts (lo_frames l) /\ StronglySorted Z.le (map mc_tc (lo_clusters l)) /\ Forall (fun c => mc_frames c <> []) (lo_clusters l)) /\
       Forall (stored_cluster seekable (si_timecode_scale (sg_info s))) (lo_clusters l) /\
       match entries with
       | None => seekable = false
       | Some es => lo_clusters l <> [] -> Forall (fun e => starts_at (lo_body l) (fst e) (snd e)) es
       end /\
       (readable_info (si_set_duration d (sg_info s)) -> readable_segment s ->
        Forall (fun f => fr_duration f / si_timecode_scale (sg_info s) < 2 ^ 63) (lo_frames l) ->
        ends_well seekable cues (lo_clusters l) ->
        exists s2 s3,
          EBMLHeader_Parse (file_reader file) = Val (0, zlen (lo_ebml l), read_header 4 dt) /\
          CreateInstance (file_reader file) (zlen (lo_ebml l)) = Val (0, Some s2) /\
          Segment_Load (file_reader file) s2 = Val (0, s3) /\
          shows_file (file_reader file) s d cues entries l s3)).
Proof.
  intros s seekable strict cs w HS H1 H2.
  destruct (session_run_state s seekable strict cs w HS H1 H2) as (h & s1 & w1 & b & s2 & w2 & E1 & E2 & R1 & R2 & R3 & R4).
  exists h, s1, b, (w_file w2). split; [exists w1, s2, w2; auto|]. intros Hb.
  destruct (R4 Hb) as (dt & d & cues & l & (D & M & Q & _ & K1 & K2) & _ & (P1 & P2 & P3 & P4 & P5 & P6)).
  assert (HEN : exists entries, match entries with
            | None => lo_seek l = []
            | Some es => is_seek_head l es /\ Forall (fun e => valid_id (fst e) /\ 0 <= snd e < 2 ^ 63) es /\ zlen es <= INT_MAX
            end /\ match entries with
            | None => seekable = false
            | Some es => lo_clusters l <> [] -> Forall (fun e => starts_at (lo_body l) (fst e) (snd e)) es
            end).
  { destruct seekable.
    - destruct P2 as (es & X1 & X2 & X3 & X4 & _). exists (Some es). split; [|exact X4]. split; [exact X1|]. split; [exact X2|]. unfold INT_MAX. lia.
    - exists None. split; [exact P2|reflexivity]. }
  destruct HEN as (entries & HE1 & HE2).
  exists dt, d, cues, entries, l. split; [exact D|]. split; [exact M|].
  split; [destruct cues; [destruct Q as [Q _]; rewrite Q; split; discriminate|rewrite Q; split; reflexivity]|].
  split; [destruct cues as [qs|]; [exact (proj2 Q)|exact I]|]. split; [exact K1|]. split; [intros HX; rewrite <- (proj1 (R3 HX)); apply (K2 HX)|].
  split; [intros HX; destruct (K2 HX) as (Y1 & _ & _ & _ & Y2); split; [exact Y1|exact Y2]|]. split; [exact P1|]. split; [exact HE2|].
  intros HI (G1 & G2 & G3) HD HW.
  apply (file_read seekable s dt d cues entries (w_file w2) l). destruct HS as [Hr _ _ _ _ _ _].
  pose proof M as (seg & _ & _ & _ & _ & _ & _ & _ & _ & HCu). constructor; auto.
  - unfold lo_frames in HD. clear - HD. induction (lo_clusters l) as [|c cl IH]; constructor; cbn [map concat] in HD; apply Forall_app in HD as [HD1 HD2]; auto.
  - apply (r_info s Hr).
  - split; [exact P4|]. split; [apply (r_tracks s Hr)|exact G1].
  - split; [exact P5|]. split; [apply (r_chapters s Hr)|exact G2].
  - split; [apply (r_tags s Hr)|exact G3].
  - unfold ends. destruct cues as [qs|]; [|apply HCu]. destruct P3 as (X1 & X2 & X3). split; [exact X1|]. split; [exact X2|]. split; [exact X3|exact HCu].
  - clear - P6. unfold LLONG_MAX. lia.
Qed.

(* Whatever frames are added to a configured segment, with the writer seekable or
   not: if Finalize reports success, the bytes in the file have the layout l of
   MuxFileSpec, whose frames are the accepted ones, and parsing the EBML header,
   creating the segment and loading it succeeds and shows the segment's settings,
   tracks, chapters, tags, seek entries, clusters with all their frames, and cue
   points.  The hypotheses after the layout are the limits of the parser. *)
Theorem C57_muxed_file_loads : forall s seekable strict cs w,
  session s seekable cs w -> (sg_accurate s = true -> strict = true) -> (strict = true -> orderly s cs) ->
  exists h s1 b file, muxes s cs w h s1 b file /\
    (b = true -> exists dt d cues entries l,
       doc_type_of dt /\ is_muxed seekable s dt d cues file l /\
       (cues = None <-> sg_output_cues s1 = false) /\
       (sg_accurate s = false -> retained (fun f => held_back s f = true) (accepted h) (lo_frames l)) /\
       (strict = true -> forall n, Forall2 (carries (sg_accurate s)) (filter (of_track n) (given cs)) (filter (of_track n) (lo_frames l))) /\
       (strict = true -> ends_well seekable cues (lo_clusters l)) /\
       match entries with
       | None => seekable = false
       | Some es => lo_clusters l <> [] -> Forall (fun e => starts_at (lo_body l) (fst e) (snd e)) es
       end /\
       (readable_info (si_set_duration d (sg_info s)) -> readable_segment s ->
        Forall (fun f => fr_duration f / si_timecode_scale (sg_info s) < 2 ^ 63) (lo_frames l) ->
        ends_well seekable cues (lo_clusters l) ->
        exists s2 s3,
          EBMLHeader_Parse (file_reader file) = Val (0, zlen (lo_ebml l), read_header 4 dt) /\
          CreateInstance (file_reader file) (zlen (lo_ebml l)) = Val (0, Some s2) /\
          Segment_Load (file_reader file) s2 = Val (0, s3) /\
          shows_file (file_reader file) s d cues entries l s3)).
Proof.
  intros s seekable strict cs w HS H1 H2. destruct (muxed_file_loads s seekable strict cs w HS H1 H2) as (h & s1 & b & file & M & HB).
  exists h, s1, b, file. split; [exact M|]. intros Hb. destruct (HB Hb) as (dt & d & cues & entries & l & X1 & X2 & X3 & _ & X4 & X5 & X6 & _ & X7 & X8).
  exists dt, d, cues, entries, l. split; [exact X1|]. split; [exact X2|]. split; [exact X3|]. split; [exact X4|]. split; [exact X5|]. split; [|split; [exact X7|exact X8]].
  intros HX. exact (full_ends _ _ _ (proj2 (proj2 (X6 HX)))).
Qed.
Print Assumptions C57_muxed_file_loads.

(* ---------- concrete files ---------- *)

Definition run_on (seekable : bool) (s : segment) (cs : list call) : option (bool * segment * list Z) :=
  match run_calls cs s (w0 seekable) with
  | Val ((_, s1), w1) => match Segment_Finalize s1 w1 with Val ((b, s2), w2) => Some (b, s2, w_file w2) | UB => None end
  | UB => None
  end.
(* loading a file: the status, and the number of tracks and clusters *)
Definition load (file : list Z) : option (Z * Z * Z) :=
  match EBMLHeader_Parse (file_reader file) with
  | Val (st, pos, _) =>
      if negb (st =? 0) then None else
      match CreateInstance (file_reader file) pos with
      | Val (st, Some s) =>
          if negb (st =? 0) then None else
          match Segment_Load (file_reader file) s with
          | Val (st, s1) => Some (st, match pg_tracks s1 with Some t => zlen t | None => 0 end, zlen (pg_clusters s1))
          | UB => None
          end
      | _ => None
      end
  | UB => None
  end.

Lemma run_load : forall k s cs st,
  match run_on k s cs with
  | Some (b, _, file) => b = true /\ match load file with Some (st', _, _) => st' = st | None => False end
  | None => False
  end ->
  exists h s1 file pos hd s2 s3, muxes s cs (w0 k) h s1 true file /\ EBMLHeader_Parse (file_reader file) = Val (0, pos, hd) /\
    CreateInstance (file_reader file) pos = Val (0, Some s2) /\ Segment_Load (file_reader file) s2 = Val (st, s3).
Proof.
  intros k s cs st HB. unfold run_on in HB. destruct (run_calls cs s (w0 k)) as [[[h s1] w1]|] eqn:E1; [|contradiction].
  destruct (Segment_Finalize s1 w1) as [[[b s2] w2]|] eqn:E2; [|contradiction]. destruct HB as [-> HL]. unfold load in HL.
  destruct (EBMLHeader_Parse (file_reader (w_file w2))) as [[[st1 pos] hd]|] eqn:E3; [|contradiction]. destruct (negb (st1 =? 0)) eqn:N1; [contradiction|].
  destruct (CreateInstance (file_reader (w_file w2)) pos) as [[st2 [s3|]]|] eqn:E4; try contradiction. destruct (negb (st2 =? 0)) eqn:N2; [contradiction|].
  destruct (Segment_Load (file_reader (w_file w2)) s3) as [[st3 s4]|] eqn:E5; [|contradiction]. subst st3. assert (st1 = 0) by lia. assert (st2 = 0) by lia. subst st1 st2.
  exists h, s1, (w_file w2), pos, hd, s3, s4. split; [exists w1, s2, w2; auto|auto].
Qed.
Lemma seg2_readable : readable_segment seg2.
Proof.
  split; [|split; constructor]. split.
  - repeat constructor; try (cbn; lia); try discriminate.
  - cbn. repeat constructor; cbn; intuition lia.
Qed.
(* C57's hypotheses are met by the session of PropMux, with either writer; its
   files have three clusters and are loaded. *)
Example ex_load : forall seekable, session seg2 seekable ex_calls (w0 seekable) /\ orderly seg2 ex_calls /\ readable_segment seg2 /\
  match run_on seekable seg2 ex_calls with Some (b, _, file) => b = true /\ load file = Some (0, 2, 3) | None => False end.
Proof.
  intros k. split; [apply ex_session|]. split; [exact ex_orderly|]. split.
  - exact seg2_readable.
  - destruct k; vm_compute; split; reflexivity.
Qed.
Lemma positive32_check : forall u,
  match f32_of_bits u with S754_zero false => true | S754_finite false _ _ => true | _ => false end = true -> positive32 u.
Proof.
  intros u H. unfold positive32. destruct (f32_of_bits u) as [[|]|[|]| |[|] m e]; try discriminate H; [left; reflexivity|right; exists m, e; reflexivity].
Qed.
Example ex_info : Forall (fun n => readable_info (si_set_duration (f64_of_Z n) (sg_info seg2))) [0; 33; 5000; 86400000].
Proof.
  repeat apply Forall_cons; try apply Forall_nil; (split; [cbn; lia|]; split; [cbn; lia|]; split; [cbn; lia|]; split;
    [|vm_compute; reflexivity]; intros H; first [vm_compute in H; discriminate H | apply positive32_check; vm_compute; reflexivity]).
Qed.

(* ---------- what does not hold ---------- *)

(* Without ends_well the claim is false.  The audio frame is held back; the video
   frame opens a cluster at time 0 in which the held frame, 100 s later, does not
   fit, and is then refused because it has no data.  Finalize reports success, but
   the file ends in a cluster of unknown size without a block: the parser cannot
   tell whether it is complete and Load fails with E_BUFFER_NOT_FULL. *)
Definition empty_calls : list call := [SetOutputCues false; AddF (fr 2 100000 true [77; 78]); AddF (fr 1 0 true [])].
Theorem C57_empty_last_cluster_refuted : exists s cs h s1 file pos hd s2 s3,
  session s false cs (w0 false) /\ plain_or_orderly s cs /\ readable_segment s /\ muxes s cs (w0 false) h s1 true file /\
  EBMLHeader_Parse (file_reader file) = Val (0, pos, hd) /\ CreateInstance (file_reader file) pos = Val (0, Some s2) /\
  Segment_Load (file_reader file) s2 = Val (E_BUFFER_NOT_FULL, s3).
Proof.
  destruct (run_load false seg2 empty_calls E_BUFFER_NOT_FULL ltac:(vm_compute; split; reflexivity)) as (h & s1 & file & pos & hd & s2 & s3 & HM & E3 & E4 & E5).
  exists seg2, empty_calls, h, s1, file, pos, hd, s2, s3.
  refine (conj _ (conj (fun H => False_ind _ (diff_false_true H)) (conj seg2_readable (conj HM (conj E3 (conj E4 E5)))))). clear.
  constructor.
  - exact (seg2_ready true).
  - reflexivity.
  - repeat split. constructor.
  - discriminate.
  - cbn. repeat constructor; unfold is_byte, is_u64, is_s64; cbn; lia.
  - cbn [given]. repeat constructor. intros H. vm_compute in H. discriminate H.
  - split; vm_compute; reflexivity.
Qed.
Print Assumptions C57_empty_last_cluster_refuted.
