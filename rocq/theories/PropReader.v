(* C66, C67: the readers and the writer that come with the library keep the contract
   of the interfaces they implement, so that what is proved of the parsers and of the
   muxer for any source or sink holds when these are used. *)
From Coq Require Import ZifyBool ZifyNat.
From Verif Require Import Base WpSpec SourceSpec MWp MReader MWriter MParUtil MFile PReader PFile.

(* ---------- C66: webm::BufferReader, FileReader, IstreamReader ---------- *)

(* C66 For any bytes and any history of Read and Skip calls a BufferReader answers right:
   statuses as documented, the bytes of the buffer in order, the position moved by what
   was delivered, end of file exactly at the end. *)
Theorem C66_buffer_reader :
  forall data calls, Forall (fun c => allowed c /\ moves c = false) calls ->
  exists log pos, history buffer_call calls (mkBR data 0) = Val (log, mkBR data pos) /\
    map fst log = calls /\ right false true data 0 log pos.
Proof.
  intros data calls Hc.
  destruct (history_right buffer_call (buffer_inv data) _ false true data (fun c pos r => buffer_step data c pos r)
              calls 0 (mkBR data 0) Hc) as (log & r' & pos & E & [-> _] & Em & Hr).
  { split; [reflexivity|]. pose proof (zlen_nn data); lia. }
  exists log, pos. auto.
Qed.

(* C66 The same for a FileReader on any file, open at any offset, whatever number of bytes
   the C library's fread gives at a time and wherever fseek can go; also with Seek calls
   when the file was open at its start.  Skipping goes beyond the end only where fseek
   does. *)
Theorem C66_file_reader :
  forall data start kind sched calls,
  0 <= start <= LLONG_MAX -> zlen data <= LLONG_MAX ->
  Forall allowed calls -> start = 0 \/ Forall (fun c => moves c = false) calls ->
  exists log r', history file_call calls (mkFR (Some (mkF data start kind sched)) 0) = Val (log, r') /\
    map fst log = calls /\
    right (match kind with seek_anywhere => true | _ => false end) (forallb (fun k => 1 <=? k) sched)
          (skipn (Z.to_nat start) data) 0 log (fr_pos r').
Proof.
  intros data start kind sched calls Hs Hd Ha Hm.
  destruct (history_right file_call (fr_inv data start kind (prompt_of sched))
              (fun c => allowed c /\ (start = 0 \/ moves c = false)) (beyond_of kind) (prompt_of sched) (skipn (Z.to_nat start) data)
              (fun c pos r => file_step data start kind (prompt_of sched) c pos r (proj1 Hs) Hd)
              calls 0 (mkFR (Some (mkF data start kind sched)) 0))
    as (log & r' & pos & E & (f & _ & <- & _) & Em & Hr).
  - destruct Hm as [->|Hm]; [apply (Forall_impl _ (fun c H => conj H (or_introl eq_refl)) Ha)|].
    rewrite Forall_forall in *. intros c Hc. split; [now apply Ha|]. right. now apply Hm.
  - eexists; split; [reflexivity|]. split; [reflexivity|]. unfold file_inv; cbn [f_data f_off f_seek f_sched].
    split; [reflexivity|]. split; [lia|]. split; [reflexivity|]. split; [lia|]. split; [lia|auto].
  - exists log, r'. auto.
Qed.

(* C66 The same for an IstreamReader on any stream that starts in a good state. *)
Theorem C66_istream_reader :
  forall data start kind sched calls,
  0 <= start <= LLONG_MAX -> zlen data <= LLONG_MAX ->
  Forall (fun c => allowed c /\ moves c = false) calls ->
  exists log r', history istream_call calls (mkIR (Some (mkIs (mkF data start kind sched) false false)) 0) = Val (log, r') /\
    map fst log = calls /\
    right (match kind with seek_anywhere => true | _ => false end) (match sched with [] => true | _ => false end)
          (skipn (Z.to_nat start) data) 0 log (ir_pos r').
Proof.
  intros data start kind sched calls Hs Hd Ha.
  set (prompt := match sched with [] => true | _ => false end).
  destruct (history_right istream_call (ir_inv data start kind prompt)
              (fun c => allowed c /\ moves c = false) (beyond_of kind) prompt (skipn (Z.to_nat start) data)
              (fun c pos r => istream_step data start kind prompt c pos r (proj1 Hs) Hd)
              calls 0 (mkIR (Some (mkIs (mkF data start kind sched) false false)) 0) Ha)
    as (log & r' & pos & E & (s & _ & <- & _) & Em & Hr).
  - eexists; split; [reflexivity|]. split; [reflexivity|]. cbn [is_file is_eof is_fail orb f_sched].
    split; [|intros P; split; [destruct sched; [reflexivity|discriminate P]|discriminate]].
    unfold file_inv; cbn [f_data f_off f_seek f_sched].
    split; [reflexivity|]. split; [lia|]. split; [reflexivity|]. split; [lia|]. split; [lia|discriminate].
  - exists log, r'. auto.
Qed.

(* C66 Right answers that stay inside the source are those of the data source the theorems
   about the callback parser speak of (C28, C29, C50, C59, C65 quantify over its schedule).
   With the three theorems above this holds of every BufferReader, and of a FileReader or
   IstreamReader whose seeks stay inside the source or fail. *)
Theorem C66_parser_view :
  forall src log pos, right false true src 0 log pos ->
  Forall (fun c => moves c = false) (map fst log) ->
  exists sched, Forall (fun k => 0 < k) sched /\
    forall trace, history source_call (map fst log) (mk_world src 0 sched trace)
                = Val (log, mk_world (skipn (Z.to_nat pos) src) pos [] trace).
Proof. intros src log pos Hr Hm. exact (right_source src 0 log pos Hr ltac:(lia) Hm). Qed.

(* C66 does not hold with skips that stay inside the source: a FileReader on a regular
   file reports bytes skipped that are not there, because fseek goes beyond the end. *)
Theorem C66_skip_inside_refuted :
  exists data n log r',
    history file_call [CSkip n] (mkFR (Some (mkF data 0 seek_anywhere [])) 0) = Val (log, r') /\
    log = [(CSkip n, ASkip kOkCompleted n)] /\ zlen data < n /\
    forall pos, ~ right false true data 0 log pos.
Proof.
  exists [1; 2; 3], 10. eexists _, _. split; [vm_compute; reflexivity|]. split; [reflexivity|]. split; [reflexivity|].
  intros pos H. inversion H as [| |p n0 st k l p' _ Hin|]. specialize (Hin eq_refl eq_refl).
  vm_compute in Hin. now apply Hin.
Qed.

(* a pipe of 2000 bytes: the first of two skips gives 1024 bytes, the second the rest, then
   four bytes are read, 497 to 500 after these, and so on *)
Example C66_example :
  let data := map Z.of_nat (seq 0 2000) in
  exists r', history file_call [CSkip 1500; CSkip 476; CRead 4; CSkip 1000; CRead 1]
      (mkFR (Some (mkF data 0 no_seek [])) 0) =
    Val ([(CSkip 1500, ASkip kOkPartial 1024); (CSkip 476, ASkip kOkCompleted 476);
          (CRead 4, ARead kOkCompleted [1500; 1501; 1502; 1503]); (CSkip 1000, ASkip kOkPartial 496);
          (CRead 1, ARead kEndOfFile [])], r') /\ fr_pos r' = 2000.
Proof. eexists. split; vm_compute; reflexivity. Qed.
Example C66_example_stream :
  exists r', history istream_call [CRead 2; CSkip 9; CRead 1]
      (mkIR (Some (mkIs (mkF [5; 6; 7; 8] 0 seek_inside []) false false)) 0) =
    Val ([(CRead 2, ARead kOkCompleted [5; 6]); (CSkip 9, ASkip kOkPartial 2); (CRead 1, ARead kEndOfFile [])], r').
Proof. eexists. vm_compute. reflexivity. Qed.

(* ---------- C67: mkvparser::MkvReader and mkvmuxer::MkvWriter ---------- *)

(* C67 Every Read of a MkvReader on an unchanged file, in any history, gives the bytes asked
   for when they are inside the file and a negative status otherwise. *)
Theorem C67_mkv_reader :
  forall data calls, zlen data <= LLONG_MAX ->
  mkv_reads calls (mkv_reader_on data) =
    map (fun c : Z * Z => let (offset, len) := c in
           if (0 <=? offset) && (0 <=? len) && ((len =? 0) || (offset + len <=? zlen data))
           then inr (firstn (Z.to_nat len) (skipn (Z.to_nat offset) data)) else inl (-1)) calls.
Proof.
  intros data calls Hd. rewrite (mkv_reads_are data calls Hd).
  - apply map_ext. intros [o l]. cbn [fst snd]. apply r_read_is.
  - exists 0. split; reflexivity.
Qed.

(* C67 So a MkvReader is the reader that the theorems about reading a muxed file use. *)
Theorem C67_mkv_reader_is_file_reader :
  forall data calls, zlen data <= LLONG_MAX ->
  mkv_reads calls (mkv_reader_on data) = map (fun c => r_read (file_reader data) (fst c) (snd c)) calls /\
  MkvReader_Length (mkv_reader_on data) = (0, r_total (file_reader data), r_avail (file_reader data)).
Proof.
  intros data calls Hd. split; [|reflexivity]. apply (mkv_reads_are data calls Hd).
  exists 0. split; reflexivity.
Qed.

(* C67 A MkvWriter on a file, whatever fwrite stores at a time, is one of the writers that
   the theorems about the muxer quantify over: the same statuses, contents and position;
   a failing call returns -1. *)
Theorem C67_mkv_writer :
  forall calls f, Forall (fun c => match c with WCWrite bs => bs <> [] | WCSeek _ => True end) calls ->
  exists sched statuses f',
    mkv_writes calls (mkMW (Some f)) = (statuses, mkMW (Some f')) /\
    writer_calls calls (mkW (o_data f) (o_off f) true sched) = Val (statuses, mkW (o_data f') (o_off f') true []) /\
    Forall (fun e => match e with WOk => True | WFail st _ => st = -1 end) sched.
Proof. intros calls f Hc. exact (writer_sim calls Hc f). Qed.

Example C67_example :
  mkv_reads [(1, 2); (3, 2); (0, 4); (4, 0); (-1, 1)] (mkv_reader_on [9; 8; 7; 6]) =
    [inr [8; 7]; inl (-1); inr [9; 8; 7; 6]; inr []; inl (-1)] /\
  mkv_writes [WCWrite [1; 2; 3]; WCSeek 1; WCWrite [7]; WCSeek 4; WCWrite [5; 6]] (mkMW (Some (mkO [] 0 [3; 1; 1]))) =
    ([0; 0; 0; 0; -1], mkMW (Some (mkO [1; 7; 3; 0; 5] 5 []))).
Proof. split; vm_compute; reflexivity. Qed.

Print Assumptions C66_buffer_reader.
Print Assumptions C66_file_reader.
Print Assumptions C66_istream_reader.
Print Assumptions C66_parser_view.
Print Assumptions C66_skip_inside_refuted.
Print Assumptions C67_mkv_reader.
Print Assumptions C67_mkv_reader_is_file_reader.
Print Assumptions C67_mkv_writer.
