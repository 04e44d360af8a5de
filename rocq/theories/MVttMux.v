(* Model of sample_muxer_metadata.cc (WebVTT files to metadata tracks) and of the way
   back in vttdemux.cc.  Not modelled: chapters, opening and naming of files, failures
   of the output files, the messages. *)
From Verif Require Import Base MVtt VttMuxSpec.

(* ---------- into the file ---------- *)

(* WriteCueIdentifier: sample_muxer_metadata.cc:312-316 *)
Definition frame_identifier (identifier : list Z) : list Z := identifier ++ [kLF].
(* the loop of WriteCueSettings: sample_muxer_metadata.cc:330-341 *)
Fixpoint settings_items (ss : list setting) : list Z :=
  match ss with
  | [] => []
  | s :: r => set_name s ++ [kCOLON] ++ set_value s ++ match r with [] => [] | _ => [kSPACE] ++ settings_items r end
  end.
(* WriteCueSettings: sample_muxer_metadata.cc:318-344 *)
Definition frame_settings (ss : list setting) : list Z := match ss with [] => [kLF] | _ => settings_items ss ++ [kLF] end.
(* WriteCuePayload: sample_muxer_metadata.cc:346-358 *)
Definition frame_payload (payload : list (list Z)) : list Z := flat_map (fun line => line ++ [kLF]) payload.
(* MakeFrame: sample_muxer_metadata.cc:305-310 *)
Definition MakeFrame (c : cue) : list Z := frame_identifier (q_id c) ++ frame_settings (q_settings c) ++ frame_payload (q_payload c).

(* a time in nanoseconds: sample_muxer_metadata.cc:361-371, sample_muxer_metadata.h:56-59 *)
Definition time_ns (t : time) : outcome Z := olet ms := presentation t in s64 (ms * 1000000).
(* SortableCue: sample_muxer_metadata.h:53-80 *)
Definition sortable := (Z * cue)%type.
(* SortableCue::Write: sample_muxer_metadata.cc:360-391; the frame given to the muxer,
   which is taken to accept it *)
Definition SortableCue_Write (v : sortable) : outcome meta_frame :=
  olet start_ns := time_ns (q_start (snd v)) in
  olet stop_ns := time_ns (q_stop (snd v)) in
  olet duration_ns := s64 (stop_ns - start_ns) in
  Val (mkMF (fst v) start_ns duration_ns (MakeFrame (snd v))).
(* SortableCue::operator<: sample_muxer_metadata.h:64-72 *)
Definition sortable_lt (a b : sortable) : bool :=
  if time_lt (q_start (snd a)) (q_start (snd b)) then true
  else if time_gt (q_start (snd a)) (q_start (snd b)) then false
  else fst a <? fst b.
(* std::multiset::insert, after the elements that are not greater:
   sample_muxer_metadata.cc:301 *)
Fixpoint set_insert (v : sortable) (l : list sortable) : list sortable :=
  match l with
  | [] => [v]
  | w :: r => if sortable_lt v w then v :: l else w :: set_insert v r
  end.
(* the loop of SampleMuxerMetadata::Parse: sample_muxer_metadata.cc:277-302 *)
Fixpoint parse_loop (fuel : nat) (p : pstate) (c : cue) (t : time) (track : Z) (cues : list sortable) : outcome (bool * list sortable) :=
  match fuel with
  | O => UB
  | S fuel' =>
      olet x := MVtt.Parse p c in
      let '(e, c, p) := x in
      if e <? 0 then Val (false, cues)
      else if e >? 0 then Val (true, cues)
      else if negb (time_ge (q_start c) t) then Val (false, cues)
      else if time_lt (q_stop c) (q_start c) then Val (false, cues)
      else parse_loop fuel' p c (q_start c) track (set_insert (track, c) cues)
  end.
(* the Cue and the Time before the first turn; hours are set to -1:
   sample_muxer_metadata.cc:271-275 *)
Definition time0 : time := mkTime (-1) 0 0 0.
(* sample_muxer_metadata.cc:271 *)
Definition cue0 : cue := mkCueV [] (mkTime 0 0 0 0) (mkTime 0 0 0 0) [] [].
(* SampleMuxerMetadata::Parse: sample_muxer_metadata.cc:252-303; in: what the file
   answers *)
Definition load_track (input : list answer) (track : Z) (cues : list sortable) : outcome (bool * list sortable) :=
  olet x := Init (new_parser input) in
  let '(e, p) := x in
  if e <? 0 then Val (false, cues) else parse_loop (fuel_of p) p cue0 time0 track cues.
(* SampleMuxerMetadata::Write: sample_muxer_metadata.cc:59-80; the frames written and
   the cues left *)
Fixpoint Write (t : Z) (cues : list sortable) : outcome (list meta_frame * list sortable) :=
  match cues with
  | [] => Val ([], [])
  | v :: r =>
      olet start_ns := time_ns (q_start (snd v)) in
      if (0 <=? t) && (start_ns >? t) then Val ([], cues)
      else olet f := SortableCue_Write v in
           olet x := Write t r in
           Val (f :: fst x, snd x)
  end.
(* files loaded one after the other: LoadMetadataFiles, mkvmuxer_sample.cc:105-119 *)
Fixpoint load_all (files : list (Z * list answer)) (cues : list sortable) : outcome (bool * list sortable) :=
  match files with
  | [] => Val (true, cues)
  | (track, input) :: r =>
      olet x := load_track input track cues in
      if fst x then load_all r (snd x) else Val (false, snd x)
  end.
(* the calls of Write while frames are copied, and the last one with -1:
   mkvmuxer_sample.cc:714, 764 *)
Fixpoint write_all (ts : list Z) (cues : list sortable) : outcome (list meta_frame) :=
  match ts with
  | [] => olet x := Write (-1) cues in Val (fst x)
  | t :: r => olet x := Write t cues in olet fs := write_all r (snd x) in Val (fst x ++ fs)
  end.

(* ---------- out of the file ---------- *)

(* the characters of a string up to a NUL: fputs and printf's %s of c_str(),
   vttdemux.cc:836, 898, 942 *)
Fixpoint c_str (l : list Z) : list Z := match l with [] => [] | c :: r => if c =? 0 then [] else c :: c_str r end.
(* the digits of n >= 0; printf's %lld, vttdemux.cc:921, 925; twenty are enough *)
Fixpoint ll_digits (fuel : nat) (n : Z) : list Z :=
  match fuel with
  | O => []
  | S f => if n <? 10 then [48 + n] else ll_digits f (n / 10) ++ [48 + n mod 10]
  end.
(* padding with zeros: vttdemux.cc:921, 925 *)
Definition ll_padded (width : nat) (n : Z) : list Z := let ds := ll_digits 20 n in repeat 48 (width - length ds) ++ ds.
(* %02lld, %03lld: vttdemux.cc:921, 925 *)
Definition ll_text (width : nat) (n : Z) : list Z := if n <? 0 then 45 :: ll_padded (width - 1) (- n) else ll_padded width n.
(* WriteCueTime: vttdemux.cc:908-929 *)
Definition WriteCueTime (t : Z) : list Z :=
  let ms := Z.quot t 1000000 in
  let sec := Z.quot ms 1000 in
  let ms := ms - sec * 1000 in
  let min := Z.quot sec 60 in
  let sec := sec - 60 * min in
  let hr := Z.quot min 60 in
  let min := min - 60 * hr in
  (if hr >? 0 then ll_text 2 hr ++ [kCOLON] else []) ++ ll_text 2 min ++ [kCOLON] ++ ll_text 2 sec ++ [kDOT] ++ ll_text 3 ms.

(* The lines of a block are read by LineReader::GetLine (MVtt.GetLine) from the bytes of
   the frame; FrameParser::GetChar, UngetChar: vttdemux.cc:236-259, with a reader that
   delivers the bytes.  Putting a character back is remembering it instead of going back
   one position.  The functions below give the text written, or None for failure. *)

(* WriteCueIdentifier: vttdemux.cc:823-844 *)
Definition WriteCueIdentifier (p : pstate) : outcome (option (list Z) * pstate) :=
  olet x := GetLine p in
  let '(e, line, p) := x in
  if negb (e =? 0) then Val (None, p)
  else match line with [] => Val (Some [], p) | _ => Val (Some (c_str line ++ [10]), p) end.
(* WriteCueTimings: vttdemux.cc:846-906; stop_ns and the product are signed 64-bit *)
Definition WriteCueTimings (scale : Z) (b : meta_block) (p : pstate) : outcome (option (list Z) * pstate) :=
  if mb_duration b <? 0 then Val (None, p)
  else if scale <=? 0 then Val (None, p)
  else
    olet duration_ns := s64 (mb_duration b * scale) in
    olet stop_ns := s64 (mb_time b + duration_ns) in
    olet x := GetLine p in
    let '(e, line, p) := x in
    if negb (e =? 0) then Val (None, p)
    else
      let rest := match line with [] => [] | _ => 32 :: c_str line end in
      Val (Some (WriteCueTime (mb_time b) ++ [32; 45; 45; 62; 32] ++ WriteCueTime stop_ns ++ rest ++ [10]), p).
(* WriteCuePayload: vttdemux.cc:931-952 *)
Fixpoint payload_lines (fuel : nat) (count : Z) (p : pstate) : outcome (option (list Z)) :=
  match fuel with
  | O => UB
  | S fuel' =>
      olet x := GetLine p in
      let '(e, line, p) := x in
      if e <? 0 then Val None
      else match line with
           | [] => if count <=? 0 then Val None else Val (Some [])
           | _ => olet r := payload_lines fuel' (count + 1) p in
                  match r with Some txt => Val (Some (c_str line ++ [10] ++ txt)) | None => Val None end
           end
  end.
(* WriteCue: vttdemux.cc:796-821 *)
Definition WriteCue (scale : Z) (b : meta_block) : outcome (option (list Z)) :=
  olet x := WriteCueIdentifier (new_parser (map Ch (mb_data b))) in
  match x with
  | (None, _) => Val None
  | (Some t1, p) =>
      olet x := WriteCueTimings scale b p in
      match x with
      | (None, _) => Val None
      | (Some t2, p) =>
          olet r := payload_lines (fuel_of p) 0 p in
          match r with Some t3 => Val (Some ([10] ++ t1 ++ t2 ++ t3)) | None => Val None end
      end
  end.
(* the cues of one track: ProcessCluster, ProcessBlockEntry, vttdemux.cc:743-794 *)
Fixpoint write_cues (scale : Z) (bs : list meta_block) : outcome (option (list Z)) :=
  match bs with
  | [] => Val (Some [])
  | b :: r =>
      olet x := WriteCue scale b in
      match x with
      | None => Val None
      | Some t => olet y := write_cues scale r in
                  match y with Some t' => Val (Some (t ++ t')) | None => Val None end
      end
  end.
(* the file of one track: InitializeFiles, vttdemux.cc:556-575, and its cues *)
Definition demux_track (scale : Z) (bs : list meta_block) : outcome (option (list Z)) :=
  olet x := write_cues scale bs in
  match x with Some t => Val (Some (kWebvttId ++ [10] ++ t)) | None => Val None end.
