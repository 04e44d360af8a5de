(* Model of the chapters in sample_muxer_metadata.cc (a WebVTT file to chapters) and of
   the way back in vttdemux.cc.  Not modelled: opening and naming of files, failures of
   the output files, failing memory allocation, the messages. *)
From Verif Require Import Base MVtt MMuxMeta MParMeta VttMuxSpec MVttMux.

(* ---------- into the file ---------- *)

(* the loop of ParseChapters: sample_muxer_metadata.cc:120-147; a new Cue in each turn *)
Fixpoint chapters_loop (fuel : nat) (p : pstate) (t : time) (cues : list cue) : outcome (bool * list cue) :=
  match fuel with
  | O => UB
  | S fuel' =>
      olet x := MVtt.Parse p cue0 in
      let '(e, c, p) := x in
      if e <? 0 then Val (false, cues)
      else if e >? 0 then Val (true, cues)
      else if time_lt (q_start c) t then Val (false, cues)
      else if time_lt (q_stop c) (q_start c) then Val (false, cues)
      else chapters_loop fuel' p (q_start c) (cues ++ [c])
  end.
(* ParseChapters: sample_muxer_metadata.cc:99-148; input: what the file answers *)
Definition ParseChapters (input : list answer) : outcome (bool * list cue) :=
  olet x := Init (new_parser input) in
  let '(e, p) := x in
  if e <? 0 then Val (false, []) else chapters_loop (fuel_of p) p time0 [].
(* LoadChapters: sample_muxer_metadata.cc:82-97; chapter_cues before and after *)
Definition LoadChapters (input : list answer) (chapter_cues : list cue) : outcome (bool * list cue) :=
  match chapter_cues with
  | _ :: _ => Val (false, chapter_cues)
  | [] => olet x := ParseChapters input in if fst x then Val (true, snd x) else Val (false, [])
  end.

(* the title: sample_muxer_metadata.cc:180-195; the first line is read even if there is
   none *)
Fixpoint title_of (payload : list (list Z)) : outcome (list Z) :=
  match payload with
  | [] => UB
  | [l] => Val l
  | l :: r => olet t := title_of r in Val (l ++ [kLF] ++ t)
  end.
(* Chapter::set_time: mkvmuxer.cc:1886-1892; division by zero is undefined *)
Definition chapter_timecode (scale ns : Z) : outcome Z := if scale =? 0 then UB else Val (ns / scale).
(* SampleMuxerMetadata::AddChapter: sample_muxer_metadata.cc:150-202.  uid: the one the
   new chapter has got (MakeUID).  set_id, set_title copy up to a NUL: mkvmuxer.cc:1884,
   1894-1913.  Times become unsigned. *)
Definition AddChapter (scale uid : Z) (c : cue) : outcome chapter :=
  let id := match q_id c with [] => None | _ => Some (c_str (q_id c)) end in
  olet start_ns := time_ns (q_start c) in
  olet stop_ns := time_ns (q_stop c) in
  olet b := chapter_timecode scale (wrap64 start_ns) in
  olet e := chapter_timecode scale (wrap64 stop_ns) in
  olet title := title_of (q_payload c) in
  Val (mkChapter id b e uid [mkDisplay (Some (c_str title)) None None]).
(* AddChapters: sample_muxer_metadata.cc:44-57; uids: those the chapters get *)
Fixpoint AddChapters (scale : Z) (uids : list Z) (cues : list cue) : outcome (list chapter) :=
  match cues with
  | [] => Val []
  | c :: r =>
      olet x := AddChapter scale (hd 0 uids) c in
      olet l := AddChapters scale (tl uids) r in
      Val (x :: l)
  end.

(* ---------- out of the file ---------- *)

(* Chapters::Atom::GetTime: mkvparser.cc:3564-3590; the product is signed 64-bit *)
Definition Atom_GetTime (scale timecode : Z) : outcome Z :=
  if scale <? 1 then Val (-1) else if timecode <? 0 then Val (-1) else s64 (scale * timecode).
(* The functions below give the text written, or None for failure. *)
(* WriteChaptersCueIdentifier: vttdemux.cc:674-685 *)
Definition WriteChaptersCueIdentifier (a : p_atom) : list Z := match pa_string_uid a with None => [] | Some s => c_str s ++ [10] end.
(* WriteChaptersCueTimings: vttdemux.cc:687-713 *)
Definition WriteChaptersCueTimings (scale : Z) (a : p_atom) : outcome (option (list Z)) :=
  olet start_ns := Atom_GetTime scale (pa_start a) in
  if start_ns <? 0 then Val None
  else
    olet stop_ns := Atom_GetTime scale (pa_stop a) in
    if stop_ns <? 0 then Val None
    else Val (Some (WriteCueTime start_ns ++ [32; 45; 45; 62; 32] ++ WriteCueTime stop_ns ++ [10])).
(* ChapterAtomParser: vttdemux.cc:261-286; its lines are read by LineReader::GetLine.
   Putting a character back is remembering it instead of going back one position. *)
Definition title_reader (d : p_display) : pstate := new_parser (map Ch (match pd_string d with None => [] | Some s => c_str s end)).
(* WriteChaptersCuePayload: vttdemux.cc:715-741; the loop is that of WriteCuePayload,
   vttdemux.cc:931-952 *)
Definition WriteChaptersCuePayload (d : p_display) : outcome (option (list Z)) := let p := title_reader d in payload_lines (fuel_of p) 0 p.
(* WriteChaptersCue: vttdemux.cc:649-672 *)
Definition WriteChaptersCue (scale : Z) (a : p_atom) (d : p_display) : outcome (option (list Z)) :=
  olet x := WriteChaptersCueTimings scale a in
  match x with
  | None => Val None
  | Some t2 =>
      olet y := WriteChaptersCuePayload d in
      match y with Some t3 => Val (Some ([10] ++ WriteChaptersCueIdentifier a ++ t2 ++ t3)) | None => Val None end
  end.
(* "eng": vttdemux.cc:621 *)
Definition is_eng (l : list Z) : bool := match c_str l with [101; 110; 103] => true | _ => false end.
(* the loop of WriteChaptersFile: vttdemux.cc:605-646 *)
Fixpoint chapters_text (scale : Z) (l : list p_atom) : outcome (option (list Z)) :=
  match l with
  | [] => Val (Some [])
  | a :: r =>
      match pa_displays a with
      | [] => chapters_text scale r
      | [d] =>
          if match pd_language d with Some s => negb (is_eng s) | None => false end then Val None
          else
            olet x := WriteChaptersCue scale a d in
            match x with
            | None => Val None
            | Some t => olet y := chapters_text scale r in match y with Some t' => Val (Some (t ++ t')) | None => Val None end
            end
      | _ => Val None
      end
  end.
(* WriteChaptersFile: vttdemux.cc:577-647 *)
Definition WriteChaptersFile (scale : Z) (editions : list (list p_atom)) : outcome (option (list Z)) :=
  match editions with
  | [] => Val (Some [])
  | [e] => chapters_text scale e
  | _ => Val None
  end.
(* the chapters file: InitializeFiles, vttdemux.cc:556-575, and its cues *)
Definition demux_chapters (scale : Z) (editions : list (list p_atom)) : outcome (option (list Z)) :=
  olet x := WriteChaptersFile scale editions in
  match x with Some t => Val (Some (kWebvttId ++ [10] ++ t)) | None => Val None end.
