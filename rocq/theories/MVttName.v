(* Model of vttdemux.cc: which tracks hold WebVTT text and the files they are put into.
   Not modelled: reading the WebM file, the messages. *)
From Coq Require Import String Ascii.
From Verif Require Import Base VttNameSpec MVttMux.

(* std::map<long, MetadataInfo>, in order of the keys: vttdemux.cc:39 *)
Definition metadata_map := list (Z * kind).
(* m[tn] = info: vttdemux.cc:343, 388 *)
Fixpoint map_set (n : Z) (k : kind) (m : metadata_map) : metadata_map :=
  match m with
  | [] => [(n, k)]
  | (n', k') :: r => if n <? n' then (n, k) :: m else if n =? n' then (n, k) :: r else (n', k') :: map_set n k r
  end.
(* strcmp(a, b) == 0 for a b without NUL: vttdemux.cc:376-382 *)
Fixpoint bytes_eqb (a b : list Z) : bool :=
  match a, b with
  | [], [] => true
  | x :: a', y :: b' => (x =? y) && bytes_eqb a' b'
  | _, _ => false
  end.
(* the type by the codec: vttdemux.cc:373-386 *)
Definition codec_kind (codec : list Z) : option kind :=
  let c := c_str codec in
  if bytes_eqb c (text "D_WEBVTT/SUBTITLES") then Some Subtitles
  else if bytes_eqb c (text "D_WEBVTT/CAPTIONS") then Some Captions
  else if bytes_eqb c (text "D_WEBVTT/DESCRIPTIONS") then Some Descriptions
  else if bytes_eqb c (text "D_WEBVTT/METADATA") then Some Metadata
  else None.
(* the loop of BuildMap: vttdemux.cc:354-389 *)
Fixpoint tracks_loop (ts : list track_info) (m : metadata_map) : metadata_map :=
  match ts with
  | [] => m
  | (tn, codec) :: r =>
      if tn <=? 0 then tracks_loop r m
      else match codec with
           | None => tracks_loop r m
           | Some c => match codec_kind c with None => tracks_loop r m | Some k => tracks_loop r (map_set tn k m) end
           end
  end.
(* BuildMap: vttdemux.cc:333-390; whether the segment has chapters, and its tracks *)
Definition BuildMap (chapters : bool) (ts : list track_info) : metadata_map :=
  tracks_loop ts (if chapters then map_set 0 Chapters [] else []).

(* strrchr(filename, '.'), string(filename, ext): vttdemux.cc:403, 445 *)
Fixpoint before_last_dot (l : list Z) : option (list Z) :=
  match l with
  | [] => None
  | c :: r => match before_last_dot r with
              | Some b => Some (c :: b)
              | None => if c =? 46 then Some [] else None
              end
  end.
(* ++exists[type]: vttdemux.cc:422-430 *)
Definition count_of (k : kind) (m : metadata_map) : Z := zlen (filter (fun v => kind_eqb (snd v) k) m).
(* the name of an output file: vttdemux.cc:445-491 *)
Definition output_name (base : list Z) (m : metadata_map) (v : Z * kind) : list Z :=
  let name := match snd v with
              | Subtitles => base ++ text "_SUBTITLES"
              | Captions => base ++ text "_CAPTIONS"
              | Descriptions => base ++ text "_DESCRIPTIONS"
              | Metadata => base ++ text "_METADATA"
              | Chapters => base ++ text "_CHAPTERS"
              end in
  let name := if count_of (snd v) m >? 1 then name ++ ll_text 0 (fst v) else name in
  name ++ text ".vtt".
(* the second pass of OpenFiles: vttdemux.cc:437-503.  can_open: what fopen says.  The
   files opened, with their keys, and the result. *)
Fixpoint open_loop (can_open : list Z -> bool) (base : list Z) (all m : metadata_map) : bool * list (Z * list Z) :=
  match m with
  | [] => (true, [])
  | v :: r =>
      let name := output_name base all v in
      if can_open (c_str name) then
        let '(ok, l) := open_loop can_open base all r in (ok, (fst v, c_str name) :: l)
      else (false, [])
  end.
(* OpenFiles: vttdemux.cc:392-506 *)
Definition OpenFiles (can_open : list Z -> bool) (m : metadata_map) (filename : list Z) : bool * list (Z * list Z) :=
  match before_last_dot filename with
  | None => (false, [])
  | Some base => open_loop can_open base m m
  end.
