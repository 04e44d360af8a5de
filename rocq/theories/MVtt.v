(* Model of the WebVTT parser: webvtt/webvttparser.cc, webvttparser.h.
   A char is its value as unsigned char, 0..255.  A std::string is the list of its
   chars; s[s.length()] is NUL, an index beyond that is undefined.
   Simplification: isdigit of a char above 127 (a negative argument where char is
   signed, undefined in ISO C) is modelled as false. *)
From Verif Require Import Base.

Notation "'olet' x := m 'in' k" := (obind m (fun x => k)) (at level 200, x pattern, m at level 100, k at level 200).

(* webvttparser.cc:20-26 *)
Definition kSPACE : Z := 32.   (* webvttparser.cc:20-26 *)
Definition kTAB : Z := 9.
Definition kLF : Z := 10.
Definition kCR : Z := 13.
Definition kCOLON : Z := 58.
Definition kDOT : Z := 46.

(* ---------- reading characters ---------- *)

(* What successive calls of Reader::GetChar answer (webvttparser.h:19-22): a
   character, or a status other than 0 (negative: error, positive: end of stream).
   After the list the answer is "end of stream". *)
Inductive answer := Ch (c : Z) | St (e : Z).
(* Parser::reader_ and Parser::unget_: webvttparser.h:146-149; -1 = nothing *)
Record pstate := mkP { p_unget : Z; p_in : list answer }.

(* Parser::Parser: webvttparser.cc:108 *)
Definition new_parser (l : list answer) : pstate := mkP (-1) l.

(* Parser::GetChar: webvttparser.cc:261-269; status and character *)
Definition GetChar (p : pstate) : Z * Z * pstate :=
  if p_unget p >=? 0 then (0, p_unget p, mkP (-1) (p_in p))
  else match p_in p with
       | [] => (1, 0, p)
       | Ch c :: r => (0, c, mkP (p_unget p) r)
       | St e :: r => (e, 0, mkP (p_unget p) r)
       end.
(* Parser::UngetChar: webvttparser.cc:271 *)
Definition UngetChar (c : Z) (p : pstate) : pstate := mkP c (p_in p).

(* webvttparser.cc:77 *)
Definition kMaxLineLength : Z := 10000.   (* webvttparser.cc:77 *)

(* the loop of LineReader::GetLine: webvttparser.cc:53-85.  Some status: returned;
   None: the loop was left at a CR. *)
Fixpoint GetLine_loop (fuel : nat) (ln : list Z) (p : pstate) : outcome (option Z * list Z * pstate) :=
  match fuel with
  | O => UB
  | S fuel' =>
      let '(e, c, p) := GetChar p in
      if e <? 0 then Val (Some e, ln, p)
      else if e >? 0 then Val (Some (match ln with [] => 1 | _ => 0 end), ln, p)
      else if c =? kLF then Val (Some 0, ln, p)
      else if c =? kCR then Val (None, ln, p)
      else if (c =? 0xFE) || (c =? 0xFF) then Val (Some (-1), ln, p)
      else if zlen ln >=? kMaxLineLength then Val (Some (-1), ln, p)
      else GetLine_loop fuel' (ln ++ [c]) p
  end.
(* LineReader::GetLine: webvttparser.cc:32-106 *)
Definition GetLine (p : pstate) : outcome (Z * list Z * pstate) :=
  olet x := GetLine_loop (S (S (length (p_in p)))) [] p in
  match x with
  | (Some e, ln, p) => Val (e, ln, p)
  | (None, ln, p) =>
      let '(e, c, p) := GetChar p in
      if e <? 0 then Val (e, ln, p)
      else if e >? 0 then Val (0, ln, p)
      else if negb (c =? kLF) then Val (0, ln, UngetChar c p)
      else Val (0, ln, p)
  end.

(* Parser::ParseBOM: webvttparser.cc:273-301 *)
Definition kBOM : list Z := [0xEF; 0xBB; 0xBF].
Fixpoint ParseBOM_loop (first : bool) (bom : list Z) (p : pstate) : Z * pstate :=
  match bom with
  | [] => (0, p)
  | b :: bom' =>
      let '(e, c, p) := GetChar p in
      if e <? 0 then (e, p)
      else if e >? 0 then (1, p)
      else if negb (c =? b) then (if first then (0, UngetChar c p) else (-1, p))
      else ParseBOM_loop false bom' p
  end.
Definition ParseBOM (p : pstate) : Z * pstate := ParseBOM_loop true kBOM p.

(* webvttparser.cc:125-139 *)
Definition kWebvttId : list Z := [87; 69; 66; 86; 84; 84].
Fixpoint match_id (id : list Z) (p : pstate) : Z * pstate :=
  match id with
  | [] => (0, p)
  | b :: id' =>
      let '(e, c, p) := GetChar p in
      if e <? 0 then (e, p)
      else if e >? 0 then (-1, p)
      else if negb (c =? b) then (-1, p)
      else match_id id' p
  end.

(* Parser::Init: webvttparser.cc:112-176 *)
Definition Init (p : pstate) : outcome (Z * pstate) :=
  let '(e, p) := ParseBOM p in
  if e <? 0 then Val (e, p)
  else if e >? 0 then Val (-1, p)
  else
    let '(e, p) := match_id kWebvttId p in
    if negb (e =? 0) then Val (e, p) else
    olet x := GetLine p in
    let '(e, line, p) := x in
    if e <? 0 then Val (e, p)
    else if e >? 0 then Val (0, p)
    else if match line with [] => false | c :: _ => negb (c =? kSPACE) && negb (c =? kTAB) end then Val (-1, p)
    else
      olet x := GetLine p in
      let '(e, line, p) := x in
      if e <? 0 then Val (e, p)
      else if e >? 0 then Val (0, p)
      else match line with [] => Val (0, p) | _ => Val (-1, p) end.

(* ---------- times ---------- *)

(* struct Time: webvttparser.h:47-67 *)
Record time := mkTime { t_h : Z; t_m : Z; t_s : Z; t_ms : Z }.

(* line[i], e.g. webvttparser.cc:326, 463 *)
Definition at_ (line : list Z) (i : Z) : outcome Z :=
  if (0 <=? i) && (i <? zlen line) then Val (nth (Z.to_nat i) line 0)
  else if i =? zlen line then Val 0 else UB.
(* assignment line[i] = v: webvttparser.cc:316 *)
Definition put (line : list Z) (i v : Z) : list Z :=
  firstn (Z.to_nat i) line ++ v :: skipn (S (Z.to_nat i)) line.

(* isdigit of the C library, used in webvttparser.cc:588, 593 *)
Definition isdigit (c : Z) : bool := (48 <=? c) && (c <=? 57).

(* the loop of Parser::ParseNumber: webvttparser.cc:591-610; result (-1: error)
   and the index *)
Fixpoint number_loop (fuel : nat) (line : list Z) (idx result : Z) : outcome (Z * Z) :=
  match fuel with
  | O => UB
  | S fuel' =>
      olet c := at_ line idx in
      if negb (isdigit c) then Val (result, idx)
      else
        let i := c - 48 in
        if result >? INT_MAX / 10 then Val (-1, idx)
        else if result * 10 >? INT_MAX - i then Val (-1, idx)
        else number_loop fuel' line (idx + 1) (result * 10 + i)
  end.
(* Parser::ParseNumber: webvttparser.cc:578-611 *)
Definition ParseNumber (line : list Z) (idx : Z) : outcome (Z * Z) :=
  if idx >=? zlen line then Val (-1, idx) else
  olet c := at_ line idx in
  if negb (isdigit c) then Val (-1, idx) else number_loop (S (length line)) line idx 0.

(* webvttparser.cc:365-369 *)
Fixpoint skip_blank (fuel : nat) (line : list Z) (idx : Z) : outcome Z :=
  match fuel with
  | O => UB
  | S fuel' =>
      olet c := at_ line idx in
      if c =? 0 then Val idx
      else if negb (c =? kSPACE) && negb (c =? kTAB) then Val idx
      else skip_blank fuel' line (idx + 1)
  end.

(* milliseconds and the check for junk: webvttparser.cc:463-503 *)
Definition parse_ms (line : list Z) (idx : Z) (t : time) : outcome (Z * Z * time) :=
  olet c := at_ line idx in
  olet x := (if negb (c =? kDOT) then Val (0, idx, 0)
             else olet y := ParseNumber line (idx + 1) in
                  let '(val, idx) := y in
                  if val <? 0 then Val (val, idx, t_ms t)
                  else if val >=? 1000 then Val (-1, idx, t_ms t)
                  else Val (0, idx, if val <? 10 then val * 100 else if val <? 100 then val * 10 else val)) in
  let '(e, idx, ms) := x in
  let t := mkTime (t_h t) (t_m t) (t_s t) ms in
  if negb (e =? 0) then Val (e, idx, t) else
  olet c := at_ line idx in
  if negb (c =? 0) && negb (c =? kSPACE) && negb (c =? kTAB) then Val (-1, idx, t) else Val (0, idx, t).

(* Parser::ParseTime: webvttparser.cc:350-504; status, index, time (t is the value
   of *time before the call) *)
Definition ParseTime (line : list Z) (idx : Z) (t : time) : outcome (Z * Z * time) :=
  if idx >=? zlen line then Val (-1, idx, t) else
  olet idx := skip_blank (S (length line)) line idx in
  olet x := ParseNumber line idx in
  let '(val, idx) := x in
  if val <? 0 then Val (val, idx, t) else
  olet c := at_ line idx in
  if c =? kCOLON then
    let first_val := val in
    olet x := ParseNumber line (idx + 1) in
    let '(val, idx) := x in
    if val <? 0 then Val (val, idx, t)
    else if val >=? 60 then Val (-1, idx, t)
    else
      olet c := at_ line idx in
      if c =? kCOLON then
        let t := mkTime first_val val (t_s t) (t_ms t) in
        olet x := ParseNumber line (idx + 1) in
        let '(val, idx) := x in
        if val <? 0 then Val (val, idx, t)
        else if val >=? 60 then Val (-1, idx, t)
        else parse_ms line idx (mkTime (t_h t) (t_m t) val (t_ms t))
      else if first_val >=? 60 then Val (-1, idx, t)
      else parse_ms line idx (mkTime 0 first_val val (t_ms t))
  else
    let minutes := val / 60 in
    let seconds := val - minutes * 60 in
    let hours := minutes / 60 in
    parse_ms line idx (mkTime hours (minutes - hours * 60) seconds (t_ms t)).

(* ---------- settings ---------- *)

(* struct Setting: webvttparser.h:69-72 *)
Record setting := mkSetting { set_name : list Z; set_value : list Z }.

(* webvttparser.cc:518-528: true = end of line *)
Fixpoint settings_blank (fuel : nat) (line : list Z) (idx : Z) : outcome (bool * Z) :=
  match fuel with
  | O => UB
  | S fuel' =>
      olet c := at_ line idx in
      if c =? 0 then Val (true, idx)
      else if negb (c =? kSPACE) && negb (c =? kTAB) then Val (false, idx)
      else settings_blank fuel' line (idx + 1)
  end.
(* webvttparser.cc:538-550: false = error *)
Fixpoint settings_name (fuel : nat) (line : list Z) (idx : Z) (name : list Z) : outcome (bool * Z * list Z) :=
  match fuel with
  | O => UB
  | S fuel' =>
      olet c := at_ line idx in
      if c =? kCOLON then Val (true, idx, name)
      else if (c =? 0) || (c =? kSPACE) || (c =? kTAB) then Val (false, idx, name)
      else settings_name fuel' line (idx + 1) (name ++ [c])
  end.
(* webvttparser.cc:559-571: false = error *)
Fixpoint settings_value (fuel : nat) (line : list Z) (idx : Z) (value : list Z) : outcome (bool * Z * list Z) :=
  match fuel with
  | O => UB
  | S fuel' =>
      olet c := at_ line idx in
      if (c =? 0) || (c =? kSPACE) || (c =? kTAB) then Val (true, idx, value)
      else if c =? kCOLON then Val (false, idx, value)
      else settings_value fuel' line (idx + 1) (value ++ [c])
  end.
(* webvttparser.cc:513-575 *)
Fixpoint settings_loop (fuel : nat) (line : list Z) (idx : Z) (acc : list setting) : outcome (Z * list setting) :=
  match fuel with
  | O => UB
  | S fuel' =>
      let n := S (length line) in
      olet x := settings_blank n line idx in
      let '(at_end, idx) := x in
      if (at_end : bool) then Val (0, acc) else
      olet x := settings_name n line idx [] in
      let '(ok, idx, name) := x in
      if negb ok then Val (-1, acc ++ [mkSetting name []])
      else match name with
           | [] => Val (-1, acc ++ [mkSetting [] []])
           | _ =>
               olet x := settings_value n line (idx + 1) [] in
               let '(ok, idx, value) := x in
               if negb ok then Val (-1, acc ++ [mkSetting name value])
               else match value with
                    | [] => Val (-1, acc ++ [mkSetting name []])
                    | _ => settings_loop fuel' line idx (acc ++ [mkSetting name value])
                    end
           end
  end.
(* Parser::ParseSettings: webvttparser.cc:506-576 *)
Definition ParseSettings (line : list Z) (idx : Z) : outcome (Z * list setting) :=
  if idx >=? zlen line then Val (-1, []) else settings_loop (S (length line)) line idx [].

(* ---------- cues ---------- *)

(* struct Cue: webvttparser.h:74-85 *)
Record cue := mkCueV { q_id : list Z; q_start : time; q_stop : time; q_settings : list setting; q_payload : list (list Z) }.

(* junk between the start time and the arrow: webvttparser.cc:326-330; false = error *)
Fixpoint skip_junk (fuel : nat) (line : list Z) (idx : Z) : outcome bool :=
  match fuel with
  | O => UB
  | S fuel' =>
      olet c := at_ line idx in
      if c =? 0 then Val true
      else if negb (c =? kSPACE) && negb (c =? kTAB) then Val false
      else skip_junk fuel' line (idx + 1)
  end.

(* Parser::ParseTimingsLine: webvttparser.cc:303-348; the cue holds the values
   before the call and receives the new ones *)
Definition ParseTimingsLine (line : list Z) (arrow : Z) (q : cue) : outcome (Z * cue) :=
  if arrow >=? zlen line then Val (-1, q) else
  let line := put line arrow 0 in
  olet x := ParseTime line 0 (q_start q) in
  let '(e, idx, t) := x in
  let q := mkCueV (q_id q) t (q_stop q) (q_settings q) (q_payload q) in
  if negb (e =? 0) then Val (e, q) else
  olet ok := skip_junk (S (length line)) line idx in
  if negb ok then Val (-1, q) else
  let line := line ++ [0] in
  olet x := ParseTime line (arrow + 3) (q_stop q) in
  let '(e, idx, t) := x in
  let q := mkCueV (q_id q) (q_start q) t (q_settings q) (q_payload q) in
  if negb (e =? 0) then Val (e, q) else
  olet x := ParseSettings line idx in
  let '(e, ss) := x in
  Val (e, mkCueV (q_id q) (q_start q) (q_stop q) ss (q_payload q)).

(* std::string::find("-->"): webvttparser.cc:202-203, 225 *)
Definition kArrow : list Z := [45; 45; 62].
Fixpoint is_prefix (p l : list Z) : bool :=
  match p, l with
  | [], _ => true
  | x :: p', y :: l' => (x =? y) && is_prefix p' l'
  | _ :: _, [] => false
  end.
Fixpoint find_from (pat l : list Z) (i : Z) : option Z :=
  if is_prefix pat l then Some i
  else match l with [] => None | _ :: r => find_from pat r (i + 1) end.
Definition find_arrow (line : list Z) : option Z := find_from kArrow line 0.

(* the first non-blank line: webvttparser.cc:187-195; status 0 and the line *)
Fixpoint first_line (fuel : nat) (p : pstate) : outcome (Z * list Z * pstate) :=
  match fuel with
  | O => UB
  | S fuel' =>
      olet x := GetLine p in
      let '(e, line, p) := x in
      if negb (e =? 0) then Val (e, line, p)
      else match line with [] => first_line fuel' p | _ => Val (0, line, p) end
  end.
(* webvttparser.cc:243-253 *)
Fixpoint payload_loop (fuel : nat) (acc : list (list Z)) (p : pstate) : outcome (Z * list (list Z) * pstate) :=
  match fuel with
  | O => UB
  | S fuel' =>
      olet x := GetLine p in
      let '(e, line, p) := x in
      if e <? 0 then Val (e, acc, p)
      else match line with [] => Val (0, acc, p) | _ => payload_loop fuel' (acc ++ [line]) p end
  end.

(* bound for the loops of Parse (webvttparser.cc:178-259): every turn reads a line *)
Definition fuel_of (p : pstate) : nat := S (S (length (p_in p))).

(* Parser::Parse: webvttparser.cc:178-259; q is the value of *cue before the call *)
Definition Parse (p : pstate) (q : cue) : outcome (Z * cue * pstate) :=
  olet x := first_line (fuel_of p) p in
  let '(e, line, p) := x in
  if negb (e =? 0) then Val (e, q, p) else
  olet x := (match find_arrow line with
             | Some a => Val (0, line, a, mkCueV [] (q_start q) (q_stop q) (q_settings q) (q_payload q), p)
             | None =>
                 let q := mkCueV line (q_start q) (q_stop q) (q_settings q) (q_payload q) in
                 olet x := GetLine p in
                 let '(e, line, p) := x in
                 if e <? 0 then Val (e, line, 0, q, p)
                 else if e >? 0 then Val (-1, line, 0, q, p)
                 else match find_arrow line with
                      | None => Val (-1, line, 0, q, p)
                      | Some a => Val (0, line, a, q, p)
                      end
             end) in
  let '(e, line, a, q, p) := x in
  if negb (e =? 0) then Val (e, q, p) else
  olet x := ParseTimingsLine line a q in
  let '(e, q) := x in
  if negb (e =? 0) then Val (e, q, p) else
  olet x := payload_loop (fuel_of p) [] p in
  let '(e, payload, p) := x in
  let q := mkCueV (q_id q) (q_start q) (q_stop q) (q_settings q) payload in
  if negb (e =? 0) then Val (e, q, p)
  else match payload with [] => Val (-1, q, p) | _ => Val (0, q, p) end.

(* ---------- Time ---------- *)

(* Time::operator==, <: webvttparser.cc:613-646 *)
Definition time_eq (a b : time) : bool :=
  if negb (t_h a =? t_h b) then false
  else if negb (t_m a =? t_m b) then false
  else if negb (t_s a =? t_s b) then false
  else t_ms a =? t_ms b.
Definition time_lt (a b : time) : bool :=
  if t_h a <? t_h b then true
  else if t_h a >? t_h b then false
  else if t_m a <? t_m b then true
  else if t_m a >? t_m b then false
  else if t_s a <? t_s b then true
  else if t_s a >? t_s b then false
  else t_ms a <? t_ms b.
(* Time::operator>, <=, >=: webvttparser.cc:648-652 *)
Definition time_gt (a b : time) : bool := time_lt b a.
Definition time_le (a b : time) : bool := negb (time_gt a b).
Definition time_ge (a b : time) : bool := negb (time_lt a b).

(* a signed 64-bit or 32-bit result; undefined outside the range *)
Definition s64 (v : Z) : outcome Z := if (- 2 ^ 63 <=? v) && (v <? 2 ^ 63) then Val v else UB.
Definition s32 (v : Z) : outcome Z := if (- 2 ^ 31 <=? v) && (v <? 2 ^ 31) then Val v else UB.
(* static_cast<int>: webvttparser.cc:672-673 (wraps) *)
Definition cast_int (v : Z) : Z := let w := v mod 2 ^ 32 in if w <? 2 ^ 31 then w else w - 2 ^ 32.

(* Time::presentation() const: webvttparser.cc:654-660 *)
Definition presentation (t : time) : outcome Z :=
  olet h := s64 (1000 * 3600 * t_h t) in
  olet m := s64 (1000 * 60 * t_m t) in
  olet s := s64 (1000 * t_s t) in
  olet a := s64 (h + m) in
  olet b := s64 (a + s) in
  s64 (b + t_ms t).

(* Time::presentation(presentation_t): webvttparser.cc:662-682; 1000 * seconds is
   an int multiplication *)
Definition of_presentation (d : Z) : outcome time :=
  if d <? 0 then Val (mkTime 0 0 0 0) else
  let seconds := cast_int (Z.quot d 1000) in
  olet p := s32 (1000 * seconds) in
  olet r := s64 (d - p) in
  let milliseconds := cast_int r in
  let minutes := Z.quot seconds 60 in
  let seconds := seconds - 60 * minutes in
  let hours := Z.quot minutes 60 in
  Val (mkTime hours (minutes - 60 * hours) seconds milliseconds).

(* Time::operator+=, +: webvttparser.cc:684-695 *)
Definition time_add (t : time) (rhs : Z) : outcome time :=
  olet d := presentation t in
  olet dd := s64 (d + rhs) in
  of_presentation dd.
(* Time::operator-=: webvttparser.cc:697 *)
Definition time_sub (t : time) (d : Z) : outcome time := olet n := s64 (- d) in time_add t n.
(* Time::operator-: webvttparser.cc:699-704 *)
Definition time_diff (a b : time) : outcome Z :=
  olet r := presentation b in
  olet l := presentation a in
  s64 (l - r).
