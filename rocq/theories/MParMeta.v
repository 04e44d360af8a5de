(* Model of mkvparser's metadata parsers: the EBML header, segment information,
   chapters and tags (mkvparser/mkvparser.cc).  Failing memory allocation is not
   modelled. *)
From Coq Require Import Floats.SpecFloat.
From Verif Require Import Base MFloat Ids MMuxMeta MParUtil.

(* ---------- the loop all of them share ---------- *)

(* how a parser treats an element without payload: as any other; skips it
   ("continue" before the payload is consumed); or gives up: mkvparser.cc:3932-3941,
   3268-3269, 600-601 *)
Inductive zero_rule := ZPass | ZSkip | ZFail.

(* what the body of the loop does with one element: go on, or return a status; e.g.
   mkvparser.cc:3270-3282 *)
Inductive step (S : Type) := Next (s : S) | Ret (status : Z) (s : S).
Arguments Next {S}. Arguments Ret {S}.

(* while (pos < stop) { ParseElementHeader(...); if (status < 0) return status;
   <zero_rule>; <h>; pos += size; if (pos > stop) return E_FILE_FORMAT_INVALID; }
   if (pos != stop) return E_FILE_FORMAT_INVALID; return 0;
   e.g. mkvparser.cc:3260-3285, 3376-3401, 3509-3560, 3662-3697.  Where the code
   leaves out one of the last two checks, the other one decides the same way
   (mkvparser.cc:592-647 and 4175-4193).  pos + size is a
   sum of signed numbers: UB when it overflows.  UB also stands for running out of
   fuel: a turn consumes at least two bytes, so this does not happen
   (PParMeta.walk_returns). *)
Fixpoint walk {S : Type} (fuel : nat) (r : reader) (zr : zero_rule)
    (h : Z -> Z -> Z -> S -> outcome (step S)) (pos stop : Z) (s : S) : outcome (Z * S) :=
  if stop <=? pos then Val (if pos =? stop then 0 else E_FILE_FORMAT_INVALID, s)
  else
    match fuel with
    | O => UB
    | Datatypes.S f =>
        let '(status, pos, id, size) := ParseElementHeader r pos stop in
        if status <? 0 then Val (status, s)
        else if (size =? 0) && (match zr with ZSkip => true | _ => false end) then walk f r zr h pos stop s
        else if (size =? 0) && (match zr with ZFail => true | _ => false end) then Val (E_FILE_FORMAT_INVALID, s)
        else
          match h id pos size s with
          | UB => UB
          | Val (Ret status s) => Val (status, s)
          | Val (Next s) =>
              if pos + size >? LLONG_MAX then UB
              else if pos + size >? stop then Val (E_FILE_FORMAT_INVALID, s)
              else walk f r zr h (pos + size) stop s
          end
    end.

(* the loop over the payload [pos, pos + size); stop = pos + size may overflow,
   e.g. mkvparser.cc:3258, 3374, 3507, 3660 *)
Definition walk_payload {S : Type} (r : reader) (zr : zero_rule)
    (h : Z -> Z -> Z -> S -> outcome (step S)) (pos size : Z) (s : S) : outcome (Z * S) :=
  if pos + size >? LLONG_MAX then UB else walk (Z.to_nat size) r zr h pos (pos + size) s.

(* if (status) return status; e.g. mkvparser.cc:627-630 *)
Definition on_status {S : Type} (status : Z) (s : S) : outcome (step S) :=
  if status =? 0 then Val (Next s) else Val (Ret status s).
(* if (status < 0) return status; e.g. mkvparser.cc:3274-3277 *)
Definition on_negative {S : Type} (status : Z) (s : S) : outcome (step S) :=
  if status <? 0 then Val (Ret status s) else Val (Next s).
(* x = UnserializeUInt(...); if (<bad> x) return E_FILE_FORMAT_INVALID;
   e.g. mkvparser.cc:603-607 *)
Definition uint_field {S : Type} (r : reader) (pos size : Z) (bad : Z -> bool) (set : Z -> S) : outcome (step S) :=
  match UnserializeUInt r pos size with
  | UB => UB
  | Val v => if bad v then Val (Ret E_FILE_FORMAT_INVALID (set v)) else Val (Next (set v))
  end.
(* status = UnserializeString(..., x); if (status) return status;
   e.g. mkvparser.cc:627-630 *)
Definition string_field {S : Type} (r : reader) (pos size : Z) (set : option (list Z) -> S) : outcome (step S) :=
  let '(status, str) := UnserializeString r pos size in on_status status (set str).

(* ---------- doubles ---------- *)

(* float to double is exact; the result is in the canonical form of binary64 *)
Definition f64_of_bits32 (u : Z) : f64 :=
  match f32_of_bits u with
  | S754_finite s m e => binary_round 53 1024 s m e
  | x => x
  end.
(* the value denoted by a binary64 bit pattern *)
Definition f64_of_bits64 (u : Z) : f64 :=
  let s := u / 2 ^ 63 mod 2 =? 1 in
  let e := u / 2 ^ 52 mod 2048 in
  let m := u mod 2 ^ 52 in
  if e =? 2047 then (if m =? 0 then S754_infinity s else S754_nan)
  else if e =? 0 then match m with Zpos p => S754_finite s p (-1074) | _ => S754_zero s end
  else match m + 2 ^ 52 with Zpos p => S754_finite s p (e - 1075) | _ => S754_nan end.
(* UnserializeFloat's result argument: mkvparser.cc:232-290.  When the call fails
   before the payload is read, the argument keeps its value (old). *)
Definition ParseFloat (r : reader) (pos size : Z) (old : f64) : outcome (Z * f64) :=
  match UnserializeFloat r pos size with
  | UB => UB
  | Val (status, bits) =>
      Val (status, if (status =? 0) || ((size =? 4) && nonfinite32 bits) || ((size =? 8) && nonfinite64 bits)
                   then (if size =? 4 then f64_of_bits32 bits else f64_of_bits64 bits) else old)
  end.

(* ---------- EBML header ---------- *)

(* EBMLHeader: mkvparser.h:52-65 *)
Record ebml_header := mkEH {
  eh_version : Z; eh_read_version : Z; eh_max_id_length : Z; eh_max_size_length : Z;
  eh_doc_type : option (list Z); eh_doc_type_version : Z; eh_doc_type_read_version : Z
}.
(* EBMLHeader::Init: mkvparser.cc:496-509 *)
Definition eh_init : ebml_header := mkEH 1 1 4 8 None 1 1.

(* mkvparser.cc:525-542: look for 0x1A.  inl: return that status; inr: pos. *)
Fixpoint scan_ebml (fuel : nat) (r : reader) (pos max : Z) : Z + Z :=
  match fuel with
  | O => inr pos
  | S f =>
      if pos <? max then
        match r_byte r pos with
        | inl status => if status <? 0 then inl status else inl E_BUFFER_NOT_FULL
        | inr b => if b =? 0x1A then inr pos else scan_ebml f r (pos + 1) max
        end
      else inr pos
  end.

(* mkvparser.cc:603-641 *)
Definition ebml_element (r : reader) (id pos size : Z) (e : ebml_header) : outcome (step ebml_header) :=
  let '(mkEH v rv il sl dt dv drv) := e in
  let bad x := x <=? 0 in
  if id =? kMkvEBMLVersion then uint_field r pos size bad (fun x => mkEH x rv il sl dt dv drv)
  else if id =? kMkvEBMLReadVersion then uint_field r pos size bad (fun x => mkEH v x il sl dt dv drv)
  else if id =? kMkvEBMLMaxIDLength then uint_field r pos size bad (fun x => mkEH v rv x sl dt dv drv)
  else if id =? kMkvEBMLMaxSizeLength then uint_field r pos size bad (fun x => mkEH v rv il x dt dv drv)
  else if id =? kMkvDocType then
    match dt with
    | Some _ => Val (Ret E_FILE_FORMAT_INVALID e)
    | None => string_field r pos size (fun x => mkEH v rv il sl x dv drv)
    end
  else if id =? kMkvDocTypeVersion then uint_field r pos size bad (fun x => mkEH v rv il sl dt x drv)
  else if id =? kMkvDocTypeReadVersion then uint_field r pos size bad (fun x => mkEH v rv il sl dt dv x)
  else Val (Next e).

(* EBMLHeader::Parse: mkvparser.cc:511-659; returns (status, pos, header).  The
   position is the reference argument's value on return (on errors inside the
   payload it is not modelled: the start of the payload is returned).  Length()
   does not fail in the model. *)
Definition EBMLHeader_Parse (r : reader) : outcome (Z * Z * ebml_header) :=
  let total := r_total r in
  let available := r_avail r in
  let max := if available >=? 1024 then 1024 else available in
  match scan_ebml 1024 r 0 max with
  | inl status => Val (status, 0, eh_init)
  | inr pos =>
      let '(ebml_id, len) := ReadID r pos in
      if ebml_id =? E_BUFFER_NOT_FULL then Val (E_BUFFER_NOT_FULL, pos, eh_init)
      else if negb (len =? 4) || negb (ebml_id =? kMkvEBML) then Val (E_FILE_FORMAT_INVALID, pos, eh_init)
      else
        let pos := pos + 4 in
        let '(result, len) := GetUIntLength r pos in
        if result <? 0 then Val (E_FILE_FORMAT_INVALID, pos, eh_init)
        else if result >? 0 then Val (E_BUFFER_NOT_FULL, pos, eh_init)
        else if (len <? 1) || (len >? 8) then Val (E_FILE_FORMAT_INVALID, pos, eh_init)
        else if (total >=? 0) && (total - pos <? len) then Val (E_FILE_FORMAT_INVALID, pos, eh_init)
        else if available - pos <? len then Val (pos + len, pos, eh_init)
        else
          let '(result, len) := ReadUInt r pos in
          if result <? 0 then Val (result, pos, eh_init)
          else
            let pos := pos + len in
            if (total >=? 0) && (total - pos <? result) then Val (E_FILE_FORMAT_INVALID, pos, eh_init)
            else if available - pos <? result then Val (pos + result, pos, eh_init)
            else
              match walk_payload r ZFail (ebml_element r) pos result eh_init with
              | UB => UB
              | Val (status, e) =>
                  if negb (status =? 0) then Val (status, pos, e)
                  else
                    let pos := pos + result in
                    if (match eh_doc_type e with None => true | _ => false end) ||
                       (eh_doc_type_read_version e <=? 0) || (eh_doc_type_version e <=? 0)
                    then Val (E_FILE_FORMAT_INVALID, pos, e)
                    else if (eh_max_id_length e <=? 0) || (eh_max_id_length e >? 4) ||
                            (eh_max_size_length e <=? 0) || (eh_max_size_length e >? 8)
                    then Val (E_FILE_FORMAT_INVALID, pos, e)
                    else Val (0, pos, e)
              end
  end.

(* ---------- segment information ---------- *)

(* SegmentInfo: mkvparser.h:798-828 *)
Record seg_info := mkPI {
  p_scale : Z; p_duration : f64;
  p_muxing_app : option (list Z); p_writing_app : option (list Z); p_title : option (list Z)
}.
(* mkvparser.cc:3997-3998; the pointers are NULL by 3969-3971 *)
Definition si_init : seg_info := mkPI 1000000 (f64_of_Z (-1)) None None None.
Definition f64_neg (x : f64) : bool := SFltb x (S754_zero false).

(* mkvparser.cc:4008-4038 *)
Definition info_element (r : reader) (id pos size : Z) (i : seg_info) : outcome (step seg_info) :=
  let '(mkPI sc du mu wr ti) := i in
  if id =? kMkvTimecodeScale then uint_field r pos size (fun x => x <=? 0) (fun x => mkPI x du mu wr ti)
  else if id =? kMkvDuration then
    match ParseFloat r pos size du with
    | UB => UB
    | Val (status, d) =>
        if status <? 0 then Val (Ret status (mkPI sc d mu wr ti))
        else if f64_neg d then Val (Ret E_FILE_FORMAT_INVALID (mkPI sc d mu wr ti))
        else Val (Next (mkPI sc d mu wr ti))
    end
  else if id =? kMkvMuxingApp then string_field r pos size (fun x => mkPI sc du x wr ti)
  else if id =? kMkvWritingApp then string_field r pos size (fun x => mkPI sc du mu x ti)
  else if id =? kMkvTitle then string_field r pos size (fun x => mkPI sc du mu wr x)
  else Val (Next i).

(* SegmentInfo::Parse: mkvparser.cc:3987-4054.  The check against LLONG_MAX comes
   before pos != stop, which cannot fail any more there. *)
Definition SegmentInfo_Parse (r : reader) (start size : Z) : outcome (Z * seg_info) :=
  match walk_payload r ZPass (info_element r) start size si_init with
  | UB => UB
  | Val (status, i) =>
      if negb (status =? 0) then Val (status, i)
      else if SFltb (f64_of_Z LLONG_MAX) (f64_mul (p_duration i) (f64_of_Z (p_scale i)))
      then Val (E_FILE_FORMAT_INVALID, i)
      else Val (0, i)
  end.

(* SegmentInfo::GetDuration: mkvparser.cc:4058-4068.  Converting a double outside
   the range of long long is undefined. *)
Definition GetDuration (i : seg_info) : outcome Z :=
  if f64_neg (p_duration i) then Val (-1)
  else f64_to_s64 (f64_mul (p_duration i) (f64_of_Z (p_scale i))).

(* ---------- chapters ---------- *)

(* Chapters::Display: mkvparser.h:619-640; Init: mkvparser.cc:3635-3639 *)
Record p_display := mkPD { pd_string : option (list Z); pd_language : option (list Z); pd_country : option (list Z) }.
Definition pd_init : p_display := mkPD None None None.
(* mkvparser.cc:3673-3688 *)
Definition display_element (r : reader) (id pos size : Z) (d : p_display) : outcome (step p_display) :=
  let '(mkPD s l c) := d in
  if id =? kMkvChapString then string_field r pos size (fun x => mkPD x l c)
  else if id =? kMkvChapLanguage then string_field r pos size (fun x => mkPD s x c)
  else if id =? kMkvChapCountry then string_field r pos size (fun x => mkPD s l x)
  else Val (Next d).
(* Chapters::Display::Parse: mkvparser.cc:3658-3698 *)
Definition Display_Parse (r : reader) (pos size : Z) : outcome (Z * p_display) :=
  walk_payload r ZSkip (display_element r) pos size pd_init.

(* Chapters::Atom: mkvparser.h:642-680; Init: mkvparser.cc:3469-3478.  The array of
   displays (3603-3623) is a list. *)
Record p_atom := mkPA {
  pa_string_uid : option (list Z); pa_uid : Z; pa_start : Z; pa_stop : Z; pa_displays : list p_display
}.
Definition pa_init : p_atom := mkPA None 0 (-1) (-1) [].
(* mkvparser.cc:3520-3552 and ParseDisplay: 3592-3601.  static_cast<long> of a
   negative status is the identity on LP64. *)
Definition atom_element (r : reader) (id pos size : Z) (a : p_atom) : outcome (step p_atom) :=
  let '(mkPA su u b e ds) := a in
  if id =? kMkvChapterDisplay then
    match Display_Parse r pos size with
    | UB => UB
    | Val (status, d) => on_negative status (mkPA su u b e (ds ++ [d]))
    end
  else if id =? kMkvChapterStringUID then
    let '(status, x) := UnserializeString r pos size in on_negative status (mkPA x u b e ds)
  else if id =? kMkvChapterUID then
    match UnserializeInt r pos size with
    | UB => UB
    | Val (status, v) => if status <? 0 then Val (Ret status a) else Val (Next (mkPA su (wrap64 v) b e ds))
    end
  else if id =? kMkvChapterTimeStart then
    match UnserializeUInt r pos size with
    | UB => UB
    | Val v => if v <? 0 then Val (Ret v a) else Val (Next (mkPA su u v e ds))
    end
  else if id =? kMkvChapterTimeEnd then
    match UnserializeUInt r pos size with
    | UB => UB
    | Val v => if v <? 0 then Val (Ret v a) else Val (Next (mkPA su u b v ds))
    end
  else Val (Next a).
(* Chapters::Atom::Parse: mkvparser.cc:3506-3561 *)
Definition Atom_Parse (r : reader) (pos size : Z) : outcome (Z * p_atom) :=
  walk_payload r ZSkip (atom_element r) pos size pa_init.

(* mkvparser.cc:3387-3392 and ParseAtom: 3404-3413.  An edition is its list of
   atoms (the array: 3415-3435). *)
Definition edition_element (r : reader) (id pos size : Z) (l : list p_atom) : outcome (step (list p_atom)) :=
  if id =? kMkvChapterAtom then
    match Atom_Parse r pos size with
    | UB => UB
    | Val (status, a) => on_negative status (l ++ [a])
    end
  else Val (Next l).
(* Chapters::Edition::Parse: mkvparser.cc:3372-3402 *)
Definition Edition_Parse (r : reader) (pos size : Z) : outcome (Z * list p_atom) :=
  walk_payload r ZSkip (edition_element r) pos size [].

(* mkvparser.cc:3271-3276 and ParseEdition: 3322-3330 *)
Definition chapters_element (r : reader) (id pos size : Z) (l : list (list p_atom)) : outcome (step (list (list p_atom))) :=
  if id =? kMkvEditionEntry then
    match Edition_Parse r pos size with
    | UB => UB
    | Val (status, e) => on_negative status (l ++ [e])
    end
  else Val (Next l).
(* Chapters::Parse: mkvparser.cc:3254-3286 *)
Definition Chapters_Parse (r : reader) (pos size : Z) : outcome (Z * list (list p_atom)) :=
  walk_payload r ZSkip (chapters_element r) pos size [].

(* ---------- tags ---------- *)

(* Tags::SimpleTag: mkvparser.h:740-759; Init: mkvparser.cc:3910-3913 *)
Record p_simple_tag := mkPS { ps_name : option (list Z); ps_string : option (list Z) }.
Definition ps_init : p_simple_tag := mkPS None None.
(* mkvparser.cc:3943-3953 *)
Definition simple_tag_element (r : reader) (id pos size : Z) (t : p_simple_tag) : outcome (step p_simple_tag) :=
  let '(mkPS n s) := t in
  if id =? kMkvTagName then string_field r pos size (fun x => mkPS x s)
  else if id =? kMkvTagString then string_field r pos size (fun x => mkPS n x)
  else Val (Next t).
(* Tags::SimpleTag::Parse: mkvparser.cc:3928-3963 *)
Definition SimpleTag_Parse (r : reader) (pos size : Z) : outcome (Z * p_simple_tag) :=
  walk_payload r ZSkip (simple_tag_element r) pos size ps_init.

(* mkvparser.cc:3852-3857 and ParseSimpleTag: 3869-3878.  A tag is its list of
   simple tags. *)
Definition tag_element (r : reader) (id pos size : Z) (l : list p_simple_tag) : outcome (step (list p_simple_tag)) :=
  if id =? kMkvSimpleTag then
    match SimpleTag_Parse r pos size with
    | UB => UB
    | Val (status, t) => on_negative status (l ++ [t])
    end
  else Val (Next l).
(* Tags::Tag::Parse: mkvparser.cc:3838-3867 *)
Definition Tag_Parse (r : reader) (pos size : Z) : outcome (Z * list p_simple_tag) :=
  walk_payload r ZSkip (tag_element r) pos size [].

(* mkvparser.cc:3736-3741 and ParseTag: 3788-3796 *)
Definition tags_element (r : reader) (id pos size : Z) (l : list (list p_simple_tag)) : outcome (step (list (list p_simple_tag))) :=
  if id =? kMkvTag then
    match Tag_Parse r pos size with
    | UB => UB
    | Val (status, t) => on_negative status (l ++ [t])
    end
  else Val (Next l).
(* Tags::Parse: mkvparser.cc:3719-3752 *)
Definition Tags_Parse (r : reader) (pos size : Z) : outcome (Z * list (list p_simple_tag)) :=
  walk_payload r ZSkip (tags_element r) pos size [].
