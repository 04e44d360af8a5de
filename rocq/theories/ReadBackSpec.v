(* What mkvparser must report for metadata written by mkvmuxer: the objects of
   MMuxMeta on the writing side, those of MParMeta on the reading side. *)
From Coq Require Import Floats.SpecFloat.
From Verif Require Import Base Ids MFloat MMuxMeta MParUtil MParMeta MetaSpec.

(* A reader holds the encoding of one element: from pos on it serves bytes that are
   an encoding of the tree, and [start, start + size) is the element's payload. *)
Definition element_at (r : reader) (pos : Z) (id start size : Z) : Prop :=
  ParseElementHeader r pos (-1) = (0, start, id, size).

(* A string as reported where empty elements are skipped: an absent or empty
   string gives a null pointer. *)
Definition read_str (s : option (list Z)) : option (list Z) :=
  match s with Some [] => None | _ => s end.

(* the least number of bytes holding v *)
Definition octets (v : Z) : Z :=
  if v <? 2 ^ 8 then 1 else if v <? 2 ^ 16 then 2 else if v <? 2 ^ 24 then 3 else if v <? 2 ^ 32 then 4 else
  if v <? 2 ^ 40 then 5 else if v <? 2 ^ 48 then 6 else if v <? 2 ^ 56 then 7 else 8.
(* the number whose shortest unsigned encoding is taken for a signed number, as an
   unsigned 64-bit number *)
Definition sign_extended (u : Z) : Z :=
  if u <? 2 ^ (8 * octets u - 1) then u else u + 2 ^ 64 - 2 ^ (8 * octets u).

Definition read_display (d : display) : p_display :=
  mkPD (read_str (di_title d)) (read_str (di_language d)) (read_str (di_country d)).
Definition read_chapter (c : chapter) : p_atom :=
  mkPA (read_str (ch_id c)) (sign_extended (ch_uid c)) (ch_start c) (ch_end c) (map read_display (ch_displays c)).
(* one edition; none without chapters *)
Definition read_chapters (l : list chapter) : list (list p_atom) :=
  match l with [] => [] | _ => [map read_chapter l] end.

Definition read_simple_tag (t : simple_tag) : p_simple_tag := mkPS (read_str (st_name t)) (read_str (st_string t)).
(* tags without simple tags are skipped *)
Definition read_tags (l : list tag) : list (list p_simple_tag) :=
  map (map read_simple_tag) (filter (fun t => match t with [] => false | _ => true end) l).

Definition read_info (i : segment_info) : seg_info :=
  mkPI (si_timecode_scale i)
       (if f64_pos (si_duration i) then f64_of_bits32 (f32_of_f64 (si_duration i)) else f64_of_Z (-1))
       (si_muxing_app i) (si_writing_app i) None.

(* the strings the parser accepts: at most 20000000 bytes *)
Definition short (s : option (list Z)) : Prop := match s with Some b => zlen b <= 20000000 | None => True end.
Definition readable_display (d : display) : Prop := short (di_title d) /\ short (di_language d) /\ short (di_country d).
Definition readable_chapter (c : chapter) : Prop :=
  short (ch_id c) /\ ch_start c < 2 ^ 63 /\ ch_end c < 2 ^ 63 /\ Forall readable_display (ch_displays c).
Definition readable_tag (t : tag) : Prop := Forall (fun x => short (st_name x) /\ short (st_string x)) t.

(* Segment information: a scale of 1 to 2^63-1; the duration, if set, stays finite
   as a binary32 number and is at most 2^63 ns. *)
Definition positive32 (u : Z) : Prop :=
  f32_of_bits u = S754_zero false \/ exists m e, f32_of_bits u = S754_finite false m e.
Definition readable_info (i : segment_info) : Prop :=
  1 <= si_timecode_scale i < 2 ^ 63 /\ short (si_muxing_app i) /\ short (si_writing_app i) /\
  (f64_pos (si_duration i) = true -> positive32 (f32_of_f64 (si_duration i))) /\
  SFltb (f64_of_Z (2 ^ 63 - 1)) (f64_mul (p_duration (read_info i)) (f64_of_Z (si_timecode_scale i))) = false.

(* The EBML header the muxer writes, as the parser reports it. *)
Definition read_header (version : Z) (doc_type : list Z) : ebml_header :=
  mkEH 1 1 4 8 (Some doc_type) version 2.
