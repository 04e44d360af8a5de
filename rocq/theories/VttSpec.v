(* What a WebVTT text means: lines, time stamps, cues.  Independent of the parser
   model except for the result records time, setting and cue. *)
From Verif Require Import Base MVtt.

(* ---------- lines ---------- *)

Definition no_eol (l : list Z) : Prop := Forall (fun c => c <> 10 /\ c <> 13) l.

(* the text txt consists of the lines ls, each ended by LF, CR or CR LF, the last
   one perhaps by the end of the text *)
Inductive text_lines : list Z -> list (list Z) -> Prop :=
| tl_end : text_lines [] []
| tl_last : forall l, l <> [] -> no_eol l -> text_lines l [l]
| tl_lf : forall l r ls, no_eol l -> text_lines r ls -> text_lines (l ++ [10] ++ r) (l :: ls)
| tl_crlf : forall l r ls, no_eol l -> text_lines r ls -> text_lines (l ++ [13; 10] ++ r) (l :: ls)
| tl_cr : forall l r ls, no_eol l -> (forall x, r <> 10 :: x) -> text_lines r ls -> text_lines (l ++ [13] ++ r) (l :: ls).

(* characters the parser takes: not FE, FF (not UTF-8); lines of up to 10000 *)
Definition plain_char (c : Z) : Prop := 0 <= c < 254.
Definition plain_line (l : list Z) : Prop := Forall plain_char l /\ zlen l <= 10000.

(* ---------- time stamps ---------- *)

Definition blank (c : Z) : Prop := c = 32 \/ c = 9.
Definition digit (c : Z) : Prop := 48 <= c <= 57.
Definition decimal (ds : list Z) : Z := fold_left (fun a c => 10 * a + (c - 48)) ds 0.
(* the digits ds denote n, which fits an int *)
Definition number (ds : list Z) (n : Z) : Prop :=
  ds <> [] /\ Forall digit ds /\ decimal ds = n /\ n <= 2147483647.

(* HH:MM:SS, MM:SS or a number of seconds *)
Inductive clock : list Z -> Z -> Z -> Z -> Prop :=
| ck_hms : forall a b c h m s, number a h -> number b m -> number c s -> m < 60 -> s < 60 ->
    clock (a ++ [58] ++ b ++ [58] ++ c) h m s
| ck_ms : forall a b m s, number a m -> number b s -> m < 60 -> s < 60 -> clock (a ++ [58] ++ b) 0 m s
| ck_s : forall a n, number a n -> clock a (n / 3600) (n / 60 mod 60) (n mod 60).

(* a time stamp: a clock time and perhaps .ttt.  The rule for the fraction is a
   parameter. *)
Inductive stamp (ms_of : list Z -> Z -> Prop) : list Z -> time -> Prop :=
| st_whole : forall t h m s, clock t h m s -> stamp ms_of t (mkTime h m s 0)
| st_frac : forall t f h m s ms, clock t h m s -> ms_of f ms -> stamp ms_of (t ++ [46] ++ f) (mkTime h m s ms).

(* the WebVTT rule: exactly three digits, thousandths of a second *)
Definition thousandths (f : list Z) (ms : Z) : Prop := length f = 3%nat /\ Forall digit f /\ ms = decimal f.
(* the rule the parser follows: any number of digits, value below 1000; values
   below 10 count as tenths, values below 100 as hundredths *)
Definition scaled (f : list Z) (ms : Z) : Prop :=
  exists v, number f v /\ v < 1000 /\
    ms = (if v <? 10 then v * 100 else if v <? 100 then v * 10 else v).
(* the two rules agree on three digits that do not begin with a zero, and on 000 *)
Definition plain_fraction (f : list Z) (ms : Z) : Prop := thousandths f ms /\ (ms = 0 \/ 100 <= ms).

(* what may follow a time stamp *)
Definition stops (r : list Z) : Prop := match r with [] => True | c :: _ => c = 0 \/ blank c end.

(* ---------- cues ---------- *)

Definition token (w : list Z) : Prop := w <> [] /\ Forall (fun c => c <> 0 /\ c <> 58 /\ ~ blank c) w.
(* settings: blanks NAME:VALUE blanks NAME:VALUE ... blanks *)
Inductive settings_text : list Z -> list setting -> Prop :=
| se_end : forall b, Forall blank b -> settings_text b []
| se_one : forall b n v r ss, b <> [] -> Forall blank b -> token n -> token v -> settings_text r ss ->
    settings_text (b ++ n ++ [58] ++ v ++ r) (mkSetting n v :: ss).

Definition arrow : list Z := [45; 45; 62].
Definition has_arrow (l : list Z) : Prop := exists a b, l = a ++ arrow ++ b.

Definition timings_line (ms_of : list Z -> Z -> Prop) (l : list Z) (t1 t2 : time) (ss : list setting) : Prop :=
  exists b1 s1 b2 b3 s2 st, Forall blank b1 /\ stamp ms_of s1 t1 /\ Forall blank b2 /\ Forall blank b3 /\ stamp ms_of s2 t2 /\
    settings_text st ss /\ l = b1 ++ s1 ++ b2 ++ arrow ++ b3 ++ s2 ++ st.

(* the lines of one cue: perhaps an identifier, the timings, the payload *)
Definition cue_block (ms_of : list Z -> Z -> Prop) (b : list (list Z)) (q : cue) : Prop :=
  exists ids tl payload, b = ids ++ tl :: payload /\
    (ids = [] /\ q_id q = [] \/ ids = [q_id q] /\ q_id q <> [] /\ ~ has_arrow (q_id q)) /\
    timings_line ms_of tl (q_start q) (q_stop q) (q_settings q) /\
    q_payload q = payload /\ payload <> [] /\ Forall (fun l => l <> []) payload.

(* the lines after the header: cues separated by empty lines *)
Inductive cue_doc (ms_of : list Z -> Z -> Prop) : list (list Z) -> list cue -> Prop :=
| cd_end : cue_doc ms_of [] []
| cd_blank : forall ls cs, cue_doc ms_of ls cs -> cue_doc ms_of ([] :: ls) cs
| cd_cue : forall b q ls cs, cue_block ms_of b q -> cue_doc ms_of ls cs -> cue_doc ms_of (b ++ [] :: ls) (q :: cs)
| cd_last : forall b q, cue_block ms_of b q -> cue_doc ms_of b [q].

(* a file: perhaps a byte order mark, WEBVTT, a header text, an empty line, cues *)
Definition vtt_file (ms_of : list Z -> Z -> Prop) (file : list Z) (qs : list cue) : Prop :=
  exists bom txt lines, file = bom ++ [87; 69; 66; 86; 84; 84] ++ txt /\
    (bom = [] \/ bom = [239; 187; 191]) /\ text_lines txt lines /\ Forall plain_line lines /\
    match lines with
    | [] => qs = []
    | head :: r => (head = [] \/ exists c t, head = c :: t /\ blank c) /\
        match r with
        | [] => qs = []
        | l :: body => l = [] /\ cue_doc ms_of body qs
        end
    end.

(* calling Parse again and again yields the cues qs, each with status 0, and then
   status 1, whatever the Cue objects held before *)
Inductive yields : pstate -> list cue -> Prop :=
| yi_end : forall p, (forall q, exists q' p', Parse p q = Val (1, q', p')) -> yields p []
| yi_cue : forall p q qs p', (forall q0, Parse p q0 = Val (0, q, p')) -> yields p' qs -> yields p (q :: qs).

(* reading line by line yields the lines ls and then the end of the text *)
Inductive line_by_line : pstate -> list (list Z) -> Prop :=
| ll_end : forall p, (exists p', GetLine p = Val (1, [], p')) -> line_by_line p []
| ll_line : forall p l p' ls, GetLine p = Val (0, l, p') -> line_by_line p' ls -> line_by_line p (l :: ls).
(* reading yields the lines ls and then fails *)
Inductive lines_then_error : pstate -> list (list Z) -> Prop :=
| le_end : forall p e l p', GetLine p = Val (e, l, p') -> e < 0 -> lines_then_error p []
| le_line : forall p l p' ls, GetLine p = Val (0, l, p') -> lines_then_error p' ls -> lines_then_error p (l :: ls).

(* ---------- times ---------- *)

(* the milliseconds a time denotes *)
Definition millis (t : time) : Z := ((t_h t * 60 + t_m t) * 60 + t_s t) * 1000 + t_ms t.
(* a time as the parser produces it *)
Definition proper (t : time) : Prop := 0 <= t_h t <= 2147483647 /\ 0 <= t_m t < 60 /\ 0 <= t_s t < 60 /\ 0 <= t_ms t < 1000.
(* a C++ int *)
Definition is_int (v : Z) : Prop := -2147483648 <= v <= 2147483647.
Definition any_time (t : time) : Prop := is_int (t_h t) /\ is_int (t_m t) /\ is_int (t_s t) /\ is_int (t_ms t).

(* ---------- use of the parser ---------- *)

(* what a Reader may answer: a byte, or a status other than 0 *)
Definition fair_answer (a : answer) : Prop := match a with Ch c => 0 <= c < 256 | St e => e <> 0 end.
(* the states of a parser on a reader that gives the answers l, after n successful
   calls of Parse; the user may go on after an error *)
Inductive used (l : list answer) : nat -> pstate -> Prop :=
| us_new : used l 0 (new_parser l)
| us_init : forall n p e p', used l n p -> Init p = Val (e, p') -> used l n p'
| us_parse : forall n p q e q' p', used l n p -> Parse p q = Val (e, q', p') ->
    used l (if e =? 0 then S n else n) p'.
