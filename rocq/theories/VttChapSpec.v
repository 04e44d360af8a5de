(* WebVTT cues stored in a file as chapters. *)
From Verif Require Import Base MVtt VttSpec VttMuxSpec MParMeta.

(* A chapter has a title, which is the text of the cue, but no settings. *)
Definition without_settings (q : cue) : cue := mkCueV (q_id q) (q_start q) (q_stop q) [] (q_payload q).
(* the lines with line feeds between them *)
Fixpoint joined (ls : list (list Z)) : list Z :=
  match ls with
  | [] => []
  | [l] => l
  | l :: r => l ++ [10] ++ joined r
  end.
(* the parser takes texts of up to 20000000 bytes *)
Definition title_fits (q : cue) : Prop := zlen (joined (q_payload q)) <= 20000000.
(* A WebVTT file whose cues are qs, without NUL bytes, in order, with times below 2^63 ns,
   and with texts that fit.  Settings may be of any size. *)
Definition good_chapters (file : list Z) (qs : list cue) : Prop :=
  vtt_file scaled file qs /\ bytes file /\ ~ In 0 file /\ in_order 0 qs /\ Forall times_fit qs /\ Forall title_fits qs.
(* the cue has an identifier *)
Definition named (q : cue) : Prop := q_id q <> [].

(* A line of text: no NUL, CR, LF or bytes FE, FF, and at most 10000 bytes. *)
Definition clean_line (l : list Z) : Prop := plain_line l /\ no_eol l /\ ~ In 0 l.
(* a time of hours, minutes, seconds and milliseconds; milliseconds of one or two digits
   are left out, as the WebVTT parser misreads them (C48) *)
Definition clean_time (t : time) : Prop :=
  0 <= t_h t <= 2147483647 /\ 0 <= t_m t < 60 /\ 0 <= t_s t < 60 /\ 0 <= t_ms t < 1000 /\ (t_ms t = 0 \/ 100 <= t_ms t).
(* a cue that can be written as text *)
Definition clean_cue (q : cue) : Prop :=
  (q_id q = [] \/ clean_line (q_id q) /\ ~ has_arrow (q_id q)) /\ q_settings q = [] /\
  q_payload q <> [] /\ Forall (fun l => l <> [] /\ clean_line l) (q_payload q) /\
  clean_time (q_start q) /\ clean_time (q_stop q) /\ millis (q_start q) <= millis (q_stop q) /\ times_fit q.
(* A chapter of a file stands for a cue: it has one title, the lines of the cue, in
   English or without language; its times, in units of scale nanoseconds, are those of
   the cue; its ID is the identifier. *)
Definition stands_for (scale : Z) (a : p_atom) (q : cue) : Prop :=
  (exists language country, pa_displays a = [mkPD (Some (joined (q_payload q))) language country] /\ (language = None \/ language = Some [101; 110; 103])) /\
  0 <= pa_start a /\ pa_start a * scale / 1000000 = millis (q_start q) /\
  0 <= pa_stop a /\ pa_stop a * scale / 1000000 = millis (q_stop q) /\ pa_start a * scale < 2 ^ 63 /\ pa_stop a * scale < 2 ^ 63 /\
  pa_string_uid a = (if match q_id q with [] => true | _ => false end then None else Some (q_id q)).
(* chapters for cues, among them chapters without titles *)
Inductive stand_for (scale : Z) : list p_atom -> list cue -> Prop :=
| sf_nil : stand_for scale [] []
| sf_untitled : forall a l qs, pa_displays a = [] -> stand_for scale l qs -> stand_for scale (a :: l) qs
| sf_titled : forall a q l qs, stands_for scale a q -> clean_cue q -> stand_for scale l qs -> stand_for scale (a :: l) (q :: qs).
