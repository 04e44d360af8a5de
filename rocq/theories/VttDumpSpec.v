(* What dumpvtt shows of a WebVTT file. *)
From Coq Require Import String Ascii.
From Verif Require Import Base MVtt VttNameSpec.

Definition quote : list Z := [34].
(* the line for the start or stop time of a cue *)
Definition shown_time (which : list Z) (t : time) (l : list Z) : Prop :=
  exists h m s ms, decimal_of (t_h t) h /\ decimal_of (t_m t) m /\ decimal_of (t_s t) s /\ decimal_of (t_ms t) ms /\
    l = text "cue " ++ which ++ text " time: " ++ quote ++ text "HH=" ++ h ++ text " MM=" ++ m ++ text " SS=" ++ s ++ text " SSS=" ++ ms ++ quote.
Definition shown_settings (ss : list setting) : list (list Z) :=
  match ss with
  | [] => [text "cue setting: <no settings present>"]
  | _ => map (fun s => text "cue setting: name=" ++ set_name s ++ text " value=" ++ set_value s) ss
  end.
(* the lines of the text, numbered from i *)
Inductive shown_payload : Z -> list (list Z) -> list (list Z) -> Prop :=
| sp_end : forall i, shown_payload i [] []
| sp_line : forall i n l ls r, decimal_of i n -> shown_payload (i + 1) ls r ->
    shown_payload i (l :: ls) ((text "cue payload[" ++ n ++ text "]: " ++ quote ++ l ++ quote) :: r).
(* the lines for a cue, with an empty one at the end *)
Definition shown_cue (q : cue) (ls : list (list Z)) : Prop :=
  exists st sp ps, shown_time (text "start") (q_start q) st /\ shown_time (text "stop") (q_stop q) sp /\ shown_payload 1 (q_payload q) ps /\
    ls = (text "cue identifier: " ++ quote ++ q_id q ++ quote) :: st :: sp :: shown_settings (q_settings q) ++ ps ++ [[]].
(* lines as text *)
Definition as_text (ls : list (list Z)) : list Z := concat (map (fun l => l ++ [10]) ls).
(* fewer lines than an int can count *)
Definition few_lines (q : cue) : Prop := zlen (q_payload q) < 2147483647.
