(* Model of dumpvtt.cc.  The file is what the reader answers (MVtt.v).  Not modelled: the
   messages on stderr, failures of stdout. *)
From Coq Require Import String Ascii.
From Verif Require Import Base MVtt VttNameSpec MVttMux VttDumpSpec.

(* a time, printed with %i: dumpvtt.cc:51-57 *)
Definition print_time (which : list Z) (t : time) : list Z :=
  text "cue " ++ which ++ text " time: " ++ [34] ++ text "HH=" ++ ll_text 0 (t_h t) ++ text " MM=" ++ ll_text 0 (t_m t) ++ text " SS=" ++ ll_text 0 (t_s t) ++
  text " SSS=" ++ ll_text 0 (t_ms t) ++ [34] ++ [10].
(* the loop over the settings: dumpvtt.cc:67-71 *)
Definition print_setting (s : setting) : list Z := text "cue setting: name=" ++ c_str (set_name s) ++ text " value=" ++ c_str (set_value s) ++ [10].
(* dumpvtt.cc:59-73 *)
Definition print_settings (ss : list setting) : list Z :=
  match ss with [] => text "cue setting: <no settings present>" ++ [10] | _ => flat_map print_setting ss end.
(* the loop over the payload: dumpvtt.cc:75-87; idx does not wrap here *)
Fixpoint print_payload (idx : Z) (ls : list (list Z)) : list Z :=
  match ls with
  | [] => []
  | l :: r => (text "cue payload[" ++ ll_text 0 idx ++ text "]: " ++ [34] ++ c_str l ++ [34] ++ [10]) ++ print_payload (idx + 1) r
  end.
(* a cue: dumpvtt.cc:49-89 *)
Definition print_cue (q : cue) : list Z :=
  (text "cue identifier: " ++ [34] ++ c_str (q_id q) ++ [34] ++ [10]) ++ print_time (text "start") (q_start q) ++ print_time (text "stop") (q_stop q) ++
  print_settings (q_settings q) ++ print_payload 1 (q_payload q) ++ [10].
(* the loop: dumpvtt.cc:38-91; None: out of fuel.  The exit status, true for EXIT_SUCCESS,
   and what is printed *)
Fixpoint dump_loop (fuel : nat) (p : pstate) (q : cue) : outcome (option (bool * list Z)) :=
  match fuel with
  | O => Val None
  | S f =>
      olet x := Parse p q in
      let '(e, q, p) := x in
      if e <? 0 then Val (Some (false, []))
      else if e >? 0 then Val (Some (true, []))
      else olet y := dump_loop f p q in
           Val (match y with None => None | Some (ok, t) => Some (ok, print_cue q ++ t) end)
  end.
(* main, once the file is open: dumpvtt.cc:30-92 *)
Definition dumpvtt (l : list answer) : outcome (option (bool * list Z)) :=
  olet x := Init (new_parser l) in
  let '(e, p) := x in
  if negb (e =? 0) then Val (Some (false, [])) else dump_loop (S (length l)) p cue0.
