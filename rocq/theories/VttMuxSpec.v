(* WebVTT cues stored in a file as metadata blocks. *)
From Verif Require Import Base MVtt VttSpec.

(* cues that can be stored: they are in order of their start times and none ends before
   it starts *)
Fixpoint in_order (t : Z) (qs : list cue) : Prop :=
  match qs with
  | [] => True
  | q :: r => t <= millis (q_start q) /\ millis (q_start q) <= millis (q_stop q) /\ in_order (millis (q_start q)) r
  end.
(* all times are below 2^63 ns, which is about 292 years *)
Definition times_fit (q : cue) : Prop := millis (q_stop q) * 1000000 < 2 ^ 63.
(* the settings, written out, leave room for the times on a line of 10000 bytes *)
Definition settings_size (ss : list setting) : Z := fold_right (fun s a => zlen (set_name s) + zlen (set_value s) + 2 + a) 0 ss.
Definition settings_fit (q : cue) : Prop := settings_size (q_settings q) <= 9900.

(* A frame for the muxer: track, time stamp and duration in nanoseconds, content. *)
Record meta_frame := mkMF { mf_track : Z; mf_time : Z; mf_duration : Z; mf_data : list Z }.
(* A block read from a file: time in nanoseconds, duration in units of the segment. *)
Record meta_block := mkMB { mb_time : Z; mb_duration : Z; mb_data : list Z }.
(* What reading a file shows of a frame written to it, when its unit is scale
   nanoseconds (this is what C09 and C57 say). *)
Definition stored (scale : Z) (f : meta_frame) : meta_block := mkMB (mf_time f / scale * scale) (mf_duration f / scale) (mf_data f).
Definition of_track (tr : Z) (fs : list meta_frame) : list meta_frame := filter (fun f => mf_track f =? tr) fs.

(* A WebVTT file whose cues, read as the parser reads them, are qs, and which can be
   stored.  It has no NUL bytes. *)
Definition good_file (file : list Z) (qs : list cue) : Prop :=
  vtt_file scaled file qs /\ bytes file /\ ~ In 0 file /\ in_order 0 qs /\ Forall times_fit qs /\ Forall settings_fit qs.
(* Files to be stored, each with its track number and its cues; what they contain. *)
Definition inputs (loads : list (Z * (list Z * list cue))) : list (Z * list answer) := map (fun x => (fst x, map Ch (fst (snd x)))) loads.
