(* The files vttdemux makes of a WebM file. *)
From Coq Require Import String Ascii.
From Verif Require Import Base.

(* the bytes of a text *)
Definition text (s : string) : list Z := map (fun c => Z.of_N (N_of_ascii c)) (list_ascii_of_string s).

(* kinds of WebVTT text in a WebM file *)
Inductive kind := Subtitles | Captions | Descriptions | Metadata | Chapters.
Definition kind_eqb (a b : kind) : bool :=
  match a, b with
  | Subtitles, Subtitles | Captions, Captions | Descriptions, Descriptions | Metadata, Metadata | Chapters, Chapters => true
  | _, _ => false
  end.
Definition kind_name (k : kind) : list Z :=
  match k with
  | Subtitles => text "_SUBTITLES" | Captions => text "_CAPTIONS" | Descriptions => text "_DESCRIPTIONS"
  | Metadata => text "_METADATA" | Chapters => text "_CHAPTERS"
  end.
(* the codec of a track tells the kind *)
Definition codec_name (k : kind) : list Z :=
  match k with
  | Subtitles => text "D_WEBVTT/SUBTITLES" | Captions => text "D_WEBVTT/CAPTIONS" | Descriptions => text "D_WEBVTT/DESCRIPTIONS"
  | Metadata => text "D_WEBVTT/METADATA" | Chapters => []
  end.

(* A track: its number and its codec. *)
Definition track_info := (Z * option (list Z))%type.
(* number n is a WebVTT track of kind k: this is what the last of the tracks with this
   number and a WebVTT codec says (number 0 stands for the chapters) *)
Definition says (t : track_info) (n : Z) (k : kind) : Prop := fst t = n /\ 0 < n /\ k <> Chapters /\ snd t = Some (codec_name k).
Definition is_kind (chapters : bool) (ts : list track_info) (n : Z) (k : kind) : Prop :=
  (n = 0 /\ k = Chapters /\ chapters = true) \/
  (exists a t b, ts = a ++ t :: b /\ says t n k /\ forall t' k', In t' b -> ~ says t' n k').

(* the number in decimal: no leading zeros *)
Definition value (ds : list Z) : Z := fold_left (fun a c => 10 * a + (c - 48)) ds 0.
Definition decimal_of (n : Z) (ds : list Z) : Prop :=
  Forall (fun c => 48 <= c <= 57) ds /\ value ds = n /\ (ds = [48] \/ hd 48 ds <> 48).
(* The file for track n of kind k: the name of the input without its extension, the kind,
   the number if there are others of the kind, and the new extension. *)
Definition named_for (chapters : bool) (ts : list track_info) (base : list Z) (n : Z) (k : kind) (name : list Z) : Prop :=
  exists number, name = base ++ kind_name k ++ number ++ text ".vtt" /\
    ((forall n', is_kind chapters ts n' k -> n' = n) /\ number = [] \/
     (exists n', n' <> n /\ is_kind chapters ts n' k) /\ decimal_of n number).
(* a file name: no NUL bytes *)
Definition no_nul (l : list Z) : Prop := ~ In 0 l.
