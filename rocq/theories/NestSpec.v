(* What it means for a sequence of notifications of the callback parser to be
   properly nested: a small automaton whose state is the list of elements that
   are open, innermost first.  It mentions only what the callback sees. *)
From Verif Require Import Base WpSpec.

Notation stack := (list (bkind * meta)) (only parsing).

Definition bkind_eqb (a b : bkind) : bool :=
  match a, b with
  | KSegment, KSegment | KCluster, KCluster | KSimpleBlock, KSimpleBlock | KBlockGroup, KBlockGroup
  | KBlock, KBlock => true
  | _, _ => false
  end.
Definition meta_eqb (a b : meta) : bool :=
  (me_id a =? me_id b) && (me_hsize a =? me_hsize b) && (me_size a =? me_size b) && (me_pos a =? me_pos b).

Definition kinds (st : stack) : list bkind := map fst st.
(* the innermost open element is a block: its frames are being delivered *)
Definition in_block (st : stack) : bool :=
  match st with
  | (KSimpleBlock, _) :: _ | (KBlock, _) :: _ => true
  | _ => false
  end.

(* Where an element with a begin and an end may begin: a Segment at the top level,
   a Cluster in a Segment, a SimpleBlock or BlockGroup in a Cluster, a Block in a
   BlockGroup. *)
Definition may_begin (k : bkind) (st : stack) : bool :=
  match k, kinds st with
  | KSegment, [] => true
  | KCluster, [KSegment] => true
  | KSimpleBlock, [KCluster; KSegment] | KBlockGroup, [KCluster; KSegment] => true
  | KBlock, [KBlockGroup; KCluster; KSegment] => true
  | _, _ => false
  end.
(* Where an element reported as a whole may be reported. *)
Definition may_report (k : rkind) (st : stack) : bool :=
  match k, kinds st with
  | KEbml, [] => true
  | KEbml, _ => false
  | _, [KSegment] => true
  | _, _ => false
  end.
(* Frames belong to the block that is open. *)
Definition may_read (d : dsrc) (st : stack) : bool :=
  match d, st with
  | DFrame parent _ _, (_, m) :: _ => in_block st && meta_eqb parent m
  | DFrame _ _ _, [] => false
  | _, _ => negb (in_block st)
  end.

(* One notification and its answer.  An element is open from its begin, if the
   callback accepted it and did not ask to skip it, to the end the callback
   accepted.  A begin or end the callback refused may be repeated.  None: the
   notification is out of place. *)
Definition nest (st : stack) (e : entry) : option stack :=
  match e with
  | (EElement _, _) => if in_block st then None else Some st
  | (EBegin k m _, (c, skip)) =>
      if may_begin k st then Some (if (c =? 0) && negb skip then (k, m) :: st else st) else None
  | (EEnd k m _, (c, _)) =>
      match st with
      | (k', m') :: st' =>
          if bkind_eqb k k' && meta_eqb m m' then Some (if c =? 0 then st' else st) else None
      | [] => None
      end
  | (EReport k _ _, _) => if may_report k st then Some st else None
  | (EData d _, _) | (EDataEnd d, _) => if may_read d st then Some st else None
  end.

(* the elements open after a sequence of notifications (most recent first), if it is
   properly nested *)
Fixpoint nesting (t : list entry) : option stack :=
  match t with
  | [] => Some []
  | e :: t' => match nesting t' with Some st => nest st e | None => None end
  end.
