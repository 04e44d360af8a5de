(* The children that the callback parser reads of an element written by the muxer. *)
From Verif Require Import Base WpSpec WpDocSpec WpMuxSpec MetaSpec DomSpec.

(* those it knows, in order; a number has a payload and its value *)
Definition read_of (parent : Z) (ts : list tree) (kids : list kid) : Prop :=
  Forall2 (fun t (k : kid) => fst (fst k) = tree_id t /\
             match t with
             | Leaf _ (LUint v) => snd k = DVal (VInt v) /\ 0 < snd (fst k)
             | Leaf _ (LFloat u) => snd k = DVal (VFloat 4 (u mod 2 ^ 32)) /\ snd (fst k) = 4
             | _ => True
             end)
    (filter (fun t => match type_in parent (tree_id t) with Some _ => true | None => false end) ts) kids.
Definition children_of (t : tree) : list tree := match t with Master _ ts => ts | Leaf _ _ => [] end.
