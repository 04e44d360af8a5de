(* How deeply elements of one kind are nested in a value reported by the callback
   parser.  Nothing here refers to how the parser works. *)
From Verif Require Import Base WpSpec.

(* the longest chain of children with this ID, each inside the one before *)
Fixpoint levels (id : Z) (v : value) : nat :=
  match v with
  | VRec l =>
      (fix go (l : list (Z * value)) : nat :=
         match l with
         | [] => 0%nat
         | (i, x) :: r => Nat.max (if i =? id then S (levels id x) else levels id x) (go r)
         end) l
  | _ => 0%nat
  end.

(* the value a notification carries *)
Definition carried (e : event) : option value :=
  match e with
  | EBegin _ _ v | EEnd _ _ v | EReport _ _ v => Some v
  | _ => None
  end.

Definition at_most (n : nat) (id : Z) (t : list entry) : Prop :=
  forall e r v, In (e, r) t -> carried e = Some v -> (levels id v <= n)%nat.
