(** Specification vocabulary for nested lists. *)
From Verif Require Import Base ModelUtils.

(** The leaves from left to right. *)
Fixpoint leaves {A} (t : tree A) : list A :=
  match t with
  | Leaf a => [a]
  | Node l => (fix go (l : list (tree A)) : list A := match l with [] => [] | s :: r => leaves s ++ go r end) l
  end.

(** No list holds both scalars and lists. *)
Inductive unmixed {A} : tree A -> Prop :=
  | um_leaf a : unmixed (Leaf a)
  | um_flat l : (forall s, In s l -> exists a, s = Leaf a) -> unmixed (Node l)
  | um_nested l : (forall s, In s l -> (exists m, s = Node m) /\ unmixed s) -> unmixed (Node l).
