(** Specification vocabulary for nested lists and environments. *)
From Coq Require Import String.
From Verif Require Import Base ModelUtils.

(** Every list, at any depth, has at least [m] entries. *)
Inductive lists_at_least {A} (m : nat) : tree A -> Prop :=
  | la_leaf a : lists_at_least m (Leaf a)
  | la_node l : (m <= List.length l)%nat -> (forall s, In s l -> lists_at_least m s) -> lists_at_least m (Node l).
(** [sub] occurs in [s]. *)
Definition occurs (sub s : string) : Prop := exists a b, s = (a ++ sub ++ b)%string.
(** A list of flat lists. *)
Definition rows_tree {A} (rows : list (list A)) : tree A := Node (map (fun r => Node (map Leaf r)) rows).
