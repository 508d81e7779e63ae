(** Vocabulary for C152: a point in other units, and a grid with enough values. *)
From Verif Require Import Base SpecUnits.
Open Scope R_scope.
Notation length := List.length.
(** The point [x], a list of coordinates, in other units. *)
Definition point_unit (s c : nat -> R) (x : list R) : list R := at_each (fun i => unit_of (s i) (c i)) 0 x.
(** At least two values in every dimension. *)
Definition two_values (grid : list (list R)) : Prop := forall g, In g grid -> (2 <= length g)%nat.
