(** Vocabulary for the moments of a density with one boundary. *)
From Verif Require Import Base ModelLinAlg ModelKernels.
Open Scope R_scope.

(** One boundary at [v]: below the allowed points, or above them. *)
Definition wall (low : bool) (v : R) : bnd := if low then (Some v, None) else (None, Some v).
(** [y] is [x], or further than [x] from the side of the boundary. *)
Definition inward (low : bool) (x y : R) : Prop := if low then x <= y else y <= x.
Definition inward_strictly (low : bool) (x y : R) : Prop := if low then x < y else y < x.
