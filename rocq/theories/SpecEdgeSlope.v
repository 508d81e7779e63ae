(** Vocabulary for the slope of the density at reflecting boundaries. *)
From Verif Require Import Base ModelLinAlg SpecLinAlg ModelKernels SpecKernels SpecSlope.
Open Scope R_scope.
Notation length := List.length.
(** Dimension [i] is not correlated with the others. *)
Definition apart (n : nat) (M : mat) (i : nat) : Prop := forall j, (j < n)%nat -> j <> i -> M i j = 0.
(** Dimension [i] has the limits [b], the others have none. *)
Definition only (n : nat) (r : reflspec) (i : nat) (b : bnd) : Prop :=
  length r = n /\ (i < n)%nat /\ nth i r None = Some b /\ forall j, j <> i -> nth j r None = None.
(** Along dimension [i]. *)
Definition axis (i : nat) (s : R) : pt := fun k => if Nat.eq_dec k i then s else 0.
(** Leaving [x] along [u], the values start to change at the rate [s]. *)
Definition slope_along (f : pt -> R) (x u : pt) (s : R) : Prop :=
  forall eps, 0 < eps -> exists delta, 0 < delta /\ forall t, 0 < t < delta -> Rabs (f (step x u t) - f x - s * t) <= eps * t.
(** [v] is the only limit / one of two limits (the other one is [w]); inside lies in the direction [s]. *)
Definition one_limit (b : bnd) (v s : R) : Prop := b = (Some v, None) /\ s = 1 \/ b = (None, Some v) /\ s = -1.
Definition two_limits (b : bnd) (v w s : R) : Prop := b = (Some v, Some w) /\ v < w /\ s = 1 \/ b = (Some w, Some v) /\ w < v /\ s = -1.
