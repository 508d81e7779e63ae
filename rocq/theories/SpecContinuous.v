(** Vocabulary for continuity in the evaluation point. *)
From Verif Require Import Base ModelLinAlg ModelKernels ModelKDE.
Open Scope R_scope.
(** Two points with [n] parameters closer than [delta] in every parameter. *)
Definition near (n : nat) (delta : R) (x y : pt) : Prop := forall i, (i < n)%nat -> Rabs (y i - x i) < delta.
(** The value at points of a set near [x] is near the value at [x]. *)
Definition continuous_within (n : nat) (S : pt -> Prop) (f : pt -> R) (x : pt) : Prop :=
  forall eps, 0 < eps -> exists delta, 0 < delta /\ forall y, S y -> near n delta x y -> Rabs (f y - f x) < eps.
Definition continuous_at (n : nat) (f : pt -> R) (x : pt) : Prop := continuous_within n (fun _ => True) f x.
(** Not beyond the boundaries of parameter [i]. *)
Definition between (b : bnd) (v : R) : Prop := (forall lo, fst b = Some lo -> lo <= v) /\ (forall hi, snd b = Some hi -> v <= hi).
(** For every parameter with boundaries, both points between them or neither. *)
Definition same_side (refl : reflspec) (x y : pt) : Prop := forall i b, nth_error refl i = Some (Some b) -> (between b (x i) <-> between b (y i)).
(** On none of the boundaries. *)
Definition off_boundaries (refl : reflspec) (x : pt) : Prop := forall i b, nth_error refl i = Some (Some b) -> fst b <> Some (x i) /\ snd b <> Some (x i).
(** The boundaries in force: those of the call, else those of the object. *)
Definition in_force (K : kde) (given : option reflspec) (r : option reflspec) : Prop := match given with Some g => r = Some g | None => r = kd_reflect K end.
Definition kernel_of (K : kde) (d : dist) : Prop := exists k, kd_kernel K = Some k /\ k_dist k = d.
