(** Vocabulary for C156: boundaries seen in a mirror. *)
From Verif Require Import Base ModelLinAlg ModelKernels SpecSymmetric.
Open Scope R_scope.
(** Limits of mirrored numbers: the lower one becomes the upper one. *)
Definition flip_limits (v : R) (b : bnd) : bnd := (option_map (flip v) (snd b), option_map (flip v) (fst b)).
(** Boundaries in any dimensions, those of dimension [k] seen in a mirror at [v]. *)
Definition flipped_walls (k : nat) (v : R) (r r' : reflspec) : Prop :=
  length r' = length r /\ nth k r' None = option_map (flip_limits v) (nth k r None) /\ forall i, i <> k -> nth i r' None = nth i r None.
