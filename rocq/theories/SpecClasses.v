(** Vocabulary for the methods of the distribution classes. *)
From Verif Require Import Base ModelLinAlg ModelKernels ModelNd SpecIntegral SpecKernels.
Open Scope R_scope.

(** The points described by an array: coordinates along the first axis, or numbers if there is at most one axis. *)
Definition point_at (a : nda) (idx : list nat) : pt := fun k => match shp a with [] => at_ a [] | [_] => at_ a idx | _ => at_ a (k :: idx) end.
Definition coords_of (a : nda) : nat := match shp a with [] | [_] => 1%nat | n :: _ => n end.
(** Squared distance from the origin. *)
Definition from_origin (n : nat) (p : pt) : R := rsum n (fun k => p k * p k).
(** The textbook kernel: its profile, normalised over the space of [n] dimensions. *)
Definition normalised (d : dist) (n : nat) (g : pt -> R) : Prop :=
  (forall base, is_tintN n g base 1) /\ exists c, 0 < c /\ forall p, g p = c * spec_prof d (from_origin n p).
(** The entries of [l] at the axes that are not of length one. *)
Definition squeezed (sh l : list nat) : list nat := map snd (filter (fun p => negb (Nat.eqb (fst p) 1)) (combine sh l)).
