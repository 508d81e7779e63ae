(** Vocabulary for averages over the random numbers a sampler uses. *)
From Coquelicot Require Import Coquelicot.
From Verif Require Import Base ModelLinAlg SpecIntegral ModelResample.
Open Scope R_scope.
(** The first [k] coordinates are between [lo] and [hi]. *)
Definition in_cube (k : nat) (lo hi : R) (u : pt) : bool := forallb (fun i => andb (Rleb lo (u i)) (Rleb (u i) hi)) (seq 0 k).
(** [m] is the mean of [f] over [k] independent numbers, uniform between [lo] and [hi]. *)
Definition uniform_mean (k : nat) (lo hi : R) (f : pt -> R) (m : R) : Prop :=
  forall base, is_tintN k (fun u => if in_cube k lo hi u then f u / (hi - lo) ^ k else 0) base m.
(** The random numbers [r] with other uniform numbers; other triples for coordinate [i]; another sign of the normal deviates. *)
Definition with_unif (r : rnd) (u : pt) : rnd := mkRnd (r_norm r) u (r_sym r).
Definition with_sym (r : rnd) (i : nat) (u : pt) : rnd := mkRnd (r_norm r) (r_unif r) (fun s k => if Nat.eqb k i then u s else r_sym r s k).
Definition flipped (r : rnd) : rnd := mkRnd (fun k => - r_norm r k) (r_unif r) (r_sym r).
(** Lipschitz constant between -1 and 1. *)
Definition lipschitz (g : R -> R) (L : R) : Prop := forall x y, -1 <= x <= 1 -> -1 <= y <= 1 -> Rabs (g x - g y) <= L * Rabs (x - y).
