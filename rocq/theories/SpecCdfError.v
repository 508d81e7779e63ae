(** Vocabulary for the accuracy of the cumulative distribution in one dimension. *)
From Coquelicot Require Import Coquelicot.
From Verif Require Import Base ModelLinAlg ModelKernels SpecLinAlg SpecIntegral SpecKernels SpecKDE SpecReflected.
Open Scope R_scope.
Notation length := List.length.
(** No two neighbours of a grid are further apart than [h]. *)
Definition spaced (h : R) (g : list R) : Prop := forall i, (S i < length g)%nat -> nth (S i) g 0 - nth i g 0 <= h.
Definition first (g : list R) : R := nth 0 g 0.
Definition final (g : list R) : R := nth (length g - 1) g 0.
(** Probability of an interval, and of everything up to [x]. *)
Definition prob_between (f : pt -> R) (a x p : R) : Prop := is_RInt (fun t => f (pt1 t)) a x p.
Definition prob_upto (f : pt -> R) (x p : R) : Prop := is_RInt_gen (fun t => f (pt1 t)) (Rbar_locally m_infty) (at_point x) p.
(** The largest value of the density of a single data point with variance [m]. *)
Definition peak (d : dist) (m p : R) : Prop := exists Z, is_tint (fun y => spec_prof d (y * y / m)) Z /\ p = spec_prof d 0 / Z.
(** The boundaries of a one-dimensional KDE. *)
Definition walls (refl : option reflspec) : list R := match refl with None => [] | Some r => boundaries (nth 0 r None) end.
Definition allowed (refl : option reflspec) (x : R) : Prop := forall r, refl = Some r -> within r (pt1 x) 0.
