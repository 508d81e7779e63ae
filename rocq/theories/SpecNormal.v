(** The standard normal distribution, for statements about extrema and quantiles. *)
From Coquelicot Require Import Coquelicot.
From Verif Require Import Base.

Definition std_normal (t : R) : R := exp (- (t * t) / 2) / sqrt (2 * PI).

(** The improper integral of the standard normal density up to [x] is [p]. *)
Definition Phi_is (x p : R) : Prop :=
  is_RInt_gen std_normal (Rbar_locally m_infty) (at_point x) p.

(** [ppf] inverts the cumulative distribution function. *)
Definition is_ppf (ppf : R -> R) : Prop := forall p, 0 < p < 1 -> Phi_is (ppf p) p.
