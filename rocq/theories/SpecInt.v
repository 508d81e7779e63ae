(** Vocabulary for the statements about integer data. *)
From Coq Require Import ZArith.
From Verif Require Import Base ModelLinAlg ModelKernels ModelUtils SpecIntegral.
Open Scope R_scope.

(** A whole number. *)
Definition whole (x : R) : Prop := exists z : Z, x = IZR z.
(** The first [n] coordinates of the points are whole. *)
Definition whole_points (n : nat) (data : list pt) : Prop := forall p i, In p data -> (i < n)%nat -> whole (p i).
(** The boundaries are multiples of one half. *)
Definition on_halves (refl : reflspec) : Prop := forall b loc, In (Some b) refl -> fst b = Some loc \/ snd b = Some loc -> whole (2 * loc).
(** [t]: [x] without its fraction. *)
Definition towards_zero (x t : R) : Prop := whole t /\ Rabs t <= Rabs x /\ Rabs (x - t) < 1 /\ 0 <= t * x.
(** [T p]: the part above [p] of the total of [h]. *)
Definition tails (h : R -> R) (T : R -> R) : Prop := forall p, is_tint (fun t => if Rltb t p then 0 else h t) (T p).
(** Relative stretch of the lower and the upper end. *)
Definition stretch_by (s : stretch_arg) (x y : R) : Prop :=
  match s with StNone => x = 0 /\ y = 0 | StScalar f => x = f /\ y = f | StPair a b => x = a /\ y = b | StOther => False end.
