(** Specification vocabulary for random sampling. *)
From Verif Require Import Base ModelLinAlg SpecLinAlg ModelKernels ModelKDE ModelResample.
Open Scope R_scope.

(** What numpy.random guarantees for one sample in [n] dimensions (the normal deviates are not all
    zero, an event of probability one). *)
Definition valid_rnd (n : nat) (r : rnd) : Prop :=
  (forall k, 0 <= r_unif r k < 1) /\ (forall m k, -1 <= r_sym r m k < 1)
  /\ exists k, (k < n)%nat /\ r_norm r k <> 0.

(** What np.random.choice guarantees: indices of data points of non-zero weight. *)
Definition valid_choice (data : list pt) (ws : list R) (size : nat) (ix : nat -> nat) : Prop :=
  forall j, (j < size)%nat -> (ix j < length data)%nat /\ nth (ix j) ws 0 <> 0.

(** Strictly inside all given bounds. *)
Definition strictly_inside (refl : reflspec) (x : pt) : Prop :=
  forall i b, nth_error refl i = Some (Some b) ->
    (forall lo, fst b = Some lo -> lo < x i) /\ (forall hi, snd b = Some hi -> x i < hi).

(** [U] is an upper triangular square root of the kernel matrix. *)
Definition is_factor (n : nat) (M U : mat) : Prop :=
  (forall i j, (j < i)%nat -> U i j = 0) /\ (forall i, (i < n)%nat -> 0 < U i i)
  /\ forall i j, (i < n)%nat -> (j < n)%nat -> rsum n (fun l => U l i * U l j) = M i j.

(** [x] is [p] itself or [p] mirrored once at a given bound. *)
Definition image_of (refl : reflspec) (p x : pt) : Prop :=
  x = p \/ exists i b loc, nth_error refl i = Some (Some b) /\ (fst b = Some loc \/ snd b = Some loc)
           /\ forall k, x k = if Nat.eqb k i then 2 * loc - p k else p k.

(** Which dimensions are kept. *)
Definition kept (n : nat) (k : keeparg) (i : nat) : Prop :=
  match k with
  | KeepNone => False
  | KeepBool b => b = true /\ (i < n)%nat
  | KeepInt j => i = j
  | KeepList l => In i l
  end.
