(** Piecewise linear interpolation on a table: the library functions scipy.interpolate.interp1d
    (kernels.py:30), numpy.interp and numpy.searchsorted used by kalepy. *)
From Verif Require Import Base.
Open Scope R_scope.

(** [np.searchsorted(x[i:i+n], v, side='left')]: first index with [v <= x], else one past the end.
    (A linear scan; for a sorted table the binary search gives the same index.) *)
Fixpoint ssleft (x : nat -> R) (v : R) (n i : nat) : nat :=
  match n with
  | O => i
  | S n' => if Rleb v (x i) then i else ssleft x v n' (S i)
  end.

(** The lower end of the table interval used for [v]; table entries 0..m (scipy interp1d:
    [x_new_indices = searchsorted(x, x_new).clip(1, len(x)-1)], lo = that minus one). *)
Definition interp_bin (x : nat -> R) (m : nat) (v : R) : nat :=
  Nat.min (Nat.max (ssleft x v (S m) 0) 1) m - 1.

(** Linear interpolation (and, outside the table, extrapolation of the end intervals). *)
Definition interp (x y : nat -> R) (m : nat) (v : R) : R :=
  let lo := interp_bin x m v in
  y lo + (y (S lo) - y lo) / (x (S lo) - x lo) * (v - x lo).

(** scipy.interpolate.interp1d(x, y, kind='linear', bounds_error=True). *)
Definition interp1d (x y : nat -> R) (m : nat) (v : R) : res R :=
  if orb (Rltb v (x O)) (Rltb (x m) v) then Err ValueError else Ok (interp x y m v).

(** numpy.interp(v, x, y): constant outside the table. *)
Definition np_interp (x y : nat -> R) (m : nat) (v : R) : R :=
  if Rltb v (x O) then y O else if Rltb (x m) v then y m else interp x y m v.
