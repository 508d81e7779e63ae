(** Mean and covariance of a weighted sample, and the variance of the kernels. *)
From Verif Require Import Base ModelLinAlg ModelKernels.
Open Scope R_scope.
Notation length := List.length.

(** Mean of coordinate [i] of the data, each point counting with its weight. *)
Definition data_mean (data : list pt) (ws : list R) (i : nat) : R :=
  rsum (length data) (fun k => nth k ws 0 * nth k data (fun _ => 0) i) / rsum (length data) (fun k => nth k ws 0).
(** Mean of the products of the deviations from [m] in the coordinates [i] and [j]. *)
Definition data_cov (data : list pt) (ws : list R) (m : nat -> R) (i j : nat) : R :=
  rsum (length data) (fun k => nth k ws 0 * ((nth k data (fun _ => 0) i - m i) * (nth k data (fun _ => 0) j - m j)))
  / rsum (length data) (fun k => nth k ws 0).

(** Variance of every coordinate of a kernel of unit scale in [n] dimensions: one for the Gaussian,
    that of a uniform ball, of the Epanechnikov and of the triweight kernel in [n] dimensions. *)
Definition kernel_var (d : dist) (n : nat) : R :=
  match d with
  | Gaussian => 1
  | Box => / (INR n + 2)
  | Parabola => / (INR n + 4)
  | Triweight => / (INR n + 8)
  end.

(** Inverse of the effective number of points: sum of the squares of the weights over the square of
    their sum. *)
Definition inv_neff (ws : list R) : R :=
  rsum (length ws) (fun k => nth k ws 0 * nth k ws 0) / (rsum (length ws) (fun k => nth k ws 0) * rsum (length ws) (fun k => nth k ws 0)).
