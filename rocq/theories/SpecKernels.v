(** Independent specification vocabulary for kernels and densities. *)
From Coquelicot Require Import Coquelicot.
From Verif Require Import Base ModelLinAlg SpecLinAlg SpecIntegral ModelKernels.

(** Textbook kernel profiles as functions of the squared distance. *)
Definition spec_prof (d : dist) (r : R) : R :=
  match d with
  | Gaussian => exp (- (r / 2))
  | Box => if Rle_dec r 1 then 1 else 0
  | Parabola => if Rle_dec r 1 then 1 - r else 0
  | Triweight => if Rle_dec r 1 then (1 - r) * (1 - r) * (1 - r) else 0
  end.

Definition psub (x y : pt) : pt := fun i => x i - y i.

(** Weighted sum of kernels placed on the data points, in the metric N. *)
Definition spec_sum (d : dist) (n : nat) (N : mat) (wdata : list (pt * R)) (x : pt) : R :=
  sumf (fun dw => snd dw * spec_prof d (quad n N (psub x (fst dw)))) wdata.
