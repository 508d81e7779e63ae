(** Vocabulary for the slope of the density. *)
From Coquelicot Require Import Coquelicot.
From Verif Require Import Base ModelLinAlg SpecLinAlg ModelKernels SpecKernels SpecContinuous.
Open Scope R_scope.
Notation length := List.length.
(** How fast the profile of a kernel falls with the squared distance. *)
Definition falling (d : dist) (r : R) : R :=
  match d with
  | Gaussian => exp (- (r / 2)) / 2
  | Box => 0
  | Parabola => if Rlt_dec r 1 then 1 else 0
  | Triweight => if Rlt_dec r 1 then 3 * ((1 - r) * (1 - r)) else 0
  end.
(** Where the profile has a slope. *)
Definition smooth (d : dist) (r : R) : Prop := match d with Box | Parabola => r <> 1 | Gaussian | Triweight => True end.
(** Product of two vectors in the metric [N]. *)
Definition inner (n : nat) (N : mat) (u v : pt) : R := rsum n (fun i => rsum n (fun j => u i * N i j * v j)).
(** The point [x] moved by [t] times [v]. *)
Definition step (x v : pt) (t : R) : pt := fun i => x i + t * v i.
(** No point close to [x] has a higher value. *)
Definition local_max (n : nat) (f : pt -> R) (x : pt) : Prop := exists delta, 0 < delta /\ forall y, near n delta x y -> f y <= f x.
(** The pull of the data points on [x]: their weights times the fall of their kernels. *)
Definition pull (d : dist) (n : nat) (N : mat) (wdata : list (pt * R)) (x : pt) : R := sumf (fun dw => snd dw * falling d (quad n N (psub x (fst dw)))) wdata.
Definition pulled (d : dist) (n : nat) (N : mat) (wdata : list (pt * R)) (x : pt) (i : nat) : R :=
  sumf (fun dw => snd dw * falling d (quad n N (psub x (fst dw))) * fst dw i) wdata.
