(** Vocabulary for small changes of data, weights and evaluation points. *)
From Verif Require Import Base ModelLinAlg SpecLinAlg ModelKernels SpecKernels ModelKDE SpecKDE.
Open Scope R_scope.
Notation length := List.length.
(** Distance of two points measured by the kernel; [N] is the inverse of the kernel's matrix. *)
Definition kernel_dist (n : nat) (N : mat) (x y : pt) : R := sqrt (quad n N (psub x y)).
(** The highest value of a single kernel: the pdf of one datum at the datum. *)
Definition peak_of (n : nat) (d : dist) (M : mat) (v : R) : Prop :=
  exists p K f, built_kde n [p] [1] d M None K /\ kde_density K true n None PNone = Ok f /\ f p = v.
(** Share of each weight, and how much two lists of weights differ in the shares. *)
Definition share_diff (ws vs : list R) : R := lsum (map (fun wv : R * R => Rabs (fst wv / lsum ws - snd wv / lsum vs)) (combine ws vs)).
