(** Vocabulary for limits of the bandwidth. *)
From Verif Require Import Base ModelLinAlg SpecLinAlg ModelKernels ModelKDE SpecKDE.
Open Scope R_scope.
Notation length := List.length.
(** The same call with every positive bandwidth; [C] is the matrix of the kernel for bandwidth 1. *)
Definition family (n : nat) (data : list pt) (ws : list R) (d : dist) (C : mat) (K : R -> kde) : Prop :=
  exists w cova neffa, weights_given w data ws /\ (forall h, 0 < h -> kde_init n data w (BwAtom (BNum h)) false None d cova neffa None = Ok (K h))
  /\ kd_kernel (K 1) = Some (mkKernel d n C) /\ symmetric n C /\ posdef n C.
(** [x] is the point [p]. *)
Definition same_point (n : nat) (x p : pt) : Prop := forall i, (i < n)%nat -> x i = p i.
(** The weight of the data strictly between [a] and [b]. *)
Definition weight_between (a b : R) (data : list pt) (ws : list R) : R :=
  lsum (map (fun dw : pt * R => if Rlt_dec a (fst dw O) then if Rlt_dec (fst dw O) b then snd dw else 0 else 0) (combine data ws)).
