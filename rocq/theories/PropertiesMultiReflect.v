(** Property C115: the total of densities with reflecting boundaries in several dimensions. *)
From Coq Require Import Permutation.
From Verif Require Import Base ModelLinAlg SpecLinAlg SpecIntegral ModelKernels SpecKernels ModelKDE SpecKDE
  SpecReflected ProofKDE ProofTop2 ProofMultiReflect.
Open Scope R_scope.
Notation length := List.length.

(** * C115 *)
(** Only dimension i has boundaries: integrated over the other dimensions, the density is the marginal of the density without boundaries plus its mirror images, within the limits, and zero outside. *)
Theorem C115_marginal : forall n data ws d M K (prob : bool) (r : reflspec) i others f g, built_kde n data ws d M None K -> length r = n ->
  Permutation (i :: others) (seq 0 n) -> (forall j, j <> i -> nth j r None = None) ->
  kde_density K prob n None PNone = Ok g -> kde_density K prob n (Some r) PNone = Ok f ->
  exists G, (forall t, 0 <= G t) /\ is_tint G (mass prob ws) /\ forall base : pt,
    is_tintL others g base (G (base i))
    /\ (within r base i -> is_tintL others f base (G (base i) + sumf (fun v => G (2 * v - base i)) (boundaries (nth i r None))))
    /\ (~ within r base i -> is_tintL others f base 0).
Proof. exact top_fold. Qed.
Print Assumptions C115_marginal.

(** One boundary in one of the dimensions, any kernel, any matrix: the total is kept. *)
Theorem C115_one_boundary : forall n data ws d M K (prob : bool) (r : reflspec) i others f base, built_kde n data ws d M None K -> length r = n ->
  Permutation (i :: others) (seq 0 n) -> (forall j, j <> i -> nth j r None = None) -> (length (boundaries (nth i r None)) <= 1)%nat ->
  kde_density K prob n (Some r) PNone = Ok f -> is_tintL (i :: others) f base (mass prob ws).
Proof. exact top_fold_one. Qed.
Print Assumptions C115_one_boundary.

(** Two boundaries in one of the dimensions, kernel of finite support not wider than the gap, data within: the total is kept. *)
Theorem C115_two_boundaries : forall n data ws d M K (prob : bool) (r : reflspec) i others lo hi f base, built_kde n data ws d M None K -> length r = n ->
  Permutation (i :: others) (seq 0 n) -> (forall j, j <> i -> nth j r None = None) -> nth i r None = Some (Some lo, Some hi) ->
  finite d = true -> lo < hi -> sqrt (M i i) <= hi - lo -> (forall p, In p data -> lo <= p i <= hi) ->
  kde_density K prob n (Some r) PNone = Ok f -> is_tintL (i :: others) f base (mass prob ws).
Proof. exact top_fold_two. Qed.
Print Assumptions C115_two_boundaries.

(** Two boundaries in one of the dimensions, Gaussian kernel: some of the total is lost. *)
Theorem C115_gaussian_loses : forall n data ws M K (prob : bool) (r : reflspec) i others lo hi f, built_kde n data ws Gaussian M None K -> length r = n ->
  Permutation (i :: others) (seq 0 n) -> (forall j, j <> i -> nth j r None = None) -> nth i r None = Some (Some lo, Some hi) -> lo < hi ->
  kde_density K prob n (Some r) PNone = Ok f -> exists y, y < mass prob ws /\ forall base, is_tintL (i :: others) f base y.
Proof. exact top_fold_loses. Qed.
Print Assumptions C115_gaussian_loses.

(** Two parameters, the second with the boundaries -1 and 1. *)
Example C115_example : exists K f g, built_kde 2 [origin] [1] Box ident None K /\ Permutation [1%nat; 0%nat] (seq 0 2)
  /\ (forall j, j <> 1%nat -> nth j ([None; Some (Some (-1), Some 1)] : reflspec) None = None)
  /\ kde_density K true 2 None PNone = Ok g /\ kde_density K true 2 (Some [None; Some (Some (-1), Some 1)]) PNone = Ok f
  /\ finite Box = true /\ sqrt (ident 1%nat 1%nat) <= 1 - -1 /\ (forall p, In p [origin] -> -1 <= p 1%nat <= 1).
Proof. exact ex_one_dimension. Qed.

(** A boundary in every one of n dimensions and a data point in the corner, Gaussian kernel: the share (n + 1) / 2^n of the total lies within the boundaries, the rest outside. *)
Theorem C115_corner : forall n K f base, (1 <= n)%nat -> built_kde n [origin] [1] Gaussian ident None K ->
  kde_pdf K n (Some (repeat (Some (Some 0, None)) n)) PNone = Ok f ->
  is_tintN n f base 1
  /\ forall fin, (forall x : pt, (forall i, (i < n)%nat -> 0 <= x i) -> fin x = f x) -> (forall x : pt, (exists i, (i < n)%nat /\ x i < 0) -> fin x = 0) ->
     is_tintN n fin base ((INR n + 1) / 2 ^ n).
Proof. exact corner_share. Qed.
Print Assumptions C115_corner.

Example C115_corner_example : exists K, built_kde 2 [origin] [1] Gaussian ident None K.
Proof. exists (k12 Gaussian 2 None). apply k12_built. Qed.

(** So with one boundary in each of two dimensions and all data within them, the density within the boundaries does not integrate to one. *)
Theorem C115_several_dimensions_refuted : exists n data ws d M K (r : reflspec) f fin base l, built_kde n data ws d M None K /\ length r = n
  /\ (forall i, (i < n)%nat -> (length (boundaries (nth i r None)) <= 1)%nat) /\ (forall p i, In p data -> within r p i)
  /\ kde_pdf K n (Some r) PNone = Ok f /\ (forall x, within_from r x 0 -> fin x = f x) /\ (forall x, ~ within_from r x 0 -> fin x = 0)
  /\ is_tintN n fin base l /\ l < 1.
Proof. exact corner_refuted. Qed.
Print Assumptions C115_several_dimensions_refuted.

