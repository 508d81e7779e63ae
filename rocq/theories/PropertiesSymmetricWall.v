(** C156: symmetric and mirrored data with reflecting boundaries. *)
From Verif Require Import Base ModelLinAlg SpecLinAlg ModelKernels ModelKDE SpecKDE SpecLinear SpecReflected SpecSymmetric SpecEdgeSlope SpecSymmetricWall ProofExamples ProofSymmetricWall ProofFlipWalls.
Open Scope R_scope.
Notation length := List.length.

(** * C156 *)
(** Data symmetric about [v] in dimension [k] and one boundary there, on either side: twice the density inside, nothing outside. *)
Theorem C156_doubled : forall n k v data w ws b resc d neffa M K (prob : bool) (r : reflspec) lim s f g, unchanged (mirrored k v) data ws -> one_bandwidth b -> weights_given w data ws ->
  kde_init n data w b false resc d None neffa None = Ok K -> kd_kernel K = Some (mkKernel d n M) -> symmetric n M -> posdef n M -> only n r k lim -> one_limit lim v s ->
  kde_density K prob n (Some r) PNone = Ok f -> kde_density K prob n None PNone = Ok g ->
  forall x, (within r x k -> f x = 2 * g x) /\ (~ within r x k -> f x = 0).
Proof. exact wall_doubled. Qed.
Print Assumptions C156_doubled.

(** Symmetric data and boundaries symmetric about the same value: a symmetric density. *)
Theorem C156_symmetric : forall n k v data w ws b resc d neffa M K (prob : bool) (r : reflspec) lim f g, unchanged (mirrored k v) data ws -> one_bandwidth b -> weights_given w data ws ->
  kde_init n data w b false resc d None neffa None = Ok K -> kd_kernel K = Some (mkKernel d n M) -> symmetric n M -> posdef n M -> only n r k lim -> flip_limits v lim = lim ->
  kde_density K prob n (Some r) PNone = Ok f -> kde_density K prob n None PNone = Ok g -> forall x, f (mirrored k v x) = f x.
Proof. exact wall_symmetric. Qed.
Print Assumptions C156_symmetric.

(** Any data, mirrored in dimension [k] together with the boundaries of that dimension; there may be others in the other dimensions: the mirrored density. *)
Theorem C156_mirrored : forall n k v data w ws b resc d neffa M M' K K' (prob : bool) (r r' : reflspec) f f', one_bandwidth b -> weights_given w data ws -> (k < n)%nat ->
  kde_init n data w b false resc d None neffa None = Ok K -> kd_kernel K = Some (mkKernel d n M) -> symmetric n M -> posdef n M ->
  kde_init n (map (mirrored k v) data) w b false resc d None neffa None = Ok K' -> kd_kernel K' = Some (mkKernel d n M') -> symmetric n M' -> posdef n M' ->
  length r = n -> flipped_walls k v r r' -> kde_density K prob n (Some r) PNone = Ok f -> kde_density K' prob n (Some r') PNone = Ok f' -> forall x, f' (mirrored k v x) = f x.
Proof. exact flip_walls. Qed.
Print Assumptions C156_mirrored.

(** Two points with a boundary half way between them, and with the boundaries 0 and 1. *)
Example C156_example : exists K M f g h, unchanged (mirrored 0 (1 / 2)) [q00; q10] [1; 1] /\ one_bandwidth BwNone /\ weights_given WNone [q00; q10] [1; 1]
  /\ kde_init 1 [q00; q10] WNone BwNone false None Gaussian None None None = Ok K /\ kd_kernel K = Some (mkKernel Gaussian 1 M) /\ symmetric 1 M /\ posdef 1 M
  /\ only 1 [Some (Some (1 / 2), None)] 0 (Some (1 / 2), None) /\ one_limit (Some (1 / 2), None) (1 / 2) 1 /\ only 1 [Some (Some 0, Some 1)] 0 (Some 0, Some 1) /\ flip_limits (1 / 2) (Some 0, Some 1) = (Some 0, Some 1)
  /\ kde_density K false 1 (Some [Some (Some (1 / 2), None)]) PNone = Ok f /\ kde_density K false 1 None PNone = Ok g /\ kde_density K false 1 (Some [Some (Some 0, Some 1)]) PNone = Ok h
  /\ f q10 = 2 * g q10 /\ f q00 = 0 /\ h q00 = h q10.
Proof. exact wall_case. Qed.

(** Three points at the corners of a triangle, with boundaries in both dimensions. *)
Example C156_mirrored_example : exists K M K' M' f f', one_bandwidth BwNone /\ weights_given WNone [q00; q10; q01] [1; 1; 1]
  /\ kde_init 2 [q00; q10; q01] WNone BwNone false None Gaussian None None None = Ok K /\ kd_kernel K = Some (mkKernel Gaussian 2 M) /\ symmetric 2 M /\ posdef 2 M
  /\ kde_init 2 (map (mirrored 0 3) [q00; q10; q01]) WNone BwNone false None Gaussian None None None = Ok K' /\ kd_kernel K' = Some (mkKernel Gaussian 2 M') /\ symmetric 2 M' /\ posdef 2 M'
  /\ flipped_walls 0 3 [Some (Some (-1), None); Some (Some 0, Some 2)] [Some (None, Some (2 * 3 - -1)); Some (Some 0, Some 2)]
  /\ kde_density K false 2 (Some [Some (Some (-1), None); Some (Some 0, Some 2)]) PNone = Ok f /\ kde_density K' false 2 (Some [Some (None, Some (2 * 3 - -1)); Some (Some 0, Some 2)]) PNone = Ok f'
  /\ f' (mirrored 0 3 q10) = f q10.
Proof. exact flip_case. Qed.
