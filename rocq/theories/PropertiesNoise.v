(** Property C120: the noise of the kernels against the kernels. *)
From Coquelicot Require Import Coquelicot.
From Verif Require Import Base ModelLinAlg ModelKernels SpecIntegral ModelResample SpecNoise ProofNoise ProofNoise2 ProofNoise3 ProofNoise4.
Open Scope R_scope.

(** * C120 *)
(** Box, one dimension: the noise follows the kernel (means of continuous functions agree). *)
Theorem C120_box : forall r (g : R -> R), (forall x, continuous g x) ->
  exists m, uniform_mean 1 (-1) 1 (fun u => g (dist_sample Box 1 (with_sym r 0 u) 0%nat)) m /\ is_tint (fun t => g t * dist_evaluate Box 1 (fun _ => t)) m.
Proof. exact box_law. Qed.
Print Assumptions C120_box.

(** Parabola: every coordinate, in any dimension, follows the one-dimensional kernel. *)
Theorem C120_parabola : forall n i r (g : R -> R), (forall x, continuous g x) ->
  exists m, uniform_mean 3 (-1) 1 (fun u => g (dist_sample Parabola n (with_sym r i u) i)) m /\ is_tint (fun t => g t * dist_evaluate Parabola 1 (fun _ => t)) m.
Proof. exact parabola_law. Qed.
Print Assumptions C120_parabola.

(** Triweight, one dimension: up to the spacing of the table (both signs of the normal deviate taken together). *)
Theorem C120_triweight : forall r (g : R -> R) L, (forall x, continuous g x) -> lipschitz g L -> r_norm r 0%nat <> 0 ->
  exists a b m, uniform_mean 1 0 1 (fun u => g (dist_sample Triweight 1 (with_unif r u) 0%nat)) a
  /\ uniform_mean 1 0 1 (fun u => g (dist_sample Triweight 1 (with_unif (flipped r) u) 0%nat)) b
  /\ is_tint (fun t => g t * dist_evaluate Triweight 1 (fun _ => t)) m /\ Rabs ((a + b) / 2 - m) <= L / 999.
Proof. exact triweight_law. Qed.
Print Assumptions C120_triweight.

(** Parabola, several dimensions: the variance of each coordinate is larger than that of the kernel. *)
Theorem C120_parabola_several : forall n i r base, (2 <= n)%nat -> (i < n)%nat ->
  uniform_mean 3 (-1) 1 (fun u => dist_sample Parabola n (with_sym r i u) i * dist_sample Parabola n (with_sym r i u) i) (1 / 5)
  /\ is_tintN n (fun x => x i * x i * dist_evaluate Parabola n x) base (1 / (INR n + 4)) /\ 1 / (INR n + 4) < 1 / 5.
Proof. exact parabola_spread. Qed.
Print Assumptions C120_parabola_several.

(** Triweight, several dimensions: the mean square of the length, one ninth in every dimension, is smaller than that of the kernel. *)
Theorem C120_triweight_several : forall n r base, (2 <= n)%nat -> (exists k, (k < n)%nat /\ r_norm r k <> 0) ->
  exists v, uniform_mean n 0 1 (fun u => norm2 n (dist_sample Triweight n (with_unif r u))) v /\ Rabs (v - 1 / 9) <= 2 / 999
  /\ is_tintN n (fun x => norm2 n x * dist_evaluate Triweight n x) base (INR n / (INR n + 8)) /\ v < INR n / (INR n + 8).
Proof. exact triweight_spread. Qed.
Print Assumptions C120_triweight_several.

(** Box, several dimensions: the mean square of the length is that of the kernel ... *)
Theorem C120_box_several : forall n r base, (2 <= n)%nat -> (exists k, (k < n)%nat /\ r_norm r k <> 0) ->
  uniform_mean n 0 1 (fun u => norm2 n (dist_sample Box n (with_unif r u))) (INR n / (INR n + 2))
  /\ is_tintN n (fun x => norm2 n x * dist_evaluate Box n x) base (INR n / (INR n + 2)).
Proof. exact box_spread. Qed.
Print Assumptions C120_box_several.

(** ... but the mean fourth power is smaller: lengths are more concentrated, because every coordinate has a radius of its own. *)
Theorem C120_box_fourth : forall n r base i j, (i < n)%nat -> (j < n)%nat -> i <> j -> r_norm r i <> 0 -> r_norm r j <> 0 ->
  exists v, uniform_mean n 0 1 (fun u => norm2 n (dist_sample Box n (with_unif r u)) * norm2 n (dist_sample Box n (with_unif r u))) v
  /\ is_tintN n (fun x => norm2 n x * norm2 n x * dist_evaluate Box n x) base (INR n / (INR n + 4)) /\ v < INR n / (INR n + 4).
Proof. exact box_tails. Qed.
Print Assumptions C120_box_fourth.

(** So it is false that the noise follows the kernel in every dimension. *)
Theorem C120_several_refuted : exists n i r v w, (i < n)%nat /\ uniform_mean 3 (-1) 1 (fun u => dist_sample Parabola n (with_sym r i u) i * dist_sample Parabola n (with_sym r i u) i) v
  /\ (forall base, is_tintN n (fun x => x i * x i * dist_evaluate Parabola n x) base w) /\ v <> w.
Proof. exact several_refuted. Qed.
Print Assumptions C120_several_refuted.

Example C120_example : (forall x, continuous (fun t : R => t * t) x) /\ lipschitz (fun t => t * t) 2 /\ uniform_mean 2 0 1 (fun u => u 0%nat * u 0%nat) (1 / 3)
  /\ in_cube 2 0 1 (fun k => 1 / (INR k + 1)) = true /\ in_cube 2 0 1 (fun k => INR k + 1) = false.
Proof. exact noise_example. Qed.
Print Assumptions C120_example.
