(** C134: accuracy of the cumulative distribution in one dimension. *)
From Coquelicot Require Import Coquelicot.
From Verif Require Import Base ModelLinAlg SpecLinAlg ModelKernels SpecKernels ModelKDE SpecKDE ModelExtrema ModelGrid SpecNd SpecIntegral SpecReflected SpecCdfError
  ProofLinAlg ProofExamples ProofTop3 ProofIntegral ProofReflect1 ProofTop2 ProofGrid3 ProofKDE ProofCdfError.
Open Scope R_scope.
Notation length := List.length.

(** * C134 *)
(** On a grid with spacing [h] between the boundaries: the distance from the probability of [first grid, x] given that the value is on the grid.
    Every kernel; with boundaries the largest kernel value counts once more for each. *)
Theorem C134_error : forall data ws d M refl K g h p f total, built_kde 1 data ws d M refl K -> is_grid [g] -> spaced h g -> peak d (M O O) p ->
  kde_density K true 1 None PNone = Ok f -> allowed refl (first g) -> allowed refl (final g) -> prob_between f (first g) (final g) total ->
  INR (S (length (walls refl))) * p * h < total ->
  forall x, first g <= x <= final g -> exists v q, kde_cdf K [g] false false [x] = Ok (Fin v) /\ prob_between f (first g) x q
    /\ Rabs (v - q / total) <= 2 * (INR (S (length (walls refl))) * p * h) / total.
Proof. exact cdf_error. Qed.
Print Assumptions C134_error.

(** The probability of everything up to [x]: what lies outside the grid is a second error. *)
Theorem C134_upto : forall data ws d M K g h p f total, built_kde 1 data ws d M None K -> is_grid [g] -> spaced h g -> peak d (M O O) p ->
  kde_density K true 1 None PNone = Ok f -> prob_between f (first g) (final g) total -> p * h < total ->
  forall x, first g <= x <= final g -> exists v q, kde_cdf K [g] false false [x] = Ok (Fin v) /\ prob_upto f x q /\ Rabs (v - q) <= 2 * (p * h) / total + (1 - total).
Proof. exact cdf_error_upto. Qed.
Print Assumptions C134_upto.

(** Finite kernels on a grid between the extrema: nothing lies outside. *)
Theorem C134_finite : forall data ws d M K g h p f ppf x, built_kde 1 data ws d M None K -> finite d = true -> is_grid [g] -> spaced h g -> peak d (M O O) p ->
  kde_density K true 1 None PNone = Ok f -> kde_extrema K ppf None = Some (Ok [(first g, final g)]) -> p * h < 1 ->
  first g <= x <= final g -> exists v q, kde_cdf K [g] false false [x] = Ok (Fin v) /\ prob_upto f x q /\ Rabs (v - q) <= 2 * (p * h).
Proof. exact cdf_error_finite. Qed.
Print Assumptions C134_finite.

Theorem C134_converges : forall data ws d M refl K f a b total, built_kde 1 data ws d M refl K -> kde_density K true 1 None PNone = Ok f -> allowed refl a -> allowed refl b ->
  prob_between f a b total -> 0 < total -> forall eps, 0 < eps -> exists delta, 0 < delta /\
  forall g, is_grid [g] -> first g = a -> final g = b -> spaced delta g ->
  forall x, a <= x <= b -> exists v q, kde_cdf K [g] false false [x] = Ok (Fin v) /\ prob_between f a x q /\ Rabs (v - q / total) < eps.
Proof. exact cdf_converges. Qed.
Print Assumptions C134_converges.

(** With the Gaussian kernel the value at the end of the grid is one, and the probability is less, for every grid. *)
Theorem C134_tail_refuted : forall data ws M K f g, built_kde 1 data ws Gaussian M None K -> kde_density K true 1 None PNone = Ok f -> is_grid [g] ->
  kde_cdf K [g] false false [final g] = Ok (Fin 1) /\ exists q, prob_upto f (final g) q /\ q < 1.
Proof. exact cdf_tail. Qed.
Print Assumptions C134_tail_refuted.

(** Too coarse a grid around the data: not a number, everywhere. *)
Theorem C134_coarse_refuted : forall d, finite d = true -> exists K g, built_kde 1 [pt1 0] [1] d ident None K /\ is_grid [g] /\ first g < 0 < final g /\ forall x, kde_cdf K [g] false false [x] = Ok NaN.
Proof. exact coarse_refuted. Qed.
Print Assumptions C134_coarse_refuted.

(** Two weighted points, a Gaussian kernel and a grid fine enough. *)
Example C134_example : exists K f p total g h, built_kde 1 [p0; p1] [3; 1] Gaussian ident None K /\ kde_density K true 1 None PNone = Ok f /\ peak Gaussian (ident O O) p
  /\ is_grid [g] /\ first g = -3 /\ final g = 4 /\ spaced h g /\ prob_between f (first g) (final g) total /\ p * h < total.
Proof.
  destruct (unit_kde 1 [p0; p1] [3; 1] Gaussian None) as [K [HK [HB _]]]; [discriminate|reflexivity| | |].
  - intros v [<-|[<-|[]]]; lra.
  - exists 3. split; [left; reflexivity|lra].
  - destruct (density_refl_exists_none 1 _ _ _ _ _ true HB (le_n 1)) as [f Hf]. destruct (peak_exists Gaussian (ident O O)) as [p [Hp0 Hp]]; [unfold ident; cbn; lra|].
    destruct (tint_ex_RInt _ _ (-3) 4 (density_total_1 _ _ _ _ _ _ HB Hf)) as [total Ht]; [lra|].
    assert (Hpos : 0 < total).
    { exact (gaussian_total _ _ _ _ _ _ _ HB Hf _ Ht ltac:(lra)). }
    destruct (uniform_grid (-3) 4 (total / (2 * p))) as (g & HG & E1 & E2 & Hs); [lra|apply Rdiv_lt_0_compat; lra|].
    exists K, f, p, total, g, (total / (2 * p)). do 7 (split; [assumption|]). split; [rewrite E1, E2; exact Ht|]. replace (p * (total / (2 * p))) with (total / 2) by (field; lra). lra.
Qed.
