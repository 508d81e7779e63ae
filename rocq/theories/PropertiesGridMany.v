(** C148: means over the samples of gridded distributions, and over outliers. *)
From Coquelicot Require Import Coquelicot.
From Coq Require Import ZArith.
From Verif Require Import Base ModelLinAlg ModelNd ModelSample SpecUtils SpecNd SpecSample SpecGridLaw SpecGridMany ProofSample3 ProofSample8 ProofInt ProofGridMany.
Open Scope R_scope.
Notation length := List.length.

(** * C148 *)
(** The mean, over the positions, of the sum of a function over all samples is a sum over the random numbers that choose the bins, each with the law of the grid: sorting those numbers does not matter. *)
Theorem C148_samples : forall ord ea edges dens mass sdens smass m, is_argsort ord -> grid_case ea edges dens mass sdens smass m -> 0 < total m ->
  exists G, Sample_Grid ord ea dens mass sdens smass = Ok G
  /\ forall (interp : bool) d h, (d < length edges)%nat -> (interp = true -> 0 < total dens) -> (forall x, continuous h x) ->
     exists (I : R -> R) (L : list nat -> R), is_RInt I 0 1 (asum (bin_shape edges) (fun idx => at_ m idx / total m * L idx))
       /\ (forall idx, inb (bin_shape edges) idx -> bin_mean (left_of edges d idx) (right_of edges d idx) (used_slope interp dens d idx) h (L idx))
       /\ forall n u0 c, (forall i, (i < n)%nat -> 0 <= u0 i < 1) -> (forall k i, 0 <= c k i < 1) ->
          exists J, (forall j, (j < n)%nat -> is_RInt (fun u => h (nth_draw G interp n d j u0 c u)) 0 1 (J j)) /\ rsum n J = rsum n (fun j => I (u0 j)).
Proof. exact grid_many. Qed.
Print Assumptions C148_samples.

(** The same for the samples of weight one of Sample_Outliers: bins by their share of the mass that is not above the threshold, whether or not numbers are Poisson draws. *)
Theorem C148_light : forall ord ea edges dens mass m t, is_argsort ord -> grid_case ea edges dens mass None None m -> 0 <= t -> 0 < light_mass t m ->
  exists G, Sample_Outliers ord ea dens t mass None None = Ok G
  /\ forall (interp : bool) d h, (d < length edges)%nat -> (interp = true -> 0 < total dens) -> (forall x, continuous h x) ->
     exists (I : R -> R) (L : list nat -> R), is_RInt I 0 1 (asum (bin_shape edges) (fun idx => light_share t m idx * L idx))
       /\ (forall idx, inb (bin_shape edges) idx -> bin_mean (left_of edges d idx) (right_of edges d idx) (used_slope interp dens d idx) h (L idx))
       /\ forall pin pout n u0 c, match pout with Some k => k = n | None => around (light_mass t m) = Z.of_nat n end -> (forall i, (i < n)%nat -> 0 <= u0 i < 1) -> (forall k i, 0 <= c k i < 1) ->
          exists J, (forall j, (j < n)%nat -> is_RInt (fun u => h (light_draw G t pin pout interp (length (heavy_bins t m)) d j u0 c u)) 0 1 (J j)) /\ rsum n J = rsum n (fun j => I (u0 j)).
Proof. exact light_many. Qed.
Print Assumptions C148_light.

(** With every bin above the threshold nothing is random: one point per bin, and the weighted points have exactly the first moments of the density interpolated between the grid points. *)
Theorem C148_all_heavy : forall ord ea edges dens m t interp rand, is_argsort ord -> grid_case ea edges dens None None None m -> 0 <= t -> (forall idx, inb (bin_shape edges) idx -> t < at_ m idx) ->
  (forall n, unit_draws (length edges) n rand) ->
  exists G vals w N, Sample_Outliers ord ea dens t None None None = Ok G /\ so_sample G t None None interp RsAbsent rand = Ok (Z.of_nat N, vals, w) /\ N = size_of_shape (bin_shape edges) /\ length w = N
  /\ lsum w = total m
  /\ forall d, (d < length edges)%nat -> exists moment, (forall idx, inb (bin_shape edges) idx -> let box := bin_box edges idx in
         is_box_integral box (fun x => nth d x 0 * multilinear box (fun bits => at_ dens (corner idx bits)) x) (moment idx))
     /\ rsum N (fun j => nth j w 0 * column vals j d) = asum (bin_shape edges) moment.
Proof. exact all_heavy. Qed.
Print Assumptions C148_all_heavy.

Example C148_example : exists ord ea edges dens m, is_argsort ord /\ grid_case ea edges dens None None None m /\ 0 < total m /\ 0 < total dens /\ (0 < length edges)%nat
  /\ 0 < light_mass 3 m /\ light_share 3 m [0%nat] = 1 /\ light_share 3 m [1%nat] = 0 /\ around (light_mass 3 m) = Z.of_nat 2
  /\ (forall idx, inb (bin_shape edges) idx -> 1 < at_ m idx) /\ forall n, unit_draws (length edges) n (fun _ _ => 1 / 2).
Proof.
  destruct three_case as (m & Hc & S & V0 & V1). exists some_argsort, (EFlat [0; 1; 3]), [[0; 1; 3]], (vec [1; 3; 1]), m. assert (T := three_total m S V0 V1).
  assert (LM : light_mass 3 m = 2) by (unfold light_mass; rewrite S; cbn [asum rsum]; rewrite V0, V1; destruct (Rlt_dec 3 2); [lra|]; destruct (Rlt_dec 3 4); lra).
  split; [apply some_argsort_ok|]. split; [exact Hc|]. split; [lra|]. split; [unfold total; cbn; lra|]. split; [cbn; lia|]. rewrite LM. split; [lra|].
  unfold light_share. rewrite LM, V0, V1. split; [destruct (Rlt_dec 3 2); lra|]. split; [destruct (Rlt_dec 3 4); lra|]. split.
  - unfold around. cbv zeta. rewrite (ProofInt.int_part_unique 2 2) by lra. destruct (Rltb_spec (2 - 2) (1 / 2)); [reflexivity|lra].
  - split; [|intros n d j _ _; lra]. intros idx Hi. unfold bin_shape in Hi. cbn in Hi. inversion Hi as [|i k i' k' A B]; subst. inversion B; subst. destruct i as [|[|i]]; [rewrite V0; lra|rewrite V1; lra|lia].
Qed.
