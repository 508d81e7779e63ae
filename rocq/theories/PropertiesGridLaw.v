(** C146: the law of samples from gridded distributions. *)
From Coquelicot Require Import Coquelicot.
From Coq Require Import ZArith.
From Verif Require Import Base ModelLinAlg ModelNd ModelSample SpecUtils SpecNd SpecSample SpecGridLaw ProofSample8 ProofGridLaw.
Open Scope R_scope.
Notation length := List.length.

(** * C146 *)
(** The mean of any continuous function of a coordinate, over the random number for the bin and the one for the position: bins by mass, and within a bin a linear density. *)
Theorem C146_law : forall ord ea edges dens mass sdens smass m, is_argsort ord -> grid_case ea edges dens mass sdens smass m -> 0 < total m ->
  exists G, Sample_Grid ord ea dens mass sdens smass = Ok G
  /\ forall (interp : bool) d h c, (d < length edges)%nat -> (interp = true -> 0 < total dens) -> (forall x, continuous h x) -> (forall k, 0 <= c k < 1) ->
     exists (I : R -> R) (L : list nat -> R), (forall u0, 0 <= u0 < 1 -> is_RInt (fun u => h (one_draw G interp d c u0 u)) 0 1 (I u0))
       /\ is_RInt I 0 1 (asum (bin_shape edges) (fun idx => at_ m idx / total m * L idx))
       /\ forall idx, inb (bin_shape edges) idx -> bin_mean (left_of edges d idx) (right_of edges d idx) (used_slope interp dens d idx) h (L idx).
Proof. exact grid_law. Qed.
Print Assumptions C146_law.

(** Within a bin the coordinates are independent: each depends on the random number for the bin and its own one only, and means of products are those of the bins. *)
Theorem C146_joint : forall ord ea edges dens mass sdens smass m, is_argsort ord -> grid_case ea edges dens mass sdens smass m -> 0 < total m ->
  exists G, Sample_Grid ord ea dens mass sdens smass = Ok G
  /\ forall (interp : bool) (h : nat -> R -> R) c, (interp = true -> 0 < total dens) -> (forall d x, continuous (h d) x) -> (forall k, 0 <= c k < 1) ->
     (forall d c' u0 u, (d < length edges)%nat -> (forall k, 0 <= c' k < 1) -> 0 <= u0 < 1 -> 0 <= u < 1 -> one_draw G interp d c' u0 u = one_draw G interp d c u0 u)
     /\ exists (I : nat -> R -> R) (L : nat -> list nat -> R), (forall d u0, (d < length edges)%nat -> 0 <= u0 < 1 -> is_RInt (fun u => h d (one_draw G interp d c u0 u)) 0 1 (I d u0))
       /\ is_RInt (fun u0 => rprod (length edges) (fun d => I d u0)) 0 1 (asum (bin_shape edges) (fun idx => at_ m idx / total m * rprod (length edges) (fun d => L d idx)))
       /\ forall d idx, (d < length edges)%nat -> inb (bin_shape edges) idx -> bin_mean (left_of edges d idx) (right_of edges d idx) (used_slope interp dens d idx) (h d) (L d idx).
Proof. exact grid_joint. Qed.
Print Assumptions C146_joint.

(** The linear density within a bin is normalised ... *)
Theorem C146_whole : forall a b g, a < b -> bin_mean a b g (fun _ => 1) 1.
Proof. exact bin_total_one. Qed.
Print Assumptions C146_whole.

(** ... and moves the mean position by a twelfth of the slope from the middle. *)
Theorem C146_centre : forall a b g l, a < b -> Rabs g <= 2 -> bin_mean a b g (fun x => x) l -> l = a + (b - a) * (1 / 2 + g / 12).
Proof. exact bin_centre. Qed.
Print Assumptions C146_centre.

(** Samples come ordered by the mass of their bin, the least massive first. *)
Theorem C146_order : forall ord ea edges dens mass sdens smass m nsamp interp rs rand n, is_argsort ord -> grid_case ea edges dens mass sdens smass m -> 0 < total m ->
  wants nsamp m n -> unit_draws (length edges) n rand -> (forall j, (j < n)%nat -> 0 < rand 0%nat j) ->
  exists G vals sc (bin : nat -> list nat), Sample_Grid ord ea dens mass sdens smass = Ok G /\ sg_sample G nsamp interp rs rand = Ok (vals, sc)
  /\ (forall j, (j < n)%nat -> inb (bin_shape edges) (bin j) /\ in_bin edges (bin j) (column vals j))
  /\ forall i j, (i <= j < n)%nat -> at_ m (bin i) <= at_ m (bin j).
Proof. exact grid_order. Qed.
Print Assumptions C146_order.

(** With interpolation each sample is in the part of its bin where the linear density is not negative. *)
Theorem C146_reach : forall ord ea edges dens mass sdens smass m nsamp rs rand n, is_argsort ord -> grid_case ea edges dens mass sdens smass m -> 0 < total m -> 0 < total dens ->
  wants nsamp m n -> unit_draws (length edges) n rand ->
  exists G vals sc, Sample_Grid ord ea dens mass sdens smass = Ok G /\ sg_sample G nsamp true rs rand = Ok (vals, sc)
  /\ forall j, (j < n)%nat -> exists idx, inb (bin_shape edges) idx /\ 0 < at_ m idx /\ forall d, (d < length edges)%nat ->
     let a := left_of edges d idx in let b := right_of edges d idx in let g := used_slope true dens d idx in
     a + (b - a) * reach_lo g <= column vals j d <= a + (b - a) * reach_hi g.
Proof. exact grid_reach. Qed.
Print Assumptions C146_reach.

(** Every part of a grid with positive densities is reached: refuted, on the edges 0, 1, 2, 3, 4 with the densities 1, 9, 1, 1, 1 nothing is drawn below 7/20. *)
Theorem C146_everywhere_refuted : exists ord e ys, is_argsort ord /\ incr_list e /\ length e = length ys /\ nth 0 e 0 = 0 /\ (forall y, In y ys -> 0 < y)
  /\ forall nsamp rs rand n, nsamp = Some (INR n) -> unit_draws 1 n rand ->
     exists G vals sc, Sample_Grid ord (EFlat e) (vec ys) None None None = Ok G /\ sg_sample G nsamp true rs rand = Ok (vals, sc)
     /\ forall j, (j < n)%nat -> 7 / 20 <= column vals j 0.
Proof. exact never_drawn. Qed.
Print Assumptions C146_everywhere_refuted.

Example C146_example : exists ord ea edges dens m, is_argsort ord /\ grid_case ea edges dens None None None m /\ 0 < total m /\ 0 < total dens /\ (0 < length edges)%nat
  /\ wants None m 6 /\ unit_draws (length edges) 6 (fun _ _ => 1 / 2) /\ at_ m [0%nat] / total m = 1 / 3
  /\ used_slope true dens 0 [0%nat] = 6 / 5 /\ reach_lo (6 / 5) = 0 /\ reach_hi (6 / 5) = 1 /\ reach_lo 4 = 1 / 2 /\ reach_hi (-8) = 1 / 4.
Proof.
  destruct three_case as (m & Hc & S & V0 & V1). exists some_argsort, (EFlat [0; 1; 3]), [[0; 1; 3]], (vec [1; 3; 1]), m. assert (T := three_total m S V0 V1).
  assert (TD : total (vec [1; 3; 1]) = 5) by (unfold total; cbn; lra).
  split; [apply some_argsort_ok|]. split; [exact Hc|]. split; [lra|]. split; [lra|]. split; [cbn; lia|]. split; [unfold wants; rewrite T; cbn; lra|]. split; [intros d j _ _; lra|]. split; [rewrite T, V0; lra|]. split.
  - assert (EE : rel_slope (vec [1; 3; 1]) 0 [0%nat] = 6 / 5) by (unfold rel_slope; rewrite TD; unfold side_mean; cbn; field). unfold used_slope. rewrite EE.
    destruct (Rlt_dec (/ 10 ^ 16) (Rabs (6 / 5))) as [X|X]; [reflexivity|]. exfalso. apply X. rewrite Rabs_pos_eq by lra. lra.
  - unfold reach_lo, reach_hi. repeat match goal with |- context [Rle_dec ?x ?y] => destruct (Rle_dec x y); try lra end.
Qed.
