(** Properties C51-C57, C75-C78: sampling from gridded distributions (kalepy/sample.py). *)
From Coq Require Import ZArith Permutation.
From Verif Require Import Base ModelLinAlg ModelKernels ModelKDE ModelInterp ModelResample ModelUtils ModelNd ModelSample
  SpecUtils SpecNd SpecSample ProofInterp ProofUtils ProofUtils2 ProofUtils4 ProofNested ProofNd ProofNd2 ProofNd3 ProofGrid ProofGrid2
  ProofSample ProofSample2 ProofSample3 ProofSample4 ProofSample5 ProofSample6 ProofSample7 ProofSample8.
Open Scope R_scope.
Notation length := List.length.

(** * C51 *)
(** Any number of dimensions, given or computed masses; the bin has a positive mass. *)
Theorem C51_samples_in_bins : forall ord ea edges dens mass sdens smass m nsamp interp rs rand n, is_argsort ord -> grid_case ea edges dens mass sdens smass m -> 0 < total m -> wants nsamp m n -> unit_draws (length edges) n rand ->
  exists G vals sc, Sample_Grid ord ea dens mass sdens smass = Ok G /\ sg_sample G nsamp interp rs rand = Ok (vals, sc)
  /\ shp vals = [length edges; n]
  /\ forall j, (j < n)%nat -> exists idx, inb (bin_shape edges) idx /\ in_bin edges idx (column vals j) /\ 0 < at_ m idx.
Proof. exact samples_in_bins. Qed.
Print Assumptions C51_samples_in_bins.

Example C51_example : exists ord ea edges dens m, is_argsort ord /\ grid_case ea edges dens None None None m /\ 0 < total m /\ wants None m 6 /\ unit_draws (length edges) 6 (fun _ _ => 1 / 2).
Proof.
  destruct three_case as (m & Hc & S & V0 & V1). exists some_argsort, (EFlat [0; 1; 3]), [[0; 1; 3]], (vec [1; 3; 1]), m. assert (T := three_total m S V0 V1).
  split; [apply some_argsort_ok|]. split; [exact Hc|]. split; [lra|]. split; [unfold wants; rewrite T; cbn; lra|]. intros d j _ _. lra.
Qed.

(** * C52 *)
(** The intervals (lo, hi] of random numbers leading to a bin: their lengths are the shares of the mass, and they are disjoint and cover (0, 1]. *)
Theorem C52_bins_by_mass : forall ord ea edges dens mass sdens smass m, is_argsort ord -> grid_case ea edges dens mass sdens smass m -> 0 < total m ->
  exists G (lo hi : list nat -> R), Sample_Grid ord ea dens mass sdens smass = Ok G
  /\ (forall idx, inb (bin_shape edges) idx -> 0 <= lo idx <= hi idx /\ hi idx <= 1 /\ hi idx - lo idx = at_ m idx / total m)
  /\ (forall u, 0 < u <= 1 -> exists idx, inb (bin_shape edges) idx /\ lo idx < u <= hi idx
        /\ forall idx', inb (bin_shape edges) idx' -> lo idx' < u <= hi idx' -> idx' = idx)
  /\ forall nsamp interp rs rand n, wants nsamp m n -> unit_draws (length edges) n rand ->
     exists vals sc us, sg_sample G nsamp interp rs rand = Ok (vals, sc) /\ sorted_of (map (rand 0%nat) (seq 0 n)) us
     /\ forall j idx, (j < n)%nat -> inb (bin_shape edges) idx -> lo idx < nth j us 0 <= hi idx -> in_bin edges idx (column vals j).
Proof. exact bins_by_mass. Qed.
Print Assumptions C52_bins_by_mass.

Example C52_example : exists ord ea edges dens m, is_argsort ord /\ grid_case ea edges dens None None None m /\ total m = 6 /\ at_ m [1%nat] / total m = 2 / 3.
Proof.
  destruct three_case as (m & Hc & S & V0 & V1). exists some_argsort, (EFlat [0; 1; 3]), [[0; 1; 3]], (vec [1; 3; 1]), m. assert (T := three_total m S V0 V1).
  split; [apply some_argsort_ok|]. split; [exact Hc|]. split; [exact T|]. rewrite T, V1. lra.
Qed.

(** * C53 *)
Theorem C53_inverse_transform : forall g u, flat_tol < Rabs g -> Rabs g <= 2 -> 0 <= u <= 1 ->
  let x := intrabin_pos (Some g) u in
  0 <= x <= 1 /\ linear_cdf (1 - g / 2) (1 + g / 2) x = u /\ forall x', 0 <= x' <= 1 -> linear_cdf (1 - g / 2) (1 + g / 2) x' = u -> x' = x.
Proof. exact intrabin_inverse. Qed.
Print Assumptions C53_inverse_transform.

(** The relative positions of the samples in their bins; the slope g is relative to the mean over the whole grid. *)
Theorem C53_sample_positions : forall ord ea edges dens mass sdens smass m nsamp rs rand n, is_argsort ord -> grid_case ea edges dens mass sdens smass m -> 0 < total m -> 0 < total dens -> wants nsamp m n -> unit_draws (length edges) n rand ->
  exists G vals sc, Sample_Grid ord ea dens mass sdens smass = Ok G /\ sg_sample G nsamp true rs rand = Ok (vals, sc)
  /\ forall j, (j < n)%nat -> exists idx, inb (bin_shape edges) idx /\ forall d, (d < length edges)%nat ->
     let e := nth d edges [] in let i := nth d idx 0%nat in
     let g := (side_mean dens d 1 idx - side_mean dens d 0 idx) / (total dens / INR (size_of_shape (shp dens))) in
     exists x, 0 <= x <= 1 /\ column vals j d = nth i e 0 + (nth (S i) e 0 - nth i e 0) * x
     /\ (flat_tol < Rabs g -> (1 - g / 2) * x + g * x ^ 2 / 2 = rand (S d) j) /\ (Rabs g <= flat_tol -> x = rand (S d) j).
Proof. exact sample_positions. Qed.
Print Assumptions C53_sample_positions.

Example C53_example : flat_tol < Rabs 2 /\ Rabs 2 <= 2 /\ intrabin_pos (Some 2) (1 / 4) = 1 / 2.
Proof.
  assert (F : flat_tol < 2) by (unfold flat_tol; rewrite <- (Rinv_inv 2); apply Rinv_lt_contravar; [apply Rmult_lt_0_compat; [lra|apply pow_lt; lra]|apply Rlt_le_trans with (10 ^ 0); [cbn; lra|apply Rle_pow; [lra|lia]]]).
  rewrite Rabs_pos_eq by lra. split; [exact F|]. split; [lra|]. unfold intrabin_pos. rewrite Rabs_pos_eq by lra. rewrite (proj2 (Rltb_true flat_tol 2) F). cbv zeta.
  replace (2 * (1 / 4) * 2 + (1 - 2 / 2) ^ 2) with (1 * 1) by field. rewrite sqrt_square by lra. field.
Qed.

(** * C54 *)
(** Exact condition in one dimension: the density is constant over the bin, or its mean over the bin is the mean over all grid points (and the slope is not below the tolerance). *)
Theorem C54_followed_iff : forall ord e ys mass sdens smass m i, is_argsort ord -> grid_case (EFlat e) [e] (vec ys) mass sdens smass m -> 0 < total m ->
  (S i < length e)%nat -> 0 < at_ m [i] -> 0 < nth i ys 0 + nth (S i) ys 0 ->
  let yl := nth i ys 0 in let yr := nth (S i) ys 0 in
  exists G, Sample_Grid ord (EFlat e) (vec ys) mass sdens smass = Ok G
  /\ ((forall rs rand vals sc, unit_draws 1 1 rand -> sg_sample G (Some 1) true rs rand = Ok (vals, sc) ->
         nth i e 0 < column vals 0 0 < nth (S i) e 0 ->
         linear_cdf yl yr ((column vals 0 0 - nth i e 0) / (nth (S i) e 0 - nth i e 0)) = rand 1%nat 0%nat)
      <-> yl = yr \/ ((yl + yr) / 2 = mean_of ys /\ flat_tol < Rabs (yr - yl) / mean_of ys)).
Proof. exact density_followed_iff. Qed.
Print Assumptions C54_followed_iff.

Theorem C54_follows_density_refuted : exists ord e ys G, is_argsort ord /\ incr_list e /\ length ys = length e /\ (forall y, In y ys -> 0 < y)
  /\ Sample_Grid ord (EFlat e) (vec ys) None None None = Ok G
  /\ ~ (forall rs rand vals sc, unit_draws 1 1 rand -> sg_sample G (Some 1) true rs rand = Ok (vals, sc) -> nth 0 e 0 < column vals 0 0 < nth 1 e 0 ->
        linear_cdf (nth 0 ys 0) (nth 1 ys 0) ((column vals 0 0 - nth 0 e 0) / (nth 1 e 0 - nth 0 e 0)) = rand 1%nat 0%nat).
Proof. exact density_not_followed. Qed.
Print Assumptions C54_follows_density_refuted.

Example C54_example : exists ord e ys m, is_argsort ord /\ grid_case (EFlat e) [e] (vec ys) None None None m /\ 0 < total m /\ 0 < at_ m [0%nat] /\ 0 < nth 0 ys 0 + nth 1 ys 0 /\ (2 <= length e)%nat.
Proof.
  destruct three_case as (m & Hc & S & V0 & V1). exists some_argsort, [0; 1; 3], [1; 3; 1], m. assert (T := three_total m S V0 V1).
  split; [apply some_argsort_ok|]. split; [exact Hc|]. split; [lra|]. split; [lra|]. cbn. split; [lra|lia].
Qed.

(** * C55 *)
Theorem C55_scalars_fail_iff : forall ord ea edges dens mass sd smass m nsamp squeeze interp rs rand n, is_argsort ord -> grid_case ea edges dens mass (Some sd) smass m -> 0 < total m -> wants nsamp m n -> unit_draws (length edges) n rand -> rs <> Some false ->
  sample_grid ord ea dens nsamp mass (Some sd) smass squeeze interp rs rand = Err AttributeError
  <-> squeeze = Some true \/ squeeze = None /\ length edges = 1%nat.
Proof. exact scalar_squeeze_fails. Qed.
Print Assumptions C55_scalars_fail_iff.

(** Without scalars the same call works. *)
Theorem C55_without_scalars : forall ord ea e dens mass m nsamp interp rand n, is_argsort ord -> grid_case ea [e] dens mass None None m -> 0 < total m -> wants nsamp m n -> unit_draws 1 n rand ->
  exists r, sample_grid ord ea dens nsamp mass None None None interp None rand = Ok (r, None)
  /\ shp r = (if Nat.eqb n 1 then [] else [n])
  /\ forall j, (j < n)%nat -> nth 0 e 0 <= at_ r (if Nat.eqb n 1 then [] else [j]) <= nth (length e - 1) e 0.
Proof. exact sample_grid_1d. Qed.
Print Assumptions C55_without_scalars.

Example C55_example : exists ord ea e dens sd m, is_argsort ord /\ grid_case ea [e] dens None (Some sd) None m /\ 0 < total m /\ wants (Some 5) m 5 /\ unit_draws 1 5 (fun _ _ => 1 / 2).
Proof.
  destruct three_case as (m & (H1 & H2 & H3 & H4 & H5 & H6 & _) & S & V0 & V1). exists some_argsort, (EFlat [0; 1; 3]), [0; 1; 3], (vec [1; 3; 1]), (vec [2; 2; 7]), m. assert (T := three_total m S V0 V1).
  split; [apply some_argsort_ok|]. split; [|split; [lra|split; [unfold wants; cbn; lra|intros d j _ _; lra]]]. repeat (split; [assumption|]). split; [intros sd C; injection C as <-; reflexivity|intros sm C; discriminate C].
Qed.

(** * C56 *)
Theorem C56_weights_conserved : forall ord ea edges dens mass m t interp rand, is_argsort ord -> grid_case ea edges dens mass None None m -> 0 <= t -> (forall n, unit_draws (length edges) n rand) ->
  let heavy := heavy_bins t m in let h := length heavy in
  exists G vals w n, Sample_Outliers ord ea dens t mass None None = Ok G
  /\ so_sample G t None None interp RsAbsent rand = Ok (Z.of_nat (h + n), vals, w) /\ shp vals = [length edges; (h + n)%nat]
  /\ w = map (at_ m) heavy ++ repeat 1 n
  /\ Rabs (INR n - light_mass t m) <= 1 / 2 /\ Rabs (lsum w - total m) <= 1 / 2
  /\ (forall j d, (j < h)%nat -> (d < length edges)%nat -> let idx := nth j heavy [] in
        nth (nth d idx 0%nat) (nth d edges []) 0 < column vals j d < nth (S (nth d idx 0%nat)) (nth d edges []) 0
        /\ let box := bin_box edges idx in let c := fun bits => at_ dens (corner idx bits) in
           exists mb moment, is_box_integral box (multilinear box c) mb /\ is_box_integral box (fun x => nth d x 0 * multilinear box c x) moment
           /\ (0 < mb -> column vals j d = moment / mb))
  /\ (forall j, (j < n)%nat -> exists idx, inb (bin_shape edges) idx /\ 0 < at_ m idx <= t /\ in_bin edges idx (column vals (h + j))).
Proof. exact outliers_conserve. Qed.
Print Assumptions C56_weights_conserved.

(** With Poisson draws p for the bins above the threshold and k for the number of other samples. *)
Theorem C56_poisson : forall ord ea edges dens mass m t p k interp rand, is_argsort ord -> grid_case ea edges dens mass None None m -> 0 <= t -> ((0 < k)%nat -> 0 < light_mass t m) -> unit_draws (length edges) k rand ->
  let heavy := heavy_bins t m in let h := length heavy in
  exists G vals w, Sample_Outliers ord ea dens t mass None None = Ok G
  /\ so_sample G t (Some p) (Some k) interp RsAbsent rand = Ok (Z.of_nat (h + k), vals, w) /\ shp vals = [length edges; (h + k)%nat]
  /\ w = map (fun j => INR (p j)) (seq 0 h) ++ repeat 1 k
  /\ (forall j, (j < k)%nat -> exists idx, inb (bin_shape edges) idx /\ 0 < at_ m idx <= t /\ in_bin edges idx (column vals (h + j))).
Proof. exact outliers_poisson. Qed.
Print Assumptions C56_poisson.

Theorem C56_rejected : forall ord ea edges dens mass m t pin pout interp rand, grid_case ea edges dens mass None None m ->
  (forall r rs, sample_outliers ord ea dens t (Some r) mass pin pout interp rs rand = Err ValueError)
  /\ (forall rs, rs = RsNone \/ rs = RsBool true -> sample_outliers ord ea dens t None mass pin pout interp rs rand = Err ValueError).
Proof. exact outliers_reject. Qed.
Print Assumptions C56_rejected.

Example C56_example : exists ord ea edges dens m, is_argsort ord /\ grid_case ea edges dens None None None m /\ heavy_bins 3 m = [[1%nat]] /\ light_mass 3 m = 2 /\ forall n, unit_draws (length edges) n (fun _ _ => 1 / 2).
Proof.
  destruct three_case as (m & Hc & S & V0 & V1). exists some_argsort, (EFlat [0; 1; 3]), [[0; 1; 3]], (vec [1; 3; 1]), m. split; [apply some_argsort_ok|]. split; [exact Hc|].
  unfold heavy_bins, light_mass. rewrite S. cbn [all_idx seq flat_map map app filter asum rsum]. rewrite V0, V1. destruct (Rlt_dec 3 2); [lra|]. destruct (Rlt_dec 3 4); [|lra]. split; [reflexivity|]. split; [lra|]. intros nn d j _ _. lra.
Qed.

(** * C57 *)
Theorem C57_accepted_iff : forall ord ea dens, shp dens <> [] ->
  (exists G, Sample_Grid ord ea dens None None None = Ok G)
  <-> exists edges, edges_given ea edges /\ shp dens = map (@List.length R) edges /\ forall e, In e edges -> (2 <= length e)%nat.
Proof. exact grid_accepted. Qed.
Print Assumptions C57_accepted_iff.

(** The error is ValueError, with one exception. *)
Theorem C57_rejected : forall ord ea dens sdens smass, shp dens <> [] ->
  (forall edges, edges_given ea edges -> shp dens <> map (@List.length R) edges) ->
  Sample_Grid ord ea dens None sdens smass = Err ValueError
  \/ Sample_Grid ord ea dens None sdens smass = Err TypeError /\ exists e, ea = EFlat e /\ (2 <= length e)%nat /\ shp dens = repeat 1%nat (length e).
Proof. exact grid_rejected. Qed.
Print Assumptions C57_rejected.

(** Fitting shapes, but no bin along some dimension: IndexError. *)
Theorem C57_one_edge : forall ord ea edges dens sdens smass, edges_given ea edges -> shp dens = map (@List.length R) edges -> sdens = None ->
  (forall e, In e edges -> e <> []) -> (exists e, In e edges /\ length e = 1%nat) ->
  Sample_Grid ord ea dens None sdens smass = Err IndexError.
Proof. exact grid_short_edges. Qed.
Print Assumptions C57_one_edge.

(** Masses with as many dimensions as the grid must have the shape of the bins. *)
Theorem C57_mass_shape : forall ord ea edges dens mass sdens smass, edges_given ea edges -> good_edges edges -> shp dens = map (@List.length R) edges ->
  length (shp mass) = length edges -> shp mass <> bin_shape edges -> Sample_Grid ord ea dens (Some mass) sdens smass = Err ValueError.
Proof. exact mass_shape_checked. Qed.
Print Assumptions C57_mass_shape.

Example C57_example : shp (vec [1; 3; 1]) <> [] /\ edges_given (EFlat [0; 1; 3]) [[0; 1; 3]] /\ shp (vec [1; 3; 1]) = map (@List.length R) [[0; 1; 3]]
  /\ (forall edges, edges_given (EList [[0; 1]; [0; 1; 3]]) edges -> shp (vec [1; 3; 1]) <> map (@List.length R) edges)
  /\ length (shp (vec [1; 1; 1])) = length [[0; 1; 3]] /\ shp (vec [1; 1; 1]) <> bin_shape [[0; 1; 3]].
Proof.
  split; [discriminate|]. split; [right; eexists; split; reflexivity|]. split; [reflexivity|]. split; [|split; [reflexivity|discriminate]].
  intros edges [E|(e & E & _)]; [injection E as <-; discriminate|discriminate E].
Qed.

(** * C75 *)
(** With k bins along each of two or more dimensions a vector of k masses is accepted; all samples then have bin number 0 in all dimensions but the last. *)
Theorem C75_flat_mass : forall ord edges dens k (ms : list R) nsamp interp rand n, is_argsort ord -> good_edges edges -> (2 <= length edges)%nat -> shp dens = map (@List.length R) edges -> (forall b, In b (bin_shape edges) -> b = k) ->
  length ms = k -> (forall x, In x ms -> 0 <= x) -> 0 < lsum ms -> wants nsamp (vec ms) n -> unit_draws (length edges) n rand ->
  exists G vals, Sample_Grid ord (EList edges) dens (Some (vec ms)) None None = Ok G /\ sg_sample G nsamp interp None rand = Ok (vals, None)
  /\ shp vals = [length edges; n]
  /\ forall j, (j < n)%nat -> exists i, (i < k)%nat /\ 0 < nth i ms 0 /\ in_bin edges (repeat 0%nat (length edges - 1) ++ [i]) (column vals j).
Proof. exact flat_mass_accepted. Qed.
Print Assumptions C75_flat_mass.

Example C75_example : exists edges dens, good_edges edges /\ (2 <= length edges)%nat /\ shp dens = map (@List.length R) edges /\ (forall b, In b (bin_shape edges) -> b = 2%nat)
  /\ length [1; 2] = 2%nat /\ 0 < lsum [1; 2] /\ wants None (vec [1; 2]) 3.
Proof.
  exists [[0; 1; 3]; [0; 1; 3]], (mkA [3; 3]%nat (fun _ => 1)). split; [split; [discriminate|]; destruct (three_edges 0 1 3 ltac:(lra)) as [_ H]; intros e [<-|[<-|[]]]; apply H; left; reflexivity|].
  split; [cbn; lia|]. split; [reflexivity|]. split; [cbn; intros b [<-|[<-|[]]]; reflexivity|]. split; [reflexivity|]. split; [unfold lsum; cbn; lra|]. unfold wants, total. cbn. unfold vget. cbn. lra.
Qed.

(** * C76 *)
Theorem C76_no_mass : forall ord ea edges dens mass m nsamp interp rs rand n, is_argsort ord -> grid_case ea edges dens mass None None m -> (forall idx, inb (bin_shape edges) idx -> at_ m idx = 0) -> wants nsamp m n ->
  (exists j, (j < n)%nat /\ 0 < rand 0%nat j) ->
  exists G, Sample_Grid ord ea dens mass None None = Ok G /\ sg_sample G nsamp interp rs rand = Err IndexError.
Proof. exact no_mass_fails. Qed.
Print Assumptions C76_no_mass.

Example C76_example : exists ea edges dens mass m, grid_case ea edges dens (Some mass) None None m /\ (forall idx, inb (bin_shape edges) idx -> at_ m idx = 0) /\ wants (Some 2) m 2.
Proof.
  exists (EFlat [0; 1; 3]), [[0; 1; 3]], (vec [1; 3; 1]), (mkA [2]%nat (fun _ => 0)), (mkA [2]%nat (fun _ => 0)). destruct three_case as (m & (H1 & H2 & H3 & H4 & _) & _).
  split; [|split; [reflexivity|unfold wants; cbn; lra]]. repeat (split; [assumption|]). split; [split; reflexivity|]. split; [intros idx _; cbn; lra|]. split; intros ? C; discriminate C.
Qed.

(** * C77 *)
(** Volume of the bin times the mean of the scalar density over its corners, plus the linear variation over the bin. *)
Theorem C77_scalar_values : forall ord ea edges dens mass sd m nsamp interp rs rand n, is_argsort ord -> grid_case ea edges dens mass (Some sd) None m -> 0 < total m -> wants nsamp m n -> unit_draws (length edges) n rand -> rs <> Some false ->
  exists G vals l, Sample_Grid ord ea dens mass (Some sd) None = Ok G /\ sg_sample G nsamp interp rs rand = Ok (vals, Some l) /\ length l = n
  /\ forall j, (j < n)%nat -> exists idx, inb (bin_shape edges) idx /\ in_bin edges idx (column vals j) /\ 0 < at_ m idx
     /\ nth j l 0 = bin_volume edges idx * corner_mean sd idx
                    + (if interp then rsum (length edges) (fun d => (side_mean sd d 1 idx - side_mean sd d 0 idx) * (rand (S d) j - 1 / 2)) else 0).
Proof. exact scalar_values. Qed.
Print Assumptions C77_scalar_values.

Theorem C77_constant_scalar : forall ord ea edges dens mass sd m c nsamp interp rs rand n, is_argsort ord -> grid_case ea edges dens mass (Some sd) None m -> 0 < total m -> wants nsamp m n -> unit_draws (length edges) n rand -> rs <> Some false ->
  (forall idx, inb (shp sd) idx -> at_ sd idx = c) ->
  exists G vals l, Sample_Grid ord ea dens mass (Some sd) None = Ok G /\ sg_sample G nsamp interp rs rand = Ok (vals, Some l) /\ length l = n
  /\ forall j, (j < n)%nat -> exists idx, inb (bin_shape edges) idx /\ in_bin edges idx (column vals j) /\ 0 < at_ m idx /\ nth j l 0 = c * bin_volume edges idx.
Proof. exact scalar_constant. Qed.
Print Assumptions C77_constant_scalar.

Theorem C77_scalar_is_density_refuted : exists ord e ys sd, is_argsort ord /\ incr_list e /\ (forall y, In y sd -> y = 1)
  /\ forall rand, unit_draws 1 1 rand -> exists G vals l, Sample_Grid ord (EFlat e) (vec ys) None (Some (vec sd)) None = Ok G
     /\ sg_sample G (Some 1) true None rand = Ok (vals, Some l) /\ nth 0 l 0 <> 1.
Proof. exact scalar_not_density. Qed.
Print Assumptions C77_scalar_is_density_refuted.

Example C77_example : exists ord ea edges dens sd m, is_argsort ord /\ grid_case ea edges dens None (Some sd) None m /\ 0 < total m /\ wants None m 6 /\ forall idx, inb (shp sd) idx -> at_ sd idx = 4.
Proof.
  destruct three_case as (m & (H1 & H2 & H3 & H4 & H5 & H6 & _) & S & V0 & V1). exists some_argsort, (EFlat [0; 1; 3]), [[0; 1; 3]], (vec [1; 3; 1]), (mkA [3]%nat (fun _ => 4)), m. assert (T := three_total m S V0 V1).
  split; [apply some_argsort_ok|]. split; [|split; [lra|split; [unfold wants; rewrite T; cbn; lra|reflexivity]]]. repeat (split; [assumption|]). split; [intros sd C; injection C as <-; reflexivity|intros sm C; discriminate C].
Qed.

(** * C78 *)
Theorem C78_proportional_weights : forall ord ea edges dens portion m c nsamp interp rand n, is_argsort ord -> edges_given ea edges -> good_edges edges -> shp portion = map (@List.length R) edges -> shp dens = shp portion ->
  (forall idx, inb (shp portion) idx -> 0 < at_ portion idx /\ at_ dens idx = c * at_ portion idx) ->
  bin_masses edges portion None m -> wants nsamp m n -> unit_draws (length edges) n rand ->
  exists vals l, sample_grid_proportional ord ea dens portion nsamp interp rand = Ok (vals, Some l) /\ shp vals = [length edges; n] /\ length l = n
  /\ forall j, (j < n)%nat -> exists idx, inb (bin_shape edges) idx /\ in_bin edges idx (column vals j) /\ nth j l 0 = c * bin_volume edges idx.
Proof. exact proportional_weights. Qed.
Print Assumptions C78_proportional_weights.

Example C78_example : exists ea edges portion m, edges_given ea edges /\ good_edges edges /\ shp portion = map (@List.length R) edges /\ (forall idx, inb (shp portion) idx -> 0 < at_ portion idx)
  /\ bin_masses edges portion None m /\ wants None m 6.
Proof.
  destruct three_case as (m & (H1 & H2 & H3 & H4 & H5 & H6 & _) & S & V0 & V1). exists (EFlat [0; 1; 3]), [[0; 1; 3]], (vec [1; 3; 1]), m. assert (T := three_total m S V0 V1).
  repeat (split; [assumption|]). split; [|split; [exact H5|unfold wants; rewrite T; cbn; lra]].
  intros idx Hi. inversion Hi as [|i n idx' sh' Hlt Hr]; subst. inversion Hr; subst. cbn in Hlt. cbn [vec at_ nth]. unfold vget. destruct i as [|[|[|]]]; cbn; try lra; lia.
Qed.

