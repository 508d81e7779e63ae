(** Properties C40-C43, C46: array helpers of kalepy/utils.py. *)
From Coq Require Import ZArith Permutation.
From Coquelicot Require Import Coquelicot.
From Verif Require Import Base ModelLinAlg ModelUtils ModelNd SpecUtils SpecNd ProofUtils ProofNd ProofNd2 ProofNd3 ProofGrid.
Open Scope R_scope.
Notation length := List.length.

(** * C40 *)
(** Without axis: the sum over all component-wise smaller or equal index tuples. *)
Theorem C40_cumsum_all : forall a, exists r, cumsum_nd a None = Ok r /\ shp r = shp a
  /\ forall idx, inb (shp a) idx -> at_ r idx = sumf (at_ a) (filter (fun j => le_idxb j idx) (all_idx (shp a))).
Proof. exact cumsum_all. Qed.
Print Assumptions C40_cumsum_all.

(** The list of index tuples in that statement is complete and without repetition. *)
Theorem C40_all_indices : forall sh, NoDup (all_idx sh) /\ forall idx, In idx (all_idx sh) <-> inb sh idx.
Proof. exact all_idx_spec. Qed.
Print Assumptions C40_all_indices.

(** Along one axis, counted from either end. *)
Theorem C40_cumsum_axis : forall a k, (k < length (shp a))%nat -> exists r, cumsum_nd a (Some (Z.of_nat k)) = Ok r /\ cumsum_nd a (Some (Z.of_nat k - Z.of_nat (length (shp a)))%Z) = Ok r
  /\ shp r = shp a
  /\ forall idx, at_ r idx = rsum (S (nth k idx 0%nat)) (fun j => at_ a (set_nth k j idx)).
Proof. exact cumsum_axis. Qed.
Print Assumptions C40_cumsum_axis.

Theorem C40_bad_axis : forall a z, (z < - Z.of_nat (length (shp a)) \/ Z.of_nat (length (shp a)) <= z)%Z -> cumsum_nd a (Some z) = Err ValueError.
Proof. exact cumsum_bad_axis. Qed.
Print Assumptions C40_bad_axis.

Example C40_example : exists r, cumsum_nd (mkA [2; 2]%nat (fun idx => INR (nth 0 idx 0%nat) + 10 * INR (nth 1 idx 0%nat))) None = Ok r /\ at_ r [1; 1]%nat = 22.
Proof. eexists. split; [reflexivity|]. cbn. lra. Qed.

(** * C41 *)
Theorem C41_mass_conserved : forall pdf edges, shp pdf = map (@List.length R) edges -> (forall x, In x edges -> x <> []) ->
  exists m t, trapz_dens_to_mass pdf edges None = Ok m /\ trapz_nd pdf edges = Ok t
  /\ shp m = map (fun n => (n - 1)%nat) (shp pdf) /\ shp t = []
  /\ sumf (at_ m) (all_idx (shp m)) = at_ t [] /\ at_ t [] = trapezoids edges (at_ pdf).
Proof. exact mass_conserved. Qed.
Print Assumptions C41_mass_conserved.

Theorem C41_mass_nonneg : forall pdf edges, shp pdf = map (@List.length R) edges -> (forall x, In x edges -> x <> [] /\ incr_list x) -> (forall idx, inb (shp pdf) idx -> 0 <= at_ pdf idx) ->
  exists m, trapz_dens_to_mass pdf edges None = Ok m /\ forall idx, inb (shp m) idx -> 0 <= at_ m idx.
Proof. exact mass_nonneg. Qed.
Print Assumptions C41_mass_nonneg.

(** Each mass is the integral over the bin of the density interpolated between its corners. *)
Theorem C41_mass_is_integral : forall pdf edges, shp pdf = map (@List.length R) edges -> (forall x, In x edges -> x <> [] /\ incr_list x) ->
  exists m, trapz_dens_to_mass pdf edges None = Ok m
  /\ forall idx, inb (shp m) idx -> is_box_integral (bin_box edges idx) (multilinear (bin_box edges idx) (fun bits => at_ pdf (corner idx bits))) (at_ m idx).
Proof. exact mass_is_integral. Qed.
Print Assumptions C41_mass_is_integral.

Theorem C41_shape_mismatch : forall pdf edges axes, length (shp pdf) = length edges -> shp pdf <> map (@List.length R) edges -> trapz_dens_to_mass pdf edges axes = Err ValueError /\ trapz_nd pdf edges = Err ValueError.
Proof. exact mass_mismatch. Qed.
Print Assumptions C41_shape_mismatch.

Example C41_example : exists m, trapz_dens_to_mass (mkA [2; 3]%nat (fun idx => INR (nth 1 idx 0%nat))) [[0; 2]; [0; 1; 4]] None = Ok m
  /\ shp m = [1; 2]%nat /\ at_ m [0; 1]%nat = 9.
Proof. eexists. split; [reflexivity|]. split; [reflexivity|]. cbn. lra. Qed.
Example C41_hypotheses : forall x, In x [[0; 2]; [0; 1; 4]] -> x <> [] /\ incr_list x.
Proof.
  intros x [<-|[<-|[]]]; (split; [discriminate|]); intros i j Hij Hj; cbn in Hj; destruct j as [|[|[|]]]; destruct i as [|[|[|]]]; cbn; try lia; lra.
Qed.

(** * C42 *)
(** Every entry is the trapezoid integral up to its index. *)
Theorem C42_cumtrapz : forall pdf edges, shp pdf = map (@List.length R) edges -> (forall x, In x edges -> x <> []) ->
  exists r, cumtrapz pdf edges true None = Ok r /\ shp r = shp pdf
  /\ (forall idx, inb (shp pdf) idx -> at_ r idx = trapezoids (cut_edges edges idx) (at_ pdf))
  /\ (forall idx, inb (shp pdf) idx -> In 0%nat idx -> at_ r idx = 0)
  /\ at_ r (map (fun n => (n - 1)%nat) (shp pdf)) = trapezoids edges (at_ pdf).
Proof. exact cumtrapz_value. Qed.
Print Assumptions C42_cumtrapz.

Theorem C42_monotone : forall pdf edges, shp pdf = map (@List.length R) edges -> (forall x, In x edges -> x <> [] /\ incr_list x) -> (forall idx, inb (shp pdf) idx -> 0 <= at_ pdf idx) ->
  exists r, cumtrapz pdf edges true None = Ok r /\ forall i j, inb (shp pdf) j -> le_idx i j -> 0 <= at_ r i <= at_ r j.
Proof. exact cumtrapz_monotone. Qed.
Print Assumptions C42_monotone.

Theorem C42_no_prepend : forall pdf edges, shp pdf = map (@List.length R) edges -> (forall x, In x edges -> x <> []) ->
  exists r, cumtrapz pdf edges false None = Ok r /\ shp r = map (fun n => (n - 1)%nat) (shp pdf)
  /\ forall idx, inb (shp r) idx -> at_ r idx = trapezoids (cut_edges edges (map S idx)) (at_ pdf).
Proof. exact cumtrapz_no_prepend. Qed.
Print Assumptions C42_no_prepend.

Theorem C42_axis : forall pdf edges k, shp pdf = map (@List.length R) edges -> (k < length edges)%nat -> nth k edges [] <> [] ->
  exists r, cumtrapz pdf edges false (Some k) = Ok r /\ shp r = set_nth k (nth k (shp pdf) 0 - 1)%nat (shp pdf)
  /\ forall idx, inb (shp r) idx -> at_ r idx = trapezoid (firstn (S (S (nth k idx 0%nat))) (nth k edges [])) (fun j => at_ pdf (set_nth k j idx)).
Proof. exact cumtrapz_axis. Qed.
Print Assumptions C42_axis.

(** With an axis and the zeros prepended, they are prepended along every axis. *)
Theorem C42_axis_padded : forall pdf edges k, shp pdf = map (@List.length R) edges -> (k < length edges)%nat -> nth k edges [] <> [] ->
  exists r, cumtrapz pdf edges true (Some k) = Ok r /\ shp r = set_nth k (nth k (shp pdf) 0%nat) (map S (shp pdf)).
Proof. exact cumtrapz_axis_padded. Qed.
Print Assumptions C42_axis_padded.

Theorem C42_axis_shape_wrong : forall pdf edges k, shp pdf = map (@List.length R) edges -> (k < length edges)%nat -> nth k edges [] <> [] -> (2 <= length edges)%nat ->
  exists r, cumtrapz pdf edges true (Some k) = Ok r /\ shp r <> shp pdf.
Proof. exact cumtrapz_axis_shape_wrong. Qed.
Print Assumptions C42_axis_shape_wrong.

Example C42_example : exists r, cumtrapz (mkA [2; 3]%nat (fun idx => INR (nth 1 idx 0%nat))) [[0; 2]; [0; 1; 4]] true None = Ok r
  /\ at_ r [1; 2]%nat = 10 /\ at_ r [1; 0]%nat = 0.
Proof. eexists. split; [reflexivity|]. split; cbn; lra. Qed.

(** * C43 *)
Theorem C43_center_of_mass : forall edges data ii idx, shp data = map (@List.length R) edges -> (forall x, In x edges -> incr_list x) -> (ii < length edges)%nat -> inb (map (fun x => List.length x - 1)%nat edges) idx ->
  (forall j, inb (shp data) j -> 0 <= at_ data j) ->
  let box := bin_box edges idx in let c := fun bits => at_ data (corner idx bits) in
  exists mass moment, is_box_integral box (multilinear box c) mass /\ is_box_integral box (fun x => nth ii x 0 * multilinear box c x) moment
  /\ (0 < mass -> at_ (centroids edges data ii) idx = moment / mass).
Proof. exact centroid_is_center_of_mass. Qed.
Print Assumptions C43_center_of_mass.

Theorem C43_inside_bin : forall edges data ii idx, shp data = map (@List.length R) edges -> (forall x, In x edges -> incr_list x) -> (ii < length edges)%nat -> inb (map (fun x => List.length x - 1)%nat edges) idx ->
  (forall j, inb (shp data) j -> 0 <= at_ data j) ->
  nth (nth ii idx 0%nat) (nth ii edges []) 0 < at_ (centroids edges data ii) idx < nth (S (nth ii idx 0%nat)) (nth ii edges []) 0.
Proof. exact centroid_inside. Qed.
Print Assumptions C43_inside_bin.

Theorem C43_empty_bin : forall edges data ii idx, shp data = map (@List.length R) edges -> (forall x, In x edges -> incr_list x) -> (ii < length edges)%nat -> inb (map (fun x => List.length x - 1)%nat edges) idx ->
  (forall bits, inb (repeat 2%nat (length edges)) bits -> at_ data (corner idx bits) = 0) ->
  let a := nth (nth ii idx 0%nat) (nth ii edges []) 0 in let b := nth (S (nth ii idx 0%nat)) (nth ii edges []) 0 in
  at_ (centroids edges data ii) idx = a + 7 / 12 * (b - a).
Proof. exact centroid_empty_bin. Qed.
Print Assumptions C43_empty_bin.

Example C43_example : at_ (centroids [[0; 3]] (mkA [2]%nat (fun idx => INR (nth 0 idx 0%nat))) 0) [0]%nat = 2.
Proof.
  unfold centroids, corner_sum. cbn [at_ shp length repeat set_nth asum rsum add_idx nth Nat.add]. rewrite centroid_1d_closed; unfold vget; cbn [nth INR]; cbn [nth]; lra.
Qed.

(** * C46 *)
Theorem C46_vector : forall l, (2 <= length l)%nat -> exists r, midpoints (vec l) None = Ok r /\ midpoints (vec l) (Some [(-1)%Z]) = Ok r
  /\ shp r = [(length l - 1)%nat]
  /\ (forall i, (S i < length l)%nat -> at_ r [i] = (nth i l 0 + nth (S i) l 0) / 2)
  /\ (incr_list l -> (forall i, (S i < length l)%nat -> nth i l 0 < at_ r [i] < nth (S i) l 0)
                     /\ forall i j, (i < j)%nat -> (S j < length l)%nat -> at_ r [i] < at_ r [j]).
Proof. exact midpoints_vec. Qed.
Print Assumptions C46_vector.

Theorem C46_too_short : forall l, (length l < 2)%nat -> midpoints (vec l) None = Err RuntimeError.
Proof. exact midpoints_short. Qed.
Print Assumptions C46_too_short.

(** Along one axis of an array, counted from either end. *)
Theorem C46_axis : forall a k, (k < length (shp a))%nat -> (2 <= nth k (shp a) 0)%nat ->
  exists r, midpoints a (Some [Z.of_nat k]) = Ok r /\ midpoints a (Some [(Z.of_nat k - Z.of_nat (length (shp a)))%Z]) = Ok r
  /\ shp r = set_nth k (nth k (shp a) 0%nat - 1)%nat (shp a)
  /\ forall idx, at_ r idx = (at_ a idx + at_ a (set_nth k (S (nth k idx 0%nat)) idx)) / 2.
Proof. exact midpoints_axis. Qed.
Print Assumptions C46_axis.

Theorem C46_axis_order : forall a axes axes', Permutation axes axes' -> (forall z, In z axes -> (- Z.of_nat (length (shp a)) <= z < Z.of_nat (length (shp a)))%Z) ->
  (exists r r', midpoints a (Some axes) = Ok r /\ midpoints a (Some axes') = Ok r' /\ same_nda r r')
  \/ (midpoints a (Some axes) = Err RuntimeError /\ midpoints a (Some axes') = Err RuntimeError).
Proof. exact midpoints_order. Qed.
Print Assumptions C46_axis_order.

Theorem C46_bad_axis : forall a z, (z < - Z.of_nat (length (shp a)) \/ Z.of_nat (length (shp a)) <= z)%Z -> midpoints a (Some [z]) = Err IndexError.
Proof. exact midpoints_bad_axis. Qed.
Print Assumptions C46_bad_axis.

(** With log=True: geometric means. *)
Theorem C46_log : forall l, (2 <= length l)%nat -> (forall x, In x l -> 0 < x) -> exists r, midpoints_log (vec l) None = Ok r /\ shp r = [(length l - 1)%nat]
  /\ forall i, (S i < length l)%nat -> at_ r [i] = sqrt (nth i l 0 * nth (S i) l 0).
Proof. exact midpoints_log_vec. Qed.
Print Assumptions C46_log.

Example C46_example : exists r, midpoints (vec [0; 1; 4]) None = Ok r /\ at_ r [1]%nat = 5 / 2.
Proof. eexists. split; [reflexivity|]. cbn. lra. Qed.

