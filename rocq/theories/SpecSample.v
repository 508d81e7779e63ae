(** Specification vocabulary for sampling from gridded distributions. *)
From Coq Require Import Permutation.
From Verif Require Import Base ModelLinAlg ModelNd ModelSample SpecUtils SpecNd.
Open Scope R_scope.
Notation length := List.length.

(** np.argsort: a permutation of the positions along which the entries do not decrease. *)
Definition is_argsort (ord : list R -> list nat) : Prop :=
  forall m, Permutation (ord m) (seq 0 (length m)) /\ nondecr_list (map (fun i => nth i m 0) (ord m)).
(** [us'] are the numbers [us] in increasing order. *)
Definition sorted_of (us us' : list R) : Prop := Permutation us us' /\ nondecr_list us'.

(** A grid: at least one dimension, in each at least two, increasing edges; and the shape of its bins. *)
Definition good_edges (edges : list (list R)) : Prop :=
  edges <> [] /\ forall e, In e edges -> (2 <= length e)%nat /\ incr_list e.
Definition bin_shape (edges : list (list R)) : list nat := map (fun e => (length e - 1)%nat) edges.
Definition total (a : nda) : R := asum (shp a) (at_ a).
Definition nonneg_nd (a : nda) : Prop := forall idx, inb (shp a) idx -> 0 <= at_ a idx.

(** A position (one coordinate per dimension) in the closed bin at an index tuple. *)
Definition in_bin (edges : list (list R)) (idx : list nat) (x : nat -> R) : Prop :=
  forall d, (d < length edges)%nat ->
    nth (nth d idx 0%nat) (nth d edges []) 0 <= x d <= nth (S (nth d idx 0%nat)) (nth d edges []) 0.
(** Column j of a (D, N) array. *)
Definition column (a : nda) (j : nat) : nat -> R := fun d => at_ a [d; j].
(** Uniform random numbers: rows 0..D, columns 0..n-1. *)
Definition unit_draws (D n : nat) (rand : nat -> nat -> R) : Prop :=
  forall d j, (d <= D)%nat -> (j < n)%nat -> 0 <= rand d j < 1.

(** The density that is linear between yl at 0 and yr at 1, normalised, and its cumulative distribution. *)
Definition linear_cdf (yl yr x : R) : R := (yl * x + (yr - yl) * x ^ 2 / 2) / ((yl + yr) / 2).
(** Mean over all entries. *)
Definition mean_of (l : list R) : R := lsum l / INR (length l).

(** The edges as they may be given, and the masses of the bins: given, or those computed from the density. *)
Definition edges_given (ea : edges_arg) (edges : list (list R)) : Prop :=
  ea = EList edges \/ exists e, ea = EFlat e /\ edges = [e].
Definition bin_masses (edges : list (list R)) (dens : nda) (mass : option nda) (m : nda) : Prop :=
  match mass with
  | Some m' => m' = m /\ shp m = bin_shape edges
  | None => trapz_dens_to_mass dens edges None = Ok m
  end.
(** Arguments of Sample_Grid for a distribution on a grid: [m] are the masses of its bins. *)
Definition grid_case (ea : edges_arg) (edges : list (list R)) (dens : nda) (mass sdens smass : option nda) (m : nda) : Prop :=
  edges_given ea edges /\ good_edges edges /\ shp dens = map (@length R) edges /\ nonneg_nd dens
  /\ bin_masses edges dens mass m /\ nonneg_nd m
  /\ (forall sd, sdens = Some sd -> shp sd = shp dens) /\ (forall sm, smass = Some sm -> shp sm = bin_shape edges).
(** [n] samples are asked for: as many as the whole part of the given number or, without one, of the total mass. *)
Definition wants (nsamp : option R) (m : nda) (n : nat) : Prop :=
  let r := match nsamp with Some r => r | None => total m end in INR n <= r < INR n + 1.
(** The sides of a bin along a dimension: mean density over the corners at its left (0) or right (1) edge. *)
Definition side_mean (dens : nda) (d side : nat) (idx : list nat) : R :=
  asum (set_nth d 1%nat (repeat 2%nat (length idx))) (fun bits => at_ dens (corner idx (set_nth d side bits))) / 2 ^ (length idx - 1).
(** Volume of a bin. *)
Definition bin_volume (edges : list (list R)) (idx : list nat) : R := product (map (fun ab : R * R => snd ab - fst ab) (bin_box edges idx)).
(** Bins with a mass above a threshold, in row-major order, and the mass of the others. *)
Definition heavy_bins (t : R) (m : nda) : list (list nat) := filter (fun idx => if Rlt_dec t (at_ m idx) then true else false) (all_idx (shp m)).
Definition light_mass (t : R) (m : nda) : R := asum (shp m) (fun idx => if Rlt_dec t (at_ m idx) then 0 else at_ m idx).
(** Mean of the values at the corners of a bin. *)
Definition corner_mean (a : nda) (idx : list nat) : R := asum (repeat 2%nat (length idx)) (fun bits => at_ a (corner idx bits)) / 2 ^ length idx.
