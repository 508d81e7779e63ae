(** Functions of kalepy/utils.py on arrays of any number of dimensions.  An array is a shape with a function
    from index tuples to values; only index tuples within the shape matter. *)
From Coq Require Import ZArith.
From Verif Require Import Base ModelLinAlg ModelKernels ModelKDE ModelInterp ModelResample ModelUtils.
Open Scope R_scope.
Notation length := List.length.

Record nda := mkA { shp : list nat; at_ : list nat -> R }.

(** Replace, insert or remove the entry of position [k]. *)
Fixpoint set_nth {A} (k : nat) (v : A) (l : list A) : list A :=
  match l, k with
  | [], _ => []
  | _ :: r, O => v :: r
  | x :: r, S k' => x :: set_nth k' v r
  end.
Fixpoint ins_nth {A} (k : nat) (v : A) (l : list A) : list A :=
  match k, l with
  | O, _ => v :: l
  | S k', x :: r => x :: ins_nth k' v r
  | S _, [] => [v]
  end.
Fixpoint rem_nth {A} (k : nat) (l : list A) : list A :=
  match l, k with
  | [], _ => []
  | _ :: r, O => r
  | x :: r, S k' => x :: rem_nth k' r
  end.

(** Sum over all index tuples of a shape (np.sum, and loops over np.ndindex). *)
Fixpoint asum (sh : list nat) (f : list nat -> R) : R :=
  match sh with
  | [] => f []
  | n :: r => rsum n (fun i => asum r (fun idx => f (i :: idx)))
  end.

(** Index tuples in the order of np.ndindex / ndarray.flatten, and the flat position of one. *)
Fixpoint all_idx (sh : list nat) : list (list nat) :=
  match sh with
  | [] => [[]]
  | n :: r => flat_map (fun i => map (cons i) (all_idx r)) (seq 0 n)
  end.
Definition size_of_shape (sh : list nat) : nat := fold_right Nat.mul 1%nat sh.
Fixpoint ravel (sh idx : list nat) : nat :=
  match sh, idx with
  | _ :: sh', i :: idx' => (i * size_of_shape sh' + ravel sh' idx')%nat
  | _, _ => 0%nat
  end.
(** ndarray.flatten and ndarray.reshape (C order). *)
Definition flatten_nd (a : nda) : list R := map (at_ a) (all_idx (shp a)).
Definition reshape_nd (sh : list nat) (l : list R) : nda := mkA sh (fun idx => vget l (ravel sh idx)).

(** Normalised axis: negative axes count from the end; others are out of range. *)
Definition norm_axis (nd : nat) (a : Z) : option nat :=
  if andb (Z.leb 0 a) (Z.ltb a (Z.of_nat nd)) then Some (Z.to_nat a)
  else if andb (Z.leb (- Z.of_nat nd) a) (Z.ltb a 0) then Some (Z.to_nat (Z.of_nat nd + a))
  else None.

(* ------------------------------------------------------------ midpoints *)
(** utils.py:987-1030 [_midpoints_1d] along one axis: IndexError for a bad axis, RuntimeError for fewer than two entries. *)
Definition midpoints_1d (a : nda) (ax : Z) : res nda :=
  match norm_axis (length (shp a)) ax with
  | None => Err IndexError
  | Some k =>
      if Nat.ltb (nth k (shp a) 0%nat) 2 then Err RuntimeError
      else Ok (mkA (set_nth k (nth k (shp a) 0%nat - 1)%nat (shp a))
                   (fun idx => / 2 * (at_ a idx + at_ a (set_nth k (S (nth k idx 0%nat)) idx))))
  end.
(** utils.py:327-371 [midpoints] with log=False, squeeze=False; None = all axes. *)
Fixpoint midpoints_loop (a : nda) (axes : list Z) : res nda :=
  match axes with
  | [] => Ok a
  | ax :: rest => do b <- midpoints_1d a ax ;; midpoints_loop b rest
  end.
Definition midpoints (a : nda) (axis : option (list Z)) : res nda :=
  midpoints_loop a (match axis with None => map Z.of_nat (seq 0 (length (shp a))) | Some l => l end).

(** The same with log=True, for positive entries (np.log10 before, a power of ten after). *)
Definition map_nd (f : R -> R) (a : nda) : nda := mkA (shp a) (fun idx => f (at_ a idx)).
Definition midpoints_log (a : nda) (axis : option (list Z)) : res nda :=
  do r <- midpoints (map_nd log10 a) axis ;; Ok (map_nd pow10 r).

(* ------------------------------------------------------------ cumsum *)
(** np.cumsum along axis [k]. *)
Definition cumsum_ax (k : nat) (a : nda) : nda :=
  mkA (shp a) (fun idx => rsum (S (nth k idx 0%nat)) (fun j => at_ a (set_nth k j idx))).
(** utils.py:226-254 [cumsum] for at least one dimension: with an axis (a bad one raises AxisError, a
    ValueError and IndexError), or over the axes -1, -2, ... in turn. *)
Definition cumsum_nd (a : nda) (axis : option Z) : res nda :=
  match axis with
  | Some z => match norm_axis (length (shp a)) z with Some k => Ok (cumsum_ax k a) | None => Err ValueError end
  | None => Ok (fold_left (fun b ii => cumsum_ax (length (shp a) - ii) b) (seq 1 (length (shp a))) a)
  end.

(* ------------------------------------------------------------ trapezoid rule *)
Definition nats_eqb (l m : list nat) : bool := if list_eq_dec Nat.eq_dec l m then true else false.

(** np.trapz(a, x=x, axis=k). *)
Definition trapz_ax (k : nat) (x : list R) (a : nda) : nda :=
  mkA (rem_nth k (shp a))
      (fun idx => rsum (length x - 1) (fun j =>
         (vget x (S j) - vget x j) * (at_ a (ins_nth k (S j) idx) + at_ a (ins_nth k j idx)) / 2)).
(** utils.py:827-848 [trapz_nd] over all axes, [edges] a list of vectors (a bare vector of edges is
    the list of that vector).  Axes are processed from the last to the first. *)
Definition trapz_nd (data : nda) (edges : list (list R)) : res nda :=
  if negb (nats_eqb (map (@length R) edges) (shp data)) then Err ValueError
  else Ok (fold_left (fun t ii => trapz_ax ii (nth ii edges []) t) (rev (seq 0 (length edges))) data).

(** Bin volumes: product over the axes of the widths (utils.py:890-909); one along other axes. *)
Definition width_at (edges : list (list R)) (axes : list nat) (ii i : nat) : R :=
  if existsb (Nat.eqb ii) axes then vget (diff (nth ii edges [])) i else 1.
Fixpoint volume_from (edges : list (list R)) (axes : list nat) (ii : nat) (idx : list nat) : R :=
  match idx with
  | [] => 1
  | i :: r => width_at edges axes ii i * volume_from edges axes (S ii) r
  end.
Fixpoint add_idx (l m : list nat) : list nat :=
  match l, m with
  | i :: l', j :: m' => (i + j)%nat :: add_idx l' m'
  | _, _ => l
  end.
(** utils.py:851-979 [trapz_dens_to_mass].  [axes]: distinct, not negative (None = all axes).  The number of edge
    vectors must be the number of dimensions (simplification: numpy's broadcasting also lets
    one vector of edges pass the comparison with an array of equal lengths).  An axis
    without edges has the impossible length -1, AssertionError. *)
Definition all_axes (edges : list (list R)) (axes : option (list nat)) : list nat :=
  match axes with None => seq 0 (length edges) | Some l => l end.
Definition shp_mass (edges : list (list R)) (axes : list nat) : list nat :=
  map (fun ii => if existsb (Nat.eqb ii) axes then (length (nth ii edges []) - 1)%nat else length (nth ii edges []))
      (seq 0 (length edges)).
Definition skip_corner (axes bits : list nat) : bool :=
  existsb (fun jj => andb (negb (existsb (Nat.eqb jj) axes)) (Nat.ltb 0 (nth jj bits 0%nat))) (seq 0 (length bits)).
Definition trapz_dens_to_mass (pdf : nda) (edges : list (list R)) (axes : option (list nat)) : res nda :=
  if negb (nats_eqb (map (@length R) edges) (shp pdf)) then Err ValueError else
  let axs := all_axes edges axes in
  if negb (forallb (fun ii => Nat.ltb ii (length edges)) axs) then Err IndexError else
  if existsb (fun ii => Nat.eqb (length (nth ii edges [])) 0) axs then Err AssertionError else
  Ok (mkA (shp_mass edges axs)
        (fun idx => asum (repeat 2%nat (length edges)) (fun bits =>
                      if skip_corner axs bits then 0
                      else at_ pdf (add_idx idx bits) * volume_from edges axs 0 idx)
                    / INR (2 ^ length axs))).

(** np.pad(a, pads, constant_values=0) with pads in front only. *)
Fixpoint below_pad (pads idx : list nat) : bool :=
  match pads, idx with
  | p :: pads', i :: idx' => orb (Nat.ltb i p) (below_pad pads' idx')
  | _, _ => false
  end.
Fixpoint sub_idx (l m : list nat) : list nat :=
  match l, m with
  | i :: l', j :: m' => (i - j)%nat :: sub_idx l' m'
  | _, _ => l
  end.
Definition pad_front (pads : list nat) (a : nda) : nda :=
  mkA (add_idx (shp a) pads) (fun idx => if below_pad pads idx then 0 else at_ a (sub_idx idx pads)).

(** utils.py:257-297 [cumtrapz].  The padding entries of all dimensions are one and the same list object
    (line 290), so that setting the one of [axis] (line 292) sets them all. *)
Definition cumtrapz (pdf : nda) (edges : list (list R)) (prepend : bool) (axis : option nat) : res nda :=
  do pmf <- trapz_dens_to_mass pdf edges (match axis with None => None | Some k => Some [k] end) ;;
  do cdf <- cumsum_nd pmf (match axis with None => None | Some k => Some (Z.of_nat k) end) ;;
  if prepend then Ok (pad_front (repeat 1%nat (length (shp cdf))) cdf) else Ok cdf.

(* ------------------------------------------------------------ centroids *)
(** Sum over the corners of the bin [idx] that lie at side [side] of dimension [ii] (utils.py:118-148). *)
Definition corner_sum (data : nda) (ii side : nat) (idx : list nat) : R :=
  asum (set_nth ii 1%nat (repeat 2%nat (length (shp data)))) (fun bits => at_ data (add_idx idx (set_nth ii side bits))).
(** utils.py:150-203 for one bin: edges [xl], [xr], summed densities [y1], [y2]. *)
Definition centroid_1d (xl xr y1 y2 : R) : R :=
  let dx := xr - xl in
  let right_min := Rltb y2 y1 in           (* idx_min = 1 *)
  let ylo := Rmin y1 y2 in
  let yhi := Rmax y1 y2 in
  let a1 := dx * ylo in
  let a2 := / 2 * dx * (yhi - ylo) in
  let x1 := (xl + xr) / 2 in
  let x2 := (if right_min then xr else xl) + 2 / 3 * dx * (if right_min then Ropp 1 else 1) in
  if Reqb (a1 + a2) 0 then / 2 * (x1 + x2) else (x1 * a1 + x2 * a2) / (a1 + a2).
(** utils.py:93-203 [centroids], entry [ii] of the result at the bin [idx]; edges of matching lengths
    ([data] has one value per edge). *)
Definition centroids (edges : list (list R)) (data : nda) : nat -> nda := fun ii =>
  mkA (map (fun n => (n - 1)%nat) (shp data))
      (fun idx => let e := nth ii edges [] in let i := nth ii idx 0%nat in
                  centroid_1d (vget e i) (vget e (S i)) (corner_sum data ii 0 idx) (corner_sum data ii 1 idx)).
