(** Specification vocabulary for arrays. *)
From Coquelicot Require Import Coquelicot.
From Verif Require Import Base ModelLinAlg ModelNd.
Open Scope R_scope.
Notation length := List.length.

(** Index tuples within a shape; component-wise order. *)
Definition inb (sh idx : list nat) : Prop := Forall2 (fun i n => (i < n)%nat) idx sh.
Definition le_idx (i j : list nat) : Prop := Forall2 le i j.
Fixpoint le_idxb (i j : list nat) : bool :=
  match i, j with
  | [], [] => true
  | a :: i', b :: j' => andb (Nat.leb a b) (le_idxb i' j')
  | _, _ => false
  end.

(** The same array: equal shapes and equal values within it. *)
Definition same_nda (a b : nda) : Prop := shp a = shp b /\ forall idx, inb (shp a) idx -> at_ a idx = at_ b idx.

(** Trapezoid rule for a function of the position on a list of edges, and iterated over several dimensions. *)
Definition trapezoid (x : list R) (g : nat -> R) : R :=
  rsum (length x - 1) (fun j => (nth (S j) x 0 - nth j x 0) * (g j + g (S j)) / 2).
Fixpoint trapezoids (edges : list (list R)) (f : list nat -> R) : R :=
  match edges with
  | [] => f []
  | x :: r => trapezoid x (fun i => trapezoids r (fun idx => f (i :: idx)))
  end.

(** Edges up to and including position i. *)
Fixpoint cut_edges (edges : list (list R)) (idx : list nat) : list (list R) :=
  match edges, idx with
  | x :: r, i :: idx' => firstn (S i) x :: cut_edges r idx'
  | _, _ => []
  end.

(** Multilinear interpolation in a box (list of intervals) from its corner values, and iterated (Riemann) integrals. *)
Fixpoint multilinear (box : list (R * R)) (c : list nat -> R) (x : list R) : R :=
  match box, x with
  | (a, b) :: box', t :: x' =>
      ((b - t) * multilinear box' (fun bits => c (0%nat :: bits)) x' + (t - a) * multilinear box' (fun bits => c (1%nat :: bits)) x') / (b - a)
  | _, _ => c []
  end.
Fixpoint is_box_integral (box : list (R * R)) (f : list R -> R) (v : R) : Prop :=
  match box with
  | [] => v = f []
  | (a, b) :: box' => exists g : R -> R, (forall t, a <= t <= b -> is_box_integral box' (fun x => f (t :: x)) (g t)) /\ is_RInt g a b v
  end.
(** The bin of a grid at an index tuple. *)
Fixpoint bin_box (edges : list (list R)) (idx : list nat) : list (R * R) :=
  match edges, idx with
  | x :: r, i :: idx' => (nth i x 0, nth (S i) x 0) :: bin_box r idx'
  | _, _ => []
  end.
(** The neighbouring corner of a bin, per dimension the left (0) or right (1) edge. *)
Fixpoint corner (idx bits : list nat) : list nat :=
  match idx, bits with
  | i :: idx', b :: bits' => (i + b)%nat :: corner idx' bits'
  | _, _ => []
  end.
(** A vector as an array. *)
Definition vec (l : list R) : nda := mkA [length l] (fun idx => nth (nth 0 idx 0%nat) l 0).
(** Edges with a constant step. *)
Definition uniform_step (b : list R) (h : R) : Prop := forall i, (S i < length b)%nat -> nth (S i) b 0 - nth i b 0 = h.
Definition product (l : list R) : R := fold_right Rmult 1 l.
(** The centre of the bin at an index tuple, as a data point. *)
Definition bin_center (bins : list (list R)) (idx : list nat) : pt :=
  fun d => (nth (nth d idx 0%nat) (nth d bins []) 0 + nth (S (nth d idx 0%nat)) (nth d bins []) 0) / 2.
(** A grid to interpolate on, points within it, and its nodes. *)
Definition is_grid (grid : list (list R)) : Prop := forall g, In g grid -> (2 <= length g)%nat /\ (forall i j, (i < j < length g)%nat -> nth i g 0 < nth j g 0).
Definition in_grid (grid : list (list R)) (x : list R) : Prop := Forall2 (fun g t => nth 0 g 0 <= t <= nth (length g - 1) g 0) grid x.
Definition node (grid : list (list R)) (idx : list nat) : list R := map (fun gi => nth (snd gi) (fst gi) 0) (combine grid idx).
(** Uniformly spaced edges with positive steps hs, at least two bins per dimension. *)
Definition good_bins (bins : list (list R)) (hs : list R) : Prop := Forall2 (fun b h => (3 <= length b)%nat /\ uniform_step b h /\ 0 < h) bins hs.
(** The point of a grid at an index tuple. *)
Definition grid_point (points : list (list R)) (idx : list nat) : pt := fun d => nth (nth d idx 0%nat) (nth d points []) 0.
