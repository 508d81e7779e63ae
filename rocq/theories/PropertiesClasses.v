(** Property C119: the kernel classes called directly. *)
From Verif Require Import Base ModelLinAlg ModelKernels SpecKernels ModelKDE ModelUtils ModelNd SpecNd ModelResample SpecIntegral ModelClasses SpecClasses ProofClasses.
Open Scope R_scope.
Notation length := List.length.

(** * C119 *)
(** evaluate: the normalised kernel at every point, for arrays of every shape. *)
Theorem C119_evaluate : forall d a, (1 <= coords_of a)%nat ->
  exists g, normalised d (coords_of a) g
  /\ shp (evaluate_nd d a) = (match shp a with [] => [1%nat] | [n] => [n] | _ :: s => s end)
  /\ forall idx, at_ (evaluate_nd d a) idx = g (point_at a idx).
Proof. exact classes_evaluate. Qed.
Print Assumptions C119_evaluate.

(** grid: the normalised kernel at every combination. *)
Theorem C119_grid : forall d edges, edges <> [] ->
  exists a g, grid_nd d edges = Ok a /\ normalised d (length edges) g /\ shp a = map (@List.length R) edges
  /\ forall idx, inb (shp a) idx -> at_ a idx = g (fun k => nth (nth k idx 0%nat) (nth k edges []) 0).
Proof. exact classes_grid. Qed.
Print Assumptions C119_grid.

(** No edges at all. *)
Theorem C119_grid_empty : forall d, grid_nd d [] = Err ValueError.
Proof. exact classes_grid_empty. Qed.
Print Assumptions C119_grid_empty.

(** inside, with coordinates along the first axis: within the unit ball. *)
Theorem C119_inside : forall d a n m s, finite d = true -> shp a = n :: m :: s ->
  exists f, inside_nd d a = Ok (m :: s, f) /\ forall idx, f idx = true <-> from_origin n (point_at a idx) < 1.
Proof. exact classes_inside. Qed.
Print Assumptions C119_inside.

(** For Parabola and Triweight this is where the kernel is positive. *)
Theorem C119_positive : forall d a n m s, d = Parabola \/ d = Triweight -> shp a = n :: m :: s -> (1 <= n)%nat ->
  exists f, inside_nd d a = Ok (m :: s, f) /\ forall idx, f idx = true <-> 0 < at_ (evaluate_nd d a) idx.
Proof. exact classes_positive. Qed.
Print Assumptions C119_positive.

(** The Box is positive on the sphere, where inside is False. *)
Theorem C119_box_refuted : exists a f, shp a = [2%nat; 1%nat] /\ inside_nd Box a = Ok ([1%nat], f) /\ f [0%nat] = false /\ 0 < at_ (evaluate_nd Box a) [0%nat].
Proof. exact classes_box_refuted. Qed.
Print Assumptions C119_box_refuted.

(** inside of several numbers in one dimension: ValueError. *)
Theorem C119_vector : forall d a n, finite d = true -> shp a = [n] -> 
  ((2 <= n)%nat -> inside_nd d a = Err ValueError)
  /\ (n = 1%nat -> exists f, inside_nd d a = Ok ([1%nat], f) /\ (f [0%nat] = true <-> from_origin 1 (point_at a [0%nat]) < 1)).
Proof. exact classes_inside_vector. Qed.
Print Assumptions C119_vector.

(** inside of a single number: ValueError. *)
Theorem C119_number : forall d a, finite d = true -> shp a = [] -> inside_nd d a = Err ValueError.
Proof. exact classes_inside_number. Qed.
Print Assumptions C119_number.

(** inside of the Gaussian: always a TypeError. *)
Theorem C119_gaussian : forall a, inside_nd Gaussian a = Err TypeError.
Proof. exact classes_inside_gaussian. Qed.
Print Assumptions C119_gaussian.

(** sample: one column for each draw; in one dimension, or with squeeze=True, without the axes of length one. *)
Theorem C119_sample : forall d size ndim squeeze rn, let n := match ndim with Some n => n | None => 1%nat end in
  let removed := match squeeze with Some b => b | None => Nat.eqb n 1 end in
  shp (sample_nd d size ndim squeeze rn) = (if removed then squeezed [n; size] [n; size] else [n; size])
  /\ forall i j, (i < n)%nat -> (j < size)%nat ->
       at_ (sample_nd d size ndim squeeze rn) (if removed then squeezed [n; size] [i; j] else [i; j]) = dist_sample d n (rn j) i.
Proof. exact classes_sample. Qed.
Print Assumptions C119_sample.

Example C119_example : let a := mkA [2%nat; 3%nat] (fun idx => INR (nth 0 idx 0%nat) / 4) in
  coords_of a = 2%nat /\ finite Triweight = true /\ shp (evaluate_nd Triweight a) = [3%nat] /\ from_origin 2 (point_at a [1%nat]) < 1
  /\ shp (sample_nd Box 1 None None (fun _ => mkRnd (fun _ => 0) (fun _ => 0) (fun _ _ => 0))) = [].
Proof. cbv zeta. repeat split. unfold from_origin, point_at. cbn. lra. Qed.

