(** Vocabulary for linear changes of the parameters. *)
From Verif Require Import Base ModelLinAlg ModelKDE.
Open Scope R_scope.
(** [linear_change n g c]: the map [g] of points with [n] parameters is put together from shifts, multiplications of one
    parameter by a non-zero number and additions of a multiple of one parameter to another; it multiplies volumes by [c]. *)
Inductive linear_change (n : nat) : (pt -> pt) -> R -> Prop :=
| lc_shift : forall t : pt, linear_change n (fun x i => x i + t i) 1
| lc_scale : forall k r, (k < n)%nat -> r <> 0 -> linear_change n (fun x i => if Nat.eqb i k then r * x i else x i) (Rabs r)
| lc_shear : forall k l r, (k < n)%nat -> (l < n)%nat -> k <> l -> linear_change n (fun x i => if Nat.eqb i k then x k + r * x l else x i) 1
| lc_then : forall g h c d, linear_change n g c -> linear_change n h d -> linear_change n (fun x => h (g x)) (c * d).
(** One bandwidth for all parameters. *)
Definition one_bandwidth (b : bwarg) : Prop := b = BwNone \/ exists a, b = BwAtom a.
(** Rotation in the plane of the first two parameters, and two parameters exchanged. *)
Definition rotation (a b : R) (x : pt) : pt := fun i => match i with 0%nat => a * x 0%nat - b * x 1%nat | 1%nat => b * x 0%nat + a * x 1%nat | _ => x i end.
Definition exchange (k l : nat) (x : pt) : pt := fun i => if Nat.eqb i k then x l else if Nat.eqb i l then x k else x i.
