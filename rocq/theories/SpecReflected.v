(** Vocabulary for densities with reflecting boundaries in any number of dimensions. *)
From Verif Require Import Base ModelLinAlg ModelKernels SpecLinAlg SpecKernels.
Open Scope R_scope.

(** The point lies within the limits of dimension [i] (a dimension without limits has no outside). *)
Definition within (r : reflspec) (x : pt) (i : nat) : Prop :=
  forall lo hi, nth i r None = Some (lo, hi) ->
    (forall v, lo = Some v -> v <= x i) /\ (forall v, hi = Some v -> x i <= v).
(** ... of dimension [i] and of all later ones. *)
Definition within_from (r : reflspec) (x : pt) (i : nat) : Prop := forall j, (i <= j)%nat -> within r x j.

(** The boundaries of dimension [i]: none, one or two. *)
Definition is_boundary (r : reflspec) (i : nat) (v : R) : Prop :=
  exists lo hi, nth i r None = Some (lo, hi) /\ (lo = Some v \/ hi = Some v).
Definition boundaries (ob : option bnd) : list R :=
  match ob with
  | None => []
  | Some (lo, hi) => (match lo with Some v => [v] | None => [] end) ++ (match hi with Some v => [v] | None => [] end)
  end.

(** The point seen in a mirror at [v] perpendicular to dimension [i]. *)
Definition mirrored (i : nat) (v : R) (p : pt) : pt := fun k => if Nat.eq_dec k i then 2 * v - p k else p k.
Definition mirrored_data (i : nat) (v : R) (wdata : list (pt * R)) : list (pt * R) :=
  map (fun dw => (mirrored i v (fst dw), snd dw)) wdata.
