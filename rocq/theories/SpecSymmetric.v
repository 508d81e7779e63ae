(** Vocabulary for symmetric data. *)
From Coq Require Import Permutation.
From Verif Require Import Base ModelLinAlg ModelKDE.
Open Scope R_scope.
(** The map [g] of the points only changes the order of the weighted data. *)
Definition unchanged (g : pt -> pt) (data : list pt) (ws : list R) : Prop := Permutation (combine (map g data) ws) (combine data ws).
(** Numbers mirrored at [v]; weighted numbers that are symmetric about [v]. *)
Definition flip (v x : R) : R := 2 * v - x.
Definition symmetric_about (v : R) (xs ws : list R) : Prop := Permutation (combine (map (flip v) xs) ws) (combine xs ws).
(** Equal numbers have equal weights. *)
Definition fair (xs ws : list R) : Prop := forall p q, In p (combine xs ws) -> In q (combine xs ws) -> fst p = fst q -> p = q.
