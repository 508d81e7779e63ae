(** Vocabulary for C155: samples of a grid and the units of its edges. *)
From Coq Require Import ZArith.
From Verif Require Import Base ModelLinAlg ModelKernels ModelKDE ModelNd ModelSample SpecUtils SpecNd SpecUnits.
Open Scope R_scope.
Notation length := List.length.
(** A (D, N) array of positions and the same positions in other units, with the same scalar values. *)
Definition positions_unit (s c : nat -> R) (r r' : nda * option (list R)) : Prop :=
  shp (fst r') = shp (fst r) /\ snd r' = snd r
  /\ forall d j, (d < nth 0 (shp (fst r)) 0)%nat -> (j < nth 1 (shp (fst r)) 0)%nat -> at_ (fst r') [d; j] = s d + c d * at_ (fst r) [d; j].
(** Density per unit volume in the other units: divided by the product of the factors. *)
Definition density_unit (c : nat -> R) (dens : nda) : nda := map_nd (fun v => v / rprod (length (shp dens)) c) dens.
(** Samples of Sample_Outliers (number, positions, weights) in the units and in other units. *)
Definition outliers_unit (s c : nat -> R) (r r' : Z * nda * list R) : Prop :=
  fst (fst r') = fst (fst r) /\ positions_unit s c (snd (fst r), Some (snd r)) (snd (fst r'), Some (snd r')).
