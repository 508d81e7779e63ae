(** Vocabulary for C153: mirrored grids and complements. *)
From Verif Require Import Base ModelLinAlg ModelKernels ModelKDE ModelUtils SpecSymmetric.
Open Scope R_scope.
Notation length := List.length.
(** The grid mirrored at [v], again in increasing order. *)
Definition mirror_grid (v : R) (g : list R) : list R := rev (map (flip v) g).
(** One minus the number, if there is one. *)
Definition complement (r : res flt) : res flt := match r with Ok (Fin p) => Ok (Fin (1 - p)) | _ => r end.
