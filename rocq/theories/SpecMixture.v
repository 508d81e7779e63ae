(** Vocabulary for merged data sets. *)
From Verif Require Import Base ModelLinAlg ModelKernels ModelKDE SpecKDE.
Open Scope R_scope.
(** Three outcomes: all fail in the same way, or all succeed and are related. *)
Definition res_rel3 {A} (P : A -> A -> A -> Prop) (x y z : res A) : Prop :=
  match x, y, z with Ok a, Ok b, Ok c => P a b c | Err e, Err e', Err e'' => e = e' /\ e' = e'' | _, _, _ => False end.
(** A bandwidth given by numbers only. *)
Definition numbers_only (b : bwarg) : Prop :=
  match b with BwNone => False | BwAtom (BNum _) => True | BwAtom _ => False | BwSeq l => forall a, In a l -> exists r, a = BNum r | BwMat _ _ => True end.
(** A KDE of these data with these weights and boundaries. *)
Definition built_with (n : nat) (data : list pt) (ws : list R) (st : option reflspec) (K : kde) : Prop :=
  exists w b diag resc d cova neffa, weights_given w data ws /\ kde_init n data w b diag resc d cova neffa st = Ok K.
