(** Vocabulary for C154: what the positions handed out by np.random.choice refer to. *)
From Verif Require Import Base ModelLinAlg ModelKernels ModelKDE ModelResample SpecReflect.
Open Scope R_scope.
Notation length := List.length.
(** The points a sample can be drawn around: the data, or the data and their mirror images between the boundaries. *)
Definition centres (refl : option reflspec) (data : list pt) : list pt :=
  match refl with None => data | Some r => filter (inside r) (data ++ all_mirrors 0 r data) end.
(** Every position is one of those. *)
Definition in_range (ix : nat -> nat -> nat) (refl : option reflspec) (data : list pt) : Prop := forall t j, (ix t j < length (centres refl data))%nat.
(** Boundaries as KDE keeps them: one entry for every dimension, the lower one below the upper one. *)
Definition kept_boundaries (n : nat) (refl : option reflspec) : Prop := match refl with None => True | Some r => length r = n /\ forall ob, In ob r -> ordered ob end.
