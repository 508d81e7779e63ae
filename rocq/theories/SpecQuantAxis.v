(** Vocabulary for functions along an axis of an array. *)
From Verif Require Import Base ModelNd.
Open Scope R_scope.
Notation length := List.length.
(** [l]: the numbers along axis [k], the other indices being [idx]. *)
Definition along (a : nda) (k : nat) (idx : list nat) (l : list R) : Prop :=
  length l = nth k (shp a) 0%nat /\ forall j, (j < length l)%nat -> nth j l 0 = at_ a (firstn k idx ++ j :: skipn k idx).
(** Every axis from [k] on has the length of the next one, or that is of length one. *)
Definition fits (sh : list nat) (k : nat) : Prop := forall d, (k <= d)%nat -> (S d < length sh)%nat -> nth (S d) sh 0%nat = nth d sh 0%nat \/ nth (S d) sh 0%nat = 1%nat.
