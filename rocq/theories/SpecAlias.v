(** Vocabulary for references to the caller's objects. *)
From Verif Require Import Base ModelLinAlg ModelKernels ModelKDE ModelReflect.
Notation length := List.length.

(** The boundaries are given as a list with one entry for each parameter, not as a pair for the only parameter. *)
Definition one_entry_each (n : nat) (arg : rarg) : Prop := exists k l, arg = RSeq k l /\ (n = 1%nat -> length l <> 2%nat).
