(** Vocabulary for numbers counted from the end. *)
From Coq Require Import ZArith.
From Verif Require Import Base.
(** The number [z] means position [k] of [n]. *)
Definition counts (n : nat) (z : Z) (k : nat) : Prop := (k < n)%nat /\ (z = Z.of_nat k \/ z = Z.of_nat k - Z.of_nat n)%Z.
