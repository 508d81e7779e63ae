(** Independent vocabulary for statements about matrices. *)
From Verif Require Import Base ModelLinAlg.

Definition quad (n : nat) (A : mat) (x : pt) : R :=
  rsum n (fun i => rsum n (fun j => x i * A i j * x j)).
Definition symmetric (n : nat) (A : mat) : Prop :=
  forall i j, (i < n)%nat -> (j < n)%nat -> A i j = A j i.
Definition posdef (n : nat) (A : mat) : Prop :=
  forall x : pt, (exists i, (i < n)%nat /\ x i <> 0) -> 0 < quad n A x.
Definition ident : mat := fun i j => if Nat.eqb i j then 1 else 0.
Definition is_inverse (n : nat) (M N : mat) : Prop :=
  forall i j, (i < n)%nat -> (j < n)%nat ->
    rsum n (fun k => M i k * N k j) = ident i j /\ rsum n (fun k => N i k * M k j) = ident i j.
Definition agree (n : nat) (A B : mat) : Prop :=
  forall i j, (i < n)%nat -> (j < n)%nat -> A i j = B i j.
