(** Vocabulary for where the density is high. *)
From Verif Require Import Base ModelLinAlg.
Open Scope R_scope.
Notation length := List.length.
Definition dot (n : nat) (a x : pt) : R := rsum n (fun i => a i * x i).
(** A weighted mean of the data points. *)
Definition among (n : nat) (data : list pt) (y : pt) : Prop := exists ls, length ls = length data /\ (forall l, In l ls -> 0 <= l) /\ lsum ls = 1
  /\ forall i, (i < n)%nat -> y i = sumf (fun pl => snd pl * fst pl i) (combine data ls).
(** From [x] for the length [t] in the direction that the matrix [M] makes of [a]. *)
Definition moved (n : nat) (M : mat) (a x : pt) (t : R) : pt := fun i => x i + t * rsum n (fun j => M i j * a j).
