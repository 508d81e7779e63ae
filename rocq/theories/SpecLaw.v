(** Vocabulary for the law of the samples. *)
From Verif Require Import Base ModelLinAlg.
Open Scope R_scope.
(** Density of [n] independent standard normal numbers. *)
Definition std_normal (n : nat) (z : pt) : R := rprod n (fun k => exp (- (z k * z k) / 2) / sqrt (2 * PI)).
(** [G] depends on the first [n] coordinates only. *)
Definition of_params (n : nat) (G : pt -> R) : Prop := forall x y : pt, (forall k, (k < n)%nat -> x k = y k) -> G x = G y.
(** Mean of the values [v k], the point [k] counting with its weight. *)
Definition weighted (ws : list R) (v : nat -> R) : R := rsum (List.length ws) (fun k => nth k ws 0 * v k) / rsum (List.length ws) (fun k => nth k ws 0).
