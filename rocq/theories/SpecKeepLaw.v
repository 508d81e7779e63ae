(** Vocabulary for the law of the samples when parameters are kept. *)
From Verif Require Import Base ModelLinAlg ModelResample SpecResample.
Open Scope R_scope.
(** [x] has the kept parameters of [p]. *)
Definition kept_of (n : nat) (keep : keeparg) (p x : pt) : Prop := forall i, (i < n)%nat -> kept n keep i -> x i = p i.
(** [g] does not look at the kept parameters. *)
Definition of_others (n : nat) (keep : keeparg) (g : pt -> R) : Prop := forall x y : pt, (forall i, (i < n)%nat -> ~ kept n keep i -> x i = y i) -> g x = g y.
(** [x] with the kept parameters replaced by those of [p] is [y]. *)
Definition replaced (n : nat) (keep : keeparg) (p x y : pt) : Prop :=
  forall i, (i < n)%nat -> (kept n keep i -> y i = p i) /\ (~ kept n keep i -> y i = x i).
