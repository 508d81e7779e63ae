(** Specification vocabulary for the evaluation grid of a KDE. *)
From Verif Require Import Base ModelGrid SpecUtils.
Open Scope R_scope.
Notation length := List.length.

(** What each specification of one dimension gives. *)
Definition edges_meaning (e : edge1) (lo hi : R) (g : list R) : Prop :=
  match e with
  | EdAuto => uniform g lo hi /\ incr_list g /\ (4 <= length g <= 201)%nat
  | EdNum n => uniform g lo hi /\ incr_list g /\ length g = S n
  | EdVec l => g = l
  end.
Definition edges_usable (e : edge1) : Prop := match e with EdNum n => (1 <= n)%nat | _ => True end.
