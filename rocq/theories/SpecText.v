(** Specification vocabulary for text output. *)
From Coq Require Import String.
From Verif Require Import Base SpecUtils ModelText.
Open Scope R_scope.

(** [t] is the texts of [l], separated by commas. *)
Inductive listed {A} (f : A -> string) : list A -> string -> Prop :=
  | li_nil : listed f [] ""%string
  | li_one a : listed f [a] (f a)
  | li_more a b l t : listed f (b :: l) t -> listed f (a :: b :: l) (f a ++ ", " ++ t)%string.
(** [k] is [x] without its fraction. *)
Definition cut_towards_zero (x : R) (k : Z) : Prop := (0 <= x /\ IZR k <= x < IZR k + 1) \/ (x < 0 /\ IZR k - 1 < x <= IZR k).

(** The numbers different from zero. *)
Definition nonzero_min (l : list R) (m : R) : Prop := In m l /\ m <> 0 /\ forall x, In x l -> x <> 0 -> m <= x.
Definition nonzero_max (l : list R) (m : R) : Prop := In m l /\ m <> 0 /\ forall x, In x l -> x <> 0 -> x <= m.
(** The style for numbers [l] ([int]: of integer type and neither average nor deviation shown): by the sizes of the smallest and the largest number
    different from zero. *)
Inductive style_for (l : list R) (int : bool) : style -> Prop :=
  | sf_zero : (forall x, In x l -> x = 0) -> style_for l int General
  | sf_exp lo hi : nonzero_min l lo -> nonzero_max l hi -> (Rabs lo < / 100 \/ 100 < Rabs lo \/ Rabs hi < / 100 \/ 100 < Rabs hi) -> style_for l int Exponent
  | sf_dec lo hi : nonzero_min l lo -> nonzero_max l hi -> / 100 <= Rabs lo <= 100 -> / 100 <= Rabs hi <= 100 -> int = true -> style_for l int Decimal
  | sf_fix lo hi : nonzero_min l lo -> nonzero_max l hi -> / 100 <= Rabs lo <= 100 -> / 100 <= Rabs hi <= 100 -> int = false -> style_for l int Fixed.
(** The style in use when a format is given or not. *)
Definition style_used (l : list R) (int : bool) (format : option string) (st : style) : Prop :=
  match format with Some s => st = Given s | None => style_for l int st end.
