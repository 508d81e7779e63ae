(** Vocabulary for quantiles in other units and of perturbed data. *)
From Verif Require Import Base SpecUtils.
Open Scope R_scope.
Notation length := List.length.
(** Other units. *)
Definition rescaled (a b x : R) : R := a * x + b.
(** Pairwise: not larger, and at most [delta] apart. *)
Definition below (l l' : list R) : Prop := Forall2 Rle l l'.
Definition close_by (delta : R) (l l' : list R) : Prop := Forall2 (fun x y => Rabs (x - y) <= delta) l l'.
(** A band in other units. *)
Definition band_resc (a b : R) (p : R * R) : R * R := (rescaled a b (fst p), rescaled a b (snd p)).
