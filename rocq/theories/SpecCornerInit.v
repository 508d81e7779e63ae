(** Vocabulary for the labels and ticks of corner plots. *)
From Coq Require Import String.
From Verif Require Import Base ModelCornerInit.
Open Scope R_scope.
Notation length := List.length.
(** The parameter along the x axis and along the y axis of the panel (i, j) on or below the diagonal; none where the density is drawn. *)
Definition param_x (size : nat) (rotate : bool) (i j : nat) (k : nat) : Prop := k = j /\ ~ (rotate = true /\ i = j /\ S j = size).
Definition param_y (size : nat) (rotate : bool) (i j : nat) (k : nat) : Prop := k = i /\ (j < i \/ rotate = true /\ i = j /\ S j = size)%nat.
Definition panel_of (size i j : nat) : Prop := (j <= i < size)%nat.
(** A list for the parameters that is not given, or long enough, or of exactly their number. *)
Definition enough {A} (size : nat) (o : option (list A)) : Prop := match o with None => True | Some l => (size <= length l)%nat end.
Definition exactly {A} (size : nat) (o : option (list A)) : Prop := match o with None => True | Some l => length l = size end.
