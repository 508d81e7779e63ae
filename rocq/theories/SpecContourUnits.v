(** Vocabulary for contours in other units and with exchanged axes. *)
From Verif Require Import Base ModelLinAlg ModelNd SpecNd.
Open Scope R_scope.
Notation length := List.length.

(** Other units of one coordinate, and of a point. *)
Definition in_unit (a b x : R) : R := a * x + b.
Definition pair_unit (a b c e : R) (p : R * R) : R * R := (in_unit a b (fst p), in_unit c e (snd p)).
(** The array [B] is [A] with [f] applied to every entry. *)
Definition same_after (f : R -> R) (A B : nda) : Prop := shp B = shp A /\ forall idx, SpecNd.inb (shp A) idx -> at_ B idx = f (at_ A idx).
(** The array [B] is [A] with its two axes exchanged. *)
Definition exchanged (A B : nda) : Prop := exists n m, shp A = [n; m] /\ shp B = [m; n] /\ forall i j, (i < n)%nat -> (j < m)%nat -> at_ B [j; i] = at_ A [i; j].
Definition swap (p : R * R) : R * R := (snd p, fst p).
(** Entries at most [eps] apart. *)
Definition close_entries (eps : R) (A B : nda) : Prop := shp B = shp A /\ forall idx, SpecNd.inb (shp A) idx -> Rabs (at_ B idx - at_ A idx) <= eps.
