(** Vocabulary for drawings. *)
From Verif Require Import Base ModelLinAlg ModelUtils ModelNd ModelPlot ModelDraw SpecUtils SpecNd SpecPlot SpecSample.
Open Scope R_scope.
Notation length := List.length.

Inductive kind := KScatter | KVline | KHline | KHist | KLines | KMask.
Definition kind_of (a : artist) : kind :=
  match a with AScatter _ _ => KScatter | AVline _ _ => KVline | AHline _ _ => KHline | AHist _ => KHist | ALines _ _ _ => KLines | AMask _ _ _ _ => KMask end.
Definition only (b : bool) (l : list kind) : list kind := if b then l else [].
(** Points are asked for. *)
Definition asked (a : numarg) : bool := match a with NaNone | NaFalse => false | NaTrue | NaNum _ => true end.
(** The lowest of the levels of some lines; the lowest and highest entry of an array. *)
Definition lowest_level (lines : list line) (v : R) : Prop := (exists l, In l lines /\ ln_level l = v) /\ forall l, In l lines -> v <= ln_level l.
Definition least_entry (z : nda) (v : R) : Prop := entry z v /\ forall u, entry z u -> v <= u.
Definition greatest_entry (z : nda) (v : R) : Prop := entry z v /\ forall u, entry z u -> u <= v.
Definition at_least_2x2 (z : nda) : Prop := exists n m, shp z = [n; m] /\ (2 <= n)%nat /\ (2 <= m)%nat.
(** The middle of the sorted data. *)
Definition median_of (l : list R) (v : R) : Prop :=
  exists s, sorted_of l s /\ v = (nth ((length l - 1) / 2) s 0 + nth (length l / 2) s 0) / 2.
(** np.random.choice without replacement. *)
Definition chooses (sel : nat -> nat -> list nat) : Prop :=
  forall n k, (k <= n)%nat -> length (sel n k) = k /\ NoDup (sel n k) /\ forall i, In i (sel n k) -> (i < n)%nat.
(** A value strictly between the lowest and the highest entry. *)
Definition strictly_inside (z : nda) (v : R) : Prop := (exists u, entry z u /\ u < v) /\ exists u, entry z u /\ v < u.
(** A line of width [w] with an outline twice as wide; line and outline, both of opacity [o], over each other have opacity [a]. *)
Definition outlined (a : R) (l : line) (w : R) : Prop := ln_width l = Some w /\ exists o, ln_outline l = Some (2 * w, o) /\ 0 <= o <= a /\ 1 - (1 - o) * (1 - o) = a.
Definition plain_outline (ol : olarg) : Prop := ol = OlTrue \/ ol = OlFalse.
