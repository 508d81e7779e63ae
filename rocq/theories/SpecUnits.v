(** Vocabulary for C143: a change of units and the automatic grid. *)
From Verif Require Import Base ModelLinAlg ModelKernels ModelKDE ModelExtrema ModelInterp ModelResample ModelUtils ModelNd ModelGrid SpecUtils SpecKDE.
Open Scope R_scope.
Notation length := List.length.

(** The value [x] written in other units: zero point moved by [s], unit smaller by the factor [c]. *)
Definition unit_of (s c x : R) : R := s + c * x.
(** A sorting that looks at the values only by comparing them (as np.argsort does): the same rearrangement for the values taken
    through any strictly increasing function. *)
Definition by_comparison (sorter : list (R * R) -> list (R * R)) : Prop :=
  forall f l, (forall x y, x < y -> f x < f y) -> sorter (map (fun p => (f (fst p), snd p)) l) = map (fun p => (f (fst p), snd p)) (sorter l).
(** The same request for edges in other units. *)
Definition edge_unit (s c : R) (e : edge1) : edge1 := match e with EdVec l => EdVec (map (unit_of s c) l) | EdAuto => EdAuto | EdNum n => EdNum n end.
(** Usable weights for [m] data. *)
Definition weighs (m : nat) (w : option (list R)) : Prop :=
  match w with None => True | Some l => length l = m /\ (forall v, In v l -> 0 <= v) /\ exists v, In v l /\ 0 < v end.
(** A range in other units. *)
Definition range_unit (s c : R) (p : R * R) : R * R := (unit_of s c (fst p), unit_of s c (snd p)).
(** A function of the position and the entry applied to every entry. *)
Fixpoint at_each {A B} (f : nat -> A -> B) (i : nat) (l : list A) : list B :=
  match l with [] => [] | a :: r => f i a :: at_each f (S i) r end.
(** Grids, ranges and requests for edges of all dimensions in other units. *)
Definition grid_unit (s c : nat -> R) : list (list R) -> list (list R) := at_each (fun i => map (unit_of (s i) (c i))) 0.
Definition ranges_unit (s c : nat -> R) : list (R * R) -> list (R * R) := at_each (fun i => range_unit (s i) (c i)) 0.
Definition request_unit (n : nat) (s c : nat -> R) (e : edges_arg) : edges_arg :=
  match e with
  | EdAll EdAuto => EdAll EdAuto
  | EdAll (EdNum k) => EdAll (EdNum k)
  | EdAll (EdVec l) => EdEach (at_each (fun i => edge_unit (s i) (c i)) 0 (repeat (EdVec l) n))
  | EdEach l => EdEach (at_each (fun i => edge_unit (s i) (c i)) 0 l)
  end.
(** Boundaries, if there are any, for every dimension, at least one not None. *)
Definition some_boundary (n : nat) (r : option reflspec) : Prop := match r with None => True | Some l => length l = n /\ exists b, In (Some b) l end.
