(** Vocabulary for the points used when none are given. *)
From Verif Require Import Base ModelLinAlg ModelKernels ModelKDE ModelNd ModelApi.
Open Scope R_scope.
Notation length := List.length.

(** The parameters selected among [n]. *)
Definition selected (n : nat) (p : parg) (ps : list nat) : Prop :=
  match p with
  | PNone => ps = seq 0 n
  | PInt q => ps = [q] /\ (q < n)%nat
  | PList l => ps = l /\ Forall (fun q => (q < n)%nat) l /\ n <> 1%nat
  end.
(** The coordinates of these parameters. *)
Definition rows_of (g : list (list R)) (ps : list nat) : list (list R) := map (fun q => nth q g []) ps.
(** An array of values on the grid of [rows]. *)
Definition grid_of (rows : list (list R)) (v : pt -> R) (a : nda) : Prop :=
  shp a = map (@length R) rows
  /\ forall idx, length idx = length rows -> (forall d, (d < length rows)%nat -> (nth d idx 0 < length (nth d rows []))%nat) ->
     at_ a idx = v (fun d => nth (nth d idx 0%nat) (nth d rows []) 0).
