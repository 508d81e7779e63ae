(** What plots are expected to show. *)
From Coq Require Import ZArith.
From Verif Require Import Base ModelLinAlg ModelKernels ModelKDE ModelInterp ModelResample ModelUtils ModelNd ModelGrid ModelSample SpecUtils SpecNd ModelPlot.
Open Scope R_scope.
Notation length := List.length.

(** Weight of the data strictly between two values. *)
Definition weight_between (lo hi : R) (data ws : list R) : R :=
  sumf (fun xw : R * R => if andb (Rltb lo (fst xw)) (Rltb (fst xw) hi) then snd xw else 0) (combine data ws).

(** Data to be plotted: at least one datum, a positive weight for each. *)
Definition nice (data : list R) (weights : option (list R)) : Prop :=
  data <> [] /\ length (the_weights data weights) = length data /\ all_pos (the_weights data weights).

(** Contour levels: [entry a v]: [v] is a value of the histogram; [above a v]: the sum of the larger values;
    [level_for a q v]: [v] is the lowest value such that it and all larger values (one copy of [v]) add up to a fraction of
    at most [q], or the largest value if none is low enough. *)
Definition entry (a : nda) (v : R) : Prop := exists idx, inb (shp a) idx /\ at_ a idx = v.
Definition above (a : nda) (v : R) : R := asum (shp a) (fun idx => if Rltb v (at_ a idx) then at_ a idx else 0).
Definition total_of (a : nda) : R := asum (shp a) (at_ a).
Definition level_for (a : nda) (q v : R) : Prop :=
  entry a v
  /\ ((forall u, entry a u -> u <= v) \/ above a v + v <= q * total_of a)
  /\ (forall u, entry a u -> u < v -> q * total_of a < above a u + u).

(** The values drawn of a histogram, and the value shown for one of height [h]. *)
Definition drawn (nonzero : bool) (hist : list R) : list R := if nonzero then filter (fun h => negb (Reqb h 0)) hist else hist.
(** Index of the padded array belonging to index [idx] of the original. *)
Definition shift_idx (p : nat) (idx : list nat) : list nat := map (fun i => (i + p)%nat) idx.

(** What the [renormalize] argument asks for: False, None and 0 for nothing, True for a largest value of one, a number for that number. *)
Inductive renormalised : renorm_arg -> R -> Prop :=
| ren_true : renormalised RnTrue 1
| ren_num : forall r, r <> 0 -> renormalised (RnNum r) r.
Inductive unnormalised : renorm_arg -> Prop :=
| unn_none : unnormalised RnNone
| unn_zero : unnormalised (RnNum 0).
(** The number of bins that the [pad] argument adds on each side. *)
Inductive pads_by : padarg -> nat -> Prop :=
| pads_none : pads_by PadNone 0
| pads_false : pads_by PadFalse 0
| pads_true : pads_by PadTrue 1
| pads_num : forall p, pads_by (PadNum p) p.
