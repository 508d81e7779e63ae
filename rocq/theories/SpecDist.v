(** Vocabulary for the statements about dist1d, dist2d and carpet. *)
From Verif Require Import Base ModelLinAlg ModelKernels ModelKDE ModelExtrema ModelUtils ModelNd ModelGrid ModelPlot ModelDist SpecUtils SpecPlot.
Open Scope R_scope.

(** A number as a point of one coordinate. *)
Definition line_pt (x : R) : pt := fun d => match d with O => x | _ => 0 end.
(** Area under the bars [h] between the edges [es]. *)
Definition bar_area (h es : list R) : R := rsum (length es - 1) (fun i => vget h i * (vget es (S i) - vget es i)).
(** [es]: edges from one end of the data to the other, or further. *)
Definition covers (es data : list R) : Prop :=
  (2 <= length es)%nat /\ incr_list es /\ forall x, In x data -> vget es 0 <= x <= vget es (length es - 1).
(** A curve with the heights multiplied. *)
Definition times (r : R) (c : list R * list R) : list R * list R := (fst c, map (fun y => y * r) (snd c)).
(** The histogram is drawn: asked for, or left open and the numbers (not a KDE) are given. *)
Definition bars_drawn (is_kde : bool) (hist : option bool) : Prop := hist = Some true \/ hist = None /\ is_kde = false.
(** A limit for the number of points that is accepted. *)
Definition limit_accepted (a : numarg) : Prop := match a with NaNum r => 1 <= r | _ => True end.
(** The curve is drawn, not rescaled: asked for, or left open and a KDE is given. *)
Definition curve_arg (is_kde : bool) (d : densarg) : Prop := d = DaTrue \/ d = DaNone /\ is_kde = true.
(** The curve is drawn with its heights multiplied by [r]. *)
Definition curve_factor (is_kde : bool) (d : densarg) (r : R) : Prop := d = DaNum r \/ curve_arg is_kde d /\ r = 1.
(** Two different values that both count. *)
Definition two_values (data ws : list R) : Prop :=
  exists i j, (i < j)%nat /\ (j < length data)%nat /\ vget data i <> vget data j /\ vget ws i <> 0 /\ vget ws j <> 0.
(** A boundary at both ends, and its ends. *)
Definition both_ends (b : option bnd) (lo hi : R) : Prop := b = Some (Some lo, Some hi).
Definition full (b : option bnd) : Prop := exists lo hi, both_ends b lo hi.
(** A boundary with the missing ends taken from the data. *)
Definition filled (b : option bnd) (row : list R) : R * R :=
  match b with
  | None => (lmin row, lmax row)
  | Some (lo, hi) => (match lo with Some v => v | None => lmin row end, match hi with Some v => v | None => lmax row end)
  end.
(** [g]: equal bins from [lo] to [hi]. *)
Definition spans (g : list R) (lo hi : R) : Prop := uniform g lo hi /\ incr_list g.
(** [q]: the largest of the fractions. *)
Definition largest (q : R) (qs : list R) : Prop := In q qs /\ forall p, In p qs -> p <= q.
(** The order of two lists of the same length is the same. *)
Definition same_order (l s : list R) : Prop := length s = length l /\ forall i j, (i < length l)%nat -> (j < length l)%nat -> vget l i <= vget l j -> vget s i <= vget s j.
Definition opposite_order (l s : list R) : Prop := length s = length l /\ forall i j, (i < length l)%nat -> (j < length l)%nat -> vget l i <= vget l j -> vget s j <= vget s i.
(** Sum over the bins of a two-dimensional histogram of what is drawn, and of everything. *)
Definition sum_drawn (nx ny : nat) (show : nat -> nat -> option R) : R :=
  rsum nx (fun i => rsum ny (fun j => match show i j with Some v => v | None => 0 end)).
Definition sum_all (nx ny : nat) (v : nat -> nat -> R) : R := rsum nx (fun i => rsum ny (fun j => v i j)).
(** The edges are left to be chosen, or a number of bins is given. *)
Definition wants_bins (e : edge1) : Prop := match e with EdVec _ => False | EdNum n => (1 <= n)%nat | EdAuto => True end.
(** The values as points of one coordinate. *)
Definition as_points (data : list R) : list pt := map (fun x => ((fun _ => x) : pt)) data.
