(** Specification vocabulary for the vector helpers. *)
From Coq Require Import Permutation.
From Verif Require Import Base.
Open Scope R_scope.
Notation length := List.length.

(** Strictly increasing / non-decreasing vectors. *)
Definition incr_list (l : list R) : Prop :=
  forall i j, (i < j)%nat -> (j < length l)%nat -> nth i l 0 < nth j l 0.
Definition nondecr_list (l : list R) : Prop :=
  forall i j, (i <= j)%nat -> (j < length l)%nat -> nth i l 0 <= nth j l 0.

(** [m] is the smallest / largest element. *)
Definition min_of (l : list R) (m : R) : Prop := In m l /\ forall x, In x l -> m <= x.
Definition max_of (l : list R) (m : R) : Prop := In m l /\ forall x, In x l -> x <= m.

(** The middle value, or the mean of the two middle ones. *)
Definition median_of (l : list R) (m : R) : Prop := exists s, Permutation l s /\ nondecr_list s /\
  let n := List.length l in m = (nth ((n - 1) / 2) s 0 + nth (n / 2) s 0) / 2.

(** [l'] is [l] sorted by the first component, equal keys in any order. *)
Definition sorted_fst (l : list (R * R)) : Prop := nondecr_list (map fst l).
Definition sort_of (l l' : list (R * R)) : Prop := Permutation l l' /\ sorted_fst l'.

(** Equally spaced from [a] to [b]. *)
Definition uniform (l : list R) (a b : R) : Prop :=
  nth 0 l 0 = a /\ nth (length l - 1) l 0 = b
  /\ forall i, (i < length l)%nat -> nth i l 0 = a + INR i * (b - a) / INR (length l - 1).

(** Strictly inside / outside in one dimension. *)
Definition row_inside (lo hi : option R) (v : R) : Prop :=
  (forall a, lo = Some a -> a < v) /\ (forall b, hi = Some b -> v < b).
Definition row_outside (lo hi : option R) (v : R) : Prop :=
  (exists a, lo = Some a /\ v < a) \/ (exists b, hi = Some b /\ b < v).

(** The bounds of dimension [i]. *)
Definition row_dim (rows : list (list (option R))) (i : nat) : option R * option R :=
  (nth 0 (nth i rows []) None, nth 1 (nth i rows []) None).

(** Positive weights, at least one. *)
Definition all_pos (ws : list R) : Prop := forall w, In w ws -> 0 < w.

(** The sorting step of quantiles: [np.argsort] returns some sorting order. *)
Definition sorts (sorter : list (R * R) -> list (R * R)) : Prop := forall l, sort_of l (sorter l).

(** Requested fractions. *)
Definition fractions (ps : list R) : Prop := forall p, In p ps -> 0 <= p <= 1.

(** Weight of the values smaller than [v]. *)
Definition weight_below (v : R) (values ws : list R) : R :=
  sumf (fun xw : R * R => if Rltb (fst xw) v then snd xw else 0) (combine values ws).

(** Weight of the data within the closed range of the edges. *)
Definition weight_in (lo hi : R) (data ws : list R) : R :=
  sumf (fun xw : R * R => if andb (Rleb lo (fst xw)) (Rleb (fst xw) hi) then snd xw else 0) (combine data ws).

(** The weights used: one for each datum by default. *)
Definition the_weights (data : list R) (weights : option (list R)) : list R :=
  match weights with Some w => w | None => map (fun _ => 1) data end.

(** [r] is None without data, else the pair of smallest and largest element. *)
Definition range_of (l : list R) (r : option (option R * option R)) : Prop :=
  match l with
  | [] => r = None
  | _ => exists lo hi, r = Some (Some lo, Some hi) /\ min_of l lo /\ max_of l hi
  end.
