(** utils.quantiles with an axis, for arrays of any number of dimensions. *)
From Coq Require Import ZArith.
From Verif Require Import Base ModelLinAlg ModelKernels ModelKDE ModelInterp ModelResample ModelUtils ModelNd.
Open Scope R_scope.
Notation length := List.length.

(** The numbers along axis [k] at the indices [idx] of the other axes. *)
Definition lane (a : nda) (k : nat) (idx : list nat) : list R := map (fun j => at_ a (ins_nth k j idx)) (seq 0 (nth k (shp a) 0%nat)).
(** utils.py:520-521: dividing in place an array of shape [sh] by the sums along axis [k] with a new last axis: every axis from [k] on must
    match the next one, or that is of length one. *)
Definition sums_fit (sh : list nat) (k : nat) : bool :=
  forallb (fun d => orb (Nat.eqb (nth (S d) sh 0%nat) (nth d sh 0%nat)) (Nat.eqb (nth (S d) sh 0%nat) 1)) (seq k (length sh - 1 - k)).
(** The sum that the entry at [full] is divided by. *)
Definition sum_index (sh : list nat) (k : nat) (full : list nat) : list nat :=
  map (fun d => if Nat.eqb (nth d (rem_nth k sh) 0%nat) 1 then 0%nat else nth d full 0%nat) (seq 0 (length sh - 1)).

(** utils.py:477-533 [quantiles] with an axis.  Simplifications: the weights have the shape of the values, no sum is zero. *)
Definition quantiles_ax (sorter : list (R * R) -> list (R * R)) (values : nda) (percs : option (list R)) (weights : option nda) (axis : Z)
    (values_sorted : bool) : res (list (list R)) :=
  match percs with
  | None => Err ValueError
  | Some ps =>
      let ws := match weights with Some w => w | None => mkA (shp values) (fun _ => 1) end in
      if negb (forallb (fun p => andb (Rleb 0 p) (Rleb p 1)) ps) then Err AssertionError else
      match norm_axis (length (shp values)) axis with
      | None => Err ValueError
      | Some k =>
          let sh := shp values in
          let pairs := fun idx => let vw := combine (lane values k idx) (lane ws k idx) in if values_sorted then vw else sorter vw in
          let total := fun idx => lsum (map snd (pairs idx)) in
          if negb (sums_fit sh k) then Err ValueError else
          mapM (fun idx =>
            let vw := pairs idx in
            let w := map snd vw in
            let wq := map (fun j => (vget (cumsum1 w) j - / 2 * vget w j) / total (sum_index sh k (ins_nth k j idx))) (seq 0 (length w)) in
            if Nat.eqb (length vw) 0 then Err ValueError
            else Ok (map (np_interp (vget wq) (vget (map fst vw)) (length vw - 1)) ps))
            (all_idx (rem_nth k sh))
      end
  end.
