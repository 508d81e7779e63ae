(** One-dimensional helper functions of kalepy/utils.py.  Vectors are lists of reals. *)
From Coq Require Import String ZArith.
From Verif Require Import Base ModelLinAlg ModelKernels ModelKDE ModelInterp ModelResample.
Open Scope R_scope.
Notation length := List.length.

Definition vget (l : list R) (i : nat) : R := nth i l 0.

(** numpy.linspace(a, b, num): num = 0 gives an empty, num = 1 a one-element array. *)
Definition linspace (a b : R) (num : nat) : list R :=
  map (fun i => if Nat.eqb (S i) num && negb (Nat.eqb i 0) then b else a + INR i * ((b - a) / INR (num - 1)))%bool
      (seq 0 num).

(** np.diff *)
Fixpoint diff (l : list R) : list R :=
  match l with
  | x :: ((y :: _) as rest) => (y - x) :: diff rest
  | _ => []
  end.

(** np.cumsum *)
Fixpoint cumsum1_from (acc : R) (l : list R) : list R :=
  match l with [] => [] | x :: rest => (acc + x) :: cumsum1_from (acc + x) rest end.
Definition cumsum1 (l : list R) : list R := cumsum1_from 0 l.

(** np.min, np.max of a non-empty vector. *)
Fixpoint vmin (x : R) (l : list R) : R := match l with [] => x | y :: r => vmin (Rmin x y) r end.
Fixpoint vmax (x : R) (l : list R) : R := match l with [] => x | y :: r => vmax (Rmax x y) r end.

(* ------------------------------------------------------------ bound_indices *)
(** Bounds given to [bound_indices]: None, a vector, or a list of rows of equal lengths (rows of
    different lengths, or None next to a row, make np.atleast_2d raise ValueError). *)
Inductive bounds_arg := BdNone | BdVec (v : list (option R)) | BdRows (rows : list (list (option R))).
Definition rectangular {A} (rows : list (list A)) : bool :=
  match rows with [] => true | r :: rest => forallb (fun s => Nat.eqb (length s) (length r)) rest end.
(** np.atleast_2d; an empty list of rows is the vector []. *)
Definition bounds_rows (b : bounds_arg) : res (list (list (option R))) :=
  match b with
  | BdNone => Ok [[None]]
  | BdVec v => Ok [v]
  | BdRows [] => Ok [[]]
  | BdRows rows => if rectangular rows then Ok rows else Err ValueError
  end.

(** The index array: entries are 0 or 1; [ib_bool] tells whether its dtype is still bool.
    [idx & ~outside] with a Python bool is [idx & -1] or [idx & -2], which turns it into integers. *)
Record idxarr := mkIdx { ib_bool : bool; ib_vals : list bool }.

Definition lo_ok (outside : bool) (b : option R) (v : R) : bool :=
  if outside then match b with Some lo => Rltb v lo | None => false end
  else match b with None => true | Some lo => Rltb lo v end.
Definition hi_ok (outside : bool) (b : option R) (v : R) : bool :=
  if outside then match b with Some hi => Rltb hi v | None => false end
  else match b with None => true | Some hi => Rltb v hi end.

Definition and_list (l m : list bool) : list bool := map (fun p => andb (fst p) (snd p)) (combine l m).

(** utils.py:67-90 [bound_indices]; [n] the number of data dimensions. *)
Fixpoint bound_loop (n : nat) (data : list pt) (outside : bool) (ii : nat) (rows : list (list (option R)))
    (idx : idxarr) : res idxarr :=
  match rows with
  | [] => Ok idx
  | row :: rest =>
      match row with
      | [] => Err IndexError
      | [None] =>
          bound_loop n data outside (S ii) rest
            (mkIdx false (map (fun b => andb b (negb outside)) (ib_vals idx)))
      | [Some _] => Err IndexError
      | lo :: hi :: _ =>
          if andb (negb (Nat.ltb ii n)) (match lo, hi with None, None => false | _, _ => true end) then Err IndexError
          else
            let m := map (fun x : pt => if outside then orb (lo_ok outside lo (x ii)) (hi_ok outside hi (x ii))
                                        else andb (lo_ok outside lo (x ii)) (hi_ok outside hi (x ii))) data in
            bound_loop n data outside (S ii) rest (mkIdx (ib_bool idx) (and_list (ib_vals idx) m))
      end
  end.
Definition bound_indices (n : nat) (data : list pt) (b : bounds_arg) (outside : bool) : res idxarr :=
  do rows <- bounds_rows b ;;
  bound_loop n data outside 0 rows (mkIdx true (map (fun _ => true) data)).

(** [data[:, idx]]: a boolean array masks, an integer array gathers (IndexError out of range). *)
Definition take_idx (data : list pt) (idx : idxarr) : res (list pt) :=
  if ib_bool idx then Ok (map fst (filter (fun xb : pt * bool => snd xb) (combine data (ib_vals idx))))
  else mapM (fun b : bool => match nth_error data (if b then 1%nat else 0%nat) with Some x => Ok x | None => Err IndexError end)
         (ib_vals idx).

(* ------------------------------------------------------------ minmax *)
(** A stretch argument: None, a scalar, a pair, or an array of another size. *)
Inductive stretch_arg := StNone | StScalar (s : R) | StPair (a b : R) | StOther.
Definition opair := (option R * option R)%type.

(** numpy.log10 for positive numbers. *)
Definition log10 (x : R) : R := ln x / ln 10.
Definition pow10 (x : R) : R := Rpower 10 x.

Definition stretch_pair (s : stretch_arg) : res (R * R) :=
  match s with
  | StScalar f => Ok (f, f)
  | StPair a b => Ok (a, b)
  | _ => Err ValueError
  end.
Definition stretch_range (f lohi : R * R) : R * R :=
  let cent := (fst lohi + snd lohi) / 2 in
  (cent - (1 + fst f) * (cent - fst lohi), cent + (1 + snd f) * (snd lohi - cent)).

Definition clip_prev (prev : option opair) (r : R * R) : R * R :=
  match prev with
  | None => r
  | Some (pl, ph) =>
      (match pl with None => fst r | Some p => Rmin (fst r) p end,
       match ph with None => snd r | Some p => Rmax (snd r) p end)
  end.
Definition clip_limit (limit : option opair) (r : R * R) : R * R :=
  match limit with
  | None => r
  | Some (ll, lh) =>
      (match ll with None => fst r | Some p => Rmax (fst r) p end,
       match lh with None => snd r | Some p => Rmin (snd r) p end)
  end.

(** utils.py:374-426 [minmax] for finite data; [prev] and [limit] are pairs (other lengths raise
    AssertionError).  log_stretch is modelled for positive extrema ([log10]/[pow10] of the reals);
    for others numpy produces NaN, which is not modelled. *)
Definition minmax (data : list R) (positive : bool) (prev : option opair) (stretch log_stretch : stretch_arg)
    (limit : option opair) : res (option opair) :=
  match data with
  | [] => Ok prev
  | _ =>
      let sel := if positive then filter (fun x => Rltb 0 x) data else data in
      match sel with
      | [] => Err ValueError
      | x :: rest =>
          let r0 := (vmin x rest, vmax x rest) in
          do r1 <-
            match stretch, log_stretch with
            | StNone, StNone => Ok r0
            | s, StNone => do f <- stretch_pair s ;; Ok (stretch_range f r0)
            | StNone, s => do f <- stretch_pair s ;;
                let r := stretch_range f (log10 (fst r0), log10 (snd r0)) in Ok (pow10 (fst r), pow10 (snd r))
            | _, _ => Err ValueError
            end ;;
          let r2 := clip_limit limit (clip_prev prev r1) in
          Ok (Some (Some (fst r2), Some (snd r2)))
      end
  end.

(* ------------------------------------------------------------ quantiles *)
(** utils.py:513-531 [quantiles] for one vector after sorting: [vw] the values with their weights in
    the sorted order ([np.argsort] does not fix the order of equal values). *)
Definition wquantiles (vw : list (R * R)) : list R :=
  let ws := map snd vw in
  map (fun cw => (fst cw - snd cw / 2) / lsum ws) (combine (cumsum1 ws) ws).
Definition quantile_sorted (vw : list (R * R)) (p : R) : R :=
  np_interp (vget (wquantiles vw)) (vget (map fst vw)) (length vw - 1) p.

(** The fractions are checked (utils.py:512), then values and weights are sorted by [sorter]
    unless values_sorted; without weights all are one; an empty vector makes np.interp raise.
    axis=None (multi-dimensional input is flattened first).  Surplus weights are ignored when sorting
    (take_along_axis), an error otherwise.  The total weight must not be zero (numpy: NaN). *)
Local Open Scope bool_scope.
Definition quantiles (sorter : list (R * R) -> list (R * R)) (values : list R) (percs : option (list R))
    (weights : option (list R)) (values_sorted : bool) : res (list R) :=
  match percs with
  | None => Err ValueError
  | Some ps =>
      let ws := match weights with Some w => w | None => map (fun _ => 1) values end in
      if negb (forallb (fun p => andb (Rleb 0 p) (Rleb p 1)) ps) then Err AssertionError
      else if values_sorted && negb (Nat.eqb (length ws) (length values)) then Err ValueError
      else if Nat.ltb (length ws) (length values) then Err IndexError
      else match values with
           | [] => Err ValueError
           | _ =>
               let vw := combine values ws in
               let vw1 := if values_sorted then vw else sorter vw in
               Ok (map (quantile_sorted vw1) ps)
           end
  end.

(* ------------------------------------------------------------ subdivide *)
(** utils.py:793-824 [subdivide] with log=False: each value followed by [num] steps of the distance to
    the next (0 after the last), then the last [num] entries are cut off ([:-0] is empty). *)
Definition sub_steps (num : nat) (x next : R) : list R :=
  map (fun k => x + (next - x) * (INR k / INR (S num))) (seq 0 (S num)).
Fixpoint sub_all (num : nat) (l : list R) : list R :=
  match l with
  | [] => []
  | x :: rest => sub_steps num x (match rest with [] => 0 | y :: _ => y end) ++ sub_all num rest
  end.
Definition subdivide (l : list R) (num : nat) : list R :=
  if Nat.eqb num 0 then [] else let d := sub_all num l in firstn (length d - num) d.
(** with log=True (positive values) *)
Definition subdivide_log (l : list R) (num : nat) : list R := map pow10 (subdivide (map log10 l) num).

(* ------------------------------------------------------------ rem_cov *)
(** utils.py:643-649 [rem_cov] with a given covariance.  np.linalg.inv of the triangular factor. *)
Definition rem_cov (n : nat) (cov : mat) (data : list pt) : res (list pt) :=
  match chol n cov with
  | None => Err LinAlgError
  | Some U =>
      match minv n U with
      | None => Err LinAlgError
      | Some V => Ok (map (color n V) data)
      end
  end.

(** utils.py:643-649 [rem_cov] without a covariance, at least two points.  [np.cov( *data)] passes the
    rows as separate arguments: the first is the matrix, the second another variable, the third the flag [rowvar],
    the fifth [ddof].  One row gives a 0-d covariance, which scipy's cholesky makes a 1x1 matrix; with
    three or more rows [not rowvar] is the truth value of an array (ValueError), with five or more
    int(ddof) is tried first (TypeError).  A NaN covariance makes cholesky raise ValueError. *)
Definition rem_cov_default (n : nat) (data : list pt) : res (list pt) :=
  match n with
  | O => Err TypeError
  | 1%nat | 2%nat =>
      match np_cov (combine data (map (fun _ => 1) data)) with
      | None => Err ValueError
      | Some C => rem_cov n C data
      end
  | 3%nat | 4%nat => Err ValueError
  | _ => Err TypeError
  end.

(* ------------------------------------------------------------ histogram *)
(** np.histogram with explicit edges: bins are half open, the last one is closed. *)
Definition in_bin (edges : list R) (i : nat) (x : R) : bool :=
  andb (Rleb (vget edges i) x)
       (if Nat.eqb (S (S i)) (length edges) then Rleb x (vget edges (S i)) else Rltb x (vget edges (S i))).
Fixpoint nondecr (l : list R) : bool :=
  match l with x :: ((y :: _) as rest) => andb (Rleb x y) (nondecr rest) | _ => true end.
Definition np_histogram (data ws : list R) (edges : list R) : list R :=
  map (fun i => sumf (fun xw : R * R => if in_bin edges i (fst xw) then snd xw else 0) (combine data ws))
      (seq 0 (length edges - 1)).
(** utils.py:300-309 [histogram] with explicit edges, [data] an array.  Fewer than two edges: numpy
    returns no bins for one edge (and none is not modelled); decreasing edges raise ValueError; weights
    of another length raise ValueError. *)
Definition histogram (data : list R) (edges : list R) (weights : option (list R)) (density probability : bool)
  : res (list R * list R) :=
  let ws := match weights with Some w => w | None => map (fun _ => 1) data end in
  if negb (Nat.eqb (length ws) (length data)) then Err ValueError
  else if negb (nondecr edges) then Err ValueError
  else
    let h0 := np_histogram data ws edges in
    let h1 := if density then map (fun p : R * R => fst p / snd p) (combine h0 (diff edges)) else h0 in
    let tot := match weights with None => INR (length data) | Some w => lsum w end in
    let h2 := if probability then map (fun x => x / tot) h1 else h1 in
    Ok (h2, edges).

(* ------------------------------------------------------------ nested lists *)
(** Nested Python lists with leaves of type [A]. *)
Inductive tree (A : Type) := Leaf (a : A) | Node (l : list (tree A)).
Arguments Leaf {A} a.
Arguments Node {A} l.

Definition is_leaf {A} (t : tree A) : bool := match t with Leaf _ => true | Node _ => false end.

(** Shape of a nested list that numpy accepts as a regular array; None for a jagged one. *)
Definition shape_eqb (s t : option (list nat)) : bool :=
  match s, t with
  | Some a, Some b => if list_eq_dec Nat.eq_dec a b then true else false
  | _, _ => false
  end.
Fixpoint tshape {A} (t : tree A) : option (list nat) :=
  match t with
  | Leaf _ => Some []
  | Node l =>
      match map tshape l with
      | [] => Some [0%nat]
      | s :: rest =>
          if forallb (shape_eqb s) rest
          then match s with Some sh => Some (length l :: sh) | None => None end
          else None
      end
  end.
(** np.shape(t) != () .  [strict]: numpy raises ValueError for jagged lists (1.24 and later); older
    versions return the shape of an object array. *)
Definition not_scalar {A} (strict : bool) (t : tree A) : res bool :=
  match t with
  | Leaf _ => Ok false
  | Node _ => match tshape t with Some _ => Ok true | None => if strict then Err ValueError else Ok true end
  end.

(** utils.py:536-564 [really1d]. *)
Definition really1d {A} (strict : bool) (t : tree A) : res bool :=
  match t with
  | Leaf _ => Ok false
  | Node [] => Ok true
  | Node l => do bs <- mapM (not_scalar strict) l ;; Ok (negb (existsb (fun b => b) bs))
  end.

(** The leaves of a flat list (used where [really1d] holds). *)
Definition leaves1 {A} (l : list (tree A)) : list A :=
  flat_map (fun t => match t with Leaf a => [a] | Node _ => [] end) l.

(** Result of [flatten]: a scalar is returned as it is. *)
Inductive flat A := FScalar (a : A) | FVec (l : list A).
Arguments FScalar {A} a.
Arguments FVec {A} l.

(** utils.py:567-576 [flatten]; np.concatenate rejects zero-dimensional arguments (ValueError). *)
Fixpoint flatten {A} (strict : bool) (t : tree A) : res (flat A) :=
  match t with
  | Leaf a => Ok (FScalar a)
  | Node l =>
      do one <- really1d strict (Node l) ;;
      if one then Ok (FVec (leaves1 l))
      else
        do parts <- (fix go (l : list (tree A)) : res (list (flat A)) :=
                       match l with
                       | [] => Ok []
                       | t :: rest => do f <- flatten strict t ;; do fs <- go rest ;; Ok (f :: fs)
                       end) l ;;
        if existsb (fun f => match f with FScalar _ => true | FVec _ => false end) parts then Err ValueError
        else Ok (FVec (flat_map (fun f => match f with FScalar _ => [] | FVec v => v end) parts))
  end.

(** utils.py:579-586 [flatlen]. *)
Fixpoint flatlen {A} (strict : bool) (t : tree A) : res nat :=
  match t with
  | Leaf _ => Ok 1%nat
  | Node l =>
      do one <- really1d strict (Node l) ;;
      if one then Ok (length l)
      else
        do parts <- (fix go (l : list (tree A)) : res (list nat) :=
                       match l with
                       | [] => Ok []
                       | t :: rest => do f <- flatlen strict t ;; do fs <- go rest ;; Ok (f :: fs)
                       end) l ;;
        Ok (fold_right Nat.add 0%nat parts)
  end.

(* ------------------------------------------------------------ spacing *)
(** int(np.ceil(x)) for x >= 0. *)
Definition ceil_nat (x : R) : nat := Z.to_nat (- (up (- x) - 1))%Z.

(** The [scale] argument: starting with 'log', with 'lin', or neither. *)
Inductive scale_arg := ScLog | ScLin | ScOther.

(** utils.py:672-698 [spacing]; [num] a non-negative integer or None, dex >= 0.  None = the logarithm of a
    non-positive number is needed (numpy continues with NaN or inf; not modelled). *)
Definition spacing (data : list R) (positive : bool) (prev : option opair) (stretch log_stretch : stretch_arg)
    (limit : option opair) (scale : scale_arg) (num : option nat) (dex : R) : option (res (list R)) :=
  match scale with
  | ScOther => Some (Err RuntimeError)
  | _ =>
      match minmax data positive prev stretch log_stretch limit with
      | Err e => Some (Err e)
      | Ok (Some (Some lo, Some hi)) =>
          match scale with
          | ScLog =>
              if andb (Rltb 0 lo) (Rltb 0 hi) then
                let n := match num with Some k => k | None => (ceil_nat (Rabs (log10 hi - log10 lo) * dex) + 1)%nat end in
                Some (Ok (map pow10 (linspace (log10 lo) (log10 hi) n)))
              else None
          | _ => let n := match num with Some k => k | None => 20%nat end in Some (Ok (linspace lo hi n))
          end
      | Ok _ => Some (Err TypeError)
      end
  end.
