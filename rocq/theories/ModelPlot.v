(** The computations of kalepy/plot.py: confidence bands, contour levels, the outline of histograms, padding.
    What matplotlib receives is the result; drawing itself, colours and line styles are not modelled. *)
From Coq Require Import ZArith.
From Verif Require Import Base ModelLinAlg ModelKernels ModelKDE ModelInterp ModelResample ModelUtils ModelNd ModelGrid ModelSample.
Open Scope R_scope.
Notation length := List.length.

(* ------------------------------------------------------------ _default_quantiles *)
(** plot.py:59 [_DEF_SIGMAS]. *)
Definition def_sigmas : list R := [1 / 2; 1; 3 / 2; 2].
(** plot.py:2109: standard deviations to fractions. *)
Definition quantile_of_sigma (s : R) : R := 1 - exp (- (1 / 2) * (s * s)).
(** plot.py:2112: fractions to standard deviations; log(0) = -inf, root of a negative number NaN. *)
Definition sigma_of_quantile (q : R) : flt :=
  if Rltb q 1 then (if Rleb 0 q then Fin (sqrt (- 2 * ln (1 - q))) else NaN)
  else if Reqb q 1 then PInf else NaN.
(** plot.py:2103-2115 [_default_quantiles] for vectors: (quantiles, sigmas). *)
Definition default_quantiles (quantiles sigmas : option (list R)) : list R * list flt :=
  match quantiles with
  | None => let s := match sigmas with None => def_sigmas | Some s => s end in (map quantile_of_sigma s, map Fin s)
  | Some q => match sigmas with None => (q, map sigma_of_quantile q) | Some s => (q, map Fin s) end
  end.

(* ------------------------------------------------------------ confidence *)
(** plot.py:1097-1106: the sorted data and their cumulative distribution.  [sorter]: np.argsort applied to data and
    weights (surplus weights are never picked).  One point without weights: the cumulative value is 0/0, of which np.interp makes no use (0 here). *)
Definition conf_table (sorter : list (R * R) -> list (R * R)) (data : list R) (weights : option (list R)) : res (list R * list R) :=
  match weights with
  | None => let d := np_sort data in Ok (map (fun i => INR i / INR (length d - 1)) (seq 0 (length d)), d)
  | Some w =>
      if Nat.ltb (length w) (length data) then Err IndexError else
      let s := sorter (combine data w) in
      Ok (map (fun c => c / lsum (map snd s)) (cumsum1 (map snd s)), map fst s)
  end.
(** plot.py:1061-1126 [confidence]: the location of the median line and the bands (lower, upper), one per fraction.   Data
    and weights are arrays, and the weights do not sum to zero. *)
Definition conf_at (t : list R * list R) (q : R) : R := np_interp (vget (fst t)) (vget (snd t)) (length (snd t) - 1) q.
Definition confidence (sorter : list (R * R) -> list (R * R)) (data : list R) (weights : option (list R))
    (quantiles : option (list R)) : res (R * list (R * R)) :=
  do t <- conf_table sorter data weights ;;
  match data with
  | [] => Err ValueError
  | _ =>
      let qs := fst (default_quantiles quantiles None) in
      Ok (conf_at t (1 / 2), map (fun q => (conf_at t (1 / 2 - q / 2), conf_at t (1 / 2 + q / 2))) qs)
  end.

(* ------------------------------------------------------------ _dfm_levels *)
(** plot.py:2081, 2085: [sm <= v0] where sm is the cumulative sum divided by the total (numpy division). *)
Definition frac_le (c total q : R) : bool := if Reqb total 0 then Rltb c 0 else Rleb (c / total) q.
(** plot.py:2083-2087: the level of one fraction, [d] the entries in decreasing order. *)
Definition dfm_level (d : list R) (q : R) : R :=
  let tot := lsum d in
  match rev (filter (fun p => frac_le (fst p) tot q) (combine (cumsum1 d) d)) with
  | p :: _ => snd p
  | [] => vget d 0
  end.
(** plot.py:2073-2100 [_dfm_levels]: (sigmas, levels, quantiles); empty data: IndexError. *)
Definition dfm_levels (data : nda) (quantiles sigmas : option (list R)) : res (list flt * list R * list R) :=
  let qs := default_quantiles quantiles sigmas in
  let d := rev (np_sort (flatten_nd data)) in
  match d with
  | [] => Err IndexError
  | _ => Ok (snd qs, np_sort (map (dfm_level d) (fst qs)), fst qs)
  end.

(* ------------------------------------------------------------ draw_hist1d *)
(** An entry of a masked array. *)
Record cell := mkCell { c_val : flt; c_mask : bool }.
Definition plain (x : flt) : cell := mkCell x false.
(** plot.py:1776-1777: the outline. *)
Fixpoint step_x (edges : list R) : list flt :=
  match edges with
  | a :: ((b :: _) as r) => Fin a :: Fin b :: step_x r
  | _ => []
  end.
Definition step_y (hist : list R) : list flt := flat_map (fun h => [Fin h; Fin h]) hist.
(** plot.py:1783-1791: a NaN after every pair. *)
Fixpoint separate (l : list flt) : list flt :=
  match l with
  | a :: b :: r => a :: b :: NaN :: separate r
  | _ => []
  end.
(** plot.py:1794-1796, 1805-1807: np.ma.masked_where(test(yval), .). *)
Definition mask_where (test : flt -> bool) (y z : list cell) : list cell :=
  map (fun p => mkCell (c_val (snd p)) (orb (c_mask (snd p)) (andb (negb (c_mask (fst p))) (test (c_val (fst p)))))) (combine y z).
Definition f_zero (x : flt) : bool := match x with Fin r => Reqb r 0 | _ => false end.
Definition f_negative (x : flt) : bool := match x with Fin r => Rltb r 0 | NInf => true | _ => false end.
(** The [renormalize] argument: False or None, True, or a number; the number 0 equals False (plot.py:1798). *)
Inductive renorm_arg := RnNone | RnTrue | RnNum (r : R).
Definition renorm_value (a : renorm_arg) : option R :=
  match a with RnNone => None | RnTrue => Some 1 | RnNum r => if Reqb r 0 then None else Some r end.
Definition finite_vals (y : list cell) : list R :=
  flat_map (fun c => match c_val c with Fin r => if c_mask c then [] else [r] | _ => [] end) y.
(** plot.py:1801-1802: x / m * r in numpy arithmetic. *)
Definition rescale (m r : R) (x : flt) : flt :=
  match x with
  | Fin v => match fdiv v m with Fin u => Fin (u * r) | PInf => if Rltb 0 r then PInf else NInf | NInf => if Rltb 0 r then NInf else PInf | NaN => NaN end
  | _ => NaN
  end.
(** plot.py:1772-1817 [draw_hist1d]: the x and y values given to [ax.plot].  No bins, or edges and values of different
    numbers, are reported as ValueError (numpy and matplotlib raise different errors).  renormalize together with nonzero
    when every value is zero: an empty maximum, ValueError (numpy: masked). *)
Definition draw_hist1d (edges hist : list R) (renormalize : renorm_arg) (nonzero positive joints rotate : bool)
  : res (list cell * list cell) :=
  if negb (Nat.eqb (length edges) (S (length hist))) then Err ValueError else
  match hist with
  | [] => Err ValueError
  | _ =>
      let sep := fun l => if joints then l else separate l in
      let x0 := map plain (sep (step_x edges)) in
      let y0 := map plain (sep (step_y hist)) in
      let x1 := if nonzero then mask_where f_zero y0 x0 else x0 in
      let y1 := if nonzero then mask_where f_zero y0 y0 else y0 in
      do y2 <- match renorm_value renormalize with
               | None => Ok y1
               | Some r =>
                   match finite_vals y1 with
                   | [] => Err ValueError
                   | v :: vs => Ok (map (fun c => mkCell (rescale (vmax v vs) r (c_val c)) (c_mask c)) y1)
                   end
               end ;;
      let x3 := if positive then mask_where f_negative y2 x1 else x1 in
      let y3 := if positive then mask_where f_negative y2 y2 else y2 in
      if rotate then Ok (y3, map (fun c => plain (c_val c)) x3) else Ok (x3, y3)
  end.

(* ------------------------------------------------------------ padding *)
(** np.pad(a, p, mode='constant', constant_values=v): [p] entries before and after along every axis. *)
Fixpoint pad_interior (p : nat) (sh idx : list nat) : bool :=
  match sh, idx with
  | n :: sh', i :: idx' => andb (andb (Nat.leb p i) (Nat.ltb i (p + n))) (pad_interior p sh' idx')
  | _, _ => true
  end.
Definition pad_nd (p : nat) (v : R) (a : nda) : nda :=
  mkA (map (fun n => (n + 2 * p)%nat) (shp a))
      (fun idx => if pad_interior p (shp a) idx then at_ a (map (fun i => (i - p)%nat) idx) else v).
(** plot.py:2122-2128: [pad] more edges on both sides, spaced as the first and the last bin.  One edge: the empty
    difference can be broadcast against one factor only. *)
Definition pad_edge (p : nat) (ee : list R) : res (list R) :=
  match ee with
  | [] => Err IndexError
  | [e] => if Nat.leb p 1 then Ok [e] else Err ValueError
  | e0 :: e1 :: _ =>
      let n := length ee in
      let lo := map (fun k => e0 - INR (S (p - 1 - k)) * (e1 - e0)) (seq 0 p) in
      let hi := map (fun k => vget ee (n - 1) + INR (S k) * (vget ee (n - 1) - vget ee (n - 2))) (seq 0 p) in
      Ok (lo ++ ee ++ hi)
  end.
(** plot.py:2118-2129 [_pad_hist]; the minimum of an empty histogram is a ValueError. *)
Definition pad_hist (edges : list (list R)) (hist : nda) (p : nat) : res (list (list R) * nda) :=
  match flatten_nd hist with
  | [] => Err ValueError
  | v :: vs =>
      do es <- mapM (pad_edge p) edges ;; Ok (es, pad_nd p (vmin v vs) hist)
  end.

(** utils.midpoints of a vector (plot.py:2014), linear. *)
Fixpoint mids (l : list R) : list R :=
  match l with
  | a :: ((b :: _) as r) => (b + a) / 2 :: mids r
  | _ => []
  end.
(** plot.py:2005-2023 [_match_edges_to_hist]; an array with no bins along some axis, whose edges utils.midpoints
    refuses, is not treated separately. *)
Definition match_edges (edges : list (list R)) (hist : nda) : res (list (list R)) :=
  if nats_eqb (shp hist) (map (@List.length R) edges) then Ok edges
  else if nats_eqb (map S (shp hist)) (map (@List.length R) edges) then Ok (map mids edges)
  else Err ValueError.

(** The [pad], [smooth] and [upsample] arguments: None, False or True, or a number. *)
Inductive numarg := NaNone | NaFalse | NaTrue | NaNum (r : R).
(** plot.py:1614-1618: the number of bins added on each side; `0 not in [False, None]` is False. *)
Inductive padarg := PadNone | PadFalse | PadTrue | PadNum (p : nat).
Definition pad_count (a : padarg) : nat := match a with PadNone | PadFalse => 0%nat | PadTrue => 1%nat | PadNum p => p end.
(** plot.py:1613-1643 [_prep_hist] without smoothing and upsampling: the coordinates of the centres and the histogram. *)
Definition prep_hist (edges : list (list R)) (hist : nda) (pad : padarg) : res (list nda * nda) :=
  do eh <- (match pad_count pad with O => Ok (edges, hist) | p => pad_hist edges hist p end) ;;
  do cs <- match_edges (fst eh) (snd eh) ;;
  if negb (Nat.eqb (length cs) 2) then Err ValueError else
  Ok (map (mesh cs) (seq 0 (length cs)), snd eh).
(** plot.py:1626-1640: the factor of the upsampling (None: none is done) and the width given to the smoothing filter
    (None: no smoothing), in entries of the upsampled array.  Simplification: the arrays themselves (scipy.ndimage) are not
    modelled. *)
Definition upsample_factor (u : numarg) : option R :=
  match u with NaNone | NaFalse => None | NaTrue => Some 2 | NaNum r => if Reqb r 0 then None else Some r end.
Definition upsample_number (u : numarg) : option R :=
  match u with NaNone => None | NaFalse => Some 0 | NaTrue => Some 2 | NaNum r => Some r end.
Definition smooth_width (s u : numarg) : option R :=
  match (match s with NaNone | NaFalse => None | NaTrue => Some 1 | NaNum r => if Reqb r 0 then None else Some r end) with
  | None => None
  | Some w => match upsample_number u with None => Some w | Some k => Some (w * k) end
  end.

(* ------------------------------------------------------------ masks *)
(** plot.py:1820-1822 (and np.ma.masked_less_equal): which bins of a two-dimensional histogram are hidden; the number 0
    equals False. *)
Definition hist2d_hidden (mask_below : option R) (v : R) : bool :=
  match mask_below with None => false | Some m => if Reqb m 0 then false else Rleb v m end.
(** plot.py:1757-1758 [hist2d]: mask_below=True for [n] data points. *)
Definition hist2d_threshold (n : nat) : R := (9 / 10) / INR n.
(** np.histogram2d(x, y, bins=edges, weights=ws): the weight in bin (i, j). *)
Definition bin_weight2d (ex ey : list R) (data : list (R * R)) (ws : list R) (i j : nat) : R :=
  sumf (fun xyw => if andb (in_bin ex i (fst (fst xyw))) (in_bin ey j (snd (fst xyw))) then snd xyw else 0) (combine data ws).
(** ... with density=True: divided by the sum over the bins and the area of the bin. *)
Definition density2d (ex ey : list R) (data : list (R * R)) (ws : list R) (i j : nat) : R :=
  bin_weight2d ex ey data ws i j / (vget ex (S i) - vget ex i) / (vget ey (S j) - vget ey j)
  / rsum (length ex - 1) (fun i' => rsum (length ey - 1) (fun j' => bin_weight2d ex ey data ws i' j')).
(** The [mask_below] argument. *)
Inductive maskarg := MbNone | MbFalse | MbTrue | MbNum (r : R).
(** plot.py:1714-1765 [hist2d]: the values of the bins, None for a hidden one.  Simplification: the edges are given, increasing and
    at least two. *)
Definition hist2d (ex ey : list R) (data : list (R * R)) (ws : list R) (mask : maskarg) (i j : nat) : option R :=
  let v := density2d ex ey data ws i j in
  let m := match mask with MbNone | MbFalse => None | MbTrue => Some (hist2d_threshold (length data)) | MbNum r => Some r end in
  if hist2d_hidden m v then None else Some v.

(** plot.py:2221-2236 [_scatter_limit]: None for "not drawn", Some None for "all", Some (Some k) for at most k points.
    Numbers are finite. *)
Definition scatter_limit (a : numarg) : res (option (option nat)) :=
  match a with
  | NaTrue => Ok (Some None)
  | NaFalse | NaNone => Ok None
  | NaNum r => let k := trunc_int r in if (k <? 1)%Z then Err ValueError else Ok (Some (Some (Z.to_nat k)))
  end.
(** plot.py:979-983 [carpet], 1892-1896 [draw_scatter]: the points drawn; [sel] is np.random.choice(n, k, replace=False).
    The limit is what [scatter_limit] returns (infinite: None). *)
Definition limited {A} (limit : option nat) (sel : nat -> nat -> list nat) (d : A) (xs : list A) : list A :=
  match limit with
  | Some k => if Nat.ltb k (length xs) then map (fun i => nth i xs d) (sel (length xs) k) else xs
  | None => xs
  end.

(** plot.py:1357-1358: the median and bands drawn by [dist1d] (confidence=True): the weights are not passed on. *)
Definition dist1d_bands (sorter : list (R * R) -> list (R * R)) (data : list R) (weights : option (list R))
    (quantiles : option (list R)) : res (R * list (R * R)) := confidence sorter data None quantiles.
