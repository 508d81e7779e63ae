(** Grids: KDE.density(grid=True), KDE.from_hist, KDE.cdf, parse_edges and KDE.points. *)
From Coq Require Import ZArith.
From Verif Require Import Base ModelLinAlg ModelKernels ModelKDE ModelExtrema ModelInterp ModelResample ModelUtils ModelNd.
Open Scope R_scope.
Notation length := List.length.

(* ------------------------------------------------------------ grids of points *)
(** utils.py:323-324 [meshgrid] with indexing='ij': array number [d]. *)
Definition mesh (points : list (list R)) (d : nat) : nda :=
  mkA (map (@length R) points) (fun idx => vget (nth d points []) (nth d idx 0%nat)).
(** Each array is flattened (kde.py:377, 462); the columns are the points. *)
Definition mesh_columns (points : list (list R)) : list pt :=
  map (fun j => ((fun d => vget (flatten_nd (mesh points d)) j) : pt)) (seq 0 (size_of_shape (map (@length R) points))).
(** kde.py:373-393: [KDE.density] with grid=True, [points] a list of vectors (no squeezing: [params] not a
    single number).  A single vector of points for one-dimensional data is the list of that vector. *)
Definition density_grid (K : kde) (prob : bool) (refl : option reflspec) (p : parg) (points : list (list R)) : res nda :=
  do f <- kde_density K prob (length points) refl p ;;
  Ok (reshape_nd (map (@length R) points) (map f (mesh_columns points))).

(* ------------------------------------------------------------ from_hist *)
(** Division of numpy floats. *)
Definition fdiv (x y : R) : flt :=
  if Reqb y 0 then (if Reqb x 0 then NaN else if Rltb 0 x then PInf else NInf) else Fin (x / y).
(** kde.py:426-428, 451-453: bin width from the second and third edge, and the points. *)
Definition bin_centers (b : list R) : res (R * list R) :=
  match b with
  | _ :: b1 :: b2 :: _ => let dx := b2 - b1 in Ok (dx, map (fun x => x + / 2 * dx) (removelast b))
  | _ => Err IndexError
  end.
(** kde.py:401-443 [KDE.from_hist] for one vector of bins (arrays).  [bw]: None is the default 'bin width'. *)
Definition from_hist_1d (bins hist : list R) (bw : option bwarg) (diagonal : bool) (rescale : option R) (d : dist)
    (cov_arg : option mat) (neff_arg : option R) (reflect : option reflspec) : res kde :=
  do c <- bin_centers bins ;;
  kde_init 1 (map (fun x => ((fun _ => x) : pt)) (snd c)) (WArr (map (fun h => fdiv h (lsum hist * fst c)) hist))
    (match bw with None => BwAtom (BNum (fst c)) | Some b => b end) diagonal rescale d cov_arg neff_arg reflect.
(** kde.py:445-480: one vector of bins per dimension (at least one), [hist] an array. *)
Definition from_hist_nd (bins : list (list R)) (hist : nda) (bw : option bwarg) (diagonal : bool) (rescale : option R) (d : dist)
    (cov_arg : option mat) (neff_arg : option R) (reflect : option reflspec) : res kde :=
  do cs <- mapM bin_centers bins ;;
  let dx_mult := fold_left (fun acc c => acc * fst c) cs 1 in
  kde_init (length bins) (mesh_columns (map snd cs))
    (WArr (map (fun h => fdiv h (asum (shp hist) (at_ hist) * dx_mult)) (flatten_nd hist)))
    (match bw with None => BwSeq (map (fun c => BNum (fst c)) cs) | Some b => b end) diagonal rescale d cov_arg neff_arg reflect.

(* ------------------------------------------------------------ cdf *)
(** ndarray.max *)
Definition nd_max (a : nda) : R := match flatten_nd a with [] => 0 | x :: r => vmax x r end.
(** scipy.interpolate.RegularGridInterpolator, method 'linear', bounds_error=False, fill_value=None (extrapolation).  Cells: searchsorted - 1
    clipped to the grid; then a sum over the corners of the cell.  At least two grid values per dimension. *)
Definition rgi_cell (g : list R) (x : R) : nat := interp_bin (vget g) (length g - 1) x.
Fixpoint rgi_cells (grids : list (list R)) (x : list R) : list nat :=
  match grids, x with
  | g :: gs, t :: x' => rgi_cell g t :: rgi_cells gs x'
  | _, _ => []
  end.
Fixpoint rgi_weight (grids : list (list R)) (x : list R) (bits : list nat) : R :=
  match grids, x, bits with
  | g :: gs, t :: x', b :: bits' =>
      let i := rgi_cell g t in
      let y := (t - vget g i) / (vget g (S i) - vget g i) in
      (if Nat.eqb b 0 then 1 - y else y) * rgi_weight gs x' bits'
  | _, _, _ => 1
  end.
Definition rgi (grids : list (list R)) (a : nda) (x : list R) : R :=
  asum (repeat 2%nat (length grids)) (fun bits => at_ a (add_idx (rgi_cells grids x) bits) * rgi_weight grids x bits).
Definition ascending (l : list R) : bool := forallb (fun w => Rltb 0 w) (diff l).

(** kde.py:486-529 [KDE.cdf] at one point, [grid] the value of KDE.points (one vector per dimension).  With [params] or
    [reflect] given NotImplementedError.  All masses zero: the normalisation is 0/0 = NaN. *)
Definition kde_cdf (K : kde) (grid : list (list R)) (params_given reflect_given : bool) (x : list R) : res flt :=
  if params_given then Err NotImplementedError else
  if reflect_given then Err NotImplementedError else
  do pdf <- density_grid K true None PNone grid ;;
  do c <- cumtrapz pdf grid true None ;;
  if negb (forallb ascending grid) then Err ValueError
  else if Reqb (nd_max c) 0 then Ok NaN
  else Ok (Fin (rgi grid (map_nd (fun v => v / nd_max c) c) x)).

(* ------------------------------------------------------------ edges *)
(** np.allclose(data, data[0]). *)
Definition allclose (data : list R) : bool :=
  match data with
  | [] => true
  | d0 :: _ => forallb (fun x => Rleb (Rabs (x - d0)) ((/ 10) ^ 8 + (/ 10) ^ 5 * Rabs d0)) data
  end.
(** utils.py:1078-1140 [_guess_edges] with finite [extrema] and [ndim] given; number of bins and bin width.
    [sorter]: np.argsort in the quantiles. *)
Definition guess_edges (sorter : list (R * R) -> list (R * R)) (data : list R) (ext : R * R) (ndim : nat) (weights : option (list R))
    (nmin nmax : nat) (refine bw : R) : res (nat * R) :=
  do neff0 <- match weights with
              | None => Ok (INR (length data))
              | Some w => if Nat.eqb (length w) (length data) then Ok (lsum w * lsum w / sumsq w) else Err ValueError
              end ;;
  let neff := if Rltb 100 neff0 then Rmax (neff0 / (INR ndim * INR ndim)) 100 else neff0 in
  let span := snd ext - fst ext in
  let w1 := span / (ln neff / ln 2 + 1) in
  do qs <- quantiles sorter data (Some [3 / 4; 1 / 4]) weights false ;;
  let w2 := 2 * (vget qs 0 - vget qs 1) * Rpower neff (- (1 / 3)) in
  let w3 := bw / sqrt neff in
  do bin_width <- match filter (fun w => Rltb 0 w) [w1; w2; w3] with
                  | [] => if allclose data then Ok ((/ 10) ^ 16) else Err ValueError
                  | x :: r => Ok (vmin x r / refine)
                  end ;;
  do span1 <- (if Rleb span 0 then (if allclose data then Ok (10 * bin_width) else Err ValueError) else Ok span) ;;
  Ok (Nat.min (Nat.max (ceil_nat (span1 / bin_width)) nmin) nmax, bin_width).

(** A specification of edges: nothing, a number of bins, or the edges. *)
Inductive edge1 := EdAuto | EdNum (n : nat) | EdVec (l : list R).
(** utils.py:1033-1075 [_get_edges_1d]. *)
Definition get_edges_1d (sorter : list (R * R) -> list (R * R)) (e : edge1) (data : list R) (ext : R * R) (ndim nmin nmax : nat) (pad : R)
    (weights : option (list R)) (refine bw : R) : res (list R) :=
  match e with
  | EdVec l => Ok l
  | _ =>
      do g <- guess_edges sorter data ext ndim weights nmin nmax refine bw ;;
      let num := match e with EdNum n => n | _ => fst g end in
      let pw := pad * snd g in
      Ok (linspace (fst ext - pw) (snd ext + pw) (num + 1))
  end.
(** utils.py:429-466 [parse_edges] with explicit extrema and bandwidth matrix.  The edges: one specification for all
    dimensions, or a list.  (One vector with as many entries as there are dimensions counts as
    a list of numbers of bins; not modelled, callers here pass other lengths.) *)
Inductive edges_arg := EdAll (e : edge1) | EdEach (l : list edge1).
Definition parse_edges (sorter : list (R * R) -> list (R * R)) (data : list pt) (npars : nat) (edges : edges_arg) (extrema : list exelt)
    (dext : list (R * R)) (weights : option (list R)) (nmin nmax : nat) (pad refine : R) (bw : mat) : res (list (list R)) :=
  do ext <- parse_extrema dext (Some extrema) ;;
  do es <- match edges with
           | EdAll e => Ok (repeat e npars)
           | EdEach l => if Nat.eqb (length l) npars then Ok l else Err ValueError
           end ;;
  mapM (fun ii => get_edges_1d sorter (nth ii es EdAuto) (coords ii data) (nth ii ext (0, 0)) npars nmin nmax pad weights refine (bw ii ii))
       (seq 0 npars).

(** kde.py:639-660 [KDE.points] when it is computed (3 to 200 bins, no padding, refinement sqrt 10); [ext] is KDE.extrema. *)
Definition kde_points (sorter : list (R * R) -> list (R * R)) (K : kde) (bw : mat) (ext : list (R * R)) (edges : edges_arg) : res (list (list R)) :=
  parse_edges sorter (kd_data K) (kd_ndim K) edges (map (fun p => XPair (Some (fst p)) (Some (snd p))) ext)
    (map (fun ii => (lmin (coords ii (kd_data K)), lmax (coords ii (kd_data K)))) (seq 0 (kd_ndim K)))
    (kd_weights K) 3 200 0 (sqrt 10) bw.
