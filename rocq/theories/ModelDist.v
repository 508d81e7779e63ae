(** The functions dist1d, hist1d, dist2d and carpet of kalepy/plot.py: what they hand to matplotlib, and their errors.
    Colours, line styles and transparency are not modelled. *)
From Coq Require Import String ZArith.
From Verif Require Import Base ModelLinAlg ModelKernels ModelKDE ModelReflect ModelExtrema ModelInterp ModelResample ModelUtils ModelNd ModelGrid
  ModelSample ModelApi ModelPlot.
Open Scope R_scope.
Notation length := List.length.

(* ------------------------------------------------------------ histograms in one dimension *)
(** np.histogram(data, bins=n): equal bins between the extrema (one half to both sides if these are equal). *)
Definition equal_edges (data : list R) (n : nat) : list R :=
  match data with
  | [] => linspace 0 1 (n + 1)
  | _ => let lo := lmin data in let hi := lmax data in
         if Reqb lo hi then linspace (lo - 1 / 2) (hi + 1 / 2) (n + 1) else linspace lo hi (n + 1)
  end.
(** utils.py:300-309 [histogram] for each form of [bins]; [auto]: the edges numpy chooses for bins='auto', which it refuses with
    weights (TypeError); no bins: ValueError.  [isarr]: the data are an array (utils.py:307 [data.size]: AttributeError for a list). *)
Definition histogram_of (auto : list R -> list R) (data : list R) (isarr : bool) (edges : edge1) (weights : option (list R))
    (density probability : bool) : res (list R * list R) :=
  do es <- match edges with
           | EdAuto => match weights with Some _ => Err TypeError | None => Ok (auto data) end
           | EdNum n => if Nat.eqb n 0 then Err ValueError else Ok (equal_edges data n)
           | EdVec l => Ok l
           end ;;
  do h <- histogram data es weights density probability ;;
  match weights with
  | None => if andb probability (negb isarr) then Err AttributeError else Ok h
  | Some _ => Ok h
  end.
(** plot.py:1647-1711 [hist1d]: the histogram that is drawn (as in [draw_hist1d]). *)
Definition hist1d := histogram_of.

(* ------------------------------------------------------------ dist1d *)
(** The [kde_data] argument: a KDE, with whether it was made from a flat vector, and its [points]; numbers, as an array or a list; or
    something with more dimensions. *)
Inductive source1 := S1Kde (K : kde) (flat : bool) (points : res (list (list R))) | S1Data (isarr : bool) (data : list R) | S1Other.
(** The [density] argument. *)
Inductive densarg := DaNone | DaFalse | DaTrue | DaNum (r : R).
(** Number by which the density is multiplied (plot.py:1302-1303, 1313, 1332); None: no curve. *)
Definition dens_factor (is_kde : bool) (d : densarg) : option R :=
  match d with
  | DaNone => if is_kde then Some 1 else None
  | DaFalse => None
  | DaTrue => Some 1
  | DaNum r => Some r
  end.
(** [edges] as the argument [points] of KDE.density (plot.py:1330). *)
Definition edge_points (e : edge1) : option points_arg :=
  match e with EdAuto => None | EdNum n => Some (PtScalar (INR n)) | EdVec l => Some (PtFlat l) end.
(** ax.plot(x, y) (plot.py:1339): x and y must have the same first dimension. *)
Definition plot_curve (x : points_arg) (y : nda) : res (list R * list R) :=
  match x with
  | PtScalar r => Ok ([r], flatten_nd y)
  | PtFlat l => Ok (l, flatten_nd y)
  | PtRows rows => match rows with [[r]] => Ok ([r], flatten_nd y) | _ => Err ValueError end
  end.
Definition default_kw : kde_kw := mkKw BwNone KaNone None None false None [].
(** plot.py:1316: KDE(data, weights=weights) of a vector. *)
Definition kde_of_vector (data : list R) (weights : option (list R)) : res kde :=
  snd (kde_call 1 (map (fun x => ((fun _ => x) : pt)) data) (match weights with None => WNone | Some w => WArr (map Fin w) end) RNone default_kw).
(** Components: curve, histogram (values, edges), median and bands, points of the carpet.  With [rotate] all of them have their coordinates
    exchanged. *)
Record drawing1 := mkD1 {
  d1_curve : option (list R * list R); d1_hist : option (list R * list R); d1_bands : option (R * list (R * R)); d1_carpet : option (list R) }.
(** plot.py:1208-1369 [dist1d]; weights (an array) and data are numbers; [pts]: KDE.points of a KDE made from the data; [sel]: np.random.choice in [carpet].  Not modelled: errors of [carpet] for weights. *)
Definition dist1d (sorter : list (R * R) -> list (R * R)) (auto : list R -> list R) (pts : kde -> res (list (list R)))
    (sel : nat -> nat -> list nat) (src : source1) (edges : edge1) (weights : option (list R)) (probability : bool) (param : nat)
    (density : densarg) (confid : bool) (hist : option bool) (carpet : numarg) (quantiles : option (list R)) : res drawing1 :=
  do dw <- match src with
           | S1Kde K _ _ =>
               match weights with
               | Some _ => Err ValueError
               | None => if Nat.ltb param (kd_ndim K) then Ok (coords param (kd_data K), kd_weights K, true) else Err IndexError
               end
           | S1Data isarr l => Ok (l, weights, isarr)
           | S1Other => Err ValueError
           end ;;
  let '(data, ws, isarr) := dw in
  do lim <- scatter_limit carpet ;;
  let is_kde := match src with S1Kde _ _ _ => true | _ => false end in
  do curve <- match dens_factor is_kde density with
              | None => Ok None
              | Some r =>
                  do kfp <- match src with
                            | S1Kde K flat p => Ok (K, flat, p)
                            | _ => do K <- kde_of_vector data ws ;; Ok (K, true, pts K)
                            end ;;
                  let '(K, flat, p) := kfp in
                  do xy <- density_values K probability None (PInt param) false (edge_points edges) flat p ;;
                  do c <- plot_curve (fst xy) (map_nd (fun v => v * r) (snd xy)) ;;
                  Ok (Some c)
              end ;;
  do h <- (if match hist with None => negb is_kde | Some b => b end
           then do r <- hist1d auto data isarr edges ws true probability ;; Ok (Some r) else Ok None) ;;
  do b <- (if confid then do r <- dist1d_bands sorter data ws quantiles ;; Ok (Some r) else Ok None) ;;
  Ok (mkD1 curve h b (match lim with None => None | Some k => Some (limited k sel 0 data) end)).

(* ------------------------------------------------------------ dist2d *)
(** plot.py:1473-1487: the rows of data that are drawn. *)
Definition dist2d_rows (K : kde) (params : list nat) : res (list (list R)) :=
  if Nat.ltb 2 (kd_ndim K) then
    if negb (Nat.eqb (length params) 2) then Err ValueError
    else if forallb (fun p => Nat.ltb p (kd_ndim K)) params then Ok (map (fun p => coords p (kd_data K)) params) else Err IndexError
  else Ok (map (fun p => coords p (kd_data K)) (seq 0 (kd_ndim K))).
(** plot.py:1488-1495: a dataset given as rows; every error of the constructor becomes a RuntimeError. *)
Definition dist2d_kde (rows : list (list R)) (w : warg) : res kde :=
  match snd (kde_call (length rows) (columns rows) w RNone default_kw) with Ok K => Ok K | Err _ => Err RuntimeError end.
Definition bnd_exelt (b : option bnd) : exelt := match b with None => XNone | Some (lo, hi) => XPair lo hi end.
(** utils.py:1203-1274 [_parse_extrema] with [params]: if the numbers of extrema and of rows differ, those of [params] are selected and not
    filled in. *)
Definition parse_extrema_params (dext : list (R * R)) (ext : option (list exelt)) (params : list nat) : res (list exelt) :=
  match ext with
  | None => Ok (map (fun p => XPair (Some (fst p)) (Some (snd p))) dext)
  | Some l =>
      if Nat.eqb (length l) (length dext) then
        do r <- parse_extrema dext (Some l) ;; Ok (map (fun p => XPair (Some (fst p)) (Some (snd p))) r)
      else mapM (fun p => match nth_error l p with Some e => Ok e | None => Err IndexError end) params
  end.
(** utils.py:1033-1075 [_get_edges_1d] with extrema as they come: None, or a None at one end, is a TypeError unless the edges are given. *)
Definition get_edges_raw (sorter : list (R * R) -> list (R * R)) (e : edge1) (data : list R) (ext : exelt) (ndim : nat) (pad : R) : res (list R) :=
  match e, ext with
  | EdVec l, _ => Ok l
  | _, XPair (Some lo) (Some hi) => get_edges_1d sorter e data (lo, hi) ndim 5 1000 pad None 1 0
  | _, _ => Err TypeError
  end.
(** plot.py:1512: [parse_edges(data, edges=edges, extrema=kde.reflect, params=params)]. *)
Definition dist2d_edges (sorter : list (R * R) -> list (R * R)) (K : kde) (rows : list (list R)) (params : list nat) (edges : ModelGrid.edges_arg) : res (list (list R)) :=
  let pad := match kd_reflect K with None => 1 | Some _ => 0 end in
  do ext <- parse_extrema_params (map (fun r => (lmin r, lmax r)) rows) (option_map (map bnd_exelt) (kd_reflect K)) params ;;
  do es <- match edges with
           | EdAll e => Ok (repeat e (length rows))
           | EdEach l => if Nat.eqb (length l) (length rows) then Ok l else Err ValueError
           end ;;
  mapM (fun ii => get_edges_raw sorter (nth ii es EdAuto) (nth ii rows []) (nth ii ext XNone) (length rows) pad) (seq 0 (length rows)).

(** plot.py:1513-1517: the histogram, and the value below which bins are hidden. *)
Definition hist2d_array (ex ey : list R) (data : list (R * R)) (ws : list R) : nda :=
  mkA [(length ex - 1)%nat; (length ey - 1)%nat] (fun idx => density2d ex ey data ws (nth 0 idx 0%nat) (nth 1 idx 0%nat)).
Definition dist2d_mask (h : nda) (quantiles sigmas : option (list R)) (mask : maskarg) : res (option R) :=
  do l <- dfm_levels h quantiles sigmas ;;
  match mask with
  | MbNone | MbFalse => Ok None
  | MbTrue => match snd (fst l) with [] => Err ValueError | x :: r => Ok (Some (vmin x r)) end
  | MbNum r => Ok (Some r)
  end.
(** plot.py:1512-1517, 1547-1549, 1820-1822: the value drawn for each bin, None for a hidden one. *)
Definition dist2d_hist (ex ey : list R) (data : list (R * R)) (ws : list R) (quantiles sigmas : option (list R)) (mask : maskarg)
  : res (nat -> nat -> option R) :=
  let h := hist2d_array ex ey data ws in
  do m <- dist2d_mask h quantiles sigmas mask ;;
  Ok (fun i j => if hist2d_hidden m (at_ h [i; j]) then None else Some (at_ h [i; j])).
(** The points drawn by [draw_scatter] without limit, and the grid and density given to [draw_contour2d] (plot.py:1524-1525, 1564). *)
Definition dist2d_scatter (rows : list (list R)) : list (R * R) := combine (nth 0 rows []) (nth 1 rows []).
Definition dist2d_contour (K : kde) (params : list nat) (flat : bool) (points : res (list (list R))) : res (points_arg * nda) :=
  density_values K false None (PList params) false None flat points.

(* ------------------------------------------------------------ carpet *)
(** np.median. *)
Definition np_median (l : list R) : R :=
  let s := np_sort l in let n := length l in
  if Nat.even n then (vget s (n / 2 - 1) + vget s (n / 2)) / 2 else vget s (n / 2).
(** utils.py:469-474 [iqrange]. *)
Definition iqrange (sorter : list (R * R) -> list (R * R)) (data : list R) (log : bool) (weights : option (list R)) : res R :=
  do qs <- quantiles sorter (if log then map log10 data else data) (Some [3 / 4; 1 / 4]) weights false ;;
  Ok (vget qs 0 - vget qs 1).
(** plot.py:1001-1006: the weights relative to their median, logarithmic if they spread over more than a decade; the weights are positive. *)
Definition carpet_weights (sorter : list (R * R) -> list (R * R)) (weights : list R) : res (list flt) :=
  do q <- iqrange sorter weights true None ;;
  let w := if Rltb 1 q then map log10 weights else weights in
  Ok (map (fun x => fdiv x (np_median w)) w).
(** np.clip(x, 5, 100). *)
Definition clip_size (x : flt) : flt :=
  match x with Fin r => Fin (Rmin (Rmax r 5) 100) | PInf => Fin 100 | NInf => Fin 5 | NaN => NaN end.
(** plot.py:1022-1023: the sizes of the points (without [fancy]). *)
Definition carpet_sizes (sorter : list (R * R) -> list (R * R)) (n : nat) (weights : list R) : res (list flt) :=
  do ww <- carpet_weights sorter weights ;;
  Ok (map (fun x => clip_size (match x with Fin r => Fin (300 * r / sqrt (INR n)) | y => y end)) ww).
