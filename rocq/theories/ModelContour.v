(** Contours of data (kalepy/plot.py): contour, draw_contour2d. *)
From Verif Require Import Base ModelLinAlg ModelUtils ModelNd ModelPlot ModelDist.
Open Scope R_scope.

(** plot.py:1842-1843 [draw_contour2d]: the levels are given or found from the prepared histogram. *)
Definition contour_levels (h : nda) (quantiles levels : option (list R)) : res (list R) :=
  match levels with
  | Some l => Ok l
  | None => do l <- dfm_levels h quantiles None ;; Ok (snd (fst l))
  end.
(** plot.py:1197-1204 [contour] and 1838-1851 [draw_contour2d]: the coordinates, values and levels given to matplotlib.
    Simplification: the edges are given, increasing and at least two in each direction; no smoothing and no upsampling
    (smooth and upsample None or False). *)
Definition contour (ex ey : list R) (data : list (R * R)) (ws : list R) (quantiles levels : option (list R)) (pad : padarg)
  : res (list nda * nda * list R) :=
  do ch <- prep_hist [ex; ey] (hist2d_array ex ey data ws) pad ;;
  do l <- contour_levels (snd ch) quantiles levels ;;
  Ok (fst ch, snd ch, l).
