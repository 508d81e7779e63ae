(** Arrays and lists of the caller that a KDE keeps a reference to: KDE.__init__ (kde.py:170-225) and the methods that read them later. *)
From Verif Require Import Base ModelLinAlg ModelKernels ModelKDE ModelExtrema ModelReflect ModelResample ModelInterp ModelNd ModelUtils ModelGrid ModelState.
Open Scope R_scope.
Notation length := List.length.

(** The contents of the objects passed as [dataset], [weights], [covariance] and [reflect]; the caller may change them in place
    at any time.  [w_data]: the columns of the dataset. *)
Record world := mkW { w_data : list pt; w_weights : warg; w_cov : option mat; w_refl : rarg }.

(** A KDE: what it computed or copied in __init__, and whether its dataset (kde.py:171) and boundaries (kde.py:185) are the caller's objects. *)
Record held := mkHeld { he_kde : kde; he_data : bool; he_refl : bool }.

(** kde.py:171: np.atleast_2d returns an array as it is, or a view of it, and copies anything else.  kde.py:185: _check_reflect returns the
    list it was given (kernels.py:765), except for True (710-711) and a pair for one parameter (713-714: a new array).  kde.py:206: the
    weights are copied by astype.  kernels.py:46: the kernel matrix is a new array.  Simplification: a pair of boundaries for one
    parameter is a list or tuple, not an array. *)
Definition refl_kept (n : nat) (arg : rarg) : bool :=
  match arg with RSeq _ l => negb (andb (Nat.eqb (length l) 2) (Nat.eqb n 1)) | _ => false end.
Definition held_init (n : nat) (is_array : bool) (w : world) (b : bwarg) (diagonal : bool) (rescale : option R) (d : dist) (neff_arg : option R)
  : world * res held :=
  let r := kde_new n (w_data w) (w_weights w) b diagonal rescale d (w_cov w) neff_arg (w_refl w) in
  (mkW (w_data w) (w_weights w) (w_cov w) (fst r), do K <- snd r ;; Ok (mkHeld K is_array (refl_kept n (w_refl w)))).

(** The dataset and the boundaries as a method of the KDE sees them. *)
Definition seen_data (h : held) (w : world) : list pt := if he_data h then w_data w else kd_data (he_kde h).
Definition seen_refl (h : held) (w : world) : rarg :=
  if he_refl h then w_refl w else match kd_reflect (he_kde h) with None => RNone | Some s => embed s end.
Definition with_data (data : list pt) (refl : option reflspec) (K : kde) : kde :=
  mkKDE (kd_ndim K) data (kd_weights K) (kd_neff K) (kd_kernel K) refl.
Definition set_refl (h : held) (w : world) (arg : rarg) : world :=
  if he_refl h then mkW (w_data w) (w_weights w) (w_cov w) arg else w.

(** kde.py:325-399 [KDE.density] without [reflect] and [params]: the stored boundaries are checked again (line 381), which may write
    to the list. *)
Definition held_density (h : held) (w : world) (prob : bool) (pdim : nat) : world * res (pt -> R) :=
  let r := density_call (with_data (seen_data h w) None (he_kde h)) prob pdim (seen_refl h w) PNone in (set_refl h w (fst r), snd r).
(** kde.py:531-572 [KDE.resample] without [reflect]. *)
Definition held_resample (h : held) (w : world) (size : option nat) (keep : keeparg) (chunk : nat) (rn : nat -> nat -> rnd) (ix : nat -> nat -> nat)
  : world * res (list pt) :=
  let r := kernel_resample (kd_kernel (he_kde h)) (kd_ndim (he_kde h)) (seen_data h w) (kd_weights (he_kde h)) size keep chunk (seen_refl h w) rn ix in
  (set_refl h w (fst r), snd r).

(** The object of [ModelState] after the caller has changed the data. *)
Definition obj_with (data : list pt) (o : obj) : obj :=
  mkObj (with_data data (kd_reflect (ob_kde o)) (ob_kde o)) (ob_sorter o) (ob_bw o) (ob_ext o) (ob_edges o).
