(** Model of kalepy/kde.py: construction of a KDE (weights, neff, covariance, bandwidth, extrema)
    and KDE.density / KDE.pdf. *)
From Coq Require Import String.
From Verif Require Import Base ModelLinAlg ModelKernels.
Open Scope R_scope.

(** Floating point values where non-finite ones matter. *)
Inductive flt := Fin (r : R) | PInf | NInf | NaN.

Definition f_isfinite (x : flt) : bool := match x with Fin _ => true | _ => false end.
(** [x != 0] as used by np.count_nonzero: NaN and infinities count as non-zero. *)
Definition f_nonzero (x : flt) : bool := match x with Fin r => negb (Reqb r 0) | _ => true end.
(** [x < 0]: false for NaN. *)
Definition f_neg (x : flt) : bool :=
  match x with Fin r => Rltb r 0 | NInf => true | _ => false end.
Definition f_val (x : flt) : R := match x with Fin r => r | _ => 0 end.

(** The [weights] argument: None, a numpy array, or a Python list. *)
Inductive warg := WNone | WArr (l : list flt) | WList (l : list flt).

(** kde.py:195-208: validation of weights for [n] data points.  [weights < 0] on a Python list is a
    TypeError, but it is only evaluated if some weight is non-zero. *)
Definition check_weights (n : nat) (w : warg) : res (option (list R)) :=
  match w with
  | WNone => Ok None
  | WArr l =>
      if negb (Nat.eqb (List.length l) n) then Err ValueError
      else if negb (existsb f_nonzero l) then Err ValueError
      else if existsb (fun x => orb (negb (f_isfinite x)) (f_neg x)) l then Err ValueError
      else Ok (Some (map f_val l))
  | WList l =>
      if negb (Nat.eqb (List.length l) n) then Err ValueError
      else if negb (existsb f_nonzero l) then Err ValueError
      else Err TypeError
  end.

(** kde.py:210-214: effective number of data points. *)
Definition sumsq (w : list R) : R := sumf (fun x => x * x) w.
Definition neff_of (ndata : nat) (w : option (list R)) : R :=
  match w with
  | None => INR ndata
  | Some w => (lsum w) ^ 2 / sumsq w
  end.

(** kde.py:222-223: numpy.cov(dataset, rowvar=True, bias=False, aweights=weights):
    weighted mean, factor sum(w) - sum(w^2)/sum(w).  [None]: factor <= 0, numpy then divides by zero
    and the matrix is filled with NaN (a single data point, or a single non-zero weight).  With
    weights None numpy uses N-1, which is the same formula with all weights one. *)
Definition wmean (wd : list (pt * R)) (i : nat) : R :=
  sumf (fun dw : pt * R => snd dw * fst dw i) wd / sumf snd wd.
Definition cov_fact (wd : list (pt * R)) : R :=
  sumf snd wd - sumf (fun dw => snd dw * snd dw) wd / sumf snd wd.
Definition np_cov (wd : list (pt * R)) : option mat :=
  if Rleb (cov_fact wd) 0 then None
  else Some (fun i j =>
    sumf (fun dw : pt * R => snd dw * (fst dw i - wmean wd i) * (fst dw j - wmean wd j)) wd / cov_fact wd).

(** kde.py:771-775 [_scott_factor], [_silverman_factor]. *)
Definition scott (neff : R) (ndim : nat) : R := Rpower neff (- (1 / (INR ndim + 4))).
Definition silverman (neff : R) (ndim : nat) : R :=
  Rpower (neff * (INR ndim + 2) / 4) (- (1 / (INR ndim + 4))).

(** One bandwidth entry: a string, a number, or something else. *)
Inductive bw1 := BStr (s : string) | BNum (r : R) | BOther.

(** The [bandwidth] argument: None, one entry, a sequence of entries, or a two-dimensional array
    given as numpy array ([isarr = true]) or nested Python list. *)
Inductive bwarg := BwNone | BwAtom (b : bw1) | BwSeq (l : list bw1) | BwMat (isarr : bool) (rows : list (list R)).

(** kde.py:743-769 [_compute_bandwidth]. *)
Definition compute_bandwidth (neff : R) (ndim : nat) (b : bw1) : res R :=
  match b with
  | BStr s =>
      if String.eqb s "scott" then Ok (scott neff ndim)
      else if String.eqb s "silverman" then Ok (silverman neff ndim)
      else Err ValueError
  | BNum r => Ok r
  | BOther => Err ValueError
  end.

Definition diag_of (f : nat -> R) : mat := fun i j => if Nat.eqb i j then f i else 0.

(** kde.py:692-741 [_set_bandwidth].  [len(np.atleast_1d(b)) == 1] holds for one entry, for a
    sequence of length one and for a matrix with one row; only the first is then accepted by
    [_compute_bandwidth].  A nested list of shape (ndim,ndim) fails at [bw_input[ii, jj]] with a
    TypeError.  Simplification: [bw_rescale] is None or a scalar. *)
Definition set_bandwidth (neff : R) (ndim : nat) (diagonal : bool) (b : bwarg) (rescale : option R)
  : res mat :=
  do bw <-
    match b with
    | BwNone =>
        do r <- compute_bandwidth neff ndim (BStr "scott") ;;
        Ok (if diagonal then diag_of (fun _ => r) else fun _ _ => r)
    | BwAtom a =>
        do r <- compute_bandwidth neff ndim a ;;
        Ok (if diagonal then diag_of (fun _ => r) else fun _ _ => r)
    | BwSeq l =>
        if Nat.eqb (List.length l) 1 then Err ValueError
        else if Nat.eqb (List.length l) ndim then
          do rs <- mapM (compute_bandwidth neff ndim) l ;;
          Ok (diag_of (fun i => nth i rs 0))
        else Err ValueError
    | BwMat isarr rows =>
        if Nat.eqb (List.length rows) 1 then Err ValueError
        else if andb (Nat.eqb (List.length rows) ndim)
                     (forallb (fun r => Nat.eqb (List.length r) ndim) rows) then
          if isarr then Ok (fun i j => nth j (nth i rows []) 0) else Err TypeError
        else Err ValueError
    end ;;
  Ok (match rescale with None => bw | Some s => fun i j => s * bw i j end).

(** A constructed KDE.  [kd_kernel = None]: the kernel matrix contains NaN. *)
Record kde := mkKDE {
  kd_ndim : nat;
  kd_data : list pt;
  kd_weights : option (list R);
  kd_neff : R;
  kd_kernel : option kernel;
  kd_reflect : option reflspec }.

Definition wlist (data : list pt) (w : option (list R)) : list R :=
  match w with Some w => w | None => map (fun _ => 1) data end.
Definition wdata_of (data : list pt) (w : option (list R)) : list (pt * R) :=
  combine data (wlist data w).

(** kde.py:135-235 [KDE.__init__] up to the construction of the kernel.  The reflect argument is
    taken as already checked ([_check_reflect] is modelled in ModelReflect.v and raises before
    everything below).  [cov_arg], [neff_arg]: the user's [covariance] and [neff]. *)
Definition kde_init (ndim : nat) (data : list pt) (w : warg) (b : bwarg) (diagonal : bool)
    (rescale : option R) (d : dist) (cov_arg : option mat) (neff_arg : option R)
    (reflect : option reflspec) : res kde :=
  if Nat.eqb (List.length data) 0 then Err ValueError else
  do ow <- check_weights (List.length data) w ;;
  let neff := match neff_arg with Some x => x | None => neff_of (List.length data) ow end in
  let cov := match cov_arg with Some c => Some c | None => np_cov (wdata_of data ow) end in
  do bw <- set_bandwidth neff ndim diagonal b rescale ;;
  Ok (mkKDE ndim data ow neff
        (match cov with None => None | Some c => Some (kernel_init d ndim bw c) end)
        reflect).

(** The [params] argument of KDE.density. *)
Inductive parg := PNone | PInt (p : nat) | PList (l : list nat).

(** Selecting rows of the data (kde.py:347) and of points. *)
Definition select (ps : list nat) (x : pt) : pt := fun i => x (nth i ps O).

(** kde.py:325-399 [KDE.density] after the points have been brought to the form of a list of
    columns; [pdim] is their number of rows.  [refl]: the [reflect] argument, already checked
    (None: not given, the stored boundaries are used).  The result is the function applied
    to every evaluation point.  NaN kernel matrix: scipy's cholesky raises ValueError.
    [params] for 1-D data: kde.py:332-338. *)
Definition resolve_params (K : kde) (p : parg) : res (option (list nat)) :=
  match p with
  | PNone => Ok None
  | PInt q =>
      if Nat.eqb (kd_ndim K) 1 then (if Nat.eqb q 0 then Ok None else Err ValueError)
      else if Nat.ltb q (kd_ndim K) then Ok (Some [q]) else Err IndexError
  | PList l =>
      if Nat.eqb (kd_ndim K) 1 then Err ValueError
      else if forallb (fun q => Nat.ltb q (kd_ndim K)) l then Ok (Some l) else Err IndexError
  end.

Definition kde_density (K : kde) (prob : bool) (pdim : nat) (refl : option reflspec) (p : parg)
  : res (pt -> R) :=
  do ops <- resolve_params K p ;;
  let data := match ops with None => kd_data K | Some ps => map (select ps) (kd_data K) end in
  let ddim := match ops with None => kd_ndim K | Some ps => List.length ps end in
  let refl1 :=
    match refl with
    | Some r => Some r
    | None =>
        match kd_reflect K, ops with
        | None, _ => None
        | Some r, None => Some r
        | Some r, Some ps => Some (map (fun q => nth q r None) ps)
        end
    end in
  if (match refl1 with Some r => negb (Nat.eqb (List.length r) ddim) | None => false end)
  then Err ValueError else
  match kd_kernel K with
  | None => Err ValueError
  | Some kern =>
      do f <- kernel_density kern pdim ddim data (kd_weights K) refl1 ops ;;
      Ok (if prob then
            fun x => f x / (match kd_weights K with
                            | None => INR (List.length (kd_data K))
                            | Some w => lsum w
                            end)
          else f)
  end.

(** kde.py:482-484 [KDE.pdf]. *)
Definition kde_pdf (K : kde) (pdim : nat) (refl : option reflspec) (p : parg) : res (pt -> R) :=
  kde_density K true pdim refl p.
