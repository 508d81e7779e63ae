(** Choosing a kernel by name, the shapes of the arrays returned by KDE.density and KDE.resample, and the functions
    of kalepy/__init__.py. *)
From Coq Require Import String Ascii.
From Verif Require Import Base ModelLinAlg ModelKernels ModelKDE ModelReflect ModelInterp ModelResample ModelUtils ModelNd ModelGrid ModelSample.
Open Scope R_scope.
Notation length := List.length.

(* ------------------------------------------------------------ kernels.py:622-666 *)
(** Classes of distributions: those of kernels.py or a subclass of [_Distribution] written by the user. *)
Inductive dclass := DKnown (d : dist) | DUser (n : nat).
(** The argument of [get_distribution_class]: None, a subclass of [_Distribution], a string, or any other object (other
    classes, numbers, lists, ...: they have no [lower], or the table has no such key).  Strings: characters up to
    code 255. *)
Inductive kernarg := KaNone | KaClass (c : dclass) | KaStr (s : string) | KaOther.

(** str.lower of one character with a code below 256. *)
Definition lower_c (c : ascii) : ascii :=
  let n := nat_of_ascii c in
  if orb (andb (Nat.leb 65 n) (Nat.leb n 90)) (andb (andb (Nat.leb 192 n) (Nat.leb n 222)) (negb (Nat.eqb n 215)))
  then ascii_of_nat (n + 32) else c.
(** Characters with a code below 256 that str.strip removes. *)
Definition space_c (c : ascii) : bool :=
  let n := nat_of_ascii c in
  orb (andb (Nat.leb 9 n) (Nat.leb n 13)) (orb (andb (Nat.leb 28 n) (Nat.leb n 32)) (orb (Nat.eqb n 133) (Nat.eqb n 160))).
(** str.strip. *)
Fixpoint drop_spaces (l : list ascii) : list ascii :=
  match l with [] => [] | c :: r => if space_c c then drop_spaces r else l end.
Definition strip (l : list ascii) : list ascii := rev (drop_spaces (rev (drop_spaces l))).
(** kernels.py:660: [arg.lower().strip()]. *)
Definition lower_strip (s : string) : string := string_of_list_ascii (strip (map lower_c (list_ascii_of_string s))).
(** kernels.py:622-631: the table, in order. *)
Definition DISTRIBUTIONS : list (string * dist) :=
  [("gaussian"%string, Gaussian); ("box"%string, Box); ("parabola"%string, Parabola); ("epanechnikov"%string, Parabola); ("triweight"%string, Triweight)].
Fixpoint dlookup (t : list (string * dist)) (s : string) : option dist :=
  match t with [] => None | (k, d) :: r => if String.eqb k s then Some d else dlookup r s end.
(** kernels.py:649-666. *)
Definition get_distribution_class (a : kernarg) : res dclass :=
  match a with
  | KaNone => Ok (DKnown Gaussian)
  | KaClass c => Ok c
  | KaStr s => match dlookup DISTRIBUTIONS (lower_strip s) with Some d => Ok (DKnown d) | None => Err ValueError end
  | KaOther => Err ValueError
  end.

(* ------------------------------------------------------------ shapes *)
(** The [points] argument of KDE.density and the points it returns: a number, a flat sequence of numbers (also an empty
    one), or at least one row, each a sequence of numbers. *)
Inductive points_arg := PtScalar (r : R) | PtFlat (l : list R) | PtRows (rows : list (list R)).

(** kernels.py:64-65: the columns of the array of points; rows of different lengths are a ValueError. *)
Definition columns (rows : list (list R)) : list pt :=
  map (fun j => ((fun d => vget (nth d rows []) j) : pt)) (seq 0 (length (hd [] rows))).
Definition rows_values (K : kde) (prob : bool) (refl : option reflspec) (p : parg) (rows : list (list R)) : res nda :=
  if forallb (fun r => Nat.eqb (length r) (length (hd [] rows))) rows then
    do f <- kde_density K prob (length rows) refl p ;;
    let vals := map f (columns rows) in
    Ok (mkA [length vals] (fun idx => vget vals (nth 0 idx 0%nat)))
  else Err ValueError.

(** kde.py:396: points[0]. *)
Definition first_points (a : points_arg) : res points_arg :=
  match a with
  | PtScalar _ => Err TypeError
  | PtFlat l => match l with [] => Err IndexError | x :: _ => Ok (PtScalar x) end
  | PtRows rows => match rows with [] => Err IndexError | r :: _ => Ok (PtFlat r) end
  end.

(** kde.py:325-399 [KDE.density] with the shapes of the results; [refl]: the reflect argument after its check, as in
    [kde_density].  [auto]: KDE.points as a list of vectors (used when no points are given); [flatdata]: the data were
    given as one vector, KDE.points is then a vector (kde.py:655).  Simplification: for a number with grid=True the
    TypeError of [meshgrid] comes before the length check of [reflect]. *)
Definition density_values (K : kde) (prob : bool) (refl : option reflspec) (p : parg) (grid : bool)
    (pts : option points_arg) (flatdata : bool) (auto : res (list (list R))) : res (points_arg * nda) :=
  do ops <- resolve_params K p ;;
  let sqp := match p with PInt _ => negb (Nat.eqb (kd_ndim K) 1) | _ => false end in
  do c <- match pts with
          | None =>
              do g <- auto ;;
              let rows := match ops with None => g | Some ps => map (fun q => nth q g []) ps end in
              Ok (rows, if flatdata then PtFlat (hd [] g) else PtRows rows, Nat.ltb 1 (length rows), sqp)
          | Some (PtFlat l) => Ok ([l], PtRows [l], grid, true)
          | Some (PtRows rows) => Ok (rows, PtRows rows, grid, sqp)
          | Some (PtScalar r) => if grid then Err TypeError else Ok ([[r]], PtScalar r, false, sqp)
          end ;;
  let '(rows, ret, grid, squeeze) := c in
  do a <- (if (grid : bool) then density_grid K prob refl p rows else rows_values K prob refl p rows) ;;
  if (squeeze : bool) then do r <- first_points ret ;; Ok (r, squeeze_nd a) else Ok (ret, a).

(** kernels.py:166-169: the array returned by Kernel.resample from the drawn points. *)
Definition sample_array (n : nat) (squeeze : bool) (ss : list pt) : nda :=
  let a := mkA [n; length ss] (fun idx => nth (nth 1 idx 0%nat) ss pt0 (nth 0 idx 0%nat)) in
  if andb (Nat.eqb n 1) squeeze then squeeze_nd a else a.
(** kde.py:531-572 with the final array. *)
Definition resample_values (K : kde) (size : option nat) (keep : keeparg) (chunk : nat) (arg : rarg) (squeeze : bool)
    (rn : nat -> nat -> rnd) (ix : nat -> nat -> nat) : rarg * res nda :=
  let r := kde_resample K size keep chunk arg rn ix in
  (fst r, do ss <- snd r ;; Ok (sample_array (kd_ndim K) squeeze ss)).

(* ------------------------------------------------------------ kalepy/__init__.py *)
(** The keyword arguments of KDE.__init__ (kde.py:95-97) that the other functions pass on: bandwidth, kernel,
    covariance, neff, diagonal, bw_rescale, and the names of those that are not parameters of KDE.__init__.  [extrema],
    [points] and [helper] are left at their defaults. *)
Record kde_kw := mkKw {
  kw_bw : bwarg; kw_kernel : kernarg; kw_cov : option mat; kw_neff : option R; kw_diag : bool; kw_rescale : option R;
  kw_extra : list string }.

(** kde.py:135-225 with the choice of the kernel (221) and the call of Kernel.__init__ (222-224), whose only parameter
    that KDE.__init__ does not set is [chunk] (kernels.py:36): any other name is a TypeError.  Simplification: a class
    written by the user is accepted by the code; what it computes is not modelled (NotImplementedError here). *)
Definition kde_call (n : nat) (data : list pt) (w : warg) (refl : rarg) (kw : kde_kw) : rarg * res kde :=
  let new := fun d => kde_new n data w (kw_bw kw) (kw_diag kw) (kw_rescale kw) d (kw_cov kw) (kw_neff kw) refl in
  let r := new Gaussian in
  (fst r,
   do _ <- snd r ;;
   do c <- get_distribution_class (kw_kernel kw) ;;
   if forallb (String.eqb "chunk") (kw_extra kw) then
     match c with DKnown d => snd (new d) | DUser _ => Err NotImplementedError end
   else Err TypeError).

(** __init__.py:70-138 [density].  A keyword named like a parameter of KDE.__init__ that is already given (dataset) is a
    TypeError of the call. *)
Definition api_density (n : nat) (data : list pt) (pts : option points_arg) (w : warg) (refl : rarg) (prob grid : bool)
    (kw : kde_kw) (flatdata : bool) (auto : kde -> res (list (list R))) : res (points_arg * nda) :=
  if existsb (String.eqb "dataset") (kw_extra kw) then Err TypeError else
  do K <- snd (kde_call n data w refl kw) ;;
  density_values K prob None PNone grid pts flatdata (auto K).

Definition add_name (s : string) (kw : kde_kw) : kde_kw :=
  mkKw (kw_bw kw) (kw_kernel kw) (kw_cov kw) (kw_neff kw) (kw_diag kw) (kw_rescale kw) (s :: kw_extra kw).
(** __init__.py:141-205 [pdf]; [params], given or not, is passed on as a keyword (203-204). *)
Definition api_pdf (n : nat) (data : list pt) (pts : option points_arg) (w : warg) (refl : rarg) (params : parg)
    (grid : bool) (kw : kde_kw) (flatdata : bool) (auto : kde -> res (list (list R))) : res (points_arg * nda) :=
  if existsb (String.eqb "probability") (kw_extra kw) then Err TypeError else
  api_density n data pts w refl true grid (add_name "params" kw) flatdata auto.

(** __init__.py:208-250 [resample]. *)
Definition api_resample (n : nat) (data : list pt) (size : option nat) (w : warg) (refl : rarg) (keep : keeparg)
    (kw : kde_kw) (chunk : nat) (rn : nat -> nat -> rnd) (ix : nat -> nat -> nat) : res nda :=
  if existsb (String.eqb "dataset") (kw_extra kw) then Err TypeError else
  do K <- snd (kde_call n data w refl kw) ;;
  snd (resample_values K size keep chunk RNone true rn ix).
