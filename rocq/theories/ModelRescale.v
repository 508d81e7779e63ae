(** The argument bw_rescale of KDE (kalepy/kde.py). *)
From Coq Require Import String.
From Verif Require Import Base ModelLinAlg ModelKernels ModelKDE.
Open Scope R_scope.
Notation length := List.length.

(** None, a number, one number for each parameter, or an array of two dimensions. *)
Inductive rsarg := RsNone | RsNum (s : R) | RsVec (l : list R) | RsMat (rows : list (list R)).
(** kde.py:725-727: np.atleast_2d(bw_rescale) * bandwidth.  An axis of length one is repeated; a vector is one row.  Simplification: at least
    two parameters, or an array with one entry (for one parameter every other array changes the shape of the bandwidth). *)
Definition times_array (n : nat) (rows : list (list R)) (bw : mat) : res mat :=
  let r := length rows in let c := length (hd [] rows) in
  if andb (forallb (fun l => Nat.eqb (length l) c) rows) (andb (orb (Nat.eqb r 1) (Nat.eqb r n)) (orb (Nat.eqb c 1) (Nat.eqb c n)))
  then Ok (fun i j => nth (if Nat.eqb c 1 then O else j) (nth (if Nat.eqb r 1 then O else i) rows []) 0 * bw i j)
  else Err ValueError.
Definition rescaled (n : nat) (rs : rsarg) (bw : mat) : res mat :=
  match rs with
  | RsNone => Ok bw
  | RsNum s => Ok (fun i j => s * bw i j)
  | RsVec l => times_array n [l] bw
  | RsMat rows => times_array n rows bw
  end.
(** kde.py:135-235 [KDE.__init__] (see [kde_init]) with every form of bw_rescale. *)
Definition kde_rescaled (ndim : nat) (data : list pt) (w : warg) (b : bwarg) (diagonal : bool) (rs : rsarg) (d : dist) (cov_arg : option mat) (neff_arg : option R)
    (reflect : option reflspec) : res kde :=
  if Nat.eqb (length data) 0 then Err ValueError else
  do ow <- check_weights (length data) w ;;
  let neff := match neff_arg with Some x => x | None => neff_of (length data) ow end in
  let cov := match cov_arg with Some c => Some c | None => np_cov (wdata_of data ow) end in
  do bw0 <- set_bandwidth neff ndim diagonal b None ;;
  do bw <- rescaled ndim rs bw0 ;;
  Ok (mkKDE ndim data ow neff (match cov with None => None | Some c => Some (kernel_init d ndim bw c) end) reflect).
