(** Model of kalepy/kernels.py: kernel profiles, normalisations, density evaluation. *)
From Verif Require Import Base ModelLinAlg.

(** The distribution classes: kernels.py:485-510 Gaussian, 513-553 Box, 556-590 Parabola,
    593-628 Triweight. *)
Inductive dist := Gaussian | Box | Parabola | Triweight.

(** [_FINITE] of each class (kernels.py:487, 515, 560, 595). *)
Definition finite (d : dist) : bool := match d with Gaussian => false | _ => true end.

(** [_evaluate(y2)]: kernels.py:491-492, 523-533, 563-572, 602-609.
    [y2] is the squared whitened distance; Box's boolean result is used as the number 0/1. *)
Definition prof (d : dist) (y2 : R) : R :=
  match d with
  | Gaussian => exp (- y2 / 2)
  | Box => if Rleb y2 1 then 1 else 0
  | Parabola => Rmax (1 - y2) 0
  | Triweight => Rmax ((1 - y2) ^ 3) 0
  end.

(** [scipy.special.gamma(k/2)] for positive integers k (half-integer arguments only, which are
    the only ones used at kernels.py:679-682 and 685-694): functional equation from gamma(1/2) and
    gamma(1).  [gammah 0] (a pole) is never used. *)
Fixpoint gammah (k : nat) : R :=
  match k with
  | O => 0
  | 1%nat => sqrt PI
  | 2%nat => 1
  | S (S m) => INR m / 2 * gammah m
  end.

(** [scipy.special.beta(a/2, b/2)] for positive integers a, b (kernels.py:693). *)
Definition betah (a b : nat) : R := gammah a * gammah b / gammah (a + b).

(** kernels.py:678-681 [_nball_vol(ndim, rad=1)]. *)
Definition nball_vol (n : nat) : R := Rpower PI (INR n / 2) / gammah (n + 2).

(** kernels.py:684-694 [_beta_kernel_norm(order, ndim)]; the code fixes [rr = 3] and ignores
    [order]. *)
Definition beta_kernel_norm (n : nat) : R := INR n * (nball_vol n / 2) * betah 8 n.

(** [norm(ndim)]: kernels.py:494-497, 517-519, 574-577, 597-599. *)
Definition dist_norm (d : dist) (n : nat) : R :=
  match d with
  | Gaussian => Rpower (2 * PI) (INR n / 2)
  | Box => nball_vol n
  | Parabola => 2 * nball_vol n / (INR n + 2)
  | Triweight => beta_kernel_norm n
  end.

(** Squared Euclidean norm of the first n coordinates. *)
Definition norm2 (n : nat) (y : pt) : R := rsum n (fun k => y k * y k).

(** kernels.py:411-420 [_Distribution.evaluate] at one point of dimension n. *)
Definition dist_evaluate (d : dist) (n : nat) (y : pt) : R := prof d (norm2 n y) / dist_norm d n.

(** kernels.py:36-50 [Kernel]: distribution and matrix = covariance * bandwidth**2 (elementwise). *)
Record kernel := mkKernel { k_dist : dist; k_ndim : nat; k_matrix : mat }.
Definition kernel_matrix (cov bw : mat) : mat := fun i j => cov i j * (bw i j * bw i j).
Definition kernel_init (d : dist) (n : nat) (bw cov : mat) : kernel :=
  mkKernel d n (kernel_matrix cov bw).

(** kernels.py:768-791 [_evaluate_numba] at one evaluation point: the accumulation over data points
    of k(|W x - W x_j|^2) * w_j, every whitened coordinate being accumulated in its own loop. *)
Definition white_dist2 (n : nat) (W : mat) (x d : pt) : R :=
  rsum n (fun k => let xh := rsum n (fun l => W k l * x l) in
                   let dh := rsum n (fun l => W k l * d l) in
                   (xh - dh) * (xh - dh)).
Definition eval_numba (n : nat) (W : mat) (k : R -> R) (wdata : list (pt * R)) (x : pt) : R :=
  sumf (fun dw => k (white_dist2 n W x (fst dw)) * snd dw) wdata.

(** A checked reflect specification: per dimension None or a pair of optional bounds. *)
Definition bnd := (option R * option R)%type.
Definition reflspec := list (option bnd).

(** kernels.py:127-128: mirror coordinate ii of every data point at loc. *)
Definition mirror_pt (ii : nat) (loc : R) (d : pt) : pt :=
  fun k => if Nat.eqb k ii then 2 * loc - d k else d k.
Definition mirror (ii : nat) (loc : R) (wdata : list (pt * R)) : list (pt * R) :=
  map (fun dw => (mirror_pt ii loc (fst dw), snd dw)) wdata.

(** kernels.py:130-133: is the evaluation point outside [lo, hi] in this dimension? *)
Definition outside (b : bnd) (xi : R) : bool :=
  orb (match fst b with None => false | Some lo => Rltb xi lo end)
      (match snd b with None => false | Some hi => Rltb hi xi end).

Definition opt_term (f : R -> R) (o : option R) : R :=
  match o with None => 0 | Some loc => f loc end.

(** kernels.py:117-133: the loop over dimensions, [ii] the index of the head of [refl]. *)
Fixpoint reflect_loop (ev : list (pt * R) -> R) (wdata : list (pt * R)) (x : pt)
    (ii : nat) (refl : reflspec) (acc : R) : R :=
  match refl with
  | [] => acc
  | None :: rest => reflect_loop ev wdata x (S ii) rest acc
  | Some b :: rest =>
      let acc1 := acc + opt_term (fun loc => ev (mirror ii loc wdata)) (fst b) in
      let acc2 := acc1 + opt_term (fun loc => ev (mirror ii loc wdata)) (snd b) in
      let acc3 := if outside b (x ii) then 0 else acc2 in
      reflect_loop ev wdata x (S ii) rest acc3
  end.

(** Submatrix [matrix[np.ix_(params, params)]] (kernels.py:73). *)
Definition submat (ps : list nat) (M : mat) : mat := fun i j => M (nth i ps O) (nth j ps O).

(** kernels.py:52-136 [Kernel.density].  [pdim] is the number of rows of [points], [ddim] that of
    [data]; the result is the function applied to each column of [points].
    The exceptions: params out of range IndexError (73), params/points mismatch ValueError (77-80),
    data/points mismatch ValueError (83-86), weights mismatch AttributeError (the message calls the
    non-existent [np.shpae], 92), matrix not positive definite LinAlgError (101-105), reflect length
    ValueError (114-117).  Simplification: negative (wrap-around) [params] are not modelled.  With
    [params] line 75 takes the root of the determinant without fabs: the same value wherever the
    Cholesky decomposition of the inverse succeeds.  When
    [params] is None the callers guarantee [ddim = k_ndim]. *)
Definition kernel_density (K : kernel) (pdim ddim : nat) (data : list pt)
    (weights : option (list R)) (reflect : option reflspec) (params : option (list nat))
  : res (pt -> R) :=
  do sel <- match params with
            | None => Ok (k_ndim K, k_matrix K)
            | Some ps =>
                if forallb (fun p => Nat.ltb p (k_ndim K)) ps then
                  if Nat.eqb pdim (length ps) then Ok (length ps, submat ps (k_matrix K))
                  else Err ValueError
                else Err IndexError
            end ;;
  let n := fst sel in
  let M := snd sel in
  if negb (Nat.eqb pdim ddim) then Err ValueError else
  do w <- match weights with
          | None => Ok (map (fun _ => 1) data)
          | Some w => if Nat.eqb (length w) (length data) then Ok w else Err AttributeError
          end ;;
  let norm := sqrt (Rabs (mdet n M)) * dist_norm (k_dist K) pdim in
  match minv n M with
  | None => Err LinAlgError
  | Some Mi =>
      match chol n Mi with
      | None => Err LinAlgError
      | Some W =>
          let wdata := combine data w in
          let ev := fun wd x => eval_numba n W (prof (k_dist K)) wd x in
          match reflect with
          | None => Ok (fun x => ev wdata x / norm)
          | Some refl =>
              if negb (Nat.eqb (length refl) ddim) then Err ValueError
              else Ok (fun x => reflect_loop (fun wd => ev wd x) wdata x 0 refl (ev wdata x) / norm)
          end
      end
  end.
