(** Model of random sampling in kalepy/kernels.py (distribution samplers, Kernel.resample) and
    KDE.resample.  Random draws are explicit arguments (oracles). *)
From Verif Require Import Base ModelLinAlg ModelKernels ModelKDE ModelExtrema ModelReflect ModelInterp.
Open Scope R_scope.

(** The numbers numpy.random delivers for one sample: per coordinate a normal deviate, a uniform
    number in [0,1) ([random]), and three uniform numbers in [-1,1). *)
Record rnd := mkRnd { r_norm : nat -> R; r_unif : nat -> R; r_sym : nat -> nat -> R }.

(** kernels.py:22-24 [_triweight_cdf]. *)
Definition triweight_cdf (x : R) : R :=
  70 / 32 * (- 1 / 7 * x ^ 7 + 3 / 5 * x ^ 5 - x ^ 3 + x).

(** kernels.py:27-30: the interpolation table; [m] intervals (the code has 1000 points), the last
    ordinate overwritten by one. *)
Definition tab_x (m : nat) (i : nat) : R := INR i / INR m.
Definition tab_y (m : nat) (i : nat) : R := if Nat.eqb i m then 1 else triweight_cdf (tab_x m i).
Definition triweight_inverse_m (m : nat) (u : R) : res R := interp1d (tab_y m) (tab_x m) m u.
(** int(1e3) - 1 intervals. *)
Definition tab_m : nat := (Nat.pow 10 3 - 1)%nat.
Definition triweight_inverse (u : R) : res R := triweight_inverse_m tab_m u.

(** [u ** (1/n)] for u >= 0. *)
Definition nth_root (u : R) (n : nat) : R := if Req_EM_T u 0 then 0 else Rpower u (1 / INR n).

(** [np.median] of three numbers. *)
Definition median3 (a b c : R) : R := Rmax (Rmin a b) (Rmin (Rmax a b) c).

Definition res_get (r : res R) : R := match r with Ok v => v | Err _ => 0 end.

(** [_sample(size, ndim)] of each class, one column of the result: kernels.py:499-503 Gaussian
    (multivariate_normal with unit covariance: independent normal coordinates), 535-547 Box,
    579-584 Parabola, 611-617 Triweight.  The radii of Box and Triweight are drawn per coordinate. *)
Definition dist_sample (d : dist) (n : nat) (r : rnd) : pt :=
  match d with
  | Gaussian => r_norm r
  | Box =>
      if Nat.eqb n 1 then r_sym r O
      else fun k => nth_root (r_unif r k) n * r_norm r k / sqrt (norm2 n (r_norm r))
  | Parabola => fun k => median3 (r_sym r O k) (r_sym r 1%nat k) (r_sym r 2%nat k)
  | Triweight => fun k => res_get (triweight_inverse (r_unif r k)) * r_norm r k / sqrt (norm2 n (r_norm r))
  end.

(** utils.py:16-25 [add_cov] on one column: [U.T z] with U the Cholesky factor. *)
Definition color (n : nat) (U : mat) (z : pt) : pt := fun i => rsum n (fun l => U l i * z l).
Definition add_cov (n : nat) (cov : mat) (data : list pt) : res (list pt) :=
  match chol n cov with None => Err LinAlgError | Some U => Ok (map (color n U) data) end.

(** The [keep] argument (numbers counted from the end and lists of booleans: ModelKeep). *)
Inductive keeparg := KeepNone | KeepBool (b : bool) | KeepInt (i : nat) | KeepList (l : list nat).
Definition keep_dims (n : nat) (k : keeparg) : list nat :=
  match k with
  | KeepNone => []
  | KeepBool b => if b then seq 0 n else []
  | KeepInt i => [i]
  | KeepList l => l
  end.

(** kernels.py:186-193: the noise of kept dimensions is set to zero; IndexError out of range. *)
Definition zero_dims (ps : list nat) (z : pt) : pt := fun i => if existsb (Nat.eqb i) ps then 0 else z i.

Definition padd (x y : pt) : pt := fun i => x i + y i.
Definition pt0 : pt := fun _ => 0.

(** [np.random.choice(nvals, size, p)]: an empty population, or probabilities that are NaN (all
    weights zero), raise ValueError. *)
Definition choice_ok (nvals size : nat) (w : option (list R)) : bool :=
  match w with
  | None => negb (andb (Nat.eqb nvals 0) (negb (Nat.eqb size 0)))
  | Some w => negb (Reqb (lsum w) 0)
  end.

(** kernels.py:171-210 [_resample_clear].  [rn j]: random numbers for the noise of sample j,
    [ix j]: index delivered by np.random.choice for sample j. *)
Definition resample_clear (d : dist) (n : nat) (M : mat) (data : list pt) (w : option (list R))
    (keep : keeparg) (size : nat) (rn : nat -> rnd) (ix : nat -> nat) : res (list pt) :=
  do noise <- add_cov n M (map (fun j => dist_sample d n (rn j)) (seq 0 size)) ;;
  let ps := keep_dims n keep in
  if negb (forallb (fun p => Nat.ltb p n) ps) then Err IndexError else
  let noise1 := map (zero_dims ps) noise in
  if negb (choice_ok (length data) size w) then Err ValueError else
  let means := map (fun j => nth (ix j) data pt0) (seq 0 size) in
  Ok (map (fun mz => padd (fst mz) (snd mz)) (combine means noise1)).

(** utils.py:206-223 [cov_keep_vars] with a checked reflect specification. *)
Fixpoint zero_rows (ps : list nat) (n : nat) (refl : reflspec) (M : mat) : res mat :=
  match ps with
  | [] => Ok M
  | p :: rest =>
      if negb (Nat.ltb p n) then Err IndexError
      else
        let M1 := fun i j => if orb (Nat.eqb i p) (Nat.eqb j p) then 0 else M i j in
        match nth p refl None with
        | Some _ => Err ValueError
        | None => zero_rows rest n refl M1
        end
  end.
Definition cov_keep_vars (n : nat) (M : mat) (keep : keeparg) (refl : reflspec) : res mat :=
  zero_rows (keep_dims n keep) n refl M.

(** kernels.py:290-326 [_reflect_data]: data and weights with all mirror images appended, in the
    order of the loops. *)
Definition mirrors_of (ii : nat) (ob : option bnd) (data : list pt) : list pt :=
  match ob with
  | None => []
  | Some b =>
      (match fst b with None => [] | Some lo => map (mirror_pt ii lo) data end)
      ++ (match snd b with None => [] | Some hi => map (mirror_pt ii hi) data end)
  end.
Fixpoint all_mirrors (ii : nat) (refl : reflspec) (data : list pt) : list pt :=
  match refl with
  | [] => []
  | ob :: rest => mirrors_of ii ob data ++ all_mirrors (S ii) rest data
  end.
Definition n_mirrors (ob : option bnd) : nat :=
  match ob with
  | None => O
  | Some b => ((match fst b with None => 0 | Some _ => 1 end) + (match snd b with None => 0 | Some _ => 1 end))%nat
  end.
Definition copies (refl : reflspec) : nat := fold_right (fun ob acc => (n_mirrors ob + acc)%nat) O refl.
Fixpoint repeat_list {A} (k : nat) (l : list A) : list A :=
  match k with O => [] | S k' => l ++ repeat_list k' l end.
Definition normalise (w : list R) : list R := map (fun x => x / lsum w) w.
Definition reflect_data (data : list pt) (w : option (list R)) (refl : reflspec)
  : list pt * option (list R) :=
  (data ++ all_mirrors 0 refl data,
   match w with None => None | Some w => Some (normalise (w ++ repeat_list (copies refl) w)) end).

(** utils.py:67-90 [bound_indices] (outside=False) with the bounds built by [_reflect_data]:
    missing bounds are infinite. *)
Definition in_bnd (ob : option bnd) (v : R) : bool :=
  match ob with
  | None => true
  | Some b =>
      andb (match fst b with None => true | Some lo => Rltb lo v end)
           (match snd b with None => true | Some hi => Rltb v hi end)
  end.
Fixpoint inside_from (ii : nat) (refl : reflspec) (x : pt) : bool :=
  match refl with
  | [] => true
  | ob :: rest => andb (in_bnd ob (x ii)) (inside_from (S ii) rest x)
  end.
Definition inside (refl : reflspec) (x : pt) : bool := inside_from 0 refl x.

(** kernels.py:328-340 [_truncate_reflections]. *)
Definition truncate (data : list pt) (w : option (list R)) (refl : reflspec)
  : list pt * option (list R) :=
  (filter (inside refl) data,
   match w with
   | None => None
   | Some w => Some (normalise (map snd (filter (fun xw => inside refl (fst xw)) (combine data w))))
   end).

(** [ceil(a/b)] for b > 0. *)
Definition ceil_div (a b : nat) : nat := ((a + b - 1) / b)%nat.

(** kernels.py:242-268: the rejection loop.  [trial t k]: the [t]-th call of [_resample_clear] with
    [k] draws.  [fuel]: the iterations left (MAX * num_chunks - cnt). *)
Fixpoint reject_loop (trial : nat -> nat -> res (list pt)) (refl : reflspec)
    (n size chunk chunk_size : nat) (fuel cnt draw : nat) (acc : list pt) : res (nat * list pt) :=
  match fuel with
  | O => Ok (cnt, acc)
  | S f =>
      if Nat.ltb (length acc) size then
        do tr <- trial cnt draw ;;
        let good := filter (inside refl) tr in
        let acc1 := acc ++ firstn (size - length acc) good in
        let draw1 := Nat.min (2 ^ n * Nat.min (size - length acc1) chunk_size) chunk in
        reject_loop trial refl n size chunk chunk_size f (S cnt) draw1 acc1
      else Ok (cnt, acc)
  end.

(** kernels.py:233-238: (num_chunks, chunk_size). *)
Definition chunking (size chunk : nat) : nat * nat :=
  if Nat.ltb chunk size then
    let nc := ceil_div size chunk in (nc, ceil_div size nc)
  else (1%nat, size).

(** kernels.py:212-286 [_resample_reflect]; also returns the number of trials. *)
Definition max_iter : nat := 10.
Definition resample_reflect (d : dist) (n : nat) (M : mat) (data : list pt) (w : option (list R))
    (refl : reflspec) (keep : keeparg) (chunk size : nat)
    (rn : nat -> nat -> rnd) (ix : nat -> nat -> nat) : res (nat * list pt) :=
  do M1 <- cov_keep_vars n M keep refl ;;
  let rd := reflect_data data w refl in
  let td := truncate (fst rd) (snd rd) refl in
  if Nat.eqb (length (fst td)) 0 then Err ValueError else
  if andb (Nat.eqb chunk 0) (negb (Nat.eqb size 0)) then Err ZeroDivisionError else
  let ch := chunking size chunk in
  let trial := fun t k => resample_clear d n M1 (fst td) (snd td) KeepNone k (rn t) (ix t) in
  do r <- reject_loop trial refl n size chunk (snd ch) (max_iter * fst ch) 0 (snd ch) [] ;;
  if Nat.ltb (length (snd r)) size then Err RuntimeError else Ok r.

(** kernels.py:138-169 [Kernel.resample], without the final squeeze; returns the caller's reflect
    object after the call.  NaN kernel matrix: ValueError from scipy's cholesky (simplification: for
    such a matrix the combinations size=0, or keep= given together with reflect=, are not
    distinguished). *)
Definition kernel_resample (ok : option kernel) (n : nat) (data : list pt) (w : option (list R))
    (size : option nat) (keep : keeparg) (chunk : nat) (arg : rarg)
    (rn : nat -> nat -> rnd) (ix : nat -> nat -> nat) : rarg * res (list pt) :=
  let sz := match size with None => length data | Some s => s end in
  let c := check_reflect n data arg in
  (fst c,
   do spec <- snd c ;;
   match ok, spec with
   | None, _ => Err ValueError
   | Some k, None => resample_clear (k_dist k) n (k_matrix k) data w keep sz (rn O) (ix O)
   | Some k, Some refl =>
       do r <- resample_reflect (k_dist k) n (k_matrix k) data w refl keep chunk sz rn ix ;; Ok (snd r)
   end).

(** kde.py:531-572 [KDE.resample]: reflect=False means none, None the stored boundaries (which are
    checked again). *)
Definition kde_resample (K : kde) (size : option nat) (keep : keeparg) (chunk : nat) (arg : rarg)
    (rn : nat -> nat -> rnd) (ix : nat -> nat -> nat) : rarg * res (list pt) :=
  match arg with
  | RFalse =>
      (arg, snd (kernel_resample (kd_kernel K) (kd_ndim K) (kd_data K) (kd_weights K) size keep chunk RNone rn ix))
  | RNone =>
      (arg, snd (kernel_resample (kd_kernel K) (kd_ndim K) (kd_data K) (kd_weights K) size keep chunk
                   (match kd_reflect K with None => RNone | Some r => embed r end) rn ix))
  | _ => kernel_resample (kd_kernel K) (kd_ndim K) (kd_data K) (kd_weights K) size keep chunk arg rn ix
  end.
