(** Python's readings of the arguments keep and params: numbers counted from the end, and lists of booleans. *)
From Coq Require Import ZArith.
From Verif Require Import Base ModelLinAlg ModelKernels ModelKDE ModelReflect ModelResample ModelUtils ModelNd.
Open Scope R_scope.
Notation length := List.length.

(** An entry of keep after np.atleast_1d: a number or a numpy boolean. *)
Inductive kentry := KeNum (z : Z) | KeBit (b : bool).
Inductive keepform := KfNone | KfBool (b : bool) | KfOne (z : Z) | KfNums (l : list Z) | KfMask (l : list bool).
(** kernels.py:186-191. *)
Definition kf_entries (n : nat) (kf : keepform) : list kentry :=
  match kf with
  | KfNone => []
  | KfBool b => if b then map (fun i => KeNum (Z.of_nat i)) (seq 0 n) else []
  | KfOne z => [KeNum z]
  | KfNums l => map KeNum l
  | KfMask l => map KeBit l
  end.
(** kernels.py:192-193, for one sample: norm[pp, :] = 0.  A number counts from the end if negative, IndexError out of range; a numpy boolean as
    index selects the whole array (True) or nothing (False). *)
Fixpoint zero_entries (n : nat) (es : list kentry) (z : pt) : res pt :=
  match es with
  | [] => Ok z
  | KeNum p :: rest => match norm_axis n p with
                       | None => Err IndexError
                       | Some k => zero_entries n rest (fun i => if Nat.eqb i k then 0 else z i)
                       end
  | KeBit b :: rest => zero_entries n rest (if b then (fun _ => 0) else z)
  end.
(** kernels.py:171-210 [_resample_clear] with every form of keep (the loop over keep acts on all samples at once, so an IndexError does not depend
    on their number). *)
Definition resample_clear_kf (d : dist) (n : nat) (M : mat) (data : list pt) (w : option (list R)) (kf : keepform) (size : nat)
    (rn : nat -> rnd) (ix : nat -> nat) : res (list pt) :=
  do noise <- add_cov n M (map (fun j => dist_sample d n (rn j)) (seq 0 size)) ;;
  do _ <- zero_entries n (kf_entries n kf) pt0 ;;
  do noise1 <- mapM (zero_entries n (kf_entries n kf)) noise ;;
  if negb (choice_ok (length data) size w) then Err ValueError else
  let means := map (fun j => nth (ix j) data pt0) (seq 0 size) in
  Ok (map (fun mz => padd (fst mz) (snd mz)) (combine means noise1)).
(** utils.py:206-223 [cov_keep_vars] with a list of boundaries: matrix and boundaries are both indexed by the number (a numpy boolean is no index of
    a list: TypeError). *)
Fixpoint zero_rows_kf (es : list kentry) (n : nat) (refl : reflspec) (M : mat) : res mat :=
  match es with
  | [] => Ok M
  | KeNum p :: rest => match norm_axis n p with
                       | None => Err IndexError
                       | Some k =>
                           let M1 := fun i j => if orb (Nat.eqb i k) (Nat.eqb j k) then 0 else M i j in
                           match norm_axis (length refl) p with
                           | None => Err IndexError
                           | Some k' => match nth k' refl None with Some _ => Err ValueError | None => zero_rows_kf rest n refl M1 end
                           end
                       end
  | KeBit _ :: _ => Err TypeError
  end.
(** kernels.py:138-169 [Kernel.resample] (see [kernel_resample]) with every form of keep; after the matrix is changed, keep is not used again. *)
Definition kernel_resample_kf (ok : option kernel) (n : nat) (data : list pt) (w : option (list R)) (size : option nat) (kf : keepform) (chunk : nat)
    (arg : rarg) (rn : nat -> nat -> rnd) (ix : nat -> nat -> nat) : rarg * res (list pt) :=
  let sz := match size with None => length data | Some s => s end in
  let c := check_reflect n data arg in
  (fst c,
   do spec <- snd c ;;
   match ok, spec with
   | None, _ => Err ValueError
   | Some k, None => resample_clear_kf (k_dist k) n (k_matrix k) data w kf sz (rn O) (ix O)
   | Some k, Some refl =>
       do M1 <- zero_rows_kf (kf_entries n kf) n refl (k_matrix k) ;;
       do r <- resample_reflect (k_dist k) n M1 data w refl KeepNone chunk sz rn ix ;; Ok (snd r)
   end).

(** The argument params of KDE.density. *)
Inductive paramform := PfNone | PfOne (z : Z) | PfNums (l : list Z).
(** Entries of an axis of length [n] by numbers, counted from the end if negative. *)
Definition pick (n : nat) (zs : list Z) : res (list nat) :=
  mapM (fun z => match norm_axis n z with None => Err IndexError | Some k => Ok k end) zs.
(** kde.py:325-399 [KDE.density] (see [kde_density]) with such numbers.  For one-dimensional data only the number 0 is allowed (lines 332-338);
    otherwise the stored boundaries (line 346), the data (348) and the rows and columns of the kernel matrix (kernels.py:71) are looked up. *)
Definition kde_density_pf (K : kde) (prob : bool) (pdim : nat) (refl : option reflspec) (pf : paramform) : res (pt -> R) :=
  let n := kd_ndim K in
  let several := fun zs =>
    do refl1 <- match refl, kd_reflect K with
                | Some r, _ => Ok (Some r)
                | None, None => Ok None
                | None, Some r => do qs <- pick (length r) zs ;; Ok (Some (map (fun q => nth q r None) qs))
                end ;;
    do ps <- pick n zs ;;
    if (match refl1 with Some r => negb (Nat.eqb (length r) (length ps)) | None => false end) then Err ValueError else
    match kd_kernel K with
    | None => Err ValueError
    | Some kern =>
        do qs <- pick (k_ndim kern) zs ;;
        do f <- kernel_density kern pdim (length ps) (map (select ps) (kd_data K)) (kd_weights K) refl1 (Some qs) ;;
        Ok (if prob then fun x => f x / (match kd_weights K with None => INR (length (kd_data K)) | Some w => lsum w end) else f)
    end in
  match pf with
  | PfNone => kde_density K prob pdim refl PNone
  | PfOne z => if Nat.eqb n 1 then (if Z.eqb z 0 then kde_density K prob pdim refl PNone else Err ValueError) else several [z]
  | PfNums zs => if Nat.eqb n 1 then Err ValueError else several zs
  end.
