(** Model of kalepy/sample.py.  Random draws are explicit arguments; np.argsort (whose order of equal
    entries is unspecified) is an argument.  Arrays have at least one dimension and hold numbers. *)
From Coq Require Import ZArith.
From Verif Require Import Base ModelLinAlg ModelKernels ModelKDE ModelInterp ModelResample ModelUtils ModelNd.
Open Scope R_scope.
Notation length := List.length.

(* ------------------------------------------------------------ numpy helpers *)
(** int(x): truncation towards zero. *)
Definition trunc_int (x : R) : Z := if Rleb 0 x then Int_part x else (- Int_part (- x))%Z.
(** np.around(x): to the nearest integer, halves to the even one. *)
Definition around (x : R) : Z :=
  let f := Int_part x in
  let d := x - IZR f in
  if Rltb d (1 / 2) then f else if Rltb (1 / 2) d then (f + 1)%Z
  else if Z.even f then f else (f + 1)%Z.
(** np.sort of a vector. *)
Fixpoint insert_val (x : R) (l : list R) : list R :=
  match l with
  | [] => [x]
  | y :: r => if Rleb x y then x :: l else y :: insert_val x r
  end.
Definition np_sort (l : list R) : list R := fold_right insert_val [] l.
(** np.searchsorted(l, u), side left, for sorted l. *)
Definition searchsorted (l : list R) (u : R) : nat := ssleft (vget l) u (length l) 0.
(** np.unravel_index (C order); ValueError out of range. *)
Fixpoint unravel (sh : list nat) (f : nat) : list nat :=
  match sh with
  | [] => []
  | _ :: r => Nat.div f (size_of_shape r) :: unravel r (Nat.modulo f (size_of_shape r))
  end.
Definition unravel_index (sh : list nat) (f : nat) : res (list nat) :=
  if Nat.ltb f (size_of_shape sh) then Ok (unravel sh f) else Err ValueError.
(** a.flat[f], and a[idx] with one entry per dimension; IndexError out of range. *)
Definition flat_get (a : nda) (f : nat) : res R :=
  match nth_error (flatten_nd a) f with Some v => Ok v | None => Err IndexError end.
Fixpoint inbb (sh idx : list nat) : bool :=
  match sh, idx with
  | [], [] => true
  | n :: sh', i :: idx' => andb (Nat.ltb i n) (inbb sh' idx')
  | _, _ => false
  end.
Definition nd_get (a : nda) (idx : list nat) : res R :=
  if inbb (shp a) idx then Ok (at_ a idx) else Err IndexError.
(** ndarray.squeeze(): drops the axes of length one. *)
Fixpoint unsqueeze (sh idx : list nat) : list nat :=
  match sh with
  | [] => []
  | n :: r => if Nat.eqb n 1 then 0%nat :: unsqueeze r idx
              else match idx with i :: idx' => i :: unsqueeze r idx' | [] => [] end
  end.
Definition squeeze_nd (a : nda) : nda :=
  mkA (filter (fun n => negb (Nat.eqb n 1)) (shp a)) (fun idx => at_ a (unsqueeze (shp a) idx)).
(** np.diff along an axis. *)
Definition diff_ax (k : nat) (a : nda) : nda :=
  mkA (set_nth k (nth k (shp a) 0 - 1)%nat (shp a))
      (fun idx => at_ a (set_nth k (S (nth k idx 0%nat)) idx) - at_ a idx).

(* ------------------------------------------------------------ module functions *)
(** sample.py:489-494 [_grad_along]. *)
Definition grad_along (a : nda) (dim : nat) : res nda :=
  midpoints (diff_ax dim a)
    (Some (map Z.of_nat (filter (fun k => negb (Nat.eqb k dim)) (seq 0 (length (shp a)))))).

(** sample.py:497-558 [_intrabin_linear_interp] for one sample: relative position in the bin.
    [None]: a gradient that is NaN, for which the comparison of line 530 is false. *)
Definition flat_tol : R := / 10 ^ 16.
Definition intrabin_pos (g : option R) (loc : R) : R :=
  match g with
  | None => loc
  | Some g =>
      if Rltb flat_tol (Rabs g)
      then let y1 := 1 - g / 2 in (sqrt (2 * loc * g + y1 ^ 2) - y1) / g
      else loc
  end.
Definition intrabin_interp (edge : list R) (loc : R) (b : nat) (g : option R) : R :=
  vget edge b + vget (diff edge) b * intrabin_pos g loc.

(** sample.py:561-584 [_data_to_cumulative], prefilter=False; [argsort] is np.argsort.
    Without bins line 582 raises IndexError. *)
Definition data_to_cumulative (argsort : list R -> list nat) (mass : nda) : res (list nat * list R) :=
  let m := flatten_nd mass in
  let idx := argsort m in
  let cs := cumsum1 (map (vget m) idx) in
  match m with
  | [] => Err IndexError
  | _ => let temp := if Reqb (last cs 0) 0 then 1 else last cs 0 in
         Ok (idx, 0 :: map (fun c => c / temp) cs)
  end.

(* ------------------------------------------------------------ Sample_Grid *)
(** Edges: a flat vector, or a list of vectors. *)
Inductive edges_arg := EFlat (e : list R) | EList (es : list (list R)).

Record sgrid := mkSG {
  g_edges : list (list R); g_dens : nda; g_mass : nda; g_bins : list nat;
  g_sdens : option nda; g_smass : option nda;
  g_idx : list nat; g_csum : list R }.

(** sample.py:80 [np.any(np.shape(mass) != np.array(shape_bins))]: a comparison with broadcasting; shapes
    that do not broadcast give ValueError, too. *)
Definition shape_differs (ms bins : list nat) : bool :=
  if Nat.eqb (length ms) (length bins) then existsb (fun p => negb (Nat.eqb (fst p) (snd p))) (combine ms bins)
  else match ms, bins with
       | [m], _ => existsb (fun b => negb (Nat.eqb m b)) bins
       | _, [b] => existsb (fun m => negb (Nat.eqb m b)) ms
       | _, _ => true
       end.

(** sample.py:51-82 the checks of [Sample_Grid.__init__], giving the list of edges.  A flat vector of
    edges for a density that is not one-dimensional is a list of zero-dimensional arrays: where
    that passes the checks, their len() raises TypeError. *)
Definition check_grid (edges : edges_arg) (dens : nda) (mass : option nda) : res (list (list R)) :=
  let ndim := length (shp dens) in
  do p <- match edges with
          | EFlat e => if Nat.eqb ndim 1 then Ok ([e], [length e]) else Ok (map (fun x => [x]) e, map (fun _ => 1%nat) e)
          | EList es => Ok (es, map (@length R) es)
          end ;;
  let es := fst p in
  if negb (Nat.eqb (length es) ndim) then Err ValueError
  else if negb (nats_eqb (snd p) (shp dens)) then Err ValueError
  else match mass with
       | Some m => if orb (existsb (Nat.eqb 0) (shp dens)) (shape_differs (shp m) (map (fun n => (n - 1)%nat) (shp dens)))
                   then Err ValueError else Ok es
       | None => match edges with EFlat _ => if Nat.eqb ndim 1 then Ok es else Err TypeError | EList _ => Ok es end
       end.

(** sample.py:84-108 [__init__] and [_init_data]; [pick]: the masses that are accumulated (all of them
    here, those of the outliers in Sample_Outliers). *)
Definition make_grid (argsort : list R -> list nat) (pick : nda -> nda)
    (edges : edges_arg) (dens : nda) (mass sdens smass : option nda) : res sgrid :=
  do es <- check_grid edges dens mass ;;
  do m <- match mass with Some m => Ok m | None => trapz_dens_to_mass dens es None end ;;
  do sm <- match smass, sdens with
           | None, Some sd => do r <- trapz_dens_to_mass sd es None ;; Ok (Some r)
           | _, _ => Ok smass
           end ;;
  do ic <- data_to_cumulative argsort (pick m) ;;
  Ok (mkSG es dens m (map (fun n => (n - 1)%nat) (shp dens)) sdens sm (fst ic) (snd ic)).
Definition Sample_Grid (argsort : list R -> list nat) (edges : edges_arg) (dens : nda) (mass sdens smass : option nda) : res sgrid :=
  make_grid argsort (fun m => m) edges dens mass sdens smass.

(** sample.py:236-242 one entry of [idx[np.searchsorted(csum, rand) - 1]]: index -1 is the last entry. *)
Definition random_bin (idx : list nat) (csum : list R) (u : R) : res nat :=
  match searchsorted csum u with
  | O => match idx with [] => Err IndexError | _ => Ok (last idx 0%nat) end
  | S k => match nth_error idx k with Some b => Ok b | None => Err IndexError end
  end.

(** sample.py:133-137: the gradients of the densities divided by their mean; with mean zero the densities are NaN (0/0, if they are
    all zero; a mean zero of densities of both signs is not modelled). *)
Definition mean_nd (a : nda) : R := asum (shp a) (at_ a) / INR (size_of_shape (shp a)).
Definition norm_grads (dens : nda) (dim : nat) (flats : list nat) : res (list (option R)) :=
  let mu := mean_nd dens in
  if Reqb mu 0 then Ok (map (fun _ => None) flats)
  else do g <- grad_along (map_nd (fun v => v / mu) dens) dim ;;
       mapM (fun f => do v <- flat_get g f ;; Ok (Some v)) flats.

Definition scalar_grads (sdens : nda) (dim : nat) (flats : list nat) : res (list R) :=
  do g <- grad_along sdens dim ;; mapM (flat_get g) flats.

(** sample.py:110-201 [Sample_Grid.sample]; [rand]: row 0 for the bins, row 1+d for the positions
    along dimension d.  Result: the (D, N) array, and the scalar values if returned.
    np.random.uniform raises ValueError for a negative number of samples. *)
Definition sg_sample (G : sgrid) (nsamp : option R) (interpolate : bool) (return_scalar : option bool)
    (rand : nat -> nat -> R) : res (nda * option (list R)) :=
  let D := length (g_edges G) in
  let z := trunc_int (match nsamp with Some r => r | None => asum (shp (g_mass G)) (at_ (g_mass G)) end) in
  let rs := match g_sdens G, return_scalar with
            | None, _ => false | Some _, None => true | Some _, Some b => b end in
  if Z.ltb z 0 then Err ValueError else
  let n := Z.to_nat z in
  do flats <- mapM (random_bin (g_idx G) (g_csum G)) (np_sort (map (rand 0%nat) (seq 0 n))) ;;
  do bins <- mapM (unravel_index (g_bins G)) flats ;;
  do sv <- (if rs then match g_smass G with
                       | Some sm => mapM (nd_get sm) bins
                       | None => Ok [] end
            else Ok []) ;;
  do grads <- (if interpolate then mapM (fun d => norm_grads (g_dens G) d flats) (seq 0 D) else Ok []) ;;
  do sgrads <- (if andb rs interpolate
                then match g_sdens G with Some sd => mapM (fun d => scalar_grads sd d flats) (seq 0 D) | None => Ok [] end
                else Ok []) ;;
  let vals := mkA [D; n] (fun dj =>
       let d := nth 0 dj 0%nat in let j := nth 1 dj 0%nat in
       let e := nth d (g_edges G) [] in let b := nth d (nth j bins []) 0%nat in let loc := rand (S d) j in
       if interpolate then intrabin_interp e loc b (nth j (nth d grads []) None)
       else vget e b + vget (diff e) b * loc) in
  let scal := map (fun j => vget sv j + (if interpolate
                     then rsum D (fun d => vget (nth d sgrads []) j * (rand (S d) j - 1 / 2)) else 0)) (seq 0 n) in
  Ok (vals, if rs then Some scal else None).

(** sample.py:402-438 [sample_grid]: squeezing the tuple of samples and scalars raises AttributeError. *)
Definition sample_grid (argsort : list R -> list nat) (edges : edges_arg) (dens : nda) (nsamp : option R)
    (mass sdens smass : option nda) (squeeze : option bool)
    (interpolate : bool) (return_scalar : option bool) (rand : nat -> nat -> R) : res (nda * option (list R)) :=
  let sq := match squeeze with None => Nat.eqb (length (shp dens)) 1 | Some b => b end in
  do G <- Sample_Grid argsort edges dens mass sdens smass ;;
  do r <- sg_sample G nsamp interpolate return_scalar rand ;;
  if sq then match snd r with None => Ok (squeeze_nd (fst r), None) | Some _ => Err AttributeError end
  else Ok r.

(** sample.py:441-447 [sample_grid_proportional], arrays of equal shapes; the argument [mass] is not used. *)
Definition sample_grid_proportional (argsort : list R -> list nat) (edges : edges_arg) (dens portion : nda)
    (nsamp : option R) (interpolate : bool) (rand : nat -> nat -> R) : res (nda * option (list R)) :=
  let sd := mkA (shp portion) (fun idx => if Reqb (at_ portion idx) 0 then 0 else at_ dens idx / at_ portion idx) in
  do G <- Sample_Grid argsort edges portion None (Some sd) None ;;
  sg_sample G nsamp interpolate None rand.

(* ------------------------------------------------------------ Sample_Outliers *)
Definition outs_of (threshold : R) (m : nda) : nda := map_nd (fun v => if Rltb threshold v then 0 else v) m.
Definition ins_of (threshold : R) (m : nda) : nda := map_nd (fun v => if Rltb threshold v then v else 0) m.
(** sample.py:274-318 [Sample_Outliers.__init__]: the cumulative masses are those of the bins at or below the threshold. *)
Definition Sample_Outliers (argsort : list R -> list nat) (edges : edges_arg) (dens : nda) (threshold : R)
    (mass sdens smass : option nda) : res sgrid :=
  make_grid argsort (outs_of threshold) edges dens mass sdens smass.

(** [return_scalar] as a keyword of [Sample_Outliers.sample]: not given, or given. *)
Inductive rs_arg := RsAbsent | RsNone | RsBool (b : bool).
(** sample.py:320-399 [Sample_Outliers.sample] (masses not negative, with as many dimensions as the grid); [pin]: the Poisson draws of the interior
    bins if poisson_inside, [pout]: the Poisson draw of the number of outliers if poisson_outside.
    Result: number of samples, positions, weights. *)
Definition so_sample (G : sgrid) (threshold : R) (pin : option (nat -> nat)) (pout : option nat)
    (interpolate : bool) (return_scalar : rs_arg) (rand : nat -> nat -> R) : res (Z * nda * list R) :=
  match return_scalar with
  | RsNone | RsBool true => Err ValueError
  | _ =>
    let D := length (g_edges G) in
    let m_ins := ins_of threshold (g_mass G) in
    let m_outs := outs_of threshold (g_mass G) in
    let fl := flatten_nd m_ins in
    let nout := match pout with Some k => Z.of_nat k | None => around (asum (shp m_outs) (at_ m_outs)) end in
    let inn := filter (fun f => Rltb 0 (vget fl f)) (seq 0 (length fl)) in
    let nins := length inn in
    do bins <- mapM (unravel_index (g_bins G)) inn ;;
    do w0 <- mapM (nd_get m_ins) bins ;;
    let w := match pin with Some p => map (fun j => INR (p j)) (seq 0 nins) | None => w0 end in
    let com dj := at_ (centroids (g_edges G) (g_dens G) (nth 0 dj 0%nat)) (nth (nth 1 dj 0%nat) bins []) in
    if Z.ltb 0 nout then
      do r <- sg_sample G (Some (IZR nout)) interpolate (Some false) rand ;;
      Ok ((Z.of_nat nins + nout)%Z,
          mkA [D; (nins + Z.to_nat nout)%nat] (fun dj => if Nat.ltb (nth 1 dj 0%nat) nins then com dj
                                     else at_ (fst r) [nth 0 dj 0%nat; (nth 1 dj 0 - nins)%nat]),
          w ++ repeat 1 (Z.to_nat nout))
    else Ok ((Z.of_nat nins + nout)%Z, mkA [D; nins] com, w)
  end.

(** sample.py:450-486 [sample_outliers]. *)
Definition sample_outliers (argsort : list R -> list nat) (edges : edges_arg) (dens : nda) (threshold : R) (nsamp : option R)
    (mass : option nda) (pin : option (nat -> nat)) (pout : option nat) (interpolate : bool) (return_scalar : rs_arg)
    (rand : nat -> nat -> R) : res (nda * list R) :=
  do G <- Sample_Outliers argsort edges dens threshold mass None None ;;
  match nsamp with
  | Some _ => Err ValueError
  | None =>
      do r <- so_sample G threshold pin pout interpolate return_scalar rand ;;
      Ok (if Nat.eqb (length (shp dens)) 1 then squeeze_nd (snd (fst r)) else snd (fst r), snd r)
  end.
