(** Data of integer type.  numpy keeps the type of an array when elements are assigned: a floating point number written into an integer
    array loses its fraction (truncation towards zero).  Three places of kalepy assign into arrays with the type of the data. *)
From Coq Require Import ZArith.
From Verif Require Import Base ModelLinAlg ModelKernels ModelKDE ModelReflect ModelResample ModelUtils ModelSample.
Open Scope R_scope.

(** A number after it has been assigned to an element of an integer array (within the range of the type). *)
Definition put_int (x : R) : R := IZR (trunc_int x).

(* ------------------------------------------------------------ utils.minmax *)
(** utils.py:407-408: both ends assigned. *)
Definition put_both (put : R -> R) (r : R * R) : R * R := (put (fst r), put (snd r)).
(** utils.py:413-417 *)
Definition put_prev (put : R -> R) (prev : option opair) (r : R * R) : R * R :=
  match prev with
  | None => r
  | Some (pl, ph) =>
      (match pl with None => fst r | Some p => put (Rmin (fst r) p) end,
       match ph with None => snd r | Some p => put (Rmax (snd r) p) end)
  end.
(** utils.py:420-424 *)
Definition put_limit (put : R -> R) (limit : option opair) (r : R * R) : R * R :=
  match limit with
  | None => r
  | Some (ll, lh) =>
      (match ll with None => fst r | Some p => put (Rmax (fst r) p) end,
       match lh with None => snd r | Some p => put (Rmin (snd r) p) end)
  end.
(** utils.py:374-426 [minmax] for an array of integers; with [log_stretch] the array of the result is a floating point one (line 402, 410).
    Simplifications as for [ModelUtils.minmax]. *)
Definition minmax_int (data : list Z) (positive : bool) (prev : option opair) (stretch log_stretch : stretch_arg)
    (limit : option opair) : res (option opair) :=
  match map IZR data with
  | [] => Ok prev
  | l =>
      match (if positive then filter (fun x => Rltb 0 x) l else l) with
      | [] => Err ValueError
      | x :: rest =>
          let r0 := (vmin x rest, vmax x rest) in
          do r1 <-
            match stretch, log_stretch with
            | StNone, StNone => Ok (put_int, r0)
            | s, StNone => do f <- stretch_pair s ;; Ok (put_int, put_both put_int (stretch_range f r0))
            | StNone, s => do f <- stretch_pair s ;;
                let r := stretch_range f (log10 (fst r0), log10 (snd r0)) in Ok ((fun v => v), (pow10 (fst r), pow10 (snd r)))
            | _, _ => Err ValueError
            end ;;
          let put := fst r1 in
          let r2 := put_limit put limit (put_prev put prev (snd r1)) in
          Ok (Some (Some (fst r2), Some (snd r2)))
      end
  end.

(* ------------------------------------------------------------ reflection *)
(** kernels.py:127 for an integer array: the mirrored coordinate is assigned. *)
Definition mirror_int (ii : nat) (loc : R) (d : pt) : pt :=
  fun k => if Nat.eqb k ii then put_int (2 * loc - d k) else d k.

(** kernels.py:117-133 as in [ModelKernels.reflect_loop], with the mirror image as a parameter. *)
Fixpoint reflect_loop_by (mir : nat -> R -> pt -> pt) (ev : list (pt * R) -> R) (wdata : list (pt * R)) (x : pt)
    (ii : nat) (refl : reflspec) (acc : R) : R :=
  match refl with
  | [] => acc
  | None :: rest => reflect_loop_by mir ev wdata x (S ii) rest acc
  | Some b :: rest =>
      let img := fun loc => ev (map (fun dw => (mir ii loc (fst dw), snd dw)) wdata) in
      let acc1 := acc + opt_term img (fst b) in
      let acc2 := acc1 + opt_term img (snd b) in
      let acc3 := if outside b (x ii) then 0 else acc2 in
      reflect_loop_by mir ev wdata x (S ii) rest acc3
  end.
(** kernels.py:52-136 [Kernel.density] as in [ModelKernels.kernel_density], with the mirror image as a parameter. *)
Definition kernel_density_by (mir : nat -> R -> pt -> pt) (K : kernel) (pdim ddim : nat) (data : list pt)
    (weights : option (list R)) (reflect : option reflspec) (params : option (list nat)) : res (pt -> R) :=
  do sel <- match params with
            | None => Ok (k_ndim K, k_matrix K)
            | Some ps =>
                if forallb (fun p => Nat.ltb p (k_ndim K)) ps then
                  if Nat.eqb pdim (length ps) then Ok (length ps, submat ps (k_matrix K))
                  else Err ValueError
                else Err IndexError
            end ;;
  let n := fst sel in
  let M := snd sel in
  if negb (Nat.eqb pdim ddim) then Err ValueError else
  do w <- match weights with
          | None => Ok (map (fun _ => 1) data)
          | Some w => if Nat.eqb (length w) (length data) then Ok w else Err AttributeError
          end ;;
  let norm := sqrt (Rabs (mdet n M)) * dist_norm (k_dist K) pdim in
  match minv n M with
  | None => Err LinAlgError
  | Some Mi =>
      match chol n Mi with
      | None => Err LinAlgError
      | Some W =>
          let wdata := combine data w in
          let ev := fun wd x => eval_numba n W (prof (k_dist K)) wd x in
          match reflect with
          | None => Ok (fun x => ev wdata x / norm)
          | Some refl =>
              if negb (Nat.eqb (length refl) ddim) then Err ValueError
              else Ok (fun x => reflect_loop_by mir (fun wd => ev wd x) wdata x 0 refl (ev wdata x) / norm)
          end
      end
  end.
(** kde.py:328-412 [KDE.density] for a KDE whose dataset is an integer array (its coordinates are whole numbers): as
    [ModelKDE.kde_density], with the images of integer type. *)
Definition kde_density_int (K : kde) (prob : bool) (pdim : nat) (refl : option reflspec) (p : parg) : res (pt -> R) :=
  do ops <- resolve_params K p ;;
  let data := match ops with None => kd_data K | Some ps => map (select ps) (kd_data K) end in
  let ddim := match ops with None => kd_ndim K | Some ps => List.length ps end in
  let refl1 :=
    match refl with
    | Some r => Some r
    | None =>
        match kd_reflect K, ops with
        | None, _ => None
        | Some r, None => Some r
        | Some r, Some ps => Some (map (fun q => nth q r None) ps)
        end
    end in
  if (match refl1 with Some r => negb (Nat.eqb (List.length r) ddim) | None => false end)
  then Err ValueError else
  match kd_kernel K with
  | None => Err ValueError
  | Some kern =>
      do f <- kernel_density_by mirror_int kern pdim ddim data (kd_weights K) refl1 ops ;;
      Ok (if prob then
            fun x => f x / (match kd_weights K with
                            | None => INR (List.length (kd_data K))
                            | Some w => lsum w
                            end)
          else f)
  end.

(** kernels.py:290-326 [_reflect_data] for an integer array (line 316). *)
Definition mirrors_int (ii : nat) (ob : option bnd) (data : list pt) : list pt :=
  match ob with
  | None => []
  | Some b =>
      (match fst b with None => [] | Some lo => map (mirror_int ii lo) data end)
      ++ (match snd b with None => [] | Some hi => map (mirror_int ii hi) data end)
  end.
Fixpoint all_mirrors_int (ii : nat) (refl : reflspec) (data : list pt) : list pt :=
  match refl with
  | [] => []
  | ob :: rest => mirrors_int ii ob data ++ all_mirrors_int (S ii) rest data
  end.
Definition reflect_data_int (data : list pt) (w : option (list R)) (refl : reflspec) : list pt * option (list R) :=
  (data ++ all_mirrors_int 0 refl data,
   match w with None => None | Some w => Some (normalise (w ++ repeat_list (copies refl) w)) end).
(** kernels.py:219-227: the data among which [_resample_reflect] draws, and their weights. *)
Definition drawn_from (data : list pt) (w : option (list R)) (refl : reflspec) : list pt * option (list R) :=
  let rd := reflect_data data w refl in truncate (fst rd) (snd rd) refl.
Definition drawn_from_int (data : list pt) (w : option (list R)) (refl : reflspec) : list pt * option (list R) :=
  let rd := reflect_data_int data w refl in truncate (fst rd) (snd rd) refl.
