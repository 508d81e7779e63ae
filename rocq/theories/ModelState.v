(** The lazily computed attributes of Kernel (matrix_inv, norm) and KDE (points, cdf function): calls as transitions of the object's state. *)
From Verif Require Import Base ModelLinAlg ModelKernels ModelKDE ModelExtrema ModelInterp ModelResample ModelUtils ModelNd ModelGrid.
Open Scope R_scope.
Notation length := List.length.

(* ------------------------------------------------------------ Kernel *)
(** kernels.py:48-49: [_matrix_inv] and [_norm] start as None.  The value of the inverse is what [minv] gives; for a singular matrix
    (utils.py:312-320) it is the pseudo-inverse, which is singular as well, written None here. *)
Record kcache := mkKC { kc_inv : option (option mat); kc_norm : option R }.
Definition kcache0 : kcache := mkKC None None.
(** kernels.py:378-385 [Kernel.matrix_inv]. *)
Definition get_inv (K : kernel) (st : kcache) : option mat * kcache :=
  match kc_inv st with
  | Some v => (v, st)
  | None => let v := minv (k_ndim K) (k_matrix K) in (v, mkKC (Some v) (kc_norm st))
  end.
(** kernels.py:387-391 [Kernel.norm]. *)
Definition get_norm (K : kernel) (st : kcache) : R * kcache :=
  match kc_norm st with
  | Some v => (v, st)
  | None => let v := sqrt (Rabs (mdet (k_ndim K) (k_matrix K))) in (v, mkKC (kc_inv st) (Some v))
  end.
(** kernels.py:52-136 [Kernel.density] with the cached attributes read at lines 63 and 66; with [params] both are replaced
    by those of the submatrix (75-76).  [norm *= ...] (99) rebinds the local name: the attribute is an immutable numpy scalar.
    Line 75 takes the root of the determinant without fabs; where the two differ the Cholesky decomposition fails. *)
Definition kernel_density_st (K : kernel) (st : kcache) (pdim ddim : nat) (data : list pt)
    (weights : option (list R)) (reflect : option reflspec) (params : option (list nat)) : res (pt -> R) * kcache :=
  let '(inv0, st1) := get_inv K st in
  let '(norm0, st2) := get_norm K st1 in
  (do sel <- match params with
             | None => Ok (k_ndim K, inv0, norm0)
             | Some ps =>
                 if forallb (fun p => Nat.ltb p (k_ndim K)) ps then
                   if Nat.eqb pdim (length ps) then
                     let M := submat ps (k_matrix K) in Ok (length ps, minv (length ps) M, sqrt (Rabs (mdet (length ps) M)))
                   else Err ValueError
                 else Err IndexError
             end ;;
   let '(n, inv, norm1) := sel in
   if negb (Nat.eqb pdim ddim) then Err ValueError else
   do w <- match weights with
           | None => Ok (map (fun _ => 1) data)
           | Some w => if Nat.eqb (length w) (length data) then Ok w else Err AttributeError
           end ;;
   let norm := norm1 * dist_norm (k_dist K) pdim in
   match inv with
   | None => Err LinAlgError
   | Some Mi =>
       match chol n Mi with
       | None => Err LinAlgError
       | Some W =>
           let wdata := combine data w in
           let ev := fun wd x => eval_numba n W (prof (k_dist K)) wd x in
           match reflect with
           | None => Ok (fun x => ev wdata x / norm)
           | Some refl =>
               if negb (Nat.eqb (length refl) ddim) then Err ValueError
               else Ok (fun x => reflect_loop (fun wd => ev wd x) wdata x 0 refl (ev wdata x) / norm)
           end
       end
   end, st2).

(* ------------------------------------------------------------ KDE *)
(** kde.py:187-188, 267-268: [_points] (a specification of edges, or the grid once computed), [_check_points_flag] and [_cdf_func]
    (grid and normalised cumulative masses; None for the masses: NaN everywhere). *)
Inductive pval := PSpec (e : edges_arg) | PGrid (g : list (list R)).
Record ostate := mkOS { os_kernel : kcache; os_points : pval; os_check : bool; os_cdf : option (list (list R) * option nda) }.
(** The unchanging part of the object: the values fixed in __init__, bandwidth matrix and extrema. *)
Record obj := mkObj { ob_kde : kde; ob_sorter : list (R * R) -> list (R * R); ob_bw : mat; ob_ext : list (R * R); ob_edges : edges_arg }.
Definition ostate0 (o : obj) : ostate := mkOS kcache0 (PSpec (ob_edges o)) true None.

(** kde.py:639-660 [KDE.points]. *)
Definition points_st (o : obj) (st : ostate) : res (list (list R)) * ostate :=
  match os_points st, os_check st with
  | PGrid g, false => (Ok g, st)
  | v, _ =>
      let e := match v with PSpec e => e | PGrid g => EdEach (map EdVec g) end in
      match kde_points (ob_sorter o) (ob_kde o) (ob_bw o) (ob_ext o) e with
      | Err x => (Err x, st)
      | Ok g => (Ok g, mkOS (os_kernel st) (PGrid g) false (os_cdf st))
      end
  end.
(** kde.py:325-399 [KDE.density] as in [kde_density], through the kernel's caches. *)
Definition density_st (o : obj) (st : ostate) (prob : bool) (pdim : nat) (refl : option reflspec) (p : parg) : res (pt -> R) * ostate :=
  let K := ob_kde o in
  match resolve_params K p with
  | Err x => (Err x, st)
  | Ok ops =>
      let data := match ops with None => kd_data K | Some ps => map (select ps) (kd_data K) end in
      let ddim := match ops with None => kd_ndim K | Some ps => length ps end in
      let refl1 :=
        match refl with
        | Some r => Some r
        | None =>
            match kd_reflect K, ops with
            | None, _ => None
            | Some r, None => Some r
            | Some r, Some ps => Some (map (fun q => nth q r None) ps)
            end
        end in
      if (match refl1 with Some r => negb (Nat.eqb (length r) ddim) | None => false end) then (Err ValueError, st) else
      match kd_kernel K with
      | None => (Err ValueError, st)
      | Some kern =>
          let '(r, kst) := kernel_density_st kern (os_kernel st) pdim ddim data (kd_weights K) refl1 ops in
          (do f <- r ;;
           Ok (if prob then
                 fun x => f x / (match kd_weights K with
                                 | None => INR (length (kd_data K))
                                 | Some w => lsum w
                                 end)
               else f), mkOS kst (os_points st) (os_check st) (os_cdf st))
      end
  end.
(** kde.py:486-529 [KDE.cdf] at one point: the interpolating function is built on the first call. *)
Definition cdf_apply (c : list (list R) * option nda) (x : list R) : flt :=
  match snd c with None => NaN | Some a => Fin (rgi (fst c) a x) end.
Definition cdf_st (o : obj) (st : ostate) (params_given reflect_given : bool) (x : list R) : res flt * ostate :=
  if params_given then (Err NotImplementedError, st) else
  if reflect_given then (Err NotImplementedError, st) else
  match os_cdf st with
  | Some c => (Ok (cdf_apply c x), st)
  | None =>
      let '(rg, st1) := points_st o st in
      match rg with
      | Err e => (Err e, st1)
      | Ok grid =>
          let '(rf, st2) := density_st o st1 true (length grid) None PNone in
          match (do f <- rf ;; cumtrapz (reshape_nd (map (@length R) grid) (map f (mesh_columns grid))) grid true None) with
          | Err e => (Err e, st2)
          | Ok c =>
              if negb (forallb ascending grid) then (Err ValueError, st2)
              else let fn := (grid, if Reqb (nd_max c) 0 then None else Some (map_nd (fun v => v / nd_max c) c)) in
                   (Ok (cdf_apply fn x), mkOS (os_kernel st2) (os_points st2) (os_check st2) (Some fn))
          end
      end
  end.

(** Calls and sequences of calls on one object. *)
Inductive call := CallPoints | CallDensity (prob : bool) (pdim : nat) (refl : option reflspec) (p : parg) | CallCdf (params_given reflect_given : bool) (x : list R).
Inductive answer := APoints (r : res (list (list R))) | ADensity (r : res (pt -> R)) | ACdf (r : res flt).
Definition step (o : obj) (st : ostate) (c : call) : answer * ostate :=
  match c with
  | CallPoints => let '(r, st') := points_st o st in (APoints r, st')
  | CallDensity prob pdim refl p => let '(r, st') := density_st o st prob pdim refl p in (ADensity r, st')
  | CallCdf pg rg x => let '(r, st') := cdf_st o st pg rg x in (ACdf r, st')
  end.
Fixpoint history (o : obj) (st : ostate) (cs : list call) : list answer :=
  match cs with
  | [] => []
  | c :: r => let '(a, st') := step o st c in a :: history o st' r
  end.

(** Calls of Kernel.density with the arguments of each call. *)
Definition kargs := (nat * nat * list pt * option (list R) * option reflspec * option (list nat))%type.
Definition kcall (K : kernel) (st : kcache) (a : kargs) : res (pt -> R) * kcache :=
  let '(pdim, ddim, data, w, refl, ps) := a in kernel_density_st K st pdim ddim data w refl ps.
Fixpoint khistory (K : kernel) (st : kcache) (l : list kargs) : list (res (pt -> R)) :=
  match l with [] => [] | a :: r => let '(v, st') := kcall K st a in v :: khistory K st' r end.
