(** The methods of the distribution classes (kalepy/kernels.py) called directly, with arrays. *)
From Verif Require Import Base ModelLinAlg ModelKernels ModelKDE ModelUtils ModelNd ModelGrid ModelResample.
Open Scope R_scope.
Notation length := List.length.

(** kernels.py:415-417: np.atleast_2d of fewer than two axes. *)
Definition rows_of (a : nda) : nda :=
  match shp a with
  | [] => mkA [1%nat; 1%nat] (fun _ => at_ a [])
  | [n] => mkA [1%nat; n] (fun idx => at_ a (tl idx))
  | _ => a
  end.
(** The square of np.linalg.norm(a, axis=0). *)
Definition norm2_nd (a : nda) (idx : list nat) : R := rsum (hd 0%nat (shp a)) (fun k => at_ a (k :: idx) * at_ a (k :: idx)).
(** kernels.py:411-420 [_Distribution.evaluate]; the argument ndim is not used. *)
Definition evaluate_nd (d : dist) (a : nda) : nda :=
  let b := rows_of a in
  mkA (tl (shp b)) (fun idx => prof d (norm2_nd b idx) / dist_norm d (hd 0%nat (shp b))).
(** kernels.py:669-675 [_inside_unit_nball], 551-553, 588-590, 619-621 [inside], and 505-510 [Gaussian.inside], a static method with two arguments (called
    with one it is a TypeError).  For a vector the chain of comparisons takes the truth of an array: ValueError unless it has one entry (an
    empty one counts as false); np.linalg.norm of a number along an axis is a ValueError (AxisError). *)
Definition inside_nd (d : dist) (a : nda) : res (list nat * (list nat -> bool)) :=
  match d with
  | Gaussian => Err TypeError
  | _ => match shp a with
         | [] => Err ValueError
         | [n] => if Nat.ltb 1 n then Err ValueError
                  else Ok ([n], fun idx => andb (Rltb (-1) (at_ a idx)) (Rltb (at_ a idx) 1))
         | _ => Ok (tl (shp a), fun idx => Rltb (sqrt (norm2_nd a idx)) 1)
         end
  end.
(** kernels.py:461-469 [_Distribution.grid]: vectors of edges (np.vstack of no arrays is a ValueError). *)
Definition grid_nd (d : dist) (edges : list (list R)) : res nda :=
  match edges with
  | [] => Err ValueError
  | _ => Ok (reshape_nd (map (@length R) edges) (map (dist_evaluate d (length edges)) (mesh_columns edges)))
  end.
(** kernels.py:422-434 [_Distribution.sample]: the array of [_sample] has the shape (ndim, size); np.squeeze removes the axes of length one. *)
Definition sample_nd (d : dist) (size : nat) (ndim : option nat) (squeeze : option bool) (rn : nat -> rnd) : nda :=
  let n := match ndim with None => 1%nat | Some n => n end in
  let sq := match squeeze with None => Nat.eqb n 1 | Some b => b end in
  let full := fun i j => dist_sample d n (rn j) i in
  if negb sq then mkA [n; size] (fun idx => full (nth 0 idx 0%nat) (nth 1 idx 0%nat))
  else match Nat.eqb n 1, Nat.eqb size 1 with
       | true, true => mkA [] (fun _ => full 0%nat 0%nat)
       | true, false => mkA [size] (fun idx => full 0%nat (nth 0 idx 0%nat))
       | false, true => mkA [n] (fun idx => full (nth 0 idx 0%nat) 0%nat)
       | false, false => mkA [n; size] (fun idx => full (nth 0 idx 0%nat) (nth 1 idx 0%nat))
       end.
