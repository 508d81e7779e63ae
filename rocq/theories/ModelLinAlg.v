(** Linear algebra used by kalepy: matrix inverse, determinant and Cholesky factor for matrices of
    any size.  A matrix is a function of two indices, only the entries below the size matter. *)
From Verif Require Import Base.

Definition pt := nat -> R.          (* one point / vector: coordinate -> value *)
Definition mat := nat -> nat -> R.  (* row -> column -> value *)

(** Schur complement of the last diagonal entry: one step of Gaussian elimination. *)
Definition schur (m : nat) (M : mat) : mat := fun i j => M i j - M i m * M m j / M m m.

(** [numpy.linalg.det], used at kalepy/kernels.py:75 and 389-390.
    Simplification: elimination without pivoting, starting from the last index.  It equals the
    determinant whenever no zero pivot is met, in particular for every positive definite matrix;
    the callers only reach a value computed from it when [minv] below succeeded (no zero pivot). *)
Fixpoint mdet (n : nat) (M : mat) : R :=
  match n with
  | O => 1
  | S m => M m m * mdet m (schur m M)
  end.

(** Inverse of the bordered matrix from the inverse [N] of the Schur complement. *)
Definition border_inv (m : nat) (M N : mat) : mat := fun i j =>
  let c := M m m in
  let col := - rsum m (fun k => N i k * M k m) / c in
  let row := - rsum m (fun k => M m k * N k j) / c in
  let corner := 1 / c + rsum m (fun a => M m a * rsum m (fun b => N a b * M b m)) / (c * c) in
  if Nat.ltb i m then
    (if Nat.ltb j m then N i j else if Nat.eqb j m then col else 0)
  else if Nat.eqb i m then
    (if Nat.ltb j m then row else if Nat.eqb j m then corner else 0)
  else 0.

(** kalepy/utils.py:312-320 [matrix_invert] ([numpy.linalg.inv], falling back to [pinv]).
    [None] = some pivot vanished.  For a symmetric matrix this means that it is not positive
    definite, and then neither its inverse nor its pseudo-inverse is, so that the only consumer
    (the Cholesky factorisation in kernels.py:101-104) raises LinAlgError in all these cases. *)
Fixpoint minv (n : nat) (M : mat) : option mat :=
  match n with
  | O => Some (fun _ _ => 0)
  | S m =>
      if Req_EM_T (M m m) 0 then None
      else match minv m (schur m M) with
           | None => None
           | Some N => Some (border_inv m M N)
           end
  end.

(** Forward substitution: solves U^T u = b for an upper triangular U. *)
Fixpoint fsub (n : nat) (U : mat) (b : pt) : pt :=
  match n with
  | O => fun _ => 0
  | S i =>
      let u := fsub i U b in
      fun k => if Nat.eqb k i then (b i - rsum i (fun l => U l i * u l)) / U i i else u k
  end.

(** [scipy.linalg.cholesky(A)] / [numpy.linalg.cholesky(A).T]: upper triangular U with U^T U = A,
    reading only the upper triangle of A; [None] = LinAlgError ("not positive definite").
    Used at kalepy/kernels.py:101-104 and (through [add_cov]/[rem_cov]) kalepy/utils.py:16-25,
    643-649. *)
Definition chol_col (m : nat) (U : mat) (u : pt) (d : R) : mat := fun i j =>
  if Nat.eqb j m then (if Nat.ltb i m then u i else if Nat.eqb i m then d else 0)
  else U i j.

Fixpoint chol (n : nat) (A : mat) : option mat :=
  match n with
  | O => Some (fun _ _ => 0)
  | S m =>
      match chol m A with
      | None => None
      | Some U =>
          let u := fsub m U (fun i => A i m) in
          let d2 := A m m - rsum m (fun k => u k * u k) in
          if Rlt_dec 0 d2 then Some (chol_col m U u (sqrt d2)) else None
      end
  end.

(** Matrix-vector product. *)
Definition mvec (n : nat) (A : mat) (x : pt) : pt := fun i => rsum n (fun j => A i j * x j).
