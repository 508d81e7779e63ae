(** Specification vocabulary for KDE-level statements. *)
From Coq Require Import String.
From Verif Require Import Base ModelLinAlg SpecLinAlg ModelKernels ModelKDE.
Open Scope R_scope.
Notation length := List.length.

(** Two calls with related outcomes: both succeed with related results, or both raise the same
    exception. *)
Definition res_rel {A} (P : A -> A -> Prop) (x y : res A) : Prop :=
  match x, y with Ok a, Ok b => P a b | Err e, Err e' => e = e' | _, _ => False end.
Definition pt_rel (f g : pt -> R) : Prop := forall x, f x = g x.

(** Shift by [s] and multiplication by [c], per coordinate; the same for reflect bounds. *)
Definition aff (s c : nat -> R) (x : pt) : pt := fun i => s i + c i * x i.
Definition aff_bnd (s c : R) (b : bnd) : bnd :=
  (option_map (fun v => s + c * v) (fst b), option_map (fun v => s + c * v) (snd b)).
Fixpoint aff_refl (s c : nat -> R) (ii : nat) (r : reflspec) : reflspec :=
  match r with
  | [] => []
  | ob :: rest => option_map (aff_bnd (s ii) (c ii)) ob :: aff_refl s c (S ii) rest
  end.

(** Multiplying a floating point weight by a real constant. *)
Definition fscale (c : R) (x : flt) : flt := match x with Fin r => Fin (c * r) | o => o end.

(** A 1-D point. *)
Definition pt1 (t : R) : pt := fun _ => t.

(** Acceptable weight vectors. *)
Definition valid_weight (x : flt) : Prop := exists r, x = Fin r /\ 0 <= r.
Definition valid_weights (n : nat) (l : list flt) : Prop :=
  length l = n /\ (forall x, In x l -> valid_weight x) /\ exists x, In x l /\ x <> Fin 0.

(** Number of non-zero entries. *)
Definition nnz (l : list R) : nat := length (filter (fun x => negb (Reqb x 0)) l).

(** [ws] are the weights used for the argument [w]: ones if none are given. *)
Definition weights_given (w : warg) (data : list pt) (ws : list R) : Prop :=
  (w = WNone /\ ws = repeat 1 (length data)) \/ w = WArr (map Fin ws).

(** The data points of non-zero weight lie in one hyperplane [v . x = c]. *)
Definition degenerate (n : nat) (data : list pt) (ws : list R) : Prop :=
  exists v c, (exists i, (i < n)%nat /\ v i <> 0)
    /\ forall p w, In (p, w) (combine data ws) -> w <> 0 -> rsum n (fun i => v i * p i) = c.

(** Acceptable bandwidth arguments. *)
Definition bw_entry_ok (b : bw1) : Prop :=
  match b with BStr s => s = "scott"%string \/ s = "silverman"%string | BNum _ => True | BOther => False end.
Definition bw_ok (n : nat) (b : bwarg) : Prop :=
  match b with
  | BwNone => True
  | BwAtom a => bw_entry_ok a
  | BwSeq l => length l = n /\ n <> 1%nat /\ forall a, In a l -> bw_entry_ok a
  | BwMat isarr rows => isarr = true /\ length rows = n /\ n <> 1%nat /\ forall r, In r rows -> length r = n
  end.


(** [K] is the result of a successful construction from [data] with weights [ws], kernel
    distribution [d] and stored reflect bounds [refl], whatever the other arguments were, and its
    kernel matrix [M] is symmetric positive definite. *)
Definition built_kde (n : nat) (data : list pt) (ws : list R) (d : dist) (M : mat)
    (refl : option reflspec) (K : kde) : Prop :=
  (exists w b diag resc cova neffa, weights_given w data ws
     /\ kde_init n data w b diag resc d cova neffa refl = Ok K)
  /\ kd_kernel K = Some (mkKernel d n M) /\ symmetric n M /\ posdef n M.

(** Total mass of density (the weights) and of pdf (one). *)
Definition mass (prob : bool) (ws : list R) : R := if prob then 1 else lsum ws.
