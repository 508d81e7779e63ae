(** Warnings of the constructor about the kernel matrix (kalepy/kde.py). *)
From Verif Require Import Base ModelLinAlg ModelKernels ModelKDE ModelUtils.
Open Scope R_scope.

(** The messages: "All matrix elements are less than 1e-10" (603), "(log) Ratio of covariance elements ... exceeds tolerance" (614), "Recommend
    rescaling" (620).  The matrix printed before each (602, 613) is left out. *)
Inductive warning := AllSmall | RatioExceeds | Recommend.
(** kde.py:584: mat.diagonal(). *)
Definition diagonal_of (n : nat) (M : mat) : list R := map (fun i => M i i) (seq 0 n).
(** kde.py:587-589: the entries above the diagonal, then those below. *)
Definition off_diagonal (n : nat) (M : mat) : list R :=
  flat_map (fun i => map (M i) (seq (S i) (n - S i))) (seq 0 n) ++ flat_map (fun i => map (M i) (seq 0 i)) (seq 0 n).
(** np.isclose(x, 0.0): the absolute tolerance 1e-8. *)
Definition close_to_zero (x : R) : bool := Rleb (Rabs x) (/ 10 ^ 8).
(** kde.py:599-600: np.log10(np.fabs(v[v != 0.0])). *)
Definition log_sizes (l : list R) : list R := map (fun x => log10 (Rabs x)) (filter (fun x => negb (Reqb x 0)) l).
(** utils.minmax of a vector that is not empty (609-610). *)
Definition both_ends (l : list R) : list R := match l with [] => [] | x :: r => [vmin x r; vmax x r] end.
(** kde.py:577-623 [KDE._finalize]: the messages in order. *)
Definition finalize (n : nat) (M : mat) (log_ratio_tol : R) : list warning :=
  let diag := diagonal_of n M in
  let offd := off_diagonal n M in
  if forallb close_to_zero offd then [] else
  let d_vals := log_sizes diag in
  let o_vals := log_sizes offd in
  let w1 := if andb (forallb (fun v => Rleb v (-10)) d_vals) (forallb (fun v => Rleb v (-10)) o_vals) then [AllSmall] else [] in
  let d_vals := filter (fun v => Rltb (-20) v) d_vals in
  let o_vals := filter (fun v => Rltb (-20) v) o_vals in
  let w2 := if existsb (fun d => existsb (fun o => Rleb log_ratio_tol (Rabs (d - o))) (both_ends o_vals)) (both_ends d_vals) then [RatioExceeds] else [] in
  let w := w1 ++ w2 in
  match w with [] => [] | _ => w ++ [Recommend] end.
(** kde.py:270: the constructor, with the default tolerance.  A matrix that contains NaN (kd_kernel = None): no comparison with NaN holds, no message
    (simplification: then every entry is NaN, as for a single data point). *)
Definition kde_warnings (K : kde) : list warning :=
  match kd_kernel K with Some k => finalize (k_ndim k) (k_matrix k) 5 | None => [] end.
