(** Property C121: warnings of the constructor. *)
From Verif Require Import Base ModelLinAlg ModelKernels ModelKDE ModelUtils ModelWarn ProofWarn.
Open Scope R_scope.
Notation length := List.length.

(** * C121 *)
(** Either no message, or the one about the ratio followed by the recommendation. *)
Theorem C121_cases : forall K, kde_warnings K = [] \/ kde_warnings K = [RatioExceeds; Recommend].
Proof. exact warnings_cases. Qed.
Print Assumptions C121_cases.

(** The message about small elements is never logged, whatever the matrix and the tolerance. *)
Theorem C121_never_small : forall n M t, ~ In AllSmall (finalize n M t).
Proof. exact never_small. Qed.
Print Assumptions C121_never_small.

(** The matrix is that of the kernel, the tolerance five orders of magnitude. *)
Theorem C121_matrix : forall K k, kd_kernel K = Some k -> kde_warnings K = finalize (k_ndim k) (k_matrix k) 5.
Proof. exact kde_warns. Qed.
Print Assumptions C121_matrix.

(** When there are messages. *)
Theorem C121_iff : forall n M, finalize n M 5 <> [] <->
  (exists i j, (i < n)%nat /\ (j < n)%nat /\ i <> j /\ / 10 ^ 8 < Rabs (M i j))
  /\ exists i j k, (i < n)%nat /\ (j < n)%nat /\ (k < n)%nat /\ j <> k /\ / 10 ^ 20 < Rabs (M i i) /\ / 10 ^ 20 < Rabs (M j k)
     /\ (10 ^ 5 * Rabs (M j k) <= Rabs (M i i) \/ 10 ^ 5 * Rabs (M i i) <= Rabs (M j k)).
Proof. exact warns_iff. Qed.
Print Assumptions C121_iff.

(** No correlation: no message, however different the scales. *)
Theorem C121_uncorrelated : forall n M, (forall i j, (i < n)%nat -> (j < n)%nat -> i <> j -> Rabs (M i j) <= / 10 ^ 8) -> finalize n M 5 = [].
Proof. exact uncorrelated_silent. Qed.
Print Assumptions C121_uncorrelated.

(** A single data point (matrix of nan): no message. *)
Theorem C121_single : forall n (p : pt) b diag resc d refl K, kde_init n [p] WNone b diag resc d None None refl = Ok K -> kde_warnings K = [].
Proof. exact single_silent. Qed.
Print Assumptions C121_single.

(** The messages depend on the units of the data, though the ratios of the elements do not. *)
Theorem C121_units_refuted : exists n data c K K', 0 < c
  /\ kde_init n data WNone (BwAtom (BNum 1)) false None Gaussian None None None = Ok K
  /\ kde_init n (map (fun (d : pt) i => c * d i) data) WNone (BwAtom (BNum 1)) false None Gaussian None None None = Ok K'
  /\ kde_warnings K <> [] /\ kde_warnings K' = [].
Proof. exact units_refuted. Qed.
Print Assumptions C121_units_refuted.

Example C121_example : let M := fun i j : nat => if Nat.eqb i j then if Nat.eqb i 0 then 10 ^ 6 else 1 else / 100 in finalize 2 M 5 = [RatioExceeds; Recommend].
Proof.
  cbv zeta. set (M := fun i j : nat => _). assert (H : finalize 2 M 5 <> []).
  { apply C121_iff. split; [exists 0%nat, 1%nat; repeat split; [lia|lia|discriminate|]|exists 0%nat, 0%nat, 1%nat; repeat split; try lia]; unfold M; cbn [Nat.eqb].
    - rewrite Rabs_right; lra.
    - rewrite Rabs_right; lra.
    - rewrite Rabs_right; lra.
    - left. rewrite !Rabs_right; lra. }
  destruct (finalize_cases 2 M 5) as [E|E]; [contradiction|exact E].
Qed.

