(** Properties C112 and C113: mean and covariance of the density. *)
From Coq Require Import String.
From Verif Require Import Base ModelLinAlg SpecLinAlg SpecIntegral ModelKernels ModelKDE SpecKDE SpecMoments ProofExamples ProofTop2 ProofTop3 ProofMoments.
Open Scope R_scope.
Notation length := List.length.

(** * C112 *)
(** The mean of the density is the weighted mean of the data. *)
Theorem C112_mean : forall n data ws d M K (prob : bool) base i, (i < n)%nat -> built_kde n data ws d M None K ->
  exists f, kde_density K prob n None PNone = Ok f
    /\ is_tintN n (fun x => x i * f x) base (mass prob ws * data_mean data ws i).
Proof. exact density_mean. Qed.
Print Assumptions C112_mean.

Example C112_example : exists K M, built_kde 2 data2 [1; 1; 1] Box M None K /\ data_mean data2 [1; 1; 1] 0 = 1 / 3.
Proof.
  destruct (data2_built Box None) as [K [M [N [_ [HB _]]]]]. exists K, M. split; [exact HB|].
  unfold data_mean, data2, q00, q10, q01. cbn. field.
Qed.

(** * C113 *)
(** The covariance of the density is that of the weighted data plus a fixed multiple of the kernel matrix. *)
Theorem C113_covariance : forall n data ws d M K (prob : bool) base i j, (i < n)%nat -> (j < n)%nat -> built_kde n data ws d M None K ->
  exists f, kde_density K prob n None PNone = Ok f
    /\ is_tintN n (fun x => (x i - data_mean data ws i) * (x j - data_mean data ws j) * f x) base
         (mass prob ws * (data_cov data ws (data_mean data ws) i j + kernel_var d n * M i j)).
Proof. exact density_covariance. Qed.
Print Assumptions C113_covariance.

(** With automatic covariance, and automatic bandwidth or one number: the covariance of the data multiplied by one number, larger than one. *)
Theorem C113_default : forall n data w ws b h d K (prob : bool) base i j, (i < n)%nat -> (j < n)%nat -> weights_given w data ws ->
  b = BwNone /\ h = Rpower (/ inv_neff ws) (- (1 / (INR n + 4))) \/ b = BwAtom (BNum h) /\ h <> 0 ->
  ~ degenerate n data ws ->
  kde_init n data w b false None d None None None = Ok K -> kd_kernel K <> None ->
  exists f, kde_density K prob n None PNone = Ok f
    /\ is_tintN n (fun x => (x i - data_mean data ws i) * (x j - data_mean data ws j) * f x) base
         (mass prob ws * (data_cov data ws (data_mean data ws) i j * (1 + kernel_var d n * (h * h) / (1 - inv_neff ws))))
    /\ inv_neff ws < 1.
Proof. exact default_covariance. Qed.
Print Assumptions C113_default.

(** The distributions by themselves: mean zero, no correlation, the stated variance. *)
Theorem C113_kernels : forall d n base i j, (i < n)%nat -> (j < n)%nat ->
  is_tintN n (fun x => x i * dist_evaluate d n x) base 0
  /\ is_tintN n (fun x => x i * x j * dist_evaluate d n x) base (if Nat.eqb i j then kernel_var d n else 0).
Proof. exact evaluate_moments. Qed.
Print Assumptions C113_kernels.

Example C113_example : exists K M, built_kde 2 data2 [1; 1; 1] Box M None K /\ kde_init 2 data2 WNone BwNone false None Box None None None = Ok K /\ kd_kernel K <> None
  /\ weights_given WNone data2 [1; 1; 1] /\ ~ degenerate 2 data2 [1; 1; 1]
  /\ inv_neff [1; 1; 1] = 1 / 3 /\ data_cov data2 [1; 1; 1] (data_mean data2 [1; 1; 1]) 0 1 = - (1 / 9) /\ kernel_var Box 2 = / 4.
Proof.
  destruct (data2_built Box None) as [K [M [N [HK [HB _]]]]]. exists K, M. split; [exact HB|]. split; [exact HK|].
  split; [destruct HB as [_ [Hk _]]; rewrite Hk; discriminate|]. split; [left; split; reflexivity|].
  split; [apply data2_nondeg; [reflexivity|intros v [<-|[<-|[<-|[]]]]; lra]|].
  split; [unfold inv_neff; cbn; field|]. split; [unfold data_cov, data_mean, data2, q00, q10, q01; cbn; field|]. unfold kernel_var. f_equal. cbn; ring.
Qed.

