(** Property C111: rescaled bandwidths. *)
From Coq Require Import String.
From Verif Require Import Base ModelLinAlg SpecLinAlg SpecIntegral ModelKernels ModelKDE SpecKDE ModelRescale SpecRescale ProofRescale.
Open Scope R_scope.
Notation length := List.length.

(** * C111 *)
(** A number: the same KDE as with the bandwidth multiplied by it. *)
Theorem C111_number : forall n data w b b' diag s d cova neffa refl, times_number s b b' ->
  kde_rescaled n data w b diag (RsNum s) d cova neffa refl = kde_rescaled n data w b' diag RsNone d cova neffa refl.
Proof. exact rescale_number. Qed.
Print Assumptions C111_number.

(** The same for the constructor as used by all other properties. *)
Theorem C111_number_init : forall n data w b b' diag s d cova neffa refl, times_number s b b' ->
  kde_init n data w b diag (Some s) d cova neffa refl = kde_init n data w b' diag None d cova neffa refl.
Proof. exact rescale_number_init. Qed.
Print Assumptions C111_number_init.

(** A number, every bandwidth (also the automatic ones): the kernel matrix is multiplied by its square, nothing else changes. *)
Theorem C111_square : forall n data w b diag s d cova neffa refl K0 M, kde_rescaled n data w b diag RsNone d cova neffa refl = Ok K0 -> kd_kernel K0 = Some (mkKernel d n M) ->
  exists K M', kde_rescaled n data w b diag (RsNum s) d cova neffa refl = Ok K /\ kd_kernel K = Some (mkKernel d n M') /\ (forall i j, M' i j = s * s * M i j)
  /\ kd_data K = kd_data K0 /\ kd_weights K = kd_weights K0 /\ kd_neff K = kd_neff K0.
Proof. exact rescale_square. Qed.
Print Assumptions C111_square.

(** A vector, with a bandwidth for each parameter or diagonal=True: the same KDE as with every bandwidth multiplied by its number. *)
Theorem C111_vector : forall n data w b b' diag l d cova neffa refl, (2 <= n)%nat -> length l = n -> times_each n l b diag b' ->
  kde_rescaled n data w b diag (RsVec l) d cova neffa refl = kde_rescaled n data w b' diag RsNone d cova neffa refl.
Proof. exact rescale_vector. Qed.
Print Assumptions C111_vector.

(** A vector of another length than the number of parameters. *)
Theorem C111_length : forall n data w b diag l d cova neffa refl K0, (2 <= n)%nat -> length l <> 1%nat -> length l <> n ->
  kde_rescaled n data w b diag RsNone d cova neffa refl = Ok K0 -> kde_rescaled n data w b diag (RsVec l) d cova neffa refl = Err ValueError.
Proof. exact rescale_wrong_length. Qed.
Print Assumptions C111_length.

(** A vector in general: it multiplies the columns of the kernel matrix, not its rows. *)
Theorem C111_columns : forall n data w b diag l d cova neffa refl K0 M, (2 <= n)%nat -> length l = n -> kde_rescaled n data w b diag RsNone d cova neffa refl = Ok K0 -> kd_kernel K0 = Some (mkKernel d n M) ->
  exists K M', kde_rescaled n data w b diag (RsVec l) d cova neffa refl = Ok K /\ kd_kernel K = Some (mkKernel d n M') /\ (forall i j, M' i j = M i j * (nth j l 0 * nth j l 0))
  /\ kd_ndim K = kd_ndim K0 /\ kd_data K = kd_data K0 /\ kd_weights K = kd_weights K0 /\ kd_reflect K = kd_reflect K0.
Proof. exact rescale_columns. Qed.
Print Assumptions C111_columns.

(** An array of two dimensions: accepted exactly if each dimension is 1 or the number of parameters, otherwise ValueError; entry by entry, repeated along a dimension of length 1. *)
Theorem C111_array : forall n data w b diag rows c d cova neffa refl K0 M, (2 <= n)%nat -> (forall row, In row rows -> length row = c) -> rows <> [] ->
  kde_rescaled n data w b diag RsNone d cova neffa refl = Ok K0 -> kd_kernel K0 = Some (mkKernel d n M) ->
  ((length rows = 1%nat \/ length rows = n) /\ (c = 1%nat \/ c = n) ->
    exists K M', kde_rescaled n data w b diag (RsMat rows) d cova neffa refl = Ok K /\ kd_kernel K = Some (mkKernel d n M')
    /\ (forall i j, (i < n)%nat -> (j < n)%nat -> let e := nth (j mod c) (nth (i mod length rows) rows []) 0 in M' i j = M i j * (e * e))
    /\ kd_ndim K = kd_ndim K0 /\ kd_data K = kd_data K0 /\ kd_weights K = kd_weights K0 /\ kd_reflect K = kd_reflect K0)
  /\ (~ ((length rows = 1%nat \/ length rows = n) /\ (c = 1%nat \/ c = n)) -> kde_rescaled n data w b diag (RsMat rows) d cova neffa refl = Err ValueError).
Proof. exact rescale_array. Qed.
Print Assumptions C111_array.

(** Two parameters: total of the density with a vector (p, q), and LinAlgError if the correlation is larger than p / q. The total is one only without correlation or if p and q agree up to sign. *)
Theorem C111_total : forall data w ws b diag p q d cova neffa M K0 (prob : bool) base, p <> 0 -> q <> 0 -> weights_given w data ws ->
  kde_rescaled 2 data w b diag RsNone d cova neffa None = Ok K0 -> kd_kernel K0 = Some (mkKernel d 2 M) -> symmetric 2 M -> posdef 2 M ->
  exists K, kde_rescaled 2 data w b diag (RsVec [p; q]) d cova neffa None = Ok K
  /\ (M O 1%nat * M O 1%nat * (q * q) < M O O * M 1%nat 1%nat * (p * p) -> exists f, kde_density K prob 2 None PNone = Ok f
      /\ is_tintN 2 f base (mass prob ws * sqrt ((M O O * M 1%nat 1%nat - M O 1%nat * M O 1%nat) / (M O O * M 1%nat 1%nat - M O 1%nat * M O 1%nat * (q * q / (p * p))))))
  /\ (M O O * M 1%nat 1%nat * (p * p) <= M O 1%nat * M O 1%nat * (q * q) -> kde_density K prob 2 None PNone = Err LinAlgError).
Proof. exact pair_total. Qed.
Print Assumptions C111_total.

(** The density is not normalised. *)
Theorem C111_vector_refuted : exists data w b d cova neffa K0 M f0 base, kde_rescaled 2 data w b false RsNone d cova neffa None = Ok K0 /\ kd_kernel K0 = Some (mkKernel d 2 M) /\ symmetric 2 M /\ posdef 2 M
  /\ kde_pdf K0 2 None PNone = Ok f0 /\ is_tintN 2 f0 base 1
  /\ (exists K f v, kde_rescaled 2 data w b false (RsVec [1; 3 / 2]) d cova neffa None = Ok K /\ kde_pdf K 2 None PNone = Ok f /\ is_tintN 2 f base v /\ 1 < v)
  /\ (exists K, kde_rescaled 2 data w b false (RsVec [1; 3]) d cova neffa None = Ok K /\ kde_pdf K 2 None PNone = Err LinAlgError).
Proof. exact rescale_vector_refuted. Qed.
Print Assumptions C111_vector_refuted.

Example C111_array_example : exists K M, kde_rescaled 2 [fun _ => 0] WNone (BwAtom (BNum 1)) false RsNone Gaussian (Some half_corr) (Some 1) None = Ok K /\ kd_kernel K = Some (mkKernel Gaussian 2 M)
  /\ (forall row : list R, In row [[2]; [3]] -> length row = 1%nat).
Proof. exists half_kde, half_corr. split; [exact half_kde_init|]. split; [reflexivity|]. intros row [<-|[<-|[]]]; reflexivity. Qed.

Example C111_example : times_number 2 (BwAtom (BNum 3)) (BwAtom (BNum (2 * 3))) /\ times_each 2 [2; 5] (BwAtom (BNum 3)) true (BwSeq [BNum (2 * 3); BNum (5 * 3)])
  /\ exists K M, kde_rescaled 2 [fun _ => 0] WNone (BwAtom (BNum 1)) false RsNone Gaussian (Some half_corr) (Some 1) None = Ok K /\ kd_kernel K = Some (mkKernel Gaussian 2 M) /\ symmetric 2 M /\ posdef 2 M
  /\ M O 1%nat * M O 1%nat * (3 / 2 * (3 / 2)) < M O O * M 1%nat 1%nat * (1 * 1) /\ M O O * M 1%nat 1%nat * (1 * 1) <= M O 1%nat * M O 1%nat * (3 * 3).
Proof.
  split; [constructor|]. split; [apply (te_common 2 [2; 5] 3)|]. exists half_kde, half_corr. split; [exact half_kde_init|]. split; [reflexivity|]. destruct half_corr_posdef as [Hs Hp].
  split; [exact Hs|]. split; [exact Hp|]. unfold half_corr; cbn; lra.
Qed.

