(** C132: merged data sets. *)
From Verif Require Import Base ModelLinAlg SpecLinAlg ModelKernels SpecKernels ModelKDE SpecKDE SpecMixture ProofMixture ProofLinAlg ProofKDE ProofTop ProofTop2.
Open Scope R_scope.
Notation length := List.length.

(** * C132 *)
(** Three KDEs with one kernel: the density of the merged data is the sum, the pdf the mean weighted by the total weights;
    with any boundaries and parameters, and the same errors. *)
Theorem C132_mixture : forall n A B wsa wsb st KA KB K (prob : bool) pdim given p, built_with n A wsa st KA -> built_with n B wsb st KB -> built_with n (A ++ B) (wsa ++ wsb) st K ->
  kd_kernel KA = kd_kernel K -> kd_kernel KB = kd_kernel K ->
  res_rel3 (fun f g h => forall x, h x = if prob then (lsum wsa * f x + lsum wsb * g x) / (lsum wsa + lsum wsb) else f x + g x)
    (kde_density KA prob pdim given p) (kde_density KB prob pdim given p) (kde_density K prob pdim given p).
Proof. exact mixture. Qed.
Print Assumptions C132_mixture.

(** The kernel is the same when the covariance is given and the bandwidth consists of numbers or [neff] is given. *)
Theorem C132_fixed : forall n A B wa wb w wsa wsb b diag resc d C neffa st KA KB, weights_given wa A wsa -> weights_given wb B wsb -> weights_given w (A ++ B) (wsa ++ wsb) ->
  numbers_only b \/ neffa <> None ->
  kde_init n A wa b diag resc d (Some C) neffa st = Ok KA -> kde_init n B wb b diag resc d (Some C) neffa st = Ok KB ->
  exists K, kde_init n (A ++ B) w b diag resc d (Some C) neffa st = Ok K /\ forall (prob : bool) pdim given p,
    res_rel3 (fun f g h => forall x, h x = if prob then (lsum wsa * f x + lsum wsb * g x) / (lsum wsa + lsum wsb) else f x + g x)
      (kde_density KA prob pdim given p) (kde_density KB prob pdim given p) (kde_density K prob pdim given p).
Proof. exact mixture_fixed. Qed.
Print Assumptions C132_fixed.

(** With the estimated covariance the merged density is another one, although the bandwidth is a number. *)
Theorem C132_estimated_refuted : exists A B KA KB K f g h x, kde_init 1 A WNone (BwAtom (BNum (/ 100))) false None Box None None None = Ok KA /\ kde_density KA false 1 None PNone = Ok f
  /\ kde_init 1 B WNone (BwAtom (BNum (/ 100))) false None Box None None None = Ok KB /\ kde_density KB false 1 None PNone = Ok g
  /\ kde_init 1 (A ++ B) WNone (BwAtom (BNum (/ 100))) false None Box None None None = Ok K /\ kde_density K false 1 None PNone = Ok h
  /\ h x <> f x + g x.
Proof. exact estimated_refuted. Qed.
Print Assumptions C132_estimated_refuted.

(** One point of weight one and two points of weights two and three, covariance one: both KDEs are built and their densities exist. *)
Example C132_example : exists KA KB f g, weights_given WNone [pt1 0] [1] /\ weights_given (WArr (map Fin [2; 3])) [pt1 1; pt1 2] [2; 3]
  /\ kde_init 1 [pt1 0] WNone (BwAtom (BNum 1)) false None Parabola (Some ident) None None = Ok KA /\ kde_density KA true 1 None PNone = Ok f
  /\ kde_init 1 [pt1 1; pt1 2] (WArr (map Fin [2; 3])) (BwAtom (BNum 1)) false None Parabola (Some ident) None None = Ok KB /\ kde_density KB true 1 None PNone = Ok g.
Proof.
  assert (GA : weights_given WNone [pt1 0] [1]) by (left; split; reflexivity). assert (GB : weights_given (WArr (map Fin [2; 3])) [pt1 1; pt1 2] [2; 3]) by (right; reflexivity).
  assert (EM : kernel_matrix ident (fun _ _ => 1) = ident) by (apply kernel_matrix_1).
  assert (IA : exists KA, kde_init 1 [pt1 0] WNone (BwAtom (BNum 1)) false None Parabola (Some ident) None None = Ok KA /\ kd_kernel KA = Some (mkKernel Parabola 1 ident)).
  { eexists. split; [reflexivity|]. cbn [kd_kernel]. unfold kernel_init. rewrite EM. reflexivity. }
  assert (IB : exists KB, kde_init 1 [pt1 1; pt1 2] (WArr (map Fin [2; 3])) (BwAtom (BNum 1)) false None Parabola (Some ident) None None = Ok KB /\ kd_kernel KB = Some (mkKernel Parabola 1 ident)).
  { destruct (given_weights 2 (WArr (map Fin [2; 3])) [2; 3] [pt1 1; pt1 2] eq_refl GB eq_refl) as [ow E]; [intros v [<-|[<-|[]]]; lra|cbn; lra|]. unfold kde_init. cbn [length Nat.eqb]. rewrite E. eexists. split; [reflexivity|]. cbn [kd_kernel]. unfold kernel_init. rewrite EM. reflexivity. }
  destruct IA as (KA & IA & EA), IB as (KB & IB & EB).
  assert (BA : built_kde 1 [pt1 0] [1] Parabola ident None KA). { split; [exists WNone, (BwAtom (BNum 1)), false, None, (Some ident), None; split; assumption|]. split; [exact EA|]. split; [apply ident_sym|apply ident_posdef]. }
  assert (BB : built_kde 1 [pt1 1; pt1 2] [2; 3] Parabola ident None KB). { split; [exists (WArr (map Fin [2; 3])), (BwAtom (BNum 1)), false, None, (Some ident), None; split; assumption|]. split; [exact EB|]. split; [apply ident_sym|apply ident_posdef]. }
  destruct (density_plain_ex _ _ _ _ _ _ true BA) as (f & _ & Hf). destruct (density_plain_ex _ _ _ _ _ _ true BB) as (g & _ & Hg).
  exists KA, KB. do 2 eexists. split; [exact GA|]. split; [exact GB|]. split; [exact IA|]. split; [exact Hf|]. split; [exact IB|exact Hg].
Qed.
