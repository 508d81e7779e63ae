(** C135: the density is highest among the data. *)
From Coquelicot Require Import Coquelicot.
From Verif Require Import Base ModelLinAlg SpecLinAlg ModelKernels SpecKernels ModelKDE SpecKDE SpecShape ProofExamples ProofTop3 ProofTop2 ProofKDE ProofShape.
Open Scope R_scope.
Notation length := List.length.

(** * C135 *)
(** Every kernel: at some weighted mean of the data points the density is at least as high. *)
Theorem C135_among : forall n data ws d M K (prob : bool) f, (1 <= n)%nat -> built_kde n data ws d M None K -> kde_density K prob n None PNone = Ok f ->
  forall x, exists y, among n data y /\ f x <= f y.
Proof. exact high_among. Qed.
Print Assumptions C135_among.

(** Gaussian: higher than at every other point. *)
Theorem C135_gaussian : forall n data ws M K (prob : bool) f, (1 <= n)%nat -> built_kde n data ws Gaussian M None K -> kde_density K prob n None PNone = Ok f ->
  forall x, ~ among n data x -> exists y, among n data y /\ f x < f y.
Proof. exact high_gaussian. Qed.
Print Assumptions C135_gaussian.

(** All data on one side of a plane: the density falls on the other side, along the line that the kernel matrix makes of the normal. *)
Theorem C135_falls : forall n data ws d M K (prob : bool) f a c x, (1 <= n)%nat -> built_kde n data ws d M None K -> kde_density K prob n None PNone = Ok f ->
  (forall p, In p data -> dot n a p <= c) -> c <= dot n a x -> forall s t, 0 <= s <= t -> f (moved n M a x t) <= f (moved n M a x s).
Proof. exact falls. Qed.
Print Assumptions C135_falls.

Theorem C135_falls_gaussian : forall n data ws M K (prob : bool) f a c x, (1 <= n)%nat -> built_kde n data ws Gaussian M None K -> kde_density K prob n None PNone = Ok f ->
  (forall p, In p data -> dot n a p <= c) -> c <= dot n a x -> (exists i, (i < n)%nat /\ a i <> 0) -> forall s t, 0 <= s < t -> f (moved n M a x t) < f (moved n M a x s).
Proof. exact falls_gaussian. Qed.
Print Assumptions C135_falls_gaussian.

(** One dimension: monotone on both sides of the data. *)
Theorem C135_one : forall data ws d M K (prob : bool) f, built_kde 1 data ws d M None K -> kde_density K prob 1 None PNone = Ok f ->
  (forall x y, (forall p, In p data -> p O <= x) -> x <= y -> f (pt1 y) <= f (pt1 x)) /\ (forall x y, (forall p, In p data -> y <= p O) -> x <= y -> f (pt1 x) <= f (pt1 y)).
Proof. exact falls_one. Qed.
Print Assumptions C135_one.

(** Correlated parameters: going on in one parameter only, away from all data, the density can rise. *)
Theorem C135_parameter_refuted : exists M K f x y, built_kde 2 [pt1 0] [1] Gaussian M None K /\ kde_density K true 2 None PNone = Ok f
  /\ 0 < x O < y O /\ x 1%nat = y 1%nat /\ f x < f y.
Proof. exact one_parameter_refuted. Qed.
Print Assumptions C135_parameter_refuted.

(** With boundaries the density can be highest where there are no data. *)
Theorem C135_boundary_refuted : exists K f x, built_kde 1 [pt1 0] [1] Gaussian ident (Some [Some (None, Some (1 / 2))]) K /\ kde_density K true 1 None PNone = Ok f
  /\ forall y, among 1 [pt1 0] y -> f y < f x.
Proof. exact boundary_refuted. Qed.
Print Assumptions C135_boundary_refuted.

(** Three points in a plane, their covariance as kernel matrix: a point off the triangle, and a line past the data. *)
Example C135_example : exists K M f, built_kde 2 data2 [1; 1; 1] Gaussian M None K /\ kde_density K true 2 None PNone = Ok f
  /\ ~ among 2 data2 (fun _ => 10) /\ (forall p, In p data2 -> dot 2 (fun _ => 1) p <= 3) /\ 3 <= dot 2 (fun _ => 1) (fun _ => 10).
Proof.
  destruct (data2_built Gaussian None) as (K & M & N & _ & HB & _). destruct (density_plain_ex _ _ _ _ _ _ true HB) as (f & _ & Hf).
  assert (Hd : forall p, In p data2 -> dot 2 (fun _ => 1) p <= 3).
  { unfold data2, dot. intros p Hp. cbn in Hp. destruct Hp as [<-|[<-|[<-|[]]]]; cbn; unfold q00, q10, q01; cbn; lra. }
  exists K, M, (scaled true [1; 1; 1] f). split; [exact HB|]. split; [exact Hf|]. split; [|split; [exact Hd|unfold dot; cbn; lra]].
  intros (ls & L & Hnn & Hsum & Hy). destruct ls as [|l1 [|l2 [|l3 [|? ?]]]]; try discriminate. pose proof (Hy 0%nat ltac:(lia)) as E0. pose proof (Hy 1%nat ltac:(lia)) as E1.
  unfold data2, sumf, q00, q10, q01 in E0, E1. cbn in E0, E1, Hsum. pose proof (Hnn l1 (or_introl eq_refl)). pose proof (Hnn l2 (or_intror (or_introl eq_refl))). pose proof (Hnn l3 (or_intror (or_intror (or_introl eq_refl)))). lra.
Qed.
