(** Property C150: moments of a density with one boundary. *)
From Verif Require Import Base ModelLinAlg SpecLinAlg SpecIntegral ModelKernels ModelKDE SpecKDE ProofKDE SpecMoments SpecWall ProofExamples ProofTop2 ProofTop3 ProofWall.
Open Scope R_scope.
Notation length := List.length.

(** * C150 *)
(** Averages of quantities symmetric about the boundary are the same as without the boundary. *)
Theorem C150_symmetric : forall data ws d M K (prob low : bool) v (phi : R -> R) l f g, built_kde 1 data ws d M None K -> (forall t, phi (2 * v - t) = phi t) ->
  kde_density K prob 1 None PNone = Ok g -> kde_density K prob 1 (Some [Some (wall low v)]) PNone = Ok f ->
  is_tint (fun t => phi t * g (pt1 t)) l -> is_tint (fun t => phi t * f (pt1 t)) l.
Proof. exact wall_symmetric. Qed.
Print Assumptions C150_symmetric.

(** The mean square distance from the boundary: that of the data plus the variance of the kernel. *)
Theorem C150_square : forall data ws d M K (prob low : bool) v, built_kde 1 data ws d M None K ->
  exists f, kde_density K prob 1 (Some [Some (wall low v)]) PNone = Ok f
    /\ is_tint (fun t => (t - v) * (t - v) * f (pt1 t)) (mass prob ws * (data_cov data ws (fun _ => v) 0 0 + kernel_var d 1 * M O O)).
Proof. exact wall_square. Qed.
Print Assumptions C150_square.

(** The mean exists, is on the allowed side, and is moved away from the boundary (or not at all) compared to that of the data. *)
Theorem C150_mean : forall data ws d M K (prob low : bool) v, built_kde 1 data ws d M None K ->
  exists f m, kde_density K prob 1 (Some [Some (wall low v)]) PNone = Ok f /\ is_tint (fun t => t * f (pt1 t)) (mass prob ws * m)
    /\ inward low v m /\ inward low (data_mean data ws 0) m.
Proof. exact wall_mean. Qed.
Print Assumptions C150_mean.

(** Gaussian kernel: it is always moved. *)
Theorem C150_gaussian : forall data ws M K (prob low : bool) v, built_kde 1 data ws Gaussian M None K ->
  exists f m, kde_density K prob 1 (Some [Some (wall low v)]) PNone = Ok f /\ is_tint (fun t => t * f (pt1 t)) (mass prob ws * m)
    /\ inward_strictly low v m /\ inward_strictly low (data_mean data ws 0) m.
Proof. exact wall_gaussian. Qed.
Print Assumptions C150_gaussian.

(** Kernel of finite support, all data at least its width inside: the mean of the data. *)
Theorem C150_away : forall data ws d M K (prob low : bool) v, built_kde 1 data ws d M None K -> finite d = true ->
  (forall p, In p data -> inward low (if low then v + sqrt (M O O) else v - sqrt (M O O)) (p O)) ->
  exists f, kde_density K prob 1 (Some [Some (wall low v)]) PNone = Ok f /\ is_tint (fun t => t * f (pt1 t)) (mass prob ws * data_mean data ws 0).
Proof. exact wall_away. Qed.
Print Assumptions C150_away.

(** If the mean of the data is on the allowed side, the boundary does not increase the variance (C113 has the variance without the boundary). *)
Theorem C150_variance : forall data ws d M K (prob low : bool) v, built_kde 1 data ws d M None K -> inward low v (data_mean data ws 0) ->
  exists f m s, kde_density K prob 1 (Some [Some (wall low v)]) PNone = Ok f /\ is_tint (fun t => t * f (pt1 t)) (mass prob ws * m)
    /\ is_tint (fun t => (t - m) * (t - m) * f (pt1 t)) (mass prob ws * s)
    /\ s <= data_cov data ws (data_mean data ws) 0 0 + kernel_var d 1 * M O O.
Proof. exact wall_variance. Qed.
Print Assumptions C150_variance.

(** Data 0 (weight 3) and 1 (weight 1), boundary below at -1. *)
Example C150_example : exists K, built_kde 1 [p0; p1] [3; 1] Box ident None K
  /\ (forall p, In p [p0; p1] -> inward true (-1 + sqrt (ident O O)) (p O)) /\ inward true (-1) (data_mean [p0; p1] [3; 1] 0)
  /\ data_mean [p0; p1] [3; 1] 0 = / 4 /\ data_cov [p0; p1] [3; 1] (fun _ => -1) 0 0 = 7 / 4.
Proof.
  destruct (unit_kde 1 [p0; p1] [3; 1] Box None) as [K [HK [HB E]]]; [discriminate|reflexivity| | |].
  - intros v [<-|[<-|[]]]; lra.
  - exists 3. split; [left; reflexivity|lra].
  - assert (Em : data_mean [p0; p1] [3; 1] 0 = / 4) by (unfold data_mean, p0, p1; cbn; field).
    exists K. split; [exact HB|]. split; [|split; [|split; [exact Em|]]].
    + intros p Hp. unfold inward, ident. cbn [Nat.eqb]. rewrite sqrt_1. destruct Hp as [<-|[<-|[]]]; unfold p0, p1; lra.
    + unfold inward. rewrite Em. lra.
    + unfold data_cov, p0, p1; cbn; field.
Qed.
Example C150_gaussian_example : exists K, built_kde 1 [p0; p1] [3; 1] Gaussian ident None K.
Proof.
  destruct (unit_kde 1 [p0; p1] [3; 1] Gaussian None) as [K [HK [HB E]]]; [discriminate|reflexivity| | |exists K; exact HB].
  - intros v [<-|[<-|[]]]; lra.
  - exists 3. split; [left; reflexivity|lra].
Qed.
