(** C145: slope of the density at reflecting boundaries. *)
From Coquelicot Require Import Coquelicot.
From Verif Require Import Base ModelLinAlg SpecLinAlg ModelKernels SpecKernels SpecIntegral ModelKDE SpecKDE SpecSlope SpecReflected SpecEdgeSlope ProofExamples ProofKDE ProofTop3 ProofTop2 ProofEdgeSlope.
Open Scope R_scope.
Notation length := List.length.

(** * C145 *)
(** Boundaries in one dimension that is not correlated with the others: the density without boundaries, plus its images. *)
Theorem C145_images : forall n data ws d M K (prob : bool) (r : reflspec) i b f g, built_kde n data ws d M None K -> only n r i b -> apart n M i ->
  kde_density K prob n (Some r) PNone = Ok f -> kde_density K prob n None PNone = Ok g ->
  forall x, (within r x i -> f x = g x + sumf (fun v => g (mirrored i v x)) (boundaries (Some b))) /\ (~ within r x i -> f x = 0).
Proof. exact folded. Qed.
Print Assumptions C145_images.

(** With one boundary the density leaves it level. *)
Theorem C145_level : forall n data ws d M K N (prob : bool) (r : reflspec) i b v s f x, built_kde n data ws d M None K -> is_inverse n M N -> only n r i b -> one_limit b v s -> apart n M i ->
  kde_density K prob n (Some r) PNone = Ok f -> x i = v -> (forall p, In p data -> smooth d (quad n N (psub x p))) -> slope_along f x (axis i s) 0.
Proof. exact level. Qed.
Print Assumptions C145_level.

(** With two boundaries it leaves each with the slope of the image in the other one ... *)
Theorem C145_two : forall n data ws d M K N (prob : bool) (r : reflspec) i b v w s f g x l, built_kde n data ws d M None K -> is_inverse n M N -> only n r i b -> two_limits b v w s -> apart n M i ->
  kde_density K prob n (Some r) PNone = Ok f -> kde_density K prob n None PNone = Ok g -> x i = v -> (forall p, In p data -> smooth d (quad n N (psub x p))) ->
  is_derive (fun t => g (step (mirrored i w x) (axis i s) t)) 0 l -> slope_along f x (axis i s) (- l).
Proof. exact other. Qed.
Print Assumptions C145_two.

(** ... so level for a finite kernel if that image is out of reach ... *)
Theorem C145_far : forall n data ws d M K N (prob : bool) (r : reflspec) i b v w s f x, built_kde n data ws d M None K -> is_inverse n M N -> only n r i b -> two_limits b v w s -> apart n M i ->
  kde_density K prob n (Some r) PNone = Ok f -> x i = v -> (forall p, In p data -> smooth d (quad n N (psub x p))) ->
  finite d = true -> (forall p, In p data -> 1 < quad n N (psub (mirrored i w x) p)) -> slope_along f x (axis i s) 0.
Proof. exact level_far. Qed.
Print Assumptions C145_far.

(** ... and never level for a Gaussian kernel and data between the boundaries. *)
Theorem C145_rising : forall data ws M K (prob : bool) lo hi f v w s, built_kde 1 data ws Gaussian M None K -> two_limits (Some lo, Some hi) v w s -> (forall p, In p data -> lo <= p O <= hi) ->
  kde_density K prob 1 (Some [Some (Some lo, Some hi)]) PNone = Ok f -> exists l, 0 < l /\ slope_along f (pt1 v) (axis 0 s) l.
Proof. exact rising. Qed.
Print Assumptions C145_rising.

(** Correlated with another dimension: one boundary, not level. *)
Theorem C145_correlated_refuted : exists M K f x l, built_kde 2 [pt1 0] [1] Gaussian M None K /\ only 2 [Some (Some 0, None); None] 0 (Some 0, None) /\ one_limit (Some 0, None) 0 1
  /\ kde_density K true 2 (Some [Some (Some 0, None); None]) PNone = Ok f /\ x O = 0 /\ l <> 0 /\ slope_along f x (axis 0 1) l.
Proof. exact correlated_refuted. Qed.
Print Assumptions C145_correlated_refuted.

(** There is at most one such slope. *)
Theorem C145_unique : forall f x u s t, slope_along f x u s -> slope_along f x u t -> s = t.
Proof. exact slope_unique. Qed.
Print Assumptions C145_unique.

Example C145_example : exists K f g h, built_kde 2 [pt1 (1 / 2)] [1] Parabola ident None K /\ is_inverse 2 ident ident /\ apart 2 ident 0
  /\ only 2 [Some (Some 0, None); None] 0 (Some 0, None) /\ only 2 [Some (Some 0, Some 3); None] 0 (Some 0, Some 3) /\ two_limits (Some 0, Some 3) 0 3 1
  /\ kde_density K true 2 (Some [Some (Some 0, None); None]) PNone = Ok f /\ kde_density K true 2 (Some [Some (Some 0, Some 3); None]) PNone = Ok g /\ kde_density K true 2 None PNone = Ok h
  /\ (forall p, In p [pt1 (1 / 2)] -> smooth Parabola (quad 2 ident (psub (pt1 0) p))) /\ (forall p, In p [pt1 (1 / 2)] -> 1 < quad 2 ident (psub (mirrored 0 3 (pt1 0)) p))
  /\ slope_along f (pt1 0) (axis 0 1) 0 /\ slope_along g (pt1 0) (axis 0 1) 0 /\ 0 < f (pt1 0).
Proof. exact edge_example. Qed.
Example C145_rising_example : exists K f l, built_kde 1 [pt1 (1 / 2)] [1] Gaussian ident None K /\ kde_density K true 1 (Some [Some (Some 0, Some 1)]) PNone = Ok f /\ 0 < l /\ slope_along f (pt1 0) (axis 0 1) l.
Proof. exact rising_example. Qed.
