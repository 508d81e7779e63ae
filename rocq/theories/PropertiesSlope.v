(** C138: slope and maxima of the density. *)
From Coquelicot Require Import Coquelicot.
From Verif Require Import Base ModelLinAlg SpecLinAlg ModelKernels SpecKernels SpecIntegral ModelKDE SpecKDE SpecSlope ProofExamples ProofKDE ProofTop3 ProofTop2 ProofSlope.
Open Scope R_scope.
Notation length := List.length.

(** * C138 *)
(** The slope along every line: everywhere for Gaussian and triweight kernels, else off the edges of the kernels. *)
Theorem C138_slope : forall n data ws d M K N (prob : bool) f, (1 <= n)%nat -> built_kde n data ws d M None K -> is_inverse n M N -> kde_density K prob n None PNone = Ok f ->
  exists Z, 0 < Z /\ (forall base, is_tintN n (fun y => spec_prof d (quad n N y)) base Z)
   /\ forall x v, (forall p, In p data -> smooth d (quad n N (psub x p))) ->
      is_derive (fun t => f (step x v t)) 0 (- 2 * (mass prob ws / lsum ws / Z) * sumf (fun dw => snd dw * falling d (quad n N (psub x (fst dw))) * inner n N (psub x (fst dw)) v) (combine data ws)).
Proof. exact slope. Qed.
Print Assumptions C138_slope.

(** At a local maximum the parameters are the means of those of the data, weighted by the pull of the points ... *)
Theorem C138_maximum : forall n data ws d M K N (prob : bool) f x, (1 <= n)%nat -> built_kde n data ws d M None K -> is_inverse n M N -> kde_density K prob n None PNone = Ok f -> d <> Box ->
  local_max n f x -> forall i, (i < n)%nat -> pull d n N (combine data ws) x * x i = pulled d n N (combine data ws) x i.
Proof. exact maximum. Qed.
Print Assumptions C138_maximum.

(** ... which is positive where the density is. *)
Theorem C138_pull : forall n data ws d M K N (prob : bool) f x, (1 <= n)%nat -> built_kde n data ws d M None K -> is_inverse n M N -> kde_density K prob n None PNone = Ok f -> d <> Box ->
  0 < f x -> 0 < pull d n N (combine data ws) x.
Proof. exact pull_pos. Qed.
Print Assumptions C138_pull.

(** Going from a point to that mean, and as far again, never lowers the density. *)
Theorem C138_climb : forall n data ws d M K N (prob : bool) f x m, (1 <= n)%nat -> built_kde n data ws d M None K -> is_inverse n M N -> kde_density K prob n None PNone = Ok f -> d <> Box ->
  (forall i, (i < n)%nat -> pull d n N (combine data ws) x * m i = pulled d n N (combine data ws) x i) ->
  forall t, 0 <= t <= 2 -> f x <= f (step x (psub m x) t).
Proof. exact climb. Qed.
Print Assumptions C138_climb.

(** Parabolas have no slope at their edges. *)
Theorem C138_edge_refuted : exists K f, built_kde 1 [pt1 0] [1] Parabola ident None K /\ kde_density K true 1 None PNone = Ok f /\ ~ exists l, is_derive (fun t => f (pt1 t)) 1 l.
Proof. exact edge_refuted. Qed.
Print Assumptions C138_edge_refuted.

(** Parabolas at 0 and 1 with weights 3 and 1: the maximum at a quarter. *)
Example C138_example : exists K f, built_kde 1 [p0; p1] [3; 1] Parabola ident None K /\ is_inverse 1 ident ident /\ kde_density K true 1 None PNone = Ok f /\ local_max 1 f (pt1 (1 / 4)) /\ 0 < f (pt1 (1 / 4)).
Proof. destruct example_max as (K & f & H1 & H2 & H3 & H4). exists K, f. split; [exact H1|]. split; [apply ident_inverse|]. split; [exact H2|]. split; [exact H3|exact H4]. Qed.
