(** C141: what becomes of the density as the bandwidth shrinks or grows. *)
From Coquelicot Require Import Coquelicot.
From Verif Require Import Base ModelLinAlg SpecLinAlg ModelKernels SpecKernels SpecIntegral ModelKDE SpecKDE SpecBandwidth
  ProofKDE ProofTop2 ProofReflect1 ProofAlias ProofBandwidth.
Open Scope R_scope.
Notation length := List.length.

(** With growing bandwidth the density goes to zero everywhere, at one rate for all points. *)
Theorem C141_growing : forall n data ws d C K (prob : bool) eps, (1 <= n)%nat -> family n data ws d C K -> 0 < eps ->
  exists H, 0 < H /\ forall h f, H < h -> kde_density (K h) prob n None PNone = Ok f -> forall x, 0 <= f x < eps.
Proof. exact large_bandwidth. Qed.
Print Assumptions C141_growing.

(** With shrinking bandwidth the density goes to zero at every point that is not a datum of positive weight. *)
Theorem C141_off_the_data : forall n data ws d C K (prob : bool) x eps, (1 <= n)%nat -> family n data ws d C K ->
  (forall p w, In (p, w) (combine data ws) -> 0 < w -> ~ same_point n x p) -> 0 < eps ->
  exists h0, 0 < h0 /\ forall h f, 0 < h < h0 -> kde_density (K h) prob n None PNone = Ok f -> 0 <= f x < eps.
Proof. exact small_bandwidth. Qed.
Print Assumptions C141_off_the_data.

(** At a datum of positive weight it exceeds every bound. *)
Theorem C141_at_the_data : forall n data ws d C K (prob : bool) x p w B, (1 <= n)%nat -> family n data ws d C K ->
  In (p, w) (combine data ws) -> 0 < w -> same_point n x p ->
  exists h0, 0 < h0 /\ forall h f, 0 < h < h0 -> kde_density (K h) prob n None PNone = Ok f -> B < f x.
Proof. exact spike. Qed.
Print Assumptions C141_at_the_data.

(** In one dimension the probability of an interval tends to the share of the weight of the data in it. *)
Theorem C141_empirical : forall data ws d C K (prob : bool) a b eps, family 1 data ws d C K -> a < b ->
  (forall p w, In (p, w) (combine data ws) -> 0 < w -> p O <> a /\ p O <> b) -> 0 < eps ->
  exists h0, 0 < h0 /\ forall h f, 0 < h < h0 -> kde_density (K h) prob 1 None PNone = Ok f ->
  exists I, is_RInt (fun t => f (pt1 t)) a b I /\ Rabs (I - mass prob ws * (weight_between a b data ws / lsum ws)) < eps.
Proof. exact concentration. Qed.
Print Assumptions C141_empirical.

(** The density exists for every bandwidth, so that the statements speak of something. *)
Theorem C141_every_bandwidth : forall n data ws d C K N, (1 <= n)%nat -> family n data ws d C K -> is_inverse n C N ->
  exists Z, 0 < Z /\ (forall base, is_tintN n (fun y => spec_prof d (quad n N y)) base Z) /\ forall h (prob : bool), 0 < h ->
  exists f, kde_density (K h) prob n None PNone = Ok f
  /\ forall x, f x = mass prob ws / lsum ws / (h ^ n * Z) * lsum (map (fun dw : pt * R => snd dw * spec_prof d (quad n N (psub x (fst dw)) / (h * h))) (combine data ws)).
Proof. exact family_formula. Qed.
Print Assumptions C141_every_bandwidth.

(** Two data, 0 and 2, without weights and with the covariance of the data: half of the probability goes to each. *)
Example C141_family_ex : exists C, family 1 [pt1 0; pt1 2] [1; 1] Gaussian C (pair_family 0 2 Gaussian C).
Proof. apply (pair_is_family 0 2 Gaussian). lra. Qed.
Example C141_empirical_ex : exists C, forall eps, 0 < eps -> exists h0, 0 < h0 /\ forall h f, 0 < h < h0 -> kde_density (pair_family 0 2 Box C h) true 1 None PNone = Ok f ->
  exists I, is_RInt (fun t => f (pt1 t)) (-1) 1 I /\ Rabs (I - 1 * (1 / 2)) < eps.
Proof.
  destruct (pair_is_family 0 2 Box) as [C HC]; [lra|]. exists C. intros eps He. destruct (C141_empirical _ _ _ _ _ true (-1) 1 eps HC) as (h0 & H0 & H); [lra| |exact He|].
  - intros p w [E|[E|[]]] _; injection E as <- <-; unfold pt1; lra.
  - rewrite two_weight in H. exists h0. split; [exact H0|exact H].
Qed.
Example C141_at_ex : exists C, exists h0, 0 < h0 /\ forall h f, 0 < h < h0 -> kde_density (pair_family 0 2 Gaussian C h) true 1 None PNone = Ok f -> 1000 < f (pt1 2).
Proof.
  destruct (pair_is_family 0 2 Gaussian) as [C HC]; [lra|]. exists C. apply (C141_at_the_data _ _ _ _ _ _ true (pt1 2) (pt1 2) 1 1000 (le_n 1) HC); [right; left; reflexivity|lra|]. intros i _. reflexivity.
Qed.
Example C141_off_ex : exists C, exists h0, 0 < h0 /\ forall h f, 0 < h < h0 -> kde_density (pair_family 0 2 Gaussian C h) true 1 None PNone = Ok f -> 0 <= f (pt1 1) < 1 / 1000.
Proof.
  destruct (pair_is_family 0 2 Gaussian) as [C HC]; [lra|]. exists C. apply (C141_off_the_data _ _ _ _ _ _ true (pt1 1) (1 / 1000) (le_n 1) HC); [|lra].
  intros p w [E|[E|[]]] _ Hs; injection E as <- <-; specialize (Hs O (le_n 1)); unfold pt1 in Hs; lra.
Qed.
