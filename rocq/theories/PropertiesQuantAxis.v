(** Property C117: quantiles along an axis. *)
From Coq Require Import ZArith.
From Verif Require Import Base ModelLinAlg ModelKernels ModelKDE ModelInterp ModelResample ModelUtils SpecUtils ProofUtils2 ModelNd SpecNd ModelQuantAxis SpecQuantAxis ProofQuantAxis.
Open Scope R_scope.
Notation length := List.length.

(** * C117 *)
(** The last axis: one row for each line of the array, in C order, with the quantiles of that line. *)
Theorem C117_last : forall sorter values ps w k ax vs, sorts sorter -> fractions ps -> length (shp values) = S k -> norm_axis (S k) ax = Some k -> (0 < nth k (shp values) 0)%nat ->
  shp w = shp values -> (forall idx l, inb (rem_nth k (shp values)) idx -> along w k idx l -> lsum l <> 0) ->
  exists rows, quantiles_ax sorter values (Some ps) (Some w) ax vs = Ok rows /\ length rows = size_of_shape (rem_nth k (shp values))
  /\ forall idx v u, inb (rem_nth k (shp values)) idx -> along values k idx v -> along w k idx u ->
       quantiles sorter v (Some ps) (Some u) vs = Ok (nth (ravel (rem_nth k (shp values)) idx) rows []).
Proof. exact quant_axis_last. Qed.
Print Assumptions C117_last.

(** Without weights every axis, as long as the shape is accepted. *)
Theorem C117_unweighted : forall sorter values ps k ax vs, sorts sorter -> fractions ps -> norm_axis (length (shp values)) ax = Some k -> (0 < nth k (shp values) 0)%nat ->
  fits (shp values) k ->
  exists rows, quantiles_ax sorter values (Some ps) None ax vs = Ok rows /\ length rows = size_of_shape (rem_nth k (shp values))
  /\ forall idx v, inb (rem_nth k (shp values)) idx -> along values k idx v ->
       quantiles sorter v (Some ps) None vs = Ok (nth (ravel (rem_nth k (shp values)) idx) rows []).
Proof. exact quant_axis_unweighted. Qed.
Print Assumptions C117_unweighted.

(** ValueError for all other shapes. *)
Theorem C117_error : forall sorter values ps weights k ax vs, fractions ps -> norm_axis (length (shp values)) ax = Some k -> ~ fits (shp values) k ->
  quantiles_ax sorter values (Some ps) weights ax vs = Err ValueError.
Proof. exact quant_axis_error. Qed.
Print Assumptions C117_error.

(** Such as the first axis of two that are not equally long. *)
Theorem C117_first : forall sorter values ps weights a b vs, fractions ps -> shp values = [a; b] -> a <> b -> b <> 1%nat ->
  quantiles_ax sorter values (Some ps) weights 0 vs = Err ValueError.
Proof. exact quant_axis_first. Qed.
Print Assumptions C117_first.

(** No fractions, fractions outside of [0, 1], an axis that does not exist. *)
Theorem C117_refused : forall sorter values weights ax vs, quantiles_ax sorter values None weights ax vs = Err ValueError
  /\ (forall ps, ~ fractions ps -> quantiles_ax sorter values (Some ps) weights ax vs = Err AssertionError)
  /\ (forall ps, fractions ps -> norm_axis (length (shp values)) ax = None -> quantiles_ax sorter values (Some ps) weights ax vs = Err ValueError).
Proof. exact quant_axis_refused. Qed.
Print Assumptions C117_refused.

(** An axis of length zero, if there are lines along it. *)
Theorem C117_empty : forall sorter values ps weights k ax vs, sorts sorter -> fractions ps -> norm_axis (length (shp values)) ax = Some k -> nth k (shp values) 0%nat = 0%nat ->
  size_of_shape (rem_nth k (shp values)) <> 0%nat -> quantiles_ax sorter values (Some ps) weights ax vs = Err ValueError.
Proof. exact quant_axis_empty. Qed.
Print Assumptions C117_empty.
Example C117_empty_example : norm_axis 2 (-1)%Z = Some 1%nat /\ nth 1 [3; 0]%nat 0%nat = 0%nat /\ size_of_shape (rem_nth 1 [3; 0]%nat) <> 0%nat /\ norm_axis 2 2%Z = None /\ ~ fractions [2].
Proof. repeat (split; [reflexivity || discriminate|]). intros H. specialize (H 2 (or_introl eq_refl)). lra. Qed.

(** With weights another axis than the last gives wrong quantiles: here 0 for the median of 0 and 1 with equal weights. *)
Theorem C117_weighted_refuted : exists sorter values w rows q, sorts sorter /\ shp values = [2; 2]%nat /\ shp w = [2; 2]%nat /\ (forall idx, 0 < at_ w idx)
  /\ quantiles_ax sorter values (Some [1 / 2]) (Some w) 0 true = Ok rows /\ along values 0 [1%nat] [0; 1] /\ along w 0 [1%nat] [3; 3]
  /\ quantiles sorter [0; 1] (Some [1 / 2]) (Some [3; 3]) true = Ok q /\ nth (ravel [2%nat] [1%nat]) rows [] <> q.
Proof. exact quant_axis_refuted. Qed.
Print Assumptions C117_weighted_refuted.

Example C117_example : sorts isort /\ fractions [1 / 2] /\ norm_axis 3 (-3)%Z = Some 0%nat /\ fits [4; 4; 1]%nat 0 /\ ~ fits [4; 4; 2]%nat 0 /\ inb (rem_nth 0 [4; 4; 1]%nat) [3; 0]%nat
  /\ along (mkA [2; 3]%nat (fun idx => INR (nth 0 idx 0%nat + 5 * nth 1 idx 0%nat))) 1 [1%nat] [INR 1; INR 6; INR 11].
Proof.
  split; [apply isort_sorts|]. split; [intros p [<-|[]]; lra|]. split; [reflexivity|]. split; [|split; [|split]].
  - intros d H1 H2. destruct d as [|[|d]]; cbn in *; [left; reflexivity|right; reflexivity|lia].
  - intros H. specialize (H 1%nat ltac:(lia) ltac:(cbn; lia)). cbn in H. lia.
  - repeat constructor.
  - split; [reflexivity|]. intros j Hj. destruct j as [|[|[|j]]]; cbn [List.length] in Hj; try lia; reflexivity.
Qed.

