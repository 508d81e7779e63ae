(** C129: contours of data. *)
From Coq Require Import Permutation.
From Verif Require Import Base ModelLinAlg ModelUtils ModelNd ModelPlot ModelContour SpecUtils SpecNd SpecPlot SpecContour ProofContour.
Open Scope R_scope.
Notation length := List.length.

(** * C129 *)
(** What is drawn: for each bin its density at its middle, shifted by the padding; each level is the one of the array drawn. *)
Theorem C129_drawn : forall ex ey data ws w, bin_weights ex ey data ws w -> (2 <= length ex)%nat -> (2 <= length ey)%nat -> incr_list ex -> incr_list ey ->
  forall quantiles pad p, (forall v, In v ws -> 0 <= v) -> 0 < grid_weight ex ey w -> pads_by pad p ->
  exists xs ys h levels ls, contour ex ey data ws quantiles None pad = Ok ([xs; ys], h, levels) /\ Forall2 (level_for h) (fst (default_quantiles quantiles None)) ls
  /\ Permutation ls levels /\ nondecr_list levels /\ shp h = [(length ex - 1 + 2 * p)%nat; (length ey - 1 + 2 * p)%nat]
  /\ (forall i j, (i < length ex - 1)%nat -> (j < length ey - 1)%nat -> at_ h [i + p; j + p]%nat = bin_density ex ey w i j
       /\ at_ xs [i + p; j + p]%nat = (nth i ex 0 + nth (S i) ex 0) / 2 /\ at_ ys [i + p; j + p]%nat = (nth j ey 0 + nth (S j) ey 0) / 2).
Proof. exact contour_drawn. Qed.
Print Assumptions C129_drawn.

(** Bins of one area, without padding or with an empty bin: the bins denser than the level of a fraction hold at most
    that fraction of the weight, and with any further bin in order of density they would hold more. *)
Theorem C129_equal : forall ex ey data ws w, bin_weights ex ey data ws w -> (2 <= length ex)%nat -> (2 <= length ey)%nat -> incr_list ex -> incr_list ey ->
  forall A, equal_areas ex ey A ->
  forall quantiles pad p, (forall v, In v ws -> 0 <= v) -> 0 < grid_weight ex ey w -> pads_by pad p ->
  p = 0%nat \/ (exists i j, (i < length ex - 1)%nat /\ (j < length ey - 1)%nat /\ w i j = 0) ->
  exists cs h levels ls, contour ex ey data ws quantiles None pad = Ok (cs, h, levels) /\ Permutation ls levels /\ nondecr_list levels
  /\ (forall i j, (i < length ex - 1)%nat -> (j < length ey - 1)%nat -> at_ h [i + p; j + p]%nat = bin_density ex ey w i j)
  /\ Forall2 (fun q v => 0 <= q -> denser ex ey w v <= q * grid_weight ex ey w
       /\ forall i j, (i < length ex - 1)%nat -> (j < length ey - 1)%nat -> bin_density ex ey w i j < v ->
          q * grid_weight ex ey w < denser ex ey w (bin_density ex ey w i j) + w i j)
     (fst (default_quantiles quantiles None)) ls.
Proof. exact equal_bins. Qed.
Print Assumptions C129_equal.

(** Bins of different areas: the bins inside a contour may hold more than the fraction. *)
Theorem C129_unequal_refuted : exists ex ey data ws w q cs h v, bin_weights ex ey data ws w /\ incr_list ex /\ incr_list ey /\ (forall x, In x ws -> 0 < x) /\ 0 < q < 1
  /\ contour ex ey data ws (Some [q]) None PadNone = Ok (cs, h, [v]) /\ q * grid_weight ex ey w < denser ex ey w v.
Proof. exact unequal_refuted. Qed.
Print Assumptions C129_unequal_refuted.

(** Padding without an empty bin: likewise. *)
Theorem C129_pad_refuted : exists ex ey data ws w A q cs h v, bin_weights ex ey data ws w /\ incr_list ex /\ incr_list ey /\ equal_areas ex ey A /\ (forall x, In x ws -> 0 < x) /\ 0 < q < 1
  /\ contour ex ey data ws (Some [q]) None PadTrue = Ok (cs, h, [v]) /\ q * grid_weight ex ey w < denser ex ey w v.
Proof. exact pad_refuted. Qed.
Print Assumptions C129_pad_refuted.

(** Given levels are used as they are. *)
Theorem C129_given : forall ex ey data ws quantiles l pad, (2 <= length ex)%nat -> (2 <= length ey)%nat -> incr_list ex -> incr_list ey ->
  exists cs h, contour ex ey data ws quantiles (Some l) pad = Ok (cs, h, l).
Proof. exact given_levels. Qed.
Print Assumptions C129_given.

Example C129_example : bin_weights px px pdata [10; 9; 8; 1] pw /\ incr_list px /\ equal_areas px px 1 /\ 0 < grid_weight px px pw /\ pads_by PadNone 0.
Proof.
  split; [exact p_weights|]. split; [exact p_incr|]. split; [|split; [rewrite p_total; lra|constructor]].
  intros i j Hi Hj. cbn in Hi, Hj. unfold bin_area, px. destruct i as [|[|i]], j as [|[|j]]; try lia; cbn; ring.
Qed.
