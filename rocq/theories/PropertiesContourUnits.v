(** Property C151: contours in other units, with exchanged axes, and of slightly different data. *)
From Coq Require Import Permutation.
From Verif Require Import Base ModelLinAlg ModelUtils ModelNd ModelPlot ModelContour SpecUtils SpecNd SpecPlot SpecContour SpecContourUnits ProofContour ProofContourUnits.
Open Scope R_scope.
Notation length := List.length.

(** * C151 *)
(** Other units of both coordinates: the same picture in these units (padding included); densities and levels are divided by the product of the scales. *)
Theorem C151_units : forall ex ey data ws quantiles pad a b c e cs h lv, 0 < a -> 0 < c -> contour ex ey data ws quantiles None pad = Ok (cs, h, lv) ->
  exists xs ys xs' ys' h', cs = [xs; ys]
    /\ contour (map (in_unit a b) ex) (map (in_unit c e) ey) (map (pair_unit a b c e) data) ws quantiles None pad = Ok ([xs'; ys'], h', map (fun v => v / (a * c)) lv)
    /\ same_after (in_unit a b) xs xs' /\ same_after (in_unit c e) ys ys' /\ same_after (fun v => v / (a * c)) h h'.
Proof. exact contour_units. Qed.
Print Assumptions C151_units.

(** The coordinates exchanged: the transposed picture, with the same levels. *)
Theorem C151_exchange : forall ex ey data ws quantiles levels pad cs h lv, contour ex ey data ws quantiles levels pad = Ok (cs, h, lv) ->
  exists xs ys xs' ys' h', cs = [xs; ys] /\ contour ey ex (map swap data) ws quantiles levels pad = Ok ([ys'; xs'], h', lv)
    /\ exchanged xs xs' /\ exchanged ys ys' /\ exchanged h h'.
Proof. exact contour_exchange. Qed.
Print Assumptions C151_exchange.

(** Neither the order of the points nor a common factor of the weights matters. *)
Theorem C151_order : forall ex ey data ws data' ws' quantiles levels pad, Permutation (combine data ws) (combine data' ws') ->
  contour ex ey data ws quantiles levels pad = contour ex ey data' ws' quantiles levels pad.
Proof. exact contour_order. Qed.
Print Assumptions C151_order.

Theorem C151_weights : forall ex ey data ws c quantiles levels pad, c <> 0 ->
  contour ex ey data (map (Rmult c) ws) quantiles levels pad = contour ex ey data ws quantiles levels pad.
Proof. exact contour_weights. Qed.
Print Assumptions C151_weights.

(** The levels depend on the values of the array only, not on their places. *)
Theorem C151_places : forall A B quantiles sigmas, Permutation (flatten_nd A) (flatten_nd B) -> dfm_levels A quantiles sigmas = dfm_levels B quantiles sigmas.
Proof. exact levels_perm. Qed.
Print Assumptions C151_places.

(** Refuted: that nearly the same histograms have nearly the same levels (it doubles here, however small the change). *)
Theorem C151_continuous_refuted : forall eps, 0 < eps -> exists a b q sg l l', close_entries eps a b /\ total_of a = total_of b /\ (forall v, entry a v \/ entry b v -> 0 < v)
  /\ dfm_levels a (Some [q]) None = Ok (sg, [l], [q]) /\ dfm_levels b (Some [q]) None = Ok (sg, [l'], [q]) /\ 0 < l /\ l' = 2 * l.
Proof. exact levels_jump. Qed.
Print Assumptions C151_continuous_refuted.

(** Four weighted points in two by two bins, padded. *)
Example C151_example : exists xs ys h lv, contour px px pdata [10; 9; 8; 1] None None PadTrue = Ok ([xs; ys], h, lv) /\ shp h = [4; 4]%nat
  /\ Permutation (combine pdata [10; 9; 8; 1]) (combine (rev pdata) [1; 8; 9; 10]) /\ 0 < 2 /\ 0 < 1000.
Proof.
  assert (HW : forall v, In v [10; 9; 8; 1] -> 0 <= v) by (intros v [<-|[<-|[<-|[<-|[]]]]]; lra).
  assert (HT : 0 < grid_weight px px pw) by (rewrite p_total; lra).
  assert (HL : (2 <= length px)%nat) by (cbn; lia). assert (HP : pads_by PadTrue 1) by constructor.
  destruct (contour_drawn px px pdata [10; 9; 8; 1] pw p_weights HL HL p_incr p_incr None PadTrue 1%nat HW HT HP) as (xs & ys & h & lv & ls & H & _ & _ & _ & S & _).
  exists xs, ys, h, lv. split; [exact H|]. split; [exact S|]. split; [|lra]. unfold pdata. cbn. apply (Permutation_rev [_; _; _; _]).
Qed.
