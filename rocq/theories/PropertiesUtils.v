(** Properties C39, C44, C45, C47, C49, C65, C68, C69: helper functions of kalepy/utils.py. *)
From Coq Require Import Permutation.
From Verif Require Import Base ModelLinAlg SpecLinAlg ProofLinAlg ModelKernels ModelKDE ModelInterp ModelResample SpecResample ModelUtils SpecUtils SpecNested
  ProofKDE ProofUtils ProofUtils2 ProofUtils3 ProofUtils4 ProofNested ProofCov.
Open Scope R_scope.
Notation length := List.length.

(** * C39 *)
(** The mask of bound_indices, inside and outside. *)
Theorem C39_mask : forall n data rows outside, rows <> [] -> (forall r, In r rows -> length r = 2%nat) -> (length rows <= n)%nat ->
  exists m, bound_indices n data (BdRows rows) outside = Ok (mkIdx true m) /\ length m = length data
    /\ forall j, (j < length data)%nat ->
       (nth j m false = true <-> forall i, (i < length rows)%nat ->
          let v := nth j data (fun _ => 0) i in
          if outside then row_outside (fst (row_dim rows i)) (snd (row_dim rows i)) v
          else row_inside (fst (row_dim rows i)) (snd (row_dim rows i)) v).
Proof. exact bound_indices_mask. Qed.
Print Assumptions C39_mask.

Example C39_mask_example : exists m, bound_indices 2 [fun _ => 1; fun _ => 3] (BdRows [[Some 0; None]; [None; Some 2]]) false = Ok (mkIdx true m)
  /\ m = [true; false].
Proof.
  eexists. split; [reflexivity|]. cbn.
  rewrite (proj2 (Rltb_true 0 1)), (proj2 (Rltb_true 0 3)), (proj2 (Rltb_true 1 2)), (proj2 (Rltb_false 3 2)) by lra. reflexivity.
Qed.

(** In one dimension the two selections are disjoint and only boundary points are in neither. *)
Theorem C39_one_dim_complement : forall lo hi v, (forall a b, lo = Some a -> hi = Some b -> a < b) ->
  (row_inside lo hi v \/ row_outside lo hi v \/ lo = Some v \/ hi = Some v) /\ ~ (row_inside lo hi v /\ row_outside lo hi v).
Proof. exact one_dim_complement. Qed.
Print Assumptions C39_one_dim_complement.

Example C39_one_dim_example : row_inside (Some 0) (Some 1) (1 / 2) /\ row_outside (Some 0) (Some 1) 2 /\ ~ row_inside (Some 0) (Some 1) 1 /\ ~ row_outside (Some 0) (Some 1) 1.
Proof.
  unfold row_inside, row_outside. split; [split; intros x E; injection E as <-; lra|]. split; [right; exists 1; split; [reflexivity|lra]|].
  split; [intros [_ H]; specialize (H 1 eq_refl); lra|]. intros [[x [E H]]|[x [E H]]]; injection E as <-; lra.
Qed.

(** In two dimensions a point can be in neither set without touching any boundary. *)
Theorem C39_outside_is_complement_refuted : exists data rows m m', bound_indices 2 data (BdRows rows) false = Ok (mkIdx true m)
  /\ bound_indices 2 data (BdRows rows) true = Ok (mkIdx true m')
  /\ exists j, (j < length data)%nat /\ nth j m false = false /\ nth j m' false = false.
Proof. exact outside_not_complement. Qed.
Print Assumptions C39_outside_is_complement_refuted.

(** Without bounds the result is an integer array: indexing with it repeats the second point. *)
Theorem C39_no_bounds_take : forall n data idx p q rest, data = p :: q :: rest ->
  bound_indices n data BdNone false = Ok idx -> take_idx data idx = Ok (repeat q (length data)).
Proof. exact bound_indices_none_take. Qed.
Print Assumptions C39_no_bounds_take.

Theorem C39_no_bounds_single : forall n p idx, bound_indices n [p] BdNone false = Ok idx -> take_idx [p] idx = Err IndexError.
Proof. exact bound_indices_none_single. Qed.
Print Assumptions C39_no_bounds_single.

Example C39_no_bounds_example : exists idx, bound_indices 1 [fun _ => 1; fun _ => 2; fun _ => 3] BdNone false = Ok idx
  /\ take_idx [fun _ => 1; fun _ => 2; fun _ => 3] idx = Ok [fun _ => 2; fun _ => 2; fun _ => 2].
Proof. eexists. split; reflexivity. Qed.

(** * C44 *)
(** Folding minmax over chunks gives the extrema of everything seen. *)
Theorem C44_accumulates : forall chunks, exists r,
  fold_left (fun acc c => do prev <- acc ;; minmax c false prev StNone StNone None) chunks (Ok None) = Ok r /\ range_of (concat chunks) r.
Proof. exact minmax_accumulates. Qed.
Print Assumptions C44_accumulates.

Example C44_accumulates_example : range_of (concat [[3]; []; [1; 2]]) (Some (Some 1, Some 3)).
Proof. exists 1, 3. split; [reflexivity|]. cbn [concat app]. split; (split; [cbn; tauto|intros x Hx; cbn in Hx; intuition lra]). Qed.

(** limit= clips; the result is an ordered interval exactly when data and limits overlap. *)
Theorem C44_limit : forall data ll lh, data <> [] -> exists lo hi, minmax data false None StNone StNone (Some (Some ll, Some lh)) = Ok (Some (Some lo, Some hi))
  /\ ll <= lo /\ hi <= lh
  /\ (forall x, In x data -> ll <= x <= lh -> lo <= x <= hi)
  /\ (lo <= hi <-> exists a b, min_of data a /\ max_of data b /\ a <= lh /\ ll <= b /\ ll <= lh).
Proof. exact minmax_limit. Qed.
Print Assumptions C44_limit.

(** stretch= widens about the centre. *)
Theorem C44_stretch : forall data s lo hi, min_of data lo -> max_of data hi ->
  exists a b, minmax data false None (StScalar s) StNone None = Ok (Some (Some a, Some b))
    /\ a + b = lo + hi /\ b - a = (1 + s) * (hi - lo).
Proof. exact minmax_stretch. Qed.
Print Assumptions C44_stretch.

Example C44_stretch_example : min_of [2; 1] 1 /\ max_of [2; 1] 2.
Proof. split; (split; [cbn; tauto|intros x Hx; cbn in Hx; intuition lra]). Qed.

(** positive= looks at the positive data only and raises without any. *)
Theorem C44_positive : forall data, (exists x, In x data /\ 0 < x) ->
  exists lo hi, minmax data true None StNone StNone None = Ok (Some (Some lo, Some hi))
    /\ min_of (filter (fun x => Rltb 0 x) data) lo /\ max_of (filter (fun x => Rltb 0 x) data) hi.
Proof. exact minmax_positive. Qed.
Print Assumptions C44_positive.

Theorem C44_no_positive : forall data prev st ls lim, data <> [] -> (forall x, In x data -> x <= 0) -> minmax data true prev st ls lim = Err ValueError.
Proof. exact minmax_no_positive. Qed.
Print Assumptions C44_no_positive.

Example C44_positive_example : (exists x, In x [-1; 2] /\ 0 < x) /\ (forall x, In x [-1; 0] -> x <= 0).
Proof. split; [exists 2; split; [cbn; tauto|lra]|intros x Hx; cbn in Hx; intuition lra]. Qed.

(** * C45 *)
Theorem C45_total : forall sorter values ps ws, values <> [] -> length ws = length values -> fractions ps ->
  exists qs, quantiles sorter values (Some ps) (Some ws) false = Ok qs /\ length qs = length ps.
Proof. exact quantiles_total. Qed.
Print Assumptions C45_total.

Theorem C45_in_range : forall sorter values ps ws qs lo hi, sorts sorter -> length ws = length values -> all_pos ws ->
  fractions ps -> min_of values lo -> max_of values hi ->
  quantiles sorter values (Some ps) (Some ws) false = Ok qs -> forall q, In q qs -> lo <= q <= hi.
Proof. exact quantiles_in_range. Qed.
Print Assumptions C45_in_range.

Theorem C45_monotone : forall sorter values ps ws qs, sorts sorter -> length ws = length values -> all_pos ws -> fractions ps ->
  quantiles sorter values (Some ps) (Some ws) false = Ok qs ->
  forall i j, (i < length ps)%nat -> (j < length ps)%nat -> nth i ps 0 <= nth j ps 0 -> nth i qs 0 <= nth j qs 0.
Proof. exact quantiles_monotone. Qed.
Print Assumptions C45_monotone.

Theorem C45_order_independent : forall sorter sorter' values ws values' ws' ps, sorts sorter -> sorts sorter' ->
  length ws = length values -> length ws' = length values' ->
  Permutation (combine values ws) (combine values' ws') -> NoDup values ->
  quantiles sorter values (Some ps) (Some ws) false = quantiles sorter' values' (Some ps) (Some ws') false.
Proof. exact quantiles_order. Qed.
Print Assumptions C45_order_independent.

Theorem C45_weight_scale : forall sorter sorter' values ws ps c, sorts sorter -> sorts sorter' -> length ws = length values -> all_pos ws ->
  0 < c -> NoDup values ->
  quantiles sorter values (Some ps) (Some (map (Rmult c) ws)) false = quantiles sorter' values (Some ps) (Some ws) false.
Proof. exact quantiles_rescale. Qed.
Print Assumptions C45_weight_scale.

(** The same with ties, for a sorting order that depends on the values only. *)
Theorem C45_weight_scale_ties : forall sorter values ws ps c, length ws = length values ->
  sorts sorter -> (forall l, sorter (map (fun xw => (fst xw, c * snd xw)) l) = map (fun xw => (fst xw, c * snd xw)) (sorter l)) ->
  all_pos ws -> 0 < c ->
  quantiles sorter values (Some ps) (Some (map (Rmult c) ws)) false = quantiles sorter values (Some ps) (Some ws) false.
Proof. exact quantiles_rescale_ties. Qed.
Print Assumptions C45_weight_scale_ties.

(** The fraction of weight below a value plus half its own weight is mapped to that value. *)
Theorem C45_value_at_own_weight : forall sorter values ws k, sorts sorter -> length ws = length values -> all_pos ws -> NoDup values ->
  (k < length values)%nat ->
  let p := (weight_below (nth k values 0) values ws + nth k ws 0 / 2) / lsum ws in
  quantiles sorter values (Some [p]) (Some ws) false = Ok [nth k values 0].
Proof. exact quantiles_at_value. Qed.
Print Assumptions C45_value_at_own_weight.

(** Without weights: weights one. *)
Theorem C45_unweighted : forall sorter values ps b,
  quantiles sorter values (Some ps) None b = quantiles sorter values (Some ps) (Some (map (fun _ => 1) values)) b.
Proof. exact quantiles_unweighted. Qed.
Print Assumptions C45_unweighted.

Theorem C45_tie_order_refuted : exists sorter values ws ws' p q q',
  sorts sorter /\ Permutation (combine values ws) (combine values ws')
  /\ quantiles sorter values (Some [p]) (Some ws) false = Ok [q]
  /\ quantiles sorter values (Some [p]) (Some ws') false = Ok [q'] /\ q <> q'.
Proof. exact quantiles_ties_refuted. Qed.
Print Assumptions C45_tie_order_refuted.

Theorem C45_errors : forall sorter values ws b,
  quantiles sorter values None ws b = Err ValueError
  /\ (forall ps, (exists p, In p ps /\ ~ 0 <= p <= 1) -> quantiles sorter values (Some ps) ws b = Err AssertionError).
Proof. exact quantiles_errors. Qed.
Print Assumptions C45_errors.

Example C45_example : sorts isort /\ (forall c l, isort (map (fun xw => (fst xw, c * snd xw)) l) = map (fun xw => (fst xw, c * snd xw)) (isort l))
  /\ all_pos [1; 2] /\ NoDup [3; 1] /\ min_of [3; 1] 1 /\ max_of [3; 1] 3 /\ fractions [1 / 2]
  /\ quantiles isort [3; 1] (Some [5 / 6]) (Some [1; 2]) false = Ok [3].
Proof.
  assert (HA : all_pos [1; 2]) by (intros w Hw; cbn in Hw; intuition lra).
  assert (HN : NoDup [3; 1]) by (constructor; [cbn; intuition lra|constructor; [cbn; tauto|constructor]]).
  split; [exact isort_sorts|]. split; [exact isort_scale|]. split; [exact HA|]. split; [exact HN|].
  split; [split; [cbn; tauto|intros x Hx; cbn in Hx; intuition lra]|]. split; [split; [cbn; tauto|intros x Hx; cbn in Hx; intuition lra]|].
  split; [intros p [<-|[]]; lra|].
  pose proof (quantiles_at_value isort [3; 1] [1; 2] 0 isort_sorts eq_refl HA HN ltac:(cbn; lia)) as H. cbv zeta in H.
  cbn [nth] in H. replace (5 / 6) with ((weight_below 3 [3; 1] [1; 2] + 1 / 2) / lsum [1; 2]); [exact H|].
  unfold weight_below. cbn. rewrite (proj2 (Rltb_false 3 3)), (proj2 (Rltb_true 1 3)) by lra. lra.
Qed.

(** * C47 *)
Theorem C47_length : forall l num, (1 <= num)%nat -> l <> [] -> length (subdivide l num) = ((length l - 1) * S num + 1)%nat.
Proof. exact subdivide_length. Qed.
Print Assumptions C47_length.

Theorem C47_points : forall l num i k, (1 <= num)%nat -> (S i < length l)%nat -> (k <= S num)%nat ->
  nth (i * S num + k) (subdivide l num) 0 = nth i l 0 + (nth (S i) l 0 - nth i l 0) * (INR k / INR (S num)).
Proof. exact subdivide_points. Qed.
Print Assumptions C47_points.

Theorem C47_keeps_edges : forall l num i, (1 <= num)%nat -> (i < length l)%nat -> nth (i * S num) (subdivide l num) 0 = nth i l 0.
Proof. exact subdivide_keeps. Qed.
Print Assumptions C47_keeps_edges.

Theorem C47_increasing : forall l num, incr_list l -> incr_list (subdivide l num).
Proof. exact subdivide_increasing. Qed.
Print Assumptions C47_increasing.

Theorem C47_zero_empty : forall l, subdivide l 0 = [].
Proof. exact subdivide_zero. Qed.
Print Assumptions C47_zero_empty.

Example C47_example : incr_list [0; 1; 3] /\ length (subdivide [0; 1; 3] 1) = 5%nat /\ nth 3 (subdivide [0; 1; 3] 1) 0 = 2.
Proof.
  split; [apply incr_list_step; intros [|[|i]] Hi; cbn in *; try lra; lia|]. split; [reflexivity|].
  change (nth (1 * 2 + 1) (subdivide [0; 1; 3] 1) 0 = 2). rewrite (subdivide_points [0; 1; 3] 1 1 1) by (cbn; lia). cbn. lra.
Qed.

(** * C49 *)
Theorem C49_whiten_inverts : forall n C data, symmetric n C -> posdef n C ->
  exists out back, add_cov n C data = Ok out /\ length out = length data
    /\ rem_cov n C out = Ok back /\ length back = length data
    /\ forall j i, (j < length data)%nat -> (i < n)%nat -> nth j back pt0 i = nth j data pt0 i.
Proof. exact whiten_inverts. Qed.
Print Assumptions C49_whiten_inverts.

Theorem C49_color_inverts : forall n C data, symmetric n C -> posdef n C ->
  exists out back, rem_cov n C data = Ok out /\ length out = length data
    /\ add_cov n C out = Ok back /\ length back = length data
    /\ forall j i, (j < length data)%nat -> (i < n)%nat -> nth j back pt0 i = nth j data pt0 i.
Proof. exact color_inverts. Qed.
Print Assumptions C49_color_inverts.

Theorem C49_unit_to_cov : forall n C wd S, symmetric n C -> posdef n C -> np_cov wd = Some S -> agree n S ident ->
  exists out S', add_cov n C (map fst wd) = Ok out /\ np_cov (combine out (map snd wd)) = Some S' /\ agree n S' C.
Proof. exact add_cov_unit. Qed.
Print Assumptions C49_unit_to_cov.

Theorem C49_own_cov_to_unit : forall n wd C, np_cov wd = Some C -> posdef n C ->
  exists out S', rem_cov n C (map fst wd) = Ok out /\ np_cov (combine out (map snd wd)) = Some S' /\ agree n S' ident.
Proof. exact rem_cov_unit. Qed.
Print Assumptions C49_own_cov_to_unit.

Theorem C49_not_posdef : forall n C data, symmetric n C -> ~ posdef n C -> add_cov n C data = Err LinAlgError /\ rem_cov n C data = Err LinAlgError.
Proof. exact cov_not_posdef. Qed.
Print Assumptions C49_not_posdef.

(** rem_cov without a covariance argument fails from three dimensions on. *)
Theorem C49_default_cov : forall n data,
  ((3 <= n)%nat -> rem_cov_default n data = Err ValueError \/ rem_cov_default n data = Err TypeError)
  /\ (forall C, (n = 1%nat \/ n = 2%nat) -> np_cov (combine data (map (fun _ => 1) data)) = Some C -> rem_cov_default n data = rem_cov n C data).
Proof. intros n data. split; [apply rem_cov_default_dims|intros C; apply rem_cov_default_low]. Qed.
Print Assumptions C49_default_cov.

Definition C49_data : list (pt * R) := [((fun _ => 1), 1); ((fun _ => -1), 1); ((fun i => if Nat.eqb i 0 then 1 else -1), 1); ((fun i => if Nat.eqb i 0 then -1 else 1), 1)].
Example C49_example : symmetric 2 ident /\ posdef 2 ident /\ (exists C, np_cov C49_data = Some C /\ posdef 2 C /\ agree 2 C (fun i j => 4 / 3 * ident i j)).
Proof.
  split; [exact (ident_sym 2)|]. split; [exact (ident_posdef 2)|].
  assert (EF : cov_fact C49_data = 3) by (unfold cov_fact, sumf; cbn; field).
  assert (EM : forall i, (i < 2)%nat -> wmean C49_data i = 0) by (intros [|[|i]] Hi; [| |lia]; unfold wmean, sumf; cbn; field).
  exists (fun i j => sumf (fun dw : pt * R => snd dw * (fst dw i - wmean C49_data i) * (fst dw j - wmean C49_data j)) C49_data / cov_fact C49_data).
  assert (HA : agree 2 (fun i j => sumf (fun dw : pt * R => snd dw * (fst dw i - wmean C49_data i) * (fst dw j - wmean C49_data j)) C49_data / cov_fact C49_data)
     (fun i j => 4 / 3 * ident i j)).
  { intros i j Hi Hj. rewrite EF, !EM by assumption. unfold sumf. destruct i as [|[|i]], j as [|[|j]]; try lia; cbn; field. }
  split; [unfold np_cov; rewrite EF, (proj2 (Rleb_false 3 0)) by lra; reflexivity|]. split; [|exact HA].
  intros x [i [Hi Hx]]. rewrite (quad_ext 2 _ (fun i j => 4 / 3 * ident i j) x x HA) by reflexivity. unfold quad. cbn.
  assert (0 < x i * x i) by (apply Rlt_0_sqr; exact Hx). pose proof (Rle_0_sqr (x O)) as P0. pose proof (Rle_0_sqr (x 1%nat)) as P1. unfold Rsqr in *.
  destruct i as [|[|i]]; [| |lia]; lra.
Qed.

(** * C65 *)
(** Every entry: weight in the bin, divided by its width and by the total weight as asked for. *)
Theorem C65_entries : forall data edges weights dens prob, length (the_weights data weights) = length data -> nondecr edges = true ->
  exists h, histogram data edges weights dens prob = Ok (h, edges) /\ length h = (length edges - 1)%nat
   /\ forall i, (i < length edges - 1)%nat ->
      vget h i = sumf (fun xw : R * R => if in_bin edges i (fst xw) then snd xw else 0) (combine data (the_weights data weights))
                 / (if dens then vget edges (S i) - vget edges i else 1) / (if prob then lsum (the_weights data weights) else 1).
Proof. exact histogram_entries. Qed.
Print Assumptions C65_entries.

Theorem C65_counts : forall data edges weights, length (the_weights data weights) = length data -> nondecr edges = true -> (2 <= length edges)%nat ->
  exists h, histogram data edges weights false false = Ok (h, edges)
    /\ lsum h = weight_in (vget edges 0) (vget edges (length edges - 1)) data (the_weights data weights).
Proof. exact histogram_counts. Qed.
Print Assumptions C65_counts.

Theorem C65_integral : forall data edges weights prob, length (the_weights data weights) = length data -> incr_list edges -> (2 <= length edges)%nat ->
  exists h, histogram data edges weights true prob = Ok (h, edges)
    /\ rsum (length edges - 1) (fun i => vget h i * (vget edges (S i) - vget edges i))
       = weight_in (vget edges 0) (vget edges (length edges - 1)) data (the_weights data weights)
         / (if prob then lsum (the_weights data weights) else 1).
Proof. exact histogram_integral. Qed.
Print Assumptions C65_integral.

Theorem C65_integral_one : forall data edges weights, length (the_weights data weights) = length data -> incr_list edges -> (2 <= length edges)%nat ->
  (forall x, In x data -> vget edges 0 <= x <= vget edges (length edges - 1)) -> lsum (the_weights data weights) <> 0 ->
  exists h, histogram data edges weights true true = Ok (h, edges)
    /\ rsum (length edges - 1) (fun i => vget h i * (vget edges (S i) - vget edges i)) = 1.
Proof. exact histogram_integral_one. Qed.
Print Assumptions C65_integral_one.

Theorem C65_errors : forall data edges weights dens prob,
  length (the_weights data weights) <> length data \/ nondecr edges = false -> histogram data edges weights dens prob = Err ValueError.
Proof. exact histogram_errors. Qed.
Print Assumptions C65_errors.

Example C65_example : length (the_weights [0; 1; 2] (Some [1; 2; 3])) = length [0; 1; 2] /\ incr_list [0; 1; 2] /\ nondecr [0; 1; 2] = true
  /\ histogram [0; 1; 2] [0; 1; 2] (Some [1; 2; 3]) false false = Ok ([1 + 0; 0 + (2 + (3 + 0))], [0; 1; 2]) /\ nondecr [1; 0] = false.
Proof.
  split; [reflexivity|]. split; [apply incr_list_step; intros [|[|i]] Hi; cbn in *; try lra; lia|].
  assert (E : nondecr [0; 1; 2] = true) by (apply nondecr_spec; intros [|[|i]] Hi; cbn in *; try lra; lia). split; [exact E|].
  split; [|cbn; rewrite (proj2 (Rleb_false 1 0)) by lra; reflexivity].
  unfold histogram. cbn [length Nat.eqb negb]. rewrite E. cbn [negb]. do 2 f_equal. unfold np_histogram, sumf, in_bin, vget. cbn.
  repeat (match goal with |- context [Rleb ?a ?b] => destruct (Rleb_spec a b) | |- context [Rltb ?a ?b] => destruct (Rltb_spec a b) end; try lra; cbn).
  repeat f_equal; lra.
Qed.

(** * C68 *)
Theorem C68_flatten_order : forall A strict (t : tree A) f, flatten strict t = Ok f -> elements f = leaves t.
Proof. exact @flatten_leaves. Qed.
Print Assumptions C68_flatten_order.

Theorem C68_flatlen_agrees : forall A strict (t : tree A) f, flatten strict t = Ok f -> flatlen strict t = Ok (length (elements f)).
Proof. exact @flatten_flatlen. Qed.
Print Assumptions C68_flatlen_agrees.

Theorem C68_flatlen_counts : forall A strict (t : tree A) n, flatlen strict t = Ok n -> n = length (leaves t).
Proof. exact @flatlen_leaves. Qed.
Print Assumptions C68_flatlen_counts.

Theorem C68_flatlen_total : forall A (t : tree A), flatlen false t = Ok (length (leaves t)).
Proof. exact @flatlen_total. Qed.
Print Assumptions C68_flatlen_total.

Theorem C68_flatten_defined : forall A (t : tree A), (exists f, flatten false t = Ok f) <-> unmixed t.
Proof. exact @flatten_ok_iff. Qed.
Print Assumptions C68_flatten_defined.

Theorem C68_flatten_defined_strict : forall A (l : list (tree A)), (exists f, flatten true (Node l) = Ok f) <->
  (forall s, In s l -> exists a, s = Leaf a) \/ (forall s, In s l -> (exists m, s = Node m) /\ tshape s <> None).
Proof. exact @flatten_strict_iff. Qed.
Print Assumptions C68_flatten_defined_strict.

Theorem C68_really1d : forall A strict (t : tree A), really1d strict t = Ok true <-> exists l, t = Node l /\ forall s, In s l -> exists a, s = Leaf a.
Proof. exact @really1d_flat. Qed.
Print Assumptions C68_really1d.

Example C68_example : flatten true (Node [Node [Leaf 1%nat; Leaf 2%nat]; Node [Leaf 3%nat]]) = Ok (FVec [1%nat; 2%nat; 3%nat])
  /\ flatten false (Node [Leaf 1%nat; Node [Leaf 2%nat]]) = Err ValueError /\ flatlen false (Node [Leaf 1%nat; Node [Leaf 2%nat]]) = Ok 2%nat.
Proof. repeat split. Qed.

(** * C69 *)
Theorem C69_linear : forall data num lo hi dex, (2 <= num)%nat -> min_of data lo -> max_of data hi ->
  exists l, spacing data false None StNone StNone None ScLin (Some num) dex = Some (Ok l) /\ length l = num /\ uniform l lo hi.
Proof. exact spacing_linear. Qed.
Print Assumptions C69_linear.

Theorem C69_log : forall data positive num lo hi dex, (2 <= num)%nat -> (forall x, In x data -> 0 < x) -> min_of data lo -> max_of data hi ->
  exists l, spacing data positive None StNone StNone None ScLog (Some num) dex = Some (Ok l) /\ length l = num
    /\ nth 0 l 0 = lo /\ nth (num - 1) l 0 = hi /\ uniform (map log10 l) (log10 lo) (log10 hi).
Proof. exact spacing_log. Qed.
Print Assumptions C69_log.

Theorem C69_log_default : forall data positive lo hi dex, 0 <= dex -> (forall x, In x data -> 0 < x) -> min_of data lo -> max_of data hi ->
  exists l, spacing data positive None StNone StNone None ScLog None dex = Some (Ok l)
    /\ (log10 hi - log10 lo) * dex <= INR (length l - 1) < (log10 hi - log10 lo) * dex + 1.
Proof. exact spacing_log_default. Qed.
Print Assumptions C69_log_default.

Theorem C69_bad_scale : forall data positive prev st ls lim num dex, spacing data positive prev st ls lim ScOther num dex = Some (Err RuntimeError).
Proof. exact spacing_bad_scale. Qed.
Print Assumptions C69_bad_scale.

Example C69_example : min_of [10; 1] 1 /\ max_of [10; 1] 10 /\ (forall x, In x [10; 1] -> 0 < x).
Proof. split; [|split]; [split; [cbn; tauto|]|split; [cbn; tauto|]|]; intros x Hx; cbn in Hx; intuition lra. Qed.
