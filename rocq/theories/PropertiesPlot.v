(** Properties C60, C61, C62, C66, C67, C81-C85: confidence bands, contour levels, outlines of histograms, padding, masks. *)
From Coq Require Import Permutation ZArith.
From Verif Require Import Base ModelLinAlg ModelKernels ModelKDE ModelInterp ModelResample ModelUtils ModelNd ModelGrid ModelSample
  SpecUtils SpecNd ModelPlot SpecPlot ProofInterp ProofUtils ProofUtils2 ProofNd ProofSample ProofPlot ProofPlot2 ProofPlot3 ProofPlot4.
Open Scope R_scope.
Notation length := List.length.

(** * C60 *)
(** One band for each fraction ... *)
Theorem C60_total : forall sorter data weights qs, sorts sorter -> nice data weights ->
  exists med bands, confidence sorter data weights (Some qs) = Ok (med, bands) /\ length bands = length qs.
Proof. exact confidence_total. Qed.
Print Assumptions C60_total.

(** ... containing the median line ... *)
Theorem C60_median : forall sorter data weights qs med bands j, sorts sorter -> nice data weights ->
  confidence sorter data weights (Some qs) = Ok (med, bands) -> (j < length qs)%nat -> 0 <= nth j qs 0 ->
  fst (nth j bands (0, 0)) <= med <= snd (nth j bands (0, 0)).
Proof. exact confidence_median. Qed.
Print Assumptions C60_median.

(** ... larger ones containing smaller ones ... *)
Theorem C60_nested : forall sorter data weights qs med bands i j, sorts sorter -> nice data weights ->
  confidence sorter data weights (Some qs) = Ok (med, bands) -> (i < length qs)%nat -> (j < length qs)%nat -> nth i qs 0 <= nth j qs 0 ->
  fst (nth j bands (0, 0)) <= fst (nth i bands (0, 0)) /\ snd (nth i bands (0, 0)) <= snd (nth j bands (0, 0)).
Proof. exact confidence_nested. Qed.
Print Assumptions C60_nested.

(** ... within the range of the data. *)
Theorem C60_range : forall sorter data weights qs med bands lo hi, sorts sorter -> nice data weights -> min_of data lo -> max_of data hi ->
  confidence sorter data weights (Some qs) = Ok (med, bands) ->
  lo <= med <= hi /\ forall b, In b bands -> (lo <= fst b <= hi) /\ (lo <= snd b <= hi).
Proof. exact confidence_range. Qed.
Print Assumptions C60_range.

(** With weights a band for the fraction q holds that fraction of the weight, up to the heaviest weight: the closed band at least, the open one at most. *)
Theorem C60_weight : forall sorter data ws qs med bands j m, sorts sorter -> data <> [] -> length ws = length data -> all_pos ws ->
  (forall w, In w ws -> w <= m) -> confidence sorter data (Some ws) (Some qs) = Ok (med, bands) -> (j < length qs)%nat -> 0 <= nth j qs 0 <= 1 ->
  nth j qs 0 * lsum ws - m < weight_in (fst (nth j bands (0, 0))) (snd (nth j bands (0, 0))) data ws
  /\ weight_between (fst (nth j bands (0, 0))) (snd (nth j bands (0, 0))) data ws <= nth j qs 0 * lsum ws + m.
Proof. exact confidence_weight. Qed.
Print Assumptions C60_weight.

(** Without weights: that fraction of the number of data, up to one. *)
Theorem C60_count : forall sorter data qs med bands j, sorts sorter -> data <> [] ->
  confidence sorter data None (Some qs) = Ok (med, bands) -> (j < length qs)%nat -> 0 <= nth j qs 0 <= 1 ->
  nth j qs 0 * (INR (length data) - 1) - 1 < weight_in (fst (nth j bands (0, 0))) (snd (nth j bands (0, 0))) data (map (fun _ => 1) data)
  /\ weight_between (fst (nth j bands (0, 0))) (snd (nth j bands (0, 0))) data (map (fun _ => 1) data) <= nth j qs 0 * (INR (length data) - 1) + 1.
Proof. exact confidence_count. Qed.
Print Assumptions C60_count.

(** Without data, or with too few weights: an error. *)
Theorem C60_errors : forall sorter ws qs data, confidence sorter [] None qs = Err ValueError
  /\ ((length ws < length data)%nat -> confidence sorter data (Some ws) qs = Err IndexError).
Proof. exact confidence_errors. Qed.
Print Assumptions C60_errors.

Example C60_example : nice [3; 1; 2] (Some [1; 2; 1]) /\ sorts isort /\ min_of [3; 1; 2] 1 /\ max_of [3; 1; 2] 3 /\ all_pos [1; 2; 1]
  /\ exists med b1 b2, confidence isort [3; 1; 2] (Some [1; 2; 1]) (Some [1 / 2; 9 / 10]) = Ok (med, [b1; b2]).
Proof.
  assert (N : nice [3; 1; 2] (Some [1; 2; 1])). { split; [discriminate|]. split; [reflexivity|]. intros w [<-|[<-|[<-|[]]]]; lra. }
  split; [exact N|]. split; [exact isort_sorts|]. split; [split; [cbn; auto|intros x [<-|[<-|[<-|[]]]]; lra]|].
  split; [split; [cbn; auto|intros x [<-|[<-|[<-|[]]]]; lra]|]. split; [apply N|].
  destruct (confidence_total isort [3; 1; 2] (Some [1; 2; 1]) [1 / 2; 9 / 10] isort_sorts N) as (med & bands & E & L).
  destruct bands as [|b1 [|b2 [|b3 r]]]; try discriminate L. exists med, b1, b2. exact E.
Qed.

(** * C61 *)
(** For a histogram of values not negative, not all zero: one level for each fraction, sorted. *)
Theorem C61_levels : forall a quantiles sigmas, (forall v, entry a v -> 0 <= v) -> 0 < total_of a ->
  exists sg levels qs ls, dfm_levels a quantiles sigmas = Ok (sg, levels, qs) /\ (qs, sg) = default_quantiles quantiles sigmas
  /\ Forall2 (level_for a) qs ls /\ Permutation ls levels /\ nondecr_list levels.
Proof. exact dfm_levels_spec. Qed.
Print Assumptions C61_levels.

(** The level belonging to a fraction is determined ... *)
Theorem C61_unique : forall a q v v', level_for a q v -> level_for a q v' -> v = v'.
Proof. exact level_unique. Qed.
Print Assumptions C61_unique.

(** ... what lies above it is at most that fraction of the total; any lower value encloses more ... *)
Theorem C61_encloses : forall a q v, 0 <= q -> 0 <= total_of a -> (forall u, entry a u -> 0 <= u) -> level_for a q v ->
  above a v <= q * total_of a /\ forall u, entry a u -> u < v -> q * total_of a < above a u + u.
Proof. exact level_encloses. Qed.
Print Assumptions C61_encloses.

(** ... and it does not increase with the fraction. *)
Theorem C61_monotone : forall a q q' v v', 0 <= total_of a -> q <= q' -> level_for a q v -> level_for a q' v' -> v' <= v.
Proof. exact level_monotone. Qed.
Print Assumptions C61_monotone.

(** Sorting reverses the order: for increasing fractions the last level belongs to the first fraction. *)
Theorem C61_reversed : forall a quantiles sigmas sg levels qs, (forall v, entry a v -> 0 <= v) -> 0 < total_of a ->
  dfm_levels a quantiles sigmas = Ok (sg, levels, qs) -> nondecr_list qs ->
  length levels = length qs /\ forall i, (i < length qs)%nat -> level_for a (nth (length qs - 1 - i) qs 0) (nth i levels 0).
Proof. exact dfm_levels_reversed. Qed.
Print Assumptions C61_reversed.

(** A histogram of zeros has only zero levels ... *)
Theorem C61_zero : forall a quantiles sigmas sg levels qs, (forall v, entry a v -> v = 0) ->
  dfm_levels a quantiles sigmas = Ok (sg, levels, qs) -> length levels = length qs /\ forall v, In v levels -> v = 0.
Proof. exact dfm_levels_zero. Qed.
Print Assumptions C61_zero.

(** ... and one without values raises IndexError. *)
Theorem C61_empty : forall a quantiles sigmas, dfm_levels a quantiles sigmas = Err IndexError <-> (forall v, ~ entry a v).
Proof. exact dfm_levels_empty. Qed.
Print Assumptions C61_empty.

Example C61_example : let a := mkA [2%nat; 2%nat] (fun idx => INR (nth 0 idx 0%nat + 2 * nth 1 idx 0%nat)) in
  (forall v, entry a v -> 0 <= v) /\ total_of a = 6 /\ level_for a (1 / 2) 3 /\ level_for a (9 / 10) 2.
Proof.
  intros a.
  assert (EN : forall v, entry a v <-> v = 0 \/ v = 1 \/ v = 2 \/ v = 3).
  { intros v. split.
    - intros (idx & Hi & <-). inversion Hi as [|i n idx' sh' H1 H2]; subst. inversion H2 as [|j n' idx'' sh'' H3 H4]; subst. inversion H4; subst.
      cbn [a at_ nth]. destruct i as [|[|i]]; [| |lia]; (destruct j as [|[|j]]; [| |lia]); cbn; lra.
    - intros H. destruct H as [-> | [-> | [-> | ->]]]; [exists [0; 0]%nat|exists [1; 0]%nat|exists [0; 1]%nat|exists [1; 1]%nat]; (split; [repeat constructor|cbn; lra]). }
  assert (AB : forall v, above a v = (if Rltb v 0 then 0 else 0) + (if Rltb v 2 then 2 else 0) + ((if Rltb v 1 then 1 else 0) + (if Rltb v 3 then 3 else 0))).
  { intros v. unfold above, a. cbn. replace (1 + 1) with 2 by lra. replace (2 + 1) with 3 by lra. lra. }
  assert (T : total_of a = 6) by (unfold total_of, a; cbn; lra).
  split; [intros v Hv; apply EN in Hv; lra|]. split; [exact T|]. split.
  - split; [apply EN; lra|]. split; [left; intros u Hu; apply EN in Hu; lra|]. intros u Hu Hlt. rewrite AB, T. apply EN in Hu.
    destruct (Rltb_spec u 0), (Rltb_spec u 1), (Rltb_spec u 2), (Rltb_spec u 3); lra.
  - split; [apply EN; lra|]. split.
    + right. rewrite AB, T. destruct (Rltb_spec 2 0), (Rltb_spec 2 1), (Rltb_spec 2 2), (Rltb_spec 2 3); lra.
    + intros u Hu Hlt. rewrite AB, T. apply EN in Hu. destruct (Rltb_spec u 0), (Rltb_spec u 1), (Rltb_spec u 2), (Rltb_spec u 3); lra.
Qed.

(** * C62 *)
(** Standard deviations to fractions and back. *)
Theorem C62_sigma : forall s, 0 <= s -> sigma_of_quantile (quantile_of_sigma s) = Fin s.
Proof. exact sigma_round. Qed.
Print Assumptions C62_sigma.

(** Fractions to standard deviations and back. *)
Theorem C62_quantile : forall q, 0 <= q < 1 -> exists s, sigma_of_quantile q = Fin s /\ 0 <= s /\ quantile_of_sigma s = q.
Proof. exact quantile_round. Qed.
Print Assumptions C62_quantile.

(** The conversion is increasing, with values in [0, 1). *)
Theorem C62_increasing : forall s s', 0 <= s -> s < s' -> 0 <= quantile_of_sigma s < quantile_of_sigma s' /\ quantile_of_sigma s' < 1.
Proof. exact quantile_increasing. Qed.
Print Assumptions C62_increasing.

(** Fractions of one or outside [0, 1]. *)
Theorem C62_outside : forall q, (q = 1 -> sigma_of_quantile q = PInf) /\ (q < 0 \/ 1 < q -> sigma_of_quantile q = NaN).
Proof. exact sigma_outside. Qed.
Print Assumptions C62_outside.

(** What is used if only one, both or none are given. *)
Theorem C62_cases : (forall s, default_quantiles None (Some s) = (map quantile_of_sigma s, map Fin s))
  /\ (forall q, default_quantiles (Some q) None = (q, map sigma_of_quantile q))
  /\ (forall q s, default_quantiles (Some q) (Some s) = (q, map Fin s))
  /\ default_quantiles None None = default_quantiles None (Some [1 / 2; 1; 3 / 2; 2]).
Proof. exact default_quantiles_cases. Qed.
Print Assumptions C62_cases.

(** Giving the fractions belonging to standard deviations is the same as giving these. *)
Theorem C62_round : forall s, (forall x, In x s -> 0 <= x) ->
  default_quantiles (Some (fst (default_quantiles None (Some s)))) None = default_quantiles None (Some s).
Proof. exact default_quantiles_round. Qed.
Print Assumptions C62_round.

Example C62_example : sigma_of_quantile (quantile_of_sigma 2) = Fin 2 /\ exists s, sigma_of_quantile (1 / 2) = Fin s /\ 0 <= s /\ quantile_of_sigma s = 1 / 2.
Proof. split; [apply sigma_round; lra|apply quantile_round; lra]. Qed.

(** * C66 *)
(** The outline: the two ends of each bin at its height, a gap after each bin if joints=False. *)
Theorem C66_outline : forall edges hist rn nz pos j rot xs ys, draw_hist1d edges hist rn nz pos j rot = Ok (xs, ys) ->
  let px := if rot then ys else xs in let py := if rot then xs else ys in let s := if j then 2%nat else 3%nat in
  length edges = S (length hist) /\ length px = (s * length hist)%nat /\ length py = (s * length hist)%nat
  /\ (forall i k d, (i < length hist)%nat -> (k < 2)%nat -> c_val (nth (s * i + k) px d) = Fin (nth (i + k) edges 0))
  /\ (forall i k d, (i < length hist)%nat -> (k < 2)%nat -> unnormalised rn -> c_val (nth (s * i + k) py d) = Fin (nth i hist 0))
  /\ (forall i d, (i < length hist)%nat -> j = false -> nth (s * i + 2) px d = mkCell NaN false /\ nth (s * i + 2) py d = mkCell NaN false).
Proof. exact outline_arg. Qed.
Print Assumptions C66_outline.

(** Renormalising: the largest value drawn becomes the given number, all ratios are kept (all zero: NaN). *)
Theorem C66_renormalize : forall edges hist rn nz pos j rot xs ys r, draw_hist1d edges hist rn nz pos j rot = Ok (xs, ys) -> renormalised rn r ->
  let py := if rot then xs else ys in let s := if j then 2%nat else 3%nat in
  exists m, max_of (drawn nz hist) m /\
  forall i k d, (i < length hist)%nat -> (k < 2)%nat ->
    (m <> 0 -> c_val (nth (s * i + k) py d) = Fin (nth i hist 0 / m * r)) /\ (m = 0 -> nth i hist 0 = 0 -> c_val (nth (s * i + k) py d) = NaN).
Proof. exact outline_renormalize_arg. Qed.
Print Assumptions C66_renormalize.

(** What nonzero and positive hide. *)
Theorem C66_hidden : forall edges hist rn nz pos j rot xs ys, draw_hist1d edges hist rn nz pos j rot = Ok (xs, ys) ->
  let px := if rot then ys else xs in let py := if rot then xs else ys in let s := if j then 2%nat else 3%nat in
  forall i k d, (i < length hist)%nat -> (k < 2)%nat ->
    (c_mask (nth (s * i + k) py d) = true <->
       (nz = true /\ nth i hist 0 = 0) \/ (pos = true /\ (c_val (nth (s * i + k) py d) = NInf \/ exists y, c_val (nth (s * i + k) py d) = Fin y /\ y < 0)))
    /\ (rot = false -> c_mask (nth (s * i + k) px d) = c_mask (nth (s * i + k) py d)) /\ (rot = true -> c_mask (nth (s * i + k) px d) = false).
Proof. exact outline_hidden. Qed.
Print Assumptions C66_hidden.

(** It is drawn if there is one more edge than values ... *)
Theorem C66_total : forall edges hist rn nz pos j rot, length edges = S (length hist) -> hist <> [] -> unnormalised rn \/ drawn nz hist <> [] ->
  exists xs ys, draw_hist1d edges hist rn nz pos j rot = Ok (xs, ys).
Proof. exact outline_total_arg. Qed.
Print Assumptions C66_total.

(** ... and otherwise an error. *)
Theorem C66_mismatch : forall edges hist rn nz pos j rot, length edges <> S (length hist) \/ hist = [] -> draw_hist1d edges hist rn nz pos j rot = Err ValueError.
Proof. exact outline_mismatch. Qed.
Print Assumptions C66_mismatch.

Example C66_example : exists xs ys, draw_hist1d [0; 1; 3] [4; 2] (RnNum 10) false true true false = Ok (xs, ys)
  /\ map c_val xs = [Fin 0; Fin 1; Fin 1; Fin 3] /\ max_of (drawn false [4; 2]) 4.
Proof.
  destruct (outline_total [0; 1; 3] [4; 2] (RnNum 10) false true true false) as (xs & ys & E); [reflexivity|discriminate|intros _; discriminate|].
  exists xs, ys. split; [exact E|]. destruct (outline _ _ _ _ _ _ _ _ _ E) as (_ & L & _ & V & _). cbn in L. split.
  - destruct xs as [|a [|b [|c [|d [|e r]]]]]; try discriminate L. pose proof (V 0%nat 0%nat (mkCell NaN false)) as V0. pose proof (V 0%nat 1%nat (mkCell NaN false)) as V1.
    pose proof (V 1%nat 0%nat (mkCell NaN false)) as V2. pose proof (V 1%nat 1%nat (mkCell NaN false)) as V3. cbn in V0, V1, V2, V3. cbn. rewrite V0, V1, V2, V3 by lia. reflexivity.
  - split; [left; reflexivity|]. intros x [<-|[<-|[]]]; lra.
Qed.

(** * C67 *)
(** Padding: the values are kept, surrounded by the smallest; the edges stay increasing and of matching lengths. *)
Theorem C67_padding : forall edges hist p, (forall e, In e edges -> (2 <= length e)%nat /\ incr_list e) -> (exists v, entry hist v) ->
  exists es h lo, pad_hist edges hist p = Ok (es, h)
  /\ (exists idx, inb (shp hist) idx /\ at_ hist idx = lo) /\ (forall v, entry hist v -> lo <= v)
  /\ shp h = map (fun n => (n + 2 * p)%nat) (shp hist)
  /\ (forall idx, inb (shp hist) idx -> at_ h (shift_idx p idx) = at_ hist idx)
  /\ (forall idx, inb (shp h) idx -> (forall j, inb (shp hist) j -> idx <> shift_idx p j) -> at_ h idx = lo)
  /\ length es = length edges
  /\ (forall d, (d < length edges)%nat -> incr_list (nth d es []) /\ length (nth d es []) = (length (nth d edges []) + 2 * p)%nat
       /\ forall i, (i < length (nth d edges []))%nat -> nth (i + p) (nth d es []) 0 = nth i (nth d edges []) 0).
Proof. exact padding. Qed.
Print Assumptions C67_padding.

(** The arrays given to the contour function have one shape; edges are turned into centres of bins. *)
Theorem C67_prepared : forall edges hist e1 e2, edges = [e1; e2] ->
  (shp hist = [length e1; length e2] ->
     exists xs ys, prep_hist edges hist PadFalse = Ok ([xs; ys], hist) /\ shp xs = shp hist /\ shp ys = shp hist
     /\ forall i j, at_ xs [i; j] = nth i e1 0 /\ at_ ys [i; j] = nth j e2 0)
  /\ (map S (shp hist) = [length e1; length e2] ->
     exists xs ys, prep_hist edges hist PadFalse = Ok ([xs; ys], hist) /\ shp xs = shp hist /\ shp ys = shp hist
     /\ forall i j, inb (shp hist) [i; j] -> at_ xs [i; j] = (nth i e1 0 + nth (S i) e1 0) / 2 /\ at_ ys [i; j] = (nth j e2 0 + nth (S j) e2 0) / 2)
  /\ (shp hist <> [length e1; length e2] -> map S (shp hist) <> [length e1; length e2] -> prep_hist edges hist PadFalse = Err ValueError).
Proof. exact prepared. Qed.
Print Assumptions C67_prepared.

(** Padded as the argument asks for (True: one bin): values and centres of the old bins are kept, all arrays have one shape. *)
Theorem C67_padded : forall e1 e2 hist a p, pads_by a p -> (2 <= length e1)%nat -> (2 <= length e2)%nat -> incr_list e1 -> incr_list e2 -> map S (shp hist) = [length e1; length e2] ->
  exists xs ys h, prep_hist [e1; e2] hist a = Ok ([xs; ys], h) /\ shp h = map (fun n => (n + 2 * p)%nat) (shp hist) /\ shp xs = shp h /\ shp ys = shp h
  /\ forall i j, inb (shp hist) [i; j] -> at_ h [i + p; j + p]%nat = at_ hist [i; j]
     /\ at_ xs [i + p; j + p]%nat = (nth i e1 0 + nth (S i) e1 0) / 2 /\ at_ ys [i + p; j + p]%nat = (nth j e2 0 + nth (S j) e2 0) / 2.
Proof. exact padded_prep. Qed.
Print Assumptions C67_padded.

Example C67_example : exists es h, pad_hist [[0; 1; 2]; [0; 2]] (mkA [2%nat; 1%nat] (fun idx => INR (S (nth 0 idx 0%nat)))) 1 = Ok (es, h) /\ shp h = [4%nat; 3%nat] /\ at_ h [0; 0]%nat = 1 /\ at_ h [2; 1]%nat = 2.
Proof.
  set (a := mkA [2%nat; 1%nat] (fun idx => INR (S (nth 0 idx 0%nat)))). destruct (padding [[0; 1; 2]; [0; 2]] a 1) as (es & h & lo & E & (i0 & Hi0 & E0) & M & S & K & P & _).
  - intros e [<-|[<-|[]]]; (split; [cbn; lia|apply incr_step]); [intros [|[|i]] Hi; cbn in *; [lra|lra|lia]|intros [|i] Hi; cbn in *; [lra|lia]].
  - exists 1, [0; 0]%nat. split; [repeat constructor|reflexivity].
  - exists es, h. split; [exact E|]. split; [exact S|]. split.
    + rewrite (P [0; 0]%nat).
      * apply Rle_antisym; [apply M; exists [0; 0]%nat; split; [repeat constructor|reflexivity]|]. rewrite <- E0. cbn [a at_]. rewrite S_INR. pose proof (pos_INR (nth 0 i0 0%nat)). lra.
      * rewrite S. repeat constructor.
      * intros j Hj Q. destruct j as [|x j]; [discriminate Q|]. cbn in Q. injection Q as Q _. lia.
    + pose proof (K [1; 0]%nat) as K1. cbn in K1. rewrite K1 by (repeat constructor). lra.
Qed.

(** * C81 *)
(** Equal weights never raise the median or an end of a band ... *)
Theorem C81_lower : forall sorter data w qs med bands med' bands', sorts sorter -> data <> [] -> 0 < w ->
  confidence sorter data None (Some qs) = Ok (med, bands) -> confidence sorter data (Some (map (fun _ => w) data)) (Some qs) = Ok (med', bands') ->
  med' <= med /\ forall j, (j < length qs)%nat -> fst (nth j bands' (0, 0)) <= fst (nth j bands (0, 0)) /\ snd (nth j bands' (0, 0)) <= snd (nth j bands (0, 0)).
Proof. exact equal_weights_lower. Qed.
Print Assumptions C81_lower.

(** ... and do change them. *)
Theorem C81_refuted : exists sorter data w med med', sorts sorter /\ data = [0; 1] /\ w = 1
  /\ confidence sorter data None (Some []) = Ok (med, []) /\ confidence sorter data (Some (map (fun _ => w) data)) (Some []) = Ok (med', []) /\ med = 1 / 2 /\ med' = 0.
Proof. exact equal_weights_refuted. Qed.
Print Assumptions C81_refuted.

Example C81_example : forall w qs, 0 < w -> exists med bands med' bands', sorts isort /\ confidence isort [0; 1] None (Some qs) = Ok (med, bands) /\ confidence isort [0; 1] (Some (map (fun _ => w) [0; 1])) (Some qs) = Ok (med', bands').
Proof.
  intros w qs Hw. destruct (confidence_total isort [0; 1] None qs isort_sorts) as (m & b & E & _); [split; [discriminate|]; split; [reflexivity|intros v [<-|[<-|[]]]; lra]|].
  destruct (confidence_total isort [0; 1] (Some (map (fun _ => w) [0; 1])) qs isort_sorts) as (m' & b' & E' & _); [split; [discriminate|]; split; [reflexivity|intros v [<-|[<-|[]]]; lra]|].
  exists m, b, m', b'. split; [exact isort_sorts|]. split; assumption.
Qed.

(** * C82 *)
(** The bands drawn by dist1d do not depend on the weights ... *)
Theorem C82_unweighted : forall sorter data weights quantiles, dist1d_bands sorter data weights quantiles = dist1d_bands sorter data None quantiles.
Proof. exact dist1d_bands_unweighted. Qed.
Print Assumptions C82_unweighted.

(** ... they hold the fraction asked for of the number of data, up to one ... *)
Theorem C82_count : forall sorter data weights qs med bands j, sorts sorter -> data <> [] ->
  dist1d_bands sorter data weights (Some qs) = Ok (med, bands) -> (j < length qs)%nat -> 0 <= nth j qs 0 <= 1 ->
  nth j qs 0 * (INR (length data) - 1) - 1 < weight_in (fst (nth j bands (0, 0))) (snd (nth j bands (0, 0))) data (map (fun _ => 1) data)
  /\ weight_between (fst (nth j bands (0, 0))) (snd (nth j bands (0, 0))) data (map (fun _ => 1) data) <= nth j qs 0 * (INR (length data) - 1) + 1.
Proof. exact dist1d_bands_count. Qed.
Print Assumptions C82_count.

(** ... so the band for one half may hold any small part of the weight. *)
Theorem C82_refuted : forall eps, 0 < eps -> exists sorter data ws med lo hi, sorts sorter /\ data <> [] /\ length ws = length data /\ all_pos ws
  /\ dist1d_bands sorter data (Some ws) (Some [1 / 2]) = Ok (med, [(lo, hi)]) /\ weight_in lo hi data ws < eps * lsum ws.
Proof. exact dist1d_bands_refuted. Qed.
Print Assumptions C82_refuted.

(** * C83 *)
(** upsample=False: no smoothing (or a filter of width zero) whatever was asked for ... *)
Theorem C83_off : forall s, smooth_width s NaFalse = None \/ smooth_width s NaFalse = Some 0.
Proof. exact smooth_off_with_upsample. Qed.
Print Assumptions C83_off.

(** ... upsample=None: the width asked for ... *)
Theorem C83_none : forall s w, smooth_width s NaNone = Some w <-> (w <> 0 /\ (s = NaNum w \/ (s = NaTrue /\ w = 1))).
Proof. exact smooth_without_upsample. Qed.
Print Assumptions C83_none.

(** ... and otherwise this width in units of the original bins. *)
Theorem C83_scales : forall w k, w <> 0 -> smooth_width (NaNum w) (NaNum k) = Some (w * k).
Proof. exact smooth_scales. Qed.
Print Assumptions C83_scales.

Example C83_example : smooth_width (NaNum 1) NaFalse = Some 0 /\ smooth_width (NaNum 1) NaNone = Some 1 /\ smooth_width (NaNum 1) (NaNum 2) = Some 2.
Proof.
  split; [destruct (smooth_off_with_upsample (NaNum 1)) as [H|H]; [|exact H]; unfold smooth_width in H; cbn in H; destruct (Reqb_spec 1 0); [lra|discriminate H]|].
  split; [apply smooth_without_upsample; split; [lra|left; reflexivity]|]. rewrite smooth_scales by lra. f_equal. lra.
Qed.

(** * C84 *)
(** Which bins mask_below=True hides. *)
Theorem C84_mask_true : forall ex ey data ws i j, (2 <= length ex)%nat -> (2 <= length ey)%nat -> incr_list ex -> incr_list ey -> length ws = length data -> 0 < lsum ws -> data <> [] ->
  (forall p, In p data -> (vget ex 0 <= fst p <= vget ex (length ex - 1)) /\ (vget ey 0 <= snd p <= vget ey (length ey - 1))) ->
  (S i < length ex)%nat -> (S j < length ey)%nat ->
  (hist2d ex ey data ws MbTrue i j = None
   <-> bin_weight2d ex ey data ws i j <= 9 / 10 * (lsum ws / INR (length data)) * ((nth (S i) ex 0 - nth i ex 0) * (nth (S j) ey 0 - nth j ey 0))).
Proof. exact mask_true. Qed.
Print Assumptions C84_mask_true.

(** For bins of area at most one, without weights: the empty ones  ... *)
Theorem C84_small_bins : forall ex ey data i j, (2 <= length ex)%nat -> (2 <= length ey)%nat -> incr_list ex -> incr_list ey -> data <> [] ->
  (forall p, In p data -> (vget ex 0 <= fst p <= vget ex (length ex - 1)) /\ (vget ey 0 <= snd p <= vget ey (length ey - 1))) ->
  (S i < length ex)%nat -> (S j < length ey)%nat -> (nth (S i) ex 0 - nth i ex 0) * (nth (S j) ey 0 - nth j ey 0) <= 1 ->
  (hist2d ex ey data (map (fun _ => 1) data) MbTrue i j = None <-> forall x y, In (x, y) data -> ~ (in_bin ex i x = true /\ in_bin ey j y = true)).
Proof. exact mask_true_empty. Qed.
Print Assumptions C84_small_bins.

(** ... but larger bins are hidden although they hold data. *)
Theorem C84_refuted : exists ex ey data, incr_list ex /\ incr_list ey /\ data <> []
  /\ (forall p, In p data -> (vget ex 0 <= fst p <= vget ex (length ex - 1)) /\ (vget ey 0 <= snd p <= vget ey (length ey - 1)))
  /\ (exists x y, In (x, y) data /\ in_bin ex 0 x = true /\ in_bin ey 0 y = true)
  /\ hist2d ex ey data (map (fun _ => 1) data) MbTrue 0 0 = None.
Proof. exact mask_true_refuted. Qed.
Print Assumptions C84_refuted.

(** Thresholds given as numbers; 0 and False hide nothing. *)
Theorem C84_number : forall ex ey data ws i j r, (r <> 0 -> (hist2d ex ey data ws (MbNum r) i j = None <-> density2d ex ey data ws i j <= r))
  /\ hist2d ex ey data ws (MbNum 0) i j = Some (density2d ex ey data ws i j) /\ hist2d ex ey data ws MbFalse i j = Some (density2d ex ey data ws i j).
Proof. exact mask_number. Qed.
Print Assumptions C84_number.

Example C84_example : (forall p : R * R, In p [(1, 1)] -> (vget [0; 2] 0 <= fst p <= vget [0; 2] (length [0; 2] - 1)) /\ (vget [0; 1] 0 <= snd p <= vget [0; 1] (length [0; 1] - 1)))
  /\ hist2d [0; 2] [0; 1] [(1, 1)] [1] MbTrue 0 0 = None /\ hist2d [0; 2] [0; 1] [(1, 1)] [1] MbFalse 0 0 <> None.
Proof.
  assert (I1 : incr_list [0; 2]) by (apply incr_step; intros [|i] Hi; cbn in *; [lra|lia]).
  assert (I2 : incr_list [0; 1]) by (apply incr_step; intros [|i] Hi; cbn in *; [lra|lia]).
  assert (HIN : forall p : R * R, In p [(1, 1)] -> (vget [0; 2] 0 <= fst p <= vget [0; 2] (length [0; 2] - 1)) /\ (vget [0; 1] 0 <= snd p <= vget [0; 1] (length [0; 1] - 1))) by (intros p [<-|[]]; cbn; lra).
  split; [exact HIN|]. split; [|destruct (mask_number [0; 2] [0; 1] [(1, 1)] [1] 0 0 0) as (_ & _ & ->); discriminate].
  apply mask_true; try assumption; try (cbn; lia); try reflexivity; try discriminate; [cbn; lra|]. unfold bin_weight2d. cbn. unfold sumf. cbn. destruct (andb _ _); lra.
Qed.

(** * C85 *)
(** The meaning of the arguments scatter and carpet. *)
Theorem C85_argument : scatter_limit NaTrue = Ok (Some None) /\ scatter_limit NaFalse = Ok None /\ scatter_limit NaNone = Ok None
  /\ (forall r, r < 1 -> scatter_limit (NaNum r) = Err ValueError)
  /\ (forall r, 1 <= r -> exists k, scatter_limit (NaNum r) = Ok (Some (Some k)) /\ (1 <= k)%nat /\ INR k <= r < INR k + 1).
Proof. exact scatter_limit_cases. Qed.
Print Assumptions C85_argument.

(** How many and which points are drawn. *)
Theorem C85_points : forall (A : Type) (limit : option nat) (sel : nat -> nat -> list nat) (d : A) (xs : list A), (forall n k, (k <= n)%nat -> length (sel n k) = k /\ NoDup (sel n k) /\ forall i, In i (sel n k) -> (i < n)%nat) ->
  match limit with
  | Some k => length (limited limit sel d xs) = Nat.min k (length xs) /\ (exists is, NoDup is /\ (forall i, In i is -> (i < length xs)%nat) /\ limited limit sel d xs = map (fun i => nth i xs d) is)
              /\ ((length xs <= k)%nat -> limited limit sel d xs = xs)
  | None => limited limit sel d xs = xs
  end.
Proof. exact limited_points. Qed.
Print Assumptions C85_points.

Example C85_example : exists k, scatter_limit (NaNum (5 / 2)) = Ok (Some (Some k)) /\ (1 <= k)%nat /\ limited (Some 2%nat) (fun _ k => seq 0 k) 0 [7; 8; 9] = [7; 8].
Proof. destruct scatter_limit_cases as (_ & _ & _ & _ & H). destruct (H (5 / 2)) as (k & E & K & _); [lra|]. exists k. auto. Qed.

