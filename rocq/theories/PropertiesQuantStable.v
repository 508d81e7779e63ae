(** C149: quantiles and confidence bands in other units and of perturbed data. *)
From Verif Require Import Base ModelUtils ModelPlot SpecUtils SpecPlot SpecSymmetric SpecQuantStable ProofUtils2 ProofQuantStable.
Open Scope R_scope.
Notation length := List.length.

(** * C149 *)
(** Quantiles follow the units of the numbers, if equal numbers have equal weights ... *)
Theorem C149_units : forall sorter sorter' a b values ws ps, sorts sorter -> sorts sorter' -> 0 < a -> values <> [] -> length ws = length values -> fair values ws -> fractions ps ->
  exists qs, quantiles sorter values (Some ps) (Some ws) false = Ok qs /\ quantiles sorter' (map (rescaled a b) values) (Some ps) (Some ws) false = Ok (map (rescaled a b) qs).
Proof. exact quantiles_units. Qed.
Print Assumptions C149_units.

(** ... and so do the median line and the confidence bands. *)
Theorem C149_band_units : forall sorter sorter' a b data weights qs med bands, sorts sorter -> sorts sorter' -> 0 < a -> nice data weights -> fair data (the_weights data weights) ->
  confidence sorter data weights qs = Ok (med, bands) -> confidence sorter' (map (rescaled a b) data) weights qs = Ok (rescaled a b med, map (band_resc a b) bands).
Proof. exact bands_units. Qed.
Print Assumptions C149_band_units.

(** Without weights: larger numbers have larger quantiles ... *)
Theorem C149_monotone : forall sorter sorter' values values' ps, sorts sorter -> sorts sorter' -> values <> [] -> below values values' -> fractions ps ->
  exists qs qs', quantiles sorter values (Some ps) None false = Ok qs /\ quantiles sorter' values' (Some ps) None false = Ok qs' /\ below qs qs'.
Proof. exact quantiles_monotone. Qed.
Print Assumptions C149_monotone.

(** ... and moving every number by at most [delta] moves quantiles ... *)
Theorem C149_stable : forall sorter sorter' delta values values' ps, sorts sorter -> sorts sorter' -> values <> [] -> close_by delta values values' -> fractions ps ->
  exists qs qs', quantiles sorter values (Some ps) None false = Ok qs /\ quantiles sorter' values' (Some ps) None false = Ok qs' /\ close_by delta qs qs'.
Proof. exact quantiles_stable. Qed.
Print Assumptions C149_stable.

(** ... and bands by at most [delta]. *)
Theorem C149_band_stable : forall sorter sorter' delta data data' qs, data <> [] -> close_by delta data data' ->
  exists med bands med' bands', confidence sorter data None qs = Ok (med, bands) /\ confidence sorter' data' None qs = Ok (med', bands')
  /\ Rabs (med - med') <= delta /\ close_by delta (map fst bands) (map fst bands') /\ close_by delta (map snd bands) (map snd bands').
Proof. exact bands_stable. Qed.
Print Assumptions C149_band_stable.

(** The same with weights: refuted, arbitrarily small movements change a quantile by more than a half (of a range of one). *)
Theorem C149_weighted_refuted : forall eps, 0 < eps < 1 / 4 -> exists values values' ws p, length ws = length values /\ all_pos ws /\ 0 <= p <= 1 /\ close_by eps values values'
  /\ forall sorter, sorts sorter -> exists q q', quantiles sorter values (Some [p]) (Some ws) false = Ok [q] /\ quantiles sorter values' (Some [p]) (Some ws) false = Ok [q'] /\ 1 / 2 < q - q'.
Proof. exact weighted_unstable. Qed.
Print Assumptions C149_weighted_refuted.

(** Whole weights as repeat counts: refuted, the quantiles of 0, 1, 2 with the weights 1, 1, 2 are not those of 0, 1, 2, 2. *)
Theorem C149_repeats_refuted : exists values ws p, length ws = length values /\ (forall w, In w ws -> exists k : nat, (0 < k)%nat /\ w = INR k) /\ 0 <= p <= 1
  /\ forall sorter, sorts sorter -> exists q q', quantiles sorter values (Some [p]) (Some ws) false = Ok [q]
     /\ quantiles sorter (flat_map (fun vk => repeat (fst vk) (snd vk)) (combine values [1%nat; 1%nat; 2%nat])) (Some [p]) None false = Ok [q'] /\ ws = map INR [1%nat; 1%nat; 2%nat] /\ q <> q'.
Proof. exact repeats_differ. Qed.
Print Assumptions C149_repeats_refuted.

Example C149_example : sorts isort /\ length [1; 2; 1] = length [3; 1; 2] /\ fair [3; 1; 2] [1; 2; 1] /\ nice [3; 1; 2] (Some [1; 2; 1]) /\ fractions [0; 1 / 2; 1]
  /\ below [3; 1; 2] [4; 1; 2] /\ close_by 1 [3; 1; 2] [4; 1; 2] /\ exists med bands, confidence isort [3; 1; 2] (Some [1; 2; 1]) None = Ok (med, bands).
Proof.
  split; [exact isort_sorts|]. split; [reflexivity|]. split.
  { intros p q Hp Hq E. cbn in Hp, Hq. destruct Hp as [<-|[<-|[<-|[]]]], Hq as [<-|[<-|[<-|[]]]]; cbn in E; try reflexivity; lra. }
  split; [split; [discriminate|split; [reflexivity|intros w [<-|[<-|[<-|[]]]]; lra]]|]. split; [intros p [<-|[<-|[<-|[]]]]; lra|].
  split; [repeat constructor; lra|]. split; [repeat constructor; unfold Rabs; destruct (Rcase_abs _); lra|]. unfold confidence. cbn [conf_table bind length Nat.ltb Nat.leb]. eexists. eexists. reflexivity.
Qed.
