(** Quantiles and confidence bands in other units and of perturbed data. *)
From Coq Require Import ZArith Permutation.
From Verif Require Import Base ModelLinAlg ModelKernels ModelKDE ModelInterp ModelResample ModelUtils ModelNd ModelGrid ModelSample ModelPlot
  SpecUtils SpecNd SpecPlot SpecSymmetric SpecQuantStable ProofInterp ProofUtils ProofUtils2 ProofUtils4 ProofNested ProofNd ProofNd2 ProofGrid ProofGrid2 ProofSample ProofSample3 ProofPlot ProofPlot4 ProofDensity ProofSymmetric.
Open Scope R_scope.
Notation length := List.length.

(** * Interpolation *)
Lemma bin_lt x m v : (1 <= m)%nat -> (interp_bin x m v < m)%nat.
Proof. intros H. unfold interp_bin. lia. Qed.
Lemma np_interp_ext x x' y y' m v : (forall i, (i <= m)%nat -> x i = x' i) -> (forall i, (i <= m)%nat -> y i = y' i) -> (forall i, x i = x' i) -> np_interp x y m v = np_interp x' y' m v.
Proof.
  intros Hx Hy Hxx. destruct m as [|m]; [rewrite !np_interp_zero; apply Hy; lia|]. unfold np_interp. rewrite !(Hx O), !(Hx (S m)), (Hy O), (Hy (S m)) by lia.
  assert (ES : forall n i, ssleft x v n i = ssleft x' v n i) by (induction n as [|n IH]; intros i; cbn; [reflexivity|]; rewrite (Hxx i), IH; reflexivity).
  assert (EB : interp_bin x (S m) v = interp_bin x' (S m) v) by (unfold interp_bin; rewrite ES; reflexivity).
  unfold interp. rewrite EB. assert (L := bin_lt x' (S m) v ltac:(lia)). cbv zeta. rewrite !Hy, !Hx by lia. reflexivity.
Qed.
Lemma np_interp_affine x y y' m v a b : (forall i, (i <= m)%nat -> y' i = rescaled a b (y i)) -> np_interp x y' m v = rescaled a b (np_interp x y m v).
Proof.
  intros Hy. destruct m as [|m]; [rewrite !np_interp_zero; apply Hy; lia|]. unfold np_interp. rewrite (Hy O), (Hy (S m)) by lia.
  destruct (Rltb v (x O)); [reflexivity|]. destruct (Rltb (x (S m)) v); [reflexivity|]. unfold interp. assert (L := bin_lt x (S m) v ltac:(lia)). cbv zeta. set (k := interp_bin x (S m) v) in *.
  rewrite !Hy by lia. unfold rescaled. unfold Rdiv. ring.
Qed.
Lemma np_interp_dom x y y' m v : increasing x m -> (forall i, (i <= m)%nat -> y i <= y' i) -> np_interp x y m v <= np_interp x y' m v.
Proof.
  intros Hx Hy. destruct m as [|m]; [rewrite !np_interp_zero; apply Hy; lia|]. unfold np_interp.
  destruct (Rltb_spec v (x O)); [apply Hy; lia|]. destruct (Rltb_spec (x (S m)) v); [apply Hy; lia|].
  destruct (interp_bin_spec x (S m) v ltac:(lia) (incr_nondecr _ _ Hx) ltac:(lra)) as [L B]. unfold interp. cbv zeta. set (k := interp_bin x (S m) v) in *.
  assert (D := Hx k (S k) ltac:(lia) ltac:(lia)). assert (A0 := Hy k ltac:(lia)). assert (A1 := Hy (S k) ltac:(lia)).
  set (s := (v - x k) / (x (S k) - x k)).
  assert (E : forall z : nat -> R, z k + (z (S k) - z k) / (x (S k) - x k) * (v - x k) = (1 - s) * z k + s * z (S k)) by (intros z; unfold s; field; lra).
  rewrite !E. assert (0 <= s <= 1).
  { unfold s. split; [apply Rmult_le_pos; [lra|left; apply Rinv_0_lt_compat; lra]|]. apply (Rmult_le_reg_r (x (S k) - x k)); [lra|]. replace ((v - x k) / (x (S k) - x k) * (x (S k) - x k)) with (v - x k) by (field; lra). lra. }
  nra.
Qed.

(** * Order statistics *)
Lemma plain_unique l m : Permutation l m -> nondecr_list l -> nondecr_list m -> l = m.
Proof.
  intros HP H1 H2. assert (F : forall x : list R, map fst (map (fun v => (v, 0)) x) = x) by (intros x; rewrite map_map, map_id; reflexivity).
  rewrite <- (F l), <- (F m). f_equal. apply fair_unique.
  - apply Permutation_map, HP.
  - unfold sorted_fst. rewrite F. exact H1.
  - unfold sorted_fst. rewrite F. exact H2.
  - intros p q Hp Hq E. apply in_map_iff in Hp, Hq. destruct Hp as (x & <- & _), Hq as (y & <- & _). cbn in E. rewrite E. reflexivity.
Qed.
Lemma Forall2_length {A B} (P : A -> B -> Prop) l l' : Forall2 P l l' -> length l = length l'.
Proof. induction 1; cbn; congruence. Qed.
Definition count_le (v : R) (l : list R) : nat := length (filter (fun x => Rleb x v) l).
Lemma count_perm v l m : Permutation l m -> count_le v l = count_le v m.
Proof.
  unfold count_le. induction 1; cbn [filter]; repeat match goal with |- context [Rleb ?a ?b] => destruct (Rleb a b) end; cbn [length]; congruence.
Qed.
Lemma count_below v l l' : below l l' -> (count_le v l' <= count_le v l)%nat.
Proof.
  unfold count_le. induction 1 as [|x y l l' H _ IH]; [apply le_n|]. cbn [filter]. destruct (Rleb_spec y v), (Rleb_spec x v); cbn [length]; try lia. exfalso. lra.
Qed.
Lemma filter_prefix (p : R -> bool) : forall l k, (k <= length l)%nat -> (forall i, (i < k)%nat -> p (nth i l 0) = true) -> (k <= length (filter p l))%nat.
Proof.
  induction l as [|x l IH]; intros k Hk H; [cbn in *; lia|]. destruct k as [|k]; [lia|]. cbn [filter]. assert (E0 := H O ltac:(lia)). cbn [nth] in E0. rewrite E0. cbn [length]. apply le_n_S, IH; [cbn in Hk; lia|]. intros i Hi. apply (H (S i)). lia.
Qed.
Lemma filter_suffix (p : R -> bool) : forall l k, (k <= length l)%nat -> (forall i, (k <= i < length l)%nat -> p (nth i l 0) = false) -> (length (filter p l) <= k)%nat.
Proof.
  induction l as [|x l IH]; intros k Hk H; [cbn in *; lia|]. destruct k as [|k].
  - cbn [filter]. assert (E := H O ltac:(cbn; lia)). cbn [nth] in E. rewrite E. apply IH; [lia|]. intros i Hi. apply (H (S i)). cbn. lia.
  - cbn [filter length] in *. assert (A : (length (filter p l) <= k)%nat) by (apply IH; [lia|]; intros i Hi; apply (H (S i)); lia). destruct (p x); cbn [length]; lia.
Qed.
Lemma sorted_below l l' s s' : below l l' -> Permutation l s -> Permutation l' s' -> nondecr_list s -> nondecr_list s' -> forall k, (k < length s)%nat -> nth k s 0 <= nth k s' 0.
Proof.
  intros HB HP HP' Hs Hs' k Hk. destruct (Rle_or_lt (nth k s 0) (nth k s' 0)) as [L|L]; [exact L|exfalso].
  assert (Ll : length s' = length s) by (rewrite <- (Permutation_length HP), <- (Permutation_length HP'); symmetry; apply (Forall2_length _ _ _ HB)).
  set (v := nth k s' 0) in *.
  assert (A : (S k <= count_le v s')%nat). { apply filter_prefix; [lia|]. intros i Hi. apply Rleb_true. apply Hs'; lia. }
  assert (B : (count_le v s <= k)%nat). { apply filter_suffix; [lia|]. intros i Hi. destruct (Rleb_spec (nth i s 0) v) as [C|C]; [|reflexivity]. exfalso. assert (X := Hs k i ltac:(lia) ltac:(lia)). lra. }
  assert (C := count_below v l l' HB). rewrite (count_perm v l s HP), (count_perm v l' s' HP') in C. lia.
Qed.
Lemma sort_nondecr l : nondecr_list (np_sort l).
Proof. apply chain_nondecr, chain_sort. Qed.
Lemma sort_below l l' : below l l' -> forall k, (k < length l)%nat -> nth k (np_sort l) 0 <= nth k (np_sort l') 0.
Proof. intros H k Hk. apply (sorted_below l l'); try apply sort_perm; try apply sort_nondecr; [exact H|]. rewrite np_sort_length. exact Hk. Qed.

(** * Other units *)
Lemma nondecr_rescaled a b l : 0 < a -> nondecr_list l -> nondecr_list (map (rescaled a b) l).
Proof. intros Ha H i j Hij Hj. rewrite map_length in Hj. rewrite !(nth_map _ _ _ _ 0) by lia. unfold rescaled. assert (X := H i j Hij Hj). nra. Qed.
Lemma sort_rescaled a b l : 0 < a -> np_sort (map (rescaled a b) l) = map (rescaled a b) (np_sort l).
Proof.
  intros Ha. apply plain_unique; [|apply sort_nondecr|apply nondecr_rescaled; [exact Ha|apply sort_nondecr]].
  eapply Permutation_trans; [apply Permutation_sym, sort_perm|]. apply Permutation_map, sort_perm.
Qed.
Definition resc (a b : R) (l : list (R * R)) : list (R * R) := map (fun xw => (rescaled a b (fst xw), snd xw)) l.
Lemma resc_fst a b l : map fst (resc a b l) = map (rescaled a b) (map fst l).
Proof. unfold resc. rewrite !map_map. reflexivity. Qed.
Lemma resc_snd a b l : map snd (resc a b l) = map snd l.
Proof. unfold resc. rewrite map_map. reflexivity. Qed.
Lemma rescaled_inj a b x y : 0 < a -> rescaled a b x = rescaled a b y -> x = y.
Proof. unfold rescaled. intros Ha E. apply (Rmult_eq_reg_l a); lra. Qed.
Lemma sorter_resc sorter sorter' a b values ws : sorts sorter -> sorts sorter' -> 0 < a -> fair values ws ->
  sorter' (combine (map (rescaled a b) values) ws) = resc a b (sorter (combine values ws)).
Proof.
  intros Hs Hs' Ha Hd. destruct (Hs (combine values ws)) as [P1 S1]. destruct (Hs' (combine (map (rescaled a b) values) ws)) as [P2 S2].
  assert (EC : combine (map (rescaled a b) values) ws = resc a b (combine values ws)) by (rewrite combine_map_l; reflexivity).
  apply fair_unique; [|exact S2| |].
  - eapply Permutation_trans; [apply Permutation_sym, P2|]. rewrite EC. apply Permutation_map, P1.
  - unfold sorted_fst. rewrite resc_fst. apply nondecr_rescaled; assumption.
  - intros p q Hp Hq E. apply (Permutation_in _ (Permutation_sym P2)) in Hp, Hq. rewrite EC in Hp, Hq. apply in_map_iff in Hp, Hq. destruct Hp as (p' & <- & Hp), Hq as (q' & <- & Hq). cbn [fst] in E.
    apply rescaled_inj in E; [|exact Ha]. rewrite (Hd p' q' Hp Hq E). reflexivity.
Qed.
Lemma quantile_resc a b l p : l <> [] -> quantile_sorted (resc a b l) p = rescaled a b (quantile_sorted l p).
Proof.
  intros Hne. unfold quantile_sorted. assert (EW : wquantiles (resc a b l) = wquantiles l) by (unfold wquantiles; rewrite resc_snd; reflexivity).
  assert (EL : length (resc a b l) = length l) by apply map_length. rewrite EW, EL, resc_fst. apply np_interp_affine. intros i Hi. apply vget_map. rewrite map_length. destruct l; [contradiction|cbn in *; lia].
Qed.
Theorem quantiles_units sorter sorter' a b values ws ps : sorts sorter -> sorts sorter' -> 0 < a -> values <> [] -> length ws = length values -> fair values ws -> fractions ps ->
  exists qs, quantiles sorter values (Some ps) (Some ws) false = Ok qs /\ quantiles sorter' (map (rescaled a b) values) (Some ps) (Some ws) false = Ok (map (rescaled a b) qs).
Proof.
  intros Hs Hs' Ha Hne Hl Hd Hf. rewrite quantiles_run by assumption. eexists. split; [reflexivity|].
  rewrite quantiles_run; [|intros E; apply map_eq_nil in E; contradiction|rewrite map_length; exact Hl|exact Hf].
  rewrite (sorter_resc sorter sorter' a b values ws Hs Hs' Ha Hd), map_map. f_equal. apply map_ext. intros p. apply quantile_resc.
  intros E. destruct (Hs (combine values ws)) as [P1 _]. rewrite E in P1. apply Permutation_sym, Permutation_nil in P1. destruct values; [contradiction|]. destruct ws; [discriminate|discriminate].
Qed.
Lemma conf_resc a b (x y : list R) q : y <> [] -> conf_at (x, map (rescaled a b) y) q = rescaled a b (conf_at (x, y) q).
Proof.
  intros Hne. unfold conf_at. cbn [fst snd]. rewrite map_length. apply np_interp_affine. intros i Hi. apply vget_map. destruct y; [contradiction|cbn in *; lia].
Qed.
Theorem bands_units sorter sorter' a b data weights qs med bands : sorts sorter -> sorts sorter' -> 0 < a -> nice data weights -> fair data (the_weights data weights) ->
  confidence sorter data weights qs = Ok (med, bands) -> confidence sorter' (map (rescaled a b) data) weights qs = Ok (rescaled a b med, map (band_resc a b) bands).
Proof.
  intros Hs Hs' Ha (Hne & Hl & Hp) Hd. unfold confidence.
  assert (ET : exists x y, conf_table sorter data weights = Ok (x, y) /\ conf_table sorter' (map (rescaled a b) data) weights = Ok (x, map (rescaled a b) y) /\ y <> []).
  { destruct weights as [w|]; cbn [conf_table the_weights] in *.
    - rewrite map_length, Hl, Nat.ltb_irrefl, (sorter_resc sorter sorter' a b data w Hs Hs' Ha Hd), resc_snd, resc_fst. eexists. eexists. split; [reflexivity|]. split; [reflexivity|].
      destruct (sorter_facts sorter data w Hs Hne Hl Hp) as (H1 & _). intros E. apply map_eq_nil in E. contradiction.
    - rewrite sort_rescaled by exact Ha. rewrite map_length. eexists. eexists. split; [reflexivity|]. split; [reflexivity|]. intros E. assert (X := sort_perm data). rewrite E in X. apply Permutation_sym, Permutation_nil in X. contradiction. }
  destruct ET as (x & y & -> & -> & Hy). cbn [bind]. destruct data as [|d0 data]; [contradiction|]. cbn [map]. intros E. injection E as <- <-. rewrite !conf_resc by exact Hy. f_equal. f_equal.
  rewrite map_map. apply map_ext. intros q. unfold band_resc. cbn [fst snd]. rewrite !conf_resc by exact Hy. reflexivity.
Qed.

(** * Perturbed data *)
Lemma equal_quantile sorter values p : sorts sorter -> quantile_sorted (sorter (combine values (map (fun _ => 1) values))) p = quantile_sorted (map (fun x => (x, 1)) (np_sort values)) p.
Proof.
  intros Hs. assert (E : sorter (combine values (map (fun _ => 1) values)) = map (fun x => (x, 1)) (np_sort values)); [|rewrite E; reflexivity].
  destruct (Hs (combine values (map (fun _ => 1) values))) as [P1 S1]. rewrite combine_ones in *. apply fair_unique; [|exact S1| |].
  - eapply Permutation_trans; [apply Permutation_sym, P1|]. apply Permutation_map, sort_perm.
  - unfold sorted_fst. rewrite map_map, map_id. apply sort_nondecr.
  - intros p' q' Hp Hq E. apply (Permutation_in _ (Permutation_sym P1)) in Hp, Hq. apply in_map_iff in Hp, Hq. destruct Hp as (x & <- & _), Hq as (y & <- & _). cbn in E. rewrite E. reflexivity.
Qed.
Lemma quantile_dom s s' p : length s = length s' -> s <> [] -> (forall k, (k < length s)%nat -> nth k s 0 <= nth k s' 0) ->
  quantile_sorted (map (fun x => (x, 1)) s) p <= quantile_sorted (map (fun x => (x, 1)) s') p.
Proof.
  intros Hl Hne H. unfold quantile_sorted. assert (EW : wquantiles (map (fun x => (x, 1)) s') = wquantiles (map (fun x => (x, 1)) s)).
  { unfold wquantiles. rewrite !map_map. assert (X : forall u : list R, map (fun x => snd (x, 1)) u = repeat 1 (length u)) by (induction u as [|z u IH]; [reflexivity|]; cbn in *; rewrite IH; reflexivity). rewrite !X, Hl. reflexivity. }
  assert (I := wquantiles_incr (map (fun x => (x, 1)) s) ltac:(intros E; apply map_eq_nil in E; contradiction) ltac:(intros w Hw; rewrite map_map in Hw; apply in_map_iff in Hw; destruct Hw as (z & <- & _); cbn; lra)).
  rewrite EW. rewrite !map_length in *. rewrite <- Hl. apply np_interp_dom; [exact I|]. intros i Hi. rewrite !map_map. cbn [fst]. rewrite !map_id. apply H. destruct s; [contradiction|cbn in *; lia].
Qed.
Lemma below_length l l' : below l l' -> length l = length l'.
Proof. apply Forall2_length. Qed.
Lemma below_ne l l' : below l l' -> l <> [] -> l' <> [].
Proof. intros H Hne E. apply below_length in H. rewrite E in H. destruct l; [contradiction|discriminate]. Qed.
Lemma sort_ne l : l <> [] -> np_sort l <> [].
Proof. intros H E. assert (X := sort_perm l). rewrite E in X. apply Permutation_sym, Permutation_nil in X. contradiction. Qed.
Lemma none_run sorter values ps : sorts sorter -> values <> [] -> fractions ps -> quantiles sorter values (Some ps) None false = Ok (map (quantile_sorted (map (fun x => (x, 1)) (np_sort values))) ps).
Proof.
  intros Hs Hne Hf. transitivity (quantiles sorter values (Some ps) (Some (map (fun _ => 1) values)) false); [reflexivity|]. rewrite quantiles_run; [|assumption|apply map_length|assumption].
  f_equal. apply map_ext. intros p. apply equal_quantile, Hs.
Qed.
Lemma forall2_map {A} (P : R -> R -> Prop) (f g : A -> R) l : (forall x, P (f x) (g x)) -> Forall2 P (map f l) (map g l).
Proof. intros H. induction l as [|x l IH]; cbn; constructor; auto. Qed.
Theorem quantiles_monotone sorter sorter' values values' ps : sorts sorter -> sorts sorter' -> values <> [] -> below values values' -> fractions ps ->
  exists qs qs', quantiles sorter values (Some ps) None false = Ok qs /\ quantiles sorter' values' (Some ps) None false = Ok qs' /\ below qs qs'.
Proof.
  intros Hs Hs' Hne HB Hf. rewrite (none_run sorter values ps Hs Hne Hf), (none_run sorter' values' ps Hs' (below_ne _ _ HB Hne) Hf). eexists. eexists. split; [reflexivity|]. split; [reflexivity|].
  apply forall2_map. intros p. apply quantile_dom; [rewrite !np_sort_length; apply below_length, HB|apply sort_ne, Hne|]. intros k Hk. rewrite np_sort_length in Hk. apply sort_below; assumption.
Qed.
Lemma close_below delta l l' : close_by delta l l' -> below l (map (rescaled 1 delta) l') /\ below l' (map (rescaled 1 delta) l).
Proof.
  unfold rescaled. induction 1 as [|x y l l' H _ [I1 I2]]; [split; constructor|]. unfold Rabs in H. split; cbn [map]; constructor; try assumption; destruct (Rcase_abs (x - y)); lra.
Qed.
Lemma map_pair_resc a b s : map (fun x => (x, 1)) (map (rescaled a b) s) = resc a b (map (fun x => (x, 1)) s).
Proof. unfold resc. rewrite !map_map. reflexivity. Qed.
Lemma stable_at delta values values' p : values <> [] -> close_by delta values values' ->
  Rabs (quantile_sorted (map (fun x => (x, 1)) (np_sort values)) p - quantile_sorted (map (fun x => (x, 1)) (np_sort values')) p) <= delta.
Proof.
  assert (ONE : forall u u', u <> [] -> u' <> [] -> below u (map (rescaled 1 delta) u') -> quantile_sorted (map (fun x => (x, 1)) (np_sort u)) p <= quantile_sorted (map (fun x => (x, 1)) (np_sort u')) p + delta).
  { intros u u' Hu Hu' HB. assert (X : quantile_sorted (map (fun x => (x, 1)) (np_sort u)) p <= quantile_sorted (map (fun x => (x, 1)) (np_sort (map (rescaled 1 delta) u'))) p).
    { apply quantile_dom; [rewrite !np_sort_length; apply below_length, HB|apply sort_ne, Hu|]. intros k Hk. rewrite np_sort_length in Hk. apply sort_below; assumption. }
    rewrite sort_rescaled in X by lra. rewrite map_pair_resc, quantile_resc in X by (intros E; apply map_eq_nil in E; apply (sort_ne u' Hu' E)). unfold rescaled in X. lra. }
  intros Hne HC. destruct (close_below _ _ _ HC) as [B1 B2]. assert (Hne' : values' <> []) by (intros ->; inversion HC; subst; contradiction).
  assert (A := ONE values values' Hne Hne' B1). assert (B := ONE values' values Hne' Hne B2). unfold Rabs. destruct (Rcase_abs _); lra.
Qed.
Theorem quantiles_stable sorter sorter' delta values values' ps : sorts sorter -> sorts sorter' -> values <> [] -> close_by delta values values' -> fractions ps ->
  exists qs qs', quantiles sorter values (Some ps) None false = Ok qs /\ quantiles sorter' values' (Some ps) None false = Ok qs' /\ close_by delta qs qs'.
Proof.
  intros Hs Hs' Hne HC Hf. assert (Hne' : values' <> []) by (intros ->; inversion HC; subst; contradiction). rewrite (none_run sorter values ps Hs Hne Hf), (none_run sorter' values' ps Hs' Hne' Hf).
  eexists. eexists. split; [reflexivity|]. split; [reflexivity|]. apply forall2_map. intros p. apply stable_at; assumption.
Qed.

Definition grid01 (n : nat) : list R := map (fun i => INR i / INR (n - 1)) (seq 0 n).
Lemma grid01_incr n : increasing (vget (grid01 n)) (n - 1).
Proof.
  apply step_incr. intros i Hi. unfold grid01. rewrite !vget_map_seq by lia. unfold Rdiv. apply Rmult_lt_compat_r; [apply Rinv_0_lt_compat, lt_0_INR; lia|apply lt_INR; lia].
Qed.
Lemma conf_dom s s' q : length s = length s' -> s <> [] -> (forall k, (k < length s)%nat -> nth k s 0 <= nth k s' 0) -> conf_at (grid01 (length s), s) q <= conf_at (grid01 (length s), s') q.
Proof.
  intros Hl Hne H. unfold conf_at. cbn [fst snd]. rewrite <- Hl. apply np_interp_dom; [apply grid01_incr|]. intros i Hi. apply H. destruct s; [contradiction|cbn in *; lia].
Qed.
Lemma conf_stable_at delta data data' q : data <> [] -> close_by delta data data' ->
  Rabs (conf_at (grid01 (length (np_sort data)), np_sort data) q - conf_at (grid01 (length (np_sort data')), np_sort data') q) <= delta.
Proof.
  intros Hne HC. assert (Hne' : data' <> []) by (intros ->; inversion HC; subst; contradiction). assert (LL : length data = length data') by (apply Forall2_length in HC; exact HC).
  assert (ONE : forall u u', u <> [] -> u' <> [] -> below u (map (rescaled 1 delta) u') -> conf_at (grid01 (length (np_sort u)), np_sort u) q <= conf_at (grid01 (length (np_sort u')), np_sort u') q + delta).
  { intros u u' Hu Hu' HB. assert (Eu : length u = length u') by (apply below_length in HB; rewrite map_length in HB; exact HB).
    assert (X : conf_at (grid01 (length (np_sort u)), np_sort u) q <= conf_at (grid01 (length (np_sort u)), np_sort (map (rescaled 1 delta) u')) q).
    { apply conf_dom; [rewrite !np_sort_length; apply below_length, HB|apply sort_ne, Hu|]. intros k Hk. rewrite np_sort_length in Hk. apply sort_below; assumption. }
    rewrite sort_rescaled in X by lra. rewrite conf_resc in X by (apply sort_ne, Hu'). replace (length (np_sort u')) with (length (np_sort u)) by (rewrite !np_sort_length; exact Eu). unfold rescaled in X. lra. }
  destruct (close_below _ _ _ HC) as [B1 B2]. assert (A := ONE data data' Hne Hne' B1). assert (B := ONE data' data Hne' Hne B2). unfold Rabs. destruct (Rcase_abs _); lra.
Qed.
Theorem bands_stable sorter sorter' delta data data' qs : data <> [] -> close_by delta data data' ->
  exists med bands med' bands', confidence sorter data None qs = Ok (med, bands) /\ confidence sorter' data' None qs = Ok (med', bands')
  /\ Rabs (med - med') <= delta /\ close_by delta (map fst bands) (map fst bands') /\ close_by delta (map snd bands) (map snd bands').
Proof.
  intros Hne HC. assert (Hne' : data' <> []) by (intros ->; inversion HC; subst; contradiction). unfold confidence. cbn [conf_table]. cbn [bind].
  fold (grid01 (length (np_sort data))). fold (grid01 (length (np_sort data'))).
  destruct data as [|x0 data]; [contradiction|]. destruct data' as [|x0' data']; [contradiction|]. eexists. eexists. eexists. eexists. split; [reflexivity|]. split; [reflexivity|].
  split; [apply conf_stable_at; assumption|]. rewrite !map_map. cbn [fst snd]. split; apply forall2_map; intros q; apply conf_stable_at; assumption.
Qed.

(** * With weights *)
Lemma incr2 (x : nat -> R) : x 0%nat < x 1%nat -> x 1%nat < x 2%nat -> increasing x 2.
Proof. intros A B. apply step_incr. intros i Hi. destruct i as [|[|i]]; [exact A|exact B|lia]. Qed.
Lemma three_at (a b c u v w p : R) : 0 < u -> 0 < v -> 0 < w -> (u + v / 2) / (u + v + w) <= p <= (u + v + w / 2) / (u + v + w) ->
  quantile_sorted [(a, u); (b, v); (c, w)] p = b + (c - b) * ((p * (u + v + w) - (u + v / 2)) / ((v + w) / 2)).
Proof.
  intros Hu Hv Hw Hp. unfold quantile_sorted. cbn [length Nat.sub].
  assert (W : forall i, (i < 3)%nat -> vget (wquantiles [(a, u); (b, v); (c, w)]) i = (rsum i (vget [u; v; w]) + vget [u; v; w] i / 2) / (u + v + w)).
  { intros i Hi. rewrite wquantiles_nth by exact Hi. cbn [map snd]. replace (lsum [u; v; w]) with (u + v + w) by (unfold lsum; cbn; ring). reflexivity. }
  assert (T : 0 < u + v + w) by lra. assert (IT := Rinv_0_lt_compat _ T).
  assert (W0 := W 0%nat ltac:(lia)). assert (W1 := W 1%nat ltac:(lia)). assert (W2 := W 2%nat ltac:(lia)). unfold vget in W0, W1, W2. cbn [rsum nth] in W0, W1, W2.
  replace (0 + u + v / 2) with (u + v / 2) in W1 by ring. replace (0 + u + v + w / 2) with (u + v + w / 2) in W2 by ring.
  rewrite (np_interp_in _ _ 2 p 1).
  - unfold vget. rewrite W1, W2. cbn [map fst nth]. field. lra.
  - apply incr2; unfold vget; rewrite ?W0, ?W1, ?W2; unfold Rdiv; apply Rmult_lt_compat_r; lra.
  - lia.
  - unfold vget. rewrite W1, W2. exact Hp.
Qed.
Lemma sorter_is sorter l s : sorts sorter -> Permutation l s -> sorted_fst s -> NoDup (map fst s) -> sorter l = s.
Proof.
  intros Hs HP HS HN. destruct (Hs l) as [P1 S1]. assert (PP : Permutation (sorter l) s) by (eapply Permutation_trans; [apply Permutation_sym, P1|exact HP]). apply fair_unique; [exact PP|exact S1|exact HS|].
  intros p q Hp Hq E. apply (Permutation_in _ PP) in Hp, Hq. apply (In_nth _ _ (0, 0)) in Hp, Hq. destruct Hp as (i & Hi & <-), Hq as (j & Hj & <-).
  rewrite <- !(map_nth fst) in E. cbn [fst] in E. rewrite (proj1 (NoDup_nth (map fst s) 0) HN i j) by (rewrite ?map_length; assumption). reflexivity.
Qed.
Theorem weighted_unstable : forall eps, 0 < eps < 1 / 4 -> exists values values' ws p, length ws = length values /\ all_pos ws /\ 0 <= p <= 1 /\ close_by eps values values'
  /\ forall sorter, sorts sorter -> exists q q', quantiles sorter values (Some [p]) (Some ws) false = Ok [q] /\ quantiles sorter values' (Some [p]) (Some ws) false = Ok [q'] /\ 1 / 2 < q - q'.
Proof.
  intros eps He. exists [0; eps; 1], [eps; 0; 1], [1; 8; 1], (17 / 20). split; [reflexivity|]. split; [intros w [<-|[<-|[<-|[]]]]; lra|]. split; [lra|]. split.
  { constructor; [|constructor; [|constructor; [|constructor]]]; unfold Rabs; destruct (Rcase_abs _); lra. }
  intros sorter Hs. rewrite !quantiles_run by (try discriminate; try reflexivity; intros p [<-|[]]; lra). cbn [map combine]. eexists. eexists. split; [reflexivity|]. split; [reflexivity|].
  assert (N3 : forall a b c : R, a < b -> b < c -> nondecr_list [a; b; c]). { intros a b c A B i j Hij Hj. cbn in Hj. destruct i as [|[|[|i]]], j as [|[|[|j]]]; cbn; try lia; try lra. }
  assert (D3 : forall a b c : R, a < b -> b < c -> NoDup [a; b; c]). { intros a b c A B. constructor; [cbn; intros [X|[X|[]]]; lra|]. constructor; [cbn; intros [X|[]]; lra|]. constructor; [intros []|constructor]. }
  rewrite (sorter_is sorter [(0, 1); (eps, 8); (1, 1)] [(0, 1); (eps, 8); (1, 1)] Hs); [|apply Permutation_refl|apply (N3 0 eps 1); lra|apply (D3 0 eps 1); lra].
  rewrite (sorter_is sorter [(eps, 1); (0, 8); (1, 1)] [(0, 8); (eps, 1); (1, 1)] Hs); [|apply perm_swap|apply (N3 0 eps 1); lra|apply (D3 0 eps 1); lra].
  rewrite !three_at by lra. nra.
Qed.
Theorem repeats_differ : exists values ws p, length ws = length values /\ (forall w, In w ws -> exists k : nat, (0 < k)%nat /\ w = INR k) /\ 0 <= p <= 1
  /\ forall sorter, sorts sorter -> exists q q', quantiles sorter values (Some [p]) (Some ws) false = Ok [q]
     /\ quantiles sorter (flat_map (fun vk => repeat (fst vk) (snd vk)) (combine values [1%nat; 1%nat; 2%nat])) (Some [p]) None false = Ok [q'] /\ ws = map INR [1%nat; 1%nat; 2%nat] /\ q <> q'.
Proof.
  exists [0; 1; 2], (map INR [1%nat; 1%nat; 2%nat]), (5 / 8). split; [reflexivity|]. split; [intros w Hw; apply in_map_iff in Hw; destruct Hw as (k & <- & Hk); exists k; split; [|reflexivity]; cbn in Hk; lia|]. split; [lra|].
  intros sorter Hs. cbn [combine flat_map fst snd repeat app]. rewrite quantiles_run by (try discriminate; try reflexivity; intros p [<-|[]]; lra).
  rewrite none_run by (try assumption; try discriminate; intros p [<-|[]]; lra). eexists. eexists. split; [reflexivity|]. split; [reflexivity|]. split; [reflexivity|].
  cbn [map combine]. rewrite (sorter_is sorter _ [(0, INR 1); (1, INR 1); (2, INR 2)] Hs).
  2: apply Permutation_refl.
  2: { intros i j Hij Hj. cbn in Hj. destruct i as [|[|[|i]]], j as [|[|[|j]]]; cbn; try lia; try lra. }
  2: { cbn [map fst]. constructor; [cbn; intros [X|[X|[]]]; lra|]. constructor; [cbn; intros [X|[]]; lra|]. constructor; [intros []|constructor]. }
  rewrite three_at by (cbn; lra).
  assert (ES : np_sort [0; 1; 2; 2] = [0; 1; 2; 2]).
  { apply plain_unique; [apply Permutation_sym, sort_perm|apply sort_nondecr|]. intros i j Hij Hj. cbn in Hj. destruct i as [|[|[|[|i]]]], j as [|[|[|[|j]]]]; cbn; try lia; try lra. }
  rewrite ES. cbn [map].
  assert (EQ : quantile_sorted [(0, 1); (1, 1); (2, 1); (2, 1)] (5 / 8) = 2).
  { assert (W : vget (wquantiles [(0, 1); (1, 1); (2, 1); (2, 1)]) 2 = 5 / 8) by (rewrite wquantiles_nth by (cbn; lia); unfold vget, lsum; cbn; lra).
    unfold quantile_sorted. rewrite <- W. rewrite np_interp_knot; [reflexivity| |cbn; lia]. apply wquantiles_incr; [discriminate|]. intros w Hw. cbn in Hw. destruct Hw as [<-|[<-|[<-|[<-|[]]]]]; lra. }
  rewrite EQ. cbn. lra.
Qed.
